(** Pointings of BST files, transits and drift scans (C94, C95). *)
From Coq Require Import ZArith QArith Qround Qfield Lqa Bool List Arith Lia Sorting.Sorted.
From Verif Require Import Base M_Analog P_Analog2 M_Pointing P_Pointing P_Pointing2.
Import ListNotations.
Open Scope nat_scope.
Open Scope list_scope.

(** * BST files *)
Theorem bst_few : forall C (zen : Q -> C) up radec m last_time recs, StronglySorted Qlt (map fst recs) -> 2 <= length recs <= m ->
  exists p, from_bst radec m last_time recs = Ok p /\
  (forall k s h s' h' t, nth_error recs k = Some (s, h) -> nth_error recs (S k) = Some (s', h') -> (s <= t)%Q -> (t < s')%Q -> at_time zen up p t = Ok (radec s h, Some h)) /\
  (forall t, (forall s h, nth_error recs 0 = Some (s, h) -> (t < s)%Q) \/ (forall s h, nth_error recs (length recs - 1) = Some (s, h) -> (s <= t)%Q) ->
     at_time zen up p t = Ok (zen t, Some up)).
Proof.
  intros C zen up radec m last_time recs So L. exists (until_last radec recs). split; [|split].
  - unfold from_bst. destruct recs as [|[t h] [|x r]]; [cbn in L; lia|cbn in L; lia|].
    replace (m <? length ((t, h) :: x :: r)) with false by (symmetry; apply Nat.ltb_ge; lia). cbn [bind]. apply until_last_new.
  - intros. eapply until_last_read; eassumption.
  - intros. apply until_last_outside; assumption.
Qed.
Theorem bst_one : forall C (zen : Q -> C) up radec m last_time s h, (s < last_time)%Q ->
  exists p, from_bst radec m last_time [(s, h)] = Ok p /\
  (forall t, (s <= t)%Q -> (t < last_time)%Q -> at_time zen up p t = Ok (radec s h, Some h)) /\
  (forall t, (t < s)%Q \/ (last_time <= t)%Q -> at_time zen up p t = Ok (zen t, Some up)).
Proof.
  intros C zen up radec m last_time s h L. exists (until_last radec [(s, h); (last_time, (0%Q, 90%Q))]). split; [|split].
  - unfold from_bst. cbn [bind]. apply until_last_new.
  - intros t A B. apply (until_last_read C (Q * Q) zen up radec _ 0 s h last_time (0%Q, 90%Q) t); try reflexivity; try assumption. repeat constructor. exact L.
  - intros t O. apply until_last_outside; [repeat constructor; exact L|]. destruct O as [O|O]; [left|right]; intros x y E; cbn in E; injection E as <- _; exact O.
Qed.

(** Evenly spaced times from the first to the last. *)
Definition even_time (a b : Q) (m i : nat) : Q := (a + inject_Z (Z.of_nat i) * ((b - a) / inject_Z (Z.of_nat (m - 1))))%Q.
Lemma even_ends : forall a b m, 2 <= m -> (even_time a b m 0 == a)%Q /\ (even_time a b m (m - 1) == b)%Q.
Proof.
  intros a b m L. unfold even_time. split.
  - change (inject_Z (Z.of_nat 0)) with 0%Q. ring.
  - field. intro E. unfold Qeq in E. cbn in E. lia.
Qed.
Lemma even_increasing : forall a b m i j, 2 <= m -> (a < b)%Q -> i < j -> (even_time a b m i < even_time a b m j)%Q.
Proof.
  intros a b m i j L Lt Ij. unfold even_time. apply Qplus_lt_r. apply Qmult_lt_compat_r.
  - apply Qlt_shift_div_l; [|lra]. unfold Qlt. cbn. lia.
  - rewrite <- Zlt_Qlt. lia.
Qed.
Lemma mapr_ok : forall A B (f : A -> res B) l m, mapr f l = Ok m <-> Forall2 (fun x y => f x = Ok y) l m.
Proof.
  intros A B f. induction l as [|x l IH]; intro m; cbn.
  - split; [intro E; injection E as <-; constructor|intro F; inversion F; reflexivity].
  - destruct (f x) as [y|e] eqn:E; cbn.
    + destruct (mapr f l) as [r|e'] eqn:E'; cbn.
      * split; [intro K; injection K as <-; constructor; [exact E|apply IH; reflexivity]|]. intro F. inversion F as [|? ? ? ? Fx Fr]; subst. apply IH in Fr. congruence.
      * split; [discriminate|]. intro F. inversion F as [|? ? ? ? Fx Fr]; subst. apply IH in Fr. congruence.
    + split; [discriminate|]. intro F. inversion F; subst. congruence.
Qed.
Lemma mapr_total : forall A B (f : A -> res B) l, (forall x, exists y, f x = Ok y) -> exists m, mapr f l = Ok m.
Proof.
  intros A B f l T. induction l as [|x l [m IH]]; [exists []; reflexivity|]. destruct (T x) as [y E]. exists (y :: m). cbn. rewrite E. cbn. rewrite IH. reflexivity.
Qed.
Lemma forall2_nth : forall A B (R : A -> B -> Prop) l m i x, Forall2 R l m -> nth_error l i = Some x -> exists y, nth_error m i = Some y /\ R x y.
Proof.
  intros A B R l m i x F. revert i. induction F as [|a b l m Rab F IH]; intros [|i] E; try discriminate; cbn in *; [injection E as <-; eauto|apply IH; exact E].
Qed.
Lemma interp_total : forall x a l, exists v, interp x (a :: l) = Ok v.
Proof. intros x [a b] l. cbn. destruct (Qle_bool x a); eauto. Qed.
(** Too many records: interpolation at evenly spaced times. *)
Theorem bst_many : forall C (zen : Q -> C) up radec m last_time s0 h0 recs sn hn, 2 <= m -> m < length ((s0, h0) :: recs) ->
  last ((s0, h0) :: recs) (s0, h0) = (sn, hn) -> (s0 < sn)%Q ->
  let az := map (fun r => (fst r, fst (snd r))) ((s0, h0) :: recs) in
  let el := map (fun r => (fst r, snd (snd r))) ((s0, h0) :: recs) in
  exists p, from_bst radec m last_time ((s0, h0) :: recs) = Ok p /\
  (forall i t, S i < m -> (even_time s0 sn m i <= t)%Q -> (t < even_time s0 sn m (S i))%Q -> exists a e,
     interp (even_time s0 sn m i) az = Ok a /\ interp (even_time s0 sn m i) el = Ok e /\
     at_time zen up p t = Ok (radec (even_time s0 sn m i) (a, e), Some (a, e))) /\
  (forall t, (t < s0)%Q \/ (sn <= t)%Q -> at_time zen up p t = Ok (zen t, Some up)).
Proof.
  intros C zen up radec m last_time s0 h0 recs sn hn L Lm El Lt az el.
  assert (Cb : forall (f : Q * Q -> Q) l, combine (map fst l) (map (fun r : Q * (Q * Q) => f (snd r)) l) = map (fun r => (fst r, f (snd r))) l).
  { intros f. induction l as [|x l IH]; [reflexivity|]. cbn. rewrite IH. reflexivity. }
  assert (Hl : last (map fst ((s0, h0) :: recs)) 0%Q = sn).
  { clear - El. assert (G : forall (l : list (Q * (Q * Q))) d d', l <> [] -> last (map fst l) d = fst (last l d')).
    { induction l as [|x [|y l] IH]; intros d d' N; [congruence|reflexivity|]. change (last (map fst (x :: y :: l)) d) with (last (map fst (y :: l)) d).
      change (last (x :: y :: l) d') with (last (y :: l) d'). apply IH. discriminate. }
    rewrite (G _ 0%Q (s0, h0)) by discriminate. rewrite El. reflexivity. }
  set (grid := map (even_time s0 sn m) (seq 0 m)).
  destruct (mapr_total _ _ (fun t => interp t az) grid) as [As EA]; [intro x; apply interp_total|].
  destruct (mapr_total _ _ (fun t => interp t el) grid) as [Es EE]; [intro x; apply interp_total|].
  set (l := combine grid (combine As Es)).
  assert (E : from_bst radec m last_time ((s0, h0) :: recs) = Ok (until_last radec l)).
  { unfold from_bst. destruct recs as [|x r]; [cbn in Lm; lia|].
    replace (m <? length ((s0, h0) :: x :: r)) with true by (symmetry; apply Nat.ltb_lt; exact Lm).
    rewrite Hl. change (hd 0%Q (map fst ((s0, h0) :: x :: r))) with s0. change (linspace s0 sn m) with grid.
    rewrite (Cb (@fst Q Q)), (Cb (@snd Q Q)). fold az el. rewrite EA. cbn [bind]. rewrite EE. cbn [bind]. apply until_last_new. }
  apply mapr_ok in EA, EE.
  assert (Lg : length grid = m) by (unfold grid; rewrite map_length, seq_length; reflexivity).
  assert (LA : length As = m) by (clear - EA Lg; rewrite <- Lg; clear Lg; induction EA; cbn; congruence).
  assert (LE : length Es = m) by (clear - EE Lg; rewrite <- Lg; clear Lg; induction EE; cbn; congruence).
  assert (Fl : map fst l = grid).
  { unfold l. clear - Lg LA LE. assert (G : forall (g : list Q) (c : list (Q * Q)), length g = length c -> map fst (combine g c) = g).
    { induction g as [|x g IH]; intros [|y c] E; try discriminate; [reflexivity|]. cbn. f_equal. apply IH. injection E. auto. }
    apply G. rewrite combine_length. lia. }
  assert (Gn : forall i, i < m -> nth_error grid i = Some (even_time s0 sn m i)).
  { intros i Hi. unfold grid. rewrite nth_error_map. rewrite (nth_error_nth' _ 0) by (rewrite seq_length; exact Hi). rewrite seq_nth by exact Hi. reflexivity. }
  assert (Ln : forall i, i < m -> exists a e, interp (even_time s0 sn m i) az = Ok a /\ interp (even_time s0 sn m i) el = Ok e /\ nth_error l i = Some (even_time s0 sn m i, (a, e))).
  { intros i Hi. destruct (forall2_nth _ _ _ _ _ i _ EA (Gn i Hi)) as [a [Na Ia]]. destruct (forall2_nth _ _ _ _ _ i _ EE (Gn i Hi)) as [e [Ne Ie]].
    exists a, e. split; [exact Ia|]. split; [exact Ie|]. unfold l. rewrite !nth_combine, Gn, Na, Ne by exact Hi. reflexivity. }
  assert (So : StronglySorted Qlt (map fst l)).
  { rewrite Fl. unfold grid. assert (G : forall n k, StronglySorted Qlt (map (even_time s0 sn m) (seq k n))).
    { induction n as [|n IH]; intro k; cbn; constructor; [apply IH|]. apply Forall_forall. intros y I. apply in_map_iff in I. destruct I as [j [<- I]]. apply in_seq in I.
      apply even_increasing; [exact L|exact Lt|lia]. }
    apply G. }
  assert (Ll : length l = m) by (rewrite <- (map_length fst l), Fl; exact Lg).
  exists (until_last radec l). split; [exact E|]. destruct (even_ends s0 sn m L) as [B0 B1]. split.
  - intros i t Hi A B. destruct (Ln i ltac:(lia)) as (a & e & Ia & Ie & Ni). destruct (Ln (S i) Hi) as (a' & e' & _ & _ & Ni').
    exists a, e. split; [exact Ia|]. split; [exact Ie|]. exact (until_last_read C (Q * Q) zen up radec l i _ _ _ _ t So Ni Ni' A B).
  - intros t O. apply until_last_outside; [exact So|]. destruct O as [O|O].
    + left. intros s h Hs. destruct (Ln 0 ltac:(lia)) as (a & e & _ & _ & N). rewrite N in Hs. assert (s = even_time s0 sn m 0) by congruence. subst s. rewrite B0. exact O.
    + right. intros s h Hs. rewrite Ll in Hs. destruct (Ln (m - 1) ltac:(lia)) as (a & e & _ & _ & N). rewrite N in Hs. assert (s = even_time s0 sn m (m - 1)) by congruence. subst s. rewrite B1. exact O.
Qed.
(** The azimuth of a source crossing the north goes through the south. *)
Theorem bst_wrap_refuted : exists (recs : list (Q * (Q * Q))) p a e, StronglySorted Qlt (map fst recs) /\
  Forall (fun r => (fst (snd r) <= 5 \/ 355 <= fst (snd r))%Q) recs /\ from_bst (fun _ h => h) 3 0 recs = Ok p /\
  at_time (fun _ => (0, 90)%Q) (0, 90)%Q p (3 # 2)%Q = Ok ((a, e), Some (a, e)) /\ (a == 360 # 2)%Q.
Proof.
  exists [(0, (358, 20)); (1, (359, 20)); (2, (1, 20)); (3, (2, 20))]%Q. eexists. eexists. eexists. split; [repeat constructor|]. split.
  - apply Forall_cons; [right; discriminate|]. apply Forall_cons; [right; discriminate|]. apply Forall_cons; [left; discriminate|]. apply Forall_cons; [left; discriminate|apply Forall_nil].
  - split; [vm_compute; reflexivity|]. split; [vm_compute; reflexivity|]. reflexivity.
Qed.

(** * Transits *)
Lemma steps_odd : forall duration dt, Z.odd (transit_steps duration dt) = true.
Proof.
  intros. unfold transit_steps. destruct (Z.even (Qfloor (duration / dt))) eqn:E.
  - rewrite Z.odd_add. rewrite <- Z.negb_even, E. reflexivity.
  - rewrite <- Z.negb_even, E. reflexivity.
Qed.
Lemma steps_close : forall duration dt, (0 < dt)%Q ->
  (duration - dt < inject_Z (transit_steps duration dt) * dt)%Q /\ (inject_Z (transit_steps duration dt) * dt <= duration + dt)%Q.
Proof.
  intros duration dt P. pose proof (Qfloor_le (duration / dt)) as A. pose proof (Qlt_floor (duration / dt)) as B.
  assert (E : (duration == duration / dt * dt)%Q) by (field; lra).
  assert (T : (inject_Z (Qfloor (duration / dt)) <= inject_Z (transit_steps duration dt))%Q /\ (inject_Z (transit_steps duration dt) <= inject_Z (Qfloor (duration / dt)) + 1)%Q).
  { unfold transit_steps. destruct (Z.even _); [rewrite inject_Z_plus; change (inject_Z 1) with 1%Q; lra|lra]. }
  rewrite inject_Z_plus in B. change (inject_Z 1) with 1%Q in B. set (n := inject_Z (transit_steps duration dt)) in *. set (f := inject_Z (Qfloor (duration / dt))) in *.
  set (r := (duration / dt)%Q) in *. destruct T as [T1 T2]. split.
  - setoid_replace (duration - dt)%Q with ((r - 1) * dt)%Q by (rewrite E at 1; ring). apply Qmult_lt_compat_r; [exact P|]. lra.
  - setoid_replace (duration + dt)%Q with ((r + 1) * dt)%Q by (rewrite E at 1; ring). apply Qmult_le_compat_r; [lra|]. lra.
Qed.
Lemma steps_pos : forall duration dt, (0 < dt)%Q -> (0 <= duration)%Q -> (0 < transit_steps duration dt)%Z.
Proof.
  intros duration dt P D. destruct (steps_close duration dt P) as [A _]. pose proof (steps_odd duration dt) as O.
  assert (X : (-1 < transit_steps duration dt)%Z).
  { destruct (Z.lt_ge_cases (-1) (transit_steps duration dt)) as [L|L]; [exact L|]. exfalso.
    assert (inject_Z (transit_steps duration dt) <= -1)%Q by (change (-1)%Q with (inject_Z (-1)); rewrite <- Zle_Qle; exact L).
    assert (inject_Z (transit_steps duration dt) * dt <= -1 * dt)%Q by (apply Qmult_le_compat_r; lra). lra. }
  destruct (Z.eq_dec (transit_steps duration dt) 0) as [E|N]; [rewrite E in O; discriminate|lia].
Qed.
(** Start of step [i] of [n], around the transit. *)
Definition step_time (transit dt : Q) (n : Z) (i : Z) : Q := (transit + (inject_Z i - inject_Z (n - 1) / 2) * dt)%Q.
(** The middle step starts at the transit, the steps before and after are symmetric and
    follow each other, so the time covered is centred half a step later. *)
Theorem transit_spec : forall C H (zen : Q -> C) (up : H) radec altaz transit others duration dt, (0 < dt)%Q -> (0 <= duration)%Q ->
  exists n p, target_transit radec altaz (transit :: others) duration dt = Ok p /\ length (pt_times p) = Z.to_nat n /\
  (0 < n)%Z /\ Z.odd n = true /\ (duration - dt < inject_Z n * dt)%Q /\ (inject_Z n * dt <= duration + dt)%Q /\
  (forall i, (0 <= i < n)%Z -> nth_error (pt_times p) (Z.to_nat i) = Some (step_time transit dt n i)) /\
  (step_time transit dt n ((n - 1) / 2) == transit)%Q /\
  (forall t, (transit - inject_Z (n - 1) / 2 * dt <= t)%Q -> (t < transit + inject_Z (n + 1) / 2 * dt)%Q ->
     exists i, (0 <= i < n)%Z /\ at_time zen up p t = Ok (radec (step_time transit dt n i) (altaz transit), Some (altaz transit)) /\
       (step_time transit dt n i <= t)%Q /\ (t < step_time transit dt n i + dt)%Q) /\
  (forall t, (t < transit - inject_Z (n - 1) / 2 * dt)%Q \/ (transit + inject_Z (n + 1) / 2 * dt <= t)%Q -> at_time zen up p t = Ok (zen t, Some up)).
Proof.
  intros C H zen up radec altaz transit others duration dt P D. set (n := transit_steps duration dt).
  pose proof (steps_pos duration dt P D) as Pn. fold n in Pn. destruct (steps_close duration dt P) as [C1 C2]. fold n in C1, C2. pose proof (steps_odd duration dt) as O. fold n in O.
  set (times := transit_times transit duration dt).
  set (p := mkPt (Many (map (fun s => radec s (altaz transit)) times)) times [dt] (Some [altaz transit])).
  exists n, p. assert (Lt : length times = Z.to_nat n) by (unfold times, transit_times; rewrite map_length, seq_length; reflexivity).
  assert (Tn : forall i, (0 <= i < n)%Z -> nth_error times (Z.to_nat i) = Some (step_time transit dt n i)).
  { intros i Hi. unfold times, transit_times. fold n. rewrite nth_error_map. rewrite (nth_error_nth' _ 0) by (rewrite seq_length; lia). rewrite seq_nth by lia. cbn [option_map Nat.add].
    unfold step_time. rewrite Z2Nat.id by lia. reflexivity. }
  assert (Half : (inject_Z (n + 1) / 2 == inject_Z (n - 1) / 2 + 1)%Q).
  { unfold Z.sub. rewrite !inject_Z_plus. change (inject_Z 1) with 1%Q. change (inject_Z (-(1))) with (-1)%Q. field. }
  assert (Step : forall i, (step_time transit dt n i + dt == step_time transit dt n (i + 1))%Q).
  { intro i. unfold step_time. rewrite inject_Z_plus. change (inject_Z 1) with 1%Q. ring. }
  assert (Incr : forall i j, (i < j)%Z -> (step_time transit dt n i < step_time transit dt n j)%Q).
  { intros i j Hij. unfold step_time. apply Qplus_lt_r. apply Qmult_lt_compat_r; [exact P|]. assert (inject_Z i < inject_Z j)%Q by (rewrite <- Zlt_Qlt; exact Hij). lra. }
  assert (IncrLe : forall i j, (i <= j)%Z -> (step_time transit dt n i <= step_time transit dt n j)%Q).
  { intros i j Hij. destruct (Z.eq_dec i j) as [->|]; [apply Qle_refl|]. apply Qlt_le_weak, Incr. lia. }
  assert (B0 : (step_time transit dt n 0 == transit - inject_Z (n - 1) / 2 * dt)%Q) by (unfold step_time; change (inject_Z 0) with 0%Q; ring).
  assert (Bn : (step_time transit dt n n == transit + inject_Z (n + 1) / 2 * dt)%Q).
  { unfold step_time. rewrite Half. assert (X : (inject_Z n == 2 * (inject_Z (n - 1) / 2) + 1)%Q).
    { unfold Z.sub. rewrite inject_Z_plus. change (inject_Z (-(1))) with (-1)%Q. field. }
    rewrite X. ring. }
  assert (Dur : forall k, k < length times -> nth_error (durations p) k = Some dt).
  { intros k Hk. unfold durations. cbn [p pt_durs pt_times]. rewrite (nth_error_nth' _ dt) by (rewrite repeat_length; exact Hk). f_equal. apply nth_repeat. }
  assert (Cv : forall t k, covers p t k -> exists i, (0 <= i < n)%Z /\ k = Z.to_nat i /\ (step_time transit dt n i <= t)%Q /\ (t < step_time transit dt n (i + 1))%Q).
  { intros t k (s & d & Hs & Hd & A & B). cbn [p pt_times] in Hs. assert (Hk : k < length times) by (apply nth_error_Some; congruence).
    exists (Z.of_nat k). assert (Hi : (0 <= Z.of_nat k < n)%Z) by lia. split; [exact Hi|]. split; [rewrite Nat2Z.id; reflexivity|].
    pose proof (Tn (Z.of_nat k) Hi) as E. rewrite Nat2Z.id in E. rewrite E in Hs. injection Hs as <-. rewrite Dur in Hd by exact Hk. injection Hd as <-. rewrite <- Step. auto. }
  assert (Sp : sized p).
  { split; [left; reflexivity|]. split; [cbn; apply map_length|left; reflexivity]. }
  split; [reflexivity|]. split; [exact Lt|]. split; [exact Pn|]. split; [exact O|]. split; [exact C1|]. split; [exact C2|]. split; [exact Tn|]. split; [|split].
  - unfold step_time. apply Z.odd_spec in O. destruct O as [k Ek]. rewrite Ek. replace (2 * k + 1 - 1)%Z with (k * 2)%Z by lia. rewrite Z.div_mul by lia. rewrite inject_Z_mult. change (inject_Z 2) with 2%Q. field.
  - intros t A B.
    set (i := Qfloor ((t - step_time transit dt n 0) / dt)).
    assert (Q0 : (0 <= (t - step_time transit dt n 0) / dt)%Q) by (apply Qle_shift_div_l; [exact P|rewrite B0; lra]).
    pose proof (Qfloor_le ((t - step_time transit dt n 0) / dt)) as F1. pose proof (Qlt_floor ((t - step_time transit dt n 0) / dt)) as F2. fold i in F1, F2.
    set (r := ((t - step_time transit dt n 0) / dt)%Q) in *. assert (Er : (t == step_time transit dt n 0 + r * dt)%Q) by (unfold r; field; lra).
    assert (Ei : forall j, (step_time transit dt n j == step_time transit dt n 0 + inject_Z j * dt)%Q) by (intro j; unfold step_time; change (inject_Z 0) with 0%Q; ring).
    assert (I0 : (0 <= i)%Z). { unfold i. change 0%Z with (Qfloor 0). apply Qfloor_resp_le. exact Q0. }
    assert (T1 : (step_time transit dt n i <= t)%Q). { rewrite Ei, Er. apply Qplus_le_r. apply Qmult_le_compat_r; lra. }
    assert (T2 : (t < step_time transit dt n (i + 1))%Q). { rewrite (Ei (i + 1)%Z), Er. apply Qplus_lt_r. apply Qmult_lt_compat_r; lra. }
    assert (In_ : (i < n)%Z). { destruct (Z.lt_ge_cases i n) as [L|L]; [exact L|]. exfalso. apply IncrLe in L. rewrite Bn in L. lra. }
    exists i. split; [lia|]. split; [|split; [exact T1|rewrite Step; exact T2]].
    assert (Sh : shown p t (Some (Z.to_nat i))).
    { split.
      - exists (step_time transit dt n i), dt. split; [apply Tn; lia|]. split; [apply Dur; lia|]. split; [exact T1|]. rewrite Step. exact T2.
      - intros j Hj Cj. destruct (Cv t j Cj) as (i' & Hi' & -> & A' & _). assert (Hlt : (i + 1 <= i')%Z) by lia. apply IncrLe in Hlt. lra. }
    destruct (at_interval C H zen up p t (Z.to_nat i) Sp Sh) as (c & h & X1 & X2 & X3). rewrite X3. cbn in X2. injection X2 as <-.
    unfold coord_at in X1. cbn [p pt_coords] in X1. rewrite nth_error_map, Tn in X1 by lia. cbn in X1. injection X1 as <-. reflexivity.
  - intros t Ou. rewrite at_zenith; [reflexivity|]. intros j Cj. destruct (Cv t j Cj) as (i & Hi & _ & A & B). destruct Ou as [Ou|Ou].
    + rewrite <- B0 in Ou. assert (step_time transit dt n 0 <= step_time transit dt n i)%Q by (apply IncrLe; lia). lra.
    + rewrite <- Bn in Ou. assert (step_time transit dt n (i + 1) <= step_time transit dt n n)%Q by (apply IncrLe; lia). lra.
Qed.
Theorem transit_none : forall C H (radec : Q -> H -> C) altaz duration dt, target_transit radec altaz [] duration dt = Err EValueError.
Proof. reflexivity. Qed.
Theorem transit_centre_refuted : exists p t, target_transit (fun _ (h : nat) => h) (fun _ => 5) [0%Q] 30 10 = Ok p /\
  (Qabs.Qabs t <= 15)%Q /\ at_time (fun _ => 99) 99 p t = Ok (99, Some 99).
Proof. eexists. exists (-(12))%Q. split; [vm_compute; reflexivity|]. split; [discriminate|vm_compute; reflexivity]. Qed.

(** * Durations *)
Theorem no_duration : forall C H (c : coordinates C) times (custom : option (list H)) p, new_pointing c times None custom = Ok p ->
  forall t i, covers p t i <-> exists s, nth_error times i = Some s /\ (s <= t)%Q /\ (t < s + 1)%Q.
Proof.
  intros C H c times custom p E t i. injection E as <-. unfold covers, durations. cbn [pt_times pt_durs]. split.
  - intros (s & d & A & B & D). exists s. split; [exact A|]. apply nth_error_In, repeat_spec in B. subst d. exact D.
  - intros (s & A & D). exists s, 1%Q. split; [exact A|]. split; [|exact D]. rewrite (nth_error_nth' _ 1%Q); [f_equal; apply nth_repeat|]. rewrite repeat_length. apply nth_error_Some. congruence.
Qed.
Theorem wrong_durations : forall C H (c : coordinates C) times d (custom : option (list H)), length d <> 1 -> length d <> length times ->
  new_pointing c times (Some d) custom = Err EIndexError.
Proof. intros C H c times d custom A B. unfold new_pointing. apply Nat.eqb_neq in A, B. rewrite A, B. reflexivity. Qed.
(** A drift scan keeps its azimuth and elevation in its intervals. *)
Theorem driftscan_fixed : forall C H (zen : Q -> C) (up : H) radec times h dur p t x, driftscan radec times h dur = Ok p -> at_time zen up p t = Ok x ->
  (shown p t None /\ x = (zen t, Some up)) \/ (exists i s, shown p t (Some i) /\ nth_error times i = Some s /\ x = (radec s h, Some h)).
Proof.
  intros C H zen up radec times h dur p t x E A.
  assert (Sp : sized p /\ pt_coords p = Many (map (fun t => radec t h) times) /\ pt_custom p = Some (map (fun _ => h) times)).
  { unfold driftscan, new_pointing in E. destruct dur as [d|].
    - destruct (negb (length d =? 1) && negb (length d =? length times)) eqn:B; [discriminate|]. injection E as <-. cbn. split; [|auto].
      split; [|split; [apply map_length|right; apply map_length]]. cbn. apply andb_false_iff in B. rewrite !negb_false_iff, !Nat.eqb_eq in B. exact B.
    - injection E as <-. cbn. split; [|auto]. split; [left; reflexivity|]. split; [apply map_length|right; apply map_length]. }
  destruct Sp as (Sp & Ec & Eh). destruct (shown_exists C H p t (proj1 Sp)) as [[i|] [So _]].
  - right. destruct (at_interval C H zen up p t i Sp So) as (c & h' & X1 & X2 & X3). rewrite A in X3. injection X3 as ->.
    unfold coord_at in X1. rewrite Ec, nth_error_map in X1. destruct (nth_error times i) as [s|] eqn:Ti; [|discriminate]. cbn in X1. injection X1 as <-.
    exists i, s. split; [exact So|]. split; [exact Ti|]. f_equal. unfold custom_at in X2. rewrite Eh in X2.
    destruct times as [|a [|b r]]; [destruct i; discriminate|cbn in X2; congruence|]. cbn [map] in X2. change (h :: h :: map (fun _ => h) r) with (map (fun _ : Q => h) (a :: b :: r)) in X2.
    rewrite nth_error_map, Ti in X2. cbn in X2. congruence.
  - left. split; [exact So|]. rewrite (at_zenith C H zen up p t So), Eh in A. cbn in A. congruence.
Qed.
(** Without duration, a pointing every minute leaves 59 seconds to the zenith. *)
Theorem no_duration_refuted : exists p t, driftscan (fun _ (h : nat) => h) [0; 60; 120]%Q 5 None = Ok p /\ (0 <= t)%Q /\ (t < 60)%Q /\
  at_time (fun _ => 99) 99 p t = Ok (99, Some 99).
Proof. eexists. exists 30%Q. split; [reflexivity|]. split; [discriminate|]. split; [reflexivity|vm_compute; reflexivity]. Qed.
