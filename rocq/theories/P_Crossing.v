(** The search of crossing times. *)
From Coq Require Import ZArith QArith Qround Qabs Bool List Arith Lia Lqa Sorting.Sorted Morphisms.
From Verif Require Import Base M_Analog M_Crossing.
Import ListNotations.
Open Scope list_scope.
Open Scope Q_scope.

(** ** Specification *)
(** A condition on two times depends on the times only, not on how they are written. *)
Definition of_times (cross : Q -> Q -> bool) : Prop := forall a a' b b', a == a' -> b == b' -> cross a b = cross a' b'.
(** A condition met by an interval is met by one of its parts. *)
Definition splits (cross : Q -> Q -> bool) : Prop := forall a b c, a <= b -> b <= c -> cross a c = true -> cross a b = true \/ cross b c = true.
(** The number of the parts of the window, and of each part again: five, or such that they
    do not exceed six hours. *)
Definition parts (d : Q) (n : Z) : Prop := (d <= 5 * 21600 /\ n = 5%Z) \/ (5 * 21600 < d /\ d <= inject_Z n * 21600 /\ (inject_Z n - 1) * 21600 < d).

Lemma Qltb_lt a b : Qltb a b = true <-> a < b.
Proof. unfold Qltb. rewrite negb_true_iff. rewrite <- not_true_iff_false, Qle_bool_iff. split; intro H; [now apply Qnot_le_lt|now apply Qlt_not_le]. Qed.
Lemma Qltb_ge a b : Qltb a b = false <-> b <= a.
Proof. rewrite <- not_true_iff_false, Qltb_lt. split; intro H; [now apply Qnot_lt_le|now apply Qle_not_lt]. Qed.

(** ** Samples *)
Definition at_ (t dt : Q) (i : nat) : Q := t + inject_Z (Z.of_nat i) * dt.
Lemma starts_map cross t dt : forall n k, starts cross (map (at_ t dt) (seq k (S n))) = map (at_ t dt) (filter (fun i => cross (at_ t dt i) (at_ t dt (S i))) (seq k n)).
Proof.
  induction n as [|n IH]; intros k; [reflexivity|]. specialize (IH (S k)). cbn [seq map] in *. cbn [starts]. cbn [filter].
  destruct (cross (at_ t dt k) (at_ t dt (S k))); cbn [map]; rewrite <- IH; reflexivity.
Qed.
Lemma starts_samples cross t dt n : (0 <= n)%Z ->
  starts cross (samples t dt n) = map (at_ t dt) (filter (fun i => cross (at_ t dt i) (at_ t dt (S i))) (seq 0 (Z.to_nat n))).
Proof. intro H. unfold samples. replace (Z.to_nat (n + 1)) with (S (Z.to_nat n)) by lia. apply starts_map. Qed.
Lemma in_starts cross t dt n x : (0 <= n)%Z -> In x (starts cross (samples t dt n)) <->
  exists i, (i < Z.to_nat n)%nat /\ x = at_ t dt i /\ cross (at_ t dt i) (at_ t dt (S i)) = true.
Proof.
  intro H. rewrite starts_samples by exact H. rewrite in_map_iff. split.
  - intros (i & <- & I). apply filter_In in I. destruct I as [I C]. apply in_seq in I. exists i. split; [lia|auto].
  - intros (i & I & -> & C). exists i. split; [reflexivity|]. apply filter_In. split; [apply in_seq; lia|exact C].
Qed.
Lemma at_S t dt i : at_ t dt (S i) == at_ t dt i + dt.
Proof. unfold at_. rewrite Nat2Z.inj_succ. unfold Z.succ. rewrite inject_Z_plus. ring. Qed.
Lemma at_le t dt i j : 0 <= dt -> (i <= j)%nat -> at_ t dt i <= at_ t dt j.
Proof. intros D L. unfold at_. assert (inject_Z (Z.of_nat i) <= inject_Z (Z.of_nat j)) by (rewrite <- Zle_Qle; lia). nra. Qed.
Lemma at_0 t dt : at_ t dt 0 == t. Proof. unfold at_. cbn. ring. Qed.
Lemma at_last t dt n : (0 <= n)%Z -> at_ t dt (Z.to_nat n) == t + inject_Z n * dt.
Proof. intro H. unfold at_. rewrite Z2Nat.id by exact H. reflexivity. Qed.

(** ** The steps *)
Lemma ceiling_exact x n : x == inject_Z n -> Qceiling x = n.
Proof. intros ->. apply Qceiling_Z. Qed.
Lemma steps_exact d dt n : 0 < dt -> d == inject_Z n * dt -> Qceiling (d / dt) = n.
Proof. intros P E. apply ceiling_exact. rewrite E. field. intro Z. rewrite Z in P. discriminate. Qed.
Theorem down_parts : forall d, parts d (down_factor d).
Proof.
  intro d. unfold parts, down_factor, max_dt. destruct (Qltb (inject_Z (6 * 3600)) (d / 5)) eqn:E.
  - apply Qltb_lt in E. change (inject_Z (6 * 3600)) with 21600 in *. right.
    assert (D : 5 * 21600 < d). { assert (X : d == d / 5 * 5) by field. set (q := d / 5) in *. clearbody q. lra. }
    split; [exact D|]. assert (A := Qle_ceiling (d / 21600)). assert (B := Qceiling_lt (d / 21600)). unfold Z.sub in B. rewrite inject_Z_plus, inject_Z_opp in B. change (inject_Z 1) with 1 in B.
    assert (X : d == d / 21600 * 21600) by field. set (q := d / 21600) in *. clearbody q. split; lra.
  - apply Qltb_ge in E. change (inject_Z (6 * 3600)) with 21600 in *. left. split; [|reflexivity]. assert (X : d == d / 5 * 5) by field. set (q := d / 5) in *. clearbody q. lra.
Qed.
Lemma parts_ge d n : parts d n -> (5 <= n)%Z.
Proof. intros [[_ ->]|(A & B & _)]; [lia|]. rewrite Zle_Qle. change (inject_Z 5) with 5. lra. Qed.

Lemma StronglySorted_map {A B} (R : A -> A -> Prop) (S : B -> B -> Prop) (f : A -> B) l : (forall x y, R x y -> S (f x) (f y)) -> StronglySorted R l -> StronglySorted S (map f l).
Proof.
  intros H. induction 1 as [|a l L IH F]; cbn; constructor; [exact IH|]. rewrite Forall_map. eapply Forall_impl; [|exact F]. intros. now apply H.
Qed.
Lemma StronglySorted_filter {A} (R : A -> A -> Prop) f l : StronglySorted R l -> StronglySorted R (filter f l).
Proof.
  induction 1 as [|a l L IH F]; cbn; [constructor|]. destruct (f a); [constructor; [exact IH|]|exact IH]. apply Forall_forall. intros x X. apply filter_In in X. rewrite Forall_forall in F. now apply F.
Qed.
Lemma seq_sorted n k : StronglySorted lt (seq k n).
Proof. revert k. induction n as [|n IH]; intro k; cbn; constructor; [apply IH|]. apply Forall_forall. intros x X. apply in_seq in X. lia. Qed.
Lemma StronglySorted_app {A} (R : A -> A -> Prop) l m : StronglySorted R l -> StronglySorted R m -> (forall x y, In x l -> In y m -> R x y) -> StronglySorted R (l ++ m).
Proof.
  intros L M H. induction L as [|a l L IH F]; cbn; [exact M|]. constructor; [apply IH; intros; apply H; [now right|assumption]|].
  apply Forall_app. split; [exact F|]. apply Forall_forall. intros y Y. apply H; [now left|exact Y].
Qed.
(** Intervals of width [w] one after the other. *)
Definition successive (w : Q) (l : list Q) : Prop := StronglySorted (fun a b => a + w <= b) l.
Lemma refine_sorted cross dt n : 0 < dt -> (0 <= n)%Z -> forall l, successive (inject_Z n * dt) l -> successive dt (flat_map (fun t => starts cross (samples t dt n)) l).
Proof.
  intros D N. induction 1 as [|a l L IH F]; cbn [flat_map]; [constructor|]. apply StronglySorted_app; [|exact IH|].
  - rewrite starts_samples by exact N. eapply StronglySorted_map; [|apply StronglySorted_filter, seq_sorted]. intros i j I. cbv beta. rewrite <- at_S. apply at_le; [lra|lia].
  - intros x y X Y. apply in_starts in X; [|exact N]. destruct X as (i & I & -> & _). apply in_flat_map in Y. destruct Y as (b & B & Y). apply in_starts in Y; [|exact N]. destruct Y as (j & J & -> & _).
    rewrite Forall_forall in F. specialize (F b B). cbv beta in F.
    assert (X1 : at_ a dt (S i) <= at_ a dt (Z.to_nat n)) by (apply at_le; [lra|lia]). rewrite at_last in X1 by exact N. rewrite at_S in X1.
    assert (X2 : at_ b dt 0 <= at_ b dt j) by (apply at_le; [lra|lia]). rewrite at_0 in X2. lra.
Qed.

(** ** The loop *)
Section loop.
  Variables (cross : Q -> Q -> bool) (p : Q) (n : Z).
  Hypotheses (T : of_times cross) (N : (5 <= n)%Z).
  Let refine (dt : Q) (l : list Q) := flat_map (fun t => starts cross (samples t dt n)) l.
  Lemma inj5 : 5 <= inject_Z n. Proof. rewrite <- (Zle_Qle 5). exact N. Qed.
  Lemma div_pos dt : 0 < dt -> 0 < dt / inject_Z n.
  Proof. intro D. assert (H := inj5). apply Qlt_shift_div_l; lra. Qed.
  Lemma div_mult dt : dt == inject_Z n * (dt / inject_Z n).
  Proof. assert (H := inj5). field. lra. Qed.
  Lemma div_five dt : 0 < dt -> dt / inject_Z n <= dt / 5.
  Proof. intro D. assert (H := inj5). apply Qle_shift_div_r; [lra|]. assert (X : dt == dt / 5 * 5) by field. assert (0 < dt / 5) by (apply Qlt_shift_div_l; lra). set (q := dt / 5) in *. clearbody q. nra. Qed.
  Lemma loop_step fuel l d dt last : 0 < dt -> d == inject_Z n * dt ->
    find_loop (S fuel) cross p n l d dt last =
      if Qltb p (dt * inject_Z n) then match refine dt l with [] => Some (Ok []) | l' => find_loop fuel cross p n l' dt (dt / inject_Z n) (Some l') end
      else Some (match last with Some m => Ok (map (fun t => t + dt / 2) m) | None => Err EUnboundLocalError end).
  Proof. intros D E. cbn [find_loop]. rewrite (steps_exact d dt n D E). reflexivity. Qed.
  (** Everything that is found. *)
  Definition inside (t0 D w t : Q) : Prop := t0 <= t /\ t + w <= t0 + D.
  Lemma refine_inside t0 D w dt l : 0 < dt -> w == inject_Z n * dt -> (forall t, In t l -> inside t0 D w t) -> forall t, In t (refine dt l) -> inside t0 D dt t /\ cross t (t + dt) = true.
  Proof.
    intros P W H t I. unfold refine in I. apply in_flat_map in I. destruct I as (a & A & I). apply in_starts in I; [|lia]. destruct I as (i & I & -> & C). destruct (H a A) as [H1 H2].
    assert (X1 : at_ a dt (S i) <= at_ a dt (Z.to_nat n)) by (apply at_le; [lra|lia]). rewrite at_last in X1 by lia. rewrite at_S in X1.
    assert (X2 : at_ a dt 0 <= at_ a dt i) by (apply at_le; [lra|lia]). rewrite at_0 in X2. split; [split; lra|].
    rewrite <- C. apply T; [reflexivity|]. symmetry. apply at_S.
  Qed.
  Lemma loop_sound t0 D : forall fuel l d dt last r, 0 < dt -> d == inject_Z n * dt -> successive d l ->
    (forall t, In t l -> inside t0 D d t) -> (last = None \/ (last = Some l /\ forall t, In t l -> cross t (t + d) = true)) ->
    find_loop fuel cross p n l d dt last = Some (Ok r) ->
    r = [] \/ exists w m, 0 < w /\ w <= p /\ (exists h, h == w / inject_Z n / 2 /\ r = map (fun t => t + h) m) /\ successive w m /\ forall t, In t m -> inside t0 D w t /\ cross t (t + w) = true.
  Proof.
    induction fuel as [|fuel IH]; intros l d dt last r P E S I L H; [discriminate|]. rewrite loop_step in H by assumption.
    destruct (Qltb p (dt * inject_Z n)) eqn:C.
    - destruct (refine dt l) as [|x l'] eqn:R; [injection H as <-; now left|].
      assert (Z : forall t, In t (x :: l') -> inside t0 D dt t /\ cross t (t + dt) = true) by (rewrite <- R; now apply (refine_inside t0 D d)).
      eapply (IH (x :: l') dt (dt / inject_Z n)); [now apply div_pos|apply div_mult| | |right; split; [reflexivity|]|exact H].
      + rewrite <- R. unfold refine. apply refine_sorted; [exact P|lia|]. clear -S E. unfold successive in *. induction S as [|a l S IH F]; constructor; [exact IH|]. eapply Forall_impl; [|exact F]. intros b B. cbv beta in *. lra.
      + intros t K. now apply Z.
      + intros t K. now apply Z.
    - apply Qltb_ge in C. destruct L as [->|[-> L]]; [discriminate|]. injection H as <-. right. exists d, l. assert (H5 := inj5).
      split; [nra|]. split; [lra|]. split.
      + exists (dt / 2). split; [rewrite E; field; lra|reflexivity].
      + split; [exact S|]. intros t K. split; [now apply I|now apply L].
  Qed.
  (** No interval found is lost. *)
  Lemma refine_kept d dt l t : splits cross -> 0 < dt -> d == inject_Z n * dt -> In t l -> cross t (t + d) = true ->
    exists x, In x (refine dt l) /\ t <= x /\ x + dt <= t + d /\ cross x (x + dt) = true.
  Proof.
    intros S P E I C.
    assert (G : forall k, cross (at_ t dt 0) (at_ t dt (Datatypes.S k)) = true -> exists i, (i <= k)%nat /\ cross (at_ t dt i) (at_ t dt (Datatypes.S i)) = true).
    { induction k as [|k IH]; intros H; [exists 0%nat; split; [lia|exact H]|].
      destruct (S (at_ t dt 0) (at_ t dt (Datatypes.S k)) (at_ t dt (Datatypes.S (Datatypes.S k)))) as [A|A]; [apply at_le; [lra|lia]|apply at_le; [lra|lia]|exact H| |].
      + destruct (IH A) as (i & J & A'). exists i. split; [lia|exact A'].
      + exists (Datatypes.S k). split; [lia|exact A]. }
    destruct (G (Z.to_nat n - 1)%nat) as (i & J & K).
    { rewrite <- C. apply T; [apply at_0|]. replace (Datatypes.S (Z.to_nat n - 1)) with (Z.to_nat n) by lia. rewrite at_last by lia. lra. }
    exists (at_ t dt i). split; [unfold refine; apply in_flat_map; exists t; split; [exact I|]; apply in_starts; [lia|]; exists i; split; [lia|auto]|].
    assert (X1 : at_ t dt (Datatypes.S i) <= at_ t dt (Z.to_nat n)) by (apply at_le; [lra|lia]). rewrite at_last in X1 by lia. rewrite at_S in X1.
    assert (X2 : at_ t dt 0 <= at_ t dt i) by (apply at_le; [lra|lia]). rewrite at_0 in X2. split; [exact X2|]. split; [lra|].
    rewrite <- K. apply T; [reflexivity|]. symmetry. apply at_S.
  Qed.
  Lemma loop_complete : splits cross -> forall fuel l d dt r, 0 < dt -> d == inject_Z n * dt -> (forall t, In t l -> cross t (t + d) = true) ->
    find_loop fuel cross p n l d dt (Some l) = Some (Ok r) ->
    forall t, In t l -> exists x, In x r /\ t < x /\ x < t + d.
  Proof.
    intro S. induction fuel as [|fuel IH]; intros l d dt r P E C H t I; [discriminate|]. rewrite loop_step in H by assumption. assert (H5 := inj5).
    destruct (Qltb p (dt * inject_Z n)) eqn:Q.
    - destruct (refine_kept d dt l t S P E I (C t I)) as (x & X & X1 & X2 & X3). destruct (refine dt l) as [|y l'] eqn:R; [destruct X|].
      destruct (IH (y :: l') dt (dt / inject_Z n) r) with (t := x) as (z & Z & Z1 & Z2); [now apply div_pos|apply div_mult| |exact H|exact X|exists z; split; [exact Z|split; lra]].
      intros u U. rewrite <- R in U. unfold refine in U. apply in_flat_map in U. destruct U as (a & A & U). apply in_starts in U; [|lia]. destruct U as (i & _ & -> & K). rewrite <- K. apply T; [reflexivity|symmetry; apply at_S].
    - injection H as <-. exists (t + dt / 2). assert (X : 0 < dt / 2) by (apply Qlt_shift_div_l; lra). assert (Y : dt == dt / 2 * 2) by field. set (q := dt / 2) in *. clearbody q.
      split; [apply in_map_iff; exists t; auto|]. split; [lra|]. nra.
  Qed.
  (** It ends. *)
  Lemma loop_ends : 0 < p -> forall fuel l d dt last, 0 < dt -> d == inject_Z n * dt -> d < inject_Z (Z.of_nat fuel) * p -> find_loop fuel cross p n l d dt last <> None.
  Proof.
    intro P0. induction fuel as [|fuel IH]; intros l d dt last P E F.
    - exfalso. change (inject_Z (Z.of_nat 0)) with 0 in F. assert (H5 := inj5). nra.
    - rewrite loop_step by assumption. destruct (Qltb p (dt * inject_Z n)) eqn:Q; [|discriminate]. apply Qltb_lt in Q. destruct (refine dt l) as [|y l']; [discriminate|].
      apply IH; [now apply div_pos|apply div_mult|]. rewrite Nat2Z.inj_succ in F. unfold Z.succ in F. rewrite inject_Z_plus in F. change (inject_Z 1) with 1 in F. assert (H5 := inj5).
      assert (D5 : 5 * dt <= d) by nra. destruct fuel as [|fuel]; [change (inject_Z (Z.of_nat 0)) with 0 in *; exfalso; nra|]. assert (1 <= inject_Z (Z.of_nat (S fuel))) by (rewrite <- (Zle_Qle 1); lia). nra.
  Qed.
  Lemma loop_more : forall fuel fuel' l d dt last r, (fuel <= fuel')%nat -> find_loop fuel cross p n l d dt last = Some r -> find_loop fuel' cross p n l d dt last = Some r.
  Proof.
    induction fuel as [|fuel IH]; intros [|fuel'] l d dt last r L H; try discriminate; [lia|]. cbn [find_loop] in *. destruct (Qltb p (dt * inject_Z n)); [|exact H].
    destruct (flat_map _ l); [exact H|]. apply IH; [lia|exact H].
  Qed.
  Lemma loop_endless : p <= 0 -> splits cross -> forall fuel l d dt last, l <> [] -> 0 < dt -> d == inject_Z n * dt -> (forall t, In t l -> cross t (t + d) = true) -> find_loop fuel cross p n l d dt last = None.
  Proof.
    intros P0 S. induction fuel as [|fuel IH]; intros l d dt last L P E C; [reflexivity|]. rewrite loop_step by assumption. assert (H5 := inj5).
    replace (Qltb p (dt * inject_Z n)) with true by (symmetry; apply Qltb_lt; nra). destruct l as [|t l]; [now elim L|].
    destruct (refine_kept d dt (t :: l) t S P E (or_introl eq_refl) (C t (or_introl eq_refl))) as (x & X & _). destruct (refine dt (t :: l)) as [|y l'] eqn:R; [destruct X|].
    apply IH; [discriminate|now apply div_pos|apply div_mult|]. intros u U. rewrite <- R in U. unfold refine in U. apply in_flat_map in U. destruct U as (a & A & U). apply in_starts in U; [|lia]. destruct U as (i & _ & -> & K). rewrite <- K. apply T; [reflexivity|symmetry; apply at_S].
  Qed.
  Lemma loop_value : forall fuel l d dt m r, 0 < dt -> d == inject_Z n * dt -> find_loop fuel cross p n l d dt (Some m) = Some r -> exists k, r = Ok k.
  Proof.
    induction fuel as [|fuel IH]; intros l d dt m r P E H; [discriminate|]. rewrite loop_step in H by assumption. destruct (Qltb p (dt * inject_Z n)); [|injection H as <-; eauto].
    destruct (refine dt l) as [|y l']; [injection H as <-; eauto|]. apply (IH (y :: l') dt (dt / inject_Z n) (y :: l') r); [now apply div_pos|apply div_mult|exact H].
  Qed.
End loop.

(** ** Theorems on the search *)
Lemma find_start d : 0 < d -> 0 < d / inject_Z (down_factor d) /\ d == inject_Z (down_factor d) * (d / inject_Z (down_factor d)).
Proof. intro D. assert (N := parts_ge _ _ (down_parts d)). split; [now apply div_pos|now apply div_mult]. Qed.
Theorem find_sound : forall cross fuel t0 d p l, of_times cross -> 0 < d -> find_crossing fuel cross t0 d p = Some (Ok l) ->
  l = [] \/ exists w h m n, parts d n /\ 0 < w /\ w <= p /\ h * (2 * inject_Z n) == w /\ l = map (fun t => t + h) m /\ successive w m /\
    forall t, In t m -> t0 <= t /\ t + w <= t0 + d /\ cross t (t + w) = true.
Proof.
  intros cross fuel t0 d p l T D H. unfold find_crossing in H. cbv zeta in H. assert (Hp := down_parts d). assert (N := parts_ge _ _ Hp). destruct (find_start d D) as [P E].
  destruct (loop_sound cross p _ T N t0 d fuel [t0] d _ None l P E) as [R|(w & m & W0 & W1 & (h & Hh & R) & S & M)]; [repeat constructor| |now left|exact H|now left|].
  - intros t [<-|[]]. split; lra.
  - right. exists w, h, m, (down_factor d). assert (H5 := inj5 _ N). split; [exact Hp|]. split; [exact W0|]. split; [exact W1|]. split; [rewrite Hh; field; lra|]. split; [exact R|]. split; [exact S|].
    intros t I. destruct (M t I) as [[A B] C]. auto.
Qed.
(** A part of the window which meets the condition gives a time in this part. *)
Theorem find_complete : forall cross fuel t0 d p l n i, of_times cross -> splits cross -> 0 < d -> p < d -> parts d n -> (0 <= i < n)%Z ->
  find_crossing fuel cross t0 d p = Some (Ok l) ->
  cross (t0 + inject_Z i * (d / inject_Z n)) (t0 + (inject_Z i + 1) * (d / inject_Z n)) = true ->
  exists x, In x l /\ t0 + inject_Z i * (d / inject_Z n) < x /\ x < t0 + (inject_Z i + 1) * (d / inject_Z n).
Proof.
  intros cross fuel t0 d p l n i T S D Pd Hn I H C. assert (Hp := down_parts d). assert (En : n = down_factor d).
  { destruct Hn as [[A ->]|(A & B & B')]; destruct Hp as [[A' E']|(A' & B2 & B2')]; try lra; [now symmetry|].
    assert (X : (n < down_factor d + 1)%Z) by (rewrite Zlt_Qlt, inject_Z_plus; change (inject_Z 1) with 1; lra). assert (Y : (down_factor d < n + 1)%Z) by (rewrite Zlt_Qlt, inject_Z_plus; change (inject_Z 1) with 1; lra). lia. }
  assert (N := parts_ge _ _ Hn). unfold find_crossing in H. cbv zeta in H. rewrite <- En in H. destruct (find_start d D) as [P E]. rewrite <- En in P, E. set (dt := d / inject_Z n) in *.
  destruct fuel as [|fuel]; [discriminate|]. rewrite (loop_step cross p n) in H by assumption.
  replace (Qltb p (dt * inject_Z n)) with true in H by (symmetry; apply Qltb_lt; lra).
  set (x := at_ t0 dt (Z.to_nat i)).
  assert (X : x == t0 + inject_Z i * dt) by (apply at_last; lia).
  assert (C' : cross (at_ t0 dt (Z.to_nat i)) (at_ t0 dt (Datatypes.S (Z.to_nat i))) = true). { rewrite <- C. apply T; [exact X|]. rewrite at_S. fold x. rewrite X. ring. }
  assert (J : In x (flat_map (fun t => starts cross (samples t dt n)) [t0])).
  { cbn [flat_map]. rewrite app_nil_r. apply in_starts; [lia|]. exists (Z.to_nat i). split; [lia|]. split; [reflexivity|exact C']. }
  destruct (flat_map (fun t => starts cross (samples t dt n)) [t0]) as [|y l'] eqn:R; [destruct J|].
  destruct (loop_complete cross p n T N S fuel (y :: l') dt (dt / inject_Z n) l) with (t := x) as (z & Z & Z1 & Z2); [now apply div_pos|now apply div_mult| |exact H|exact J|].
  - intros u U. rewrite <- R in U. cbn [flat_map] in U. rewrite app_nil_r in U. apply in_starts in U; [|lia]. destruct U as (k & _ & -> & K). rewrite <- K. apply T; [reflexivity|symmetry; apply at_S].
  - exists z. split; [exact Z|]. split; lra.
Qed.
(** Where the whole window meets the condition, something is found. *)
Theorem find_some : forall cross fuel t0 d p l, of_times cross -> splits cross -> 0 < d -> p < d -> cross t0 (t0 + d) = true -> find_crossing fuel cross t0 d p = Some (Ok l) -> l <> [].
Proof.
  intros cross fuel t0 d p l T S D Pd C H. assert (Hp := down_parts d). assert (N := parts_ge _ _ Hp). destruct (find_start d D) as [P E]. set (n := down_factor d) in *. set (dt := d / inject_Z n) in *.
  destruct (refine_kept cross n T N d dt [t0] t0 S P E (or_introl eq_refl) C) as (x & X & _). cbn [flat_map] in X. rewrite app_nil_r in X. apply in_starts in X; [|lia]. destruct X as (i & I & _ & K).
  destruct (find_complete cross fuel t0 d p l n (Z.of_nat i) T S D Pd Hp) as (z & Z & _); [lia|exact H| |intros ->; destruct Z].
  fold dt. rewrite <- K. apply T; [reflexivity|]. unfold at_. rewrite Nat2Z.inj_succ. unfold Z.succ. rewrite inject_Z_plus. change (inject_Z 1) with 1. reflexivity.
Qed.
Theorem find_ends : forall cross fuel t0 d p, 0 < d -> 0 < p -> d < inject_Z (Z.of_nat fuel) * p ->
  (exists r, find_crossing fuel cross t0 d p = Some r) /\ forall fuel', (fuel <= fuel')%nat -> find_crossing fuel' cross t0 d p = find_crossing fuel cross t0 d p.
Proof.
  intros cross fuel t0 d p D P F. assert (N := parts_ge _ _ (down_parts d)). destruct (find_start d D) as [Q E]. unfold find_crossing. cbv zeta.
  destruct (find_loop fuel cross p (down_factor d) [t0] d (d / inject_Z (down_factor d)) None) as [r|] eqn:R; [|now apply loop_ends in R].
  split; [eauto|]. intros fuel' L. now apply (loop_more cross p _ fuel).
Qed.
Theorem find_endless : forall cross t0 d p, of_times cross -> splits cross -> 0 < d -> p <= 0 -> cross t0 (t0 + d) = true -> forall fuel, find_crossing fuel cross t0 d p = None.
Proof.
  intros cross t0 d p T S D P C fuel. assert (N := parts_ge _ _ (down_parts d)). destruct (find_start d D) as [Q E]. unfold find_crossing. cbv zeta.
  apply loop_endless; try assumption; [discriminate|]. intros t [<-|[]]. exact C.
Qed.
Theorem find_error : forall cross fuel t0 d p e, 0 < d -> (find_crossing (S fuel) cross t0 d p = Some (Err e) <-> e = EUnboundLocalError /\ d <= p).
Proof.
  intros cross fuel t0 d p e D. assert (N := parts_ge _ _ (down_parts d)). destruct (find_start d D) as [Q E]. unfold find_crossing. cbv zeta. rewrite (loop_step cross p) by assumption.
  destruct (Qltb p (d / inject_Z (down_factor d) * inject_Z (down_factor d))) eqn:B.
  - apply Qltb_lt in B. split; [|intros [_ H]; lra]. intro H. destruct (flat_map _ [t0]) as [|y l'] eqn:R; [discriminate|].
    apply (loop_value cross p _ N) in H; [destruct H; discriminate|now apply div_pos|now apply div_mult].
  - apply Qltb_ge in B. split; [intro H; injection H as <-; split; [reflexivity|lra]|]. intros [-> _]. reflexivity.
Qed.
