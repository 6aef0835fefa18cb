(** Specification and proofs for repeated analog pointings, beams of the array and the
    beam squint correction (C90, C91). *)
From Coq Require Import ZArith QArith Qabs Qfield Lqa Bool List Arith Lia Sorting.Sorted.
From Verif Require Import Base M_Analog P_Analog.
Import ListNotations.
Open Scope nat_scope.
Open Scope list_scope.
Local Opaque cells unravel_argmin.

(** * Repeated pointings *)
Section Drift.
Context {C : Type}.
Variable sep : C -> dir -> Q.
Variable place : dir -> C.
(** The coordinates of a direction are nearest to that direction. *)
Variable faithful : forall d d', on_grid d -> on_grid d' -> d' <> d -> (sep (place d) d < sep (place d) d')%Q.
Definition adjust (c : C) : C := match snap sep c with Ok d => place d | Err _ => c end.
Definition toward1 (n : nat) (k : Z) : Z := if (k <=? 0)%Z then k else Z.max 0 (k - Z.of_nat n).
Definition toward2 (n : nat) (k : Z) : Z := if (0 <=? k)%Z then k else Z.min 0 (k + Z.of_nat n).
Fixpoint times {A} (n : nat) (f : A -> A) (x : A) : A := match n with O => x | S n => f (times n f x) end.

Lemma back_on_grid : forall k1 k2, on_grid (Steps k1 k2) -> on_grid (Steps (back1 k1) (back2 k2)).
Proof.
  intros k1 k2 H. apply grid_directions. apply grid_directions in H. destruct H as [(a & b & E & B1 & B2 & B3)|E]; [|discriminate].
  injection E as <- <-. left. exists (back1 k1), (back2 k2). split; [reflexivity|].
  assert (X1 : (back1 k1 * back1 k1 <= k1 * k1)%Z /\ (-63 <= back1 k1 <= 63)%Z). { unfold back1. destruct (0 <? k1)%Z eqn:E; [apply Z.ltb_lt in E; nia|lia]. }
  assert (X2 : (back2 k2 * back2 k2 <= k2 * k2)%Z /\ (-63 <= back2 k2 <= 63)%Z). { unfold back2. destruct (k2 <? 0)%Z eqn:E; [apply Z.ltb_lt in E; nia|lia]. }
  split; [lia|]. split; [lia|]. unfold Qle in *. cbn -[Z.mul Z.add] in *. lia.
Qed.
Lemma adjust_place : forall k1 k2, on_grid (Steps k1 k2) -> adjust (place (Steps k1 k2)) = place (Steps (back1 k1) (back2 k2)).
Proof.
  intros k1 k2 G. unfold adjust. rewrite (snap_alone sep _ (Steps k1 k2)); [reflexivity| |discriminate].
  split; [exact G|]. intros d' G' N. apply faithful; assumption.
Qed.
Theorem pointing_drifts : forall n k1 k2 p, on_grid (Steps k1 k2) -> horizontal p = [place (Steps k1 k2)] ->
  horizontal (times n (analog_pointing adjust) p) = [place (Steps (toward1 n k1) (toward2 n k2))] /\
  p_sky (times n (analog_pointing adjust) p) = p_sky p.
Proof.
  intros n k1 k2 p G H.
  assert (X : horizontal (times n (analog_pointing adjust) p) = [place (Steps (toward1 n k1) (toward2 n k2))] /\
    p_sky (times n (analog_pointing adjust) p) = p_sky p /\ on_grid (Steps (toward1 n k1) (toward2 n k2))).
  { induction n as [|n IH].
    - replace (toward1 0 k1) with k1 by (unfold toward1; destruct (k1 <=? 0)%Z eqn:E; lia).
      replace (toward2 0 k2) with k2 by (unfold toward2; destruct (0 <=? k2)%Z eqn:E; lia). auto.
    - destruct IH as (I1 & I2 & I3). cbn [times]. unfold analog_pointing at 1 3. cbn [p_sky]. unfold horizontal at 1. cbn [p_custom]. rewrite I1. cbn [map].
      rewrite adjust_place by exact I3.
      replace (toward1 (S n) k1) with (back1 (toward1 n k1)).
      2: { unfold back1, toward1. destruct (k1 <=? 0)%Z eqn:E; destruct (0 <? _)%Z eqn:F; lia. }
      replace (toward2 (S n) k2) with (back2 (toward2 n k2)).
      2: { unfold back2, toward2. destruct (0 <=? k2)%Z eqn:E; destruct (_ <? 0)%Z eqn:F; lia. }
      split; [reflexivity|]. split; [exact I2|]. apply back_on_grid. exact I3. }
  tauto.
Qed.
End Drift.

(** * Beams *)
Definition compose {C} (l : list (C -> C)) (c : C) : C := fold_left (fun c a => a c) l c.
Lemma steps_spec : forall C (adjusts : list (C -> C)) acc p,
  let r := fold_left (fun st adjust => let (used, p) := miniarray_beam adjust (snd st) in (fst st ++ [used], p)) adjusts (acc, p) in
  fst r = acc ++ map (fun i => map (compose (firstn (S i) adjusts)) (horizontal p)) (seq 0 (length adjusts)) /\
  p_sky (snd r) = p_sky p /\ p_custom (snd r) = (match adjusts with [] => p_custom p | _ => Some (map (compose adjusts) (horizontal p)) end).
Proof.
  intros C. induction adjusts as [|a l IH]; intros acc p.
  - cbn. rewrite app_nil_r. auto.
  - cbn [fold_left snd fst miniarray_beam]. specialize (IH (acc ++ [horizontal (analog_pointing a p)]) (analog_pointing a p)). cbv zeta in IH |- *.
    destruct IH as (I1 & I2 & I3). cbn [fst snd miniarray_beam] in *. rewrite I1, I2, I3. split; [|split].
    + rewrite <- app_assoc. cbn [app length seq map]. f_equal. f_equal. rewrite <- seq_shift, map_map. apply map_ext. intro i.
      unfold horizontal at 1. cbn [analog_pointing p_custom]. rewrite map_map. apply map_ext. intro c. reflexivity.
    + reflexivity.
    + unfold horizontal at 1. cbn [analog_pointing p_custom]. destruct l; [reflexivity|]. rewrite map_map. reflexivity.
Qed.
(** Directions of the array factor, of each rotation in turn, and the pointing left. *)
Theorem beam_directions : forall C (adjusts : list (C -> C)) p numeric used p', nenufar_beam adjusts p = (numeric, used, p') ->
  numeric = horizontal p /\
  (length used = length adjusts /\ forall i, i < length adjusts ->
     nth_error used i = Some (map (compose (firstn (S i) adjusts)) (horizontal p))) /\
  p_sky p' = p_sky p /\ (adjusts <> [] -> p_custom p' = Some (map (compose adjusts) (horizontal p))).
Proof.
  intros C adjusts p numeric used p' H. unfold nenufar_beam in H. destruct (steps_spec C adjusts [] p) as (A & B & D). cbv zeta in *.
  match type of A with fst ?r = _ => destruct r as [u q] end. cbn [fst snd] in *. injection H as <- <- <-. split; [reflexivity|]. rewrite A. cbn [app]. split; [split|split].
  - rewrite map_length, seq_length. reflexivity.
  - intros i Hi. rewrite nth_error_map. rewrite (nth_error_nth' _ 0) by (rewrite seq_length; exact Hi). rewrite seq_nth by exact Hi. reflexivity.
  - exact B.
  - intro N. rewrite D. destruct adjusts; [congruence|reflexivity].
Qed.
(** As it would be with an independent pointing for each rotation. *)
Theorem beam_independent : forall C (adjusts : list (C -> C)) p, (forall a a' c, In a adjusts -> In a' adjusts -> a' (a c) = a' c) ->
  snd (fst (nenufar_beam adjusts p)) = map (fun a => map a (horizontal p)) adjusts.
Proof.
  intros C adjusts p H. destruct (nenufar_beam adjusts p) as [[n u] p'] eqn:E. destruct (beam_directions _ _ _ _ _ _ E) as (_ & (L & U) & _). cbn.
  assert (K : forall i a c, nth_error adjusts i = Some a -> compose (firstn (S i) adjusts) c = a c).
  { intros i a c Hi. assert (X : forall l c, (forall x, In x l -> In x adjusts) -> a (compose l c) = a c).
    { induction l as [|b l IH]; intros c0 I; [reflexivity|]. cbn. change (a (compose l (b c0)) = a c0). rewrite IH by (intros; apply I; right; assumption).
      apply H; [apply I; left; reflexivity|]. eapply nth_error_In. exact Hi. }
    assert (F : firstn (S i) adjusts = firstn i adjusts ++ [a]).
    { clear - Hi. revert adjusts Hi. induction i as [|i IH]; intros [|b l] Hi; try discriminate; [injection Hi as ->; reflexivity|]. cbn in Hi. cbn [firstn app]. f_equal. apply IH. exact Hi. }
    rewrite F. unfold compose. rewrite fold_left_app. cbn. apply X. intros x I. rewrite <- (firstn_skipn i adjusts). apply in_or_app. left. exact I. }
  apply list_ext_error. intro i. destruct (Nat.lt_ge_cases i (length adjusts)) as [Hi|Hi].
  - rewrite U by exact Hi. rewrite nth_error_map. destruct (nth_error adjusts i) as [a|] eqn:N; [|apply nth_error_None in N; lia]. cbn. f_equal.
    apply map_ext. intro c. apply K. exact N.
  - rewrite (proj2 (nth_error_None u i)) by lia. symmetry. apply nth_error_None. rewrite map_length. exact Hi.
Qed.
Theorem beam_one_rotation : forall C (a : C -> C) p, snd (fst (nenufar_beam [a] p)) = [map a (horizontal p)].
Proof. reflexivity. Qed.
(** If each correction lowers the elevation, each rotation points lower than the one
    before. *)
Theorem beam_sinks : forall C (el : C -> Q) (adjusts : list (C -> C)) p c i u v, (forall a c, In a adjusts -> (el (a c) < el c)%Q) ->
  horizontal p = [c] -> nth_error (snd (fst (nenufar_beam adjusts p))) i = Some [u] -> nth_error (snd (fst (nenufar_beam adjusts p))) (S i) = Some [v] ->
  (el v < el u)%Q.
Proof.
  intros C el adjusts p c i u v H Hc Hu Hv. destruct (nenufar_beam adjusts p) as [[n us] p'] eqn:E. destruct (beam_directions _ _ _ _ _ _ E) as (_ & (L & U) & _).
  cbn [fst snd] in Hu, Hv. assert (B : S i < length adjusts). { rewrite <- L. apply nth_error_Some. rewrite Hv. discriminate. }
  rewrite U in Hu, Hv by lia. rewrite Hc in Hu, Hv. cbn [map] in Hu, Hv.
  assert (Hu' : compose (firstn (S i) adjusts) c = u) by congruence. assert (Hv' : compose (firstn (S (S i)) adjusts) c = v) by congruence. clear Hu Hv. rename Hu' into Hu, Hv' into Hv.
  destruct (nth_error adjusts (S i)) as [a|] eqn:N; [|apply nth_error_None in N; lia].
  assert (F : firstn (S (S i)) adjusts = firstn (S i) adjusts ++ [a]).
  { clear - N. revert N. generalize (S i) as k. intro k. revert adjusts. induction k as [|k IH]; intros [|b l] Hi; try discriminate; [injection Hi as ->; reflexivity|].
    cbn in Hi. cbn [firstn app]. f_equal. apply IH. exact Hi. }
  rewrite F in Hv. unfold compose in Hv at 1. rewrite fold_left_app in Hv. cbn [fold_left] in Hv. change (a (compose (firstn (S i) adjusts) c) = v) in Hv.
  rewrite Hu in Hv. rewrite <- Hv. apply H. eapply nth_error_In. exact N.
Qed.
(** The next beam of the same pointing: even its array factor is no longer towards the
    coordinates asked for. *)
Theorem beam_again : forall C (adjusts adjusts' : list (C -> C)) p, adjusts <> [] ->
  fst (fst (nenufar_beam adjusts' (snd (nenufar_beam adjusts p)))) = map (compose adjusts) (horizontal p).
Proof.
  intros C adjusts adjusts' p N. destruct (nenufar_beam adjusts p) as [[n u] p'] eqn:E. destruct (beam_directions _ _ _ _ _ _ E) as (_ & _ & _ & D). cbn.
  unfold horizontal at 1. rewrite (D N). reflexivity.
Qed.
Definition lower (c : Q * Q) : Q * Q := (fst c, (snd c - 1)%Q).
Definition twist (c : Q * Q) : Q * Q := ((fst c + 1)%Q, snd c).
Theorem beam_independent_refuted : exists (adjusts : list (Q * Q -> Q * Q)) p,
  snd (fst (nenufar_beam adjusts p)) <> map (fun a => map a (horizontal p)) adjusts.
Proof. exists [lower; twist], (mkPointing [(180%Q, 40%Q)] None). intro E. vm_compute in E. discriminate. Qed.

(** * Beam squint *)
Definition increasing (table : list (Q * Q)) : Prop := StronglySorted (fun p q => (fst p < fst q)%Q) table.
Lemma interp_from_at : forall l x a b, increasing ((a, b) :: l) -> (x == a)%Q -> (interp_from x a b l == b)%Q.
Proof.
  intros [|[c d] l] x a b S E; cbn [interp_from]; [apply Qeq_refl|]. inversion S as [|? ? ? F]; subst. inversion F; subst. cbn in *.
  destruct (Qle_bool c x) eqn:B; [apply Qle_bool_iff in B; lra|]. setoid_replace (x - a)%Q with 0%Q by lra. ring.
Qed.
Lemma interp_from_segment : forall l x a b, increasing ((a, b) :: l) -> (a <= x)%Q -> forall l1 x0 y0 x1 y1 l2,
  (a, b) :: l = l1 ++ (x0, y0) :: (x1, y1) :: l2 -> (x0 <= x <= x1)%Q ->
  (interp_from x a b l * (x1 - x0) == y0 * (x1 - x) + y1 * (x - x0))%Q.
Proof.
  induction l as [|[c d] l IH]; intros x a b S Hx l1 x0 y0 x1 y1 l2 E B.
  - destruct l1 as [|? [|? l1]]; discriminate.
  - pose proof S as S'. inversion S' as [|? ? Sr F]; subst. inversion F as [|? ? Hac Fr]; subst. cbn [fst] in *. cbn [interp_from].
    destruct (Qle_bool c x) eqn:K.
    + apply Qle_bool_iff in K. destruct l1 as [|q l1].
      * injection E as <- <- <- <- <-. assert (X : (x == c)%Q) by lra. rewrite (interp_from_at l x c d Sr X). rewrite X. ring.
      * cbn in E. injection E as _ E. exact (IH x c d Sr K l1 x0 y0 x1 y1 l2 E B).
    + assert (K' : (x < c)%Q). { apply Qnot_le_lt. intro H. apply Qle_bool_iff in H. congruence. }
      destruct l1 as [|q l1].
      * injection E as <- <- <- <- <-. field. lra.
      * exfalso. cbn in E. injection E as _ E. assert (I : In (x0, y0) ((c, d) :: l)) by (rewrite E; apply in_or_app; right; left; reflexivity).
        assert (c <= x0)%Q. { destruct I as [I|I]; [injection I as <- _; apply Qle_refl|]. inversion Sr as [|? ? _ G]; subst. rewrite Forall_forall in G. apply Qlt_le_weak. exact (G _ I). }
        lra.
Qed.
Lemma interp_from_last : forall l x a b, increasing ((a, b) :: l) -> (forall p, In p ((a, b) :: l) -> fst p <= x)%Q -> interp_from x a b l = snd (last l (a, b)).
Proof.
  induction l as [|[c d] l IH]; intros x a b S H; [reflexivity|]. cbn [interp_from]. assert (K : (c <= x)%Q) by (apply (H (c, d)); right; left; reflexivity).
  apply Qle_bool_iff in K. rewrite K. inversion S; subst. rewrite IH; [|assumption|intros p I; apply H; right; exact I].
  destruct l as [|q l]; [reflexivity|]. change (last ((c, d) :: q :: l) (a, b)) with (last (q :: l) (a, b)).
  f_equal. clear. revert q. induction l as [|r l IH]; intro q; [reflexivity|]. cbn [last] in *. apply (IH r).
Qed.
(** Linear between consecutive entries, that of the ends outside. *)
Theorem interp_linear : forall x table l1 x0 y0 x1 y1 l2, increasing table -> table = l1 ++ (x0, y0) :: (x1, y1) :: l2 -> (x0 <= x <= x1)%Q ->
  exists v, interp x table = Ok v /\ (v * (x1 - x0) == y0 * (x1 - x) + y1 * (x - x0))%Q.
Proof.
  intros x [|[a b] l] l1 x0 y0 x1 y1 l2 S E B; [destruct l1; discriminate|]. cbn [interp].
  assert (A : (a <= x0)%Q).
  { assert (I : In (x0, y0) ((a, b) :: l)) by (rewrite E; apply in_or_app; right; left; reflexivity).
    destruct I as [I|I]; [injection I as <- _; apply Qle_refl|]. inversion S as [|? ? _ G]; subst. rewrite Forall_forall in G. apply Qlt_le_weak. exact (G _ I). }
  destruct (Qle_bool x a) eqn:K.
  - apply Qle_bool_iff in K. eexists. split; [reflexivity|]. rewrite <- (interp_from_at l x a b S) by lra.
    apply (interp_from_segment l x a b S) with l1 l2; [lra|exact E|exact B].
  - eexists. split; [reflexivity|]. apply (interp_from_segment l x a b S) with l1 l2; [lra|exact E|exact B].
Qed.
Theorem interp_ends : forall x a b l, increasing ((a, b) :: l) ->
  ((x <= a)%Q -> interp x ((a, b) :: l) = Ok b) /\
  ((fst (last l (a, b)) <= x)%Q -> exists v, interp x ((a, b) :: l) = Ok v /\ (v == snd (last l (a, b)))%Q).
Proof.
  intros x a b l S. cbn [interp]. split.
  - intro H. apply Qle_bool_iff in H. rewrite H. reflexivity.
  - intro H. assert (M : forall p, In p ((a, b) :: l) -> (fst p <= fst (last l (a, b)))%Q).
    { clear H. revert a b S. induction l as [|[c d] l IH]; intros a b S p I; [destruct I as [<-|[]]; apply Qle_refl|].
      inversion S as [|? ? Sr F]; subst. inversion F as [|? ? Hac _]; subst. cbn [fst] in Hac.
      assert (L : last ((c, d) :: l) (a, b) = last l (c, d)).
      { clear. destruct l as [|q l]; [reflexivity|]. change (last (q :: l) (a, b) = last (q :: l) (c, d)). revert q. induction l as [|r l IH]; intro q; [reflexivity|]. apply (IH r). }
      rewrite L. destruct I as [<-|I].
      - apply Qle_trans with c; [apply Qlt_le_weak; exact Hac|]. apply (IH c d Sr (c, d)). left. reflexivity.
      - apply (IH c d Sr p I). }
    assert (E : interp_from x a b l = snd (last l (a, b))) by (apply interp_from_last; [exact S|]; intros p I; eapply Qle_trans; [apply M; exact I|exact H]).
    destruct (Qle_bool x a) eqn:K; eexists; (split; [reflexivity|]); rewrite <- E; [|apply Qeq_refl].
    apply Qle_bool_iff in K. symmetry. apply interp_from_at; [exact S|]. specialize (M (a, b) (or_introl eq_refl)). cbn in M. lra.
Qed.
Definition rising (table : list (Q * Q)) : Prop := StronglySorted (fun p q => (snd p <= snd q)%Q) table.
Lemma interp_from_low : forall l x a b, increasing ((a, b) :: l) -> rising ((a, b) :: l) -> (a <= x)%Q -> (b <= interp_from x a b l)%Q.
Proof.
  induction l as [|[c d] l IH]; intros x a b S R H; cbn [interp_from]; [apply Qle_refl|].
  inversion S as [|? ? Sr F]; subst. inversion F as [|? ? Hac _]; subst. inversion R as [|? ? Rr G]; subst. inversion G as [|? ? Hbd _]; subst. cbn in *.
  destruct (Qle_bool c x) eqn:K.
  - apply Qle_bool_iff in K. apply Qle_trans with d; [exact Hbd|]. apply IH; assumption.
  - assert (0 <= (x - a) * ((d - b) / (c - a)))%Q; [|lra]. apply Qmult_le_0_compat; [lra|]. apply Qle_shift_div_l; lra.
Qed.
Lemma interp_from_mono : forall l x x' a b, increasing ((a, b) :: l) -> rising ((a, b) :: l) -> (a <= x)%Q -> (x <= x')%Q ->
  (interp_from x a b l <= interp_from x' a b l)%Q.
Proof.
  induction l as [|[c d] l IH]; intros x x' a b S R H L; cbn [interp_from]; [apply Qle_refl|].
  inversion S as [|? ? Sr F]; subst. inversion F as [|? ? Hac _]; subst. inversion R as [|? ? Rr G]; subst. inversion G as [|? ? Hbd _]; subst. cbn in *.
  assert (Sl : (0 <= (d - b) / (c - a))%Q) by (apply Qle_shift_div_l; lra).
  destruct (Qle_bool c x) eqn:K, (Qle_bool c x') eqn:K'; rewrite ?Qle_bool_iff in *.
  - apply IH; assumption.
  - exfalso. assert (c <= x')%Q by lra. apply Qle_bool_iff in H0. congruence.
  - apply Qle_trans with d; [|apply interp_from_low; assumption].
    assert (X : (x < c)%Q). { apply Qnot_le_lt. intro N. apply Qle_bool_iff in N. congruence. }
    assert (T : (b + (c - a) * ((d - b) / (c - a)) == d)%Q) by (field; lra). apply Qle_trans with (b + (c - a) * ((d - b) / (c - a)))%Q; [|rewrite T; apply Qle_refl]. apply Qplus_le_r. apply Qmult_le_compat_r; [lra|exact Sl].
  - apply Qplus_le_r. apply Qmult_le_compat_r; [lra|exact Sl].
Qed.
Theorem interp_monotone : forall x x' table v v', increasing table -> rising table -> (x <= x')%Q ->
  interp x table = Ok v -> interp x' table = Ok v' -> (v <= v')%Q.
Proof.
  intros x x' [|[a b] l] v v' S R L E E'; [discriminate|]. cbn [interp] in *.
  destruct (Qle_bool x a) eqn:K, (Qle_bool x' a) eqn:K'; injection E as <-; injection E' as <-; rewrite ?Qle_bool_iff in *.
  - apply Qle_refl.
  - apply interp_from_low; [assumption|assumption|]. apply Qlt_le_weak, Qnot_le_lt. intro N. apply Qle_bool_iff in N. congruence.
  - exfalso. assert (x <= a)%Q by lra. apply Qle_bool_iff in H. congruence.
  - apply interp_from_mono; [assumption|assumption| |exact L]. apply Qlt_le_weak, Qnot_le_lt. intro N. apply Qle_bool_iff in N. congruence.
Qed.

(** The first row of the closest frequency. *)
Lemma nearest_from_spec : forall l f best v i, let k := nearest_from f best v i l in
  (k = best /\ (forall x, In x l -> (v <= Qabs (x - f))%Q)) \/
  (exists n x, k = i + n /\ nth_error l n = Some x /\ (Qabs (x - f) < v)%Q /\ (forall y, In y l -> (Qabs (x - f) <= Qabs (y - f))%Q) /\
     forall m y, m < n -> nth_error l m = Some y -> (Qabs (x - f) < Qabs (y - f))%Q).
Proof.
  induction l as [|x l IH]; intros f best v i; cbn [nearest_from]; [left; split; [reflexivity|intros x []]|].
  destruct (Qle_bool v (Qabs (x - f))) eqn:K.
  - apply Qle_bool_iff in K. destruct (IH f best v (S i)) as [[E A]|(n & y & E & N & L & A & M)].
    + left. split; [exact E|]. intros y [<-|I]; [exact K|apply A; exact I].
    + right. exists (S n), y. split; [rewrite E; lia|]. split; [exact N|]. split; [exact L|]. split.
      * intros z [<-|I]; [apply Qlt_le_weak; eapply Qlt_le_trans; [exact L|exact K]|apply A; exact I].
      * intros [|m] z Hm Z; [injection Z as <-; eapply Qlt_le_trans; [exact L|exact K]|]. apply (M m z); [lia|exact Z].
  - assert (X : (Qabs (x - f) < v)%Q). { apply Qnot_le_lt. intro N. apply Qle_bool_iff in N. congruence. }
    right. destruct (IH f i (Qabs (x - f)) (S i)) as [[E A]|(n & y & E & N & L & A & M)].
    + exists 0, x. split; [rewrite E; lia|]. split; [reflexivity|]. split; [exact X|]. split; [|intros m y Hm; lia].
      intros y [<-|I]; [apply Qle_refl|apply A; exact I].
    + exists (S n), y. split; [rewrite E; lia|]. split; [exact N|]. split; [eapply Qlt_trans; [exact L|exact X]|]. split.
      * intros z [<-|I]; [apply Qlt_le_weak; exact L|apply A; exact I].
      * intros [|m] z Hm Z; [injection Z as <-; exact L|]. apply (M m z); [lia|exact Z].
Qed.
Theorem nearest_row_spec : forall freqs f k, nearest_row freqs f = Ok k -> exists x, nth_error freqs k = Some x /\
  (forall y, In y freqs -> (Qabs (x - f) <= Qabs (y - f))%Q) /\
  forall m y, m < k -> nth_error freqs m = Some y -> (Qabs (x - f) < Qabs (y - f))%Q.
Proof.
  intros [|x l] f k H; [discriminate|]. assert (Ek : k = nearest_from f 0 (Qabs (x - f)) 1 l) by (unfold nearest_row in H; congruence). subst k. clear H. destruct (nearest_from_spec l f 0 (Qabs (x - f)) 1) as [[E A]|(n & y & E & N & L & A & M)]; cbv zeta in *; rewrite E.
  - exists x. split; [reflexivity|]. split; [|intros m y Hm; lia]. intros y [<-|I]; [apply Qle_refl|apply A; exact I].
  - exists y. cbn [Nat.add nth_error]. split; [exact N|]. split.
    + intros z [<-|I]; [apply Qlt_le_weak; exact L|apply A; exact I].
    + intros [|m] z Hm Z; [injection Z as <-; exact L|]. apply (M m z); [lia|exact Z].
Qed.
Theorem squint_ok : forall freqs wanted to_point f az el az' el', beamsquint freqs wanted to_point f (az, el) = Ok (az', el') ->
  az' = az /\ exists k row, nearest_row freqs f = Ok k /\ nth_error wanted k = Some row /\ interp el (combine row to_point) = Ok el'.
Proof.
  intros freqs wanted to_point f az el az' el' H. unfold beamsquint in H. destruct (nearest_row freqs f) as [k|] eqn:N; [|discriminate]. cbn [bind fst snd] in H.
  destruct (nth_error wanted k) as [row|] eqn:W; [|discriminate]. destruct (interp el (combine row to_point)) as [e|] eqn:I; [|discriminate]. cbn in H. injection H as <- <-.
  split; [reflexivity|]. exists k, row. auto.
Qed.
