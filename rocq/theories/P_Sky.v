(** Broadcast of arrays, in the terms of their indices. *)
From Coq Require Import ZArith Bool List Lia.
From Verif Require Import Base M_Sky.
Import ListNotations.
Open Scope nat_scope.
Open Scope list_scope.

(** ** Specification *)

(** The place of the element of indices [i] in an array of shape [s], in the order of C *)
Definition offset (s i : list nat) : nat := fold_left (fun acc p => acc * fst p + snd p) (combine s i) 0.
Definition inside (s i : list nat) : Prop := Forall2 (fun n k => k < n) s i.
(** The element of an array *)
Definition elem {V} (a : array V) (i : list nat) : option V := nth_error (a_data a) (offset (a_shape a) i).
Definition sound {V} (a : array V) : Prop := length (a_data a) = prod (a_shape a).
(** The indices used in an array of shape [s] for the element [i] of the result: the last
    ones, and 0 along the axes of length 1 *)
Definition aligned (s i : list nat) : list nat :=
  map (fun p => if fst p =? 1 then 0 else snd p) (combine s (skipn (length i - length s) i)).
(** The shape [s] is repeated into the shape [t]. *)
Definition fits (s t : list nat) : Prop :=
  exists pre suf, t = pre ++ suf /\ Forall2 (fun n m => n = 1 \/ n = m) s suf.

(** ** Flat positions *)

Lemma inside_length : forall s i, inside s i -> length i = length s.
Proof. intros s i H; induction H; cbn; congruence. Qed.

Lemma prod_app : forall s t, prod (s ++ t) = prod s * prod t.
Proof. induction s; intros; cbn; rewrite ?IHs; lia. Qed.

Lemma prod_rev : forall s, prod (rev s) = prod s.
Proof. induction s; cbn; rewrite ?prod_app; cbn; lia. Qed.

Lemma offset_snoc : forall s i n k, length i = length s -> offset (s ++ [n]) (i ++ [k]) = offset s i * n + k.
Proof.
  intros s i n k L. unfold offset.
  replace (combine (s ++ [n]) (i ++ [k])) with (combine s i ++ [(n, k)]).
  - now rewrite fold_left_app.
  - revert i L. induction s; destruct i; cbn; intros; try discriminate; [reflexivity|].
    f_equal. apply IHs. lia.
Qed.

Lemma ravel_offset : forall s i, length i = length s -> ravel (rev s) (rev i) = offset s i.
Proof.
  intros s. induction s as [|n s IH] using rev_ind; intros i L.
  - destruct i; [reflexivity|discriminate].
  - rewrite app_length in L. cbn in L.
    destruct i as [|k i _] using rev_ind; [cbn in L; lia|].
    rewrite app_length in L. cbn in L.
    rewrite !rev_app_distr. cbn. rewrite IH by lia. rewrite offset_snoc by lia. lia.
Qed.

Lemma ravel_lt : forall s i, inside s i -> ravel s i < prod s.
Proof.
  intros s i H. induction H; cbn; [lia|].
  nia.
Qed.

Lemma unravel_ravel : forall s i, inside s i -> unravel s (ravel s i) = i.
Proof.
  intros s i H. induction H as [|n k s i K H IH]; cbn; [reflexivity|].
  replace (k + n * ravel s i) with (k + ravel s i * n) by lia.
  rewrite Nat.mod_add, Nat.div_add by lia.
  rewrite Nat.mod_small, Nat.div_small by lia. cbn. now rewrite IH.
Qed.

Lemma inside_rev : forall s i, inside s i -> inside (rev s) (rev i).
Proof.
  intros s i H. induction H; cbn; [constructor|].
  apply Forall2_app; [exact IHForall2|]. constructor; [assumption|constructor].
Qed.

Lemma offset_lt : forall s i, inside s i -> offset s i < prod s.
Proof.
  intros s i H. rewrite <- ravel_offset by now apply inside_length.
  rewrite <- prod_rev. apply ravel_lt, inside_rev, H.
Qed.

Lemma elem_some : forall V (a : array V) i, sound a -> inside (a_shape a) i -> exists v, elem a i = Some v.
Proof.
  intros V a i S I. unfold elem. destruct (nth_error _ _) eqn:E; [eauto|].
  apply nth_error_None in E. pose proof (offset_lt _ _ I). unfold sound in S. lia.
Qed.

(** ** Shapes *)

Lemma shape_eqb_eq : forall a b, shape_eqb a b = true <-> a = b.
Proof.
  induction a; destruct b; cbn; split; intros; try discriminate; auto.
  - apply andb_true_iff in H. destruct H as [P Q]. apply Nat.eqb_eq in P. apply IHa in Q. congruence.
  - injection H as -> ->. apply andb_true_iff. split; [apply Nat.eqb_refl|now apply IHa].
Qed.

(** The reversed form of [fits] *)
Fixpoint fits_rev (s t : list nat) : Prop :=
  match s, t with [], _ => True | _ :: _, [] => False | n :: s', m :: t' => (n = 1 \/ n = m) /\ fits_rev s' t' end.

Lemma fits_rev_iff : forall s t, fits_rev s t <-> exists u v, t = u ++ v /\ Forall2 (fun n m => n = 1 \/ n = m) s u.
Proof.
  induction s as [|n s IH]; intros t; cbn.
  - split; [intros _; exists [], t; split; [reflexivity|constructor]|tauto].
  - destruct t as [|m t].
    + split; [tauto|]. intros (u & v & E & F). inversion F; subst. discriminate.
    + rewrite IH. split.
      * intros [N (u & v & -> & F)]. exists (m :: u), v. split; [reflexivity|now constructor].
      * intros (u & v & E & F). inversion F as [|n' m' s' u' P Q]; subst. injection E as -> ->. split; [assumption|eauto].
Qed.

Lemma forall2_rev : forall A B (R : A -> B -> Prop) a b, Forall2 R a b -> Forall2 R (rev a) (rev b).
Proof.
  intros. induction H; cbn; [constructor|]. apply Forall2_app; [assumption|]. constructor; [assumption|constructor].
Qed.

Lemma fits_iff : forall s t, fits s t <-> fits_rev (rev s) (rev t).
Proof.
  intros s t. rewrite fits_rev_iff. split.
  - intros (p & u & -> & F). exists (rev u), (rev p). split; [apply rev_app_distr|now apply forall2_rev].
  - intros (u & v & E & F). exists (rev v), (rev u).
    apply (f_equal (@rev nat)) in E. rewrite rev_involutive, rev_app_distr in E. split; [exact E|].
    apply forall2_rev in F. now rewrite rev_involutive in F.
Qed.

Lemma bcast_fits : forall a b, bcast a b = Some a <-> fits_rev b a.
Proof.
  induction a as [|x a IH]; destruct b as [|y b]; cbn.
  - split; auto.
  - split; [discriminate|tauto].
  - split; auto.
  - rewrite <- IH. destruct (bcast a b) as [s|]; [|split; [discriminate|intros [_ E]; discriminate]].
    destruct (x =? y) eqn:XY.
    { apply Nat.eqb_eq in XY. split; [intros E; injection E as ->; auto|intros [_ E]; congruence]. }
    apply Nat.eqb_neq in XY. destruct (x =? 1) eqn:X1.
    { apply Nat.eqb_eq in X1. split; [intros E; injection E; intros; subst; lia|intros [[H|H] E]; subst; lia]. }
    apply Nat.eqb_neq in X1. destruct (y =? 1) eqn:Y1.
    { apply Nat.eqb_eq in Y1. split; [intros E; injection E as ->; auto|intros [_ E]; congruence]. }
    apply Nat.eqb_neq in Y1. split; [discriminate|intros [[H|H] _]; lia].
Qed.

(** ** Elements of a result *)

Lemma squeeze_self : forall s i, inside s i -> squeeze s i = i.
Proof.
  intros s i H. induction H; cbn; [reflexivity|]. rewrite IHForall2.
  destruct (Nat.eqb_spec x 1); f_equal; lia.
Qed.

Lemma squeeze_length : forall s i, length (squeeze s i) = Nat.min (length s) (length i).
Proof. induction s; destruct i; cbn; auto. Qed.

Lemma squeeze_rev : forall s i, length s <= length i -> squeeze (rev s) (rev i) = rev (aligned s i).
Proof.
  intros s. induction s as [|n s IH] using rev_ind; intros i L.
  - unfold aligned. cbn. reflexivity.
  - rewrite app_length in L. cbn in L.
    destruct i as [|k i _] using rev_ind; [cbn in L; lia|].
    rewrite app_length in L. cbn in L.
    rewrite !rev_app_distr. cbn [app rev squeeze]. rewrite IH by lia.
    unfold aligned. rewrite !app_length. cbn [length].
    replace (length i + 1 - (length s + 1)) with (length i - length s) by lia.
    rewrite skipn_app. replace (length i - length s - length i) with 0 by lia. cbn [skipn].
    assert (E : length (skipn (length i - length s) i) = length s) by (rewrite skipn_length; lia).
    revert E. generalize (skipn (length i - length s) i) as j. intros j E.
    replace (combine (s ++ [n]) (j ++ [k])) with (combine s j ++ [(n, k)]).
    + rewrite map_app, rev_app_distr. reflexivity.
    + clear -E. revert j E. induction s; destruct j; cbn; intros; try discriminate; [reflexivity|].
      f_equal. apply IHs. lia.
Qed.

Lemma aligned_length : forall s i, length s <= length i -> length (aligned s i) = length s.
Proof. intros. unfold aligned. rewrite map_length, combine_length, skipn_length. lia. Qed.

Lemma element_spec : forall V (zero : V) (a : array V) t i, inside t i -> length (a_shape a) <= length t ->
  element zero (rev t) a (offset t i) = nth (offset (a_shape a) (aligned (a_shape a) i)) (a_data a) zero.
Proof.
  intros V zero a t i I L. unfold element. cbv zeta.
  rewrite <- (ravel_offset t i) by now apply inside_length.
  rewrite unravel_ravel by now apply inside_rev.
  pose proof (inside_length _ _ I).
  rewrite squeeze_rev by lia. rewrite ravel_offset; [reflexivity|]. apply aligned_length. lia.
Qed.

Lemma forall2_length : forall A B (R : A -> B -> Prop) a b, Forall2 R a b -> length a = length b.
Proof. intros. induction H; cbn; congruence. Qed.

Lemma inside_aligned : forall s t i, fits s t -> inside t i -> inside s (aligned s i).
Proof.
  intros s t i (pre & suf & -> & F) I.
  apply Forall2_app_inv_l in I. destruct I as (i1 & i2 & I1 & I2 & ->).
  unfold aligned. rewrite app_length.
  pose proof (inside_length _ _ I2) as L2. pose proof (forall2_length _ _ _ _ _ F) as L.
  replace (length i1 + length i2 - length s) with (length i1) by lia.
  rewrite skipn_app, Nat.sub_diag, skipn_all. cbn [app skipn].
  clear -F I2. revert i2 I2. induction F as [|n m s suf P F IH]; intros i2 I2; inversion I2; subst; cbn; constructor.
  - destruct (Nat.eqb_spec n 1); cbn; lia.
  - apply IH. assumption.
Qed.

Lemma fits_length : forall s t, fits s t -> length s <= length t.
Proof. intros s t (p & u & -> & F). rewrite app_length. pose proof (forall2_length _ _ _ _ _ F). lia. Qed.

Lemma fits_refl : forall s, fits s s.
Proof. intros s. exists [], s. split; [reflexivity|]. induction s; constructor; auto. Qed.

Lemma aligned_self : forall s i, inside s i -> aligned s i = i.
Proof.
  intros s i I. unfold aligned. rewrite (inside_length _ _ I), Nat.sub_diag. cbn [skipn].
  induction I; cbn; [reflexivity|]. rewrite IHI. destruct (Nat.eqb_spec x 1); f_equal; lia.
Qed.

Lemma nth_error_nth_ok : forall A (l : list A) k d, k < length l -> nth_error l k = Some (nth k l d).
Proof. intros. now apply nth_error_nth'. Qed.

(** The elements of a result of shape [t] *)
Lemma elementwise_elem : forall V (zero : V) op t a b i, sound a -> sound b ->
  fits (a_shape a) t -> fits (a_shape b) t -> inside t i ->
  nth_error (elementwise zero op (rev t) a b) (offset t i) =
  match elem a (aligned (a_shape a) i), elem b (aligned (a_shape b) i) with Some x, Some y => Some (op x y) | _, _ => None end.
Proof.
  intros V zero op t a b i Sa Sb Fa Fb I.
  pose proof (inside_aligned _ _ _ Fa I) as Ia. pose proof (inside_aligned _ _ _ Fb I) as Ib.
  pose proof (offset_lt _ _ Ia) as Oa. pose proof (offset_lt _ _ Ib) as Ob. pose proof (offset_lt _ _ I) as O.
  unfold elem. unfold sound in *.
  rewrite (nth_error_nth_ok _ (a_data a) _ zero), (nth_error_nth_ok _ (a_data b) _ zero) by lia.
  unfold elementwise. rewrite nth_error_map, prod_rev.
  rewrite (nth_error_nth_ok _ (List.seq 0 (prod t)) _ 0) by (rewrite seq_length; lia).
  rewrite seq_nth by lia. cbn [option_map Nat.add].
  rewrite !element_spec by (try assumption; now apply fits_length). reflexivity.
Qed.

Lemma elementwise_length : forall V (zero : V) op s a b, length (elementwise zero op s a b) = prod s.
Proof. intros. unfold elementwise. now rewrite map_length, seq_length. Qed.

(** [bcast] gives a shape both fit. *)
Lemma bcast_both : forall a b s, bcast a b = Some s -> fits_rev a s /\ fits_rev b s.
Proof.
  assert (R : forall s, fits_rev s s) by (induction s; cbn; auto).
  induction a as [|x a IH]; intros b s E.
  - cbn in E. injection E as <-. split; [exact I|apply R].
  - destruct b as [|y b]; [cbn in E; injection E as <-; split; [apply R|exact I]|].
    cbn in E. destruct (bcast a b) as [u|] eqn:B; [|discriminate]. apply IH in B. destruct B as [P Q].
    destruct (Nat.eqb_spec x y); [injection E as <-; cbn; auto|].
    destruct (Nat.eqb_spec x 1); [injection E as <-; cbn; auto|].
    destruct (Nat.eqb_spec y 1); [injection E as <-; cbn; auto|discriminate].
Qed.

Lemma bcast_fits_both : forall s t u, bcast (rev s) (rev t) = Some u -> fits s (rev u) /\ fits t (rev u).
Proof. intros s t u B. apply bcast_both in B. rewrite !fits_iff, rev_involutive. exact B. Qed.
