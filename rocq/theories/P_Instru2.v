(** Specification and proofs for the selection of antennas (C56) and for
    expressions of arrays (C55). *)
From Coq Require Import ZArith QArith Bool String List Arith Lia Sorting.Sorted Sorting.Permutation.
From Verif Require Import Base M_Instru P_Instru.
Import ListNotations.
Open Scope nat_scope.
Open Scope list_scope.

(** * Specification *)
(** [l'] is made of the elements of [l] that satisfy [K], in the same order. *)
Inductive picked {A} (K : A -> Prop) : list A -> list A -> Prop :=
| pk_nil : picked K [] []
| pk_keep : forall x l l', K x -> picked K l l' -> picked K (x :: l) (x :: l')
| pk_drop : forall x l l', ~ K x -> picked K l l' -> picked K (x :: l) l'.
(** The elements of [l] whose position satisfies [K]. *)
Definition picked_at {A} (K : nat -> Prop) (l l' : list A) : Prop :=
  exists ks, picked K (seq 0 (length l)) ks /\ map (nth_error l) ks = map Some l'.
(** Numbers that are all different. *)
Definition distinct (l : list Q) : Prop := ForallOrdPairs (fun x y => ~ (x == y)%Q) l.
Definition asked (l : list Q) (k : nat) : Prop := exists x, In x l /\ (x == inject_Z (Z.of_nat k))%Q.

(** * Tools *)
Lemma picked_filter : forall A (K : A -> Prop) (f : A -> bool) l, (forall x, In x l -> (f x = true <-> K x)) -> picked K l (filter f l).
Proof.
  intros A K f. induction l as [|x l IH]; intro H; [constructor|]. cbn. pose proof (H x (or_introl eq_refl)) as Hx.
  destruct (f x); [apply pk_keep|apply pk_drop]; [apply Hx; reflexivity| |intro C; apply Hx in C; discriminate|];
    apply IH; intros y I; apply H; right; exact I.
Qed.
Lemma picked_fun : forall A (K : A -> Prop) l x y, picked K l x -> picked K l y -> x = y.
Proof.
  intros A K l x y H. revert y. induction H; intros y' H'; inversion H'; subst; try contradiction; [reflexivity|f_equal; auto|auto].
Qed.
Lemma picked_in : forall A (K : A -> Prop) l l', picked K l l' -> forall x, In x l' <-> In x l /\ K x.
Proof.
  intros A K l l' H. induction H; intro y; cbn.
  - tauto.
  - rewrite IHpicked. split; [intros [->|[I k]]; auto|intros [[->|I] k]; auto].
  - rewrite IHpicked. split; [tauto|]. intros [[->|I] k]; [contradiction|tauto].
Qed.
Lemma picked_ext : forall A (K K' : A -> Prop) l l', (forall x, In x l -> (K x <-> K' x)) -> picked K l l' -> picked K' l l'.
Proof.
  intros A K K' l l' H P. induction P; [constructor|apply pk_keep|apply pk_drop].
  - apply H; [left; reflexivity|assumption].
  - apply IHP. intros y I. apply H. right. exact I.
  - intro C. apply H in C; [contradiction|left; reflexivity].
  - apply IHP. intros y I. apply H. right. exact I.
Qed.

Lemma masked_positions : forall A (f : nat -> bool) (l : list A) s (w : list A),
  (forall k, k < length l -> nth_error w (s + k) = nth_error l k) ->
  map (nth_error w) (filter f (seq s (length l))) = map Some (masked (map f (seq s (length l))) l).
Proof.
  intros A f. induction l as [|x l IH]; intros s w H; [reflexivity|]. cbn [length seq map filter masked].
  assert (T : map (nth_error w) (filter f (seq (S s) (length l))) = map Some (masked (map f (seq (S s) (length l))) l)).
  { apply IH. intros k Hk. specialize (H (S k)). rewrite <- plus_n_Sm in H. apply H. cbn. lia. }
  destruct (f s); [|exact T]. cbn [map]. rewrite T. f_equal. specialize (H 0). rewrite Nat.add_0_r in H. apply H. cbn. lia.
Qed.

Lemma repeated_spec : forall A (eqb : A -> A -> bool) l, repeated eqb l = false <-> ForallOrdPairs (fun x y => eqb x y = false) l.
Proof.
  intros A eqb. induction l as [|x l IH]; cbn; [split; [constructor|reflexivity]|]. rewrite orb_false_iff, IH. split.
  - intros [H1 H2]. constructor; [|exact H2]. apply Forall_forall. intros y I. destruct (eqb x y) eqn:E; [|reflexivity].
    assert (existsb (eqb x) l = true) by (apply existsb_exists; eauto). congruence.
  - intro H. inversion H; subst. split; [|assumption]. destruct (existsb (eqb x) l) eqn:E; [|reflexivity].
    apply existsb_exists in E. destruct E as [y [I E]]. rewrite Forall_forall in H2. rewrite (H2 y I) in E. discriminate.
Qed.
Lemma repeated_names : forall l, repeated String.eqb l = false <-> NoDup l.
Proof.
  intro l. rewrite repeated_spec. induction l as [|x l IH]; [split; constructor|]. split; intro H; inversion H; subst.
  - constructor; [|apply IH; assumption]. intro I. rewrite Forall_forall in H2. specialize (H2 x I). rewrite String.eqb_refl in H2. discriminate.
  - constructor; [|apply IH; assumption]. apply Forall_forall. intros y I. apply String.eqb_neq. congruence.
Qed.
Lemma repeated_nums : forall l, repeated Qeq_bool l = false <-> distinct l.
Proof.
  intro l. rewrite repeated_spec. unfold distinct. induction l as [|x l IH]; [split; constructor|].
  split; intro H; inversion H; subst; (constructor; [|apply IH; assumption]); apply Forall_forall; rewrite Forall_forall in H2; intros y I; specialize (H2 y I).
  - intro C. apply Qeq_bool_iff in C. congruence.
  - destruct (Qeq_bool x y) eqn:E; [|reflexivity]. apply Qeq_bool_iff in E. contradiction.
Qed.

Lemma fold_max : forall l x b, (Qle_bool b (fold_left (fun m y => if Qle_bool y m then m else y) l x) = true <->
  exists y, In y (x :: l) /\ (b <= y)%Q).
Proof.
  induction l as [|z l IH]; intros x b; cbn [fold_left].
  - rewrite Qle_bool_iff. split; [intro H; exists x; split; [left; reflexivity|exact H]|intros [y [[->|[]] H]]; exact H].
  - rewrite IH. destruct (Qle_bool z x) eqn:E.
    + apply Qle_bool_iff in E. split; intros [y [I H]].
      * exists y. split; [|exact H]. destruct I as [I|I]; [left|right; right]; assumption.
      * destruct I as [->|[->|I]]; [exists y|exists x|exists y]; (split; [|eauto using Qle_trans]); cbn; auto.
    + assert (E' : (x <= z)%Q). { apply Qlt_le_weak, Qnot_le_lt. intro C. apply Qle_bool_iff in C. congruence. }
      split; intros [y [I H]].
      * exists y. split; [|exact H]. right. exact I.
      * destruct I as [->|I]; [exists z|exists y]; (split; [|eauto using Qle_trans]); cbn; auto.
Qed.

Section Selection.
Context {P G L : Type}.
Implicit Types a b c : interf P G L.

Lemma get_cut : forall a s, i_getitem a s = bind (mask_of a s) (cut a).
Proof. reflexivity. Qed.

(** * By names *)
Theorem by_names : forall a l, wf a -> NoDup l -> l <> [] -> incl l (i_names a) ->
  exists c, i_getitem a (SNames l) = Ok c /\ wf c /\ i_place c = i_place a /\
    picked (fun r => In (rname r) l) (rows a) (rows c) /\ picked (fun x => In x l) (i_names a) (i_names c).
Proof.
  intros a l W N Ne I. rewrite get_cut. cbn [mask_of]. unfold names_mask. rewrite (proj2 (repeated_names l) N).
  assert (E : existsb (fun x => negb (has_name (i_names a) x)) l = false).
  { destruct (existsb _ l) eqn:E; [|reflexivity]. apply existsb_exists in E. destruct E as [x [J E]]. apply not_has in E. exfalso. exact (E (I x J)). }
  rewrite E. cbn [bind].
  assert (Em : map (has_name l) (i_names a) = map (has_name l) (map rname (rows a))) by (rewrite (rows_names a W); reflexivity).
  rewrite Em.
  destruct (cut_spec a (map (has_name l) (map rname (rows a))) W) as [[_ [c (Ec & Wc & Rc & Pl)]]|[E0 _]].
  - rewrite !map_length. apply rows_length. exact W.
  - exists c. rewrite (masked_filter _ _ (has_name l) rname) in Rc. repeat split; try assumption; try apply Wc.
    + rewrite Rc. apply picked_filter. intros r _. apply has_name_in.
    + rewrite <- (rows_names c Wc), Rc, <- (rows_names a W). clear. induction (rows a) as [|r rs IH]; cbn; [constructor|].
      destruct (has_name l (rname r)) eqn:E; cbn; [apply pk_keep|apply pk_drop]; try exact IH.
      * apply has_name_in. exact E.
      * intro J. apply has_name_in in J. congruence.
  - exfalso. rewrite (masked_filter _ _ (has_name l) rname) in E0. destruct l as [|x l]; [congruence|].
    specialize (I x (or_introl eq_refl)). rewrite <- (rows_names a W) in I. apply in_map_iff in I. destruct I as [r [En Ir]].
    assert (F : In r (filter (fun y => has_name (x :: l) (rname y)) (rows a))).
    { apply filter_In. split; [exact Ir|]. apply has_name_in. left. symmetry. exact En. }
    rewrite E0 in F. destruct F.
Qed.
Theorem by_names_duplicate : forall a l, ~ NoDup l -> i_getitem a (SNames l) = Err EDuplicateAntenna.
Proof.
  intros a l H. rewrite get_cut. cbn [mask_of]. unfold names_mask. destruct (repeated String.eqb l) eqn:E; [reflexivity|].
  exfalso. apply H, repeated_names, E.
Qed.
Theorem by_names_unknown : forall a l x, NoDup l -> In x l -> ~ In x (i_names a) -> i_getitem a (SNames l) = Err EAntennaName.
Proof.
  intros a l x N I H. rewrite get_cut. cbn [mask_of]. unfold names_mask. rewrite (proj2 (repeated_names l) N).
  assert (E : existsb (fun x => negb (has_name (i_names a) x)) l = true).
  { apply existsb_exists. exists x. split; [exact I|]. apply not_has. exact H. }
  rewrite E. reflexivity.
Qed.
Theorem by_names_nothing : forall a, wf a -> i_getitem a (SNames []) = Err EValueError.
Proof.
  intros a W. rewrite get_cut. cbn. rewrite <- (rows_names a W).
  destruct (cut_spec a (map (has_name []) (map rname (rows a))) W) as [[N _]|[_ E]].
  - rewrite !map_length. apply rows_length. exact W.
  - exfalso. apply N. rewrite (masked_filter _ _ (has_name []) rname). clear. induction (rows a); [reflexivity|]. cbn. assumption.
  - exact E.
Qed.

(** * By positions *)
Lemma nums_case : forall a l, wf a -> distinct l -> (forall x, In x l -> (x < inject_Z (Z.of_nat (i_size a)))%Q) -> l <> [] ->
  let c := i_getitem a (SNums l) in
  ((exists k, k < i_size a /\ asked l k) /\
   exists d, c = Ok d /\ wf d /\ i_place d = i_place a /\ picked_at (asked l) (rows a) (rows d)) \/
  ((forall k, k < i_size a -> ~ asked l k) /\ c = Err EValueError).
Proof.
  intros a l W D B Ne. cbv zeta. rewrite get_cut. cbn [mask_of]. unfold nums_mask. rewrite (proj2 (repeated_nums l) D).
  destruct l as [|x l]; [congruence|]. set (req := x :: l) in *.
  match goal with |- context [if Qle_bool ?u ?v then _ else _] => destruct (Qle_bool u v) eqn:E end.
  { exfalso. apply fold_max in E. destruct E as [y [I E]]. apply (Qle_not_lt _ _ E), B, I. }
  cbn [bind]. set (f := fun k => existsb (Qeq_bool (inject_Z (Z.of_nat k))) req).
  assert (Hf : forall k, f k = true <-> asked req k).
  { intro k. unfold f. rewrite existsb_exists. split; intros [y [I H]]; exists y; (split; [exact I|]).
    - apply Qeq_bool_iff in H. symmetry. exact H.
    - apply Qeq_bool_iff. symmetry. exact H. }
  pose proof (masked_positions _ f (rows a) 0 (rows a) (fun k _ => eq_refl)) as M. rewrite (rows_length a W) in M.
  destruct (cut_spec a (map f (seq 0 (i_size a))) W) as [[N [c (Ec & Wc & Rc & Pl)]]|[E0 Ec]].
  - rewrite map_length. apply seq_length.
  - left. split.
    + destruct (masked (map f (seq 0 (i_size a))) (rows a)) as [|r rs]; [congruence|].
      destruct (filter f (seq 0 (i_size a))) as [|k ks] eqn:F; [discriminate|]. exists k.
      assert (I : In k (filter f (seq 0 (i_size a)))) by (rewrite F; left; reflexivity). apply filter_In in I. destruct I as [I1 I2].
      apply in_seq in I1. split; [lia|]. apply Hf. exact I2.
    + exists c. repeat split; try assumption; try apply Wc. exists (filter f (seq 0 (length (rows a)))). rewrite (rows_length a W). split.
      * apply picked_filter. intros k _. apply Hf.
      * rewrite Rc. exact M.
  - right. split; [|exact Ec]. intros k Hk A. rewrite E0 in M. cbn in M. apply map_eq_nil in M.
    assert (I : In k (filter f (seq 0 (i_size a)))) by (apply filter_In; split; [apply in_seq; lia|apply Hf; exact A]). rewrite M in I. destruct I.
Qed.
Theorem by_positions : forall a l k, wf a -> distinct l -> (forall x, In x l -> (x < inject_Z (Z.of_nat (i_size a)))%Q) ->
  k < i_size a -> asked l k ->
  exists c, i_getitem a (SNums l) = Ok c /\ wf c /\ i_place c = i_place a /\ picked_at (asked l) (rows a) (rows c).
Proof.
  intros a l k W D B Hk A. destruct (nums_case a l W D B) as [[_ H]|[H _]].
  - intros ->. destruct A as [x [[] _]].
  - exact H.
  - exfalso. exact (H k Hk A).
Qed.
Theorem by_positions_duplicate : forall a l, ~ distinct l -> i_getitem a (SNums l) = Err EDuplicateAntenna.
Proof.
  intros a l H. rewrite get_cut. cbn [mask_of]. unfold nums_mask. destruct (repeated Qeq_bool l) eqn:E; [reflexivity|].
  exfalso. apply H, repeated_nums, E.
Qed.
Theorem by_positions_beyond : forall a l x, distinct l -> In x l -> (inject_Z (Z.of_nat (i_size a)) <= x)%Q ->
  i_getitem a (SNums l) = Err EAntennaIndex.
Proof.
  intros a l x D I H. rewrite get_cut. cbn [mask_of]. unfold nums_mask. rewrite (proj2 (repeated_nums l) D).
  destruct l as [|y l]; [destruct I|].
  match goal with |- context [if Qle_bool ?u ?v then _ else _] => destruct (Qle_bool u v) eqn:E end; [reflexivity|].
  exfalso. rewrite (proj2 (fold_max l y _)) in E; [discriminate|]. exists x. auto.
Qed.
(** Negative and fractional numbers are ignored, not refused. *)
Theorem by_positions_nowhere : forall a l, wf a -> distinct l -> (forall x, In x l -> (x < inject_Z (Z.of_nat (i_size a)))%Q) ->
  (forall k, k < i_size a -> ~ asked l k) -> i_getitem a (SNums l) = Err EValueError.
Proof.
  intros a l W D B H. destruct l as [|x l]; [reflexivity|]. destruct (nums_case a (x :: l) W D B) as [[[k [Hk A]] _]|[_ E]].
  - discriminate.
  - exfalso. exact (H k Hk A).
  - exact E.
Qed.
Lemma asked_negative : forall k, ~ asked [(-1)%Q] k.
Proof. intros k [x [[<-|[]] E]]. unfold Qeq in E. cbn in E. lia. Qed.
Theorem negative_refuted : forall a, wf a -> i_getitem a (SNums [(-1)%Q]) = Err EValueError.
Proof.
  intros a W. apply by_positions_nowhere; [exact W| | |].
  - repeat constructor.
  - intros x [<-|[]]. change (-1)%Q with (inject_Z (-1)). rewrite <- Zlt_Qlt. lia.
  - intros k _. apply asked_negative.
Qed.

(** The order of the request does not matter, nor how its numbers are written. *)
Theorem request_order_names : forall a l l', wf a -> Permutation l l' -> i_getitem a (SNames l) = i_getitem a (SNames l').
Proof.
  intros a l l' W Pm.
  destruct (repeated String.eqb l) eqn:R.
  { rewrite by_names_duplicate, by_names_duplicate; [reflexivity| |]; intro N; apply repeated_names in N; [|congruence].
    apply repeated_names in N. apply (Permutation_NoDup (Permutation_sym Pm)) in N. apply repeated_names in N. congruence. }
  apply repeated_names in R. pose proof (Permutation_NoDup Pm R) as R'.
  rewrite !get_cut. cbn [mask_of]. unfold names_mask. rewrite (proj2 (repeated_names l) R), (proj2 (repeated_names l') R').
  assert (E : existsb (fun x => negb (has_name (i_names a) x)) l = existsb (fun x => negb (has_name (i_names a) x)) l').
  { apply eq_iff_eq_true. rewrite !existsb_exists. split; intros [x [I H]]; exists x; (split; [|exact H]).
    - eapply Permutation_in; eassumption.
    - eapply Permutation_in; [apply Permutation_sym|]; eassumption. }
  rewrite E. assert (F : map (has_name l) (i_names a) = map (has_name l') (i_names a)).
  { apply map_ext. intro x. apply eq_iff_eq_true. rewrite !has_name_in. split; intro I.
    - eapply Permutation_in; eassumption.
    - eapply Permutation_in; [apply Permutation_sym|]; eassumption. }
  rewrite F. reflexivity.
Qed.
Lemma distinct_perm : forall l l', Permutation l l' -> distinct l -> distinct l'.
Proof.
  unfold distinct. intros l l' Pm. induction Pm; intro D.
  - constructor.
  - inversion D; subst. constructor; [|auto]. rewrite Forall_forall in *. intros y I. apply H1. eapply Permutation_in; [apply Permutation_sym|]; eassumption.
  - inversion D as [|u v A B]; subst. inversion B as [|u' v' A' B']; subst. inversion A; subst. repeat constructor; try assumption.
    intro C. symmetry in C. contradiction.
  - auto.
Qed.
Theorem request_order_positions : forall a l l', wf a -> Permutation l l' -> i_getitem a (SNums l) = i_getitem a (SNums l').
Proof.
  intros a l l' W Pm.
  destruct (repeated Qeq_bool l) eqn:R.
  { rewrite by_positions_duplicate, by_positions_duplicate; [reflexivity| |]; intro N.
    - apply (distinct_perm _ _ (Permutation_sym Pm)), repeated_nums in N. congruence.
    - apply repeated_nums in N. congruence. }
  apply repeated_nums in R. pose proof (distinct_perm _ _ Pm R) as R'.
  destruct (existsb (Qle_bool (inject_Z (Z.of_nat (i_size a)))) l) eqn:E.
  { apply existsb_exists in E. destruct E as [x [I E]]. apply Qle_bool_iff in E.
    rewrite (by_positions_beyond a l x R I E). symmetry. apply (by_positions_beyond a l' x R'); [|exact E]. eapply Permutation_in; eassumption. }
  assert (B : forall x, In x l -> (x < inject_Z (Z.of_nat (i_size a)))%Q).
  { intros x I. apply Qnot_le_lt. intro C. apply Qle_bool_iff in C.
    assert (existsb (Qle_bool (inject_Z (Z.of_nat (i_size a)))) l = true) by (apply existsb_exists; eauto). congruence. }
  assert (B' : forall x, In x l' -> (x < inject_Z (Z.of_nat (i_size a)))%Q).
  { intros x I. apply B. eapply Permutation_in; [apply Permutation_sym|]; eassumption. }
  assert (A : forall k, asked l k <-> asked l' k).
  { intro k. split; intros [x [I H]]; exists x; (split; [|exact H]).
    - eapply Permutation_in; eassumption.
    - eapply Permutation_in; [apply Permutation_sym|]; eassumption. }
  destruct l as [|x l]; [apply Permutation_nil in Pm; subst; reflexivity|].
  destruct l' as [|x' l']; [apply Permutation_sym, Permutation_nil in Pm; discriminate|].
  destruct (nums_case a (x :: l) W R B) as [[[k [Hk Ak]] [c (Ec & Wc & Plc & [ks [K1 K2]])]]|[H1 E1]]; [discriminate| |];
  (destruct (nums_case a (x' :: l') W R' B') as [[[k' [Hk' Ak']] [c' (Ec' & Wc' & Plc' & [ks' [K1' K2']])]]|[H1' E1']]; [discriminate| |]).
  - rewrite Ec, Ec'. f_equal. apply rows_inj; [assumption|assumption|congruence|].
    apply (picked_ext _ _ (asked (x' :: l'))) in K1; [|intros; apply A]. rewrite (picked_fun _ _ _ _ _ K1 K1') in K2.
    rewrite K2 in K2'. revert K2'. generalize (rows c) (rows c'). clear. induction l as [|r l IH]; intros [|r' l'] H; try discriminate; [reflexivity|].
    cbn in H. injection H as -> H. f_equal. auto.
  - exfalso. apply (H1' k Hk). apply A. exact Ak.
  - exfalso. apply (H1 k' Hk'). apply A. exact Ak'.
  - congruence.
Qed.

(** Taking antennas out and keeping the others. *)
Theorem partition : forall a s x y, wf a -> unique a -> i_getitem a s = Ok x -> i_sub a x = Ok y ->
  Permutation (rows x ++ rows y) (rows a).
Proof.
  intros a s x y W U Ex Ey. rewrite get_cut in Ex. destruct (mask_of a s) as [m|e]; [|discriminate]. cbn [bind] in Ex.
  assert (Hm : length m = i_size a).
  { unfold cut, by_mask in Ex. destruct (length m =? length (i_names a)) eqn:E; [|discriminate]. apply Nat.eqb_eq in E. rewrite E. apply W. }
  destruct (cut_spec a m W Hm) as [[_ [c (Ec & Wc & Rc & Pl)]]|[_ E]]; [|congruence]. rewrite Ex in Ec. injection Ec as <-.
  destruct (sub_ok a x y W Ey) as (_ & Ry & _ & _). rewrite Rc, Ry.
  pose proof (nodup_rows a W U) as N. assert (NN : NoDup (map rname (rows a))) by (rewrite (rows_names a W); exact U).
  assert (Hin : forall r, In r (rows a) -> (outside (i_names x) r = false <-> In r (masked m (rows a)))).
  { intros r I. rewrite <- Rc. unfold outside. rewrite negb_false_iff, has_name_in, <- (rows_names x Wc). split.
    - intro J. apply in_map_iff in J. destruct J as [r' [En J]]. assert (r' = r); [|subst; exact J].
      rewrite Rc in J. apply masked_in in J. clear - En J I NN. induction (rows a) as [|z l IH]; [destruct I|].
      cbn in NN. inversion NN; subst. destruct I as [->|I], J as [->|J]; auto.
      + exfalso. apply H1. rewrite <- En. apply in_map. exact J.
      + exfalso. apply H1. rewrite En. apply in_map. exact I.
    - apply in_map. }
  assert (Sm : length m = length (rows a)) by (rewrite (rows_length a W); exact Hm).
  transitivity (filter (fun r => negb (outside (i_names x) r)) (rows a) ++ filter (outside (i_names x)) (rows a)).
  - apply Permutation_app_tail. apply NoDup_Permutation.
    + clear - N. revert m. induction (rows a) as [|r l IH]; intros [|b m]; try constructor. inversion N; subst. cbn.
      destruct b; [constructor|]; auto. intro I. apply masked_in in I. contradiction.
    + apply NoDup_filter. exact N.
    + intro r. rewrite filter_In, negb_true_iff. split; [intro I; pose proof (masked_in _ _ _ _ I) as J; split; [exact J|apply Hin; assumption]|].
      intros [I J]. apply Hin; assumption.
  - clear. induction (rows a) as [|r l IH]; [constructor|]. cbn. destruct (outside (i_names x) r); cbn.
    + rewrite <- Permutation_middle. constructor. exact IH.
    + constructor. exact IH.
Qed.
End Selection.
