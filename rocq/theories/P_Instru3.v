(** Slices, boolean requests (C56) and expressions of arrays (C55). *)
From Coq Require Import ZArith QArith Bool String List Arith Lia Sorting.Sorted Sorting.Permutation.
From Verif Require Import Base M_Instru P_Instru P_Instru2.
Import ListNotations.
Open Scope nat_scope.
Open Scope list_scope.

(** * Slices *)
Lemma in_arange : forall a b s x, (0 < s)%Z ->
  (In x (z_arange a b s) <-> (a <= x < b)%Z /\ exists j, (0 <= j)%Z /\ x = (a + j * s)%Z).
Proof.
  intros a b s x Hs. unfold z_arange. assert (E : (0 <? s)%Z = true) by (apply Z.ltb_lt; exact Hs). rewrite E.
  pose proof (cdiv_spec (b - a) s Hs) as C. rewrite in_map_iff. split.
  - intros [k [<- I]]. apply in_seq in I. split; [|exists (Z.of_nat k); lia]. nia.
  - intros [B [j [Hj ->]]]. exists (Z.to_nat j). rewrite Z2Nat.id by exact Hj. split; [reflexivity|]. apply in_seq. split; [lia|]. cbn. nia.
Qed.
Lemma nodup_arange : forall a b s, (s <> 0)%Z -> NoDup (z_arange a b s).
Proof.
  intros a b s Hs. unfold z_arange. apply FinFun.Injective_map_NoDup; [|apply seq_NoDup]. intros x y E. nia.
Qed.
Lemma distinct_ints : forall l, NoDup l -> distinct (map inject_Z l).
Proof.
  unfold distinct. induction l as [|x l IH]; intro H; [constructor|]. inversion H; subst. cbn. constructor; [|auto].
  apply Forall_forall. intros y I. apply in_map_iff in I. destruct I as [z [<- I]]. intro E. apply (proj1 (inject_Z_injective _ _)) in E. congruence.
Qed.
Lemma asked_ints : forall l k, asked (map inject_Z l) k <-> In (Z.of_nat k) l.
Proof.
  intros l k. unfold asked. split.
  - intros [x [I E]]. apply in_map_iff in I. destruct I as [z [<- I]]. apply (proj1 (inject_Z_injective _ _)) in E. subst. exact I.
  - intro I. exists (inject_Z (Z.of_nat k)). split; [apply in_map; exact I|reflexivity].
Qed.

Definition bound (o : option Z) (d : Z) : Z := match o with Some x => x | None => d end.

Lemma interval_positions : forall A (l l' : list A) s e, s <= e -> e <= length l -> picked_at (fun k => s <= k < e) l l' ->
  l' = firstn (e - s) (skipn s l).
Proof.
  intros A l l' s e H1 H2 [ks [K1 K2]].
  assert (K : picked (fun k => s <= k < e) (seq 0 (length l)) (seq s (e - s))).
  { replace (length l) with (s + (e - s) + (length l - e)) by lia. rewrite !seq_app. cbn [plus].
    assert (A1 : forall n k, k + n <= s -> picked (fun k => s <= k < e) (seq k n) []).
    { induction n as [|n IH]; intros k H; cbn; [constructor|]. apply pk_drop; [lia|]. apply IH. lia. }
    assert (A2 : forall n k, e <= k -> picked (fun k => s <= k < e) (seq k n) []).
    { induction n as [|n IH]; intros k H; cbn; [constructor|]. apply pk_drop; [lia|]. apply IH. lia. }
    assert (A3 : forall n k, s <= k -> k + n <= e -> picked (fun k => s <= k < e) (seq k n) (seq k n)).
    { induction n as [|n IH]; intros k H H'; cbn; [constructor|]. apply pk_keep; [lia|]. apply IH; lia. }
    assert (Ap : forall (x x' y y' : list nat), picked (fun k => s <= k < e) x x' -> picked (fun k => s <= k < e) y y' -> picked (fun k => s <= k < e) (x ++ y) (x' ++ y')).
    { intros x x' y y' Hx Hy. induction Hx; cbn; [exact Hy|apply pk_keep; assumption|apply pk_drop; assumption]. }
    rewrite <- (app_nil_r (seq s (e - s))) at 2. apply Ap; [|apply A2; lia]. change (seq s (e - s)) with ([] ++ seq s (e - s)) at 2.
    apply Ap; [apply A1; lia|apply A3; lia]. }
  rewrite (picked_fun _ _ _ _ _ K1 K) in K2.
  assert (E : forall n k, k + n <= length l -> map (nth_error l) (seq k n) = map Some (firstn n (skipn k l))).
  { induction n as [|n IH]; intros k H; [reflexivity|]. cbn [seq map]. rewrite IH by lia.
    destruct (nth_error l k) as [x|] eqn:Ex; [|apply nth_error_None in Ex; lia].
    apply nth_error_split in Ex. destruct Ex as (l1 & l2 & -> & <-). rewrite !skipn_app, Nat.sub_diag.
    rewrite skipn_all. replace (S (length l1) - length l1) with 1 by lia. rewrite (skipn_all2 l1) by lia. reflexivity. }
  rewrite E in K2 by lia. revert K2. generalize (firstn (e - s) (skipn s l)). clear.
  induction l' as [|x l' IH]; intros [|y m] H; try discriminate; [reflexivity|]. cbn in H. injection H as -> H. f_equal. auto.
Qed.

Section Slices.
Context {P G L : Type}.
Implicit Types a b c : interf P G L.

(** [a[s:e:step]] with a positive step, inside the array. *)
Theorem by_slice : forall a start e step, wf a ->
  let s := bound start 0 in let st := bound step 1 in
  (0 < st)%Z -> (0 <= s < e)%Z -> (e <= Z.of_nat (i_size a))%Z ->
  exists c, i_getitem a (SSlice start (Some e) step) = Ok c /\ wf c /\ i_place c = i_place a /\
    picked_at (fun k => (s <= Z.of_nat k < e)%Z /\ exists j, (0 <= j)%Z /\ (Z.of_nat k = s + j * st)%Z) (rows a) (rows c).
Proof.
  intros a start e step W s st Hst Hs He. rewrite get_cut. cbn [mask_of].
  assert (R : r_slice start (Some e) step = Ok (z_arange s e st)).
  { unfold r_slice. fold (bound start 0). fold (bound step 1). fold s. fold st. replace (st =? 0)%Z with false; [reflexivity|].
    symmetry. apply Z.eqb_neq. lia. }
  rewrite R. cbn [bind].
  destruct (by_positions a (map inject_Z (z_arange s e st)) (Z.to_nat s) W) as [c (Ec & Wc & Pl & [ks [K1 K2]])].
  - apply distinct_ints, nodup_arange. lia.
  - intros x I. apply in_map_iff in I. destruct I as [z [<- I]]. apply in_arange in I; [|exact Hst]. rewrite <- Zlt_Qlt. lia.
  - lia.
  - apply asked_ints. rewrite Z2Nat.id by lia. apply in_arange; [exact Hst|]. split; [lia|]. exists 0%Z. lia.
  - exists c. split; [exact Ec|]. split; [exact Wc|]. split; [exact Pl|]. exists ks. split; [|exact K2].
    eapply picked_ext; [|exact K1]. intros k _. cbv beta. rewrite asked_ints, in_arange by exact Hst. reflexivity.
Qed.
(** [a[s:e]]: the antennas from [s] to [e], [e] excluded. *)
Theorem by_interval : forall a start (e : nat), wf a -> match start with Some s => s | None => 0 end < e -> e <= i_size a ->
  exists c, i_getitem a (SSlice (option_map Z.of_nat start) (Some (Z.of_nat e)) None) = Ok c /\ wf c /\ i_place c = i_place a /\
    let s := match start with Some s => s | None => 0 end in rows c = firstn (e - s) (skipn s (rows a)).
Proof.
  intros a start e W H1 H2. set (s := match start with Some s => s | None => 0 end) in *.
  assert (B : bound (option_map Z.of_nat start) 0 = Z.of_nat s) by (unfold s; destruct start; reflexivity).
  destruct (by_slice a (option_map Z.of_nat start) (Z.of_nat e) None W) as [c (Ec & Wc & Pl & [ks [K1 K2]])]; rewrite ?B; cbn [bound]; try lia.
  rewrite B in K1. cbn [bound] in K1.
  exists c. split; [exact Ec|]. split; [exact Wc|]. split; [exact Pl|]. cbv zeta. apply interval_positions; [lia|rewrite (rows_length a W); exact H2|].
  exists ks. split; [|exact K2]. eapply picked_ext; [|exact K1]. intros k _. cbv beta. split; [lia|]. intro. split; [lia|].
  exists (Z.of_nat k - Z.of_nat s)%Z. lia.
Qed.
(** Unlike with a list, the end may not be beyond the array... *)
Theorem slice_beyond : forall a start e, let s := bound start 0 in (s < e)%Z -> (Z.of_nat (i_size a) < e)%Z ->
  i_getitem a (SSlice start (Some e) None) = Err EAntennaIndex.
Proof.
  intros a start e s H1 H2. rewrite get_cut. cbn [mask_of].
  change (r_slice start (Some e) None) with (Ok (z_arange s e 1)). cbn [bind].
  pose proof (by_positions_beyond a (map inject_Z (z_arange s e 1)) (inject_Z (e - 1))) as B. rewrite get_cut in B. apply B.
  - apply distinct_ints, nodup_arange. discriminate.
  - apply in_map, in_arange; [lia|]. split; [lia|]. exists (e - 1 - s)%Z. lia.
  - rewrite <- Zle_Qle. lia.
Qed.
(** ... a missing end is not the end of the array: [a[k:]] is the FIRST [k] antennas, ... *)
Theorem slice_tail_refuted : forall a k, wf a -> 0 < k -> k <= i_size a ->
  exists c, i_getitem a (SSlice (Some (Z.of_nat k)) None None) = Ok c /\ rows c = firstn k (rows a).
Proof.
  intros a k W H1 H2. destruct (by_interval a None k W H1 H2) as [c (Ec & _ & _ & R)]. exists c. split; [exact Ec|].
  cbv zeta in R. rewrite R. rewrite Nat.sub_0_r. reflexivity.
Qed.
(** ... [a[:]], [a[::-1]] and [a[:-k]] raise. *)
Theorem slice_all_refuted : forall a step, bound step 1 <> 0%Z -> i_getitem a (SSlice None None step) = Err EValueError.
Proof.
  intros a step H. rewrite get_cut. cbn [mask_of].
  assert (R : r_slice None None step = Ok []).
  { unfold r_slice. fold (bound step 1). replace (bound step 1 =? 0)%Z with false by (symmetry; apply Z.eqb_neq; exact H).
    f_equal. unfold z_arange. cbn [Z.sub Z.opp]. unfold cdiv. cbn. destruct (0 <? bound step 1)%Z; cbn; rewrite ?Zdiv_0_l; reflexivity. }
  rewrite R. reflexivity.
Qed.
Theorem slice_but_last_refuted : forall a k, (0 <= k)%Z -> i_getitem a (SSlice None (Some (- k)%Z) None) = Err EValueError.
Proof.
  intros a k H. rewrite get_cut. cbn [mask_of]. assert (R : r_slice None (Some (- k)%Z) None = Ok []).
  { unfold r_slice. cbn [Z.eqb]. f_equal. unfold z_arange. cbn [Z.ltb Z.compare]. unfold cdiv. rewrite Z.div_1_r.
    replace (Z.to_nat (- - (- k - 0))) with 0 by lia. reflexivity. }
  rewrite R. reflexivity.
Qed.

(** * Boolean requests *)
(** A mask is read as the positions 0 and 1: more than two booleans are never accepted. *)
Theorem mask_refuted : forall a l, 2 < length l -> i_getitem a (SBools l) = Err EDuplicateAntenna.
Proof.
  intros a l H. rewrite get_cut. cbn [mask_of].
  assert (R : repeated Qeq_bool (map (fun b : bool => if b then 1%Q else 0%Q) l) = true).
  { destruct l as [|x [|y [|z l]]]; cbn in H; try lia. destruct x, y, z; cbn; rewrite ?orb_true_r; reflexivity. }
  unfold nums_mask. rewrite R. reflexivity.
Qed.
Theorem mask_two_refuted : forall a, wf a -> 2 <= i_size a ->
  exists c, i_getitem a (SBools [true; false]) = Ok c /\ rows c = firstn 2 (rows a).
Proof.
  intros a W H. destruct (by_interval a None 2 W) as [c (Ec & Wc & Pl & R)]; [lia|exact H|].
  exists c. split; [|exact R]. rewrite <- Ec. rewrite (get_cut a (SBools _)), (get_cut a (SSlice _ _ _)). cbn [mask_of option_map].
  change (r_slice None (Some (Z.of_nat 2)) None) with (Ok [0%Z; 1%Z]). cbn [bind map].
  pose proof (request_order_positions a [1%Q; 0%Q] [0%Q; 1%Q] W (perm_swap _ _ _)) as E. rewrite !get_cut in E. exact E.
Qed.
End Slices.

(** * Expressions of arrays *)
(** What a user may write: given arrays, sums, differences, selections. *)
Inductive expr {A : Type} :=
| ELeaf (a : A)
| EAdd (x y : expr)
| ESub (x y : expr)
| EGet (x : expr) (s : selector).
Arguments expr A : clear implicits.
Fixpoint eval {P G L} (x : expr (interf P G L)) : res (interf P G L) :=
  match x with
  | ELeaf a => Ok a
  | EAdd x y => bind (eval x) (fun a => bind (eval y) (fun b => i_add a b))
  | ESub x y => bind (eval x) (fun a => bind (eval y) (fun b => i_sub a b))
  | EGet x s => bind (eval x) (fun a => i_getitem a s)
  end.
Fixpoint leaves {A} (x : expr A) : list A :=
  match x with
  | ELeaf a => [a]
  | EAdd x y | ESub x y => leaves x ++ leaves y
  | EGet x _ => leaves x
  end.

Section Expressions.
Context {P G L : Type}.
Implicit Types a b c : interf P G L.

Lemma get_ok : forall a s c, wf a -> i_getitem a s = Ok c -> wf c /\ i_place c = i_place a /\
  exists m, rows c = masked m (rows a).
Proof.
  intros a s c W E. rewrite get_cut in E. destruct (mask_of a s) as [m|e]; [|discriminate]. cbn [bind] in E.
  assert (Hm : length m = i_size a).
  { unfold cut, by_mask in E. destruct (length m =? length (i_names a)) eqn:B; [|discriminate]. apply Nat.eqb_eq in B. rewrite B. apply W. }
  destruct (cut_spec a m W Hm) as [[_ [c' (Ec & Wc & Rc & Pl)]]|[_ E']]; [|congruence]. rewrite E in Ec. injection Ec as <-.
  split; [exact Wc|]. split; [exact Pl|]. exists m. exact Rc.
Qed.

Theorem expressions : forall (x : expr (interf P G L)) c,
  (forall a, In a (leaves x) -> wf a /\ unique a) -> eval x = Ok c ->
  wf c /\ unique c /\ (forall r, In r (rows c) -> exists a, In a (leaves x) /\ In r (rows a)) /\
  (exists a, In a (leaves x) /\ i_place c = i_place a).
Proof.
  induction x as [a|x IHx y IHy|x IHx y IHy|x IHx s]; intros c H E; cbn in E.
  - injection E as <-. destruct (H a (or_introl eq_refl)) as [Wa Ua]. repeat split; try apply Wa; [exact Ua| |].
    + intros r I. exists a. cbn. auto.
    + exists a. cbn. auto.
  - destruct (eval x) as [a|e]; [|discriminate]. destruct (eval y) as [b|e]; [|discriminate]. cbn [bind] in E. cbn [leaves] in *.
    destruct (IHx a) as (Wa & Ua & Ra & [pa [Ipa Pa]]); [intros z I; apply H, in_app_iff; auto|reflexivity|].
    destruct (IHy b) as (Wb & Ub & Rb & _); [intros z I; apply H, in_app_iff; auto|reflexivity|].
    destruct (add_ok a b c Wa Wb E) as (Wc & Rc & Pc & _). destruct (add_union a b c Wa Wb E) as [_ U].
    split; [exact Wc|]. split; [exact (U Ua Ub)|]. split.
    + intros r I. rewrite Rc in I. apply in_app_iff in I. destruct I as [I|I].
      * destruct (Ra r I) as [z [Iz Rz]]. exists z. rewrite in_app_iff. auto.
      * apply filter_In in I. destruct (Rb r (proj1 I)) as [z [Iz Rz]]. exists z. rewrite in_app_iff. auto.
    + exists pa. rewrite in_app_iff. split; [auto|congruence].
  - destruct (eval x) as [a|e]; [|discriminate]. destruct (eval y) as [b|e]; [|discriminate]. cbn [bind] in E. cbn [leaves] in *.
    destruct (IHx a) as (Wa & Ua & Ra & [pa [Ipa Pa]]); [intros z I; apply H, in_app_iff; auto|reflexivity|].
    destruct (sub_ok a b c Wa E) as (Wc & Rc & Pc & _). destruct (sub_difference a b c Wa E) as [_ U].
    split; [exact Wc|]. split; [exact (U Ua)|]. split.
    + intros r I. rewrite Rc in I. apply filter_In in I. destruct (Ra r (proj1 I)) as [z [Iz Rz]]. exists z. rewrite in_app_iff. auto.
    + exists pa. rewrite in_app_iff. split; [auto|congruence].
  - destruct (eval x) as [a|e]; [|discriminate]. cbn [bind] in E. cbn [leaves] in *.
    destruct (IHx a) as (Wa & Ua & Ra & [pa [Ipa Pa]]); [exact H|reflexivity|].
    destruct (get_ok a s c Wa E) as (Wc & Pc & [m Rc]).
    split; [exact Wc|]. split; [|split].
    + unfold unique in *. rewrite <- (rows_names c Wc), Rc. rewrite <- (rows_names a Wa) in Ua. clear - Ua. revert m.
      induction (rows a) as [|r l IH]; intros [|b m]; cbn; try constructor. inversion Ua; subst. destruct b; cbn; [constructor|]; auto.
      intro I. apply in_map_iff in I. destruct I as [r' [En I]]. apply masked_in in I. apply H1. rewrite <- En. apply in_map. exact I.
    + intros r I. apply Ra. rewrite Rc in I. eapply masked_in. exact I.
    + exists pa. split; [exact Ipa|congruence].
Qed.
(** No operation returns an array without antennas. *)
Theorem expressions_nonempty : forall (x : expr (interf P G L)) c,
  (forall a, In a (leaves x) -> wf a /\ unique a) -> eval x = Ok c -> 0 < i_size c \/ (exists a, x = ELeaf a).
Proof.
  intros x c H E. destruct x as [a|x y|x y|x s]; [right; eauto| | |]; left; cbn in E; cbn [leaves] in H.
  - destruct (eval x) as [a|e] eqn:Ex; [|discriminate]. destruct (eval y) as [b|e] eqn:Ey; [|discriminate]. cbn [bind] in E.
    destruct (expressions x a) as (Wa & _); [intros z I; apply H, in_app_iff; auto|exact Ex|].
    destruct (expressions y b) as (Wb & _); [intros z I; apply H, in_app_iff; auto|exact Ey|].
    destruct (add_ok a b c Wa Wb E) as (Wc & _ & _ & N). apply rows_nil; assumption.
  - destruct (eval x) as [a|e] eqn:Ex; [|discriminate]. destruct (eval y) as [b|e] eqn:Ey; [|discriminate]. cbn [bind] in E.
    destruct (expressions x a) as (Wa & _); [intros z I; apply H, in_app_iff; auto|exact Ex|].
    destruct (sub_ok a b c Wa E) as (Wc & _ & _ & N). apply rows_nil; assumption.
  - destruct (eval x) as [a|e] eqn:Ex; [|discriminate]. cbn [bind] in E.
    destruct (expressions x a) as (Wa & _); [exact H|exact Ex|]. rewrite get_cut in E. destruct (mask_of a s) as [m|e]; [|discriminate]. cbn [bind] in E.
    assert (Hm : length m = i_size a).
    { unfold cut, by_mask in E. destruct (length m =? length (i_names a)) eqn:B; [|discriminate]. apply Nat.eqb_eq in B. rewrite B. apply Wa. }
    destruct (cut_spec a m Wa Hm) as [[N [c' (Ec & Wc & Rc & Pl)]]|[_ E']]; [|congruence]. rewrite E in Ec. injection Ec as <-.
    apply rows_nil; [exact Wc|]. rewrite Rc. exact N.
Qed.
End Expressions.

(** * Names and positions *)
Theorem names_positions : forall P G L (a : interf P G L) ks, wf a -> unique a -> NoDup ks -> ks <> [] -> (forall k, In k ks -> k < i_size a) ->
  i_getitem a (SNums (map (fun k => inject_Z (Z.of_nat k)) ks)) = i_getitem a (SNames (map (fun k => nth k (i_names a) ""%string) ks)).
Proof.
  intros P G L a ks W U N Ne B. pose proof W as (Hn & _).
  rewrite !get_cut. cbn [mask_of]. unfold nums_mask, names_mask.
  assert (D : repeated Qeq_bool (map (fun k => inject_Z (Z.of_nat k)) ks) = false).
  { apply repeated_nums. rewrite <- map_map. apply distinct_ints. apply FinFun.Injective_map_NoDup; [|exact N]. intros x y E. lia. }
  assert (D' : repeated String.eqb (map (fun k => nth k (i_names a) ""%string) ks) = false).
  { apply repeated_names. clear - N U B Hn. induction ks as [|k ks IH]; cbn; [constructor|]. inversion N; subst. constructor; [|apply IH; auto; intros; apply B; right; assumption].
    intro I. apply in_map_iff in I. destruct I as [j [E I]]. apply H1. replace k with j; [exact I|].
    apply (proj1 (NoDup_nth (i_names a) ""%string) U); [rewrite Hn; apply B; right; exact I|rewrite Hn; apply B; left; reflexivity|exact E]. }
  rewrite D, D'.
  assert (E' : existsb (fun x => negb (has_name (i_names a) x)) (map (fun k => nth k (i_names a) ""%string) ks) = false).
  { destruct (existsb _ _) eqn:E; [|reflexivity]. apply existsb_exists in E. destruct E as [x [I E]]. apply not_has in E. exfalso. apply E.
    apply in_map_iff in I. destruct I as [k [<- I]]. apply nth_In. rewrite Hn. apply B. exact I. }
  rewrite E'.
  assert (M : map (fun k => existsb (Qeq_bool (inject_Z (Z.of_nat k))) (map (fun k => inject_Z (Z.of_nat k)) ks)) (seq 0 (i_size a)) =
              map (has_name (map (fun k => nth k (i_names a) ""%string) ks)) (i_names a)).
  { apply nth_ext with (d := false) (d' := has_name (map (fun k => nth k (i_names a) ""%string) ks) ""%string).
    - rewrite !map_length, seq_length. symmetry. exact Hn.
    - intros i Hi. rewrite map_length, seq_length in Hi. rewrite map_nth.
      rewrite nth_indep with (d' := existsb (Qeq_bool (inject_Z (Z.of_nat 0))) (map (fun k => inject_Z (Z.of_nat k)) ks)) by (rewrite map_length, seq_length; exact Hi).
      rewrite (map_nth (fun k => existsb (Qeq_bool (inject_Z (Z.of_nat k))) (map (fun k => inject_Z (Z.of_nat k)) ks)) (seq 0 (i_size a)) 0 i).
      rewrite seq_nth by exact Hi. cbn [plus]. apply eq_iff_eq_true. rewrite existsb_exists, has_name_in. split.
      + intros [x [I E]]. apply in_map_iff in I. destruct I as [k [<- I]]. apply Qeq_bool_iff in E. apply (proj1 (inject_Z_injective _ _)) in E.
        apply Nat2Z.inj in E. subst k. apply in_map_iff. exists i. auto.
      + intro I. apply in_map_iff in I. destruct I as [k [E I]].
        assert (k = i). { apply (proj1 (NoDup_nth (i_names a) ""%string) U); [rewrite Hn; apply B; exact I|rewrite Hn; exact Hi|exact E]. } subst k.
        exists (inject_Z (Z.of_nat i)). split; [apply in_map_iff; exists i; auto|apply Qeq_bool_iff; reflexivity]. }
  rewrite M. destruct ks as [|k ks]; [congruence|]. cbn [map].
  match goal with |- context [if Qle_bool ?u ?v then _ else _] => destruct (Qle_bool u v) eqn:E end; [|reflexivity]. exfalso.
  apply fold_max in E. destruct E as [y [I E]]. assert (J : In y (map (fun k => inject_Z (Z.of_nat k)) (k :: ks))) by exact I.
  apply in_map_iff in J. destruct J as [j [<- J]]. rewrite <- Zle_Qle in E. specialize (B j J). lia.
Qed.
