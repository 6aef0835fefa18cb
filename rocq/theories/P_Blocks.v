(** Specification and proofs: collections of blocks and the overlap test. *)
From Coq Require Import List Arith ZArith QArith Bool Lia.
From Verif Require Import Base M_Slots M_Sched M_Cnst M_Blocks P_Cnst3.
Import ListNotations.
Open Scope nat_scope.

(** ** Specification *)

(** The tuple of elements of the object at [a]. *)
Definition elements (h : heap) (a : nat) (l : list nat) : Prop :=
  exists o, nth_error h a = Some o /\ o_refs o = l.

(** The attributes of the objects of a list. *)
Definition data_at (h : heap) (r : nat) (d : payload) : Prop :=
  exists o, nth_error h r = Some o /\ o_data o = d.

(** The elements carry the numbers 0, 1, 2... *)
Definition numbered (h : heap) (l : list nat) : Prop :=
  forall i r, nth_error l i = Some r -> exists o, nth_error h r = Some o /\ o_idx o = Some i.

(** Objects of [h] still exist in [h'], with their attributes and elements;
    [same_heap_but] allows the numbers of some of them to change. *)
Definition same_but (changed : nat -> Prop) (h h' : heap) : Prop :=
  forall r o, nth_error h r = Some o -> exists o', nth_error h' r = Some o' /\
    o_data o' = o_data o /\ o_refs o' = o_refs o /\ (~ changed r -> o_idx o' = o_idx o).

(** The heaps a program can build.  [Block(...)] may be called on any objects. *)
Inductive breach : heap -> Prop :=
| br_nil : breach []
| br_obs h n p d dl cs : breach h -> cset_reach cs -> breach (fst (new_one h (PObs n p d dl cs)))
| br_res h a b : breach h -> breach (fst (new_one h (PRes a b)))
| br_block h l : breach h -> Forall (fun r => r < length h) l -> breach (fst (new_block h l))
| br_plus h x y : breach h -> valid_value h x -> valid_value h y -> breach (fst (py_plus h x y))
| br_sum h l : breach h -> Forall (valid_value h) l -> breach (fst (py_sum h l))
| br_reduce h l : breach h -> Forall (valid_value h) l -> breach (fst (py_reduce h l))
| br_mul h a n : breach h -> a < length h -> breach (fst (mul h a n))
| br_get h a n test : breach h -> a < length h -> breach (fst (get h a n test))
| br_periodic h a start stop p tol cap : breach h -> is_obs h a = true ->
    breach (fst (periodic h a start stop p tol cap))
with valid_value : heap -> value -> Prop :=
| vv_ref h a : a < length h -> valid_value h (VRef a)
| vv_int h z : valid_value h (VInt z)
| vv_other h : valid_value h VOther.

(** References lead to objects. *)
Definition wf (h : heap) : Prop :=
  forall a o, nth_error h a = Some o -> Forall (fun r => r < length h) (o_refs o).

(** ** Heap lemmas *)

Lemma modify_length : forall k f h, length (modify k f h) = length h.
Proof. intros; apply imap_length. Qed.

Lemma nth_modify : forall k f h r,
  nth_error (modify k f h) r = if r =? k then option_map f (nth_error h r) else nth_error h r.
Proof.
  intros. unfold modify. rewrite nth_error_imap. destruct (r =? k); [reflexivity|]. now destruct (nth_error h r).
Qed.

Definition assign_from (k : nat) (h : heap) (refs : list nat) : heap :=
  fold_left (fun h (p : nat * nat) =>
               modify (snd p) (fun o => mkObj (o_data o) (Some (fst p)) (o_refs o)) h)
            (combine (seq k (length refs)) refs) h.

Lemma assign_is : forall h refs, assign h refs = assign_from 0 h refs.
Proof. reflexivity. Qed.

Lemma assign_from_spec : forall refs k h r,
  match nth_error h r with
  | None => nth_error (assign_from k h refs) r = None
  | Some o => exists o', nth_error (assign_from k h refs) r = Some o' /\ o_data o' = o_data o /\ o_refs o' = o_refs o /\
      ((~ In r refs /\ o_idx o' = o_idx o) \/
       exists i, nth_error refs i = Some r /\ (forall j, i < j -> nth_error refs j <> Some r) /\ o_idx o' = Some (k + i))
  end.
Proof.
  induction refs as [|x t IH]; intros k h r.
  - cbn. destruct (nth_error h r) as [o|]; [|reflexivity]. exists o. repeat (split; [reflexivity|]). left. split; [auto|reflexivity].
  - unfold assign_from. cbn [length seq combine fold_left fst snd].
    fold (assign_from (S k) (modify x (fun o => mkObj (o_data o) (Some k) (o_refs o)) h) t).
    set (h1 := modify x _ h). pose proof (IH (S k) h1 r) as S1. unfold h1 in S1 at 1. rewrite nth_modify in S1.
    destruct (Nat.eqb_spec r x) as [EQ|N].
    + destruct (nth_error h r) as [o|]; [|exact S1]. cbn in S1. destruct S1 as (o' & A & B & C & D).
      exists o'. split; [exact A|]. split; [exact B|]. split; [exact C|]. right.
      destruct D as [[NI D]|(i & D1 & D2 & D3)].
      * exists 0. cbn. subst x. split; [reflexivity|]. split; [|rewrite D; f_equal; lia].
        intros [|j] J; [lia|]. cbn. intros E. apply NI. now apply nth_error_In in E.
      * exists (S i). cbn. split; [exact D1|]. split; [|rewrite D3; f_equal; lia].
        intros [|j] J; [lia|]. cbn. apply D2. lia.
    + destruct (nth_error h r) as [o|]; [|exact S1]. destruct S1 as (o' & A & B & C & D).
      exists o'. split; [exact A|]. split; [exact B|]. split; [exact C|].
      destruct D as [[NI D]|(i & D1 & D2 & D3)].
      * left. split; [|exact D]. intros [E|E]; [congruence|contradiction].
      * right. exists (S i). cbn. split; [exact D1|]. split; [|rewrite D3; f_equal; lia].
        intros [|j] J; [lia|]. cbn. apply D2. lia.
Qed.

Lemma assign_length : forall refs k h, length (assign_from k h refs) = length h.
Proof.
  induction refs as [|x t IH]; intros k h; [reflexivity|].
  unfold assign_from. cbn [length seq combine fold_left fst snd].
  fold (assign_from (S k) (modify x (fun o => mkObj (o_data o) (Some k) (o_refs o)) h) t).
  rewrite IH. apply modify_length.
Qed.

(** What [Block(...)] does. *)
Lemma new_block_spec : forall h l, Forall (fun r => r < length h) l ->
  let h' := fst (new_block h l) in let a := snd (new_block h l) in
  length h' = S (length h) /\ a = length h /\ elements h' a l /\ data_at h' a PBlock /\
  same_but (fun r => In r l) h h' /\
  (forall i r, nth_error l i = Some r -> (forall j, i < j -> nth_error l j <> Some r) ->
     exists o, nth_error h' r = Some o /\ o_idx o = Some i).
Proof.
  intros h l F h' a. unfold new_block in h', a. cbn [fst snd] in *.
  assert (S1 : forall r o, nth_error h r = Some o -> exists o', nth_error h' r = Some o' /\
      o_data o' = o_data o /\ o_refs o' = o_refs o /\
      ((~ In r l /\ o_idx o' = o_idx o) \/
       exists i, nth_error l i = Some r /\ (forall j, i < j -> nth_error l j <> Some r) /\ o_idx o' = Some i)).
  { intros r o E. pose proof (assign_from_spec l 0 (h ++ [mkObj PBlock None l]) r) as A.
    rewrite nth_error_app1 in A by (apply nth_error_Some; congruence). rewrite E in A. exact A. }
  split; [unfold h'; rewrite assign_is, assign_length, app_length; cbn; lia|]. split; [reflexivity|].
  assert (E1 : exists o', nth_error h' a = Some o' /\ o_data o' = PBlock /\ o_refs o' = l).
  { pose proof (assign_from_spec l 0 (h ++ [mkObj PBlock None l]) a) as A.
    unfold a in A. rewrite nth_error_app2, Nat.sub_diag in A by lia. cbn in A.
    destruct A as (o' & A1 & A2 & A3 & _). exists o'. split; [exact A1|]. now split. }
  destruct E1 as (oa & A1 & A2 & A3).
  split; [exists oa; now split|]. split; [exists oa; now split|]. split.
  - intros r o E. destruct (S1 r o E) as (o' & B1 & B2 & B3 & B4). exists o'. repeat (split; [assumption|]).
    intros N. destruct B4 as [[_ B]|(i & B & _)]; [assumption|]. apply nth_error_In in B. contradiction.
  - intros i r E LST. assert (R : r < length h). { rewrite Forall_forall in F. apply F. now apply nth_error_In in E. }
    destruct (nth_error h r) as [o|] eqn:O; [|apply nth_error_None in O; lia].
    destruct (S1 r o O) as (o' & B1 & B2 & B3 & [[N _]|(j & J1 & J2 & J3)]).
    + apply nth_error_In in E. contradiction.
    + exists o'. split; [assumption|]. rewrite J3. f_equal.
      destruct (lt_eq_lt_dec i j) as [[L|L]|L]; [now apply LST in L|congruence|now apply J2 in L].
Qed.

Lemma new_one_eq : forall h d, fst (new_one h d) = h ++ [mkObj d (Some 0) [length h]].
Proof.
  intros. apply list_ext_error. intros k. unfold new_one. cbn [fst].
  pose proof (assign_from_spec [length h] 0 (h ++ [mkObj d (Some 0) [length h]]) k) as A.
  rewrite assign_is. destruct (nth_error _ k) as [o|] eqn:E.
  2: { exact A. }
  destruct A as (o' & A1 & A2 & A3 & A4). rewrite A1. f_equal.
  assert (IX : o_idx o' = o_idx o).
  { destruct A4 as [[_ X]|(i & X1 & _ & X3)]; [exact X|].
    destruct i as [|[|]]; try discriminate. cbn in X1. injection X1; intros X1'. subst k.
    rewrite nth_error_app2, Nat.sub_diag in E by lia. cbn in E. injection E; intros <-. exact X3. }
  destruct o, o'; cbn in *; congruence.
Qed.

Lemma same_but_trans : forall (P Q : nat -> Prop) a b c, same_but P a b -> same_but Q b c ->
  same_but (fun r => P r \/ Q r) a c.
Proof.
  intros P Q a b c A B r o E. destruct (A r o E) as (o1 & E1 & X1 & X2 & X3).
  destruct (B r o1 E1) as (o2 & E2 & Y1 & Y2 & Y3). exists o2. split; [assumption|]. split; [congruence|]. split; [congruence|].
  intros N. rewrite Y3, X3; auto.
Qed.

Lemma same_but_weaken : forall (P Q : nat -> Prop) a b, (forall r, P r -> Q r) -> same_but P a b -> same_but Q a b.
Proof.
  intros P Q a b W A r o E. destruct (A r o E) as (o1 & E1 & X1 & X2 & X3). exists o1. repeat (split; [assumption|]). auto.
Qed.

Lemma same_but_app : forall P h x, same_but P h (h ++ x).
Proof.
  intros P h x r o E. exists o. split; [|auto]. rewrite nth_error_app1; [assumption|]. apply nth_error_Some. congruence.
Qed.

Lemma same_but_refl : forall P h, same_but P h h.
Proof. intros P h r o E. exists o. auto. Qed.

Lemma same_but_length : forall P h h', same_but P h h' -> length h <= length h'.
Proof.
  intros P h h' S. destruct (le_lt_dec (length h) (length h')); [assumption|exfalso].
  destruct (nth_error h (length h')) as [o|] eqn:E; [|apply nth_error_None in E; lia].
  destruct (S _ _ E) as (o' & E' & _). assert (nth_error h' (length h') <> None) by congruence.
  apply nth_error_Some in H. lia.
Qed.

Lemma refs_of_same : forall P h h' a, same_but P h h' -> a < length h -> refs_of h' a = refs_of h a.
Proof.
  intros P h h' a S L. unfold refs_of. destruct (nth_error h a) as [o|] eqn:E; [|apply nth_error_None in E; lia].
  destruct (S _ _ E) as (o' & -> & _ & X & _). exact X.
Qed.

Lemma elements_iff : forall h a l, elements h a l <-> a < length h /\ refs_of h a = l.
Proof.
  intros. unfold elements, refs_of. split.
  - intros (o & E & R). rewrite E. split; [apply nth_error_Some; congruence|assumption].
  - intros [L R]. destruct (nth_error h a) as [o|] eqn:E; [|apply nth_error_None in E; lia]. now exists o.
Qed.

Lemma wf_refs : forall h a, wf h -> Forall (fun r => r < length h) (refs_of h a).
Proof. intros h a W. unfold refs_of. destruct (nth_error h a) eqn:E; [now apply (W a)|constructor]. Qed.

Lemma wf_new_block : forall h l, wf h -> Forall (fun r => r < length h) l -> wf (fst (new_block h l)).
Proof.
  intros h l W F. destruct (new_block_spec h l F) as (L & A & (oa & E1 & E2) & _ & S & _).
  assert (IMP : forall x, Forall (fun r => r < length h) x -> Forall (fun r => r < length (fst (new_block h l))) x).
  { intros x. apply Forall_impl. intros. rewrite L. lia. }
  intros a o E. destruct (lt_eq_lt_dec a (length h)) as [[X|X]|X].
  - destruct (nth_error h a) as [o0|] eqn:E0; [|apply nth_error_None in E0; lia].
    destruct (S _ _ E0) as (o' & E' & _ & R & _). rewrite E in E'. injection E'; intros <-. rewrite R. apply IMP. now apply (W a).
  - rewrite X, <- A, E1 in E. injection E; intros <-. rewrite E2. now apply IMP.
  - assert (nth_error (fst (new_block h l)) a <> None) by congruence. apply nth_error_Some in H. lia.
Qed.

Lemma wf_app : forall h x, wf h -> (forall o, In o x -> Forall (fun r => r < length (h ++ x)) (o_refs o)) -> wf (h ++ x).
Proof.
  intros h x W F a o E. destruct (le_lt_dec (length h) a).
  - rewrite nth_error_app2 in E by assumption. apply F. now apply nth_error_In in E.
  - rewrite nth_error_app1 in E by assumption. eapply Forall_impl; [|exact (W a o E)]. intros r R. cbn in R. rewrite app_length. lia.
Qed.

(** ** Additions *)

Lemma add_spec : forall h a b, wf h -> a < length h -> b < length h ->
  exists h' c, add h a (VRef b) = (h', Ok (VRef c)) /\ wf h' /\
    ~ c < length h /\ elements h' c (refs_of h a ++ refs_of h b) /\ data_at h' c PBlock /\
    same_but (fun r => In r (refs_of h a ++ refs_of h b)) h h' /\
    (forall i r, nth_error (refs_of h a ++ refs_of h b) i = Some r ->
       (forall j, i < j -> nth_error (refs_of h a ++ refs_of h b) j <> Some r) ->
       exists o, nth_error h' r = Some o /\ o_idx o = Some i).
Proof.
  intros h a b W A B.
  assert (F : Forall (fun r => r < length h) (refs_of h a ++ refs_of h b)) by (apply Forall_app; split; now apply wf_refs).
  destruct (new_block_spec h _ F) as (L & X1 & X2 & X3 & X4 & X5).
  cbn [add]. eexists. eexists. split; [reflexivity|]. split; [now apply wf_new_block|]. split; [rewrite X1; lia|]. now repeat split.
Qed.

Lemma last_of_nodup : forall (l : list nat) i r j, NoDup l -> nth_error l i = Some r -> i < j -> nth_error l j <> Some r.
Proof.
  intros l i r j N E L X. rewrite <- E in X. assert (i < length l) by (apply nth_error_Some; congruence).
  apply (proj1 (NoDup_nth_error l) N i j H) in X || (symmetry in X; apply (proj1 (NoDup_nth_error l) N i j H) in X). lia.
Qed.

(** ** Multiplication *)

Lemma mul_copies : forall (h : heap) (n : nat) (refs : list nat), Forall (fun r => r < length h) refs ->
  exists copies,
    flat_map (fun r => match nth_error h r with Some o => [o] | None => [] end)
      (flat_map (fun r => repeat r n) refs) = copies /\
    length copies = length refs * n /\
    forall i k, i < length refs -> k < n ->
      exists r o, nth_error refs i = Some r /\ nth_error h r = Some o /\ nth_error copies (i * n + k) = Some o.
Proof.
  intros h n refs F. eexists. split; [reflexivity|]. induction refs as [|x t IH].
  - split; [reflexivity|]. intros i k L. cbn in L. lia.
  - inversion F; subst. destruct (IH H2) as [IH1 IH2].
    destruct (nth_error h x) as [o|] eqn:E; [|apply nth_error_None in E; lia].
    assert (R : flat_map (fun r => match nth_error h r with Some o => [o] | None => [] end) (repeat x n) = repeat o n).
    { clear -E. induction n as [|n IH]; [reflexivity|]. cbn. rewrite E, IH. reflexivity. }
    cbn [flat_map]. rewrite flat_map_app, R. split.
    + rewrite app_length, repeat_length, IH1. cbn. lia.
    + intros [|i] k L K.
      * exists x, o. cbn. split; [reflexivity|]. split; [assumption|].
        rewrite nth_error_app1 by (rewrite repeat_length; lia). now apply nth_error_repeat.
      * cbn in L. destruct (IH2 i k ltac:(lia) K) as (r & o' & A & B & C). exists r, o'. cbn [nth_error]. split; [assumption|]. split; [assumption|].
        rewrite nth_error_app2 by (rewrite repeat_length; lia). rewrite repeat_length.
        replace (S i * n + k - n) with (i * n + k) by lia. exact C.
Qed.

(** The elements of the product are new objects. *)
Lemma mul_spec : forall h a n, wf h -> a < length h ->
  exists h' c l, mul h a n = (h', c) /\ wf h' /\ ~ c < length h /\
    elements h' c l /\ length l = length (refs_of h a) * Z.to_nat n /\
    NoDup l /\ (forall r, In r l -> length h <= r) /\ numbered h' l /\
    same_but (fun _ => False) h h' /\
    (forall i k, i < length (refs_of h a) -> k < Z.to_nat n ->
       exists r o r' o', nth_error (refs_of h a) i = Some r /\ nth_error h r = Some o /\
         nth_error l (i * Z.to_nat n + k) = Some r' /\ nth_error h' r' = Some o' /\
         o_data o' = o_data o /\ o_refs o' = o_refs o).
Proof.
  intros h a n W A. unfold mul.
  destruct (mul_copies h (Z.to_nat n) (refs_of h a) (wf_refs h a W)) as (copies & -> & LC & CP).
  set (l := seq (length h) (length copies)).
  assert (F : Forall (fun r => r < length (h ++ copies)) l).
  { apply Forall_forall. intros r R. apply in_seq in R. rewrite app_length. lia. }
  destruct (new_block_spec (h ++ copies) l F) as (L & X1 & X2 & X3 & X4 & X5).
  assert (ND : NoDup l) by apply seq_NoDup.
  assert (IN : forall o, In o copies -> exists r, nth_error h r = Some o).
  { intros o I. apply In_nth_error in I. destruct I as (j & J).
    assert (JL : j < length (refs_of h a) * Z.to_nat n) by (rewrite <- LC; apply nth_error_Some; congruence).
    assert (NZ : Z.to_nat n <> 0) by (intros Z0; rewrite Z0 in JL; lia).
    pose proof (Nat.div_mod j (Z.to_nat n) NZ) as DM. pose proof (Nat.mod_upper_bound j (Z.to_nat n) NZ).
    destruct (CP (j / Z.to_nat n) (j mod Z.to_nat n)) as (r & o' & _ & B & C); [apply Nat.div_lt_upper_bound; lia|assumption|].
    replace (j / Z.to_nat n * Z.to_nat n + j mod Z.to_nat n) with j in C by lia. rewrite J in C. injection C; intros <-. now exists r. }
  assert (WC : wf (h ++ copies)).
  { apply wf_app; [assumption|]. intros o I. destruct (IN o I) as (r & R).
    eapply Forall_impl; [|exact (W r o R)]. intros x X. cbn in X. rewrite app_length. lia. }
  eexists. exists (snd (new_block (h ++ copies) l)), l. split; [reflexivity|]. split; [now apply wf_new_block|].
  split; [rewrite X1, app_length; lia|]. split; [exact X2|]. split; [unfold l; now rewrite seq_length|]. split; [exact ND|].
  split; [intros r R; apply in_seq in R; lia|].
  split. { intros i r E. apply X5; [assumption|]. intros j J. now apply last_of_nodup with (i := i). }
  split.
  - intros r o E. destruct (X4 r o) as (o' & B1 & B2 & B3 & B4).
    { rewrite nth_error_app1; [assumption|]. apply nth_error_Some. congruence. }
    exists o'. repeat (split; [assumption|]). intros _. apply B4. intros I. apply in_seq in I.
    assert (r < length h) by (apply nth_error_Some; congruence). lia.
  - intros i k I K. destruct (CP i k I K) as (r & o & E1 & E2 & E3).
    assert (J : i * Z.to_nat n + k < length copies) by (apply nth_error_Some; congruence).
    destruct (X4 (length h + (i * Z.to_nat n + k)) o) as (o' & B1 & B2 & B3 & B4).
    { rewrite nth_error_app2 by lia. replace (length h + (i * Z.to_nat n + k) - length h) with (i * Z.to_nat n + k) by lia. exact E3. }
    exists r, o, (length h + (i * Z.to_nat n + k)), o'. split; [exact E1|]. split; [exact E2|]. split.
    { unfold l. rewrite (nth_error_nth' _ 0) by (rewrite seq_length; assumption). now rewrite seq_nth. }
    split; [exact B1|]. now split.
Qed.

(** ** Sums *)

Lemma sum_from_spec : forall l h a, wf h -> a < length h -> Forall (fun b => b < length h) l ->
  exists h' c, sum_from h (VRef a) (map VRef l) = (h', Ok (VRef c)) /\ wf h' /\
    elements h' c (refs_of h a ++ flat_map (refs_of h) l) /\
    same_but (fun r => In r (refs_of h a ++ flat_map (refs_of h) l)) h h' /\
    (l <> [] -> ~ c < length h /\ data_at h' c PBlock /\
       forall i r, nth_error (refs_of h a ++ flat_map (refs_of h) l) i = Some r ->
         (forall j, i < j -> nth_error (refs_of h a ++ flat_map (refs_of h) l) j <> Some r) ->
         exists o, nth_error h' r = Some o /\ o_idx o = Some i) /\
    (l = [] -> h' = h /\ c = a).
Proof.
  induction l as [|b t IH]; intros h a W A F.
  - cbn. exists h, a. split; [reflexivity|]. split; [assumption|]. rewrite app_nil_r.
    split; [apply elements_iff; now split|]. split; [apply same_but_refl|]. split; [congruence|auto].
  - inversion F; subst. cbn [map sum_from py_plus].
    destruct (add_spec h a b W A H1) as (h1 & c & E & W1 & C & EL & DA & SB & NUM). rewrite E.
    apply elements_iff in EL. destruct EL as [CL CR].
    assert (F1 : Forall (fun b => b < length h1) t).
    { pose proof (same_but_length _ _ _ SB). eapply Forall_impl; [|exact H2]. cbn. lia. }
    destruct (IH h1 c W1 CL F1) as (h2 & d & E2 & W2 & EL2 & SB2 & N2 & Z2).
    assert (FM : flat_map (refs_of h1) t = flat_map (refs_of h) t).
    { clear -SB H2. induction t as [|x t IH]; [reflexivity|]. inversion H2; subst. cbn.
      rewrite (refs_of_same _ _ _ _ SB) by assumption. now rewrite IH. }
    assert (ALL : refs_of h1 c ++ flat_map (refs_of h1) t = refs_of h a ++ flat_map (refs_of h) (b :: t)).
    { rewrite FM, CR. cbn. now rewrite app_assoc. }
    rewrite ALL in *. exists h2, d. split; [exact E2|]. split; [exact W2|]. split; [exact EL2|]. split.
    + eapply same_but_weaken; [|exact (same_but_trans _ _ _ _ _ SB SB2)]. intros r [R|R]; [|assumption].
      cbn [flat_map]. rewrite app_assoc. apply in_or_app. now left.
    + split; [|congruence]. intros _. destruct t as [|x t].
      * destruct (Z2 eq_refl) as [-> ->]. split; [assumption|]. split; [exact DA|]. cbn [flat_map]. rewrite app_nil_r. exact NUM.
      * destruct (N2 ltac:(congruence)) as (N21 & N22 & N23).
        split; [|split; assumption]. pose proof (same_but_length _ _ _ SB). lia.
Qed.

Lemma sum_spec : forall a l h, wf h -> a < length h -> Forall (fun b => b < length h) l ->
  exists h' c, py_sum h (map VRef (a :: l)) = (h', Ok (VRef c)) /\ wf h' /\
    elements h' c (flat_map (refs_of h) (a :: l)) /\
    same_but (fun r => In r (flat_map (refs_of h) (a :: l))) h h' /\
    (l <> [] -> ~ c < length h /\ data_at h' c PBlock /\
       forall i r, nth_error (flat_map (refs_of h) (a :: l)) i = Some r ->
         (forall j, i < j -> nth_error (flat_map (refs_of h) (a :: l)) j <> Some r) ->
         exists o, nth_error h' r = Some o /\ o_idx o = Some i) /\
    (l = [] -> h' = h /\ c = a).
Proof. intros. unfold py_sum. cbn [map sum_from py_plus radd]. now apply sum_from_spec. Qed.

(** ** Reachable heaps are well formed *)

Lemma valid_ref : forall h a, valid_value h (VRef a) -> a < length h.
Proof. intros h a V. now inversion V. Qed.

Lemma wf_plus : forall h x y, wf h -> valid_value h x -> valid_value h y ->
  wf (fst (py_plus h x y)) /\ (forall v, snd (py_plus h x y) = Ok v -> valid_value (fst (py_plus h x y)) v) /\
  length h <= length (fst (py_plus h x y)).
Proof.
  intros h x y W X Y. assert (AD : forall a v, a < length h -> valid_value h v ->
    wf (fst (add h a v)) /\ (forall u, snd (add h a v) = Ok u -> valid_value (fst (add h a v)) u) /\ length h <= length (fst (add h a v))).
  { intros a [b|z|] A V; [|cbn; split; [assumption|split; [discriminate|lia]]..].
    apply valid_ref in V. destruct (add_spec h a b W A V) as (h' & c & -> & W' & _ & EL & _ & SB & _). cbn [fst snd].
    split; [assumption|]. apply elements_iff in EL. split; [|exact (same_but_length _ _ _ SB)].
    intros u E. injection E; intros <-. now constructor. }
  destruct x as [a|z|].
  - cbn [py_plus]. apply AD; [now apply valid_ref|assumption].
  - destruct y as [b|z'|]; cbn [py_plus].
    + destruct z; cbn [radd]; try (apply AD; [now apply valid_ref|assumption]).
      cbn. split; [assumption|]. split; [|lia]. intros v E. injection E; intros <-. assumption.
    + cbn. split; [assumption|]. split; [|lia]. intros v E. injection E; intros <-. constructor.
    + cbn. split; [assumption|]. split; [discriminate|lia].
  - destruct y as [b|z'|]; cbn [py_plus radd]; [apply AD; [now apply valid_ref|assumption]|..];
    (cbn; split; [assumption|]; split; [discriminate|lia]).
Qed.

Lemma valid_mono : forall h h' v, length h <= length h' -> valid_value h v -> valid_value h' v.
Proof. intros h h' v L V. inversion V; subst; constructor. lia. Qed.

Lemma wf_sum_from : forall l h v, wf h -> valid_value h v -> Forall (valid_value h) l ->
  wf (fst (sum_from h v l)) /\ length h <= length (fst (sum_from h v l)).
Proof.
  induction l as [|x t IH]; intros h v W V F; cbn [sum_from]; [now split|].
  inversion F; subst. destruct (wf_plus h v x W V H1) as (A & B & C).
  destruct (py_plus h v x) as [h' [y|e]]; cbn [fst snd] in *; [|now split].
  destruct (IH h' y A (B y eq_refl)) as [P Q]; [|split; [assumption|lia]].
  eapply Forall_impl; [|exact H2]. intros u. now apply valid_mono.
Qed.

Lemma wf_deepcopy : forall h a, wf h -> wf (fst (deepcopy h a)).
Proof.
  intros h a W. unfold deepcopy. cbn [fst]. apply wf_app; [assumption|]. intros o I. apply in_map_iff in I.
  destruct I as (o0 & <- & I). cbn. apply In_nth_error in I. destruct I as (r & R). pose proof (W r o0 R) as F.
  rewrite Forall_forall in *. intros x X. apply in_map_iff in X. destruct X as (y & <- & Y).
  rewrite app_length, map_length. apply F in Y. lia.
Qed.

Lemma deepcopies_wf : forall n h a, wf h -> a < length h ->
  wf (fst (deepcopies h a n)) /\ length h <= length (fst (deepcopies h a n)) /\
  Forall (fun r => r < length (fst (deepcopies h a n))) (snd (deepcopies h a n)) /\
  length (snd (deepcopies h a n)) = n.
Proof.
  induction n as [|n IH]; intros h a W A; cbn [deepcopies].
  - cbn. split; [assumption|]. split; [lia|]. split; [constructor|reflexivity].
  - assert (L : length (fst (deepcopy h a)) = length h + length h) by (cbn; now rewrite app_length, map_length).
    destruct (IH (fst (deepcopy h a)) a (wf_deepcopy h a W) ltac:(lia)) as (P & Q & R & S). cbn [fst snd].
    split; [assumption|]. split; [lia|]. split; [|cbn [length]; now rewrite S]. constructor; [|assumption].
    change (snd (deepcopy h a)) with (length h + a). eapply Nat.lt_le_trans; [|exact Q]. rewrite L. lia.
Qed.

Lemma wf_same : forall h h', length h' = length h ->
  (forall a o', nth_error h' a = Some o' -> exists o, nth_error h a = Some o /\ o_refs o' = o_refs o) -> wf h -> wf h'.
Proof. intros h h' L S W a o' E. destruct (S a o' E) as (o & E0 & ->). rewrite L. now apply (W a). Qed.

Lemma set_cs_spec : forall h a cs r, nth_error (set_cs h a cs) r =
  if r =? a then option_map (fun o => mkObj (match o_data o with PObs n p d dl _ => PObs n p d dl cs | x => x end) (o_idx o) (o_refs o)) (nth_error h r)
  else nth_error h r.
Proof. intros. unfold set_cs. apply nth_modify. Qed.

Lemma set_cs_length : forall h a cs, length (set_cs h a cs) = length h.
Proof. intros. apply modify_length. Qed.

Lemma wf_set_cs : forall h a cs, wf h -> wf (set_cs h a cs).
Proof.
  intros h a cs. apply wf_same; [apply set_cs_length|]. intros r o' E. rewrite set_cs_spec in E.
  destruct (r =? a); [|now exists o']. destruct (nth_error h r) as [o|]; [|discriminate]. injection E; intros <-. now exists o.
Qed.

Lemma wf_add_ranges : forall l h cs0 start p tol i, wf h ->
  wf (fst (add_ranges h cs0 start p tol i l)) /\ length (fst (add_ranges h cs0 start p tol i l)) = length h.
Proof.
  induction l as [|a t IH]; intros h cs0 start p tol i W; cbn [add_ranges]; [now split|].
  destruct (snd _) as [cs|e]; [|now split].
  destruct (IH (set_cs h a cs) cs0 start p tol (S i) (wf_set_cs _ _ _ W)) as [P Q]. split; [assumption|]. rewrite Q. apply set_cs_length.
Qed.

Lemma breach_wf : forall h, breach h -> wf h.
Proof.
  induction 1 as [|h n p d dl cs B IH C|h a b B IH|h l B IH F|h x y B IH X Y|h l B IH F|h l B IH F|h a n B IH A
    |h a n test B IH A|h a start stop p tol cap B IH A].
  - intros a o E. destruct a; discriminate.
  - rewrite new_one_eq. apply wf_app; [assumption|]. intros o [<-|[]]. cbn. constructor; [rewrite app_length; cbn; lia|constructor].
  - rewrite new_one_eq. apply wf_app; [assumption|]. intros o [<-|[]]. cbn. constructor; [rewrite app_length; cbn; lia|constructor].
  - now apply wf_new_block.
  - now apply wf_plus.
  - unfold py_sum. apply wf_sum_from; [assumption|constructor|assumption].
  - destruct l as [|v t]; [assumption|]. inversion F; subst. now apply wf_sum_from.
  - destruct (mul_spec h a n IH A) as (h' & c & l & -> & W & _). exact W.
  - unfold get. destruct (negb (n =? 1)); [assumption|].
    destruct (filter_res _ _) as [l|e] eqn:E; [|assumption]. cbn [fst]. apply wf_new_block; [assumption|].
    pose proof (wf_refs h a IH) as F. revert l E. induction (refs_of h a) as [|r t IHt]; intros l E.
    + cbn in E. injection E; intros <-. constructor.
    + inversion F; subst. cbn [filter_res] in E.
      destruct (nth_error h r) as [o|]; [|discriminate]. destruct (test o) as [b|e]; [|discriminate]. cbn [bind] in E.
      destruct (filter_res _ t) as [l'|e] eqn:E'; [|discriminate]. cbn [bind] in E.
      injection E; intros <-. specialize (IHt H2 l' eq_refl). destruct b; [now constructor|assumption].
  - unfold periodic. destruct (repetitions _ _ _) as [n|e]; [|assumption].
    assert (L : a < length h). { unfold is_obs in A. destruct (nth_error h a) eqn:E; [apply nth_error_Some; congruence|discriminate]. }
    destruct (deepcopies_wf (Z.to_nat n) h a IH L) as (P & Q & R & S).
    destruct (wf_add_ranges (snd (deepcopies h a (Z.to_nat n))) _ (cs_of h a) start p tol 0 P) as [P1 P2].
    destruct (add_ranges _ _ _ _ _ _ _) as [h' [e|]]; cbn [fst] in *; [assumption|].
    unfold py_sum. apply wf_sum_from; [assumption|constructor|]. apply Forall_forall. intros v V. apply in_map_iff in V.
    destruct V as (r & <- & V). constructor. rewrite Forall_forall in R. apply R in V. lia.
Qed.

(** ** Overlap *)

Lemma is_within_spec : forall tmin tmax start stop, (tmin < tmax)%Z -> (start < stop)%Z ->
  (is_within tmin tmax start stop = true <->
   (exists t, tmin <= t < tmax /\ start <= t < stop)%Z /\
   tmax <> stop /\ ~ (tmin = start /\ stop < tmax)%Z).
Proof.
  intros a b s e A B. assert (X : (exists t, a <= t < b /\ s <= t < e)%Z <-> (a < e /\ s < b)%Z).
  { split; [intros (t & T); lia|]. intros C. exists (Z.max a s). lia. }
  rewrite X. unfold is_within. rewrite !orb_true_iff, !andb_true_iff, !Z.ltb_lt, !Z.leb_le. lia.
Qed.
