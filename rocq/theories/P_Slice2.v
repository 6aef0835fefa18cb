(** Parts of sub-sets of statistics data. *)
From Coq Require Import String List Arith ZArith QArith Bool Lia Lqa Sorted.
From Verif Require Import Base M_Nd M_Rebin P_Nd P_SData M_Slice P_Slice.
Import ListNotations.
Open Scope nat_scope.
Open Scope list_scope.

(** * Specification: Python slices *)
(** The first position of a slice which runs backwards, or the one it stops before. *)
Definition back_bound (n : nat) (i : Z) : Z :=
  (if i <? 0 then Z.max (-1) (i + Z.of_nat n) else Z.min i (Z.of_nat n - 1))%Z.
Definition slice_of (n : nat) (s : pyslice) (l : list nat) : Prop :=
  let '(start, stop, step) := s in
  let k := match step with Some k => k | None => 1%Z end in
  ((0 < k)%Z /\ StronglySorted lt l /\
     let a := match start with Some i => slice_bound n i | None => 0 end in
     let b := match stop with Some i => slice_bound n i | None => n end in
     forall x, In x l <-> x < b /\ exists p : nat, (Z.of_nat x = Z.of_nat a + Z.of_nat p * k)%Z) \/
  ((k < 0)%Z /\ StronglySorted gt l /\
     let a := match start with Some i => back_bound n i | None => (Z.of_nat n - 1)%Z end in
     let b := match stop with Some i => back_bound n i | None => (-1)%Z end in
     forall x, In x l <-> (b < Z.of_nat x)%Z /\ exists p : nat, (Z.of_nat x = a + Z.of_nat p * k)%Z).

Lemma below_cdiv : forall d k (p : nat), (0 < k)%Z -> (p < Z.to_nat (cdiv d k) <-> (Z.of_nat p * k < d)%Z).
Proof.
  intros d k p K. unfold cdiv. pose proof (Z.div_mod (- d) k ltac:(lia)) as D. pose proof (Z.mod_pos_bound (- d) k K) as M.
  set (q := (- d / k)%Z) in *. set (r := ((- d) mod k)%Z) in *. clearbody q r. split; intros H; nia.
Qed.
Lemma sorted_map_seq : forall (R : nat -> nat -> Prop) f c s, (forall i j, s <= i -> i < j -> j < s + c -> R (f i) (f j)) ->
  StronglySorted R (map f (seq s c)).
Proof.
  intros R f c. induction c as [|c IH]; intros s H; cbn [seq map]; [constructor|]. constructor.
  - apply IH. intros i j A B C. apply H; lia.
  - rewrite Forall_forall. intros x X. apply in_map_iff in X. destruct X as (j & <- & J). apply in_seq in J. apply H; lia.
Qed.
Lemma positions_spec : forall n s l, positions n s = Ok l -> slice_of n s l /\ Forall (fun x => x < n) l.
Proof.
  intros n [[start stop] step] l E. unfold positions in E. unfold slice_of.
  set (k := match step with Some k => k | None => 1%Z end) in *. clearbody k.
  destruct (Z.eqb_spec k 0); [discriminate|]. destruct (Z.ltb_spec 0 k) as [K|K].
  - injection E as <-.
    set (a := match start with Some i => clip 0 (Z.of_nat n) (if (i <? 0)%Z then (i + Z.of_nat n)%Z else i) | None => 0%Z end).
    set (b := match stop with Some i => clip 0 (Z.of_nat n) (if (i <? 0)%Z then (i + Z.of_nat n)%Z else i) | None => Z.of_nat n end).
    set (a' := match start with Some i => slice_bound n i | None => 0 end).
    set (b' := match stop with Some i => slice_bound n i | None => n end).
    assert (EA : a = Z.of_nat a'). { unfold a, a', clip, slice_bound. destruct start as [i|]; [|lia]. destruct (Z.ltb_spec i 0); lia. }
    assert (EB : b = Z.of_nat b'). { unfold b, b', clip, slice_bound. destruct stop as [i|]; [|lia]. destruct (Z.ltb_spec i 0); lia. }
    assert (BN : b' <= n). { unfold b', slice_bound. destruct stop as [i|]; [|lia]. destruct (Z.ltb_spec i 0); lia. }
    clearbody a b a' b'. subst a b. split.
    + left. split; [exact K|]. split; [apply sorted_map_seq; intros i j _ I _; nia|]. intros x. rewrite in_map_iff. split.
      * intros (p & <- & P). apply in_seq in P. destruct P as (_ & P). cbn in P. apply below_cdiv in P; [|exact K]. split; [lia|]. exists p. nia.
      * intros (X & p & E). exists p. split; [lia|]. apply in_seq. split; [lia|]. cbn. apply below_cdiv; [exact K|]. lia.
    + rewrite Forall_forall. intros x X. apply in_map_iff in X. destruct X as (p & <- & P). apply in_seq in P. destruct P as (_ & P). cbn in P.
      apply below_cdiv in P; [|exact K]. lia.
  - injection E as <-.
    set (a := match start with Some i => clip (-1) (Z.of_nat n - 1) (if (i <? 0)%Z then (i + Z.of_nat n)%Z else i) | None => (Z.of_nat n - 1)%Z end).
    set (b := match stop with Some i => clip (-1) (Z.of_nat n - 1) (if (i <? 0)%Z then (i + Z.of_nat n)%Z else i) | None => (-1)%Z end).
    set (a' := match start with Some i => back_bound n i | None => (Z.of_nat n - 1)%Z end).
    set (b' := match stop with Some i => back_bound n i | None => (-1)%Z end).
    assert (EA : a = a'). { unfold a, a', clip, back_bound. destruct start as [i|]; [|lia]. destruct (Z.ltb_spec i 0); lia. }
    assert (EB : b = b'). { unfold b, b', clip, back_bound. destruct stop as [i|]; [|lia]. destruct (Z.ltb_spec i 0); lia. }
    assert (AN : (a < Z.of_nat n)%Z). { unfold a, clip. destruct start as [i|]; [|lia]. destruct (Z.ltb_spec i 0); lia. }
    assert (BN : (-1 <= b)%Z). { unfold b, clip. destruct stop as [i|]; lia. }
    clearbody a b a' b'. subst a' b'.
    assert (BC : forall p, p < Z.to_nat (cdiv (a - b) (- k)) <-> (b < a + Z.of_nat p * k)%Z).
    { intros p. rewrite below_cdiv by lia. split; intros; nia. }
    split.
    + right. split; [lia|]. split.
      * apply sorted_map_seq. intros i j _ I J. cbn in J. apply BC in J. unfold gt. nia.
      * intros x. rewrite in_map_iff. split.
        -- intros (p & <- & P). apply in_seq in P. destruct P as (_ & P). cbn in P. apply BC in P. split; [lia|]. exists p. lia.
        -- intros (X & p & E). exists p. split; [lia|]. apply in_seq. split; [lia|]. cbn. apply BC. lia.
    + rewrite Forall_forall. intros x X. apply in_map_iff in X. destruct X as (p & <- & P). apply in_seq in P. destruct P as (_ & P). cbn in P.
      apply BC in P. nia.
Qed.
Lemma sorted_unique : forall (R : nat -> nat -> Prop), (forall x y, R x y -> R y x -> False) -> (forall x, ~ R x x) ->
  forall l m, StronglySorted R l -> StronglySorted R m -> (forall x, In x l <-> In x m) -> l = m.
Proof.
  intros R AS IR. induction l as [|x l IH]; intros [|y m] L M E.
  - reflexivity.
  - destruct (proj2 (E y) (or_introl eq_refl)).
  - destruct (proj1 (E x) (or_introl eq_refl)).
  - inversion L as [|x' l' L1 L2]; subst. inversion M as [|y' m' M1 M2]; subst. rewrite Forall_forall in L2, M2.
    assert (x = y).
    { destruct (proj1 (E x) (or_introl eq_refl)) as [H|H]; [now symmetry|]. destruct (proj2 (E y) (or_introl eq_refl)) as [H'|H']; [exact H'|].
      exfalso. exact (AS x y (L2 _ H') (M2 _ H)). }
    subst y. f_equal. apply IH; [exact L1|exact M1|]. intros z. split; intros Z.
    + destruct (proj1 (E z) (or_intror Z)) as [<-|H]; [exfalso; exact (IR x (L2 _ Z))|exact H].
    + destruct (proj2 (E z) (or_intror Z)) as [<-|H]; [exfalso; exact (IR x (M2 _ Z))|exact H].
Qed.
(** A slice designates one list of positions. *)
Theorem slice_unique : forall n s l m, slice_of n s l -> slice_of n s m -> l = m.
Proof.
  intros n [[start stop] step] l m. unfold slice_of. intros [(K & S1 & H1)|(K & S1 & H1)] [(K' & S2 & H2)|(K' & S2 & H2)]; try lia.
  - apply (sorted_unique lt); [intros; lia|intros; lia|exact S1|exact S2|]. intros x. now rewrite H1, H2.
  - apply (sorted_unique gt); [intros; lia|intros; lia|exact S1|exact S2|]. intros x. now rewrite H1, H2.
Qed.
Lemma positions_ok : forall n s, (exists l, positions n s = Ok l) <-> snd s <> Some 0%Z.
Proof.
  intros n [[start stop] step]. unfold positions. cbn [snd]. split.
  - intros (l & E) ->. discriminate.
  - intros N. assert (K : match step with Some k => k | None => 1%Z end <> 0%Z). { destruct step as [k|]; [congruence|discriminate]. }
    destruct (Z.eqb_spec (match step with Some k => k | None => 1%Z end) 0); [contradiction|]. destruct (Z.ltb _ _); eexists; reflexivity.
Qed.
Lemma positions_zero : forall n a b, positions n (a, b, Some 0%Z) = Err EValueError.
Proof. reflexivity. Qed.

(** * Parts *)
Definition taken (l : list Q) (p : list nat) : list Q := map (fun i => nth i l 0%Q) p.
Theorem part_spec : forall a ts fs, full a -> snd ts <> Some 0%Z -> snd fs <> Some 0%Z ->
  exists r pt pf, st_part a ts fs = Ok r /\ full r /\
    slice_of (length (s_time a)) ts pt /\ slice_of (length (s_freq a)) fs pf /\
    s_time r = taken (s_time a) pt /\ s_freq r = taken (s_freq a) pf /\
    Forall (fun i => i < length (s_time a)) pt /\ Forall (fun j => j < length (s_freq a)) pf /\
    (forall p q i j, nth_error pt p = Some i -> nth_error pf q = Some j -> get (s_val r) [p; q] = get (s_val a) [i; j]) /\
    s_ana r = s_ana a /\ s_dig r = s_dig a /\ s_pol r = s_pol a.
Proof.
  intros a ts fs F NT NF. apply (positions_ok (length (s_time a))) in NT. apply (positions_ok (length (s_freq a))) in NF.
  destruct NT as (pt & PT), NF as (pf & PF). unfold st_part. rewrite PT, PF. cbn [bind]. unfold full in F. rewrite F, PT, PF. cbn [bind].
  eexists. exists pt, pf. split; [reflexivity|]. unfold full, taken. cbn [s_time s_freq s_val s_ana s_dig s_pol sh get].
  destruct (positions_spec _ _ _ PT) as (T1 & T2). destruct (positions_spec _ _ _ PF) as (F1 & F2).
  rewrite !map_length. do 7 (split; [auto|]). split; [|auto]. intros p q i j P Q. cbn [nth].
  now rewrite (nth_error_nth _ _ 0 P), (nth_error_nth _ _ 0 Q).
Qed.
Theorem part_zero : forall a ts fs, full a -> snd ts = Some 0%Z \/ snd fs = Some 0%Z -> st_part a ts fs = Err EValueError.
Proof.
  intros a [[t1 t2] t3] [[f1 f2] f3] F [H|H]; cbn [snd] in H; subst; unfold st_part.
  - rewrite positions_zero. reflexivity.
  - destruct (positions (length (s_time a)) (t1, t2, t3)) as [l|e] eqn:E; cbn [bind]; [now rewrite positions_zero|].
    f_equal. unfold positions in E. destruct (Z.eqb _ 0); [congruence|]. destruct (Z.ltb 0 _); discriminate.
Qed.
Theorem part_single_axis : forall a ts fs, light_curve a \/ spectrum a -> snd ts <> Some 0%Z -> snd fs <> Some 0%Z ->
  st_part a ts fs = Err EIndexError.
Proof.
  intros a ts fs H NT NF. apply (positions_ok (length (s_time a))) in NT. apply (positions_ok (length (s_freq a))) in NF.
  destruct NT as (pt & PT), NF as (pf & PF). unfold st_part. rewrite PT, PF. cbn [bind].
  destruct H as [(E & _)|(E & _)]; now rewrite E.
Qed.

Lemma positions_eq : forall n s m, snd s <> Some 0%Z -> slice_of n s m -> positions n s = Ok m.
Proof.
  intros n s m N S1. apply (positions_ok n) in N. destruct N as (l & P). rewrite P. f_equal.
  exact (slice_unique _ _ _ _ (proj1 (positions_spec _ _ _ P)) S1).
Qed.
Lemma sorted_seq : forall c s, StronglySorted lt (seq s c).
Proof. intros c s. rewrite <- (map_id (seq s c)). apply sorted_map_seq. intros; lia. Qed.
Lemma positions_range : forall n i j, i <= j -> j <= n -> positions n (Some (Z.of_nat i), Some (Z.of_nat j), None) = Ok (seq i (j - i)).
Proof.
  intros n i j I J. apply positions_eq; [discriminate|]. left. split; [lia|]. split; [apply sorted_seq|].
  cbv zeta. unfold slice_bound. destruct (Z.ltb_spec (Z.of_nat i) 0); [lia|]. destruct (Z.ltb_spec (Z.of_nat j) 0); [lia|].
  intros x. rewrite in_seq. split; [intros H1; split; [lia|]; exists (x - i); lia|]. intros (H1 & p & H2). lia.
Qed.
Lemma positions_head : forall n j, j <= n -> positions n (None, Some (Z.of_nat j), None) = Ok (seq 0 j).
Proof.
  intros n j J. apply positions_eq; [discriminate|]. left. split; [lia|]. split; [apply sorted_seq|].
  cbv zeta. unfold slice_bound. destruct (Z.ltb_spec (Z.of_nat j) 0); [lia|].
  intros x. rewrite in_seq. split; [intros H1; split; [lia|]; exists x; lia|]. intros (H1 & p & H2). lia.
Qed.
Lemma positions_tail : forall n i, i <= n -> positions n (Some (Z.of_nat i), None, None) = Ok (seq i (n - i)).
Proof.
  intros n i I. apply positions_eq; [discriminate|]. left. split; [lia|]. split; [apply sorted_seq|].
  cbv zeta. unfold slice_bound. destruct (Z.ltb_spec (Z.of_nat i) 0); [lia|].
  intros x. rewrite in_seq. split; [intros H1; split; [lia|]; exists (x - i); lia|]. intros (H1 & p & H2). lia.
Qed.
Lemma positions_all : forall n, positions n (None, None, None) = Ok (seq 0 n).
Proof.
  intros n. apply positions_eq; [discriminate|]. left. split; [lia|]. split; [apply sorted_seq|].
  cbv zeta. intros x. rewrite in_seq. split; [intros H1; split; [lia|]; exists x; lia|]. intros (H1 & p & H2). lia.
Qed.
Lemma taken_seq : forall l i c, i + c <= length l -> taken l (seq i c) = firstn c (skipn i l).
Proof.
  intros l i c. revert l i. induction c as [|c IH]; intros l i H; [reflexivity|]. cbn [seq].
  change (taken l (i :: seq (S i) c)) with (nth i l 0%Q :: taken l (seq (S i) c)). rewrite IH by lia.
  replace (skipn i l) with (nth i l 0%Q :: skipn (S i) l); [reflexivity|].
  revert i H. induction l as [|x l IHl]; intros i H; cbn [length] in H; [lia|]. destruct i as [|i]; [reflexivity|]. cbn [nth skipn]. rewrite <- IHl by lia. reflexivity.
Qed.
Lemma nth_error_seq : forall i c p, p < c -> nth_error (seq i c) p = Some (i + p).
Proof. intros i c p P. rewrite (nth_error_nth' _ 0) by (now rewrite seq_length). now rewrite seq_nth. Qed.
(** [a[i:j, k:l]] *)
Definition window (i j : nat) : pyslice := (Some (Z.of_nat i), Some (Z.of_nat j), None).
Definition everything : pyslice := (None, None, None).
Definition until (j : nat) : pyslice := (None, Some (Z.of_nat j), None).
Definition after (i : nat) : pyslice := (Some (Z.of_nat i), None, None).
Lemma part_ranges : forall a ts fs t0 tn f0 fn, full a ->
  positions (length (s_time a)) ts = Ok (seq t0 tn) -> positions (length (s_freq a)) fs = Ok (seq f0 fn) ->
  t0 + tn <= length (s_time a) -> f0 + fn <= length (s_freq a) ->
  exists r, st_part a ts fs = Ok r /\ sh (s_val r) = [tn; fn] /\ full r /\ s_time r = firstn tn (skipn t0 (s_time a)) /\ s_freq r = firstn fn (skipn f0 (s_freq a)) /\
    forall p q, p < tn -> q < fn -> get (s_val r) [p; q] = get (s_val a) [t0 + p; f0 + q].
Proof.
  intros a ts fs t0 tn f0 fn F PT PF BT BF.
  assert (NT : snd ts <> Some 0%Z) by (apply (positions_ok (length (s_time a))); eauto).
  assert (NF : snd fs <> Some 0%Z) by (apply (positions_ok (length (s_freq a))); eauto).
  destruct (part_spec a ts fs F NT NF) as (r & pt & pf & R & FR & S1 & S2 & T & Q & _ & _ & G & _).
  rewrite (slice_unique _ _ _ _ S1 (proj1 (positions_spec _ _ _ PT))) in *. rewrite (slice_unique _ _ _ _ S2 (proj1 (positions_spec _ _ _ PF))) in *.
  exists r. split; [exact R|]. rewrite taken_seq in T, Q by assumption.
  split; [rewrite FR, T, Q, !firstn_length, !skipn_length; f_equal; [lia|f_equal; lia]|]. split; [exact FR|]. split; [exact T|]. split; [exact Q|].
  intros p q P K. apply G; now apply nth_error_seq.
Qed.
Theorem part_whole : forall a, full a -> exists r, st_part a everything everything = Ok r /\ same_data r a.
Proof.
  intros a F. destruct (part_ranges a everything everything _ _ _ _ F (positions_all _) (positions_all _) ltac:(lia) ltac:(lia)) as (r & R & SH & FR & T & Q & G).
  exists r. split; [exact R|]. cbn [skipn] in T, Q. rewrite firstn_all in T, Q.
  split; [exact T|]. split; [exact Q|]. unfold full in F. split; [now rewrite F|].
  intros idx I. rewrite SH in I. inversion I as [|i n l s Hi I1]; subst. inversion I1 as [|j m l' s' Hj I2]; subst. inversion I2; subst. now apply G.
Qed.
(** Cutting in frequency and joining gives back the data, in either order. *)
Theorem part_cut_join : forall a k, full a -> increasing (s_freq a) -> 0 < k -> k < length (s_freq a) ->
  exists lo hi r r', st_part a everything (until k) = Ok lo /\ st_part a everything (after k) = Ok hi /\
    st_and lo hi = Ok r /\ st_and hi lo = Ok r' /\ same_data r a /\ same_data r' a.
Proof.
  intros a k F INC K0 K.
  destruct (part_ranges a everything (until k) _ _ _ _ F (positions_all _) (positions_head (length (s_freq a)) k ltac:(lia)) ltac:(lia) ltac:(lia)) as (lo & L & SL & FL & TL & QL & GL).
  destruct (part_ranges a everything (after k) _ _ _ _ F (positions_all _) (positions_tail (length (s_freq a)) k ltac:(lia)) ltac:(lia) ltac:(lia)) as (hi & H & SH & FH & TH & QH & GH).
  cbn [skipn] in TL, TH, QL. rewrite firstn_all in TL, TH.
  rewrite (firstn_all2 (skipn k (s_freq a))) in QH by (rewrite skipn_length; lia).
  assert (B : below (s_freq lo) (s_freq hi)).
  { rewrite QL, QH. intros x y X Y. apply In_nth_error in X. apply In_nth_error in Y. destruct X as (i & X), Y as (j & Y).
    assert (i < k). { assert (i < length (firstn k (s_freq a))) by (apply nth_error_Some; congruence). rewrite firstn_length in *. lia. }
    apply (INC i (k + j)); [lia| |].
    - rewrite <- X. rewrite <- (firstn_skipn k (s_freq a)) at 1. rewrite nth_error_app1; [reflexivity|]. apply nth_error_Some. congruence.
    - rewrite <- Y. rewrite <- (firstn_skipn k (s_freq a)) at 1. rewrite nth_error_app2; rewrite firstn_length; [f_equal; lia|lia]. }
  assert (NL : s_freq lo <> []). { rewrite QL. intros E. apply (f_equal (@length Q)) in E. rewrite firstn_length in E. cbn in E. lia. }
  assert (NH : s_freq hi <> []). { rewrite QH. intros E. apply (f_equal (@length Q)) in E. rewrite skipn_length in E. cbn in E. lia. }
  assert (RF : forall l, same_axis l l). { induction l; constructor; [reflexivity|assumption]. }
  destruct (and_spec lo hi FL FH ltac:(rewrite TL, TH; apply RF) NL NH) as (r & R & TR & _ & _ & _ & J & _). specialize (J B).
  destruct (and_spec hi lo FH FL ltac:(rewrite TL, TH; apply RF) NH NL) as (r' & R' & TR' & _ & _ & _ & _ & J'). specialize (J' (not_both _ _ NL NH B)).
  assert (JA : freq_joined lo hi a).
  { split; [exact F|]. rewrite QL, QH. split; [symmetry; apply firstn_skipn|]. rewrite firstn_length, skipn_length. replace (Nat.min k (length (s_freq a))) with k by lia.
    intros i j I. split; intros J0; symmetry; [apply (GL i j I J0)|apply (GH i j I J0)]. }
  exists lo, hi, r, r'. do 4 (split; [assumption|]). split; apply (joined_same lo hi); congruence || assumption.
Qed.
(** A part of a part. *)
Lemma skipn_skipn : forall A x y (l : list A), skipn x (skipn y l) = skipn (x + y) l.
Proof. intros A x y. revert x. induction y as [|y IH]; intros x l; [now rewrite Nat.add_0_r|]. destruct l as [|z l]; [now rewrite !skipn_nil|]. rewrite Nat.add_succ_r. cbn [skipn]. apply IH. Qed.
Theorem part_of_part : forall a i j k l i' j' k' l', full a -> i <= j -> j <= length (s_time a) -> k <= l -> l <= length (s_freq a) ->
  i' <= j' -> i + j' <= j -> k' <= l' -> k + l' <= l ->
  exists r r1 r2, st_part a (window i j) (window k l) = Ok r /\ st_part r (window i' j') (window k' l') = Ok r1 /\
    st_part a (window (i + i') (i + j')) (window (k + k') (k + l')) = Ok r2 /\ same_data r1 r2.
Proof.
  intros a i j k l i' j' k' l' F I J K L I' J' K' L'.
  destruct (part_ranges a (window i j) (window k l) _ _ _ _ F (positions_range _ i j I J) (positions_range _ k l K L) ltac:(lia) ltac:(lia)) as (r & R & SR & FR & TR & QR & GR).
  destruct (part_ranges a (window (i + i') (i + j')) (window (k + k') (k + l')) _ _ _ _ F (positions_range (length (s_time a)) (i + i') (i + j') ltac:(lia) ltac:(lia)) (positions_range (length (s_freq a)) (k + k') (k + l') ltac:(lia) ltac:(lia)) ltac:(lia) ltac:(lia)) as (r2 & R2 & S2 & F2 & T2 & Q2 & G2).
  assert (LT : length (s_time r) = j - i) by (rewrite TR, firstn_length, skipn_length; lia).
  assert (LF : length (s_freq r) = l - k) by (rewrite QR, firstn_length, skipn_length; lia).
  destruct (part_ranges r (window i' j') (window k' l') _ _ _ _ FR (positions_range (length (s_time r)) i' j' ltac:(lia) ltac:(lia)) (positions_range (length (s_freq r)) k' l' ltac:(lia) ltac:(lia)) ltac:(lia) ltac:(lia)) as (r1 & R1 & S1 & F1 & T1 & Q1 & G1).
  assert (CUT : forall (m : list Q) x y x' y', x' <= y' -> x + y' <= y -> firstn (y' - x') (skipn x' (firstn (y - x) (skipn x m))) = firstn (x + y' - (x + x')) (skipn (x + x') m)).
  { intros m x y x' y' A B. rewrite skipn_firstn_comm, firstn_firstn. rewrite (Nat.add_comm x x'), <- skipn_skipn. f_equal. lia. }
  exists r, r1, r2. do 3 (split; [assumption|]).
  split; [rewrite T1, T2, TR; now apply CUT|]. split; [rewrite Q1, Q2, QR; now apply CUT|].
  split; [rewrite S1, S2; f_equal; [lia|f_equal; lia]|].
  intros idx X. rewrite S1 in X. inversion X as [|p n ll s Hi X1]; subst. inversion X1 as [|q m ll' s' Hj X2]; subst. inversion X2; subst.
  rewrite G1, G2, GR by lia. f_equal. f_equal; [lia|f_equal; lia].
Qed.
(** Reversing twice. *)
Definition backwards : pyslice := (None, None, Some (-1)%Z).
Lemma positions_back : forall n, positions n backwards = Ok (rev (seq 0 n)).
Proof.
  intros n. assert (P : exists l, positions n backwards = Ok l) by (apply positions_ok; discriminate).
  destruct P as (l & P). rewrite P. f_equal. destruct (positions_spec _ _ _ P) as (S0 & _). apply (slice_unique _ _ _ _ S0).
  right. split; [lia|]. split.
  - induction n as [|n IH]; [constructor|]. clear. assert (G : forall c s, StronglySorted gt (rev (seq s c))).
    { induction c as [|c IH]; intros s; [constructor|]. rewrite seq_S, rev_app_distr. cbn [rev app]. constructor; [apply IH|].
      rewrite Forall_forall. intros x X. apply in_rev, in_seq in X. unfold gt. lia. }
    apply G.
  - cbv zeta. intros x. rewrite <- in_rev, in_seq. split.
    + intros X. split; [lia|]. exists (n - 1 - x). lia.
    + intros (X & p & E). lia.
Qed.
Lemma taken_rev : forall l, taken l (rev (seq 0 (length l))) = rev l.
Proof. intros l. unfold taken. rewrite map_rev. f_equal. change (taken l (seq 0 (length l)) = l). rewrite taken_seq by lia. cbn [skipn]. apply firstn_all. Qed.
Lemma nth_error_rev_seq : forall n p, p < n -> nth_error (rev (seq 0 n)) p = Some (n - 1 - p).
Proof.
  intros n p P. rewrite (nth_error_nth' _ 0) by (now rewrite rev_length, seq_length). rewrite rev_nth by (now rewrite seq_length).
  rewrite seq_length, seq_nth by lia. f_equal. lia.
Qed.
Lemma part_back : forall a, full a -> exists r, st_part a backwards backwards = Ok r /\ full r /\ s_time r = rev (s_time a) /\ s_freq r = rev (s_freq a) /\
  forall p q, p < length (s_time a) -> q < length (s_freq a) ->
    get (s_val r) [p; q] = get (s_val a) [length (s_time a) - 1 - p; length (s_freq a) - 1 - q].
Proof.
  intros a F. destruct (part_spec a backwards backwards F ltac:(discriminate) ltac:(discriminate)) as (r & pt & pf & R & FR & S1 & S2 & T & Q & _ & _ & G & _).
  rewrite (slice_unique _ _ _ _ S1 (proj1 (positions_spec _ _ _ (positions_back _)))) in *. rewrite (slice_unique _ _ _ _ S2 (proj1 (positions_spec _ _ _ (positions_back _)))) in *.
  exists r. split; [exact R|]. split; [exact FR|]. rewrite taken_rev in T, Q. split; [exact T|]. split; [exact Q|].
  intros p q P K. apply G; now apply nth_error_rev_seq.
Qed.
Theorem part_back_twice : forall a, full a -> exists r r', st_part a backwards backwards = Ok r /\ st_part r backwards backwards = Ok r' /\ same_data r' a.
Proof.
  intros a F. destruct (part_back a F) as (r & R & FR & T & Q & G). destruct (part_back r FR) as (r' & R' & FR' & T' & Q' & G').
  exists r, r'. split; [exact R|]. split; [exact R'|]. rewrite T, rev_involutive in T'. rewrite Q, rev_involutive in Q'.
  split; [exact T'|]. split; [exact Q'|]. split; [rewrite FR', F, T', Q'; reflexivity|].
  intros idx X. rewrite FR', T', Q' in X. inversion X as [|p n ll s Hi X1]; subst. inversion X1 as [|q m ll' s' Hj X2]; subst. inversion X2; subst.
  rewrite T, Q, !rev_length in G'. rewrite G', G by lia. f_equal. f_equal; [lia|f_equal; lia].
Qed.
