(** The data selected in a file. *)
From Coq Require Import List Arith ZArith QArith Qround Qabs Bool Lia Lqa Sorted.
From Verif Require Import Base M_Slots M_Nd P_Nd M_Rebin M_TFArray P_TFArray P_TFArray2 M_Polar P_Polar2 M_Select P_Select.
Import ListNotations.
Open Scope nat_scope.

(** A file as it is recorded. *)
Definition well_formed {A} (f : file A) : Prop :=
  0 < f_nt f /\ 0 < f_nc f /\ f_starts f <> [] /\ length (f_subbands f) = length (f_beams f) /\
  exists rest, sh (f_data f) = length (f_starts f) * f_nt f :: length (f_beams f) * f_nc f :: rest.

(** The sample of a block for time [t]: the rounded number of steps, brought back
    into the block. *)
Definition in_block (n : nat) (dt start t : Q) (j : nat) : Prop :=
  exists r, nearest ((t - start) / dt)%Q r /\ Z.of_nat j = Z.max 0 (Z.min (Z.of_nat n - 1) r).
(** The sample of the file for time [t]. *)
Definition sample_of {A} (f : file A) (t : Q) (i : nat) : Prop :=
  exists b j, first_closest (f_starts f) t b /\
    in_block (f_nt f) (f_dt f) (nth b (f_starts f) 0%Q) t j /\ i = b * f_nt f + j.
(** The sub-band for frequency [x], among [lo .. hi]. *)
Definition band_of (subbands : list Q) (lo hi : nat) (x : Q) (s : nat) : Prop :=
  lo <= s <= hi /\
  forall i k k', lo <= i <= hi -> whole (nth s subbands 0%Q) x k -> whole (nth i subbands 0%Q) x k' ->
    (k <= k')%Z /\ (i < s -> (k < k')%Z).

Lemma slice_length : forall A (l : list A) a b, b <= length l -> length (slice a b l) = b - a.
Proof. intros. unfold slice. rewrite firstn_length, skipn_length. lia. Qed.
Lemma nth_skipn' : forall A (l : list A) a i d, nth i (skipn a l) d = nth (a + i) l d.
Proof.
  induction l as [|x l IH]; intros [|a] i d; cbn [skipn]; auto.
  - cbn. now destruct i.
  - cbn [plus nth]. apply IH.
Qed.
Lemma nth_firstn' : forall A (l : list A) a i d, i < a -> nth i (firstn a l) d = nth i l d.
Proof. induction l as [|x l IH]; intros [|a] [|i] d H; cbn; auto; try lia. apply IH; lia. Qed.
Lemma slice_nth : forall A (l : list A) a b i d, i < b - a -> nth i (slice a b l) d = nth (a + i) l d.
Proof. intros. unfold slice. rewrite nth_firstn' by assumption. apply nth_skipn'. Qed.
Lemma flat_nth : forall a n i, i < n -> nth i (flat a n) 0%Q = get a [i].
Proof. intros. unfold flat. now rewrite nth_map_seq. Qed.
Lemma flat_length : forall a n, length (flat a n) = n.
Proof. intros. unfold flat. now rewrite map_length, seq_length. Qed.

Lemma in_block_index : forall n dt start t, 0 < n -> in_block n dt start t (index_in_block n dt start t).
Proof.
  intros. unfold in_block, index_in_block. exists (round_even ((t - start) / dt)%Q).
  split; [apply round_even_nearest|]. rewrite Z2Nat.id; lia.
Qed.
Lemma in_block_unique : forall n dt start t j, in_block n dt start t j -> j = index_in_block n dt start t.
Proof. intros n dt start t j (r & R & E). unfold index_in_block. rewrite (round_even_eq _ _ R), <- E. now rewrite Nat2Z.id. Qed.
Lemma index_lt : forall n dt start t, 0 < n -> index_in_block n dt start t < n.
Proof. intros. unfold index_in_block. lia. Qed.

(** Every time has one sample, the nearest in its block, inside the file. *)
Theorem sample_of_total : forall A (f : file A) t, well_formed f -> exists i, sample_of f t i /\
  i < length (f_starts f) * f_nt f /\ (forall i', sample_of f t i' -> i' = i).
Proof.
  intros A f t (N & _ & SN & _). destruct (closest_error (f_starts f) t) as [(b & E)|(X & _)]; [|contradiction].
  pose proof E as E1. apply closest_spec in E.
  exists (b * f_nt f + index_in_block (f_nt f) (f_dt f) (nth b (f_starts f) 0%Q) t).
  pose proof (index_lt (f_nt f) (f_dt f) (nth b (f_starts f) 0%Q) t N).
  split; [|split].
  - exists b, (index_in_block (f_nt f) (f_dt f) (nth b (f_starts f) 0%Q) t). split; [exact E|].
    split; [now apply in_block_index|reflexivity].
  - destruct E as (B & _). nia.
  - intros i' (b' & j' & F & J & ->). apply closest_spec in F. rewrite F in E1. injection E1 as ->.
    now rewrite (in_block_unique _ _ _ _ _ J).
Qed.
Theorem sample_of_nearest : forall A (f : file A) t i, well_formed f -> (0 < f_dt f)%Q -> sample_of f t i ->
  exists b j, i = b * f_nt f + j /\ b < length (f_starts f) /\ j < f_nt f /\ first_closest (f_starts f) t b /\
  forall j', j' < f_nt f ->
    (Qabs (sample_time (nth b (f_starts f) 0) (f_dt f) j - t) <=
     Qabs (sample_time (nth b (f_starts f) 0) (f_dt f) j' - t))%Q.
Proof.
  intros A f t i (N & _) D (b & j & F & J & ->). exists b, j.
  pose proof (in_block_unique _ _ _ _ _ J) as E.
  destruct (index_in_block_spec (f_nt f) (f_dt f) (nth b (f_starts f) 0%Q) t N D) as (U & V).
  rewrite <- E in U, V. split; [reflexivity|]. split; [now destruct F|]. auto.
Qed.
Lemma sample_of_model : forall A (f : file A) t i, well_formed f -> sample_of f t i ->
  closest (f_starts f) t = Ok (i / f_nt f) /\
  index_in_block (f_nt f) (f_dt f) (nth (i / f_nt f) (f_starts f) 0%Q) t = i mod f_nt f /\
  i / f_nt f < length (f_starts f) /\
  i = i / f_nt f * f_nt f + i mod f_nt f /\ i mod f_nt f < f_nt f.
Proof.
  intros A f t i (N & _) (b & j & F & J & ->).
  pose proof (in_block_unique _ _ _ _ _ J) as E.
  pose proof (index_lt (f_nt f) (f_dt f) (nth b (f_starts f) 0%Q) t N) as L. rewrite <- E in L.
  assert (D : (b * f_nt f + j) / f_nt f = b).
  { symmetry. apply (Nat.div_unique _ _ b j); [exact L|lia]. }
  assert (M : (b * f_nt f + j) mod f_nt f = j).
  { symmetry. apply (Nat.mod_unique _ _ b j); [exact L|lia]. }
  rewrite D, M. split; [now apply closest_spec|]. split; [now symmetry|]. split; [now destruct F|]. lia.
Qed.

(** Beams. *)
Lemma find_beam : forall beams n b,
  (In b beams -> exists lo hi, first_sub beams b lo /\ last_sub beams b hi /\ lo <= hi /\
     find (fun e => Z.eqb (fst e) b) (beam_edges beams n) = Some (b, (lo * n, (hi + 1) * n - 1))) /\
  (~ In b beams -> find (fun e => Z.eqb (fst e) b) (beam_edges beams n) = None).
Proof.
  intros beams n b. destruct (beam_edges_spec beams n) as (_ & K & S1). split.
  - intros I. apply K in I. apply in_map_iff in I. destruct I as ((b' & e) & E & I). cbn in E. subst b'.
    destruct (find _ _) as [(b' & (s & t))|] eqn:F.
    + apply find_some in F. destruct F as (F & E). cbn in E. apply Z.eqb_eq in E. subst b'.
      destruct (S1 _ _ _ F) as (lo & hi & L & H & -> & ->). exists lo, hi. split; [exact L|]. split; [exact H|]. split; [|reflexivity].
      destruct L as (L1 & _), H as (_ & H2). now apply H2.
    + pose proof (find_none _ _ F _ I) as X. cbn in X. rewrite Z.eqb_refl in X. discriminate.
  - intros I. destruct (find _ _) as [(b' & e)|] eqn:F; [|reflexivity]. exfalso. apply I. apply K.
    apply find_some in F. destruct F as (F & E). cbn in E. apply Z.eqb_eq in E. subst b'.
    apply in_map_iff. now exists (b, e).
Qed.
Lemma band_of_model : forall subbands lo hi x s, hi < length subbands -> lo <= hi ->
  closest (slice lo (hi + 1) subbands) x = Ok s -> band_of subbands lo hi x (lo + s).
Proof.
  intros subbands lo hi x s H L E. apply closest_spec in E. destruct E as (B & E).
  rewrite slice_length in B by lia. split; [lia|]. intros i k k' I K K'.
  specialize (E (i - lo) k k'). rewrite slice_length in E by lia.
  rewrite !slice_nth in E by lia. replace (lo + (i - lo)) with i in E by lia.
  destruct (E ltac:(lia) K K'). split; [assumption|]. intros. apply H1. lia.
Qed.

(** ** What is returned *)
Definition selected {A} (f : file A) (tmin tmax fmin fmax : Q) (beam : Z) (fr t : list Q) (d : nd A) : Prop :=
  exists i0 i1 lo hi s0 s1 rest,
    sample_of f tmin i0 /\ sample_of f tmax i1 /\
    first_sub (f_beams f) beam lo /\ last_sub (f_beams f) beam hi /\
    band_of (f_subbands f) lo hi fmin s0 /\ band_of (f_subbands f) lo hi fmax s1 /\
    length t = S i1 - i0 /\ length fr = (S s1 - s0) * f_nc f /\
    sh (f_data f) = length (f_starts f) * f_nt f :: length (f_beams f) * f_nc f :: rest /\
    sh d = length t :: length fr :: rest /\
    (forall k, k < length t ->
       (nth k t 0 == sample_time (nth ((i0 + k) / f_nt f) (f_starts f) 0) (f_dt f) ((i0 + k) mod f_nt f))%Q) /\
    (forall c, c < length fr ->
       (nth c fr 0 == nth (s0 + c / f_nc f) (f_subbands f) 0 + (qn (c mod f_nc f) - qn (f_nc f) / 2) * f_df f)%Q) /\
    (forall k c p, k < length t -> c < length fr ->
       get d (k :: c :: p) = get (f_data f) (i0 + k :: s0 * f_nc f + c :: p)).

Lemma div_mul_sub1 : forall h n, 0 < n -> ((h + 1) * n - 1 + 1) / n = h + 1.
Proof. intros. replace ((h + 1) * n - 1 + 1) with ((h + 1) * n) by nia. apply Nat.div_mul. lia. Qed.

Theorem select_some : forall A (f : file A) tmin tmax fmin fmax beam i0 i1,
  well_formed f -> sample_of f tmin i0 -> sample_of f tmax i1 -> i0 <> i1 -> In beam (f_beams f) ->
  exists fr t d, select_raw_data f tmin tmax fmin fmax beam = Ok (Some (fr, t, d)) /\
    selected f tmin tmax fmin fmax beam fr t d.
Proof.
  intros A f tmin tmax fmin fmax beam i0 i1 W S0 S1 NE IB.
  pose proof (sample_of_model _ _ _ _ W S0) as (C0 & J0 & B0 & E0 & M0).
  pose proof (sample_of_model _ _ _ _ W S1) as (C1 & J1 & B1 & E1 & M1).
  destruct W as (N & NC & SN & SB & rest & SH).
  unfold select_raw_data. rewrite C0, C1. cbn [bind]. rewrite J0, J1, <- E0, <- E1.
  destruct (i0 =? i1) eqn:X; [apply Nat.eqb_eq in X; contradiction|]. clear X.
  set (b0 := i0 / f_nt f) in *. set (b1 := i1 / f_nt f) in *. set (j0 := i0 mod f_nt f) in *. set (j1 := i1 mod f_nt f) in *.
  set (n := f_nt f) in *. set (nc := f_nc f) in *.
  set (st := slice b0 (b1 + 1) (f_starts f)).
  destruct (time_spec st n (f_dt f)) as (rt & RT & RTS & RTV). rewrite RT. cbn [bind].
  destruct (find_beam (f_beams f) nc beam) as (FB & _). destruct (FB IB) as (lo & hi & LO & HI & LH & FE).
  rewrite FE. rewrite Nat.div_mul by lia. rewrite div_mul_sub1 by lia.
  assert (HL : hi < length (f_subbands f)).
  { rewrite SB. apply nth_error_Some. destruct HI as (HI & _). congruence. }
  set (sbs := slice lo (hi + 1) (f_subbands f)).
  assert (SL : length sbs = hi + 1 - lo) by (unfold sbs; apply slice_length; lia).
  destruct (closest_error sbs fmin) as [(s0 & CS0)|(X & _)]; [|apply (f_equal (@length _)) in X; cbn in X; lia].
  destruct (closest_error sbs fmax) as [(s1 & CS1)|(X & _)]; [|apply (f_equal (@length _)) in X; cbn in X; lia].
  rewrite CS0, CS1. cbn [bind].
  set (ch := slice s0 (s1 + 1) sbs).
  destruct (frequencies_spec ch nc (f_df f)) as (rf & RF & RFS & RFV). rewrite RF. cbn [bind].
  pose proof (band_of_model _ _ _ _ _ HL LH CS0) as BO0. pose proof (band_of_model _ _ _ _ _ HL LH CS1) as BO1.
  assert (LCH : length ch = S s1 - s0).
  { unfold ch. rewrite slice_length; [lia|]. rewrite SL. destruct BO1 as (? & _). lia. }
  assert (LT : length (slice j0 (length st * n - (n - j1) + 1) (flat rt (length st * n))) = S i1 - i0).
  { unfold st. destruct (le_lt_dec b0 b1) as [L|L].
    - rewrite !(slice_length _ (f_starts f)) by lia. rewrite slice_length by (rewrite flat_length; nia). nia.
    - assert (length (slice b0 (b1 + 1) (f_starts f)) = 0) by (rewrite slice_length; lia). rewrite H. cbn [Nat.mul].
      unfold slice at 1. rewrite firstn_length, skipn_length, flat_length. nia. }
  do 3 eexists. split; [reflexivity|].
  exists i0, i1, lo, hi, (lo + s0), (lo + s1), rest.
  split; [exact S0|]. split; [exact S1|]. split; [exact LO|]. split; [exact HI|]. split; [exact BO0|]. split; [exact BO1|].
  split; [exact LT|]. rewrite flat_length. split; [rewrite LCH; lia|]. split; [exact SH|].
  rewrite LT. split; [|split; [|split]].
  - unfold slice_nd. rewrite SH. cbn [sh]. f_equal; [|f_equal].
    + rewrite Nat.min_id, Nat.sub_0_r. rewrite Nat.min_l; [lia|]. nia.
    + rewrite LCH. destruct BO0 as (? & _), BO1 as (? & _). rewrite SB in HL.
      rewrite (Nat.min_l ((hi + 1) * nc - 1 + 1)) by (fold nc; nia). 
      rewrite Nat.min_l by nia. nia.
  - intros k K.
    assert (b0 <= b1) by nia.
    assert (LST : length st = b1 + 1 - b0) by (unfold st; apply slice_length; lia).
    rewrite LST in *. rewrite slice_nth by nia. rewrite flat_nth by nia.
    set (q := (i0 + k) / n). set (m := (i0 + k) mod n).
    assert (QM : i0 + k = q * n + m /\ m < n).
    { unfold q, m. pose proof (Nat.div_mod (i0 + k) n ltac:(lia)). pose proof (Nat.mod_upper_bound (i0 + k) n ltac:(lia)). lia. }
    destruct QM as (QM & ML).
    assert (b0 <= q) by nia. assert (q <= b1) by nia.
    replace (j0 + k) with ((q - b0) * n + m) by nia. rewrite RTV by lia.
    unfold st. rewrite slice_nth by lia. replace (b0 + (q - b0)) with q by lia. unfold sample_time. reflexivity.
  - intros c C. rewrite flat_nth by exact C. rewrite LCH in C.
    pose proof (Nat.div_mod c nc ltac:(lia)) as DM. pose proof (Nat.mod_upper_bound c nc ltac:(lia)) as MB.
    assert (DL : c / nc < S s1 - s0) by (apply Nat.div_lt_upper_bound; [lia|rewrite Nat.mul_comm; exact C]).
    replace c with (c / nc * nc + c mod nc) at 1 by lia. rewrite RFV by (rewrite ?LCH; assumption).
    unfold ch, sbs. destruct BO1 as (? & _). rewrite slice_nth by lia. rewrite slice_nth by lia.
    replace (lo + (s0 + c / nc)) with (lo + s0 + c / nc) by lia. reflexivity.
  - intros k c p K C. unfold slice_nd. rewrite SH. cbn [sh get]. f_equal. f_equal. f_equal. fold nc. nia.
Qed.

Theorem select_key_error : forall A (f : file A) tmin tmax fmin fmax beam i0 i1,
  well_formed f -> sample_of f tmin i0 -> sample_of f tmax i1 -> i0 <> i1 -> ~ In beam (f_beams f) ->
  select_raw_data f tmin tmax fmin fmax beam = Err EKeyError.
Proof.
  intros A f tmin tmax fmin fmax beam i0 i1 W S0 S1 NE IB.
  pose proof (sample_of_model _ _ _ _ W S0) as (C0 & J0 & B0 & E0 & M0).
  pose proof (sample_of_model _ _ _ _ W S1) as (C1 & J1 & B1 & E1 & M1).
  unfold select_raw_data. rewrite C0, C1. cbn [bind]. rewrite J0, J1, <- E0, <- E1.
  destruct (i0 =? i1) eqn:X; [apply Nat.eqb_eq in X; contradiction|]. clear X.
  destruct (time_spec (slice (i0 / f_nt f) (i1 / f_nt f + 1) (f_starts f)) (f_nt f) (f_dt f)) as (rt & RT & _). rewrite RT. cbn [bind].
  destruct (find_beam (f_beams f) (f_nc f) beam) as (_ & FB). now rewrite (FB IB).
Qed.

(** Both ends on one sample: nothing, or an error inside the last block. *)
Theorem select_same : forall A (f : file A) tmin tmax fmin fmax beam i,
  well_formed f -> sample_of f tmin i -> sample_of f tmax i ->
  let last_block := i / f_nt f = length (f_starts f) - 1 /\ 0 < i < length (f_starts f) * f_nt f - 1 /\
                    (nth (length (f_starts f) - 1) (f_starts f) 0 <= tmin)%Q in
  (last_block -> select_raw_data f tmin tmax fmin fmax beam = Err EIndexError) /\
  (~ last_block -> select_raw_data f tmin tmax fmin fmax beam = Ok None).
Proof.
  intros A f tmin tmax fmin fmax beam i W S0 S1.
  pose proof (sample_of_model _ _ _ _ W S0) as (C0 & J0 & B0 & E0 & M0).
  pose proof (sample_of_model _ _ _ _ W S1) as (C1 & J1 & _).
  cbv zeta. unfold select_raw_data. rewrite C0, C1. cbn [bind]. rewrite J0, J1, <- E0, Nat.eqb_refl. split.
  - intros (L & (P & Q) & T). rewrite (proj2 (Nat.ltb_lt _ _) P), (proj2 (Nat.ltb_lt _ _) Q). cbn [andb].
    rewrite L. rewrite (proj2 (Qle_bool_iff _ _) T). cbn [andb]. rewrite (proj2 (Nat.leb_le _ _)) by lia. reflexivity.
  - intros H. destruct (0 <? i) eqn:P; [|reflexivity]. destruct (i <? _) eqn:Q; [|reflexivity]. cbn [andb].
    destruct (Qle_bool _ _) eqn:T; [|reflexivity]. destruct (_ <=? _) eqn:L; [|reflexivity]. exfalso. apply H.
    apply Nat.ltb_lt in P, Q. apply Nat.leb_le in L. apply Qle_bool_iff in T.
    assert (LB : i / f_nt f = length (f_starts f) - 1) by lia. rewrite LB in T. auto.
Qed.

(** Starts at increasing times: the selected times are increasing too. *)
Theorem selected_increasing : forall A (f : file A) tmin tmax fmin fmax beam fr t d,
  well_formed f -> (0 < f_dt f)%Q -> spaced (f_starts f) ((qn (f_nt f) - 1) * f_dt f)%Q ->
  selected f tmin tmax fmin fmax beam fr t d -> forall k, S k < length t -> (nth k t 0 < nth (S k) t 0)%Q.
Proof.
  intros A f tmin tmax fmin fmax beam fr t d W D SP (i0 & i1 & lo & hi & s0 & s1 & rest & S0 & S1 & _ & _ & _ & _ & LT & _ & _ & _ & TV & _) k K.
  pose proof (sample_of_model _ _ _ _ W S1) as (_ & _ & B1 & E1 & M1). destruct W as (N & _).
  destruct (time_spec (f_starts f) (f_nt f) (f_dt f)) as (r & R & RS & RV).
  assert (V : forall k, k < length t -> (nth k t 0 == get r [(i0 + k)%nat])%Q).
  { intros k' K'. rewrite TV by exact K'.
    pose proof (Nat.div_mod (i0 + k') (f_nt f) ltac:(lia)) as DM. pose proof (Nat.mod_upper_bound (i0 + k') (f_nt f) ltac:(lia)) as MB.
    assert ((i0 + k') / f_nt f < length (f_starts f)).
    { apply Nat.div_lt_upper_bound; [lia|]. nia. }
    replace (i0 + k') with ((i0 + k') / f_nt f * f_nt f + (i0 + k') mod f_nt f) at 3 by lia.
    rewrite RV by assumption. reflexivity. }
  rewrite (V k), (V (S k)) by lia. replace (i0 + S k) with (S (i0 + k)) by lia.
  apply (proj2 (time_increasing _ _ _ _ R D N)); [exact SP|]. nia.
Qed.
