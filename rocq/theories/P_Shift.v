(** Specification and proofs for the guarded slot operations and the shifts. *)
From Coq Require Import List Arith ZArith QArith Bool Lia Lqa.
From Verif Require Import Base M_Slots M_Sched M_Shift P_Slots P_Booking P_Book P_Genetic P_Genetic2.
Import ListNotations.
Open Scope nat_scope.

(** ** Specification *)

Definition in_zrange (a b : Z) (k : nat) : Prop := (a <= Z.of_nat k < b)%Z.

(** [a:b] is a non empty range of slots of the schedule. *)
Definition valid_range (st : sched) (a b : Z) : Prop := (0 <= a < b /\ b <= Z.of_nat (sc_size st))%Z.

(** Everything but the free slots is the same. *)
Definition same_but_free (st st' : sched) : Prop := st' = set_free st (sc_free st').
Definition same_but_proc (st st' : sched) : Prop := st' = set_proc st (sc_proc st').

(** Position nearest to [z] at which [n] slots fit in [size] slots. *)
Definition nearest_fit (size n : nat) (z : Z) : Z :=
  Z.max 0 (Z.min z (Z.of_nat size - Z.of_nat n)).

(** ** Guards *)

Lemma any_in_spec : forall A (f : A -> bool) a b l d, 
  any_in f a b l = true <-> exists k, k < length l /\ a <= k < b /\ f (nth k l d) = true.
Proof.
  intros A f a b l d. unfold any_in. rewrite existsb_exists. split.
  - intros (x & X & ->). apply In_nth_error in X. destruct X as (k & X).
    rewrite nth_error_imap in X. destruct (nth_error l k) as [y|] eqn:Y; [|discriminate].
    simpl in X. injection X; intros X'. apply andb_true_iff in X'. destruct X' as [R F].
    apply in_range_true in R. exists k. split; [apply nth_error_Some; congruence|].
    rewrite (nth_error_nth _ _ d Y). now split.
  - intros (k & L & R & F). exists true. split; [|reflexivity].
    apply nth_error_In with (n := k). rewrite nth_error_imap, (nth_error_nth' l d L). simpl.
    f_equal. rewrite F, andb_true_r. now apply in_range_true.
Qed.

Lemma any_in_false : forall A (f : A -> bool) a b l d, any_in f a b l = false ->
  forall k, k < length l -> a <= k < b -> f (nth k l d) = false.
Proof.
  intros A f a b l d H k L R. apply not_true_iff_false. intros T.
  rewrite <- not_true_iff_false in H. apply H. rewrite (any_in_spec _ _ _ _ _ d). now exists k.
Qed.

Lemma bad_range_spec : forall st a b, bad_range (sc_size st) a b = false <-> valid_range st a b.
Proof.
  intros; unfold bad_range, valid_range.
  rewrite !orb_false_iff, Z.ltb_ge, Z.leb_gt, Z.ltb_ge. lia.
Qed.

Lemma valid_range_dec : forall st a b, {valid_range st a b} + {~ valid_range st a b}.
Proof.
  intros st a b. destruct (bad_range (sc_size st) a b) eqn:E.
  - right. intros V. apply bad_range_spec in V. congruence.
  - left. now apply bad_range_spec.
Qed.

Lemma free_slots_spec : forall st a b st' e, sizes_ok st -> free_slots st a b = (st', e) ->
  (e = Some EIndexError /\ st' = st /\ ~ valid_range st a b) \/
  (e = Some EValueError /\ st' = st /\ valid_range st a b /\
   exists k, in_zrange a b k /\ slot_free (sc_free st) k) \/
  (e = None /\ valid_range st a b /\ same_but_free st st' /\
   length (sc_free st') = length (sc_free st) /\
   (forall k, in_zrange a b k -> ~ slot_free (sc_free st) k) /\
   (forall k, slot_free (sc_free st') k <-> in_zrange a b k \/ slot_free (sc_free st) k)).
Proof.
  intros st a b st' e (_ & SZ & _) H. unfold free_slots in H.
  destruct (bad_range (sc_size st) a b) eqn:R.
  - left. injection H; intros <- <-. split; [reflexivity|]. split; [reflexivity|].
    intros V. apply bad_range_spec in V. congruence.
  - apply bad_range_spec in R. pose proof R as (R1 & R2).
    destruct (any_in _ _ _ _) eqn:A.
    + right; left. injection H; intros <- <-. split; [reflexivity|]. split; [reflexivity|].
      split; [assumption|]. apply (any_in_spec _ _ _ _ _ false) in A.
      destruct A as (k & L & K & F). exists k. split; [unfold in_zrange; lia|assumption].
    + right; right. injection H; intros <- <-. split; [reflexivity|]. split; [assumption|].
      split; [reflexivity|]. cbn [sc_free set_free]. rewrite set_range_length. split; [reflexivity|].
      split.
      * intros k K F. unfold in_zrange in K.
        pose proof (any_in_false _ _ _ _ _ false A k) as X. unfold slot_free in F.
        rewrite X in F; [discriminate|lia|lia].
      * intros k. unfold slot_free, in_zrange. destruct (le_lt_dec (length (sc_free st)) k) as [G|G].
        -- rewrite !nth_overflow by (rewrite ?set_range_length; lia). split; [discriminate|].
           intros [X|X]; [lia|discriminate].
        -- rewrite nth_set_range by assumption.
           destruct (in_range (Z.to_nat a) (Z.to_nat b) k) eqn:K.
           ++ apply in_range_true in K. split; [intros _; left; lia|reflexivity].
           ++ apply in_range_false in K. split; [now right|]. intros [X|X]; [lia|assumption].
Qed.

Lemma freeze_slots_spec : forall st a b st' e, sizes_ok st -> freeze_slots st a b = (st', e) ->
  (e = Some EIndexError /\ st' = st /\ ~ valid_range st a b) \/
  (e = Some EValueError /\ st' = st /\ valid_range st a b /\
   exists k, in_zrange a b k /\ ~ slot_free (sc_free st) k) \/
  (e = None /\ valid_range st a b /\ same_but_free st st' /\
   length (sc_free st') = length (sc_free st) /\
   (forall k, in_zrange a b k -> slot_free (sc_free st) k) /\
   (forall k, slot_free (sc_free st') k <-> ~ in_zrange a b k /\ slot_free (sc_free st) k)).
Proof.
  intros st a b st' e (_ & SZ & _) H. unfold freeze_slots in H.
  destruct (bad_range (sc_size st) a b) eqn:R.
  - left. injection H; intros <- <-. split; [reflexivity|]. split; [reflexivity|].
    intros V. apply bad_range_spec in V. congruence.
  - apply bad_range_spec in R. pose proof R as (R1 & R2).
    destruct (any_in _ _ _ _) eqn:A.
    + right; left. injection H; intros <- <-. split; [reflexivity|]. split; [reflexivity|].
      split; [assumption|]. apply (any_in_spec _ _ _ _ _ false) in A.
      destruct A as (k & L & K & F). exists k. split; [unfold in_zrange; lia|].
      unfold slot_free. apply negb_true_iff in F. congruence.
    + right; right. injection H; intros <- <-. split; [reflexivity|]. split; [assumption|].
      split; [reflexivity|]. cbn [sc_free set_free]. rewrite set_range_length. split; [reflexivity|].
      split.
      * intros k K. unfold in_zrange in K.
        pose proof (any_in_false _ _ _ _ _ false A k) as X. unfold slot_free.
        apply negb_false_iff, X; lia.
      * intros k. unfold slot_free, in_zrange. destruct (le_lt_dec (length (sc_free st)) k) as [G|G].
        -- rewrite !nth_overflow by (rewrite ?set_range_length; lia). split; [discriminate|].
           intros [_ X]; discriminate.
        -- rewrite nth_set_range by assumption.
           destruct (in_range (Z.to_nat a) (Z.to_nat b) k) eqn:K.
           ++ apply in_range_true in K. split; [discriminate|]. intros [X _]. lia.
           ++ apply in_range_false in K. split; [|now intros [_ X]]. intros X. split; [lia|assumption].
Qed.

Lemma free_processing_spec : forall st a b st' e, sizes_ok st -> free_processing st a b = (st', e) ->
  (e = Some EIndexError /\ st' = st /\ ~ valid_range st a b) \/
  (e = Some EValueError /\ st' = st /\ valid_range st a b /\
   exists k, in_zrange a b k /\ (nth k (sc_proc st) 0 < 1)%Z) \/
  (e = None /\ valid_range st a b /\ same_but_proc st st' /\
   length (sc_proc st') = length (sc_proc st) /\
   (forall k, in_zrange a b k -> (1 <= nth k (sc_proc st) 0)%Z) /\
   (forall k, in_zrange a b k -> (nth k (sc_proc st') 0 = nth k (sc_proc st) 0 - 1)%Z) /\
   (forall k, ~ in_zrange a b k -> nth k (sc_proc st') 0%Z = nth k (sc_proc st) 0%Z)).
Proof.
  intros st a b st' e (_ & _ & SZ & _) H. unfold free_processing in H.
  destruct (bad_range (sc_size st) a b) eqn:R.
  - left. injection H; intros <- <-. split; [reflexivity|]. split; [reflexivity|].
    intros V. apply bad_range_spec in V. congruence.
  - apply bad_range_spec in R. pose proof R as (R1 & R2).
    destruct (any_in _ _ _ _) eqn:A.
    + right; left. injection H; intros <- <-. split; [reflexivity|]. split; [reflexivity|].
      split; [assumption|]. apply (any_in_spec _ _ _ _ _ 0%Z) in A.
      destruct A as (k & L & K & F). exists k. split; [unfold in_zrange; lia|].
      now apply Z.ltb_lt in F.
    + right; right. injection H; intros <- <-. split; [reflexivity|]. split; [assumption|].
      split; [reflexivity|]. cbn [sc_proc set_proc]. rewrite add_range_length. split; [reflexivity|].
      unfold in_zrange. split; [|split].
      * intros k K. pose proof (any_in_false _ _ _ _ _ 0%Z A k) as X. apply Z.ltb_ge, X; lia.
      * intros k K. rewrite nth_add_range by lia.
        destruct (in_range (Z.to_nat a) (Z.to_nat b) k) eqn:Q; [lia|]. apply in_range_false in Q. lia.
      * intros k K. destruct (le_lt_dec (length (sc_proc st)) k) as [G|G].
        -- rewrite !nth_overflow by (rewrite ?add_range_length; lia). reflexivity.
        -- rewrite nth_add_range by assumption.
           destruct (in_range (Z.to_nat a) (Z.to_nat b) k) eqn:Q; [|reflexivity].
           apply in_range_true in Q. lia.
Qed.

Lemma freeze_processing_spec : forall st a b st' e, sizes_ok st -> (0 < b)%Z ->
  freeze_processing st a b = (st', e) ->
  (e = Some EIndexError /\ st' = st /\ (b <= a)%Z) \/
  (e = None /\ (a < b)%Z /\ same_but_proc st st' /\
   length (sc_proc st') = length (sc_proc st) /\
   (forall k, k < sc_size st -> in_zrange a b k -> (nth k (sc_proc st') 0 = nth k (sc_proc st) 0 + 1)%Z) /\
   (forall k, ~ in_zrange a b k -> nth k (sc_proc st') 0%Z = nth k (sc_proc st) 0%Z)).
Proof.
  intros st a b st' e (_ & _ & SZ & _) B H. unfold freeze_processing in H.
  destruct (Z.leb_spec b a) as [L|L].
  - left. injection H; intros <- <-. auto.
  - right. injection H; clear H; intros <- <-. split; [reflexivity|]. split; [assumption|].
    split; [reflexivity|]. cbn [sc_proc set_proc]. unfold py_add_slice.
    set (a' := if (a <? 0)%Z then 0%Z else a).
    set (b' := if (Z.of_nat (sc_size st) <? b)%Z then Z.of_nat (sc_size st) else b).
    rewrite add_range_length. split; [reflexivity|].
    assert (A' : a' = Z.max 0 a) by (unfold a'; destruct (Z.ltb_spec a 0); lia).
    assert (B' : b' = Z.min b (Z.of_nat (sc_size st)))
      by (unfold b'; destruct (Z.ltb_spec (Z.of_nat (sc_size st)) b); lia).
    assert (SA : slice_bound (length (sc_proc st)) a' = Nat.min (Z.to_nat a') (sc_size st)).
    { unfold slice_bound. destruct (Z.ltb_spec a' 0); [lia|]. now rewrite SZ. }
    assert (SB : slice_bound (length (sc_proc st)) b' = Z.to_nat b').
    { unfold slice_bound. destruct (Z.ltb_spec b' 0); [lia|]. rewrite SZ. lia. }
    rewrite SA, SB. unfold in_zrange. split.
    + intros k K R. rewrite nth_add_range by lia.
      destruct (in_range _ _ k) eqn:Q; [reflexivity|]. apply in_range_false in Q. lia.
    + intros k R. destruct (le_lt_dec (length (sc_proc st)) k) as [G|G].
      * rewrite !nth_overflow by (rewrite ?add_range_length; lia). reflexivity.
      * rewrite nth_add_range by assumption. destruct (in_range _ _ k) eqn:Q; [|reflexivity].
        apply in_range_true in Q. lia.
Qed.

(** ** Round trips *)

Lemma set_free_eta : forall st f, sc_free st = f -> set_free st f = st.
Proof. intros [] f <-. reflexivity. Qed.
Lemma set_proc_eta : forall st f, sc_proc st = f -> set_proc st f = st.
Proof. intros [] f <-. reflexivity. Qed.

Lemma free_eq : forall f f' : list bool, length f = length f' ->
  (forall k, slot_free f k <-> slot_free f' k) -> f = f'.
Proof.
  intros f f' L H. apply (list_ext_nth _ _ _ false); [assumption|].
  intros k _. unfold slot_free in H. specialize (H k).
  destruct (nth k f false), (nth k f' false); try reflexivity; exfalso.
  - assert (false = true) by (now apply H). discriminate.
  - assert (false = true) by (now apply H). discriminate.
Qed.

Lemma sizes_same_free : forall st st', sizes_ok st -> same_but_free st st' ->
  length (sc_free st') = length (sc_free st) -> sizes_ok st'.
Proof.
  intros st st' (A & B & C & D) E L. rewrite E. unfold sizes_ok, sc_size in *. cbn. rewrite L. tauto.
Qed.

Lemma sizes_same_proc : forall st st', sizes_ok st -> same_but_proc st st' ->
  length (sc_proc st') = length (sc_proc st) -> sizes_ok st'.
Proof.
  intros st st' (A & B & C & D) E L. rewrite E. unfold sizes_ok, sc_size in *. cbn. rewrite L. tauto.
Qed.

Lemma valid_same : forall st st' a b, sc_size st' = sc_size st -> valid_range st' a b <-> valid_range st a b.
Proof. intros st st' a b E; unfold valid_range. now rewrite E. Qed.

Lemma freeze_free : forall st a b st', sizes_ok st -> freeze_slots st a b = (st', None) ->
  free_slots st' a b = (st, None).
Proof.
  intros st a b st' S H.
  destruct (freeze_slots_spec _ _ _ _ _ S H) as [(X & _)|[(X & _)|(_ & V & SB & L & A & F)]]; try discriminate.
  pose proof (sizes_same_free _ _ S SB L) as S'.
  assert (SZ : sc_size st' = sc_size st) by (rewrite SB; reflexivity).
  destruct (free_slots st' a b) as [st2 e] eqn:E.
  destruct (free_slots_spec _ _ _ _ _ S' E) as [(_ & _ & X)|[(_ & _ & _ & k & K & X)|(-> & _ & SB2 & L2 & A2 & F2)]].
  - exfalso. apply X. now rewrite (valid_same _ _ _ _ SZ).
  - exfalso. apply F in X. tauto.
  - f_equal. rewrite SB2, SB. cbn. unfold set_free. cbn. fold (set_free st (sc_free st2)).
    apply set_free_eta. apply free_eq; [congruence|]. intros k. rewrite F2, F. split.
    + intros X. destruct (Z.le_gt_cases a (Z.of_nat k)) as [Q1|Q1];
        [destruct (Z.lt_ge_cases (Z.of_nat k) b) as [Q2|Q2]|].
      * left. now split.
      * right. split; [unfold in_zrange; lia|assumption].
      * right. split; [unfold in_zrange; lia|assumption].
    + intros [X|[_ X]]; [now apply A|assumption].
Qed.

Lemma free_freeze : forall st a b st', sizes_ok st -> free_slots st a b = (st', None) ->
  freeze_slots st' a b = (st, None).
Proof.
  intros st a b st' S H.
  destruct (free_slots_spec _ _ _ _ _ S H) as [(X & _)|[(X & _)|(_ & V & SB & L & A & F)]]; try discriminate.
  pose proof (sizes_same_free _ _ S SB L) as S'.
  assert (SZ : sc_size st' = sc_size st) by (rewrite SB; reflexivity).
  destruct (freeze_slots st' a b) as [st2 e] eqn:E.
  destruct (freeze_slots_spec _ _ _ _ _ S' E) as [(_ & _ & X)|[(_ & _ & _ & k & K & X)|(-> & _ & SB2 & L2 & A2 & F2)]].
  - exfalso. apply X. now rewrite (valid_same _ _ _ _ SZ).
  - exfalso. apply X, F. now left.
  - f_equal. rewrite SB2, SB. cbn. unfold set_free. cbn. fold (set_free st (sc_free st2)).
    apply set_free_eta. apply free_eq; [congruence|]. intros k. rewrite F2, F. split.
    + intros X. split; [|now right]. intros K. now apply (A k).
    + intros [N [X|X]]; [contradiction|assumption].
Qed.

Lemma proc_freeze_free : forall st a b st', sizes_ok st -> valid_range st a b ->
  (forall k, (0 <= nth k (sc_proc st) 0)%Z) ->
  freeze_processing st a b = (st', None) ->
  free_processing st' a b = (st, None).
Proof.
  intros st a b st' S V NN H. pose proof V as (V1 & V2).
  assert (B : (0 < b)%Z) by lia.
  destruct (freeze_processing_spec _ _ _ _ _ S B H) as [(X & _)|(_ & _ & SB & L & A & F)]; [discriminate|].
  pose proof (sizes_same_proc _ _ S SB L) as S'.
  assert (SZ : sc_size st' = sc_size st) by (rewrite SB; reflexivity).
  destruct (free_processing st' a b) as [st2 e] eqn:E.
  destruct (free_processing_spec _ _ _ _ _ S' E) as [(_ & _ & X)|[(_ & _ & _ & k & K & X)|(-> & _ & SB2 & L2 & A2 & F2 & G2)]].
  - exfalso. apply X. now rewrite (valid_same _ _ _ _ SZ).
  - exfalso. rewrite A in X; [specialize (NN k); lia| |assumption]. unfold in_zrange in K. lia.
  - f_equal. rewrite SB2, SB. cbn. unfold set_proc. cbn. fold (set_proc st (sc_proc st2)).
    apply set_proc_eta. apply (list_ext_nth _ _ _ 0%Z); [congruence|]. intros k K.
    destruct S as (_ & _ & SS & _).
    assert (D : in_zrange a b k \/ ~ in_zrange a b k) by (unfold in_zrange; lia).
    destruct D as [D|D].
    + rewrite F2, A by (assumption || lia). lia.
    + rewrite G2, F by assumption. reflexivity.
Qed.

(** ** Shifts *)

Lemma shifted_start_spec : forall size s n shift, n <= size ->
  shifted_start size s n shift = nearest_fit size n (Z.of_nat s + shift).
Proof.
  intros size s n shift L. unfold shifted_start, nearest_fit.
  destruct (Z.leb_spec (Z.of_nat s + shift) 0); [lia|].
  destruct (Z.leb_spec (Z.of_nat size) (Z.of_nat s + shift + Z.of_nat n)); lia.
Qed.

(** Everything but the blocks, the free slots and the processing counters is
    the same. *)
Definition same_context (st st' : sched) : Prop :=
  sc_dt st' = sc_dt st /\ sc_hour st' = sc_hour st /\ sc_starts st' = sc_starts st /\
  sc_stops st' = sc_stops st /\ sc_day st' = sc_day st /\ sc_night st' = sc_night st /\
  sc_todo st' = sc_todo st /\ sc_cnst st' = sc_cnst st /\
  length (sc_free st') = length (sc_free st) /\ length (sc_proc st') = length (sc_proc st).

(** Block [i], which was [b], now starts at [new]; the others are the same. *)
Definition block_moved (st st' : sched) (i : nat) (b : blk) (new : nat) : Prop :=
  sc_blocks st' = upd i (with_place b new (times_at st new (bk_nslots b))) (sc_blocks st).

(** The free slots after block [b] has moved to [new]. *)
Definition slots_moved (st st' : sched) (b : blk) (new : nat) : Prop :=
  forall k, slot_free (sc_free st') k <->
    (slot_free (sc_free st) k \/ covers b k) /\ ~ (new <= k < new + bk_nslots b).

(** The extent reserved for the processing of [n] slots from [s]. *)
Definition zone (s n d k : nat) : Prop := in_zrange (Z.of_nat s - Z.of_nat d) (Z.of_nat (s + n + d)) k.

Definition proc_moved (st st' : sched) (b : blk) (s new : nat) : Prop :=
  forall k, k < sc_size st -> exists x y,
    (nth k (sc_proc st') 0 = nth k (sc_proc st) 0 - x + y)%Z /\
    (zone s (bk_nslots b) (bk_ndelay b) k /\ x = 1%Z \/
     ~ zone s (bk_nslots b) (bk_ndelay b) k /\ x = 0%Z) /\
    (zone new (bk_nslots b) (bk_ndelay b) k /\ y = 1%Z \/
     ~ zone new (bk_nslots b) (bk_ndelay b) k /\ y = 0%Z).

(** The shift is given up silently. *)
Definition shift_refused (st : sched) (b : blk) (new : nat) (minimal : Q) : Prop :=
  (~ slot_free (sc_free st) new /\ ~ slot_free (sc_free st) (new + bk_nslots b - 1)) \/
  (exists row, nth_error (sc_cnst st) (bk_idx b) = Some row /\ (nth new row 0 < minimal)%Q).

(** A slot of the new position belongs to someone else. *)
Definition shift_conflict (st : sched) (b : blk) (new : nat) : Prop :=
  exists k, new <= k < new + bk_nslots b /\ ~ slot_free (sc_free st) k /\ ~ covers b k.

(** The processing counters do not allow the shift. *)
Definition zone_outside (st : sched) (b : blk) (s : nat) : Prop :=
  s < bk_ndelay b \/ sc_size st < s + bk_nslots b + bk_ndelay b.
Definition zone_free (st : sched) (b : blk) (s : nat) : Prop :=
  exists k, zone s (bk_nslots b) (bk_ndelay b) k /\ (nth k (sc_proc st) 0 < 1)%Z.

Inductive shift_outcome (st : sched) (i : nat) (b : blk) (s new : nat) (minimal : Q)
  : sched -> option err -> Prop :=
| so_refused : shift_refused st b new minimal -> shift_outcome st i b s new minimal st None
| so_conflict : forall st', ~ shift_refused st b new minimal -> shift_conflict st b new ->
    block_moved st st' i b new -> same_context st st' -> sc_proc st' = sc_proc st ->
    (forall k, slot_free (sc_free st') k <-> slot_free (sc_free st) k \/ covers b k) ->
    shift_outcome st i b s new minimal st' (Some EValueError)
| so_no_delay : forall st', ~ shift_refused st b new minimal -> ~ shift_conflict st b new ->
    bk_ndelay b = 0 ->
    block_moved st st' i b new -> same_context st st' -> sc_proc st' = sc_proc st ->
    slots_moved st st' b new ->
    shift_outcome st i b s new minimal st' None
| so_outside : forall st', ~ shift_refused st b new minimal -> ~ shift_conflict st b new ->
    bk_ndelay b <> 0 -> zone_outside st b s ->
    block_moved st st' i b new -> same_context st st' -> sc_proc st' = sc_proc st ->
    slots_moved st st' b new ->
    shift_outcome st i b s new minimal st' (Some EIndexError)
| so_zone_free : forall st', ~ shift_refused st b new minimal -> ~ shift_conflict st b new ->
    bk_ndelay b <> 0 -> ~ zone_outside st b s -> zone_free st b s ->
    block_moved st st' i b new -> same_context st st' -> sc_proc st' = sc_proc st ->
    slots_moved st st' b new ->
    shift_outcome st i b s new minimal st' (Some EValueError)
| so_delay : forall st', ~ shift_refused st b new minimal -> ~ shift_conflict st b new ->
    bk_ndelay b <> 0 -> ~ zone_outside st b s -> ~ zone_free st b s ->
    block_moved st st' i b new -> same_context st st' ->
    slots_moved st st' b new -> proc_moved st st' b s new ->
    shift_outcome st i b s new minimal st' None.

Lemma shift_outcome_spec : forall st i b s row shift minimal st' e, sched_inv st ->
  nth_error (sc_blocks st) i = Some b -> bk_start b = Some s ->
  nth_error (sc_cnst st) (bk_idx b) = Some row ->
  shift_block st i shift minimal = (st', e) ->
  shift_outcome st i b s (Z.to_nat (nearest_fit (sc_size st) (bk_nslots b) (Z.of_nat s + shift))) minimal st' e.
Proof.
  intros st i b s row shift minimal st' e I B S R H.
  destruct (si_booked _ I i b B s S) as (P & Q & NF).
  destruct (si_sizes _ I) as (S1 & S2 & S3 & S4).
  unfold shift_block in H. rewrite B, S, R in H. rewrite shifted_start_spec in H by lia.
  set (n := bk_nslots b) in *.
  assert (NW : (0 <= nearest_fit (sc_size st) n (Z.of_nat s + shift) <= Z.of_nat (sc_size st) - Z.of_nat n)%Z)
    by (unfold nearest_fit; lia).
  set (new := Z.to_nat (nearest_fit (sc_size st) n (Z.of_nat s + shift))) in *.
  assert (NW' : new + n <= sc_size st) by lia. clear NW.
  cbv zeta in H.
  destruct (negb (nth new (sc_free st) false || nth (new + n - 1) (sc_free st) false)) eqn:FR.
  { assert (EQ : st' = st /\ e = None) by (split; congruence). destruct EQ as [-> ->].
    apply so_refused. left. apply negb_true_iff, orb_false_iff in FR. destruct FR as [A C].
    unfold slot_free. fold n. rewrite A, C. split; discriminate. }
  destruct (Qltb (nth new row 0%Q) minimal) eqn:SC.
  { assert (EQ : st' = st /\ e = None) by (split; congruence). destruct EQ as [-> ->].
    apply so_refused. right. exists row. split; [assumption|]. now apply Qltb_lt. }
  assert (NR : ~ shift_refused st b new minimal).
  { intros [[A C]|(row' & A & C)].
    - apply negb_false_iff, orb_true_iff in FR. unfold slot_free in A, C. fold n in C. tauto.
    - rewrite R in A; injection A; intros <-. apply Qltb_lt in C. congruence. }
  set (b' := with_place b new _) in H.
  set (st1 := set_blocks st (upd i b' (sc_blocks st))) in H.
  assert (BM1 : block_moved st st1 i b new) by reflexivity.
  assert (SZ1 : sizes_ok st1).
  { unfold sizes_ok, sc_size in *. cbn. rewrite upd_length. tauto. }
  destruct (free_slots st1 (Z.of_nat s) (Z.of_nat (s + n))) as [st2 e2] eqn:E2.
  destruct (free_slots_spec _ _ _ _ _ SZ1 E2) as [(_ & _ & X)|[(_ & _ & _ & k & K & X)|(-> & _ & SB2 & L2 & A2 & F2)]].
  { exfalso. apply X. unfold valid_range, sc_size in *. cbn. lia. }
  { exfalso. apply (NF k); [|exact X]. exists s. split; [assumption|]. unfold in_zrange in K. fold n. lia. }
  cbn [andthen] in H.
  assert (SZ2 : sizes_ok st2) by (now apply (sizes_same_free st1)).
  assert (G2 : forall k, slot_free (sc_free st2) k <-> slot_free (sc_free st) k \/ covers b k).
  { intros k. rewrite F2. cbn [sc_free st1 set_blocks].
    assert (Y : in_zrange (Z.of_nat s) (Z.of_nat (s + n)) k <-> covers b k).
    { unfold in_zrange, covers. fold n. split.
      - intros Y. exists s. split; [assumption|lia].
      - intros (s' & Y1 & Y2). rewrite S in Y1; injection Y1; intros <-. lia. }
    rewrite Y. tauto. }
  assert (C2 : same_context st st2 /\ sc_proc st2 = sc_proc st /\ block_moved st st2 i b new).
  { rewrite SB2. unfold same_context, block_moved. cbn. rewrite L2. cbn. tauto. }
  destruct C2 as (C2 & PR2 & BM2).
  destruct (freeze_slots st2 (Z.of_nat new) (Z.of_nat (new + n - 1 + 1))) as [st3 e3] eqn:E3.
  destruct (freeze_slots_spec _ _ _ _ _ SZ2 E3) as [(_ & _ & X)|[(-> & -> & _ & k & K & X)|(-> & _ & SB3 & L3 & A3 & F3)]].
  { exfalso. apply X. unfold valid_range. destruct C2 as (_ & _ & T & _). unfold sc_size in *. rewrite T. lia. }
  { cbn [andthen] in H. assert (EQ : st' = st2 /\ e = Some EValueError) by (split; congruence).
    destruct EQ as [-> ->]. apply so_conflict; try assumption.
    exists k. split; [unfold in_zrange in K; fold n; lia|]. rewrite G2 in X. tauto. }
  cbn [andthen] in H.
  assert (SZ3 : sizes_ok st3) by (now apply (sizes_same_free st2)).
  assert (C3 : same_context st st3 /\ sc_proc st3 = sc_proc st /\ block_moved st st3 i b new).
  { rewrite SB3. unfold same_context, block_moved in *. cbn. rewrite L3. tauto. }
  destruct C3 as (C3 & PR3 & BM3).
  assert (SM3 : slots_moved st st3 b new).
  { intros k. rewrite F3, G2. unfold in_zrange. fold n. split; intros [X Y]; (split; [|]); try assumption; lia. }
  assert (NC : ~ shift_conflict st b new).
  { intros (k & K & X & Y). fold n in K.
    assert (Z : slot_free (sc_free st2) k) by (apply A3; unfold in_zrange; lia).
    apply G2 in Z. tauto. }
  destruct (Nat.eqb_spec (bk_ndelay b) 0) as [D|D].
  { assert (EQ : st' = st3 /\ e = None) by (split; congruence). destruct EQ as [-> ->]. now apply so_no_delay. }
  set (d := bk_ndelay b) in *.
  destruct (free_processing st3 (Z.of_nat s - Z.of_nat d) (Z.of_nat (s + n) + Z.of_nat d)) as [st4 e4] eqn:E4.
  assert (SS3 : sc_size st3 = sc_size st) by (destruct C3 as (_ & _ & T & _); unfold sc_size; now rewrite T).
  assert (ZO : zone_outside st b s <-> ~ valid_range st3 (Z.of_nat s - Z.of_nat d) (Z.of_nat (s + n) + Z.of_nat d)).
  { unfold zone_outside, valid_range. rewrite SS3. fold n d. lia. }
  assert (ZN : forall k, in_zrange (Z.of_nat s - Z.of_nat d) (Z.of_nat (s + n) + Z.of_nat d) k <-> zone s n d k).
  { intros k. unfold zone, in_zrange. lia. }
  destruct (free_processing_spec _ _ _ _ _ SZ3 E4) as [(-> & -> & X)|[(-> & -> & V & k & K & X)|(-> & V & SB4 & L4 & A4 & F4 & G4)]].
  { cbn [andthen] in H. assert (EQ : st' = st3 /\ e = Some EIndexError) by (split; congruence).
    destruct EQ as [-> ->]. apply so_outside; try assumption. now apply ZO. }
  { cbn [andthen] in H. assert (EQ : st' = st3 /\ e = Some EValueError) by (split; congruence).
    destruct EQ as [-> ->]. apply so_zone_free; try assumption.
    - rewrite ZO. tauto.
    - exists k. split; [now apply ZN|]. now rewrite <- PR3. }
  cbn [andthen] in H.
  assert (SZ4 : sizes_ok st4) by (now apply (sizes_same_proc st3)).
  assert (POS : (0 < Z.of_nat (new + n - 1) + Z.of_nat d + 1)%Z) by lia.
  destruct (freeze_processing_spec _ _ _ _ _ SZ4 POS H) as [(_ & _ & X)|(-> & _ & SB5 & L5 & F5 & G5)]; [lia|].
  assert (SS4 : sc_size st4 = sc_size st) by (rewrite SB4; exact SS3).
  assert (BM5 : block_moved st st' i b new).
  { rewrite SB5. unfold block_moved in *. cbn. rewrite SB4. exact BM3. }
  assert (SM5 : slots_moved st st' b new).
  { rewrite SB5. unfold slots_moved in *. cbn. rewrite SB4. exact SM3. }
  assert (C5 : same_context st st').
  { rewrite SB5. unfold same_context in *. cbn [sc_dt sc_hour sc_starts sc_stops sc_day sc_night sc_todo sc_cnst sc_free sc_proc set_proc].
    rewrite L5, L4, SB4. cbn. tauto. }
  apply so_delay; try assumption.
  - rewrite ZO. tauto.
  - intros (k & K & X). fold n d in K. apply ZN in K. apply A4 in K. rewrite PR3 in K. lia.
  - intros k K. fold n d.
    assert (D1 : zone s n d k \/ ~ zone s n d k) by (unfold zone, in_zrange; lia).
    assert (D2 : zone new n d k \/ ~ zone new n d k) by (unfold zone, in_zrange; lia).
    assert (ZM : in_zrange (Z.of_nat new - Z.of_nat d) (Z.of_nat (new + n - 1) + Z.of_nat d + 1) k <-> zone new n d k)
      by (unfold zone, in_zrange; lia).
    exists (if in_range (s - d) (s + n + d) k then 1 else 0)%Z,
           (if in_range (new - d) (new + n + d) k then 1 else 0)%Z.
    assert (I1 : in_range (s - d) (s + n + d) k = true <-> zone s n d k)
      by (rewrite in_range_true; unfold zone, in_zrange; lia).
    assert (I2 : in_range (new - d) (new + n + d) k = true <-> zone new n d k)
      by (rewrite in_range_true; unfold zone, in_zrange; lia).
    assert (X4 : nth k (sc_proc st4) 0%Z = (nth k (sc_proc st) 0 - (if in_range (s - d) (s + n + d) k then 1 else 0))%Z).
    { rewrite <- PR3. destruct (in_range (s - d) (s + n + d) k).
      - apply F4, ZN, I1. reflexivity.
      - rewrite Z.sub_0_r. apply G4. rewrite ZN, <- I1. discriminate. }
    assert (X5 : nth k (sc_proc st') 0%Z = (nth k (sc_proc st4) 0 + (if in_range (new - d) (new + n + d) k then 1 else 0))%Z).
    { destruct (in_range (new - d) (new + n + d) k).
      - apply F5; [lia|]. apply ZM, I2. reflexivity.
      - rewrite Z.add_0_r. apply G5. rewrite ZM, <- I2. discriminate. }
    rewrite X5, X4. split; [lia|]. split.
    + destruct (in_range (s - d) (s + n + d) k); [left; split; [now apply I1|reflexivity]|right].
      split; [|reflexivity]. intros X. now apply I1 in X.
    + destruct (in_range (new - d) (new + n + d) k); [left; split; [now apply I2|reflexivity]|right].
      split; [|reflexivity]. intros X. now apply I2 in X.
Qed.

(** ** Invariant *)

Lemma moved_inv : forall st st' i b s new, sched_inv st ->
  nth_error (sc_blocks st) i = Some b -> bk_start b = Some s -> new + bk_nslots b <= sc_size st ->
  ~ shift_conflict st b new ->
  block_moved st st' i b new -> same_context st st' -> slots_moved st st' b new ->
  sched_inv st'.
Proof.
  intros st st' i b s new I B S L NC BM SC SM.
  destruct SC as (C1&C2&C3&C4&C5&C6&C7&C8&C9&C10).
  destruct (si_sizes _ I) as (S1 & S2 & S3 & S4).
  assert (SZ : sc_size st' = sc_size st) by (unfold sc_size; congruence).
  set (b' := with_place b new (times_at st new (bk_nslots b))) in *.
  unfold block_moved in BM. fold b' in BM.
  assert (NTH : forall j c, nth_error (sc_blocks st') j = Some c ->
            (j = i /\ c = b') \/ (j <> i /\ nth_error (sc_blocks st) j = Some c)).
  { intros j c J. rewrite BM, nth_error_upd in J.
    destruct (Nat.eqb_spec j i) as [->|N]; [|now right]. rewrite B in J. injection J. left; auto. }
  assert (CV : forall k, covers b' k <-> new <= k < new + bk_nslots b).
  { intros k. unfold covers, b'. cbn. split.
    - intros (z & Z & K). injection Z; intros <-. exact K.
    - intros K. now exists new. }
  destruct (si_booked _ I i b B s S) as (P & _ & NF).
  constructor.
  - unfold sizes_ok. rewrite SZ, C4, C7, C9, C10, BM, upd_length. tauto.
  - intros j c J. rewrite C1. destruct (NTH j c J) as [[-> ->]|[N J']].
    + unfold b'. cbn. now apply (si_nslots _ I i).
    + now apply (si_nslots _ I j).
  - intros j c J z E. rewrite C9. destruct (NTH j c J) as [[-> ->]|[N J']].
    + split; [exact P|]. cbn in E. injection E; intros <-. split; [unfold b'; cbn; lia|].
      intros k K F. apply CV in K. apply SM in F. tauto.
    + destruct (si_booked _ I j c J' z E) as (A & A' & A''). split; [assumption|]. split; [assumption|].
      intros k K F. apply SM in F. destruct F as [[F|F] _]; [now apply (A'' k)|].
      now apply (si_disj _ I j i c b k).
  - intros j l c d k N J LL X1 X2.
    assert (X : forall j c, j <> i -> nth_error (sc_blocks st) j = Some c -> covers c k -> covers b' k -> False).
    { intros m x M MX CX CB. apply CV in CB. apply NC. exists k. split; [assumption|]. split.
      - pose proof CX as (z & Z & _). now apply (proj2 (proj2 (si_booked _ I m x MX z Z))).
      - intros CB'. now apply (si_disj _ I m i x b k). }
    destruct (NTH j c J) as [[-> ->]|[Nj J']]; destruct (NTH l d LL) as [[-> ->]|[Nl L']].
    + congruence.
    + now apply (X l d).
    + now apply (X j c).
    + now apply (si_disj _ I j l c d k).
Qed.

Lemma fit_inside : forall size n z, n <= size -> Z.to_nat (nearest_fit size n z) + n <= size.
Proof. intros; unfold nearest_fit; lia. Qed.

(** A shift that does not run into another block or reservation keeps the
    schedule consistent, even when it raises. *)
Lemma shift_inv : forall st i shift minimal st' e, sched_inv st ->
  shift_block st i shift minimal = (st', e) ->
  (forall b s, nth_error (sc_blocks st) i = Some b -> bk_start b = Some s ->
     e = None \/
     ~ shift_conflict st b (Z.to_nat (nearest_fit (sc_size st) (bk_nslots b) (Z.of_nat s + shift)))) ->
  sched_inv st' /\ same_context st st' /\
  (st' = st \/ exists b s, nth_error (sc_blocks st) i = Some b /\ bk_start b = Some s /\
     block_moved st st' i b (Z.to_nat (nearest_fit (sc_size st) (bk_nslots b) (Z.of_nat s + shift)))).
Proof.
  intros st i shift minimal st' e I H NC.
  assert (SAME : sched_inv st /\ same_context st st /\
    (st = st \/ exists b s, nth_error (sc_blocks st) i = Some b /\ bk_start b = Some s /\
     block_moved st st i b (Z.to_nat (nearest_fit (sc_size st) (bk_nslots b) (Z.of_nat s + shift))))).
  { split; [assumption|]. split; [unfold same_context; tauto|now left]. }
  destruct (nth_error (sc_blocks st) i) as [b|] eqn:B.
  2: { unfold shift_block in H. rewrite B in H. injection H; intros <- <-. exact SAME. }
  destruct (bk_start b) as [s|] eqn:S.
  2: { unfold shift_block in H. rewrite B, S in H. injection H; intros <- <-. exact SAME. }
  destruct (nth_error (sc_cnst st) (bk_idx b)) as [row|] eqn:R.
  2: { unfold shift_block in H. rewrite B, S, R in H. injection H; intros <- <-. exact SAME. }
  pose proof (shift_outcome_spec _ _ _ _ _ _ _ _ _ I B S R H) as O.
  specialize (NC b s eq_refl S). set (new := Z.to_nat _) in *.
  assert (FI : new + bk_nslots b <= sc_size st).
  { apply fit_inside. destruct (si_booked _ I i b B s S) as (_ & Q & _).
    destruct (si_sizes _ I) as (_ & S2 & _). lia. }
  inversion O; subst; try exact SAME;
    try (destruct NC as [NC|NC]; [discriminate|contradiction]);
    (split; [now apply (moved_inv st st' i b s new)|split; [assumption|right; exists b, s; auto]]).
Qed.

(** A conflict always leaves the block on slots that are marked free. *)
Lemma conflict_breaks : forall st i b s new minimal st', 
  0 < bk_nslots b -> i < length (sc_blocks st) ->
  (exists row, nth_error (sc_cnst st) (bk_idx b) = Some row) ->
  shift_outcome st i b s new minimal st' (Some EValueError) -> shift_conflict st b new ->
  ~ booked_ok (sc_free st') (sc_blocks st').
Proof.
  intros st i b s new minimal st' P LI (row & R) O C BO. inversion O; subst; try contradiction.
  assert (F : slot_free (sc_free st) new \/ slot_free (sc_free st) (new + bk_nslots b - 1)).
  { unfold slot_free. destruct (nth new (sc_free st) false) eqn:A; [now left|].
    destruct (nth (new + bk_nslots b - 1) (sc_free st) false) eqn:A'; [now right|].
    exfalso. apply H. left. unfold slot_free. rewrite A, A'. split; discriminate. }
  set (b' := with_place b new (times_at st new (bk_nslots b))) in *.
  assert (B' : nth_error (sc_blocks st') i = Some b').
  { unfold block_moved in H1. rewrite H1, nth_error_upd, Nat.eqb_refl.
    destruct (nth_error (sc_blocks st) i) eqn:E; [reflexivity|]. apply nth_error_None in E. lia. }
  destruct (BO i b' B' new eq_refl) as (_ & _ & X).
  destruct F as [F|F].
  - apply (X new); [exists new; split; [reflexivity|cbn; lia]|]. apply H4. now left.
  - apply (X (new + bk_nslots b - 1)); [exists new; split; [reflexivity|cbn; lia]|]. apply H4. now left.
Qed.

(** ** Direction of the shifts *)

Lemma earlier_is_later : forall st i d minimal,
  shift_earlier st i (Some d) minimal = shift_later st i (Some d) minimal.
Proof. reflexivity. Qed.

Lemma earlier_moves_later : forall st i b s d minimal st' e b' s', sched_inv st -> (0 < sc_dt st)%Z ->
  nth_error (sc_blocks st) i = Some b -> bk_start b = Some s ->
  shift_earlier st i (Some d) minimal = (st', e) ->
  nth_error (sc_blocks st') i = Some b' -> bk_start b' = Some s' -> s <= s'.
Proof.
  intros st i b s d minimal st' e b' s' I D B S H B' S'.
  unfold shift_earlier, earlier_slots in H.
  destruct (nth_error (sc_cnst st) (bk_idx b)) as [row|] eqn:R.
  2: { unfold shift_block in H. rewrite B, S, R in H. injection H; intros <- <-.
       rewrite B in B'; injection B'; intros <-. rewrite S in S'; injection S'; intros <-. lia. }
  pose proof (shift_outcome_spec _ _ _ _ _ _ _ _ _ I B S R H) as O.
  assert (Q0 : (0 <= Z.abs d / sc_dt st)%Z) by (apply Z.div_pos; lia).
  destruct (si_booked _ I i b B s S) as (_ & Q & _). destruct (si_sizes _ I) as (_ & S2 & _).
  set (new := Z.to_nat _) in *.
  assert (NW : s <= new) by (unfold new, nearest_fit; lia).
  assert (MV : block_moved st st' i b new -> s <= s').
  { intros BM. unfold block_moved in BM. rewrite BM, nth_error_upd, Nat.eqb_refl, B in B'.
    injection B'; intros <-. cbn in S'. injection S'; intros <-. assumption. }
  inversion O; subst; auto.
  rewrite B in B'; injection B'; intros <-. rewrite S in S'; injection S'; intros <-. lia.
Qed.
