(** Sessions made of every modelled operation of a schedule. *)
From Coq Require Import List Arith ZArith QArith Bool Lia.
From Verif Require Import Base M_Slots M_Sched M_Genetic M_Extend M_Shift P_Slots P_Booking P_Book
  P_Book2 P_Book3 P_Genetic P_Genetic2 P_Genetic3 P_Extend P_Shift.
Import ListNotations.
Open Scope nat_scope.

(** ** Specification *)

(** Insertions, reservations, heuristic and genetic bookings, extensions and
    shifts, in any order, on a new schedule.  Insertions, reservations and
    heuristic bookings may fail; the genetic bookings and extensions succeed
    (a failed extension changes nothing); a shift may fail, except by running
    into another block or reservation. *)
Inductive reach3 : sched -> Prop :=
| r3_new : forall tmin tmax dt hour day night st,
    new_sched tmin tmax dt hour day night = Ok st -> reach3 st
| r3_op : forall st o, reach3 st -> op_nonneg o -> reach3 (sstep st o)
| r3_ga : forall st st' p g sorter m score, reach3 st -> sorter_in_range sorter ->
    ga_book p g sorter m score st = (st', None) -> reach3 st'
| r3_extend : forall st st' done done' thr md me ev, reach3 st ->
    extend done thr md me ev st = (st', done', None) -> reach3 st'
| r3_shift : forall st st' i shift minimal e, reach3 st ->
    shift_block st i shift minimal = (st', e) -> e <> Some EValueError -> reach3 st'.

(** Blocks are numbered by their position, and the ones that are booked have a
    row of constraint scores. *)
Definition rows_ok (st : sched) : Prop :=
  forall i b, nth_error (sc_blocks st) i = Some b ->
    bk_idx b = i /\ (bk_start b <> None -> i < length (sc_cnst st)).

(** ** Proofs *)

Lemma new_sched_dt : forall tmin tmax dt hour day night st,
  new_sched tmin tmax dt hour day night = Ok st -> sc_dt st <> 0%Z /\ sc_blocks st = [].
Proof.
  intros tmin tmax dt hour day night st H. unfold new_sched, new_slots, slots_time_range in H.
  destruct (tmax <=? tmin)%Z; [discriminate|]. destruct (Z.eqb_spec dt 0) as [E|E]; [discriminate|].
  simpl in H. injection H; intros <-. now split.
Qed.

Lemma score_loop_rows : forall dt free bs ts bs' ts' rows e, length ts = length bs ->
  score_loop dt free bs ts = (bs', ts', rows, e) -> length rows = length bs.
Proof.
  intros dt free. induction bs as [|b bs IH]; intros ts bs' ts' rows e L H.
  - simpl in H. injection H; intros; subst. reflexivity.
  - destruct ts as [|t ts]; [discriminate|]. cbn [score_loop] in H.
    destruct (Z.to_nat (cdiv (bk_dur b) dt) =? 0).
    + injection H; intros; subst. cbn [map length]. now rewrite map_length.
    + destruct (score_loop dt free bs ts) as [[[bs1 ts1] rows1] e1] eqn:E.
      injection H; intros; subst. simpl. f_equal. eapply IH; [|exact E]. simpl in L. lia.
Qed.

Lemma prepare_rows : forall p st st2 go e, sizes_ok st -> book_prepare p st = (st2, go, e) ->
  (go = true -> length (sc_cnst st2) = length (sc_blocks st2)) /\
  (length (sc_cnst st2) = length (sc_blocks st2) \/
   (sc_cnst st2 = sc_cnst st /\ sc_blocks st2 = sc_blocks (base_state p st))).
Proof.
  intros p st st2 go e S H. unfold book_prepare in H. fold (base_state p st) in H.
  pose proof (sizes_base p st S) as (_ & _ & _ & S4).
  assert (CN : sc_cnst (base_state p st) = sc_cnst st)
    by (unfold base_state; destruct (bp_reset p); reflexivity).
  unfold compute_scores in H.
  destruct (sc_size (base_state p st) =? 0).
  - injection H; intros; subst. split; [discriminate|]. right. now split.
  - destruct (score_loop _ _ _ _) as [[[bs ts] rows] e1] eqn:SL.
    pose proof (score_loop_rows _ _ _ _ _ _ _ _ S4 SL) as LR.
    pose proof (score_loop_blocks _ _ _ _ _ _ _ _ S4 SL) as (_ & LB & _).
    assert (X : length rows = length bs) by congruence.
    destruct e1 as [e1|].
    + injection H; intros; subst. split; [discriminate|]. left. exact X.
    + cbn [sc_todo set_cnst set_todo set_blocks] in H. destruct (count_true ts =? 0).
      * injection H; intros; subst. split; [discriminate|]. left. exact X.
      * injection H; intros; subst. destruct (bp_strict p); (split; [intros _; exact X|left; exact X]).
Qed.

(** Whatever a booking does, [cnst] fits the blocks. *)
Lemma booking_rows : forall p st st2 go e bs', sched_inv st -> rows_ok st ->
  book_prepare p st = (st2, go, e) -> length bs' = length (sc_blocks st) ->
  (go = true \/ bs' = sc_blocks st2) ->
  forall i b', nth_error bs' i = Some b' -> bk_start b' <> None -> i < length (sc_cnst st2).
Proof.
  intros p st st2 go e bs' I RO PR L G i b' B BK.
  destruct (prepare_rows p st st2 go e (si_sizes _ I) PR) as (X1 & X2).
  pose proof (prepare_facts p st st2 go e (si_sizes _ I) PR) as (_&_&_&_&_&_&_&_&_&LB&_).
  assert (LT : i < length bs') by (apply nth_error_Some; congruence).
  destruct X2 as [X2|[X2 X3]]; [lia|].
  destruct G as [-> | ->]; [rewrite X1 by reflexivity; lia|].
  rewrite X2. rewrite X3 in B. apply base_blocks in B. destruct B as (b0 & B0 & E).
  destruct (RO i b0 B0) as [_ R]. apply R. intros N. apply BK. rewrite E.
  destruct (bp_reset p); [reflexivity|assumption].
Qed.

Lemma insert_fold_nth : forall dt l bs i b,
  nth_error (fold_left (fun bs (x : Z * option Z * list Q) =>
      let '(dur, delay, score) := x in
      bs ++ [new_blk dt (length bs) dur delay score]) l bs) i = Some b ->
  nth_error bs i = Some b \/ (length bs <= i /\ bk_idx b = i /\ bk_start b = None).
Proof.
  intros dt. induction l as [|[[dur delay] score] l IH]; intros bs i b H; [now left|].
  cbn [fold_left] in H. apply IH in H. destruct H as [H|(L & A & B)].
  - destruct (le_lt_dec (length bs) i) as [G|G].
    + right. rewrite nth_error_app2 in H by assumption.
      destruct (i - length bs) as [|m] eqn:M; [|destruct m; discriminate].
      injection H; intros <-. cbn. split; [assumption|]. split; [lia|reflexivity].
    + left. now rewrite nth_error_app1 in H.
  - right. rewrite app_length in L. simpl in L. split; [lia|]. now split.
Qed.

Lemma sstep_rows : forall st o, sched_inv st -> nonneg_scores (sc_blocks st) -> rows_ok st ->
  rows_ok (sstep st o) /\ sc_dt (sstep st o) = sc_dt st.
Proof.
  intros st [l|a b|p o] I NN RO; cbn [sstep].
  - split; [|reflexivity]. intros i c H. apply insert_fold_nth in H.
    destruct H as [H|(L & A & B)]; [now apply RO|]. split; [assumption|]. congruence.
  - unfold insert_res. destruct (add_booking _ a b) as [s [e|]]; cbn; (split; [exact RO|reflexivity]).
  - destruct (book_facts p o st (si_sizes _ I) (si_nslots _ I) (si_booked _ I) NN) as (_ & _ & DT & SZ & BL & _).
    split; [|assumption]. intros i b' B'.
    destruct (BL i b' B') as (b0 & B0 & SB & _). destruct (RO i b0 B0) as [R1 _].
    split; [destruct SB; congruence|]. intros BK.
    revert B' SZ. unfold book. destruct (book_prepare p st) as [[st2 go] e] eqn:PR.
    pose proof (prepare_facts p st st2 go e (si_sizes _ I) PR) as (_&_&_&_&_&_&_&_&_&LB&_).
    destruct e as [e|].
    + intros B' _.
      assert (B2 : nth_error (sc_blocks st2) i = Some b') by (destruct go; exact B').
      assert (CN : i < length (sc_cnst st2))
        by exact (booking_rows p st st2 go (Some e) (sc_blocks st2) I RO PR LB (or_intror eq_refl) i b' B2 BK).
      destruct go; exact CN.
    + destruct go.
      * destruct (visit _ o) as [l|e'].
        -- cbn. intros B' SZ.
           apply (booking_rows p st st2 true None (g_blocks (greedy p st2 l)) I RO PR) with (b' := b'); auto.
           destruct SZ as (_ & _ & _ & S4). cbn in S4.
           pose proof (prepare_facts p st st2 true None (si_sizes _ I) PR) as (_&_&_&_&_&_&_&_&LT&_&_). congruence.
        -- cbn. intros B' _. apply (booking_rows p st st2 true None (sc_blocks st2) I RO PR LB (or_intror eq_refl) i b' B' BK).
      * cbn. intros B' _. apply (booking_rows p st st2 false None (sc_blocks st2) I RO PR LB (or_intror eq_refl) i b' B' BK).
Qed.

Lemma ga_rows : forall p g sorter m score st st', sched_inv st -> nonneg_scores (sc_blocks st) ->
  sorter_in_range sorter -> rows_ok st -> ga_book p g sorter m score st = (st', None) -> rows_ok st'.
Proof.
  intros p g sorter m score st st' I NN SR RO E.
  destruct (ga_book_facts _ _ _ _ _ _ _ I NN SR E) as (_ & _ & _ & _ & _ & LB & BL & _).
  intros i b' B'. destruct (BL i b' B') as (b0 & B0 & SB & _). destruct (RO i b0 B0) as [R1 _].
  split; [destruct SB; congruence|]. intros BK. unfold ga_book in E.
  destruct (book_prepare p st) as [[st2 go] e] eqn:PR. destruct e as [e|]; [destruct go; discriminate|].
  destruct go.
  - destruct (ga_place _ _ _ _) as [bs [e|]]; [discriminate|].
    destruct (fine_tune _ _ _ _) as [bs' [e|]]; [discriminate|].
    assert (X : sc_cnst st' = sc_cnst st2).
    { apply (f_equal (fun r => sc_cnst (fst r))) in E. cbn in E. now rewrite <- E. }
    rewrite X.
    apply (booking_rows p st st2 true None (sc_blocks st') I RO PR LB (or_introl eq_refl) i b' B' BK).
  - assert (X : st' = st2) by congruence. rewrite X in *.
    apply (booking_rows p st st2 false None (sc_blocks st2) I RO PR LB (or_intror eq_refl) i b' B' BK).
Qed.

Record session_inv (st : sched) : Prop := mkSI {
  se_inv : sched_inv st;
  se_nonneg : nonneg_scores (sc_blocks st);
  se_dt : sc_dt st <> 0%Z;
  se_rows : rows_ok st;
}.

Lemma extend_session : forall st st' done done' thr md me ev, session_inv st ->
  extend done thr md me ev st = (st', done', None) -> session_inv st'.
Proof.
  intros st st' done done' thr md me ev [I NN D RO] E.
  destruct (extend_spec _ _ _ _ _ _ _ _ D I E) as (A & F & BL & _).
  destruct F as (F1&F2&F3&F4&F5&F6&F7&F8&F9&F10).
  assert (BK : forall i b', nth_error (sc_blocks st') i = Some b' -> exists b0,
    nth_error (sc_blocks st) i = Some b0 /\ extended thr md me ev st i b0 b').
  { intros i b' B'. assert (L : i < length (sc_blocks st')) by (apply nth_error_Some; congruence).
    rewrite F10 in L. destruct (nth_error (sc_blocks st) i) as [b0|] eqn:B0; [|apply nth_error_None in B0; lia].
    destruct (BL i b0 B0) as (b2 & B2 & X). rewrite B' in B2; injection B2; intros <-. now exists b0. }
  constructor.
  - assumption.
  - intros b' B' x X. apply In_nth_error in B'. destruct B' as (i & B').
    destruct (BK i b' B') as (b0 & B0 & E1 & E2 & E3 & _). rewrite E3 in X.
    apply (NN b0); [now apply nth_error_In in B0|assumption].
  - now rewrite F1.
  - intros i b' B'. destruct (BK i b' B') as (b0 & B0 & E1 & E2 & E3 & E4 & _).
    destruct (RO i b0 B0) as [R1 R2]. split; [congruence|]. rewrite F9. intros BKD. apply R2.
    intros N. apply BKD. now rewrite (E4 N).
Qed.

Lemma shift_session : forall st st' i shift minimal e, session_inv st ->
  shift_block st i shift minimal = (st', e) ->
  (forall b s, nth_error (sc_blocks st) i = Some b -> bk_start b = Some s -> e = None \/
     ~ shift_conflict st b (Z.to_nat (nearest_fit (sc_size st) (bk_nslots b) (Z.of_nat s + shift)))) ->
  session_inv st'.
Proof.
  intros st st' i shift minimal e [I NN D RO] E NE.
  destruct (shift_inv _ _ _ _ _ _ I E NE) as (A & (C1&C2&C3&C4&C5&C6&C7&C8&C9&C10) & [->|(b & s & B & S & BM)]);
    [now constructor|].
  unfold block_moved in BM. constructor.
  - assumption.
  - intros b' B' x X. apply In_nth_error in B'. destruct B' as (j & B').
    rewrite BM, nth_error_upd in B'. destruct (Nat.eqb_spec j i) as [EJ|N].
    + rewrite EJ, B in B'. injection B'; intros <-. cbn in X.
      apply (NN b); [now apply nth_error_In in B|assumption].
    + apply (NN b'); [now apply nth_error_In in B'|assumption].
  - congruence.
  - intros j b' B'. rewrite BM, nth_error_upd in B'. destruct (Nat.eqb_spec j i) as [EJ|N].
    + rewrite EJ, B in B'. injection B'; intros <-. cbn. rewrite C8, EJ.
      destruct (RO i b B) as [R1 R2]. split; [assumption|]. intros _. apply R2. congruence.
    + rewrite C8. now apply RO.
Qed.

Lemma shift_no_value_error : forall st i shift minimal st' e b s, session_inv st ->
  shift_block st i shift minimal = (st', e) -> e <> Some EValueError ->
  nth_error (sc_blocks st) i = Some b -> bk_start b = Some s ->
  e = None \/
  ~ shift_conflict st b (Z.to_nat (nearest_fit (sc_size st) (bk_nslots b) (Z.of_nat s + shift))).
Proof.
  intros st i shift minimal st' e b s [I NN D RO] H NE B S.
  destruct (RO i b B) as [R1 R2]. assert (L : i < length (sc_cnst st)) by (apply R2; congruence).
  destruct (nth_error (sc_cnst st) (bk_idx b)) as [row|] eqn:R; [|apply nth_error_None in R; lia].
  pose proof (shift_outcome_spec _ _ _ _ _ _ _ _ _ I B S R H) as O.
  inversion O; subst; auto; congruence.
Qed.

Lemma reach3_inv : forall st, reach3 st -> session_inv st.
Proof.
  intros st R. induction R as [tmin tmax dt hour day night st E|st o R IH O|st st' p g so m sc R IH S E
    |st st' done done' thr md me ev R IH E|st st' i shift minimal e R IH E NE].
  - destruct (new_sched_inv _ _ _ _ _ _ _ E) as [I NN]. destruct (new_sched_dt _ _ _ _ _ _ _ E) as [D B].
    constructor; try assumption. intros i b H. rewrite B in H. destruct i; discriminate.
  - destruct IH as [I NN D RO]. destruct (sstep_inv st o I NN O) as [I' NN'].
    destruct (sstep_rows st o I NN RO) as [RO' D']. constructor; try assumption. congruence.
  - destruct IH as [I NN D RO].
    destruct (ga_book_facts _ _ _ _ _ _ _ I NN S E) as (I' & NN' & _ & _ & D' & _).
    constructor; try assumption; [congruence|]. now apply (ga_rows p g so m sc st).
  - eapply extend_session; eassumption.
  - eapply shift_session; [eassumption|eassumption|]. intros b s B S.
    eapply shift_no_value_error; eassumption.
Qed.

Lemma reach2_reach3 : forall st, reach2 st -> reach3 st.
Proof.
  intros st R. induction R; [eapply r3_new; eassumption|now apply r3_op|eapply r3_ga; eassumption].
Qed.

(** ** Final forms *)

Lemma session_consistent : forall st, reach3 st ->
  no_overlap (sc_blocks st) /\ placed_inside (sc_size st) (sc_blocks st) /\
  (forall i b k, nth_error (sc_blocks st) i = Some b -> covers b k -> ~ slot_free (sc_free st) k) /\
  (forall i b, nth_error (sc_blocks st) i = Some b -> bk_idx b = i).
Proof.
  intros st R. apply reach3_inv in R. destruct R as [I NN D RO].
  split; [apply I|]. split; [now apply placed_inside_inv|]. split.
  - intros i b k H C. pose proof C as (s & E & _). now apply (si_booked _ I i b H s E).
  - intros i b H. now apply RO.
Qed.

Lemma session_extend : forall done thr md me ev st st' done', reach3 st ->
  extend done thr md me ev st = (st', done', None) ->
  no_overlap (sc_blocks st') /\ placed_inside (sc_size st') (sc_blocks st') /\
  frame st st' /\
  (forall i b0, nth_error (sc_blocks st) i = Some b0 -> exists b,
     nth_error (sc_blocks st') i = Some b /\ extended thr md me ev st i b0 b) /\
  (forall k, slot_free (sc_free st') k <->
     slot_free (sc_free st) k /\ forall b, In b (sc_blocks st') -> ~ covers b k).
Proof.
  intros done thr md me ev st st' done' R E. apply reach3_inv in R. destruct R as [I NN D RO].
  destruct (extend_spec _ _ _ _ _ _ _ _ D I E) as (A & F & BL & FR & _).
  split; [apply A|]. split; [now apply placed_inside_inv|]. now split.
Qed.

Lemma session_extend_complete : forall done thr md me ev st st' done' i b0 s0 w, reach3 st -> runs done md ->
  extend done thr md me ev st = (st', done', None) ->
  nth_error (sc_blocks st) i = Some b0 -> bk_start b0 = Some s0 ->
  tried thr md me ev st i w ->
  exists b, nth_error (sc_blocks st') i = Some b /\
    ((forall k, in_window (sc_size st) s0 (bk_nslots b0) w k ->
        slot_free (sc_free st') k \/ covers b k) ->
     forall k, in_window (sc_size st) s0 (bk_nslots b0) w k -> covers b k).
Proof.
  intros done thr md me ev st st' done' i b0 s0 w R RU E B S T. apply reach3_inv in R. destruct R as [I NN D RO].
  destruct (extend_spec _ _ _ _ _ _ _ _ D I E) as (_ & _ & _ & _ & X). now apply (X RU i b0 s0 w).
Qed.

Lemma session_shift : forall st i b s shift minimal st' e, reach3 st ->
  nth_error (sc_blocks st) i = Some b -> bk_start b = Some s ->
  shift_block st i shift minimal = (st', e) ->
  shift_outcome st i b s (Z.to_nat (nearest_fit (sc_size st) (bk_nslots b) (Z.of_nat s + shift))) minimal st' e.
Proof.
  intros st i b s shift minimal st' e R B S H. apply reach3_inv in R. destruct R as [I NN D RO].
  destruct (RO i b B) as [R1 R2]. assert (L : i < length (sc_cnst st)) by (apply R2; congruence).
  destruct (nth_error (sc_cnst st) (bk_idx b)) as [row|] eqn:R; [|apply nth_error_None in R; lia].
  eapply shift_outcome_spec; eassumption.
Qed.

Lemma session_shift_success : forall st i shift minimal st', reach3 st ->
  shift_block st i shift minimal = (st', None) ->
  no_overlap (sc_blocks st') /\ placed_inside (sc_size st') (sc_blocks st') /\
  (forall j b k, nth_error (sc_blocks st') j = Some b -> covers b k -> ~ slot_free (sc_free st') k) /\
  (st' = st \/ exists b s, nth_error (sc_blocks st) i = Some b /\ bk_start b = Some s /\
     block_moved st st' i b (Z.to_nat (nearest_fit (sc_size st) (bk_nslots b) (Z.of_nat s + shift))) /\
     slots_moved st st' b (Z.to_nat (nearest_fit (sc_size st) (bk_nslots b) (Z.of_nat s + shift))) /\
     same_context st st').
Proof.
  intros st i shift minimal st' R H.
  assert (R' : reach3 st') by (eapply r3_shift; [exact R|exact H|discriminate]).
  apply session_consistent in R'. destruct R' as (A & B & C & _).
  split; [assumption|]. split; [assumption|]. split; [assumption|].
  destruct (nth_error (sc_blocks st) i) as [b|] eqn:HB.
  2: { unfold shift_block in H. rewrite HB in H. discriminate. }
  destruct (bk_start b) as [s|] eqn:S.
  2: { unfold shift_block in H. rewrite HB, S in H. injection H; intros <-. now left. }
  pose proof (session_shift _ _ _ _ _ _ _ _ R HB S H) as O.
  inversion O; subst; [now left| |]; right; exists b, s; auto 6.
Qed.

Lemma session_shift_conflict : forall st i b s shift minimal st', reach3 st ->
  nth_error (sc_blocks st) i = Some b -> bk_start b = Some s ->
  let new := Z.to_nat (nearest_fit (sc_size st) (bk_nslots b) (Z.of_nat s + shift)) in
  shift_conflict st b new ->
  shift_block st i shift minimal = (st', Some EValueError) ->
  (exists b', nth_error (sc_blocks st') i = Some b' /\ bk_start b' = Some new) /\
  exists k b', nth_error (sc_blocks st') i = Some b' /\ covers b' k /\ slot_free (sc_free st') k.
Proof.
  intros st i b s shift minimal st' R B S new C H.
  pose proof (session_shift _ _ _ _ _ _ _ _ R B S H) as O. fold new in O.
  apply reach3_inv in R. destruct R as [I NN D RO].
  destruct (si_booked _ I i b B s S) as (P & _).
  inversion O; subst; try contradiction.
  assert (B' : nth_error (sc_blocks st') i = Some (with_place b new (times_at st new (bk_nslots b)))).
  { unfold block_moved in H2. rewrite H2, nth_error_upd, Nat.eqb_refl, B. reflexivity. }
  split; [eexists; split; [exact B'|reflexivity]|].
  assert (F : slot_free (sc_free st) new \/ slot_free (sc_free st) (new + bk_nslots b - 1)).
  { unfold slot_free. destruct (nth new (sc_free st) false) eqn:A; [now left|].
    destruct (nth (new + bk_nslots b - 1) (sc_free st) false) eqn:A'; [now right|].
    exfalso. apply H0. left. unfold slot_free. rewrite A, A'. split; discriminate. }
  destruct F as [F|F].
  - exists new. eexists. split; [exact B'|]. split; [exists new; split; [reflexivity|cbn; lia]|]. apply H5. now left.
  - exists (new + bk_nslots b - 1). eexists. split; [exact B'|].
    split; [exists new; split; [reflexivity|cbn; lia]|]. apply H5. now left.
Qed.
