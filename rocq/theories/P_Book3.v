(** Final forms of the booking properties, over sessions. *)
From Coq Require Import List Arith ZArith QArith Bool Lia Lqa.
From Verif Require Import Base M_Slots M_Sched P_Slots P_Booking P_Book P_Book2.
Import ListNotations.
Open Scope nat_scope.

(** States reached by any sequence of insertions, reservations and bookings
    on a new schedule; constraint scores are not negative. *)
Definition reachable (st : sched) : Prop :=
  exists tmin tmax dt hour day night st0 ops,
    new_sched tmin tmax dt hour day night = Ok st0 /\ Forall op_nonneg ops /\
    st = srun st0 ops.

Lemma reachable_inv : forall st, reachable st -> sched_inv st /\ nonneg_scores (sc_blocks st).
Proof.
  intros st (tmin & tmax & dt & hour & day & night & st0 & ops & E & F & ->).
  destruct (new_sched_inv _ _ _ _ _ _ _ E) as [I NN]. now apply srun_inv.
Qed.

Lemma no_double_booking : forall st, reachable st -> no_overlap (sc_blocks st).
Proof. intros st R. apply reachable_inv in R. apply R. Qed.

Lemma booked_inside : forall st, reachable st ->
  forall i b s, nth_error (sc_blocks st) i = Some b -> bk_start b = Some s ->
    0 < bk_nslots b /\ s + bk_nslots b <= sc_size st /\
    bk_nslots b = Z.to_nat (cdiv (bk_dur b) (sc_dt st)) /\
    forall k, s <= k < s + bk_nslots b -> ~ slot_free (sc_free st) k.
Proof.
  intros st R i b s H E. apply reachable_inv in R. destruct R as [[S NS BK DJ] NN].
  destruct (BK i b H s E) as (A & B & C). destruct S as (_ & S & _).
  split; [assumption|]. split; [lia|]. split; [now apply (NS i)|].
  intros k K. apply C. now exists s.
Qed.

Lemma booking_respects : forall p o st, reachable st ->
  forall i b s, nth_error (sc_blocks (fst (book p o st))) i = Some b -> bk_start b = Some s ->
    ~ kept_booking p st i ->
    s + bk_nslots b <= sc_size st /\ 0 < bk_nslots b /\
    (forall k, s <= k < s + bk_nslots b -> base_free p st k) /\
    bk_time b = Some (nth s (sc_starts st) 0%Z, nth (s + bk_nslots b - 1) (sc_stops st) 0%Z).
Proof.
  intros p o st R i b s H E K. apply reachable_inv in R. destruct R as [[S NS BK DJ] NN].
  destruct (book_facts p o st S NS BK NN) as (_ & _ & _ & _ & F & _).
  destruct (F i b H) as (b0 & _ & _ & _ & _ & Q). destruct (Q K) as [X|(s' & X & A & B & C & _ & D)];
    [congruence|]. rewrite E in X; injection X; intros <-. repeat split; try assumption. lia.
Qed.

Lemma booking_keeps : forall p o st, reachable st -> forall i, kept_booking p st i ->
  nth_error (sc_blocks (fst (book p o st))) i = nth_error (sc_blocks st) i.
Proof.
  intros p o st R i K. apply reachable_inv in R. destruct R as [I NN]. pose proof I as [S NS BK DJ].
  destruct (book_facts p o st S NS BK NN) as (_ & _ & _ & _ & F & _).
  destruct (nth_error (sc_blocks (fst (book p o st))) i) as [b|] eqn:H.
  - destruct (F i b H) as (b0 & H0 & _ & _ & Q & _). rewrite (Q K). congruence.
  - exfalso. destruct K as (K & b0 & H0 & _).
    apply nth_error_None in H. assert (X : nth_error (sc_blocks st) i <> None) by congruence.
    apply nth_error_Some in X.
    assert (length (sc_blocks (fst (book p o st))) = length (sc_blocks st)); [|lia].
    rewrite book_unfold. destruct (book_prepare p st) as [[st2 go] e] eqn:PR.
    pose proof (prepare_facts p st st2 go e S PR) as (_ & _ & _ & _ & _ & _ & _ & _ & _ & Y & _).
    destruct e as [e|]; [destruct go; exact Y|]. destruct go; [|exact Y].
    destruct (visit _ o) as [l|e]; [|exact Y]. simpl.
    rewrite (gi_blen _ _ (ginv_greedy p st2 l (prepare_prepared p st st2 S NN PR))). exact Y.
Qed.

Lemma booking_accounts : forall p o st, reachable st -> forall k,
  slot_free (sc_free (fst (book p o st))) k <->
  base_free p st k /\
  forall i b, nth_error (sc_blocks (fst (book p o st))) i = Some b -> ~ kept_booking p st i -> ~ covers b k.
Proof.
  intros p o st R. apply reachable_inv in R. destruct R as [[S NS BK DJ] NN].
  now destruct (book_facts p o st S NS BK NN) as (_ & _ & _ & _ & _ & F & _).
Qed.

(** The scores considered by the loop are those of blocks of the schedule. *)
Lemma booking_choice : forall p o st st2 pre i post b, reachable st ->
  book_prepare p st = (st2, true, None) ->
  visit (length (sc_blocks st2)) o = Ok (pre ++ i :: post) ->
  let g := greedy p st2 pre in
  nth_error (g_blocks g) i = Some b -> nth i (sc_todo st2) false = true -> bk_start b = None ->
  (exists s c, nth_error (sc_blocks (fst (book p o st))) i = Some c /\ bk_start c = Some s /\
     same_block b c /\ bk_nslots c = bk_nslots b /\
     admissible st2 g b s /\
     (0 < weighted_score p st2 g b s)%Q /\ (bp_min p <= weighted_score p st2 g b s)%Q /\
     (forall s', admissible st2 g b s' ->
        (weighted_score p st2 g b s' <= weighted_score p st2 g b s)%Q) /\
     (forall s', s' < s -> admissible st2 g b s' ->
        (weighted_score p st2 g b s' < weighted_score p st2 g b s)%Q)) \/
  (greedy p st2 (pre ++ [i]) = g /\
   forall s, admissible st2 g b s -> (0 < weighted_score p st2 g b s)%Q ->
     (weighted_score p st2 g b s < bp_min p)%Q).
Proof.
  intros p o st st2 pre i post b R PR V g HB HT HS.
  apply reachable_inv in R. destruct R as [[S NS BK DJ] NN].
  pose proof (prepare_prepared p st st2 S NN PR) as P.
  pose proof (ginv_greedy p st2 pre P) as G. fold g in G.
  assert (EG : greedy p st2 (pre ++ [i]) = greedy_step p st2 g i)
    by (unfold greedy; rewrite fold_left_app; reflexivity).
  destruct (step_choice p st2 g i b (sc_free st2) HB HT HS (ginv_step_pre st2 g i b P G HB HS))
    as [(s & E & A & B & C & D & F)|[E A]].
  - left. set (c := with_place b s (nth s (sc_starts st2) 0%Z, nth (s + bk_nslots b - 1) (sc_stops st2) 0%Z)).
    exists s, c. split.
    + rewrite book_unfold, PR, V. cbn [fst end_state set_blocks sc_blocks].
      replace (pre ++ i :: post) with ((pre ++ [i]) ++ post) by now rewrite <- app_assoc.
      unfold greedy. rewrite fold_left_app. fold (greedy p st2 (pre ++ [i])). rewrite EG.
      apply fold_keeps with (s := s); [assumption|now apply ginv_step| |reflexivity].
      rewrite E. simpl. rewrite nth_error_upd, Nat.eqb_refl, HB. reflexivity.
    + split; [reflexivity|]. split; [repeat split|]. split; [reflexivity|]. tauto.
  - right. split; [now rewrite EG|exact A].
Qed.

Lemma booking_apart : forall p o st st2 l i j b c, reachable st ->
  book_prepare p st = (st2, true, None) -> visit (length (sc_blocks st2)) o = Ok l ->
  (forall k, (0 <= nth k (sc_proc st2) 0)%Z) ->
  i <> j -> ~ kept_booking p st i -> ~ kept_booking p st j ->
  nth_error (sc_blocks (fst (book p o st))) i = Some b ->
  nth_error (sc_blocks (fst (book p o st))) j = Some c ->
  is_booked b = true -> is_booked c = true -> bk_ndelay b <> 0 -> bk_ndelay c <> 0 ->
  apart b c (bk_ndelay b) \/ apart c b (bk_ndelay c).
Proof.
  intros p o st st2 l i j b c R PR V H0 Hij KI KJ HB HC BB BC DB DC.
  apply reachable_inv in R. destruct R as [[S NS BK DJ] NN].
  pose proof (prepare_prepared p st st2 S NN PR) as P.
  rewrite book_unfold, PR, V in HB, HC. cbn [fst end_state set_blocks sc_blocks] in HB, HC.
  pose proof (ginv_greedy p st2 l P) as G.
  assert (N : forall y d, ~ kept_booking p st y -> nth_error (g_blocks (greedy p st2 l)) y = Some d ->
     is_booked d = true -> newly (sc_blocks st2) (g_blocks (greedy p st2 l)) y d).
  { intros y d K H B. split; [assumption|]. split; [assumption|].
    destruct (gi_blk _ _ G y d H) as (b0 & Y0 & Q). exists b0. split; [assumption|].
    destruct Q as [->|(Q & _)]; [|assumption].
    destruct (bk_start b0) as [s|] eqn:E; [|reflexivity]. exfalso. apply K.
    pose proof (prepare_facts p st st2 true None S PR) as
      (_ & _ & _ & _ & _ & _ & _ & _ & _ & L & X & _).
    assert (LB : length (sc_blocks (base_state p st)) = length (sc_blocks st)).
    { unfold base_state. destruct (bp_reset p); [simpl; apply map_length|reflexivity]. }
    destruct (nth_error (sc_blocks (base_state p st)) y) as [b1|] eqn:B1.
    2:{ apply nth_error_None in B1. assert (Z : nth_error (sc_blocks st2) y <> None) by congruence.
        apply nth_error_Some in Z. lia. }
    assert (Z : bk_start b1 = Some s).
    { destruct (X y b1 B1) as [Z|Z]; rewrite Y0 in Z; injection Z; intros Q; rewrite <- E, Q; reflexivity. }
    apply base_blocks in B1. destruct B1 as (b2 & B2 & ->).
    unfold kept_booking. destruct (bp_reset p); [discriminate|].
    split; [reflexivity|]. exists b2. split; [assumption|congruence]. }
  destruct S as (S1 & S2 & S3 & S4).
  pose proof (prepare_facts p st st2 true None (conj S1 (conj S2 (conj S3 S4))) PR) as
      (F1 & F2 & F3 & _).
  pose proof (sizes_base p st (conj S1 (conj S2 (conj S3 S4)))) as (_ & L2 & L3 & _).
  eapply (delay_either p st2 l i j); try eassumption.
  - rewrite F1, F2. lia.
  - now apply N.
  - now apply N.
Qed.

(** The one booked first keeps the other away by its own delay. *)
Lemma booking_apart_order : forall p o st st2 pre post i j b c, reachable st ->
  book_prepare p st = (st2, true, None) ->
  visit (length (sc_blocks st2)) o = Ok (pre ++ post) ->
  (forall k, (0 <= nth k (sc_proc st2) 0)%Z) ->
  newly (sc_blocks st2) (g_blocks (greedy p st2 pre)) i b ->
  (forall c0, nth_error (g_blocks (greedy p st2 pre)) j = Some c0 -> bk_start c0 = None) ->
  newly (sc_blocks st2) (sc_blocks (fst (book p o st))) j c ->
  bk_ndelay b <> 0 -> bk_ndelay c <> 0 ->
  nth_error (sc_blocks (fst (book p o st))) i = Some b /\ apart b c (bk_ndelay b).
Proof.
  intros p o st st2 pre post i j b c R PR V H0 NI UJ NJ DB DC.
  apply reachable_inv in R. destruct R as [[S NS BK DJ] NN].
  pose proof (prepare_prepared p st st2 S NN PR) as P.
  rewrite book_unfold, PR, V in *. cbn [fst end_state set_blocks sc_blocks] in *.
  pose proof (prepare_facts p st st2 true None S PR) as (F1 & F2 & F3 & _).
  pose proof (sizes_base p st S) as (_ & L2 & L3 & _).
  split.
  - unfold greedy. rewrite fold_left_app.
    pose proof (newly_keeps p st2 post _ i b P (ginv_greedy p st2 pre P) NI) as (N & _). exact N.
  - eapply (delay_apart p st2 pre post i j); try eassumption. rewrite F1, F2. lia.
Qed.

Lemma not_last : forall p o st, reachable st ->
  forall i b s, nth_error (sc_blocks (fst (book p o st))) i = Some b -> bk_start b = Some s ->
    s + bk_nslots b < sc_size st.
Proof.
  intros p o st R.
  assert (ALL : forall st, reachable st -> forall i b s, nth_error (sc_blocks st) i = Some b ->
     bk_start b = Some s -> s + bk_nslots b < sc_size st).
  { clear. intros st (tmin & tmax & dt & hour & day & night & st0 & ops & E & F & ->).
    destruct (new_sched_inv _ _ _ _ _ _ _ E) as [I NN].
    assert (B0 : forall i b s, nth_error (sc_blocks st0) i = Some b -> bk_start b = Some s ->
       s + bk_nslots b < sc_size st0).
    { unfold new_sched in E. destruct (new_slots tmin tmax dt); [|discriminate].
      simpl in E. injection E; intros <-. intros [|i] b s H; discriminate. }
    clear E. revert st0 I NN B0. induction ops as [|o t IH]; intros st0 I NN B0; [exact B0|].
    inversion F as [|? ? Fo Ft]; subst.
    destruct (sstep_inv st0 o I NN Fo) as [I' NN'].
    unfold srun; simpl. change (fold_left sstep t (sstep st0 o)) with (srun (sstep st0 o) t).
    apply (IH Ft); try assumption. intros i b s H Q.
    destruct I as [S NS BK DJ]. destruct o as [l|x y|q o]; cbn [sstep] in *.
    - destruct (insert_obs_facts st0 l) as (new & E & L & G & T). rewrite E in H.
      destruct (lt_dec i (length (sc_blocks st0))) as [A|A].
      + rewrite nth_error_app1 in H by assumption. now apply (B0 i).
      + rewrite nth_error_app2 in H by lia. apply G in H.
        destruct H as (d1 & d2 & d3 & _ & ->). discriminate.
    - destruct (insert_res_facts st0 x y S) as (F1 & F2 & _). rewrite F1 in H.
      unfold sc_size. rewrite F2. now apply (B0 i).
    - destruct (book_facts q o st0 S NS BK NN) as (F1 & _ & _ & _ & G & _).
      unfold sc_size. rewrite F1. destruct (G i b H) as (b0 & H0 & _ & N & Q1 & Q2).
      assert (KD : kept_booking q st0 i \/ ~ kept_booking q st0 i).
      { unfold kept_booking. destruct (bp_reset q); [right; intros [X _]; discriminate|].
        destruct (bk_start b0) eqn:X.
        - left. split; [reflexivity|]. exists b0. split; [assumption|congruence].
        - right. intros (_ & c1 & Y & Z). rewrite H0 in Y. injection Y; intros <-. contradiction. }
      destruct KD as [K|K].
      + rewrite (Q1 K) in *. now apply (B0 i).
      + destruct (Q2 K) as [X|(s' & X & _ & A & _)]; [congruence|].
        rewrite Q in X; injection X; intros <-. exact A. }
  destruct R as (tmin & tmax & dt & hour & day & night & st0 & ops & E & F & ->).
  intros i b s H Q.
  assert (R' : reachable (fst (book p o (srun st0 ops)))).
  { exists tmin, tmax, dt, hour, day, night, st0, (ops ++ [SBook p o]).
    split; [assumption|]. split; [apply Forall_app; split; [assumption|repeat constructor]|].
    unfold srun. now rewrite fold_left_app. }
  pose proof (ALL _ R' i b s H Q) as X.
  assert (R : reachable (srun st0 ops)) by (exists tmin, tmax, dt, hour, day, night, st0, ops; tauto).
  apply reachable_inv in R. destruct R as [I NN].
  destruct (sstep_grid (srun st0 ops) (SBook p o) I NN) as [G _]. cbn [sstep] in G.
  unfold sc_size in X. now rewrite G in X.
Qed.

Lemma full_length_never : forall p o st, reachable st ->
  forall i b, nth_error (sc_blocks (fst (book p o st))) i = Some b ->
    sc_size st <= bk_nslots b -> bk_start b = None.
Proof.
  intros p o st R i b H L. destruct (bk_start b) as [s|] eqn:E; [|reflexivity].
  pose proof (not_last p o st R i b s H E). lia.
Qed.

Lemma rebook_session : forall p o st st1, reachable st -> bp_reset p = true ->
  (forall b, In b (sc_blocks st) -> bk_ndelay b = 0) ->
  book p o st = (st1, None) -> book p o st1 = (st1, None).
Proof.
  intros p o st st1 R RS ND E. apply reachable_inv in R. destruct R as [[S NS BK DJ] NN].
  eapply rebook_idempotent; eassumption.
Qed.

(** ** very_strict and rejected blocks *)

Lemma strict_session : forall p st st2 go, reachable st -> bp_strict p = true ->
  book_prepare p st = (st2, go, None) -> go = true ->
  forall i b, nth_error (sc_blocks st2) i = Some b -> nth i (sc_todo st2) false = true ->
  exists s, s + bk_nslots b <= sc_size st /\
    forall j, j < bk_nslots b ->
      s + j + bk_nslots b < sc_size st /\
      window_free (sc_free st2) (s + j) (bk_nslots b) /\
      (0 < window_mean (bk_score b) (s + j) (bk_nslots b))%Q.
Proof.
  intros p st st2 go R ST PR -> i b H T.
  apply reachable_inv in R. destruct R as [[S NS BK DJ] NN].
  pose proof (prepare_prepared p st st2 S NN PR) as (P1 & P2 & P3).
  destruct (P3 i b H) as [P4 P5].
  pose proof (prepare_facts p st st2 true None S PR) as (F1 & F2 & F3 & F4 & _).
  assert (SO : strict_ok (nth i (sc_cnst st2) []) (bk_nslots b) = true).
  { unfold book_prepare in PR. destruct (compute_scores _) as [sc [e1|]]; [discriminate|].
    destruct (count_true (sc_todo sc) =? 0); [discriminate|]. rewrite ST in PR.
    injection PR; intros <-. simpl in *. unfold strict_filter in T.
    destruct (le_lt_dec (length (sc_todo sc)) i) as [L|L].
    { rewrite nth_overflow in T by now rewrite imap_length. discriminate. }
    rewrite nth_imap with (d' := false) in T by assumption.
    apply andb_true_iff in T. destruct T as [_ T]. now rewrite (nth_error_nth _ _ _ H) in T. }
  apply strict_ok_spec in SO; [|assumption]. destruct SO as (s & L & W).
  rewrite P5, cnst_row_length, P1 in L. unfold sc_size in *. rewrite F3 in L.
  exists s. split; [exact L|]. intros j Hj. specialize (W j Hj). rewrite P5 in W.
  assert (A : s + j + bk_nslots b < length (sc_free st2) /\ window_free (sc_free st2) (s + j) (bk_nslots b)).
  { destruct (lt_dec (s + j + bk_nslots b) (length (sc_free st2))) as [A|A];
      [|rewrite cnst_row_zero in W by tauto; exfalso; lra].
    destruct (window_free_dec' (sc_free st2) (s + j) (bk_nslots b)) as [B|B]; [now split|].
    rewrite cnst_row_zero in W by tauto. exfalso; lra. }
  destruct A as [A B]. rewrite P1, F3 in A. split; [exact A|]. split; [exact B|].
  rewrite cnst_row_val in W; try assumption. rewrite P1, F3. exact A.
Qed.

Lemma rejected_stay : forall p o st i, reachable st -> nth i (sc_todo st) false = false ->
  nth i (sc_todo (fst (book p o st))) false = false /\
  forall b, nth_error (sc_blocks (fst (book p o st))) i = Some b -> ~ kept_booking p st i ->
    bk_start b = None.
Proof.
  intros p o st i R H. apply reachable_inv in R. destruct R as [[S NS BK DJ] NN].
  split; [now apply todo_monotone|]. intros b HB K.
  destruct (book_facts p o st S NS BK NN) as (_ & _ & _ & _ & F & _).
  destruct (F i b HB) as (b0 & _ & _ & _ & _ & Q).
  destruct (Q K) as [X|(s & _ & _ & _ & _ & X & _)]; [assumption|congruence].
Qed.

Lemma insert_restores : forall st l i, i < length (sc_blocks (insert_obs st l)) ->
  nth i (sc_todo (insert_obs st l)) false = true.
Proof.
  intros st l i H. destruct (insert_obs_facts st l) as (new & E & _ & _ & T).
  rewrite T. rewrite E in H. now apply nth_repeat_lt.
Qed.

Lemma strict_keeps : forall p st st2, reachable st ->
  book_prepare p st = (st2, true, None) ->
  forall i b s, nth_error (sc_blocks st2) i = Some b -> nth i (sc_todo st) false = true ->
  (forall j, j < bk_nslots b ->
      s + j + bk_nslots b < sc_size st /\
      window_free (sc_free st2) (s + j) (bk_nslots b) /\
      (0 < window_mean (bk_score b) (s + j) (bk_nslots b))%Q) ->
  nth i (sc_todo st2) false = true.
Proof.
  intros p st st2 R PR i b s H T W.
  apply reachable_inv in R. destruct R as [[S NS BK DJ] NN].
  pose proof (prepare_prepared p st st2 S NN PR) as (P1 & P2 & P3).
  destruct (P3 i b H) as [P4 P5].
  pose proof (prepare_facts p st st2 true None S PR) as (F1 & F2 & F3 & F4 & _).
  unfold sc_size in *. rewrite F3 in P1.
  assert (V : forall j, j < bk_nslots b -> (0 < nth (s + j) (nth i (sc_cnst st2) []) 0)%Q).
  { intros j Hj. destruct (W j Hj) as (A & B & C). rewrite P5, cnst_row_val; try assumption. lia. }
  assert (SO : strict_ok (nth i (sc_cnst st2) []) (bk_nslots b) = true).
  { apply strict_ok_spec; [assumption|]. exists s. split; [|exact V].
    rewrite P5, cnst_row_length, P1. destruct (W (bk_nslots b - 1)); lia. }
  unfold book_prepare in PR. fold (base_state p st) in PR.
  pose proof (sizes_base p st S) as SB.
  destruct (compute_scores (base_state p st)) as [sc [e1|]] eqn:C; [discriminate|].
  apply compute_scores_spec in C; [|assumption].
  destruct C as (C1 & C2 & C3 & C4 & C5 & C6 & C7 & C8 & C9 & C10 & C11 & C12 & C13 & C14).
  destruct (base_state_fields p st) as (B1 & B2 & B3 & B4 & B5 & B6 & B7 & B8 & B9).
  destruct (count_true (sc_todo sc) =? 0); [discriminate|].
  assert (E : sc_blocks st2 = sc_blocks sc /\ sc_cnst st2 = sc_cnst sc)
    by (injection PR; intros <-; destruct (bp_strict p); split; reflexivity).
  destruct E as [E1 E2].
  assert (LI : i < length (sc_blocks (base_state p st))).
  { rewrite E1, C9 in H.
    match type of H with nth_error ?l i = _ => assert (X : nth_error l i <> None) by congruence end.
    apply nth_error_Some in X. now rewrite map_length in X. }
  assert (TS : nth i (sc_todo sc) false = true).
  { rewrite (C13 i LI), B7, T. rewrite <- E2.
    destruct (all_zero (nth i (sc_cnst st2) [])) eqn:AZ; [|reflexivity].
    exfalso. unfold all_zero in AZ. rewrite forallb_forall in AZ.
    specialize (V 0 P4). destruct (W 0 P4) as (A & _ & _).
    assert (X : Qeq_bool (nth (s + 0) (nth i (sc_cnst st2) []) 0%Q) 0 = true).
    { apply AZ. apply nth_In. rewrite P5, cnst_row_length. lia. }
    apply Qeq_bool_iff in X. lra. }
  injection PR; intros <-. destruct (bp_strict p); [|exact TS]. simpl.
  unfold strict_filter.
  assert (LT : i < length (sc_todo sc)).
  { destruct (le_lt_dec (length (sc_todo sc)) i) as [L|L]; [|assumption].
    rewrite nth_overflow in TS by assumption. discriminate. }
  rewrite nth_imap with (d' := false) by assumption.
  rewrite TS. simpl. simpl in H. rewrite (nth_error_nth _ _ _ H). exact SO.
Qed.
