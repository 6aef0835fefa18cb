(** The whole genetic booking and the fitness. *)
From Coq Require Import List Arith ZArith QArith Bool Lia Lqa Permutation Sorted.
From Verif Require Import Base M_Slots M_Sched M_Genetic P_Slots P_Booking P_Book P_Book2 P_Book3
  P_Genetic P_Genetic2.
Import ListNotations.
Open Scope nat_scope.

(** ** State after the preparation *)

Lemma prepare_blocks : forall p st st2 go e, sched_inv st ->
  book_prepare p st = (st2, go, e) ->
  sc_size st2 = sc_size st /\ sizes_ok st2 /\
  length (sc_blocks st2) = length (sc_blocks st) /\
  (forall i b, nth_error (sc_blocks st2) i = Some b ->
     exists b0, nth_error (sc_blocks st) i = Some b0 /\
       b = (if bp_reset p then with_start b0 None else b0)) /\
  (forall k, slot_free (sc_free st2) k <-> base_free p st k) /\
  sched_inv st2.
Proof.
  intros p st st2 go e [S NS BK DJ] PR.
  pose proof (prepare_facts p st st2 go e S PR) as
    (F1 & F2 & F3 & F4 & F5 & F6 & F7 & F8 & F9 & F10 & F11 & F12).
  destruct (base_state_fields p st) as (E1 & E2 & E3 & E4 & E5 & E6 & E7 & E8 & E9).
  pose proof (sizes_base p st S) as (B1 & B2 & B3 & B4).
  assert (SZ : sc_size st2 = sc_size st) by (unfold sc_size; now rewrite F3).
  assert (SZB : sc_size (base_state p st) = sc_size st) by (unfold sc_size; now rewrite E3).
  assert (BL : forall i b, nth_error (sc_blocks st2) i = Some b ->
     exists b0, nth_error (sc_blocks st) i = Some b0 /\
       b = (if bp_reset p then with_start b0 None else b0)).
  { intros i b H.
    destruct (nth_error (sc_blocks (base_state p st)) i) as [b1|] eqn:H1.
    - pose proof (base_blocks p st i b1 H1) as (b0 & H0 & Q).
      exists b0. split; [assumption|].
      assert (N1 : bk_nslots b1 = Z.to_nat (cdiv (bk_dur b1) (sc_dt st))).
      { rewrite Q. pose proof (NS i b0 H0). destruct (bp_reset p); exact H2. }
      destruct (F11 i b1 H1) as [X|X]; rewrite X in H; injection H; intros <-; [assumption|].
      unfold renum. rewrite with_nslots_same by assumption. assumption.
    - exfalso. apply nth_error_None in H1.
      assert (nth_error (sc_blocks st2) i <> None) by congruence.
      apply nth_error_Some in H0. lia. }
  assert (SZ2 : sizes_ok st2).
  { unfold sizes_ok. rewrite SZ, F4, F1, F2, <- SZB. repeat split; try assumption; try congruence. }
  assert (FR : forall k, slot_free (sc_free st2) k <-> base_free p st k).
  { intros k. rewrite F1. now apply base_state_free. }
  split; [assumption|]. split; [assumption|]. split; [assumption|]. split; [assumption|].
  split; [assumption|]. constructor.
  - assumption.
  - intros i b H. destruct (BL i b H) as (b0 & H0 & ->). rewrite F5. pose proof (NS i b0 H0) as X.
    destruct (bp_reset p); exact X.
  - intros i b H s E. destruct (BL i b H) as (b0 & H0 & Q).
    destruct (bp_reset p) eqn:RS; [subst b; discriminate|]. subst b0.
    destruct (BK i b H0 s E) as (A & B & C). split; [assumption|]. split.
    + destruct SZ2 as (_ & Y & _). destruct S as (_ & Z & _). lia.
    + intros k K X. apply FR in X. destruct X as [X|[X _]]; [now apply (C k)|congruence].
  - intros i j b c k N HB HC CB CC. destruct (BL i b HB) as (b0 & H0 & Q).
    destruct (BL j c HC) as (c0 & H1 & Q1). destruct (bp_reset p).
    + subst b. revert CB. now apply covers_None.
    + subst. now apply (DJ i j b0 c0 k).
Qed.

Lemma placed_inside_inv : forall st, sched_inv st -> placed_inside (sc_size st) (sc_blocks st).
Proof.
  intros st [S _ BK _] i b s H E. destruct (BK i b H s E) as (A & B & _).
  destruct S as (_ & S & _). split; [assumption|lia].
Qed.

(** [np.argsort] returns positions of the list it sorts. *)
Definition sorter_in_range (sorter : list blk -> list nat) : Prop :=
  forall bs i, In i (sorter bs) -> i < length bs.

Lemma ga_book_facts : forall p g sorter m score st st',
  sched_inv st -> nonneg_scores (sc_blocks st) -> sorter_in_range sorter ->
  ga_book p g sorter m score st = (st', None) ->
  sched_inv st' /\ nonneg_scores (sc_blocks st') /\
  sc_starts st' = sc_starts st /\ sc_stops st' = sc_stops st /\ sc_dt st' = sc_dt st /\
  length (sc_blocks st') = length (sc_blocks st) /\
  (forall i b, nth_error (sc_blocks st') i = Some b -> exists b0,
     nth_error (sc_blocks st) i = Some b0 /\ same_block b0 b /\ bk_nslots b = bk_nslots b0 /\
     forall s, bk_start b = Some s ->
       (kept_booking p st i /\ b = b0) \/
       ((forall k, s <= k < s + bk_nslots b -> base_free p st k) /\
        bk_time b = Some (times_at st s (bk_nslots b)))) /\
  (forall k, slot_free (sc_free st') k <->
     base_free p st k /\ forall b, In b (sc_blocks st') -> ~ covers b k).
Proof.
  intros p g sorter m score st st' I NN SR E. unfold ga_book in E.
  destruct (book_prepare p st) as [[st2 go] e] eqn:PR.
  destruct (prepare_blocks p st st2 go e I PR) as (SZ & SO & LB & BL & FR & I2).
  pose proof (prepare_facts p st st2 go e (si_sizes _ I) PR) as
    (_ & _ & F3 & F4 & F5 & _).
  assert (SAME2 : forall i b, nth_error (sc_blocks st2) i = Some b ->
     exists b0, nth_error (sc_blocks st) i = Some b0 /\ same_block b0 b /\ bk_nslots b = bk_nslots b0 /\
       (bk_start b <> None -> kept_booking p st i /\ b = b0)).
  { intros i b H. destruct (BL i b H) as (b0 & H0 & ->). exists b0. split; [assumption|].
    split; [destruct (bp_reset p); repeat split|]. split; [destruct (bp_reset p); reflexivity|].
    unfold kept_booking. destruct (bp_reset p); simpl; [congruence|]. intros X.
    split; [|reflexivity]. split; [reflexivity|]. now exists b0. }
  assert (NN2 : nonneg_scores (sc_blocks st2)).
  { intros b B x X. apply In_nth_error in B. destruct B as (i & B).
    destruct (SAME2 i b B) as (b0 & H0 & (_ & _ & _ & Q) & _). rewrite Q in X.
    apply (NN b0); [now apply nth_error_In in H0|assumption]. }
  destruct e as [e|]; [destruct go; discriminate|].
  destruct go.
  2:{ injection E; intros <-. split; [assumption|]. split; [assumption|]. split; [assumption|].
      split; [assumption|]. split; [assumption|]. split; [assumption|]. split.
      - intros i b H. destruct (SAME2 i b H) as (b0 & H0 & A & B & C). exists b0.
        split; [assumption|]. split; [assumption|]. split; [assumption|].
        intros s X. left. apply C. congruence.
      - intros k. rewrite FR. split; [|tauto]. intros X. split; [assumption|].
        intros b B C. apply In_nth_error in B. destruct B as (i & B).
        pose proof C as (s & ES & _).
        destruct (si_booked _ I2 i b B s ES) as (_ & _ & Z). apply (Z k C). now apply FR. }
  pose proof (prepare_prepared p st st2 (si_sizes _ I) NN PR) as P.
  destruct (ga_place st2 0 (sc_blocks st2) g) as [bs [e|]] eqn:GP; [discriminate|].
  pose proof (ga_place_tuned _ _ _ _ _ _ GP eq_refl) as T1.
  destruct (fine_tune st2 sorter m bs) as [bs' [e|]] eqn:FT; [discriminate|].
  pose proof (fine_tune_tuned _ _ _ _ _ _ _ T1 (fun bs1 i _ => SR bs1 i) FT eq_refl) as T2.
  injection E; intros <-. clear E.
  assert (PI : placed_inside (length (sc_free st2)) bs').
  { destruct SO as (_ & SO & _). rewrite SO. eapply tuned_inside; [|intros b B|exact T2].
    - now apply placed_inside_inv.
    - apply In_nth_error in B. destruct B as (i & B). destruct P as (_ & _ & P3). now apply (P3 i). }
  destruct (clean_spec (score bs') (sc_free st2) bs' PI) as (C1 & C2 & C3 & C4 & C5 & C6).
  set (fb := clean (score bs') (sc_free st2) bs') in *.
  cbn [set_blocks set_free sc_blocks sc_free sc_starts sc_stops sc_dt].
  destruct T2 as [TL T2].
  assert (BLK : forall i b, nth_error (snd fb) i = Some b -> exists b0,
     nth_error (sc_blocks st) i = Some b0 /\ same_block b0 b /\ bk_nslots b = bk_nslots b0 /\
     forall s, bk_start b = Some s ->
       (forall k, s <= k < s + bk_nslots b -> base_free p st k) /\
       bk_time b = Some (times_at st s (bk_nslots b))).
  { intros i b H. destruct (C4 i b H) as (b1 & H1 & Q).
    destruct (T2 i b1 H1) as (b2 & H2 & R).
    destruct (SAME2 i b2 H2) as (b0 & H0 & SB & SN & KB). exists b0. split; [assumption|].
    pose proof (replaced_same _ _ _ R) as (R1 & R2 & R3 & R4 & R5).
    assert (Q2 : same_block b1 b /\ bk_nslots b = bk_nslots b1)
      by (destruct Q as [->|(-> & _)]; repeat split).
    destruct Q2 as [QS QN]. destruct SB as (X1 & X2 & X3 & X4), QS as (Y1 & Y2 & Y3 & Y4).
    split; [repeat split; congruence|]. split; [congruence|].
    intros s ES. destruct Q as [->|(-> & _)]; [|discriminate].
    assert (WF : forall k, s <= k < s + bk_nslots b1 -> slot_free (sc_free st2) k).
    { intros k K. apply (C5 i b1 k H). now exists s. }
    split; [intros k K; apply FR; now apply WF|].
    destruct R as [->|(s1 & L & ->)].
    - (* an earlier booking would not be on free slots *)
      exfalso. destruct (si_booked _ I2 i b2 H2 s ES) as (N & _ & Z).
      apply (Z s); [exists s; split; [assumption|lia]|]. apply WF; lia.
    - simpl in ES. injection ES; intros <-. simpl. unfold times_at. now rewrite F3, F4. }
  split; [|split; [|split; [|split; [|split; [|split; [|split]]]]]]; try assumption.
  - (* invariant *)
    constructor; unfold sizes_ok, nslots_ok, sc_size in *; cbn [set_blocks set_free sc_blocks sc_free sc_starts sc_stops sc_dt sc_proc sc_todo].
    + destruct SO as (S1 & S2 & S3 & S4). rewrite C1, C2, TL. now repeat split.
    + intros i b H. destruct (BLK i b H) as (b0 & H0 & (_ & X & _) & N & _). rewrite N, X, F5.
      now apply (si_nslots _ I i).
    + intros i b H s ES. assert (PB : 0 < bk_nslots b /\ s + bk_nslots b <= length (sc_free st2)).
      { destruct (C4 i b H) as (b1 & H1 & [->|(-> & _)]); [now apply (PI i)|discriminate]. }
      split; [apply PB|]. split; [rewrite C1; apply PB|]. intros k C X. apply C6 in X.
      destruct X as [_ X]. apply (X b); [now apply nth_error_In in H|assumption].
    + assumption.
  - intros b B x X. apply In_nth_error in B. destruct B as (i & B).
    destruct (BLK i b B) as (b0 & H0 & (_ & _ & _ & Q) & _). rewrite Q in X.
    apply (NN b0); [now apply nth_error_In in H0|assumption].
  - rewrite C2, TL. assumption.
  - intros i b H. destruct (BLK i b H) as (b0 & A & B & C & D). exists b0.
    split; [assumption|]. split; [assumption|]. split; [assumption|]. intros s ES. right. now apply D.
  - intros k. rewrite C6, FR. reflexivity.
Qed.

(** With a genome in range the only failures are those of the preparation,
    and the [ValueError] of fine tuning when no block could be placed. *)
Lemma ga_book_errors : forall p g sorter m score st st2 st' e,
  sched_inv st -> nonneg_scores (sc_blocks st) ->
  book_prepare p st = (st2, true, None) ->
  genome_fits st2 0 (sc_blocks st2) g ->
  (forall bs, tuned st2 (sc_blocks st2) bs -> valid_order bs (sorter bs)) ->
  ga_book p g sorter m score st = (st', Some e) ->
  e = EValueError /\ (forall b, In b (sc_blocks st') -> bk_start b = None).
Proof.
  intros p g sorter m score st st2 st' e I NN PR GF V E. unfold ga_book in E. rewrite PR in E.
  pose proof (ga_place_ok st2 _ _ _ GF) as GO.
  destruct (ga_place st2 0 (sc_blocks st2) g) as [bs e1] eqn:GP. simpl in GO. subst e1.
  pose proof (ga_place_tuned _ _ _ _ _ _ GP eq_refl) as T1.
  pose proof (prepare_prepared p st st2 (si_sizes _ I) NN PR) as P.
  destruct (fine_tune st2 sorter m bs) as [bs' [e1|]] eqn:FT; [|discriminate].
  destruct (fine_tune_path st2 sorter P V m bs bs' _ T1 FT) as (n & _ & _ & X & Y & Z).
  injection E; intros <- <-. subst. split; [reflexivity|]. exact Z.
Qed.

(** Bounded genomes are in range. *)
Definition todo_nslots (st : sched) : list nat :=
  map (fun ib : nat * blk => bk_nslots (snd ib))
      (filter (fun ib => nth (fst ib) (sc_todo st) false)
              (combine (seq 0 (length (sc_blocks st))) (sc_blocks st))).

Lemma genome_ok_fits_from : forall st bs i g,
  genome_ok (sc_size st)
    (map (fun ib : nat * blk => bk_nslots (snd ib))
      (filter (fun ib => nth (fst ib) (sc_todo st) false) (combine (seq i (length bs)) bs))) g ->
  genome_fits st i bs (map Z.to_nat g).
Proof.
  intros st. induction bs as [|b bs IH]; intros i g H.
  - inversion H; subst. reflexivity.
  - simpl in H. cbn [genome_fits]. destruct (nth i (sc_todo st) false) eqn:T; simpl in H.
    + inversion H as [|? x ? g' [H1 H2] H3]; subst. simpl. split; [lia|now apply IH].
    + now apply IH.
Qed.

Lemma genome_ok_fits : forall st g, genome_ok (sc_size st) (todo_nslots st) g ->
  genome_fits st 0 (sc_blocks st) (map Z.to_nat g).
Proof. intros; now apply genome_ok_fits_from. Qed.

Lemma todo_nslots_short : forall p st st2, sched_inv st -> nonneg_scores (sc_blocks st) ->
  book_prepare p st = (st2, true, None) ->
  forall n, In n (todo_nslots st2) -> n < sc_size st2.
Proof.
  intros p st st2 I NN PR n H. unfold todo_nslots in H. apply in_map_iff in H.
  destruct H as ([i b] & <- & H). apply filter_In in H. destruct H as [H T]. simpl in *.
  assert (HB : nth_error (sc_blocks st2) i = Some b).
  { clear -H. assert (G : forall bs k, In (i, b) (combine (seq k (length bs)) bs) ->
      k <= i /\ nth_error bs (i - k) = Some b).
    { induction bs as [|c bs IH]; intros k X; [destruct X|]. simpl in X. destruct X as [X|X].
      - injection X; intros -> ->. split; [lia|]. now rewrite Nat.sub_diag.
      - apply IH in X. destruct X as [X Y]. split; [lia|].
        replace (i - k) with (S (i - S k)) by lia. exact Y. }
    apply G in H. rewrite Nat.sub_0_r in H. apply H. }
  now apply (todo_short p st st2 i b).
Qed.

(** ** Fitness *)

(** Two observations are clear of each other. *)
Definition clear_of (a b : nat * nat) : Prop := fst a + snd a <= fst b.
Definition start_le (a b : nat * nat) : Prop := fst a <= fst b.

Fixpoint pairwise (R : nat * nat -> nat * nat -> Prop) (l : list (nat * nat)) : Prop :=
  match l with [] => True | a :: t => Forall (R a) t /\ pairwise R t end.

Lemma overlap_count_cons : forall a b t,
  overlap_count (a :: b :: t) = (if fst b <? fst a + snd a then 1 else 0) + overlap_count (b :: t).
Proof. intros [s n] [s' n'] t. reflexivity. Qed.

Lemma overlap_zero : forall l, StronglySorted start_le l ->
  (overlap_count l = 0 <-> pairwise clear_of l).
Proof.
  induction l as [|a l IH]; intros S; [simpl; tauto|].
  inversion S as [|? ? S1 S2]; subst. specialize (IH S1). destruct l as [|b t].
  - simpl. split; [|destruct a; reflexivity]. intros _. split; constructor.
  - rewrite overlap_count_cons. cbn [pairwise].
    inversion S1 as [|? ? S3 S4]; subst. inversion S2; subst.
    rewrite Forall_forall in S4.
    destruct (Nat.ltb_spec (fst b) (fst a + snd a)) as [L|L].
    + split; [lia|]. intros [X _]. inversion X; subst. unfold clear_of in *. lia.
    + cbn [Nat.add]. rewrite IH. split.
      * intros X. split; [|assumption]. constructor; [exact L|]. apply Forall_forall.
        intros c C. specialize (S4 c C). unfold clear_of, start_le in *. lia.
      * intros [_ X]. exact X.
Qed.

Lemma qsum_bounds : forall l, (forall x, In x l -> (0 <= x <= 1)%Q) ->
  (0 <= qsum l <= inject_Z (Z.of_nat (length l)))%Q.
Proof.
  induction l as [|x l IH]; intros H.
  - simpl. change (inject_Z 0) with 0%Q. split; lra.
  - cbn [qsum fold_right length]. fold (qsum l). destruct IH as [A B]; [intros; apply H; now right|].
    destruct (H x) as [C D]; [now left|]. rewrite Nat2Z.inj_succ. unfold Z.succ.
    rewrite inject_Z_plus. change (inject_Z 1) with 1%Q. split; lra.
Qed.

Lemma fitness_bounds : forall norm so sd, norm <> [] -> (forall x, In x norm -> (0 <= x <= 1)%Q) ->
  (0 <= fitness norm so sd <= 1)%Q /\
  (overlap_count so = 0 -> overlap_count sd = 0 ->
     (fitness norm so sd == qsum norm / inject_Z (Z.of_nat (length norm)))%Q) /\
  (overlap_count so <> 0 ->
     (fitness norm so sd <= (1#2) * (qsum norm / inject_Z (Z.of_nat (length norm))))%Q).
Proof.
  intros norm so sd N H. unfold fitness.
  set (k := overlap_count so + overlap_count sd + 1).
  set (mean := (qsum norm / inject_Z (Z.of_nat (length norm)))%Q).
  destruct (qsum_bounds norm H) as [Q0 Q1].
  assert (LP : (0 < inject_Z (Z.of_nat (length norm)))%Q).
  { change 0%Q with (inject_Z 0). rewrite <- Zlt_Qlt. destruct norm; [contradiction|simpl; lia]. }
  assert (M : (0 <= mean <= 1)%Q).
  { unfold mean. split.
    - apply Qle_shift_div_l; [assumption|]. lra.
    - apply Qle_shift_div_r; [assumption|]. lra. }
  assert (KP : (1 <= inject_Z (Z.of_nat k))%Q).
  { change 1%Q with (inject_Z 1). rewrite <- Zle_Qle. unfold k. lia. }
  split; [|split].
  - split.
    + apply Qle_shift_div_l; [lra|]. lra.
    + apply Qle_shift_div_r; [lra|]. lra.
  - intros A B. unfold k. rewrite A, B. simpl. unfold Qdiv. change (/ inject_Z 1)%Q with 1%Q. lra.
  - intros A. assert (K2 : (2 <= inject_Z (Z.of_nat k))%Q).
    { change 2%Q with (inject_Z 2). rewrite <- Zle_Qle. unfold k. lia. }
    apply Qle_shift_div_r; [lra|].
    set (q := inject_Z (Z.of_nat k)) in *. nra.
Qed.

(** ** Sessions mixing both kinds of booking *)

Inductive reach2 : sched -> Prop :=
| r2_new : forall tmin tmax dt hour day night st,
    new_sched tmin tmax dt hour day night = Ok st -> reach2 st
| r2_op : forall st o, reach2 st -> op_nonneg o -> reach2 (sstep st o)
| r2_ga : forall st st' p g sorter m score, reach2 st -> sorter_in_range sorter ->
    ga_book p g sorter m score st = (st', None) -> reach2 st'.

Lemma reach2_inv : forall st, reach2 st -> sched_inv st /\ nonneg_scores (sc_blocks st).
Proof.
  intros st R. induction R as [tmin tmax dt hour day night st E|st o R [I NN] O|st st' p g so m sc R [I NN] S E].
  - now apply (new_sched_inv tmin tmax dt hour day night).
  - now apply sstep_inv.
  - destruct (ga_book_facts _ _ _ _ _ _ _ I NN S E) as (A & B & _). now split.
Qed.

Lemma reachable_reach2 : forall st, reachable st -> reach2 st.
Proof.
  intros st (tmin & tmax & dt & hour & day & night & st0 & ops & E & F & ->).
  assert (R : reach2 st0) by (eapply r2_new; exact E). clear E.
  revert st0 R. induction F as [|o ops O F IH]; intros st0 R; [exact R|].
  simpl. apply IH. now apply r2_op.
Qed.

(** The order by start, positions of equal starts in increasing order. *)
Definition start_order (bs : list blk) : list nat :=
  sort_by (fun i => inject_Z (Z.of_nat (start_of (nth i bs no_blk))))
    (filter (fun i => is_booked (nth i bs no_blk)) (seq 0 (length bs))).

Lemma start_order_in : forall bs i, In i (start_order bs) <->
  exists b, nth_error bs i = Some b /\ bk_start b <> None.
Proof.
  intros bs i. unfold start_order.
  assert (X : forall l, In i (sort_by (fun i => inject_Z (Z.of_nat (start_of (nth i bs no_blk)))) l) <-> In i l).
  { intros l. split; apply Permutation_in; [apply Permutation_sym|]; apply sort_by_perm. }
  rewrite X, filter_In, in_seq. split.
  - intros [[_ L] B]. simpl in L. exists (nth i bs no_blk). split; [now apply nth_error_nth_blk|].
    now apply booked_start.
  - intros (b & H & B). assert (L : i < length bs) by (apply nth_error_Some; congruence).
    rewrite (nth_error_nth _ _ _ H). split; [lia|]. now apply booked_start.
Qed.

Lemma start_order_valid : forall bs, valid_order bs (start_order bs).
Proof.
  intros bs. split; [|split].
  - unfold start_order. eapply Permutation_NoDup; [apply sort_by_perm|].
    apply NoDup_filter, seq_NoDup.
  - apply start_order_in.
  - unfold start_order. set (l := filter _ _).
    pose proof (sort_by_sorted (fun i => inject_Z (Z.of_nat (start_of (nth i bs no_blk)))) l) as S. induction S as [|a t S IH F]; constructor; [exact IH|].
    rewrite Forall_forall in *. intros x X. specialize (F x X). unfold by_score in F.
    rewrite <- Zle_Qle in F. lia.
Qed.

Lemma start_order_range : sorter_in_range start_order.
Proof.
  intros bs i H. apply start_order_in in H. destruct H as (b & H & _). apply nth_error_Some. congruence.
Qed.

(** ** Final forms *)

Lemma genetic_no_overlap : forall p g sorter m score st st',
  reach2 st -> sorter_in_range sorter ->
  ga_book p g sorter m score st = (st', None) ->
  no_overlap (sc_blocks st') /\
  placed_inside (sc_size st') (sc_blocks st') /\
  (forall i b, nth_error (sc_blocks st') i = Some b -> exists b0,
     nth_error (sc_blocks st) i = Some b0 /\ same_block b0 b /\ bk_nslots b = bk_nslots b0 /\
     forall s, bk_start b = Some s ->
       (kept_booking p st i /\ b = b0) \/
       ((forall k, s <= k < s + bk_nslots b -> base_free p st k) /\
        bk_time b = Some (times_at st s (bk_nslots b)))) /\
  (forall k, slot_free (sc_free st') k <->
     base_free p st k /\ forall b, In b (sc_blocks st') -> ~ covers b k).
Proof.
  intros p g sorter m score st st' R SR E. apply reach2_inv in R. destruct R as [I NN].
  destruct (ga_book_facts _ _ _ _ _ _ _ I NN SR E) as (A & B & C & D & F & G & H & K).
  split; [apply A|]. split; [now apply placed_inside_inv|]. now split.
Qed.

Lemma mixed_sessions : forall st, reach2 st ->
  no_overlap (sc_blocks st) /\ placed_inside (sc_size st) (sc_blocks st) /\
  forall i b k, nth_error (sc_blocks st) i = Some b -> covers b k -> ~ slot_free (sc_free st) k.
Proof.
  intros st R. apply reach2_inv in R. destruct R as [I NN].
  split; [apply I|]. split; [now apply placed_inside_inv|].
  intros i b k H C. pose proof C as (s & E & _). now apply (si_booked _ I i b H s E).
Qed.

Lemma genetic_failure : forall p g sorter m score st st2 st' e,
  reach2 st -> book_prepare p st = (st2, true, None) ->
  genome_ok (sc_size st2) (todo_nslots st2) g ->
  (forall bs, tuned st2 (sc_blocks st2) bs -> valid_order bs (sorter bs)) ->
  ga_book p (map Z.to_nat g) sorter m score st = (st', Some e) ->
  e = EValueError /\ (forall b, In b (sc_blocks st') -> bk_start b = None).
Proof.
  intros p g sorter m score st st2 st' e R PR G V E. apply reach2_inv in R. destruct R as [I NN].
  eapply ga_book_errors; try eassumption. now apply genome_ok_fits.
Qed.

Lemma clean_removed : forall sc f0 bs0, placed_inside (length f0) bs0 ->
  let bs := snd (clean sc f0 bs0) in
  length bs = length bs0 /\
  forall i b, nth_error bs i = Some b ->
    exists b0, nth_error bs0 i = Some b0 /\
      (b = b0 \/
       (b = with_start b0 None /\ exists k, covers b0 k /\
          (~ slot_free f0 k \/ exists j c, j <> i /\ nth_error bs j = Some c /\ covers c k))).
Proof. intros sc f0 bs0 PI. destruct (clean_spec sc f0 bs0 PI) as (_ & A & _ & B & _). now split. Qed.

Lemma todo_shorter : forall p st st2, reach2 st ->
  book_prepare p st = (st2, true, None) ->
  forall n, In n (todo_nslots st2) -> n < sc_size st2.
Proof.
  intros p st st2 R PR. apply reach2_inv in R. destruct R as [I NN]. now apply (todo_nslots_short p st).
Qed.

Lemma genetic_prepared : forall p g st st2, reach2 st -> book_prepare p st = (st2, true, None) ->
  prepared st2 /\
  forall bs, ga_place st2 0 (sc_blocks st2) g = (bs, None) -> tuned st2 (sc_blocks st2) bs.
Proof.
  intros p g st st2 R PR. apply reach2_inv in R. destruct R as [I NN].
  split; [now apply (prepare_prepared p st st2 (si_sizes _ I))|].
  intros bs E. now apply (ga_place_tuned _ _ _ _ _ _ E).
Qed.

Lemma fitness_spec : forall norm so sd, norm <> [] -> (forall x, In x norm -> (0 <= x <= 1)%Q) ->
  StronglySorted start_le so ->
  (0 <= fitness norm so sd <= 1)%Q /\
  (pairwise clear_of so -> overlap_count sd = 0 ->
     (fitness norm so sd == qsum norm / inject_Z (Z.of_nat (length norm)))%Q) /\
  (~ pairwise clear_of so ->
     (fitness norm so sd <= (1#2) * (qsum norm / inject_Z (Z.of_nat (length norm))))%Q).
Proof.
  intros norm so sd N H S. destruct (fitness_bounds norm so sd N H) as (A & B & C).
  pose proof (overlap_zero so S) as Z. split; [assumption|]. split.
  - intros P. apply B. now apply Z.
  - intros P. apply C. intros X. apply P. now apply Z.
Qed.

(** Boolean test of [no_overlap] for the examples. *)
Definition coversb (b : blk) (k : nat) : bool :=
  match bk_start b with None => false | Some s => in_range s (s + bk_nslots b) k end.

Lemma coversb_spec : forall b k, coversb b k = true <-> covers b k.
Proof.
  intros b k. unfold coversb, covers. destruct (bk_start b) as [s|].
  - rewrite in_range_true. split; [intros H; now exists s|]. intros (t & E & H). injection E; intros ->. exact H.
  - split; [discriminate|]. intros (t & E & _). discriminate.
Qed.

Definition no_overlapb (size : nat) (bs : list blk) : bool :=
  forallb (fun k => length (filter (fun b => coversb b k) bs) <=? 1) (seq 0 size).

Lemma filter_two : forall (f : blk -> bool) bs i j b c, i < j ->
  nth_error bs i = Some b -> nth_error bs j = Some c -> f b = true -> f c = true ->
  2 <= length (filter f bs).
Proof.
  intros f. induction bs as [|a bs IH]; intros i j b c L H1 H2 F1 F2; [destruct i; discriminate|].
  destruct j as [|j]; [lia|]. simpl in H2. destruct i as [|i].
  - injection H1; intros ->. simpl. rewrite F1. simpl.
    assert (In c (filter f bs)) by (apply filter_In; split; [now apply nth_error_In in H2|assumption]).
    destruct (filter f bs); [contradiction|simpl; lia].
  - simpl in H1. specialize (IH i j b c ltac:(lia) H1 H2 F1 F2). simpl. destruct (f a); simpl; lia.
Qed.

Lemma no_overlapb_sound : forall size bs, placed_inside size bs -> no_overlapb size bs = true ->
  no_overlap bs.
Proof.
  intros size bs P H i j b c k N HB HC CB CC. unfold no_overlapb in H. rewrite forallb_forall in H.
  assert (K : k < size).
  { destruct CB as (s & E & R). destruct (P i b s HB E). lia. }
  specialize (H k). rewrite in_seq in H. specialize (H ltac:(lia)). apply Nat.leb_le in H.
  apply coversb_spec in CB, CC.
  destruct (le_lt_dec i j) as [L|L].
  - pose proof (filter_two (fun b => coversb b k) bs i j b c ltac:(lia) HB HC CB CC). lia.
  - pose proof (filter_two (fun b => coversb b k) bs j i c b ltac:(lia) HC HB CC CB). lia.
Qed.

(** When every block to schedule is delayed, the extents are the right ones. *)
Lemma delay_extents_right : forall starts sel delays ns,
  StronglySorted (fun i j => nth i starts 0 <= nth j starts 0) sel ->
  (overlap_count (delay_extents starts sel delays ns) = 0 <->
   ForallOrdPairs (fun i j => nth i starts 0 + nth i ns 0 + nth i delays 0 <= nth j starts 0) sel).
Proof.
  intros starts sel delays ns S. rewrite overlap_zero.
  - unfold delay_extents. clear S. induction sel as [|i t IH]; simpl.
    + split; [constructor|trivial].
    + rewrite IH. split.
      * intros [A B]. constructor; [|assumption]. rewrite Forall_map in A.
        eapply Forall_impl; [|exact A]. unfold clear_of. simpl. intros; lia.
      * intros H. inversion H as [|? ? A B]; subst. split; [|assumption]. rewrite Forall_map.
        eapply Forall_impl; [|exact A]. unfold clear_of. simpl. intros; lia.
  - unfold delay_extents. induction S as [|i t S IH F]; simpl; constructor; [assumption|].
    rewrite Forall_map. eapply Forall_impl; [|exact F]. unfold start_le. simpl. auto.
Qed.
