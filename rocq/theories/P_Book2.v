(** Proofs about processing delays, reset and repeated booking. *)
From Coq Require Import List Arith ZArith QArith Bool Lia Lqa.
From Verif Require Import Base M_Slots M_Sched P_Slots P_Booking P_Book.
Import ListNotations.
Open Scope nat_scope.

(** ** Processing delays *)

(** [b] is placed and the other block keeps [d] slots away from it. *)
Definition apart (b c : blk) (d : nat) : Prop :=
  forall s t, bk_start b = Some s -> bk_start c = Some t ->
    t + bk_nslots c + d <= s \/ s + bk_nslots b + d <= t.

Record dinv (st : sched) (g : gst) : Prop := mkDinv {
  di_nonneg : forall k, (0 <= nth k (g_proc g) 0)%Z;
  di_zone : forall i b s, newly (sc_blocks st) (g_blocks g) i b -> bk_start b = Some s ->
    bk_ndelay b <> 0 -> forall k, k < length (g_proc g) ->
    s - bk_ndelay b <= k < s + bk_nslots b + bk_ndelay b -> (1 <= nth k (g_proc g) 0)%Z;
}.

Lemma freeze_proc_nth : forall s n d pr k, k < length pr ->
  nth k (freeze_proc s n d pr) 0%Z =
  (if in_range (s - d) (s + n + d) k then nth k pr 0 + 1 else nth k pr 0)%Z.
Proof.
  intros s n d pr k L. unfold freeze_proc. rewrite nth_add_range by assumption.
  destruct (in_range (s - d) (s + n + d) k) eqn:E.
  - apply in_range_true in E.
    assert (in_range (s - d) (Nat.min (s + n + d) (length pr)) k = true) by (apply in_range_true; lia).
    now rewrite H.
  - apply in_range_false in E.
    assert (in_range (s - d) (Nat.min (s + n + d) (length pr)) k = false) by (apply in_range_false; lia).
    now rewrite H.
Qed.

Lemma freeze_proc_ge : forall s n d pr k, (forall k, (0 <= nth k pr 0)%Z) ->
  (nth k pr 0 <= nth k (freeze_proc s n d pr) 0)%Z.
Proof.
  intros s n d pr k H. destruct (le_lt_dec (length pr) k) as [L|L].
  - unfold freeze_proc. rewrite !nth_overflow by (rewrite ?add_range_length; assumption). lia.
  - rewrite freeze_proc_nth by assumption. destruct (in_range _ _ k); lia.
Qed.

Lemma dinv_place : forall p st g i b s,
  ginv st g -> dinv st g ->
  nth_error (g_blocks g) i = Some b -> bk_start b = None ->
  dinv st (place st p g i b s).
Proof.
  intros p st g i b s G [D1 D2] HB HS.
  assert (GE : forall k, (nth k (g_proc g) 0 <= nth k (g_proc (place st p g i b s)) 0)%Z).
  { intros k. simpl. destruct (bk_ndelay b =? 0); [lia|]. now apply freeze_proc_ge. }
  constructor.
  - intros k. specialize (GE k). specialize (D1 k). lia.
  - intros j c t N E ND k L R.
    assert (L' : k < length (g_proc g)).
    { simpl in L. destruct (bk_ndelay b =? 0); [exact L|]. unfold freeze_proc in L.
      now rewrite add_range_length in L. }
    destruct N as (N1 & N2 & N3). simpl in N1. rewrite nth_error_upd in N1.
    destruct (Nat.eqb_spec j i) as [->|Hji].
    + rewrite HB in N1; simpl in N1. injection N1; intros <-. simpl in *.
      injection E; intros <-. destruct (Nat.eqb_spec (bk_ndelay b) 0); [contradiction|].
      rewrite freeze_proc_nth by assumption.
      assert (X : in_range (s - bk_ndelay b) (s + bk_nslots b + bk_ndelay b) k = true)
        by now apply in_range_true.
      rewrite X. specialize (D1 k). lia.
    + specialize (GE k).
      assert (newly (sc_blocks st) (g_blocks g) j c) by (split; [assumption|split; assumption]).
      specialize (D2 j c t H E ND k L' R). lia.
Qed.

Lemma dinv_step : forall p st g i, prepared st -> ginv st g -> dinv st g ->
  dinv st (greedy_step p st g i).
Proof.
  intros p st g i P G D.
  destruct (step_cases p st g i P G) as [->|(b & s & HB & HS & _ & _ & _ & ->)]; [assumption|].
  now apply dinv_place.
Qed.

Lemma both_fold : forall p st l g, prepared st -> ginv st g -> dinv st g ->
  ginv st (fold_left (greedy_step p st) l g) /\ dinv st (fold_left (greedy_step p st) l g).
Proof.
  induction l as [|i t IH]; intros g P G D; simpl; [now split|].
  apply IH; [assumption|now apply ginv_step|now apply dinv_step].
Qed.

Lemma dinv_init : forall st, (forall k, (0 <= nth k (sc_proc st) 0)%Z) ->
  dinv st (mkG (sc_free st) (sc_proc st) (sc_blocks st) 0%Q 0%Q).
Proof.
  intros st H. constructor; simpl; [assumption|].
  intros i b s (N1 & N2 & b0 & N3 & N4) E. rewrite N1 in N3; injection N3; intros <-. congruence.
Qed.

(** A booked block is not touched by later iterations. *)
Lemma step_keeps : forall p st g i j b s, prepared st -> ginv st g ->
  nth_error (g_blocks g) j = Some b -> bk_start b = Some s ->
  nth_error (g_blocks (greedy_step p st g i)) j = Some b.
Proof.
  intros p st g i j b s P G HB HS.
  destruct (step_cases p st g i P G) as [->|(c & t & HC & HN & _ & _ & _ & ->)]; [assumption|].
  simpl. rewrite nth_error_upd. destruct (Nat.eqb_spec j i) as [->|]; [congruence|assumption].
Qed.

Lemma fold_keeps : forall p st l g j b s, prepared st -> ginv st g ->
  nth_error (g_blocks g) j = Some b -> bk_start b = Some s ->
  nth_error (g_blocks (fold_left (greedy_step p st) l g)) j = Some b.
Proof.
  induction l as [|i t IH]; intros g j b s P G HB HS; simpl; [assumption|].
  apply IH with (s := s); [assumption|now apply ginv_step| |assumption].
  now apply step_keeps with (s := s).
Qed.

Lemma newly_keeps : forall p st l g i b, prepared st -> ginv st g ->
  newly (sc_blocks st) (g_blocks g) i b ->
  newly (sc_blocks st) (g_blocks (fold_left (greedy_step p st) l g)) i b.
Proof.
  intros p st l g i b P G (N1 & N2 & N3).
  split; [|split; assumption]. apply booked_start in N2.
  destruct (bk_start b) as [s|] eqn:E; [|contradiction].
  now apply fold_keeps with (s := s).
Qed.

Lemma delay_fold : forall p st l g i j b c, prepared st -> ginv st g -> dinv st g ->
  length (sc_proc st) = length (sc_free st) ->
  newly (sc_blocks st) (g_blocks g) i b -> bk_ndelay b <> 0 ->
  (forall c0, nth_error (g_blocks g) j = Some c0 -> bk_start c0 = None) ->
  newly (sc_blocks st) (g_blocks (fold_left (greedy_step p st) l g)) j c -> bk_ndelay c <> 0 ->
  apart b c (bk_ndelay b).
Proof.
  induction l as [|x l IH]; intros g i j b c P G D LP NI DI UJ NJ DJ; simpl in NJ.
  - exfalso. destruct NJ as (N1 & N2 & _). apply UJ in N1. apply booked_start in N2. contradiction.
  - pose proof (ginv_step p st g x P G) as G'. pose proof (dinv_step p st g x P G D) as D'.
    assert (NI' : newly (sc_blocks st) (g_blocks (greedy_step p st g x)) i b)
      by exact (newly_keeps p st [x] g i b P G NI).
    destruct (nth_error (g_blocks (greedy_step p st g x)) j) as [c0|] eqn:HJ.
    2:{ apply IH with (g := greedy_step p st g x) (i := i) (j := j); try assumption.
        intros c0 H; congruence. }
    destruct (bk_start c0) as [t|] eqn:HT.
    2:{ apply IH with (g := greedy_step p st g x) (i := i) (j := j); try assumption.
        intros c1 H; rewrite HJ in H; injection H; intros <-; assumption. }
    (* j is placed by this step *)
    assert (c = c0).
    { destruct NJ as (N1 & _). rewrite (fold_keeps p st l _ j c0 t P G' HJ HT) in N1. congruence. }
    subst c0.
    destruct (step_cases p st g x P G) as [E|(c1 & t1 & HC & HN & _ & (A1 & A2 & A3) & _ & E)]; rewrite E in HJ.
    + apply UJ in HJ. congruence.
    + simpl in HJ. rewrite nth_error_upd in HJ. destruct (Nat.eqb_spec j x) as [->|];
        [|apply UJ in HJ; congruence].
      rewrite HC in HJ; simpl in HJ. injection HJ; intros Q. subst c. simpl in *.
      intros s t0 HS HT0. injection HT; intros ->. injection HT0; intros <-. simpl.
      destruct (le_lt_dec (t + bk_nslots c1 + bk_ndelay b) s) as [X|X]; [now left|].
      destruct (le_lt_dec (s + bk_nslots b + bk_ndelay b) t) as [Y|Y]; [now right|].
      exfalso. set (k := Nat.max t (s - bk_ndelay b)).
      pose proof (gi_len _ _ G) as L1. pose proof (gi_plen _ _ G) as L2.
      assert (NB : 0 < bk_nslots b /\ 0 < bk_nslots c1).
      { destruct P as (_ & _ & P). split.
        - destruct NI as (N1 & _). destruct (gi_blk _ _ G i b N1) as (b0 & B0 & Q).
          destruct (P i b0 B0) as [P' _]. destruct Q as [->|(_ & s0 & -> & _)]; exact P'.
        - destruct (gi_blk _ _ G x c1 HC) as (b0 & B0 & Q).
          destruct (P x b0 B0) as [P' _]. destruct Q as [->|(_ & s0 & -> & _)]; exact P'. }
      assert (K1 : t <= k < t + bk_nslots c1) by (unfold k; lia).
      assert (K2 : s - bk_ndelay b <= k < s + bk_nslots b + bk_ndelay b) by (unfold k; lia).
      specialize (A3 DJ k K1).
      pose proof (di_zone _ _ D i b s NI HS DI k ltac:(lia) K2). lia.
Qed.

Lemma delay_apart : forall p st pre post i j b c, prepared st ->
  (forall k, (0 <= nth k (sc_proc st) 0)%Z) -> length (sc_proc st) = length (sc_free st) ->
  newly (sc_blocks st) (g_blocks (greedy p st pre)) i b -> bk_ndelay b <> 0 ->
  (forall c0, nth_error (g_blocks (greedy p st pre)) j = Some c0 -> bk_start c0 = None) ->
  newly (sc_blocks st) (g_blocks (greedy p st (pre ++ post))) j c -> bk_ndelay c <> 0 ->
  apart b c (bk_ndelay b).
Proof.
  intros p st pre post i j b c P H0 HL. unfold greedy. rewrite fold_left_app.
  destruct (both_fold p st pre _ P (ginv_init st P) (dinv_init st H0)) as [G D].
  intros. eapply delay_fold; eassumption.
Qed.

(** Whatever the order, two delayed blocks of the same call are apart. *)
Lemma delay_either : forall p st l i j b c, prepared st ->
  (forall k, (0 <= nth k (sc_proc st) 0)%Z) -> length (sc_proc st) = length (sc_free st) ->
  i <> j ->
  newly (sc_blocks st) (g_blocks (greedy p st l)) i b -> bk_ndelay b <> 0 ->
  newly (sc_blocks st) (g_blocks (greedy p st l)) j c -> bk_ndelay c <> 0 ->
  apart b c (bk_ndelay b) \/ apart c b (bk_ndelay c).
Proof.
  intros p st l i j b c P H0 HL Hij. induction l as [|x l IH] using rev_ind; intros NI DI NJ DJ.
  - exfalso. destruct NI as (N1 & N2 & b0 & N3 & N4). simpl in N1.
    rewrite N1 in N3; injection N3; intros <-. apply booked_start in N2; congruence.
  - set (g := greedy p st l) in *.
    destruct (both_fold p st l _ P (ginv_init st P) (dinv_init st H0)) as [G D].
    change (fold_left (greedy_step p st) l _) with g in G, D.
    assert (EG : greedy p st (l ++ [x]) = greedy_step p st g x)
      by (unfold greedy; rewrite fold_left_app; reflexivity).
    assert (DEC : forall y cy, newly (sc_blocks st) (g_blocks (greedy p st (l ++ [x]))) y cy ->
      newly (sc_blocks st) (g_blocks g) y cy \/
      (y = x /\ forall c0, nth_error (g_blocks g) y = Some c0 -> bk_start c0 = None)).
    { intros y cy (N1 & N2 & N3). rewrite EG in N1.
      destruct (step_cases p st g x P G) as [E|(c1 & t1 & HC & HN & _ & _ & _ & E)]; rewrite E in N1.
      - left. repeat split; assumption.
      - simpl in N1. rewrite nth_error_upd in N1. destruct (Nat.eqb_spec y x) as [->|].
        + right. split; [reflexivity|]. intros c0 Q. congruence.
        + left. repeat split; assumption. }
    destruct (DEC i b NI) as [NI'|[Ei UI]], (DEC j c NJ) as [NJ'|[Ej UJ]].
    + now apply IH.
    + left. eapply (delay_apart p st l [x] i j); eassumption.
    + right. eapply (delay_apart p st l [x] j i); eassumption.
    + congruence.
Qed.

(** ** Reset *)

Lemma nth_repeat_lt : forall (A : Type) (x d : A) n k, k < n -> nth k (repeat x n) d = x.
Proof. induction n as [|n IH]; intros [|k] H; simpl; try lia; [reflexivity|apply IH; lia]. Qed.


(** Times of the slot [k] meet the reservation. *)
Definition res_meets (st : sched) (k : nat) (o : sop) : Prop :=
  match o with
  | SReserve a b => (a <= b)%Z /\ (a < nth k (sc_stops st) 0 /\ nth k (sc_starts st) 0 < b)%Z
  | _ => False
  end.

(** A session that never reserves a slot used by a booked block. *)
Fixpoint safe_session (st : sched) (ops : list sop) : Prop :=
  match ops with
  | [] => True
  | o :: t =>
      (forall k b, In b (sc_blocks st) -> covers b k -> ~ res_meets st k o) /\
      safe_session (sstep st o) t
  end.

Definition given_back (st : sched) (k : nat) : Prop :=
  slot_free (sc_free st) k \/ exists b, In b (sc_blocks st) /\ covers b k.

Lemma sstep_grid : forall st o, sched_inv st -> nonneg_scores (sc_blocks st) ->
  sc_starts (sstep st o) = sc_starts st /\ sc_stops (sstep st o) = sc_stops st.
Proof.
  intros st [l|a b|p o] [S NS BK DJ] NN; cbn [sstep].
  - now split.
  - destruct (insert_res_facts st a b S) as (_ & F2 & F3 & _). now split.
  - destruct (book_facts p o st S NS BK NN) as (F1 & F2 & _). now split.
Qed.

Lemma given_back_step : forall st o k, sched_inv st -> nonneg_scores (sc_blocks st) ->
  k < sc_size st ->
  (forall b, In b (sc_blocks st) -> covers b k -> ~ res_meets st k o) ->
  (given_back (sstep st o) k <-> given_back st k /\ ~ res_meets st k o).
Proof.
  intros st [l|a b|p o] k I NN Hk SF; cbn [sstep res_meets] in *.
  - destruct (insert_obs_facts st l) as (new & E & L & F & T). unfold given_back. rewrite E.
    split.
    + intros [X|(b & IN & C)]; [split; [now left|tauto]|]. split; [|tauto].
      apply in_app_or in IN. destruct IN as [IN|IN]; [right; now exists b|].
      apply In_nth_error in IN. destruct IN as (j & IN). apply F in IN.
      destruct IN as (d1 & d2 & d3 & _ & ->). destruct C as (s & Q & _). discriminate.
    + intros [[X|(b & IN & C)] _]; [now left|]. right. exists b. split; [|assumption].
      apply in_or_app; now left.
  - destruct I as [S NS BK DJ].
    destruct (insert_res_facts st a b S) as (F1 & F2 & F3 & F4 & F5 & F6 & F7).
    unfold given_back. rewrite F1, F7 by assumption. split.
    + intros [[X Y]|(c & IN & C)]; [split; [now left|assumption]|].
      split; [right; now exists c|]. now apply (SF c).
    + intros [[X|X] Y]; [left; now split|now right].
  - pose proof I as [S NS BK DJ].
    destruct (book_facts p o st S NS BK NN) as (F1 & F2 & F3 & F4 & F5 & F6 & F7).
    set (st' := fst (book p o st)) in *.
    assert (BD : length (sc_blocks st') = length (sc_blocks st)).
    { unfold st', book. destruct (book_prepare p st) as [[st2 go] e] eqn:PR.
      pose proof (prepare_facts p st st2 go e S PR) as (_ & _ & _ & _ & _ & _ & _ & _ & _ & X & _).
      destruct e as [e|]; [destruct go; exact X|]. destruct go; [|exact X].
      destruct (visit _ o) as [l|e]; [|exact X]. simpl.
      pose proof (prepare_prepared p st st2 S NN PR) as P.
      rewrite (gi_blen _ _ (ginv_greedy p st2 l P)). exact X. }
    enough (given_back st' k <-> given_back st k) by tauto.
    unfold given_back. split.
    + intros [X|(c & IN & C)].
      * apply F6 in X. destruct X as [[X|[_ X]] _]; [now left|now right].
      * apply In_nth_error in IN. destruct IN as (i & IN).
        destruct (F5 i c IN) as (b0 & H0 & SB & N & Q1 & Q2).
        assert (KD : kept_booking p st i \/ ~ kept_booking p st i).
        { unfold kept_booking. destruct (bp_reset p); [right; intros [X _]; discriminate|].
          rewrite H0. destruct (bk_start b0) eqn:E.
          - left. split; [reflexivity|]. exists b0. split; [reflexivity|congruence].
          - right. intros (_ & c1 & X & Y). injection X; intros <-. contradiction. }
        destruct KD as [K|K].
        -- rewrite (Q1 K) in C. right. exists b0. split; [now apply nth_error_In in H0|assumption].
        -- destruct (Q2 K) as [X|(s & X & _ & _ & Y & _)]; [exfalso; now apply (not_booked_covers c k)|].
           destruct C as (s1 & X1 & C). rewrite X in X1; injection X1; intros <-.
           destruct (Y k C) as [Z|[_ Z]]; [now left|now right].
    + intros X.
      assert (BF : base_free p st k \/ (bp_reset p = false /\ exists b, In b (sc_blocks st) /\ covers b k)).
      { unfold base_free. destruct X as [X|X]; [now left; left|].
        destruct (bp_reset p); [left; right; now split|right; now split]. }
      destruct BF as [BF|(R & c & IN & C)].
      * destruct (existsb (fun c => match bk_start c with
            | Some s => in_range s (s + bk_nslots c) k | None => false end) (sc_blocks st')) eqn:EX.
        -- apply existsb_exists in EX. destruct EX as (c & IN & EX). right. exists c.
           split; [assumption|]. destruct (bk_start c) as [s|] eqn:Q; [|discriminate].
           apply in_range_true in EX. exists s; now split.
        -- left. apply F6. split; [assumption|]. intros i c HI _ C.
           rewrite <- not_true_iff_false in EX. apply EX. apply existsb_exists. exists c.
           split; [now apply nth_error_In in HI|]. destruct C as (s & Q & C). rewrite Q.
           now apply in_range_true.
      * right. apply In_nth_error in IN. destruct IN as (i & IN).
        assert (K : kept_booking p st i).
        { split; [assumption|]. exists c. split; [assumption|].
          destruct C as (s & Q & _); congruence. }
        destruct (nth_error (sc_blocks st') i) as [c'|] eqn:Q.
        -- destruct (F5 i c' Q) as (b0 & H0 & _ & _ & Q1 & _). rewrite (Q1 K) in Q.
           rewrite IN in H0; injection H0; intros <-. exists c.
           split; [now apply nth_error_In in Q|assumption].
        -- exfalso. apply nth_error_None in Q.
           assert (nth_error (sc_blocks st) i <> None) by congruence.
           apply nth_error_Some in H. lia.
Qed.

Lemma sstep_inv : forall st o, sched_inv st -> nonneg_scores (sc_blocks st) -> op_nonneg o ->
  sched_inv (sstep st o) /\ nonneg_scores (sc_blocks (sstep st o)).
Proof.
  intros st o I NN F. apply (srun_inv [o] st I NN). now constructor.
Qed.

Lemma given_back_run : forall ops st k, sched_inv st -> nonneg_scores (sc_blocks st) ->
  Forall op_nonneg ops -> k < sc_size st -> safe_session st ops ->
  (given_back (srun st ops) k <-> given_back st k /\ forall o, In o ops -> ~ res_meets st k o).
Proof.
  induction ops as [|o t IH]; intros st k I NN F Hk SS.
  - simpl. split; [intros X; split; [exact X|intros o []]|tauto].
  - inversion F as [|? ? Fo Ft]; subst. destruct SS as [SS1 SS2].
    destruct (sstep_inv st o I NN Fo) as [I' NN'].
    destruct (sstep_grid st o I NN) as [G1 G2].
    unfold srun; simpl. change (fold_left sstep t (sstep st o)) with (srun (sstep st o) t).
    rewrite IH; try assumption; [|unfold sc_size; now rewrite G1].
    rewrite given_back_step; try assumption; [|intros b IN C; now apply (SS1 k b)].
    assert (RM : forall x, res_meets (sstep st o) k x <-> res_meets st k x).
    { intros [l|a b|p q]; simpl; try tauto. now rewrite G1, G2. }
    split.
    + intros [[X Y] Z]. split; [assumption|]. intros x [<-|J]; [assumption|].
      rewrite <- RM. now apply Z.
    + intros [X Y]. split; [split; [assumption|apply Y; now left]|].
      intros x J. rewrite RM. apply Y. now right.
Qed.

(** After the reset that opens book(), the free slots are those no reservation
    of the session meets. *)
Lemma reset_session : forall tmin tmax dt hour day night st0 ops k,
  new_sched tmin tmax dt hour day night = Ok st0 ->
  Forall op_nonneg ops -> safe_session st0 ops -> k < sc_size st0 ->
  let st := srun st0 ops in
  (slot_free (sc_free (reset_bookings st)) k <->
   forall o, In o ops -> ~ res_meets st0 k o) /\
  (forall b, In b (sc_blocks (reset_bookings st)) -> bk_start b = None).
Proof.
  intros tmin tmax dt hour day night st0 ops k E F SS Hk st.
  destruct (new_sched_inv _ _ _ _ _ _ _ E) as [I NN].
  destruct (srun_inv ops st0 I NN F) as [I' NN'].
  split.
  - rewrite reset_free. pose proof (given_back_run ops st0 k I NN F Hk SS) as R.
    fold st in R. unfold given_back in R.
    assert (L : length (sc_free st) = sc_size st0).
    { destruct I' as [(_ & S2 & _) _ _ _]. fold st in S2. rewrite S2.
      assert (G : forall ops s, sched_inv s -> nonneg_scores (sc_blocks s) -> Forall op_nonneg ops ->
               sc_starts (srun s ops) = sc_starts s).
      { clear. induction ops as [|o t IH]; intros s I NN F; [reflexivity|].
        inversion F; subst. destruct (sstep_inv s o I NN H1) as [I' NN'].
        destruct (sstep_grid s o I NN) as [G1 _].
        unfold srun; simpl. change (fold_left sstep t (sstep s o)) with (srun (sstep s o) t).
        rewrite IH; assumption. }
      unfold sc_size. unfold st. now rewrite G. }
    assert (F0 : slot_free (sc_free st0) k).
    { unfold new_sched in E. destruct (new_slots tmin tmax dt) as [s|e] eqn:N; [|discriminate].
      simpl in E. injection E; intros <-. unfold sc_size in Hk. simpl in *.
      unfold new_slots, slots_time_range in N.
      destruct (tmax <=? tmin)%Z; [discriminate|]. destruct (dt =? 0)%Z; [discriminate|].
      simpl in N. injection N; intros <-. simpl in *. unfold slot_free.
      rewrite map_length, seq_length in *. now apply nth_repeat_lt. }
    rewrite L. assert (k < sc_size st0) by assumption. tauto.
  - intros b IN. apply In_nth_error in IN. destruct IN as (i & IN).
    now apply reset_unbooked in IN.
Qed.

(** ** Repeated booking *)

Definition same_but_time (b b' : blk) : Prop :=
  bk_idx b' = bk_idx b /\ bk_dur b' = bk_dur b /\ bk_ndelay b' = bk_ndelay b /\
  bk_score b' = bk_score b /\ bk_nslots b' = bk_nslots b /\ bk_start b' = bk_start b.

Lemma reset_fold_unbooked : forall bs fp, (forall b, In b bs -> bk_start b = None) ->
  fold_left reset_one bs fp = fp.
Proof.
  induction bs as [|b t IH]; intros fp H; [reflexivity|]. simpl.
  assert (E : reset_one fp b = fp) by (unfold reset_one; now rewrite (H b (or_introl eq_refl))).
  rewrite E. apply IH. intros; apply H; now right.
Qed.

Lemma with_start_same : forall b, bk_start b = None -> with_start b None = b.
Proof. intros [] H; simpl in *; now subst. Qed.

Lemma map_id_in : forall A (f : A -> A) l, (forall x, In x l -> f x = x) -> map f l = l.
Proof.
  induction l as [|x t IH]; intros H; [reflexivity|]. simpl. rewrite (H x (or_introl eq_refl)).
  f_equal. apply IH. intros; apply H; now right.
Qed.

Lemma sched_eta : forall st, mkSched (sc_dt st) (sc_hour st) (sc_starts st) (sc_stops st)
  (sc_free st) (sc_proc st) (sc_day st) (sc_night st) (sc_blocks st) (sc_todo st) (sc_cnst st) = st.
Proof. intros []; reflexivity. Qed.

Lemma reset_unbooked_id : forall st, (forall b, In b (sc_blocks st) -> bk_start b = None) ->
  reset_bookings st = st.
Proof.
  intros st H. unfold reset_bookings. rewrite reset_fold_unbooked by assumption.
  rewrite map_id_in by (intros; apply with_start_same; now apply H).
  destruct st; reflexivity.
Qed.

Lemma bool_list_ext : forall (l l' : list bool), length l = length l' ->
  (forall k, k < length l -> (slot_free l k <-> slot_free l' k)) -> l = l'.
Proof.
  intros l l' L H. apply list_ext_nth with (d := false); [assumption|].
  intros k Hk. specialize (H k Hk). unfold slot_free in H.
  destruct (nth k l false), (nth k l' false); try reflexivity; destruct H as [A B];
    [now rewrite A|now rewrite B].
Qed.

(** Loops on states whose blocks differ only by their stale times. *)
Record gsim (st st' : sched) (g g' : gst) : Prop := mkSim {
  gs_free : g_free g' = g_free g;
  gs_proc : g_proc g' = g_proc g;
  gs_day : g_dused g' = g_dused g;
  gs_night : g_nused g' = g_nused g;
  gs_len : length (g_blocks g') = length (g_blocks g);
  gs_blk : forall i b b', nth_error (g_blocks g) i = Some b -> nth_error (g_blocks g') i = Some b' ->
    same_but_time b b' /\ (bk_start b <> None -> b = b');
}.

Lemma with_place_sim : forall b b' s t, same_but_time b b' -> with_place b' s t = with_place b s t.
Proof. intros [] [] s t (A & B & C & D & E & F); simpl in *; unfold with_place; simpl; congruence. Qed.

Lemma sim_step : forall p st st' g g' i,
  sc_starts st' = sc_starts st -> sc_stops st' = sc_stops st -> sc_hour st' = sc_hour st ->
  sc_day st' = sc_day st -> sc_night st' = sc_night st -> sc_todo st' = sc_todo st ->
  sc_cnst st' = sc_cnst st ->
  gsim st st' g g' -> gsim st st' (greedy_step p st g i) (greedy_step p st' g' i).
Proof.
  intros p st st' g g' i E1 E2 E3 E4 E5 E6 E7 S. pose proof S as [S1 S2 S3 S4 S5 S6].
  unfold greedy_step.
  destruct (nth_error (g_blocks g) i) as [b|] eqn:HB.
  - destruct (nth_error (g_blocks g') i) as [b'|] eqn:HB'.
    2:{ exfalso. apply nth_error_None in HB'.
        assert (nth_error (g_blocks g) i <> None) by congruence. apply nth_error_Some in H. lia. }
    destruct (S6 i b b' HB HB') as [SB SE]. pose proof SB as (B1 & B2 & B3 & B4 & B5 & B6).
    rewrite E6. unfold is_booked. rewrite B6.
    destruct (negb (nth i (sc_todo st) false) || _) eqn:X; [assumption|].
    assert (PS : place_score p st' g' (nth i (sc_cnst st') []) b'
               = place_score p st g (nth i (sc_cnst st) []) b).
    { unfold place_score. rewrite E4, E5, E7, S1, S2, S3, S4, B3, B5. reflexivity. }
    rewrite PS. set (score := place_score p st g (nth i (sc_cnst st) []) b).
    destruct (all_zero score); [assumption|].
    destruct (negb (existsb _ score)); [assumption|].
    unfold place. constructor; simpl.
    + now rewrite S1, B5.
    + rewrite S2, B3, B5. reflexivity.
    + rewrite S3, E4, E3, B5. reflexivity.
    + rewrite S4, E5, E3, B5. reflexivity.
    + rewrite !upd_length. exact S5.
    + intros j c c'. rewrite !nth_error_upd. destruct (Nat.eqb_spec j i) as [->|].
      * rewrite HB, HB'; simpl. intros Q Q'. injection Q; intros <-. injection Q'; intros <-.
        rewrite E1, E2, B5, (with_place_sim b b' _ _ SB). split; [repeat split|reflexivity].
      * apply S6.
  - destruct (nth_error (g_blocks g') i) as [b'|] eqn:HB'; [|assumption].
    exfalso. apply nth_error_None in HB.
    assert (nth_error (g_blocks g') i <> None) by congruence. apply nth_error_Some in H. lia.
Qed.

Lemma sim_fold : forall p st st' l g g',
  sc_starts st' = sc_starts st -> sc_stops st' = sc_stops st -> sc_hour st' = sc_hour st ->
  sc_day st' = sc_day st -> sc_night st' = sc_night st -> sc_todo st' = sc_todo st ->
  sc_cnst st' = sc_cnst st ->
  gsim st st' g g' ->
  gsim st st' (fold_left (greedy_step p st) l g) (fold_left (greedy_step p st') l g').
Proof.
  induction l as [|i t IH]; intros g g' E1 E2 E3 E4 E5 E6 E7 S; simpl; [assumption|].
  apply IH; try assumption. now apply sim_step.
Qed.

Lemma greedy_none : forall p st l g,
  (forall i, nth i (sc_todo st) false = false) -> fold_left (greedy_step p st) l g = g.
Proof.
  induction l as [|i t IH]; intros g H; simpl; [reflexivity|].
  rewrite step_skip by (intros; left; apply H). now apply IH.
Qed.

Lemma count_true_zero : forall l, count_true l = 0 <-> forall i, nth i l false = false.
Proof.
  unfold count_true. induction l as [|x t IH]; simpl.
  - split; [intros _ [|i]; reflexivity|reflexivity].
  - destruct x; simpl.
    + split; [discriminate|]. intros H. specialize (H 0). discriminate.
    + rewrite IH. split.
      * intros H [|i]; [reflexivity|apply H].
      * intros H i. apply (H (S i)).
Qed.

(** Scoring a state that has already been scored with the same free slots. *)
Lemma score_loop_again : forall dt free bs ts,
  length ts = length bs ->
  (forall b, In b bs -> bk_nslots b = Z.to_nat (cdiv (bk_dur b) dt)) ->
  (forall b, In b bs -> 0 < Z.to_nat (cdiv (bk_dur b) dt)) ->
  (forall i b, nth_error bs i = Some b -> nth i ts false = true ->
     all_zero (cnst_row free (bk_score b) (bk_nslots b)) = false) ->
  score_loop dt free bs ts =
    (bs, ts, map (fun b => cnst_row free (bk_score b) (bk_nslots b)) bs, None).
Proof.
  intros dt free. induction bs as [|b bs IH]; intros ts L N P T.
  - destruct ts; [reflexivity|discriminate].
  - destruct ts as [|t ts]; [discriminate|]. simpl.
    assert (NB : bk_nslots b = Z.to_nat (cdiv (bk_dur b) dt)) by (apply N; now left).
    assert (PB : 0 < Z.to_nat (cdiv (bk_dur b) dt)) by (apply P; now left).
    destruct (Nat.eqb_spec (Z.to_nat (cdiv (bk_dur b) dt)) 0); [lia|].
    rewrite IH.
    + rewrite <- NB, with_nslots_same by reflexivity.
      assert (TT : (if all_zero (cnst_row free (bk_score b) (bk_nslots b)) then false else t) = t).
      { specialize (T 0 b eq_refl). simpl in T. destruct t.
        - now rewrite (T eq_refl).
        - now destruct (all_zero _). }
      now rewrite TT.
    + simpl in L; lia.
    + intros; apply N; now right.
    + intros; apply P; now right.
    + intros i c H. apply (T (S i) c H).
Qed.

Lemma book_unfold : forall p o st, book p o st =
  match book_prepare p st with
  | (st2, _, Some e) => (st2, Some e)
  | (st2, false, None) => (st2, None)
  | (st2, true, None) =>
      match visit (length (sc_blocks st2)) o with
      | Err e => (st2, Some e)
      | Ok l => (end_state st2 (greedy p st2 l), None)
      end
  end.
Proof. reflexivity. Qed.

(** The state on which a second call works. *)
Lemma prepare_again : forall p st c,
  bp_reset p = true ->
  sizes_ok c -> sc_size c <> 0 ->
  sc_free c = sc_free st -> sc_proc c = sc_proc st ->
  sc_starts c = sc_starts st -> sc_stops c = sc_stops st -> sc_dt c = sc_dt st ->
  sc_hour c = sc_hour st -> sc_day c = sc_day st -> sc_night c = sc_night st ->
  (* [c] is a reset and scored state, [st] the state given to the call *)
  reset_bookings st = c ->
  (forall b, In b (sc_blocks c) -> bk_nslots b = Z.to_nat (cdiv (bk_dur b) (sc_dt c))) ->
  (forall b, In b (sc_blocks c) -> 0 < bk_nslots b) ->
  sc_cnst c = map (fun b => cnst_row (sc_free c) (bk_score b) (bk_nslots b)) (sc_blocks c) ->
  (forall i b, nth_error (sc_blocks c) i = Some b -> nth i (sc_todo c) false = true ->
     all_zero (cnst_row (sc_free c) (bk_score b) (bk_nslots b)) = false) ->
  (bp_strict p = true -> strict_filter (sc_blocks c) (sc_cnst c) (sc_todo c) = sc_todo c) ->
  book_prepare p st = (c, negb (count_true (sc_todo c) =? 0), None).
Proof.
  intros p st c R S Z F1 F2 F3 F4 F5 F6 F7 F8 RB N P CN T ST.
  unfold book_prepare. rewrite R, RB. unfold compute_scores.
  destruct (Nat.eqb_spec (sc_size c) 0); [contradiction|].
  rewrite score_loop_again; [|apply S|exact N|intros b I; rewrite <- N by assumption; now apply P|exact T].
  assert (E : set_cnst (set_todo (set_blocks c (sc_blocks c)) (sc_todo c))
     (map (fun b => cnst_row (sc_free c) (bk_score b) (bk_nslots b)) (sc_blocks c)) = c).
  { rewrite <- CN. destruct c; reflexivity. }
  rewrite E. destruct (count_true (sc_todo c) =? 0); [reflexivity|]. simpl.
  destruct (bp_strict p); [|reflexivity].
  rewrite (ST eq_refl). destruct c; reflexivity.
Qed.

Lemma strict_filter_idem : forall bs rows ts,
  strict_filter bs rows (strict_filter bs rows ts) = strict_filter bs rows ts.
Proof.
  intros. unfold strict_filter. apply list_ext_nth with (d := false); [now rewrite !imap_length|].
  intros k Hk. rewrite !imap_length in Hk.
  rewrite nth_imap with (d' := false) by (now rewrite imap_length).
  rewrite nth_imap with (d' := false) by assumption.
  now rewrite <- andb_assoc, andb_diag.
Qed.

Lemma reset_fold_proc : forall bs fp, (forall b, In b bs -> bk_ndelay b = 0) ->
  snd (fold_left reset_one bs fp) = snd fp.
Proof.
  induction bs as [|b t IH]; intros fp H; [reflexivity|]. simpl.
  rewrite IH by (intros; apply H; now right). unfold reset_one.
  destruct (bk_start b); [|reflexivity]. simpl. now rewrite (H b (or_introl eq_refl)).
Qed.

Lemma greedy_proc : forall p st l g, (forall b, In b (g_blocks g) -> bk_ndelay b = 0) ->
  g_proc (fold_left (greedy_step p st) l g) = g_proc g.
Proof.
  induction l as [|i t IH]; intros g H; [reflexivity|]. simpl.
  assert (X : g_proc (greedy_step p st g i) = g_proc g /\
              forall b, In b (g_blocks (greedy_step p st g i)) -> bk_ndelay b = 0).
  { unfold greedy_step. destruct (nth_error (g_blocks g) i) as [b|] eqn:HB; [|now split].
    destruct (_ || _); [now split|]. destruct (all_zero _); [now split|].
    destruct (negb _); [now split|]. simpl.
    assert (Q : bk_ndelay b = 0) by (apply H; now apply nth_error_In in HB).
    rewrite Q. split; [reflexivity|]. intros c I. apply In_nth_error in I. destruct I as (j & I).
    rewrite nth_error_upd in I. destruct (j =? i).
    - destruct (nth_error (g_blocks g) j); [|discriminate]. injection I; intros <-. exact Q.
    - apply H. now apply nth_error_In in I. }
  destruct X as [X1 X2]. rewrite IH by assumption. exact X1.
Qed.

(** Properties of the state reached when preparation succeeds. *)
Lemma prepare_ok_facts : forall p st st2 go,
  bp_reset p = true -> sizes_ok st -> book_prepare p st = (st2, go, None) ->
  sizes_ok st2 /\ sc_size st2 <> 0 /\
  (forall b, In b (sc_blocks st2) -> bk_start b = None) /\
  (forall b, In b (sc_blocks st2) -> bk_nslots b = Z.to_nat (cdiv (bk_dur b) (sc_dt st2))) /\
  (forall b, In b (sc_blocks st2) -> 0 < bk_nslots b) /\
  sc_cnst st2 = map (fun b => cnst_row (sc_free st2) (bk_score b) (bk_nslots b)) (sc_blocks st2) /\
  (forall i b, nth_error (sc_blocks st2) i = Some b -> nth i (sc_todo st2) false = true ->
     all_zero (cnst_row (sc_free st2) (bk_score b) (bk_nslots b)) = false) /\
  (go = true -> bp_strict p = true ->
     strict_filter (sc_blocks st2) (sc_cnst st2) (sc_todo st2) = sc_todo st2) /\
  (go = false -> count_true (sc_todo st2) = 0) /\
  ((forall b, In b (sc_blocks st) -> bk_ndelay b = 0) ->
    forall b, In b (sc_blocks st2) -> bk_ndelay b = 0).
Proof.
  intros p st st2 go R S E.
  pose proof (prepare_facts p st st2 go None S E) as
    (F1 & F2 & F3 & F4 & F5 & F6 & F7 & F8 & F9 & F10 & F11 & F12).
  unfold book_prepare in E. rewrite R in E.
  pose proof (sizes_reset st S) as SB. pose proof SB as (B1 & B2 & B3 & B4).
  assert (BS : base_state p st = reset_bookings st) by (unfold base_state; now rewrite R).
  rewrite BS in *.
  destruct (compute_scores (reset_bookings st)) as [sc [e1|]] eqn:C; [discriminate|].
  apply compute_scores_spec in C; [|assumption].
  destruct C as (C1 & C2 & C3 & C4 & C5 & C6 & C7 & C8 & C9 & C10 & C11 & C12 & C13 & C14).
  assert (BLK : sc_blocks st2 = sc_blocks sc /\ sc_free st2 = sc_free sc /\ sc_cnst st2 = sc_cnst sc /\
     sc_dt st2 = sc_dt sc /\
     (forall i, nth i (sc_todo st2) false = true -> nth i (sc_todo sc) false = true)).
  { destruct (count_true (sc_todo sc) =? 0).
    - injection E; intros; subst. tauto.
    - injection E; intros; subst. destruct (bp_strict p); [|tauto]. simpl. repeat split; try reflexivity.
      intros i H. unfold strict_filter in H. destruct (le_lt_dec (length (sc_todo sc)) i).
      { rewrite nth_overflow in H by now rewrite imap_length. discriminate. }
      rewrite nth_imap with (d' := false) in H by assumption. now apply andb_true_iff in H. }
  destruct BLK as (K1 & K2 & K3 & K4 & K5).
  assert (IN : forall b, In b (sc_blocks st2) -> exists b0, In b0 (sc_blocks st) /\
     b = with_nslots (with_start b0 None) (Z.to_nat (cdiv (bk_dur b0) (sc_dt st)))).
  { intros b I. rewrite K1, C9 in I. apply in_map_iff in I. destruct I as (b1 & <- & I).
    simpl in I. apply in_map_iff in I. destruct I as (b0 & <- & I). exists b0. now split. }
  assert (DT : sc_dt st2 = sc_dt st) by (rewrite K4, C5; reflexivity).
  assert (SZ : sc_size st2 = sc_size (reset_bookings st)) by (unfold sc_size; now rewrite F3).
  split. { unfold sizes_ok. rewrite SZ, F4, F1, F2. repeat split; assumption. }
  split. { rewrite SZ. lia. }
  split. { intros b I. destruct (IN b I) as (b0 & _ & ->). reflexivity. }
  split. { intros b I. destruct (IN b I) as (b0 & _ & ->). simpl. now rewrite DT. }
  split. { intros b I. rewrite K1, C9 in I. apply in_map_iff in I. destruct I as (b1 & <- & I).
           simpl. now apply C11. }
  assert (CN : sc_cnst st2 = map (fun b => cnst_row (sc_free st2) (bk_score b) (bk_nslots b)) (sc_blocks st2)).
  { rewrite K3, C10, K1, C9, K2, C1, map_map. reflexivity. }
  split; [exact CN|].
  split.
  { intros i b H T. apply K5 in T.
    assert (L : i < length (sc_blocks (reset_bookings st))).
    { rewrite K1, C9 in H. assert (X : nth_error (map (fun b : blk => with_nslots b (Z.to_nat (cdiv (bk_dur b) (sc_dt (reset_bookings st))))) (sc_blocks (reset_bookings st))) i <> None) by congruence.
      apply nth_error_Some in X. now rewrite map_length in X. }
    rewrite (C13 i L) in T.
    assert (Q : nth i (sc_cnst sc) [] = cnst_row (sc_free st2) (bk_score b) (bk_nslots b)).
    { rewrite <- K3, CN. erewrite nth_error_nth; [reflexivity|]. rewrite nth_error_map, H. reflexivity. }
    rewrite Q in T. destruct (all_zero _); [discriminate|reflexivity]. }
  split.
  { intros G ST. destruct (count_true (sc_todo sc) =? 0); [injection E; intros; subst; discriminate|].
    rewrite ST in E. injection E; intros; subst. simpl. apply strict_filter_idem. }
  split.
  { intros G. destruct (Nat.eqb_spec (count_true (sc_todo sc)) 0); [|injection E; intros; subst; discriminate].
    injection E; intros; subst. assumption. }
  intros D b I. destruct (IN b I) as (b0 & I0 & ->). simpl. now apply D.
Qed.

Lemma strict_filter_all_false : forall bs rows ts, count_true ts = 0 -> strict_filter bs rows ts = ts.
Proof.
  intros bs rows ts H. rewrite count_true_zero in H. unfold strict_filter.
  apply list_ext_nth with (d := false); [now rewrite imap_length|].
  intros k Hk. rewrite imap_length in Hk. rewrite nth_imap with (d' := false) by assumption.
  now rewrite H.
Qed.

Lemma same_but_time_refl : forall b, same_but_time b b.
Proof. repeat split. Qed.

Lemma rebook_idempotent : forall p o st st1,
  bp_reset p = true -> sizes_ok st -> nonneg_scores (sc_blocks st) ->
  (forall b, In b (sc_blocks st) -> bk_ndelay b = 0) ->
  book p o st = (st1, None) ->
  book p o st1 = (st1, None).
Proof.
  intros p o st st1 R S NN ND E. rewrite book_unfold in E.
  destruct (book_prepare p st) as [[st2 go] e] eqn:PR.
  destruct e as [e|]; [destruct go; discriminate|].
  pose proof (prepare_ok_facts p st st2 go R S PR) as
    (Z1 & Z2 & Z3 & Z4 & Z5 & Z6 & Z7 & Z8 & Z9 & Z10).
  specialize (Z10 ND).
  destruct go.
  2:{ injection E; intros <-.
      pose proof (prepare_again p st2 st2 R Z1 Z2 eq_refl eq_refl eq_refl eq_refl eq_refl eq_refl eq_refl
        eq_refl (reset_unbooked_id st2 Z3) Z4 Z5 Z6 Z7
        (fun _ => strict_filter_all_false _ _ _ (Z9 eq_refl))) as PA.
      rewrite (Z9 eq_refl) in PA. simpl in PA. rewrite book_unfold, PA. reflexivity. }
  destruct (visit (length (sc_blocks st2)) o) as [l|e] eqn:V; [|discriminate].
  injection E; intros <-.
  pose proof (prepare_prepared p st st2 S NN PR) as P.
  pose proof (ginv_greedy p st2 l P) as G.
  set (g := greedy p st2 l) in *. set (st1' := end_state st2 g).
  (* the reset of the booked state *)
  set (c := reset_bookings st1').
  assert (CB : forall i b, nth_error (sc_blocks c) i = Some b ->
     exists b2, nth_error (sc_blocks st2) i = Some b2 /\ same_but_time b2 b /\
       forall b1, nth_error (g_blocks g) i = Some b1 -> bk_start b1 = None -> b = b2).
  { intros i b H. apply reset_unbooked in H. destruct H as (_ & b1 & H1 & ->). simpl in H1.
    destruct (gi_blk _ _ G i b1 H1) as (b2 & H2 & Q). exists b2. split; [assumption|].
    assert (U : bk_start b2 = None) by (apply Z3; now apply nth_error_In in H2).
    destruct Q as [->|(_ & s & -> & _)].
    - split; [rewrite with_start_same by assumption; apply same_but_time_refl|].
      intros b1' X _. rewrite with_start_same by assumption. congruence.
    - split; [repeat split; simpl; congruence|]. intros b1' X Y. rewrite H1 in X.
      injection X; intros <-. discriminate. }
  assert (CL : length (sc_blocks c) = length (sc_blocks st2)).
  { unfold c, st1'; simpl. rewrite map_length. apply (gi_blen _ _ G). }
  assert (CF : sc_free c = sc_free st2).
  { apply bool_list_ext.
    - unfold c; simpl. destruct (reset_fold_length (g_blocks g) (g_free g, g_proc g)) as [A _].
      simpl in A. rewrite A. apply (gi_len _ _ G).
    - intros k Hk. unfold c. rewrite reset_free. unfold st1'; simpl.
      rewrite (gi_len _ _ G). split.
      + intros [L [X|(b & I & C)]]; [now apply (gi_free _ _ G) in X|].
        apply In_nth_error in I. destruct I as (i & I).
        destruct (gi_blk _ _ G i b I) as (b2 & H2 & Q).
        destruct Q as [->|(_ & s & -> & _ & W & _)].
        * exfalso. apply (not_booked_covers b2 k); [|assumption]. apply Z3. now apply nth_error_In in H2.
        * destruct C as (s1 & Q1 & C). simpl in *. injection Q1; intros <-. now apply W.
      + intros X. split; [now apply slot_free_lt|].
        destruct (existsb (fun c => match bk_start c with
            | Some s => in_range s (s + bk_nslots c) k | None => false end) (g_blocks g)) eqn:EX.
        * right. apply existsb_exists in EX. destruct EX as (b & IN & EX). exists b.
          split; [assumption|]. destruct (bk_start b) as [s|] eqn:Q; [|discriminate].
          apply in_range_true in EX. exists s; now split.
        * left. apply (gi_free _ _ G). split; [assumption|]. intros i b (HI & _) C.
          rewrite <- not_true_iff_false in EX. apply EX. apply existsb_exists. exists b.
          split; [now apply nth_error_In in HI|]. destruct C as (s & Q & C). rewrite Q.
          now apply in_range_true. }
  assert (GD : forall b, In b (g_blocks g) -> bk_ndelay b = 0).
  { intros b I. apply In_nth_error in I. destruct I as (i & I).
    destruct (gi_blk _ _ G i b I) as (b2 & H2 & Q).
    assert (bk_ndelay b2 = 0) by (apply Z10; now apply nth_error_In in H2).
    destruct Q as [->|(_ & s & -> & _)]; assumption. }
  assert (GP : g_proc g = sc_proc st2) by (unfold g, greedy; apply greedy_proc; exact Z10).
  assert (CP : sc_proc c = sc_proc st2).
  { unfold c; simpl. rewrite reset_fold_proc by assumption. simpl. exact GP. }
  assert (CU : forall b, In b (sc_blocks c) -> bk_start b = None).
  { intros b I. apply In_nth_error in I. destruct I as (i & I). now apply reset_unbooked in I. }
  assert (ROWS : map (fun b => cnst_row (sc_free st2) (bk_score b) (bk_nslots b)) (sc_blocks st2)
               = map (fun b => cnst_row (sc_free st2) (bk_score b) (bk_nslots b)) (sc_blocks c)).
  { apply list_ext_error. intros i. rewrite !nth_error_map.
    destruct (nth_error (sc_blocks c) i) as [b|] eqn:H.
    - destruct (CB i b H) as (b2 & H2 & (_ & _ & _ & X1 & X2 & _) & _). rewrite H2. simpl. congruence.
    - apply nth_error_None in H. rewrite CL in H. apply nth_error_None in H. now rewrite H. }
  assert (SFN : forall rows ts, strict_filter (sc_blocks c) rows ts = strict_filter (sc_blocks st2) rows ts).
  { intros rows ts. unfold strict_filter. apply list_ext_nth with (d := false); [now rewrite !imap_length|].
    intros k Hk. rewrite imap_length in Hk. rewrite !nth_imap with (d' := false) by assumption.
    f_equal. f_equal.
    destruct (nth_error (sc_blocks c) k) as [b|] eqn:H.
    - destruct (CB k b H) as (b2 & H2 & (_ & _ & _ & _ & X2 & _) & _).
      rewrite (nth_error_nth _ _ _ H), (nth_error_nth _ _ _ H2). exact X2.
    - apply nth_error_None in H. rewrite !nth_overflow by lia. reflexivity. }
  set (c1 := set_cnst (set_todo (set_blocks (set_proc (set_free st2 (sc_free st2)) (sc_proc st2)) (sc_blocks c)) (sc_todo st2)) (sc_cnst st2)).
  assert (CC : c = c1).
  { unfold c1. rewrite <- CF, <- CP. unfold c, st1', reset_bookings, end_state. simpl. reflexivity. }
  assert (PA : book_prepare p st1' = (c, negb (count_true (sc_todo c) =? 0), None)).
  { unfold book_prepare. rewrite R. fold c. unfold compute_scores.
    assert (X : sc_size c = sc_size st2) by (rewrite CC; reflexivity). rewrite X.
    destruct (Nat.eqb_spec (sc_size st2) 0); [contradiction|].
    assert (TD : sc_todo c = sc_todo st2) by (rewrite CC; reflexivity).
    assert (DT : sc_dt c = sc_dt st2) by (rewrite CC; reflexivity).
    assert (CCN : sc_cnst c = sc_cnst st2) by (rewrite CC; reflexivity).
    rewrite score_loop_again.
    - rewrite CF, <- ROWS, <- Z6, <- CCN.
      assert (Y : set_cnst (set_todo (set_blocks c (sc_blocks c)) (sc_todo c)) (sc_cnst c) = c)
        by (destruct c; reflexivity).
      rewrite Y. destruct (count_true (sc_todo c) =? 0); [reflexivity|]. cbn [negb].
      destruct (bp_strict p) eqn:ST; [|reflexivity].
      rewrite SFN, TD, CCN, (Z8 eq_refl eq_refl), <- TD. destruct c; reflexivity.
    - rewrite TD, CL. apply Z1.
    - intros b I. apply In_nth_error in I. destruct I as (i & I).
      destruct (CB i b I) as (b2 & H2 & (_ & X1 & _ & _ & X2 & _) & _).
      rewrite X1, X2, DT. apply Z4. now apply nth_error_In in H2.
    - intros b I. apply In_nth_error in I. destruct I as (i & I).
      destruct (CB i b I) as (b2 & H2 & (_ & X1 & _ & _ & X2 & _) & _).
      rewrite X1, DT, <- Z4 by (now apply nth_error_In in H2). apply Z5. now apply nth_error_In in H2.
    - intros i b H T. destruct (CB i b H) as (b2 & H2 & (_ & _ & _ & X1 & X2 & _) & _).
      rewrite X1, X2, CF. apply (Z7 i); [assumption|]. now rewrite <- TD. }
  rewrite book_unfold, PA.
  assert (END : forall go', go' = negb (count_true (sc_todo c) =? 0) ->
    (if go' then end_state c (greedy p c l) else c) = st1').
  { intros go' Hgo.
    (* the second loop simulates the first one *)
    assert (SIM : gsim st2 c g (greedy p c l)).
    { unfold g, greedy. apply sim_fold; try (rewrite CC; reflexivity).
      constructor; cbn [g_free g_proc g_blocks g_dused g_nused]; try assumption; try reflexivity.
      - intros i b b' H H'. destruct (CB i b' H') as (b2 & H2 & X & _).
        rewrite H in H2. injection H2; intros <-. split; [assumption|].
        intros Y. exfalso. apply Y, Z3. now apply nth_error_In in H. }
    assert (BLK : g_blocks (greedy p c l) = g_blocks g).
    { apply list_ext_error. intros i.
      destruct (nth_error (g_blocks g) i) as [b|] eqn:H.
      - destruct (nth_error (g_blocks (greedy p c l)) i) as [b'|] eqn:H'.
        2:{ exfalso. apply nth_error_None in H'. rewrite (gs_len _ _ _ _ SIM) in H'.
            apply nth_error_None in H'. congruence. }
        destruct (gs_blk _ _ _ _ SIM i b b' H H') as [X Y].
        destruct (bk_start b) eqn:Q; [rewrite Y by congruence; reflexivity|].
        (* not booked in either run *)
        assert (PC : prepared c).
        { destruct P as (P1 & P2 & P3). split; [|split].
          - rewrite CF. assert (W : sc_size c = sc_size st2) by (rewrite CC; reflexivity). now rewrite W.
          - intros d I x Ix. apply In_nth_error in I. destruct I as (j & I).
            destruct (CB j d I) as (d2 & D2 & (_ & _ & _ & W & _) & _). rewrite W in Ix.
            apply (P2 d2); [now apply nth_error_In in D2|assumption].
          - intros j d D. destruct (CB j d D) as (d2 & D2 & (_ & _ & _ & W1 & W2 & _) & _).
            rewrite W1, W2, CF. assert (W : sc_cnst c = sc_cnst st2) by (rewrite CC; reflexivity).
            rewrite W. now apply P3. }
        pose proof (ginv_greedy p c l PC) as GC.
        destruct (gi_blk _ _ GC i b' H') as (bc & Hc & W).
        assert (bk_start b' = None) by (destruct X as (_ & _ & _ & _ & _ & X); congruence).
        destruct W as [->|(_ & s & -> & _)]; [|discriminate].
        destruct (CB i bc Hc) as (b2 & H2 & _ & V2). rewrite (V2 b H Q).
        destruct (gi_blk _ _ G i b H) as (b3 & H3 & W3).
        destruct W3 as [->|(_ & s & -> & _)]; [|discriminate]. congruence.
      - apply nth_error_None in H. rewrite <- (gs_len _ _ _ _ SIM) in H. now apply nth_error_None in H. }
    destruct go'.
    - unfold end_state, st1'. rewrite BLK, (gs_free _ _ _ _ SIM), (gs_proc _ _ _ _ SIM).
      rewrite CC. reflexivity.
    - symmetry in Hgo. apply negb_false_iff, Nat.eqb_eq in Hgo. pose proof (proj1 (count_true_zero _) Hgo) as Hgo2. clear Hgo. rename Hgo2 into Hgo.
      assert (TD : sc_todo c = sc_todo st2) by (rewrite CC; reflexivity).
      rewrite TD in Hgo.
      assert (GG : g = mkG (sc_free st2) (sc_proc st2) (sc_blocks st2) 0%Q 0%Q)
        by (unfold g, greedy; now apply greedy_none).
      unfold st1', end_state. rewrite GG. simpl. rewrite CC. unfold c1. simpl.
      f_equal. unfold c, st1', end_state. simpl. rewrite GG. simpl.
      rewrite map_id_in by (intros b I; apply with_start_same; now apply Z3). reflexivity. }
  destruct (negb (count_true (sc_todo c) =? 0)) eqn:Hgo.
  - rewrite CL, V. f_equal. now apply (END true).
  - f_equal. now apply (END false).
Qed.

(** ** very_strict *)

Lemma true_runs_spec : forall l cur n, 0 < n ->
  (existsb (fun r => n <=? r) (true_runs cur l) = true <->
   (exists c, c <= length l /\ (forall j, j < c -> nth j l false = true) /\ n <= cur + c) \/
   (exists s, s + n <= length l /\ forall j, j < n -> nth (s + j) l false = true)).
Proof.
  induction l as [|x t IH]; intros cur n Hn; simpl.
  - split.
    + destruct (Nat.eqb_spec cur 0); simpl; [discriminate|]. rewrite orb_false_r, Nat.leb_le.
      intros H. left. exists 0. repeat split; [lia|intros; lia|lia].
    + intros [(c & L & _ & H)|(s & L & _)]; [|lia].
      destruct (Nat.eqb_spec cur 0); [lia|]. simpl. rewrite orb_false_r. apply Nat.leb_le. lia.
  - destruct x.
    + rewrite IH by assumption. split.
      * intros [(c & L & F & H)|(s & L & F)].
        -- left. exists (S c). repeat split; [simpl; lia| |lia].
           intros [|j] Hj; [reflexivity|]. simpl. apply F; lia.
        -- right. exists (S s). split; [simpl; lia|]. intros j Hj. simpl. now apply F.
      * intros [(c & L & F & H)|(s & L & F)].
        -- destruct c as [|c].
           ++ left. exists 0. repeat split; [lia|intros; lia|lia].
           ++ left. exists c. simpl in L. repeat split; [lia| |lia].
              intros j Hj. apply (F (S j)). lia.
        -- simpl in L. destruct s as [|s].
           ++ left. exists (n - 1). repeat split; [lia| |lia].
              intros j Hj. apply (F (S j)). lia.
           ++ right. exists s. split; [lia|]. intros j Hj. apply (F j Hj).
    + rewrite existsb_app, orb_true_iff, IH by assumption. split.
      * intros [H|[(c & L & F & H)|(s & L & F)]].
        -- left. exists 0. repeat split; [lia|intros; lia|].
           destruct (Nat.eqb_spec cur 0); simpl in H; [discriminate|].
           rewrite orb_false_r, Nat.leb_le in H. lia.
        -- right. exists 1. split; [simpl; lia|]. intros j Hj. simpl. apply F. lia.
        -- right. exists (S s). split; [simpl; lia|]. intros j Hj. simpl. now apply F.
      * intros [(c & L & F & H)|(s & L & F)].
        -- destruct c as [|c]; [|specialize (F 0 ltac:(lia)); discriminate].
           left. destruct (Nat.eqb_spec cur 0); [lia|]. simpl. rewrite orb_false_r.
           apply Nat.leb_le. lia.
        -- simpl in L. destruct s as [|s]; [specialize (F 0 ltac:(lia)); discriminate|].
           right. right. exists s. split; [lia|]. intros j Hj. apply (F j Hj).
Qed.

Lemma strict_ok_spec : forall row n, 0 < n ->
  (strict_ok row n = true <->
   exists s, s + n <= length row /\ forall j, j < n -> (0 < nth (s + j) row 0)%Q).
Proof.
  intros row n Hn. unfold strict_ok. rewrite true_runs_spec by assumption.
  rewrite map_length.
  assert (M : forall k, k < length row -> (nth k (map (fun x => Qltb 0 x) row) false = true <-> (0 < nth k row 0)%Q)).
  { intros k Hk. rewrite nth_indep with (d' := Qltb 0 0) by now rewrite map_length.
    rewrite (map_nth (fun x => Qltb 0 x)). apply Qltb_lt. }
  split.
  - intros [(c & L & F & H)|(s & L & F)].
    + exists 0. split; [lia|]. intros j Hj. apply M; [lia|]. apply F. lia.
    + exists s. split; [assumption|]. intros j Hj. apply M; [lia|]. now apply F.
  - intros (s & L & F). right. exists s. split; [assumption|]. intros j Hj. apply M; [lia|]. now apply F.
Qed.

(** ** Blocks that are not to be scheduled *)

Lemma todo_monotone : forall p o st i,
  sizes_ok st -> nonneg_scores (sc_blocks st) -> nth i (sc_todo st) false = false ->
  nth i (sc_todo (fst (book p o st))) false = false.
Proof.
  intros p o st i S NN H. rewrite book_unfold.
  destruct (book_prepare p st) as [[st2 go] e] eqn:PR.
  pose proof (prepare_facts p st st2 go e S PR) as (_ & _ & _ & _ & _ & _ & _ & _ & _ & _ & _ & F12).
  assert (X : nth i (sc_todo st2) false = false).
  { destruct (nth i (sc_todo st2) false) eqn:Q; [|reflexivity]. apply F12 in Q. congruence. }
  destruct e as [e|]; [destruct go; exact X|]. destruct go; [|exact X].
  destruct (visit (length (sc_blocks st2)) o); exact X.
Qed.

Lemma rejected_reason : forall p st st2 go i b,
  sizes_ok st -> nonneg_scores (sc_blocks st) -> book_prepare p st = (st2, go, None) ->
  bp_strict p = false ->
  nth_error (sc_blocks st2) i = Some b ->
  nth i (sc_todo st) false = true -> nth i (sc_todo st2) false = false ->
  forall s, s + bk_nslots b < sc_size st -> window_free (sc_free st2) s (bk_nslots b) ->
    (window_mean (bk_score b) s (bk_nslots b) == 0)%Q.
Proof.
  intros p st st2 go i b S NN E NST H T T2 s Hs W.
  unfold book_prepare in E. fold (base_state p st) in E.
  pose proof (sizes_base p st S) as SB.
  destruct (compute_scores (base_state p st)) as [sc [e1|]] eqn:C; [discriminate|].
  apply compute_scores_spec in C; [|assumption].
  destruct C as (C1 & C2 & C3 & C4 & C5 & C6 & C7 & C8 & C9 & C10 & C11 & C12 & C13 & C14).
  rewrite NST in E.
  assert (st2 = sc) by (destruct (count_true (sc_todo sc) =? 0); injection E; intros; congruence).
  subst sc. rewrite C9, nth_error_map in H.
  destruct (nth_error (sc_blocks (base_state p st)) i) as [b1|] eqn:H1; [|discriminate].
  assert (L : i < length (sc_blocks (base_state p st))) by (apply nth_error_Some; congruence).
  rewrite (C13 i L) in T2. destruct (base_state_fields p st) as (F1 & F2 & F3 & F4 & F5 & F6 & F7 & F8 & F9).
  rewrite F7, T in T2.
  destruct (all_zero (nth i (sc_cnst st2) [])) eqn:AZ; [|discriminate].
  assert (R : nth i (sc_cnst st2) [] = cnst_row (sc_free st2) (bk_score b) (bk_nslots b)).
  { rewrite C10, C1. erewrite nth_error_nth; [|rewrite nth_error_map, H1; reflexivity].
    injection H; intros <-. reflexivity. }
  rewrite R in AZ. unfold all_zero in AZ. rewrite forallb_forall in AZ.
  assert (LF : length (sc_free st2) = sc_size st).
  { rewrite C1, F9. apply S. }
  rewrite <- cnst_row_val with (f := sc_free st2) by (try lia; assumption).
  apply Qeq_bool_iff. apply AZ. apply nth_In. rewrite cnst_row_length. lia.
Qed.
