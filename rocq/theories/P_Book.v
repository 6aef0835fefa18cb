(** Proofs about whole calls of book() and sessions. *)
From Coq Require Import List Arith ZArith QArith Bool Lia Lqa.
From Verif Require Import Base M_Slots M_Sched P_Slots P_Booking.
Import ListNotations.
Open Scope nat_scope.

(** ** Specification *)

(** A slot that may be used by the call: free, or given back by the reset. *)
Definition base_free (p : params) (st : sched) (k : nat) : Prop :=
  slot_free (sc_free st) k \/
  (bp_reset p = true /\ exists b, In b (sc_blocks st) /\ covers b k).

(** A block whose earlier booking is kept by the call. *)
Definition kept_booking (p : params) (st : sched) (i : nat) : Prop :=
  bp_reset p = false /\ exists b, nth_error (sc_blocks st) i = Some b /\ bk_start b <> None.

(** Invariant of a schedule under sessions. *)
Record sched_inv (st : sched) : Prop := mkInv {
  si_sizes : sizes_ok st;
  si_nslots : nslots_ok st;
  si_booked : booked_ok (sc_free st) (sc_blocks st);
  si_disj : no_overlap (sc_blocks st);
}.

Definition same_block (b b' : blk) : Prop :=
  bk_idx b' = bk_idx b /\ bk_dur b' = bk_dur b /\ bk_ndelay b' = bk_ndelay b /\
  bk_score b' = bk_score b.

(** ** The block list through the preparation *)

Definition renum (dt : Z) (b : blk) : blk := with_nslots b (Z.to_nat (cdiv (bk_dur b) dt)).

Lemma score_loop_blocks : forall dt free bs ts bs' ts' rows e,
  length ts = length bs ->
  score_loop dt free bs ts = (bs', ts', rows, e) ->
  length ts' = length bs /\ length bs' = length bs /\
  (forall i b, nth_error bs i = Some b ->
     nth_error bs' i = Some b \/ nth_error bs' i = Some (renum dt b)) /\
  (forall i, nth i ts' false = true -> nth i ts false = true).
Proof.
  intros dt free. induction bs as [|b bs IH]; intros ts bs' ts' rows e HL E.
  - simpl in E. injection E; intros; subst. repeat split; try reflexivity.
    + intros [|i] b H; discriminate.
    + intros [|i] H; discriminate.
  - destruct ts as [|t ts]; [discriminate|]. simpl in HL. simpl in E.
    destruct (Nat.eqb_spec (Z.to_nat (cdiv (bk_dur b) dt)) 0) as [Z0|Z0].
    + injection E; intros; subst. split; [simpl; lia|]. split; [reflexivity|]. split.
      * intros [|i] c H; [|now left]. injection H; intros <-. now right.
      * tauto.
    + destruct (score_loop dt free bs ts) as [[[bs1 ts1] rows1] e1] eqn:E1.
      injection E; intros; subst.
      destruct (IH ts bs1 ts1 rows1 e) as (I1 & I2 & I3 & I4); [lia|assumption|].
      split; [simpl; lia|]. split; [simpl; lia|]. split.
      * intros [|i] c H; [injection H; intros <-; now right|]. now apply I3.
      * intros [|i] H; [|now apply I4]. simpl in *.
        destruct (all_zero _); [discriminate|assumption].
Qed.

Definition base_state (p : params) (st : sched) : sched :=
  if bp_reset p then reset_bookings st else st.

Lemma sizes_base : forall p st, sizes_ok st -> sizes_ok (base_state p st).
Proof. intros p st H; unfold base_state. destruct (bp_reset p); [now apply sizes_reset|assumption]. Qed.

Lemma base_state_free : forall p st k, sizes_ok st ->
  booked_ok (sc_free st) (sc_blocks st) ->
  (slot_free (sc_free (base_state p st)) k <-> base_free p st k).
Proof.
  intros p st k S B; unfold base_state, base_free. destruct (bp_reset p).
  - rewrite reset_free. split.
    + intros [L [X|X]]; [now left|right; now split].
    + intros X. split; [|tauto].
      destruct X as [X|(_ & b & I & C)]; [now apply slot_free_lt|].
      apply In_nth_error in I. destruct I as (i & I). destruct C as (s & E & H).
      destruct (B i b I s E) as (_ & Q & _). lia.
  - split; [now left|]. intros [X|[X _]]; [assumption|discriminate].
Qed.

Lemma base_state_fields : forall p st,
  sc_dt (base_state p st) = sc_dt st /\ sc_hour (base_state p st) = sc_hour st /\
  sc_starts (base_state p st) = sc_starts st /\ sc_stops (base_state p st) = sc_stops st /\
  sc_day (base_state p st) = sc_day st /\ sc_night (base_state p st) = sc_night st /\
  sc_todo (base_state p st) = sc_todo st /\
  length (sc_blocks (base_state p st)) = length (sc_blocks st) /\
  length (sc_free (base_state p st)) = length (sc_free st).
Proof.
  intros p st; unfold base_state. destruct (bp_reset p); repeat split; try reflexivity.
  - apply map_length.
  - simpl. destruct (reset_fold_length (sc_blocks st) (sc_free st, sc_proc st)) as [A _]. exact A.
Qed.

Lemma base_blocks : forall p st i b, nth_error (sc_blocks (base_state p st)) i = Some b ->
  exists b0, nth_error (sc_blocks st) i = Some b0 /\
    b = (if bp_reset p then with_start b0 None else b0).
Proof.
  intros p st i b H; unfold base_state in *. destruct (bp_reset p).
  - apply reset_unbooked in H. destruct H as (_ & b0 & E & ->). now exists b0.
  - now exists b.
Qed.

(** Facts common to every outcome of the preparation. *)
Lemma prepare_facts : forall p st st2 go e,
  sizes_ok st -> book_prepare p st = (st2, go, e) ->
  sc_free st2 = sc_free (base_state p st) /\ sc_proc st2 = sc_proc (base_state p st) /\
  sc_starts st2 = sc_starts st /\ sc_stops st2 = sc_stops st /\ sc_dt st2 = sc_dt st /\
  sc_day st2 = sc_day st /\ sc_night st2 = sc_night st /\ sc_hour st2 = sc_hour st /\
  length (sc_todo st2) = length (sc_blocks st2) /\
  length (sc_blocks st2) = length (sc_blocks st) /\
  (forall i b, nth_error (sc_blocks (base_state p st)) i = Some b ->
     nth_error (sc_blocks st2) i = Some b \/ nth_error (sc_blocks st2) i = Some (renum (sc_dt st) b)) /\
  (forall i, nth i (sc_todo st2) false = true -> nth i (sc_todo st) false = true).
Proof.
  intros p st st2 go e S E. unfold book_prepare in E. fold (base_state p st) in E.
  destruct (base_state_fields p st) as (F1 & F2 & F3 & F4 & F5 & F6 & F7 & F8 & _).
  pose proof (sizes_base p st S) as (S1 & S2 & S3 & S4).
  destruct (compute_scores (base_state p st)) as [sc [e1|]] eqn:C.
  - injection E; intros; subst. unfold compute_scores in C.
    destruct (sc_size (base_state p st) =? 0).
    + injection C; intros; subst. repeat split; try reflexivity; try assumption.
      * intros; now left.
      * intros i. now rewrite F7.
    + destruct (score_loop _ _ _ _) as [[[bs ts] rows] e2] eqn:SL. injection C; intros; subst.
      apply score_loop_blocks in SL; [|assumption]. destruct SL as (L1 & L2 & L3 & L4).
      simpl. repeat split; try reflexivity; try assumption; try congruence.
      * intros i b H. rewrite <- F1. now apply L3.
      * intros i H. rewrite <- F7. now apply L4.
  - unfold compute_scores in C.
    destruct (sc_size (base_state p st) =? 0); [discriminate|].
    destruct (score_loop _ _ _ _) as [[[bs ts] rows] e2] eqn:SL. injection C; intros; subst.
    apply score_loop_blocks in SL; [|assumption]. destruct SL as (L1 & L2 & L3 & L4).
    simpl in E. destruct (count_true ts =? 0).
    + injection E; intros; subst. simpl. repeat split; try reflexivity; try assumption; try congruence.
      * intros i b H. rewrite <- F1. now apply L3.
      * intros i H. rewrite <- F7. now apply L4.
    + injection E; intros; subst.
      destruct (bp_strict p); simpl; repeat split; try reflexivity; try assumption; try congruence.
      * unfold strict_filter. rewrite imap_length. congruence.
      * intros i b H. rewrite <- F1. now apply L3.
      * intros i H. rewrite <- F7. apply L4. unfold strict_filter in H.
        destruct (le_lt_dec (length ts) i).
        { rewrite nth_overflow in H by now rewrite imap_length. discriminate. }
        rewrite nth_imap with (d' := false) in H by assumption.
        now apply andb_true_iff in H.
      * intros i b H. rewrite <- F1. now apply L3.
      * intros i H. rewrite <- F7. now apply L4.
Qed.

Lemma with_nslots_same : forall b n, bk_nslots b = n -> with_nslots b n = b.
Proof. intros [] n H; simpl in *; now subst. Qed.

(** When the loop runs its start state is prepared. *)
Lemma prepare_prepared : forall p st st2,
  sizes_ok st -> nonneg_scores (sc_blocks st) ->
  book_prepare p st = (st2, true, None) -> prepared st2.
Proof.
  intros p st st2 S NN E. unfold book_prepare in E. fold (base_state p st) in E.
  pose proof (sizes_base p st S) as SB.
  destruct (compute_scores (base_state p st)) as [sc [e1|]] eqn:C; [discriminate|].
  apply compute_scores_spec in C; [|assumption].
  destruct C as (C1 & C2 & C3 & C4 & C5 & C6 & C7 & C8 & C9 & C10 & C11 & C12 & C13 & C14).
  destruct (count_true (sc_todo sc) =? 0); [discriminate|].
  assert (P : prepared sc).
  { split; [|split].
    - rewrite C1. unfold sc_size. rewrite C3. apply SB.
    - intros b I x Ix. rewrite C9 in I. apply in_map_iff in I. destruct I as (b1 & <- & I).
      simpl in Ix. apply In_nth_error in I. destruct I as (i & I).
      apply base_blocks in I. destruct I as (b0 & I & ->).
      apply (NN b0); [now apply nth_error_In in I|]. destruct (bp_reset p); exact Ix.
    - intros i b H. rewrite C9, nth_error_map in H.
      destruct (nth_error (sc_blocks (base_state p st)) i) as [b1|] eqn:H1; [|discriminate].
      injection H; intros <-. simpl. split.
      + apply C11. now apply nth_error_In in H1.
      + rewrite C10, C1.
        erewrite nth_error_nth; [reflexivity|]. rewrite nth_error_map, H1. reflexivity. }
  injection E; intros <-. destruct (bp_strict p); [|exact P].
  destruct P as (P1 & P2 & P3). split; [exact P1|]. split; [exact P2|exact P3].
Qed.

Definition end_state (st2 : sched) (g : gst) : sched :=
  set_blocks (set_proc (set_free st2 (g_free g)) (g_proc g)) (g_blocks g).

(** ** Whole call *)

Lemma book_facts : forall p o st,
  sizes_ok st -> nslots_ok st -> booked_ok (sc_free st) (sc_blocks st) ->
  nonneg_scores (sc_blocks st) ->
  let st' := fst (book p o st) in
  sc_starts st' = sc_starts st /\ sc_stops st' = sc_stops st /\ sc_dt st' = sc_dt st /\
  sizes_ok st' /\
  (forall i b, nth_error (sc_blocks st') i = Some b ->
     exists b0, nth_error (sc_blocks st) i = Some b0 /\ same_block b0 b /\ bk_nslots b = bk_nslots b0 /\
       (kept_booking p st i -> b = b0) /\
       (~ kept_booking p st i ->
          bk_start b = None \/
          exists s, bk_start b = Some s /\
            0 < bk_nslots b /\
            s + bk_nslots b < sc_size st /\
            (forall k, s <= k < s + bk_nslots b -> base_free p st k) /\
            nth i (sc_todo st) false = true /\
            bk_time b = Some (nth s (sc_starts st) 0%Z, nth (s + bk_nslots b - 1) (sc_stops st) 0%Z))) /\
  (forall k, slot_free (sc_free st') k <->
     base_free p st k /\
     forall i b, nth_error (sc_blocks st') i = Some b -> ~ kept_booking p st i -> ~ covers b k) /\
  (forall i j b c k, i <> j -> nth_error (sc_blocks st') i = Some b ->
     nth_error (sc_blocks st') j = Some c ->
     ~ kept_booking p st i -> ~ kept_booking p st j -> covers b k -> covers c k -> False).
Proof.
  intros p o st S NS BK NN. unfold book.
  destruct (book_prepare p st) as [[st2 go] e] eqn:PR.
  pose proof (prepare_facts p st st2 go e S PR) as
    (F1 & F2 & F3 & F4 & F5 & F6 & F7 & F8 & F9 & F10 & F11 & F12).
  destruct (base_state_fields p st) as (E1 & E2 & E3 & E4 & E5 & E6 & E7 & E8 & E9).
  pose proof (sizes_base p st S) as (B1 & B2 & B3 & B4).
  assert (SZ : sc_size st2 = sc_size st) by (unfold sc_size; now rewrite F3).
  assert (SZB : sc_size (base_state p st) = sc_size st) by (unfold sc_size; now rewrite E3).
  (* blocks of st2 *)
  assert (BL : forall i b, nth_error (sc_blocks st2) i = Some b ->
     exists b0, nth_error (sc_blocks st) i = Some b0 /\
       b = (if bp_reset p then with_start b0 None else b0)).
  { intros i b H.
    destruct (nth_error (sc_blocks (base_state p st)) i) as [b1|] eqn:H1.
    - pose proof (base_blocks p st i b1 H1) as (b0 & H0 & Q).
      exists b0. split; [assumption|].
      assert (N1 : bk_nslots b1 = Z.to_nat (cdiv (bk_dur b1) (sc_dt st))).
      { rewrite Q. pose proof (NS i b0 H0). destruct (bp_reset p); exact H2. }
      destruct (F11 i b1 H1) as [X|X]; rewrite X in H; injection H; intros <-; [assumption|].
      unfold renum. rewrite with_nslots_same by assumption. assumption.
    - exfalso. apply nth_error_None in H1.
      assert (nth_error (sc_blocks st2) i <> None) by congruence.
      apply nth_error_Some in H0. lia. }
  assert (SZ2 : sizes_ok st2).
  { unfold sizes_ok. rewrite SZ, F4, F1, F2, <- SZB. repeat split; try assumption; try congruence. }
  assert (KB : forall i b, nth_error (sc_blocks st2) i = Some b ->
     (bk_start b <> None <-> kept_booking p st i)).
  { intros i b H. destruct (BL i b H) as (b0 & H0 & ->). unfold kept_booking.
    destruct (bp_reset p); simpl.
    - split; [congruence|]. intros [X _]; discriminate.
    - split; [intros X; split; [reflexivity|exists b0; now split]|].
      intros (_ & b1 & X & Y). congruence. }
  (* the case where nothing is placed *)
  assert (IDLE :
    sc_starts st2 = sc_starts st /\ sc_stops st2 = sc_stops st /\ sc_dt st2 = sc_dt st /\
    sizes_ok st2 /\
    (forall i b, nth_error (sc_blocks st2) i = Some b ->
       exists b0, nth_error (sc_blocks st) i = Some b0 /\ same_block b0 b /\ bk_nslots b = bk_nslots b0 /\
         (kept_booking p st i -> b = b0) /\
         (~ kept_booking p st i -> bk_start b = None \/
            exists s, bk_start b = Some s /\ 0 < bk_nslots b /\ s + bk_nslots b < sc_size st /\
              (forall k, s <= k < s + bk_nslots b -> base_free p st k) /\
              nth i (sc_todo st) false = true /\
              bk_time b = Some (nth s (sc_starts st) 0%Z, nth (s + bk_nslots b - 1) (sc_stops st) 0%Z))) /\
    (forall k, slot_free (sc_free st2) k <->
       base_free p st k /\
       forall i b, nth_error (sc_blocks st2) i = Some b -> ~ kept_booking p st i -> ~ covers b k) /\
    (forall i j b c k, i <> j -> nth_error (sc_blocks st2) i = Some b ->
       nth_error (sc_blocks st2) j = Some c ->
       ~ kept_booking p st i -> ~ kept_booking p st j -> covers b k -> covers c k -> False)).
  { split; [assumption|]. split; [assumption|]. split; [assumption|]. split; [assumption|].
    assert (UB : forall i b, nth_error (sc_blocks st2) i = Some b -> ~ kept_booking p st i ->
                 bk_start b = None).
    { intros i b H K. rewrite <- (KB i b H) in K. destruct (bk_start b); [|reflexivity].
      exfalso; apply K; discriminate. }
    split; [|split].
    - intros i b H. destruct (BL i b H) as (b0 & H0 & Q). exists b0.
      split; [assumption|]. split; [rewrite Q; now destruct (bp_reset p)|].
      split; [rewrite Q; now destruct (bp_reset p)|]. split.
      + intros (K & _). now rewrite K in Q.
      + intros K. left. now apply (UB i).
    - intros k. rewrite F1, base_state_free by assumption. split; [|tauto].
      intros X. split; [assumption|]. intros i b H K. apply not_booked_covers. now apply (UB i).
    - intros i j b c k _ H _ K _ C. exfalso. revert C. apply not_booked_covers. now apply (UB i). }
  destruct e as [e|]; [destruct go; exact IDLE|].
  destruct go; [|exact IDLE].
  destruct (visit (length (sc_blocks st2)) o) as [l|e]; [|exact IDLE].
  pose proof (prepare_prepared p st st2 S NN PR) as P.
  pose proof (ginv_greedy p st2 l P) as G.
  set (g := greedy p st2 l) in *. simpl fst.
  destruct G as [G1 G1' G2 G3 G4 G5].
  simpl. split; [assumption|]. split; [assumption|]. split; [assumption|]. split.
  { destruct SZ2 as (Z1 & Z2 & Z3 & Z4). unfold sizes_ok, sc_size in *; simpl.
    rewrite G1, G1', G2. repeat split; assumption. }
  assert (NEWLY : forall i b, nth_error (g_blocks g) i = Some b -> bk_start b <> None ->
     ~ kept_booking p st i -> newly (sc_blocks st2) (g_blocks g) i b).
  { intros i b H B K. split; [assumption|]. split; [now apply booked_start|].
    destruct (G3 i b H) as (b2 & H2 & _). exists b2. split; [assumption|].
    rewrite <- (KB i b2 H2) in K. destruct (bk_start b2); [|reflexivity].
    exfalso; apply K; discriminate. }
  assert (CB : forall b k, covers b k -> bk_start b <> None).
  { intros b k (s & X & _). congruence. }
  assert (NEWLY' : forall i b, newly (sc_blocks st2) (g_blocks g) i b -> ~ kept_booking p st i).
  { intros i b (_ & _ & b0 & N3 & N4). rewrite <- (KB i b0 N3). congruence. }
  split; [|split].
  - intros i b H. destruct (G3 i b H) as (b2 & H2 & Q).
    destruct (BL i b2 H2) as (b0 & H0 & Q0). exists b0. split; [assumption|].
    assert (SB : same_block b0 b2 /\ bk_nslots b2 = bk_nslots b0)
      by (rewrite Q0; destruct (bp_reset p); repeat split).
    destruct SB as [SB SN].
    assert (SB' : same_block b2 b /\ bk_nslots b = bk_nslots b2).
    { destruct Q as [->|(_ & s & -> & _)]; repeat split. }
    destruct SB' as [SB' SN'].
    split. { destruct SB as (X1 & X2 & X3 & X4), SB' as (Y1 & Y2 & Y3 & Y4). repeat split; congruence. }
    split; [congruence|]. split.
    + intros K. destruct K as (K1 & b1 & K2 & K3). rewrite K1 in Q0. subst b2.
      destruct Q as [->|(X & _)]; [reflexivity|]. congruence.
    + intros K. destruct Q as [->|(X & s & -> & Y1 & Y2 & Y3)].
      * left. rewrite <- (KB i b2 H2) in K. destruct (bk_start b2); [|reflexivity].
        exfalso; apply K; discriminate.
      * right. exists s. simpl. split; [reflexivity|].
        destruct P as (P1 & P2 & P3). destruct (P3 i b2 H2) as (P4 & _).
        split; [assumption|]. split; [rewrite <- SZ, <- P1; exact Y1|]. split.
        -- intros k Hk. apply base_state_free; [assumption|assumption|].
           rewrite <- F1. now apply Y2.
        -- split; [now apply F12|]. now rewrite F3, F4.
  - intros k. rewrite G4, F1, base_state_free by assumption.
    split; intros [X Y]; (split; [assumption|]); intros i b.
    + intros H K C. apply (Y i b); [|assumption]. apply NEWLY; [assumption|now apply (CB b k)|assumption].
    + intros N C. apply (Y i b); [apply N|now apply (NEWLY' i b)|assumption].
  - intros i j b c k Hij Hi Hj Ki Kj Ci Cj.
    apply (G5 i j b c k Hij); try assumption; apply NEWLY; try assumption; eapply CB; eassumption.
Qed.

(** ** Invariant *)

Lemma book_inv : forall p o st, nonneg_scores (sc_blocks st) ->
  sched_inv st -> sched_inv (fst (book p o st)).
Proof.
  intros p o st NN [S NS BK DJ].
  destruct (book_facts p o st S NS BK NN) as (F1 & F2 & F3 & F4 & F5 & F6 & F7).
  set (st' := fst (book p o st)) in *.
  assert (SZ : sc_size st' = sc_size st) by (unfold sc_size; now rewrite F1).
  assert (KD : forall i, kept_booking p st i \/ ~ kept_booking p st i).
  { intros i. unfold kept_booking. destruct (bp_reset p); [right; intros [X _]; discriminate|].
    destruct (nth_error (sc_blocks st) i) as [b|]; [|right; intros (_ & b & X & _); discriminate].
    destruct (bk_start b) eqn:E.
    - left. split; [reflexivity|]. exists b. split; [reflexivity|congruence].
    - right. intros (_ & c & X & Y). injection X; intros <-. contradiction. }
  assert (BF : forall i b k, nth_error (sc_blocks st') i = Some b -> ~ kept_booking p st i ->
            covers b k -> base_free p st k).
  { intros i b k H K (s & E & R). destruct (F5 i b H) as (b0 & _ & _ & _ & _ & Q).
    destruct (Q K) as [X|(s1 & X & _ & _ & Y & _)]; [congruence|].
    rewrite E in X; injection X; intros <-. now apply Y. }
  assert (KF : forall i b k, nth_error (sc_blocks st') i = Some b -> kept_booking p st i ->
            covers b k -> ~ base_free p st k).
  { intros i b k H K C X. destruct (F5 i b H) as (b0 & H0 & _ & _ & Q & _).
    rewrite (Q K) in C. destruct K as (K & _). destruct X as [X|[X _]]; [|congruence].
    destruct C as (s & E & R). destruct (BK i b0 H0 s E) as (_ & _ & Z).
    apply (Z k); [exists s; now split|assumption]. }
  constructor.
  - exact F4.
  - intros i b H. destruct (F5 i b H) as (b0 & H0 & SB & N & _).
    rewrite N, F3. destruct SB as (_ & -> & _). now apply NS in H0.
  - intros i b H s E. destruct (F5 i b H) as (b0 & H0 & SB & N & Q1 & Q2).
    assert (L : length (sc_free st') = sc_size st) by (destruct F4 as (_ & X & _); congruence).
    destruct (KD i) as [K|K].
    + pose proof (Q1 K); subst b0. destruct (BK i b H0 s E) as (X1 & X2 & X3).
      split; [assumption|]. split; [rewrite L; destruct S as (_ & Y & _); lia|].
      intros k C Y. apply F6 in Y. destruct Y as [Y _]. now apply (KF i b k).
    + destruct (Q2 K) as [X|(s1 & X & X1 & X2 & X3 & _)]; [congruence|].
      rewrite E in X; injection X; intros <-. split; [assumption|]. split; [lia|].
      intros k C Y. apply F6 in Y. destruct Y as [_ Y]. now apply (Y i b).
  - intros i j b c k Hij Hi Hj Ci Cj.
    destruct (KD i) as [Ki|Ki], (KD j) as [Kj|Kj].
    + destruct (F5 i b Hi) as (b0 & Hi0 & _ & _ & Qi & _).
      destruct (F5 j c Hj) as (c0 & Hj0 & _ & _ & Qj & _).
      rewrite (Qi Ki) in Ci. rewrite (Qj Kj) in Cj.
      now apply (DJ i j b0 c0 k).
    + apply (KF i b k Hi Ki Ci). now apply (BF j c k).
    + apply (KF j c k Hj Kj Cj). now apply (BF i b k).
    + now apply (F7 i j b c k).
Qed.

Lemma insert_res_facts : forall st a b, sizes_ok st ->
  let st' := fst (insert_res st a b) in
  sc_blocks st' = sc_blocks st /\ sc_starts st' = sc_starts st /\ sc_stops st' = sc_stops st /\
  sc_dt st' = sc_dt st /\ sc_proc st' = sc_proc st /\ sizes_ok st' /\
  forall k, k < sc_size st ->
    (slot_free (sc_free st') k <->
     slot_free (sc_free st) k /\
     ~ ((a <= b)%Z /\ (a < nth k (sc_stops st) 0 /\ nth k (sc_starts st) 0 < b)%Z)).
Proof.
  intros st a b (S1 & S2 & S3 & S4). unfold insert_res.
  set (s := mkSlots (sc_starts st) (sc_stops st) (sc_free st)).
  destruct (Z_lt_le_dec b a) as [L|L].
  - rewrite add_booking_err by assumption. simpl. repeat split; try assumption; try reflexivity.
    + intros [X _]; lia.
    + intros [X _]; exact X.
  - unfold add_booking. destruct (time2idx2_ok s a b L) as (l & E & _ & I). rewrite E. simpl.
    unfold sizes_ok, sc_size in *; simpl. rewrite set_indices_length, repeat_length.
    repeat split; try assumption; try reflexivity.
    + unfold slot_free in *. rewrite nth_set_indices in H0 by lia.
      destruct (existsb (Nat.eqb k) l); [discriminate|assumption].
    + intros [_ M]. unfold slot_free in H0. rewrite nth_set_indices in H0 by lia.
      destruct (existsb (Nat.eqb k) l) eqn:X; [discriminate|].
      assert (In k l) by (apply I; split; [exact H|exact M]).
      apply existsb_eqb_In in H1. congruence.
    + intros [X Y]. unfold slot_free. rewrite nth_set_indices by lia.
      destruct (existsb (Nat.eqb k) l) eqn:Q; [|exact X].
      apply existsb_eqb_In, I in Q. exfalso; apply Y. split; [assumption|apply Q].
Qed.

Lemma insert_res_inv : forall st a b, sched_inv st -> sched_inv (fst (insert_res st a b)).
Proof.
  intros st a b [S NS BK DJ].
  destruct (insert_res_facts st a b S) as (F1 & F2 & F3 & F4 & F5 & F6 & F7).
  set (st' := fst (insert_res st a b)) in *.
  assert (SZ : sc_size st' = sc_size st) by (unfold sc_size; now rewrite F2).
  constructor.
  - assumption.
  - intros i c H. rewrite F1 in H. rewrite F4. now apply NS in H.
  - intros i c H s E. rewrite F1 in H. destruct (BK i c H s E) as (X1 & X2 & X3).
    assert (L : length (sc_free st') = length (sc_free st)).
    { destruct F6 as (_ & Y & _). destruct S as (_ & Z & _). congruence. }
    split; [assumption|]. split; [lia|]. intros k C Y.
    assert (K : k < sc_size st). { apply slot_free_lt in Y. destruct S as (_ & Z & _). lia. }
    apply F7 in Y; [|assumption]. now apply (X3 k).
  - rewrite F1. assumption.
Qed.

Lemma insert_fold : forall dt l bs,
  let f := fun bs (x : Z * option Z * list Q) =>
      let '(dur, delay, score) := x in bs ++ [new_blk dt (length bs) dur delay score] in
  exists new, fold_left f l bs = bs ++ new /\ length new = length l /\
    forall j b, nth_error new j = Some b ->
      exists dur delay score, nth_error l j = Some (dur, delay, score) /\
        b = new_blk dt (length bs + j) dur delay score.
Proof.
  intros dt l. induction l as [|[[dur delay] score] t IH]; intros bs f.
  - exists []. simpl. rewrite app_nil_r. repeat split. intros [|j] b H; discriminate.
  - simpl. destruct (IH (bs ++ [new_blk dt (length bs) dur delay score])) as (new & E & L & F).
    exists (new_blk dt (length bs) dur delay score :: new). split.
    + etransitivity; [exact E|]. rewrite <- app_assoc. reflexivity.
    + split; [simpl; lia|]. intros [|j] b H.
      * injection H; intros <-. exists dur, delay, score. rewrite Nat.add_0_r. now split.
      * simpl in H. destruct (F j b H) as (d1 & d2 & d3 & X & Y). exists d1, d2, d3.
        split; [assumption|]. rewrite Y. f_equal. rewrite app_length; simpl; lia.
Qed.

Lemma insert_obs_facts : forall st l,
  exists new, sc_blocks (insert_obs st l) = sc_blocks st ++ new /\ length new = length l /\
    (forall j b, nth_error new j = Some b ->
      exists dur delay score, nth_error l j = Some (dur, delay, score) /\
        b = new_blk (sc_dt st) (length (sc_blocks st) + j) dur delay score) /\
    sc_todo (insert_obs st l) = repeat true (length (sc_blocks st ++ new)).
Proof.
  intros st l. unfold insert_obs; simpl.
  destruct (insert_fold (sc_dt st) l (sc_blocks st)) as (new & E & L & F).
  exists new. rewrite E. repeat split; assumption.
Qed.

Lemma insert_obs_inv : forall st l, sched_inv st -> sched_inv (insert_obs st l).
Proof.
  intros st l [S NS BK DJ]. destruct (insert_obs_facts st l) as (new & E & L & F & T).
  assert (UN : forall i b, nth_error (sc_blocks st ++ new) i = Some b ->
     nth_error (sc_blocks st) i = Some b \/
     (bk_start b = None /\ bk_nslots b = Z.to_nat (cdiv (bk_dur b) (sc_dt st)))).
  { intros i b H. destruct (lt_dec i (length (sc_blocks st))).
    - left. now rewrite nth_error_app1 in H.
    - right. rewrite nth_error_app2 in H by lia. apply F in H.
      destruct H as (d1 & d2 & d3 & _ & ->). now split. }
  constructor.
  - destruct S as (S1 & S2 & S3 & S4). unfold sizes_ok. rewrite E, T, repeat_length.
    repeat split; assumption.
  - intros i b H. rewrite E in H. destruct (UN i b H) as [X|[_ X]]; [|exact X].
    now apply NS in X.
  - intros i b H s Q. rewrite E in H. destruct (UN i b H) as [X|[X _]]; [|congruence].
    exact (BK i b X s Q).
  - rewrite E. intros i j b c k Hij Hi Hj Ci Cj.
    destruct (UN i b Hi) as [X|[X _]]; [|now apply not_booked_covers in Ci].
    destruct (UN j c Hj) as [Y|[Y _]]; [|now apply not_booked_covers in Cj].
    now apply (DJ i j b c k).
Qed.

Definition op_nonneg (o : sop) : Prop :=
  match o with
  | SInsert l => forall x, In x l -> forall q, In q (snd x) -> (0 <= q)%Q
  | _ => True
  end.

Lemma step_nonneg : forall st o, sched_inv st -> nonneg_scores (sc_blocks st) -> op_nonneg o ->
  nonneg_scores (sc_blocks (sstep st o)).
Proof.
  intros st [l|a b|p o] I NN OP; cbn [sstep].
  - destruct (insert_obs_facts st l) as (new & E & L & F & T). rewrite E.
    intros b IN q Q. apply in_app_or in IN. destruct IN as [IN|IN]; [now apply (NN b)|].
    apply In_nth_error in IN. destruct IN as (j & IN). apply F in IN.
    destruct IN as (d1 & d2 & d3 & X & ->). apply (OP (d1, d2, d3)); [now apply nth_error_In in X|exact Q].
  - destruct I as [S _ _ _]. destruct (insert_res_facts st a b S) as (F1 & _). rewrite F1. exact NN.
  - destruct I as [S NS BK DJ]. destruct (book_facts p o st S NS BK NN) as (_ & _ & _ & _ & F5 & _).
    intros b IN q Q. apply In_nth_error in IN. destruct IN as (i & IN).
    destruct (F5 i b IN) as (b0 & H0 & SB & _). destruct SB as (_ & _ & _ & X). rewrite X in Q.
    apply (NN b0); [now apply nth_error_In in H0|exact Q].
Qed.

Lemma srun_inv : forall ops st, sched_inv st -> nonneg_scores (sc_blocks st) ->
  Forall op_nonneg ops ->
  sched_inv (srun st ops) /\ nonneg_scores (sc_blocks (srun st ops)).
Proof.
  induction ops as [|o t IH]; intros st I NN F; [now split|].
  inversion F; subst. unfold srun; simpl. apply IH; [|now apply step_nonneg|assumption].
  destruct o as [l|a b|p o]; cbn [sstep].
  - now apply insert_obs_inv.
  - now apply insert_res_inv.
  - now apply book_inv.
Qed.

Lemma new_sched_inv : forall tmin tmax dt hour day night st,
  new_sched tmin tmax dt hour day night = Ok st ->
  sched_inv st /\ nonneg_scores (sc_blocks st).
Proof.
  intros tmin tmax dt hour day night st E. unfold new_sched in E.
  destruct (new_slots tmin tmax dt) as [s|e] eqn:N; [|discriminate].
  simpl in E. injection E; intros <-.
  unfold new_slots, slots_time_range in N.
  destruct (tmax <=? tmin)%Z; [discriminate|]. destruct (dt =? 0)%Z; [discriminate|].
  simpl in N. injection N; intros <-. simpl.
  split; [|intros b []].
  constructor.
  - unfold sizes_ok, sc_size; simpl. rewrite ?map_length, ?repeat_length, ?map_length, ?seq_length. repeat split; rewrite ?map_length, ?seq_length; reflexivity.
  - intros [|i] b H; discriminate.
  - intros [|i] b H; discriminate.
  - intros [|i] j b c k _ H; discriminate.
Qed.
