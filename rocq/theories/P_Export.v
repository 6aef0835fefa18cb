(** Specification and proofs: times of the booked blocks along sessions, and
    the exported table. *)
From Coq Require Import List Arith ZArith QArith Bool Lia Lqa Sorting.Sorted Sorting.Permutation.
From Verif Require Import Base M_Slots M_Sched M_Genetic M_Extend M_Shift M_Export P_Slots P_Booking P_Book
  P_Book2 P_Book3 P_Genetic P_Genetic2 P_Genetic3 P_Extend P_Shift P_Cnst P_Cnst2 P_Session.
Import ListNotations.
Open Scope nat_scope.

(** ** Specification *)

(** A regular grid of slots. *)
Definition on_grid (st : sched) : Prop :=
  exists t0, forall k, k < sc_size st ->
    (0 < sc_dt st)%Z /\ nth k (sc_starts st) 0%Z = (t0 + Z.of_nat k * sc_dt st)%Z /\
    nth k (sc_stops st) 0%Z = (t0 + Z.of_nat (S k) * sc_dt st)%Z.

(** The times of the booked blocks are those of their slots. *)
Definition timed (st : sched) : Prop :=
  forall i b s, nth_error (sc_blocks st) i = Some b -> bk_start b = Some s ->
    bk_time b = Some (times_at st s (bk_nslots b)).

(** ** Sessions *)

Lemma new_sched_grid : forall tmin tmax dt hour day night st,
  new_sched tmin tmax dt hour day night = Ok st -> on_grid st /\ timed st.
Proof.
  intros tmin tmax dt hour day night st H. unfold new_sched, new_slots, slots_time_range in H.
  destruct (Z.leb_spec tmax tmin) as [T|T]; [discriminate|]. destruct (Z.eqb_spec dt 0) as [E|E]; [discriminate|].
  cbn [bind fst snd sl_starts sl_stops] in H. injection H; intros <-. clear H. split.
  - exists tmin. intros k K. unfold sc_size in K. cbn [sc_starts sc_stops sc_dt] in *.
    rewrite map_length, seq_length in K.
    assert (P : (0 < dt)%Z).
    { destruct (Z_lt_le_dec 0 dt) as [P|P]; [assumption|exfalso].
      assert (N : ((tmax - tmin) / dt < 0)%Z).
      { pose proof (Z.div_mod (tmax - tmin) dt E). pose proof (Z.mod_neg_bound (tmax - tmin) dt ltac:(lia)). nia. }
      lia. }
    split; [assumption|]. rewrite map_map.
    rewrite (nth_map_in _ _ _ _ 0) by (rewrite seq_length; assumption).
    rewrite (nth_map_in _ _ _ _ 0) by (rewrite seq_length; assumption).
    rewrite seq_nth by assumption. split; lia.
  - intros i b s B. destruct i; discriminate.
Qed.

Lemma kept_dec : forall p st i, kept_booking p st i \/ ~ kept_booking p st i.
Proof.
  intros p st i. unfold kept_booking. destruct (bp_reset p); [right; intros [X _]; discriminate|].
  destruct (nth_error (sc_blocks st) i) as [b|]; [|right; intros (_ & b & X & _); discriminate].
  destruct (bk_start b) eqn:S.
  - left. split; [reflexivity|]. exists b. split; [reflexivity|congruence].
  - right. intros (_ & c & X & Y). congruence.
Qed.

Lemma grid_of : forall st st', sc_dt st' = sc_dt st -> sc_starts st' = sc_starts st -> sc_stops st' = sc_stops st ->
  on_grid st -> on_grid st'.
Proof. intros st st' A B C (t & G). exists t. unfold sc_size. rewrite A, B, C. exact G. Qed.

Lemma times_of : forall st st' s n, sc_starts st' = sc_starts st -> sc_stops st' = sc_stops st ->
  times_at st' s n = times_at st s n.
Proof. intros. unfold times_at. now rewrite H, H0. Qed.

Lemma reach3_timed : forall st, reach3 st -> on_grid st /\ timed st.
Proof.
  intros st R. induction R as [tmin tmax dt hour day night st E|st o R IH O|st st' p g so m sc R IH S E
    |st st' done done' thr md me ev R IH E|st st' i shift minimal e R IH E NE].
  - now apply new_sched_grid in E.
  - destruct IH as [G T]. destruct (reach3_inv st R) as [I NN D RO]. destruct o as [l|a b|p o]; cbn [sstep].
    + split; [exact G|]. intros i b s H S. apply insert_fold_nth in H. destruct H as [H|(_ & _ & H)]; [|congruence].
      exact (T i b s H S).
    + destruct (insert_res_facts st a b (si_sizes _ I)) as (F1 & F2 & F3 & F4 & _). split; [now apply (grid_of st)|].
      intros i c s H S. rewrite F1 in H. rewrite (times_of st) by assumption. now apply (T i).
    + destruct (book_facts p o st (si_sizes _ I) (si_nslots _ I) (si_booked _ I) NN) as (F1 & F2 & F3 & _ & BL & _).
      split; [now apply (grid_of st)|]. intros i b' s B' S. rewrite (times_of st) by assumption.
      destruct (BL i b' B') as (b0 & B0 & SB & NSL & K1 & K2).
      destruct (kept_dec p st i) as [K|K].
      * rewrite (K1 K) in *. now apply (T i).
      * destruct (K2 K) as [X|(s' & X & _ & _ & _ & _ & TM)]; [congruence|]. rewrite S in X. injection X; intros <-. exact TM.
  - destruct IH as [G T]. destruct (reach3_inv st R) as [I NN D RO].
    destruct (ga_book_facts _ _ _ _ _ _ _ I NN S E) as (_ & _ & F1 & F2 & F3 & _ & BL & _).
    split; [now apply (grid_of st)|]. intros i b' s B' S'. rewrite (times_of st) by assumption.
    destruct (BL i b' B') as (b0 & B0 & _ & _ & K). destruct (K s S') as [[_ EQ]|[_ TM]]; [|exact TM].
    subst b'. now apply (T i).
  - destruct IH as [G T]. destruct (reach3_inv st R) as [I NN D RO].
    destruct (extend_spec _ _ _ _ _ _ _ _ D I E) as (_ & F & BL & _). destruct F as (F1&F2&F3&F4&F5&F6&F7&F8&F9&F10).
    split; [now apply (grid_of st)|]. intros i b' s B' S. rewrite (times_of st) by assumption.
    assert (L : i < length (sc_blocks st)) by (rewrite <- F10; apply nth_error_Some; congruence).
    destruct (nth_error (sc_blocks st) i) as [b0|] eqn:B0; [|apply nth_error_None in B0; lia].
    destruct (BL i b0 B0) as (b2 & B2 & X). rewrite B' in B2. injection B2; intros <-.
    destruct X as (_ & _ & _ & _ & _ & _ & [EQ|(s' & S' & TM & _)] & _).
    + subst b'. now apply (T i).
    + rewrite S in S'. injection S'; intros <-. exact TM.
  - destruct IH as [G T]. pose proof (reach3_inv st R) as SI. destruct SI as [I NN D RO].
    destruct (shift_inv _ _ _ _ _ _ I E) as (A & (C1&C2&C3&C4&C5&C6&C7&C8&C9&C10) & [->|(b & s & B & S & BM)]).
    { intros b s B S. eapply shift_no_value_error; try eassumption. now constructor. }
    + now split.
    + split; [now apply (grid_of st)|]. intros j b' s' B' S'. rewrite (times_of st) by assumption.
      unfold block_moved in BM. rewrite BM, nth_error_upd in B'. destruct (Nat.eqb_spec j i) as [EJ|N]; [|now apply (T j)].
      rewrite EJ, B in B'. injection B'; intros <-. cbn in *. injection S'; intros <-. reflexivity.
Qed.

(** The times of a booked block. *)
Lemma booked_times : forall st, reach3 st -> exists t0, forall i b s, nth_error (sc_blocks st) i = Some b -> bk_start b = Some s ->
  (0 < sc_dt st)%Z /\ s + bk_nslots b <= sc_size st /\ 0 < bk_nslots b /\
  bk_time b = Some (t0 + Z.of_nat s * sc_dt st, t0 + Z.of_nat (s + bk_nslots b) * sc_dt st)%Z.
Proof.
  intros st R. destruct (reach3_timed st R) as [(t0 & G) T]. exists t0. intros i b s B S.
  destruct (reach3_inv st R) as [I _ _ _]. destruct (si_booked _ I i b B s S) as (P & Q & _).
  pose proof (si_sizes _ I) as (Z1 & Z2 & _). rewrite (T i b s B S). unfold times_at.
  assert (SZ : s + bk_nslots b <= sc_size st) by lia.
  destruct (G s ltac:(lia)) as (D & A & _). destruct (G (s + bk_nslots b - 1) ltac:(lia)) as (_ & _ & C).
  split; [assumption|]. split; [assumption|]. split; [assumption|]. rewrite A, C. repeat f_equal. lia.
Qed.

(** They last at least the requested time, less than one slot more. *)
Lemma booked_duration : forall st i b a z, reach3 st -> nth_error (sc_blocks st) i = Some b -> bk_start b <> None ->
  bk_time b = Some (a, z) -> (bk_dur b <= z - a < bk_dur b + sc_dt st)%Z.
Proof.
  intros st i b a z R B S T. destruct (bk_start b) as [s|] eqn:E; [|congruence].
  destruct (booked_times st R) as (t0 & H). destruct (H i b s B E) as (D & _ & P & TM). rewrite TM in T. injection T; intros <- <-.
  destruct (reach3_inv st R) as [I _ _ _]. pose proof (si_nslots _ I i b B) as N.
  pose proof (cdiv_spec (bk_dur b) (sc_dt st) D) as C. rewrite N in *. 
  assert (Z.of_nat (Z.to_nat (cdiv (bk_dur b) (sc_dt st))) = cdiv (bk_dur b) (sc_dt st)) by lia. nia.
Qed.

(** Two booked blocks never run at the same time. *)
Lemma booked_disjoint : forall st i j b c a z a' z', reach3 st -> i <> j ->
  nth_error (sc_blocks st) i = Some b -> nth_error (sc_blocks st) j = Some c ->
  bk_start b <> None -> bk_start c <> None -> bk_time b = Some (a, z) -> bk_time c = Some (a', z') ->
  (z <= a' \/ z' <= a)%Z.
Proof.
  intros st i j b c a z a' z' R N B C SB SC TB TC.
  destruct (bk_start b) as [s|] eqn:E; [|congruence]. destruct (bk_start c) as [s'|] eqn:E'; [|congruence].
  destruct (booked_times st R) as (t0 & H).
  destruct (H i b s B E) as (D & _ & P & TM). destruct (H j c s' C E') as (_ & _ & P' & TM').
  rewrite TM in TB. rewrite TM' in TC. injection TB; intros <- <-. injection TC; intros <- <-.
  destruct (session_consistent st R) as (NO & _).
  assert (X : s + bk_nslots b <= s' \/ s' + bk_nslots c <= s).
  { destruct (le_lt_dec (s + bk_nslots b) s') as [|G]; [now left|]. destruct (le_lt_dec (s' + bk_nslots c) s) as [|G']; [now right|exfalso].
    apply (NO i j b c (Nat.max s s') N B C); [exists s|exists s']; (split; [assumption|lia]). }
  destruct X; [left|right]; nia.
Qed.

(** ** Export *)

(** The line of a block. *)
Definition line_for (score : blk -> res Q) (smin : Q) (b : blk) (x : line) : Prop :=
  bk_start b <> None /\ score b = Ok (ln_score x) /\ (smin <= ln_score x)%Q /\
  ln_id x = bk_idx b /\ bk_time b = Some (ln_start x, ln_stop x).

Lemma insert_perm : forall x l, Permutation (insert_line x l) (x :: l).
Proof.
  intros x. induction l as [|y t IH]; [reflexivity|]. cbn. destruct (ln_start x <=? ln_start y)%Z; [reflexivity|].
  rewrite IH. apply perm_swap.
Qed.

Lemma sort_perm : forall l, Permutation (sort_lines l) l.
Proof. induction l as [|x t IH]; [reflexivity|]. cbn. rewrite insert_perm. now constructor. Qed.

Definition earlier (x y : line) : Prop := (ln_start x <= ln_start y)%Z.

Lemma insert_sorted : forall x l, StronglySorted earlier l -> StronglySorted earlier (insert_line x l).
Proof.
  intros x. induction l as [|y t IH]; intros S; cbn; [repeat constructor|].
  inversion S; subst. destruct (Z.leb_spec (ln_start x) (ln_start y)) as [L|L].
  - constructor; [assumption|]. constructor; [exact L|]. eapply Forall_impl; [|exact H2]. unfold earlier. intros; lia.
  - constructor; [now apply IH|]. apply Forall_forall. intros z I. apply (Permutation_in _ (insert_perm x t)) in I.
    destruct I as [<-|I]; [unfold earlier; lia|]. rewrite Forall_forall in H2. now apply H2.
Qed.

Lemma sort_sorted : forall l, StronglySorted earlier (sort_lines l).
Proof. induction l as [|x t IH]; [constructor|]. cbn. now apply insert_sorted. Qed.

Lemma export_lines_spec : forall score smin bs l, export_lines score smin bs = Ok l ->
  (forall b, In b bs -> bk_start b <> None -> exists q, score b = Ok q) /\
  (forall b, In b bs -> bk_start b <> None -> forall q, score b = Ok q -> (smin <= q)%Q -> exists x, In x l /\ line_for score smin b x) /\
  (forall x, In x l -> exists b, In b bs /\ line_for score smin b x) /\
  (NoDup (map bk_idx bs) -> NoDup (map ln_id l)) /\
  (forall n, In n (map ln_id l) -> In n (map bk_idx bs)).
Proof.
  intros score smin. induction bs as [|b t IH]; intros l H; cbn [export_lines] in H.
  - injection H; intros <-. repeat split; try (intros; contradiction). intros _. constructor.
  - unfold is_booked in H. destruct (bk_start b) as [s|] eqn:S; cbn [negb] in H.
    2: { destruct (IH l H) as (A & B & C & D & E). split; [intros c [<-|I]; [congruence|now apply A]|].
         split; [intros c [<-|I]; [congruence|now apply B]|].
         split; [intros x I; destruct (C x I) as (c & I' & L); exists c; split; [now right|assumption]|].
         split; [intros N; inversion N; subst; now apply D|]. intros n I. right. now apply E. }
    destruct (score b) as [q|e] eqn:Q; [|discriminate]. cbn [bind] in H.
    destruct (Qltb q smin) eqn:LT.
    + apply (proj1 (qltb_iff _ _)) in LT. destruct (IH l H) as (A & B & C & D & E).
      split; [intros c [<-|I] Z; [now exists q|now apply A]|].
      split; [intros c [<-|I] Z q' Q'; [rewrite Q in Q'; injection Q'; intros <-; lra|now apply B]|].
      split; [intros x I; destruct (C x I) as (c & I' & L); exists c; split; [now right|assumption]|].
      split; [intros N; inversion N; subst; now apply D|]. intros n I. right. now apply E.
    + apply (proj1 (qltb_false _ _)) in LT. destruct (bk_time b) as [[u v]|] eqn:T; [|discriminate].
      destruct (export_lines score smin t) as [l'|e] eqn:EL; [|discriminate]. cbn [bind] in H. injection H; intros <-.
      destruct (IH l' eq_refl) as (A & B & C & D & E).
      assert (LN : line_for score smin b (mkLine (bk_idx b) u v q)).
      { unfold line_for. cbn. rewrite S. repeat split; try assumption. congruence. }
      split; [intros c [<-|I] Z; [now exists q|now apply A]|].
      split. { intros c [<-|I] Z q' Q' L'; [eexists; split; [now left|exact LN]|].
        destruct (B c I Z q' Q' L') as (x & I' & L). exists x. split; [now right|assumption]. }
      split. { intros x [<-|I]; [exists b; split; [now left|exact LN]|].
        destruct (C x I) as (c & I' & L). exists c. split; [now right|assumption]. }
      split. { intros N. inversion N; subst. cbn. constructor; [|now apply D]. intros I. now apply E in I. }
      intros n [<-|I]; [now left|]. right. now apply E.
Qed.

Lemma export_error : forall score smin st e, reach3 st -> export score (Some smin) st = Err e ->
  (~ (0 <= smin <= 1)%Q /\ e = EValueError) \/
  ((0 <= smin <= 1)%Q /\ exists b, In b (sc_blocks st) /\ bk_start b <> None /\ score b = Err e).
Proof.
  intros score smin st e R H. unfold export in H.
  destruct (Qltb smin 0) eqn:L0; [apply (proj1 (qltb_iff _ _)) in L0; left; split; [lra|congruence]|].
  destruct (Qltb 1 smin) eqn:L1; [apply (proj1 (qltb_iff _ _)) in L1; left; split; [lra|congruence]|].
  apply (proj1 (qltb_false _ _)) in L0. apply (proj1 (qltb_false _ _)) in L1. right. split; [lra|].
  destruct (export_lines score smin (sc_blocks st)) as [l|e'] eqn:E; [discriminate|]. cbn in H. injection H; intros <-.
  assert (T : forall b, In b (sc_blocks st) -> bk_start b <> None -> bk_time b <> None).
  { intros b I S. apply In_nth_error in I. destruct I as (i & I). destruct (bk_start b) as [s|] eqn:X; [|congruence].
    destruct (reach3_timed st R) as [_ T]. rewrite (T i b s I X). discriminate. }
  clear - E T. induction (sc_blocks st) as [|b t IH]; [discriminate|]. cbn [export_lines] in E.
  unfold is_booked in E. destruct (bk_start b) as [s|] eqn:S; cbn [negb] in E.
  - destruct (score b) as [q|e2] eqn:Q.
    + cbn [bind] in E. assert (E2 : export_lines score smin t = Err e').
      { destruct (Qltb q smin); [assumption|]. destruct (bk_time b) as [[u v]|] eqn:TB; [|exfalso; apply (T b (or_introl eq_refl)); congruence].
        destruct (export_lines score smin t); [discriminate|]. cbn in E. congruence. }
      destruct (IH E2) as (c & I & P). { intros c I. apply T. now right. } exists c. split; [now right|assumption].
    + cbn in E. exists b. split; [now left|]. split; congruence.
  - destruct (IH E) as (c & I & P). { intros c I. apply T. now right. } exists c. split; [now right|assumption].
Qed.

Lemma export_defined : forall score smin st, reach3 st -> (0 <= smin <= 1)%Q ->
  (forall b, In b (sc_blocks st) -> bk_start b <> None -> exists q, score b = Ok q) ->
  exists l, export score (Some smin) st = Ok l.
Proof.
  intros score smin st R S H. destruct (export score (Some smin) st) as [l|e] eqn:E; [now exists l|exfalso].
  destruct (export_error score smin st e R E) as [[X _]|(_ & b & I & B & X)]; [contradiction|].
  destruct (H b I B) as (q & Q). congruence.
Qed.

Lemma export_ok : forall score smin st l, reach3 st -> export score (Some smin) st = Ok l ->
  (0 <= smin <= 1)%Q /\
  StronglySorted (fun x y => (ln_start x < ln_stop x <= ln_start y)%Z) l /\
  NoDup (map ln_id l) /\
  (forall n, In n (map ln_id l) <-> exists b q, nth_error (sc_blocks st) n = Some b /\ bk_start b <> None /\ score b = Ok q /\ (smin <= q)%Q) /\
  (forall x, In x l -> exists b, nth_error (sc_blocks st) (ln_id x) = Some b /\ line_for score smin b x).
Proof.
  intros score smin st l R H. unfold export in H.
  destruct (Qltb smin 0) eqn:L0; [discriminate|]. destruct (Qltb 1 smin) eqn:L1; [discriminate|].
  apply (proj1 (qltb_false _ _)) in L0. apply (proj1 (qltb_false _ _)) in L1. split; [lra|].
  destruct (export_lines score smin (sc_blocks st)) as [l'|e'] eqn:E; [|discriminate]. cbn in H. injection H; intros <-.
  destruct (export_lines_spec _ _ _ _ E) as (A & B & C & D & F).
  destruct (session_consistent st R) as (_ & _ & _ & IX).
  assert (ND : NoDup (map ln_id (sort_lines l'))).
  { eapply Permutation_NoDup; [apply Permutation_map; apply Permutation_sym; apply sort_perm|]. apply D.
    apply (proj2 (NoDup_nth_error _)). intros i j L EQ. rewrite map_length in L.
    destruct (nth_error (sc_blocks st) i) as [b|] eqn:BI; [|apply nth_error_None in BI; lia].
    rewrite (map_nth_error _ i _ BI) in EQ. symmetry in EQ.
    destruct (nth_error (sc_blocks st) j) as [c|] eqn:BJ.
    - rewrite (map_nth_error _ j _ BJ) in EQ. injection EQ; intros EQ'. rewrite (IX i b BI), (IX j c BJ) in EQ'. congruence.
    - assert (nth_error (map bk_idx (sc_blocks st)) j = None) by (apply nth_error_None; rewrite map_length; now apply nth_error_None in BJ). congruence. }
  assert (LF : forall x, In x (sort_lines l') -> exists b, nth_error (sc_blocks st) (ln_id x) = Some b /\ line_for score smin b x).
  { intros x I. apply (Permutation_in _ (sort_perm l')) in I. destruct (C x I) as (b & IB & L). exists b. split; [|assumption].
    apply In_nth_error in IB. destruct IB as (i & IB). destruct L as (_ & _ & _ & L & _). rewrite L, (IX i b IB). exact IB. }
  split.
  - assert (PW : forall x y, In x (sort_lines l') -> In y (sort_lines l') -> ln_id x <> ln_id y -> earlier x y ->
        (ln_start x < ln_stop x <= ln_start y)%Z).
    { intros x y IX' IY N EA. destruct (LF x IX') as (b & BX & LX). destruct (LF y IY) as (c & CY & LY).
      destruct LX as (X1 & _ & _ & _ & X2), LY as (Y1 & _ & _ & _ & Y2).
      pose proof (booked_disjoint st _ _ b c _ _ _ _ R N BX CY X1 Y1 X2 Y2) as DJ.
      assert (PX : forall i d u v, nth_error (sc_blocks st) i = Some d -> bk_start d <> None -> bk_time d = Some (u, v) -> (u < v)%Z).
      { intros i d u v I S T. destruct (bk_start d) as [s|] eqn:SD; [|congruence].
        destruct (booked_times st R) as (t0 & BT). destruct (BT i d s I SD) as (P1 & _ & P2 & P3). rewrite P3 in T. injection T; intros <- <-. nia. }
      pose proof (PX _ _ _ _ BX X1 X2). pose proof (PX _ _ _ _ CY Y1 Y2). unfold earlier in EA. lia. }
    pose proof (sort_sorted l') as SS. clear - SS PW ND. induction SS as [|x t SS IH FA]; [constructor|].
    cbn in ND. inversion ND; subst. constructor.
    + apply IH; [assumption|]. intros y z I J. apply PW; now right.
    + rewrite Forall_forall in *. intros y I. apply PW; [now left|now right| |now apply FA].
      intros EQ. apply H1. rewrite EQ. now apply in_map.
  - split; [assumption|]. split; [|assumption]. intros n. split.
    + intros I. apply in_map_iff in I. destruct I as (x & <- & I). destruct (LF x I) as (b & BX & L1' & L2' & L3' & _).
      now exists b, (ln_score x).
    + intros (b & q & BN & S & Q & LE). destruct (B b (nth_error_In _ _ BN) S q Q LE) as (x & I & L).
      apply in_map_iff. exists x. split; [destruct L as (_ & _ & _ & -> & _); now apply IX|].
      apply (Permutation_in _ (Permutation_sym (sort_perm l'))). exact I.
Qed.

Lemma export_arguments : forall score st q,
  export score None st = Err ETypeError /\ (~ (0 <= q <= 1)%Q -> export score (Some q) st = Err EValueError).
Proof.
  intros. split; [reflexivity|]. intros N. unfold export.
  destruct (Qltb q 0) eqn:L0; [reflexivity|]. destruct (Qltb 1 q) eqn:L1; [reflexivity|].
  apply (proj1 (qltb_false _ _)) in L0. apply (proj1 (qltb_false _ _)) in L1. lra.
Qed.
