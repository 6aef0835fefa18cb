(** Specification and proofs for the extension of scheduled observations. *)
From Coq Require Import List Arith ZArith QArith Bool Lia Lqa Sorted.
From Verif Require Import Base M_Slots M_Sched M_Extend P_Slots P_Booking P_Book P_Genetic P_Genetic2.
Import ListNotations.
Open Scope nat_scope.

(** ** Specification *)

(** Slot [k] belongs to the window of [w] slots centred like a block of [n]
    slots starting at [s]. *)
Definition in_window (size s n w k : nat) : Prop :=
  k < size /\
  (Z.of_nat s + Z.of_nat n / 2 - Z.of_nat w / 2 <= Z.of_nat k
   < Z.of_nat s + Z.of_nat n / 2 - Z.of_nat w / 2 + Z.of_nat w)%Z.

(** The score of a window: the mean, zero if one of the values is zero. *)
Definition mean_or_zero (l : list Q) (q : Q) : Prop :=
  (exists x, In x l /\ (x == 0)%Q) /\ (q == 0)%Q \/
  (forall x, In x l -> ~ (x == 0)%Q) /\ l <> [] /\
  (q * inject_Z (Z.of_nat (length l)) == qsum l)%Q.

(** The window is better than the first one by the relative threshold. *)
Definition improves (thr : Q) (first win : list Q) : Prop :=
  exists f v, mean_or_zero first f /\ mean_or_zero win v /\ (f * thr < v)%Q.

(** The limit of the extension of block [i], in slots. *)
Definition ext_limit (max_duration : option Z) (max_ext : nat -> option Z) (dt : Z) (i : nat)
    : option nat :=
  match (match max_duration with None => max_ext i | Some d => Some d end) with
  | None => None
  | Some d => Some (Z.to_nat (cdiv d dt))
  end.

(** A window the extension may try for block [i]. *)
Definition tried (thr : Q) (max_duration : option Z) (max_ext : nat -> option Z)
    (ev : nat -> list nat -> list Q) (st : sched) (i : nat) (w : nat) : Prop :=
  exists b s N, nth_error (sc_blocks st) i = Some b /\ bk_start b = Some s /\
    ext_limit max_duration max_ext (sc_dt st) i = Some N /\
    bk_nslots b < w <= N /\
    improves thr (ev i (ext_window (sc_size st) s (bk_nslots b) (bk_nslots b + 1)))
                 (ev i (ext_window (sc_size st) s (bk_nslots b) w)).

(** ** Windows *)

Lemma sorted_ext : forall l l', StronglySorted lt l -> StronglySorted lt l' ->
  (forall k, In k l <-> In k l') -> l = l'.
Proof.
  induction l as [|x t IH]; intros [|y t'] S S' H.
  - reflexivity.
  - exfalso. apply (proj2 (H y)). now left.
  - exfalso. apply (proj1 (H x)). now left.
  - inversion S as [|? ? S1 F1]; inversion S' as [|? ? S2 F2]; subst.
    rewrite Forall_forall in F1, F2.
    assert (x = y).
    { destruct (proj1 (H x)) as [E|E]; [now left|congruence|].
      destruct (proj2 (H y)) as [E'|E']; [now left|congruence|].
      specialize (F1 _ E'). specialize (F2 _ E). lia. }
    subst y. f_equal. apply IH; [assumption|assumption|].
    intros k. split; intros K.
    + destruct (proj1 (H k)) as [E|E]; [now right| |assumption].
      subst k. specialize (F1 _ K). lia.
    + destruct (proj2 (H k)) as [E|E]; [now right| |assumption].
      subst k. specialize (F2 _ K). lia.
Qed.

Lemma StronglySorted_map : forall A B (R : A -> A -> Prop) (R' : B -> B -> Prop) (f : A -> B) l,
  (forall x y, In x l -> In y l -> R x y -> R' (f x) (f y)) ->
  StronglySorted R l -> StronglySorted R' (map f l).
Proof.
  intros A B R R' f l; induction l as [|x t IH]; intros H S; [constructor|].
  inversion S as [|? ? S1 F1]; subst. simpl. constructor.
  - apply IH; [|assumption]. intros; apply H; auto; now right.
  - rewrite Forall_forall in *. intros y Y. apply in_map_iff in Y. destruct Y as (z & <- & Z).
    apply H; [now left|now right|now apply F1].
Qed.

Lemma window_In : forall size s n w k,
  In k (ext_window size s n w) <-> in_window size s n w k.
Proof.
  intros; unfold ext_window, in_window. rewrite in_map_iff.
  rewrite !Nat2Z.inj_div. change (Z.of_nat 2) with 2%Z. split.
  - intros (z & <- & Z). apply filter_In in Z. destruct Z as [Z1 Z2].
    apply andb_true_iff in Z2. rewrite Z.leb_le, Z.ltb_lt in Z2.
    apply in_map_iff in Z1. destruct Z1 as (j & <- & J). apply in_seq in J.
    rewrite Z2Nat.id by lia. lia.
  - intros (A & B). exists (Z.of_nat k). split; [lia|]. apply filter_In. split.
    + apply in_map_iff.
      exists (Z.to_nat (Z.of_nat k - (Z.of_nat s + Z.of_nat n / 2 - Z.of_nat w / 2))).
      split; [lia|]. apply in_seq. lia.
    + apply andb_true_iff. rewrite Z.leb_le, Z.ltb_lt. lia.
Qed.

Lemma window_sorted : forall size s n w, StronglySorted lt (ext_window size s n w).
Proof.
  intros. unfold ext_window.
  apply StronglySorted_map with (R := Z.lt).
  - intros x y X Y H. apply filter_In in X, Y. destruct X as [_ X], Y as [_ Y].
    apply andb_true_iff in X, Y. rewrite Z.leb_le, Z.ltb_lt in X, Y. lia.
  - apply StronglySorted_filter. apply StronglySorted_map with (R := lt); [|apply StronglySorted_seq].
    intros; lia.
Qed.

(** The window as an interval. *)
Definition win_lo (s n w : nat) : nat := s + n / 2 - w / 2.
Definition win_hi (size s n w : nat) : nat := Nat.min size (s + n / 2 + w - w / 2).

Lemma window_seq : forall size s n w,
  ext_window size s n w = seq (win_lo s n w) (win_hi size s n w - win_lo s n w).
Proof.
  intros. apply sorted_ext; [apply window_sorted|apply StronglySorted_seq|].
  intros k. rewrite window_In, in_seq. unfold in_window, win_lo, win_hi.
  assert (Z.of_nat n / 2 = Z.of_nat (n / 2))%Z by (now rewrite Nat2Z.inj_div).
  assert (Z.of_nat w / 2 = Z.of_nat (w / 2))%Z by (now rewrite Nat2Z.inj_div).
  assert (w / 2 <= w) by (apply Nat.div_le_upper_bound; lia). lia.
Qed.

Lemma half_spec : forall w, 2 * (w / 2) <= w <= 2 * (w / 2) + 1.
Proof. intros w. pose proof (Nat.div_mod w 2 ltac:(lia)). pose proof (Nat.mod_upper_bound w 2). lia. Qed.

Lemma window_contains : forall size s n w k, s + n <= size -> n <= w ->
  s <= k < s + n -> in_window size s n w k.
Proof.
  intros size s n w k H L K. apply window_In. rewrite window_seq. apply in_seq.
  unfold win_lo, win_hi. pose proof (half_spec n). pose proof (half_spec w). lia.
Qed.

Lemma window_nested : forall size s n w w' k, w <= w' ->
  in_window size s n w k -> in_window size s n w' k.
Proof.
  intros size s n w w' k L. rewrite <- !window_In, !window_seq, !in_seq.
  unfold win_lo, win_hi. pose proof (half_spec n). pose proof (half_spec w). pose proof (half_spec w'). lia.
Qed.

(** ** Scores *)

Lemma treat_spec : forall l q, treat l = Some q -> mean_or_zero l q.
Proof.
  intros l q; unfold treat, mean_or_zero.
  destruct (existsb (fun x => Qeq_bool x 0) l) eqn:E.
  - intros H; injection H; intros <-. left. apply existsb_exists in E.
    destruct E as (x & X & Q). apply Qeq_bool_iff in Q. split; [now exists x|reflexivity].
  - intros H. right. split; [|split].
    + intros x X C. rewrite <- not_true_iff_false in E. apply E. apply existsb_exists.
      exists x. split; [assumption|now apply Qeq_bool_iff].
    + intros ->. discriminate.
    + destruct l as [|x t]; [discriminate|].
      assert (Hq : q = (qsum (x :: t) / inject_Z (Z.of_nat (length (x :: t))))%Q) by congruence.
      rewrite Hq. set (L := inject_Z (Z.of_nat (length (x :: t)))).
      assert (~ L == 0)%Q.
      { unfold L, Qeq, inject_Z. cbn [Qnum Qden length]. lia. }
      field. assumption.
Qed.

Lemma treat_complete : forall l q, mean_or_zero l q -> exists q', treat l = Some q' /\ (q' == q)%Q.
Proof.
  intros l q [[(x & X & E) Q]|(A & B & C)]; unfold treat.
  - assert (T : existsb (fun x => Qeq_bool x 0) l = true).
    { apply existsb_exists. exists x. split; [assumption|now apply Qeq_bool_iff]. }
    rewrite T. exists 0%Q. split; [reflexivity|]. now rewrite Q.
  - assert (T : existsb (fun x => Qeq_bool x 0) l = false).
    { apply not_true_iff_false. intros T. apply existsb_exists in T. destruct T as (x & X & Y).
      apply Qeq_bool_iff in Y. now apply (A x). }
    rewrite T. destruct l as [|x t]; [congruence|].
    exists (qsum (x :: t) / inject_Z (Z.of_nat (length (x :: t))))%Q. split; [reflexivity|].
    rewrite <- C. set (L := inject_Z (Z.of_nat (length (x :: t)))).
    assert (~ L == 0)%Q.
    { unfold L, Qeq, inject_Z. cbn [Qnum Qden length]. lia. }
    field. assumption.
Qed.

Lemma better_spec : forall thr a b, better thr (treat a) (treat b) = true <-> improves thr a b.
Proof.
  intros thr a b. unfold improves. split.
  - intros H. destruct (treat a) as [f|] eqn:A; [|discriminate].
    destruct (treat b) as [v|] eqn:B; [|discriminate]. simpl in H.
    apply Qltb_lt in H. exists f, v. split; [now apply treat_spec|]. split; [now apply treat_spec|assumption].
  - intros (f & v & A & B & L). apply treat_complete in A, B.
    destruct A as (f' & -> & F), B as (v' & -> & V). simpl. apply Qltb_lt.
    rewrite F, V. assumption.
Qed.

(** ** Growth of one block *)

Lemma contiguous_seq : forall l, contiguous l = true -> l = seq (hd 0 l) (length l).
Proof.
  induction l as [|x [|y t] IH]; intros H; [reflexivity|reflexivity|].
  cbn [contiguous] in H. apply andb_true_iff in H. destruct H as [E H]. apply Nat.eqb_eq in E.
  specialize (IH H). cbn [hd length seq]. f_equal. rewrite IH at 1. cbn [hd length seq].
  replace (S x) with y by lia. reflexivity.
Qed.

Lemma seq_contiguous : forall n a, contiguous (seq a n) = true.
Proof.
  induction n as [|n IH]; intros a; [reflexivity|]. destruct n as [|n]; [reflexivity|].
  specialize (IH (S a)). cbn [seq contiguous] in *. rewrite IH, andb_true_r. apply Nat.eqb_eq. lia.
Qed.

Lemma own_slot_spec : forall b k, own_slot b k = true <-> covers b k.
Proof.
  intros b k; unfold own_slot, covers. destruct (bk_start b) as [s|].
  - rewrite in_range_true. split.
    + intros H. exists s. now split.
    + intros (s' & E & H). injection E; intros ->. assumption.
  - split; [discriminate|]. intros (s' & E & _). discriminate.
Qed.

Definition frame (st st' : sched) : Prop :=
  sc_dt st' = sc_dt st /\ sc_hour st' = sc_hour st /\ sc_starts st' = sc_starts st /\
  sc_stops st' = sc_stops st /\ sc_proc st' = sc_proc st /\ sc_day st' = sc_day st /\
  sc_night st' = sc_night st /\ sc_todo st' = sc_todo st /\ sc_cnst st' = sc_cnst st /\
  length (sc_blocks st') = length (sc_blocks st).

Lemma frame_refl : forall st, frame st st.
Proof. intros; unfold frame; tauto. Qed.

Lemma frame_trans : forall a b c, frame a b -> frame b c -> frame a c.
Proof.
  unfold frame. intros a b c (A1&A2&A3&A4&A5&A6&A7&A8&A9&A10) (B1&B2&B3&B4&B5&B6&B7&B8&B9&B10).
  repeat split; congruence.
Qed.

(** The outcome of a growth that happens. *)
Record grown (st st' : sched) (i : nat) (w : list nat) (b b' : blk) : Prop := mkGrown {
  gr_blocks : sc_blocks st' = upd i b' (sc_blocks st);
  gr_covers : forall k, covers b' k <-> In k w /\ (slot_free (sc_free st) k \/ covers b k);
  gr_booked : exists s, bk_start b' = Some s /\ 0 < bk_nslots b' /\
    bk_time b' = Some (times_at st s (bk_nslots b'));
  gr_dur : bk_dur b' = (Z.of_nat (bk_nslots b') * sc_dt st)%Z;
  gr_same : bk_idx b' = bk_idx b /\ bk_ndelay b' = bk_ndelay b /\ bk_score b' = bk_score b;
  gr_free : forall k, slot_free (sc_free st') k <-> slot_free (sc_free st) k /\ ~ covers b' k;
  gr_new : exists k, slot_free (sc_free st) k /\ covers b' k;
  gr_len : length (sc_free st') = length (sc_free st);
  gr_frame : frame st st';
}.

Lemma grow_cases : forall st i w b, nth_error (sc_blocks st) i = Some b ->
  grow st i w = st \/ exists b', grown st (grow st i w) i w b b'.
Proof.
  intros st i w b H. unfold grow. rewrite H.
  destruct (existsb _ w) eqn:E; [|now left].
  set (new := filter _ w). destruct (contiguous new) eqn:C; [|now left].
  right. apply contiguous_seq in C.
  assert (L : 0 < length new).
  { apply existsb_exists in E. destruct E as (x & X & F).
    assert (In x new) by (apply filter_In; rewrite F; now split).
    destruct new; [contradiction|simpl; lia]. }
  set (s := hd 0 new) in *. set (n := length new) in *.
  set (b' := mkBlk _ _ _ _ _ _ _). exists b'.
  assert (CV : forall k, covers b' k <-> In k new).
  { intros k. unfold covers, b'. cbn [bk_start bk_nslots]. rewrite C, in_seq. split.
    - intros (s' & X & Y). injection X; intros <-. exact Y.
    - intros Y. exists s. now split. }
  constructor.
  - reflexivity.
  - intros k. rewrite CV. unfold new. rewrite filter_In, orb_true_iff, own_slot_spec. reflexivity.
  - exists s. split; [reflexivity|]. split; [assumption|reflexivity].
  - reflexivity.
  - now repeat split.
  - intros k. unfold slot_free. cbn [sc_free set_blocks set_free].
    destruct (le_lt_dec (length (sc_free st)) k) as [G|G].
    + rewrite nth_overflow by (rewrite set_range_length; lia).
      rewrite nth_overflow by lia. split; [discriminate|tauto].
    + rewrite nth_set_range by assumption. rewrite CV, C, in_seq.
      destruct (in_range s (s + n) k) eqn:R.
      * apply in_range_true in R. split; [discriminate|tauto].
      * apply in_range_false in R. tauto.
  - apply existsb_exists in E. destruct E as (x & X & Y). exists x. split; [exact Y|].
    apply CV, filter_In. rewrite Y. now split.
  - cbn. apply set_range_length.
  - unfold frame. cbn. rewrite upd_length. repeat split.
Qed.

(** The growth happens as soon as the window is not yet covered and none of
    its slots belongs to someone else. *)
Lemma grow_covers : forall st i b a n, nth_error (sc_blocks st) i = Some b ->
  (forall k, In k (seq a n) -> slot_free (sc_free st) k \/ covers b k) ->
  exists b', nth_error (sc_blocks (grow st i (seq a n))) i = Some b' /\
    forall k, In k (seq a n) -> covers b' k.
Proof.
  intros st i b a n H F.
  assert (X : filter (fun k => nth k (sc_free st) false || own_slot b k) (seq a n) = seq a n).
  { clear - F. induction (seq a n) as [|x t IH]; [reflexivity|]. simpl.
    assert (T : nth x (sc_free st) false || own_slot b x = true).
    { apply orb_true_iff. destruct (F x); [now left|now left|]. right. now apply own_slot_spec. }
    rewrite T. f_equal. apply IH. intros; apply F; now right. }
  unfold grow. rewrite H, X, seq_contiguous.
  destruct (existsb _ (seq a n)) eqn:E.
  - eexists. split.
    + cbn [sc_blocks set_blocks]. rewrite nth_error_upd, Nat.eqb_refl, H. reflexivity.
    + intros k K. destruct n as [|n]; [destruct K|]. cbn [hd seq length]. rewrite seq_length.
      exists a. split; [reflexivity|]. cbn [bk_nslots]. apply in_seq in K. exact K.
  - exists b. split; [assumption|]. intros k K.
    destruct (F k K) as [G|G]; [|assumption]. exfalso.
    rewrite <- not_true_iff_false in E. apply E. apply existsb_exists. now exists k.
Qed.

(** ** Order between states during the extension *)

Definition ext_le (st st' : sched) : Prop :=
  (forall i b, nth_error (sc_blocks st) i = Some b -> exists b',
     nth_error (sc_blocks st') i = Some b' /\
     (forall k, covers b k -> covers b' k) /\
     (forall k, covers b' k -> covers b k \/ slot_free (sc_free st) k)) /\
  (forall k, slot_free (sc_free st') k -> slot_free (sc_free st) k).

Lemma ext_le_refl : forall st, ext_le st st.
Proof. intros st; split; [|auto]. intros i b H; exists b; auto. Qed.

Lemma ext_le_trans : forall a b c, ext_le a b -> ext_le b c -> ext_le a c.
Proof.
  intros a b c [A1 A2] [B1 B2]. split; [|auto].
  intros i x X. destruct (A1 i x X) as (y & Y & Y1 & Y2). destruct (B1 i y Y) as (z & Z & Z1 & Z2).
  exists z. split; [assumption|]. split; [auto|]. intros k K. destruct (Z2 k K) as [K'|K']; auto.
Qed.

Lemma grown_le : forall st st' i w b b', nth_error (sc_blocks st) i = Some b ->
  (forall k, covers b k -> In k w) -> grown st st' i w b b' -> ext_le st st'.
Proof.
  intros st st' i w b b' H W G. split.
  - intros j c J. rewrite (gr_blocks _ _ _ _ _ _ G), nth_error_upd.
    destruct (Nat.eqb_spec j i) as [->|N].
    + rewrite H in J. injection J; intros <-. rewrite H. exists b'. split; [reflexivity|].
      split; intros k K.
      * apply (gr_covers _ _ _ _ _ _ G). split; [now apply W|now right].
      * apply (gr_covers _ _ _ _ _ _ G) in K. tauto.
    + exists c. split; [assumption|]. split; auto.
  - intros k K. now apply (gr_free _ _ _ _ _ _ G) in K.
Qed.

Lemma cdiv_mul : forall n d, d <> 0%Z -> cdiv (n * d) d = n.
Proof.
  intros n d D; unfold cdiv. rewrite <- Z.mul_opp_l, Z.div_mul by assumption. lia.
Qed.

Lemma grown_inv : forall st st' i w b b', sc_dt st <> 0%Z -> sched_inv st ->
  nth_error (sc_blocks st) i = Some b ->
  (forall k, In k w -> k < sc_size st) ->
  grown st st' i w b b' -> sched_inv st'.
Proof.
  intros st st' i w b b' D I H W G.
  destruct (gr_frame _ _ _ _ _ _ G) as (F1&F2&F3&F4&F5&F6&F7&F8&F9&F10).
  destruct (si_sizes _ I) as (S1 & S2 & S3 & S4).
  assert (SZ : sc_size st' = sc_size st) by (unfold sc_size; congruence).
  assert (NTH : forall j c, nth_error (sc_blocks st') j = Some c ->
            (j = i /\ c = b') \/ (j <> i /\ nth_error (sc_blocks st) j = Some c)).
  { intros j c J. rewrite (gr_blocks _ _ _ _ _ _ G), nth_error_upd in J.
    destruct (Nat.eqb_spec j i) as [->|N]; [|now right]. rewrite H in J. injection J. left; auto. }
  constructor.
  - unfold sizes_ok. rewrite SZ, F4, F5, F8, F10, (gr_len _ _ _ _ _ _ G). tauto.
  - intros j c J. destruct (NTH j c J) as [[-> ->]|[N J']].
    + rewrite (gr_dur _ _ _ _ _ _ G), F1.
      rewrite cdiv_mul by assumption. lia.
    + rewrite F1. now apply (si_nslots _ I j).
  - intros j c J s E. destruct (NTH j c J) as [[-> ->]|[N J']].
    + destruct (gr_booked _ _ _ _ _ _ G) as (s' & E' & P & _).
      rewrite E' in E; injection E; intros ->. split; [assumption|]. split.
      * assert (C : covers b' (s + bk_nslots b' - 1)) by (exists s; split; [assumption|lia]).
        apply (gr_covers _ _ _ _ _ _ G) in C. destruct C as [C _]. apply W in C.
        rewrite (gr_len _ _ _ _ _ _ G). lia.
      * intros k K F. apply (gr_free _ _ _ _ _ _ G) in F. tauto.
    + destruct (si_booked _ I j c J' s E) as (A & B & C). split; [assumption|].
      rewrite (gr_len _ _ _ _ _ _ G). split; [assumption|].
      intros k K F. apply (gr_free _ _ _ _ _ _ G) in F. now apply (C k K).
  - intros j l c d k N J L C1 C2.
    assert (X : forall j c, j <> i -> nth_error (sc_blocks st) j = Some c -> covers c k -> covers b' k -> False).
    { intros m x M MX CX CB. apply (gr_covers _ _ _ _ _ _ G) in CB. destruct CB as [_ [CB|CB]].
      - pose proof CX as (s & E & _). now apply (proj2 (proj2 (si_booked _ I m x MX s E)) k CX).
      - now apply (si_disj _ I m i x b k). }
    destruct (NTH j c J) as [[-> ->]|[Nj J']]; destruct (NTH l d L) as [[-> ->]|[Nl L']].
    + congruence.
    + now apply (X l d).
    + now apply (X j c).
    + now apply (si_disj _ I j l c d k).
Qed.

(** ** Invariant of the loops *)

(** The windows given to the loops: around each booked block of [st0],
    increasing. *)
Definition cand_ok (st0 : sched) (cands : list (list (list nat))) : Prop :=
  forall i j w, nth_error (nth i cands []) j = Some w ->
    exists b s m, nth_error (sc_blocks st0) i = Some b /\ bk_start b = Some s /\
      bk_nslots b < m /\ w = ext_window (sc_size st0) s (bk_nslots b) m /\
      forall j' w', j' < j -> nth_error (nth i cands []) j' = Some w' ->
        exists m', m' < m /\ w' = ext_window (sc_size st0) s (bk_nslots b) m'.

Definition block_ext (st0 : sched) (cands : list (list (list nat))) (it i : nat) (b0 b : blk) : Prop :=
  b = b0 \/
  (bk_idx b = bk_idx b0 /\ bk_ndelay b = bk_ndelay b0 /\ bk_score b = bk_score b0 /\
   (exists s0 s, bk_start b0 = Some s0 /\ bk_start b = Some s /\
     bk_time b = Some (times_at st0 s (bk_nslots b))) /\
   bk_dur b = (Z.of_nat (bk_nslots b) * sc_dt st0)%Z /\
   (forall k, covers b0 k -> covers b k) /\
   (exists k, covers b k /\ slot_free (sc_free st0) k) /\
   (forall k, covers b k -> covers b0 k \/
      (slot_free (sc_free st0) k /\
       exists j w, j <= it /\ nth_error (nth i cands []) j = Some w /\ In k w))).

Record ext_inv (st0 : sched) (cands : list (list (list nat))) (it : nat) (st : sched) : Prop := mkEI {
  ei_inv : sched_inv st;
  ei_frame : frame st0 st;
  ei_le : ext_le st0 st;
  ei_block : forall i b0 b, nth_error (sc_blocks st0) i = Some b0 ->
    nth_error (sc_blocks st) i = Some b -> block_ext st0 cands it i b0 b;
  ei_free : forall k, slot_free (sc_free st) k <->
    slot_free (sc_free st0) k /\ forall b, In b (sc_blocks st) -> ~ covers b k;
}.

Lemma ext_inv_start : forall st0 cands it, sched_inv st0 -> ext_inv st0 cands it st0.
Proof.
  intros st0 cands it I. constructor.
  - assumption.
  - apply frame_refl.
  - apply ext_le_refl.
  - intros i b0 b A B. left. congruence.
  - intros k. split; [|tauto]. intros F. split; [assumption|].
    intros b B C. apply In_nth_error in B. destruct B as (i & B). pose proof C as (s & E & _).
    now apply (proj2 (proj2 (si_booked _ I i b B s E)) k C).
Qed.

Lemma ext_inv_mono : forall st0 cands it it' st, it <= it' ->
  ext_inv st0 cands it st -> ext_inv st0 cands it' st.
Proof.
  intros st0 cands it it' st L [A B C D E]. constructor; try assumption.
  intros i b0 b H H'. destruct (D i b0 b H H') as [X|(X1&X2&X3&X4&X5&X6&XN&X7)]; [now left|right].
  repeat (split; [assumption|]). intros k K. destruct (X7 k K) as [Y|(Y & j & w & J & Z)]; [now left|right].
  split; [assumption|]. exists j, w. split; [lia|assumption].
Qed.

Lemma cand_window : forall st0 cands i j w, sched_inv st0 -> cand_ok st0 cands ->
  nth_error (nth i cands []) j = Some w ->
  exists b s, nth_error (sc_blocks st0) i = Some b /\ bk_start b = Some s /\
    (forall k, In k w -> k < sc_size st0) /\
    (forall k, covers b k -> In k w) /\
    (forall j' w' k, j' <= j -> nth_error (nth i cands []) j' = Some w' -> In k w' -> In k w) /\
    exists a n, w = seq a n.
Proof.
  intros st0 cands i j w I CO J. destruct (CO i j w J) as (b & s & m & B & S & M & W & N).
  exists b, s. split; [assumption|]. split; [assumption|]. split; [|split; [|split]].
  - intros k K. rewrite W, window_In in K. apply K.
  - intros k (s' & E & K). rewrite S in E; injection E; intros <-.
    destruct (si_booked _ I i b B s S) as (P & Q & _).
    destruct (si_sizes _ I) as (_ & SZ & _).
    rewrite W, window_In. apply window_contains; lia.
  - intros j' w' k L J' K. destruct (Nat.eq_dec j' j) as [->|NE]; [congruence|].
    destruct (N j' w') as (m' & M' & W'); [lia|assumption|].
    rewrite W' in K. rewrite window_In in K. rewrite W, window_In.
    eapply window_nested; [|exact K]. lia.
  - rewrite W, window_seq. eauto.
Qed.

Lemma grow_ext : forall st0 cands it st i w, sc_dt st0 <> 0%Z -> sched_inv st0 -> cand_ok st0 cands ->
  ext_inv st0 cands it st -> nth_error (nth i cands []) it = Some w ->
  ext_inv st0 cands it (grow st i w) /\ ext_le st (grow st i w) /\
  exists b', nth_error (sc_blocks (grow st i w)) i = Some b' /\
    ((forall k, In k w -> (forall b, nth_error (sc_blocks st) i = Some b -> slot_free (sc_free st) k \/ covers b k)) ->
     forall k, In k w -> covers b' k).
Proof.
  intros st0 cands it st i w D I0 CO EI J.
  destruct (cand_window _ _ _ _ _ I0 CO J) as (b0 & s0 & B0 & S0 & W1 & W2 & W3 & a & m & WS).
  destruct EI as [A B C E F].
  destruct (proj1 C i b0 B0) as (b & HB & CB1 & CB2).
  pose proof (E i b0 b B0 HB) as BE.
  assert (OW : forall k, covers b k -> In k w).
  { intros k K. destruct BE as [->|(_&_&_&_&_&_&_&X)]; [now apply W2|].
    destruct (X k K) as [Y|(_ & j & w' & L & J' & K')]; [now apply W2|].
    now apply (W3 j w'). }
  pose proof B as (F1&F2&F3&F4&F5&F6&F7&F8&F9&F10).
  assert (GC : exists b', nth_error (sc_blocks (grow st i w)) i = Some b' /\
    ((forall k, In k w -> (forall b, nth_error (sc_blocks st) i = Some b -> slot_free (sc_free st) k \/ covers b k)) ->
     forall k, In k w -> covers b' k)).
  { destruct (nth_error (sc_blocks (grow st i w)) i) as [b'|] eqn:HB'.
    - exists b'. split; [reflexivity|]. intros X k K.
      destruct (grow_covers st i b a m HB) as (b2 & H2 & H3).
      + intros k' K'. apply X; [now rewrite WS|assumption].
      + rewrite <- WS in H2, H3. rewrite HB' in H2. injection H2; intros <-. now apply H3.
    - exfalso. destruct (grow_cases st i w b HB) as [EQ|(b' & G)].
      + rewrite EQ in HB'. congruence.
      + rewrite (gr_blocks _ _ _ _ _ _ G), nth_error_upd, Nat.eqb_refl, HB in HB'. discriminate. }
  destruct (grow_cases st i w b HB) as [EQ|(b' & G)].
  { rewrite EQ in *. split; [now constructor|]. split; [apply ext_le_refl|exact GC]. }
  split; [|split; [now apply (grown_le st _ i w b b')|exact GC]].
  assert (IS : sched_inv (grow st i w)).
  { apply (grown_inv st _ i w b b'); try assumption.
    - now rewrite F1.
    - intros k K. unfold sc_size. rewrite F3. now apply W1. }
  assert (LE : ext_le st (grow st i w)) by (now apply (grown_le st _ i w b b')).
  constructor.
  - assumption.
  - eapply frame_trans; [eassumption|]. apply (gr_frame _ _ _ _ _ _ G).
  - eapply ext_le_trans; eassumption.
  - intros j c0 c HC0 HC. rewrite (gr_blocks _ _ _ _ _ _ G), nth_error_upd in HC.
    destruct (Nat.eqb_spec j i) as [->|N]; [|now apply E].
    rewrite HB in HC. injection HC; intros <-. rewrite B0 in HC0; injection HC0; intros <-.
    right. destruct (gr_same _ _ _ _ _ _ G) as (G1 & G2 & G3).
    assert (SB : bk_idx b = bk_idx b0 /\ bk_ndelay b = bk_ndelay b0 /\ bk_score b = bk_score b0).
    { destruct BE as [->|X]; [tauto|]. tauto. }
    destruct SB as (S1 & S2 & S3).
    split; [congruence|]. split; [congruence|]. split; [congruence|]. split; [|split; [|split; [|split]]].
    + destruct (gr_booked _ _ _ _ _ _ G) as (s & X1 & X2 & X3). exists s0, s.
      split; [assumption|]. split; [assumption|]. rewrite X3. unfold times_at. now rewrite F3, F4.
    + rewrite (gr_dur _ _ _ _ _ _ G). now rewrite F1.
    + intros k K. apply (gr_covers _ _ _ _ _ _ G). split; [now apply W2|right; now apply CB1].
    + destruct (gr_new _ _ _ _ _ _ G) as (k & K1 & K2). exists k. split; [assumption|]. now apply (proj2 C).
    + intros k K. apply (gr_covers _ _ _ _ _ _ G) in K. destruct K as [K1 K2].
      assert (KW : slot_free (sc_free st0) k \/ covers b0 k).
      { destruct K2 as [K2|K2]; [left; now apply (proj2 C)|]. destruct (CB2 k K2); tauto. }
      destruct KW as [KW|KW]; [right|now left]. split; [assumption|]. exists it, w.
      split; [lia|]. now split.
  - intros k. rewrite (gr_free _ _ _ _ _ _ G), F. split.
    + intros [[X Y] Z]. split; [assumption|]. intros c HC. rewrite (gr_blocks _ _ _ _ _ _ G) in HC.
      apply In_nth_error in HC. destruct HC as (j & HC). rewrite nth_error_upd in HC.
      destruct (Nat.eqb_spec j i) as [EJ|N].
      * rewrite EJ, HB in HC. injection HC; intros <-. assumption.
      * apply Y. now apply nth_error_In in HC.
    + intros [X Y]. split; [split; [assumption|]|].
      * intros c HC CC. apply In_nth_error in HC. destruct HC as (j & HC).
        destruct (proj1 LE j c HC) as (c' & HC' & Q & _). apply nth_error_In in HC'.
        apply (Y c' HC'). now apply Q.
      * apply Y. apply (nth_error_In _ i). rewrite (gr_blocks _ _ _ _ _ _ G), nth_error_upd, Nat.eqb_refl, HB.
        reflexivity.
Qed.

(** ** Loops *)

(** Either the block covers the window, or a slot of the window belongs to
    someone else. *)
Definition settled (st : sched) (i : nat) (w : list nat) : Prop :=
  exists b, nth_error (sc_blocks st) i = Some b /\
    ((forall k, In k w -> slot_free (sc_free st) k \/ covers b k) -> forall k, In k w -> covers b k).

Lemma settled_mono : forall st st' i w, ext_le st st' -> settled st i w -> settled st' i w.
Proof.
  intros st st' i w [L1 L2] (b & B & S). destruct (L1 i b B) as (b' & B' & C1 & C2).
  exists b'. split; [assumption|]. intros H k K. apply C1. apply S; [|assumption].
  intros k' K'. destruct (H k' K') as [X|X]; [left; now apply L2|]. destruct (C2 k' X); tauto.
Qed.

Lemma grow_settled : forall st0 cands it st i w, sc_dt st0 <> 0%Z -> sched_inv st0 -> cand_ok st0 cands ->
  ext_inv st0 cands it st -> nth_error (nth i cands []) it = Some w ->
  settled (grow st i w) i w.
Proof.
  intros st0 cands it st i w D I CO EI J.
  destruct (grow_ext _ _ _ _ _ _ D I CO EI J) as (_ & [L1 L2] & b' & B' & X).
  exists b'. split; [assumption|]. intros H. apply X. intros k K b B.
  destruct (L1 i b B) as (b2 & B2 & _ & C2). rewrite B' in B2; injection B2; intros <-.
  destruct (H k K) as [Y|Y]; [left; now apply L2|]. destruct (C2 k Y); tauto.
Qed.

Definition try_grow (cands : list (list (list nat))) (it : nat) (st : sched) (i : nat) : sched :=
  match nth_error (nth i cands []) it with None => st | Some w => grow st i w end.

Lemma grow_fold : forall st0 cands it l st, sc_dt st0 <> 0%Z -> sched_inv st0 -> cand_ok st0 cands ->
  ext_inv st0 cands it st ->
  let st' := fold_left (try_grow cands it) l st in
  ext_inv st0 cands it st' /\ ext_le st st' /\
  forall i w, In i l -> nth_error (nth i cands []) it = Some w -> settled st' i w.
Proof.
  intros st0 cands it. induction l as [|i l IH]; intros st D I CO EI; cbn [fold_left].
  - split; [assumption|]. split; [apply ext_le_refl|]. intros i w [].
  - assert (X : ext_inv st0 cands it (try_grow cands it st i) /\ ext_le st (try_grow cands it st i)).
    { unfold try_grow. destruct (nth_error (nth i cands []) it) as [w|] eqn:J.
      - destruct (grow_ext _ _ _ _ _ _ D I CO EI J) as (A & B & _). now split.
      - split; [assumption|apply ext_le_refl]. }
    destruct X as [X1 X2]. destruct (IH _ D I CO X1) as (Y1 & Y2 & Y3).
    split; [assumption|]. split; [eapply ext_le_trans; eassumption|].
    intros j w [<-|J] W; [|now apply Y3].
    eapply settled_mono; [exact Y2|]. unfold try_grow. rewrite W.
    now apply (grow_settled st0 cands it).
Qed.

Lemma grow_loop : forall st0 cands n a st, sc_dt st0 <> 0%Z -> sched_inv st0 -> cand_ok st0 cands ->
  ext_inv st0 cands a st ->
  let st' := fold_left (grow_all cands) (seq a n) st in
  ext_inv st0 cands (a + n) st' /\ ext_le st st' /\
  forall i it w, a <= it < a + n -> nth_error (nth i cands []) it = Some w -> settled st' i w.
Proof.
  intros st0 cands. induction n as [|n IH]; intros a st D I CO EI; cbn [seq fold_left].
  - rewrite Nat.add_0_r. split; [assumption|]. split; [apply ext_le_refl|]. intros; lia.
  - unfold grow_all at 2 4 6.
    change (fun st1 i => match nth_error (nth i cands []) a with None => st1 | Some w => grow st1 i w end)
      with (try_grow cands a).
    destruct (grow_fold st0 cands a (seq 0 (length (sc_blocks st))) st D I CO EI) as (A & B & C).
    set (st1 := fold_left (try_grow cands a) (seq 0 (length (sc_blocks st))) st) in *.
    assert (A' : ext_inv st0 cands (S a) st1) by (eapply ext_inv_mono; [|eassumption]; lia).
    destruct (IH (S a) st1 D I CO A') as (E & F & G).
    replace (a + S n) with (S a + n) by lia.
    split; [assumption|]. split; [eapply ext_le_trans; eassumption|].
    intros i it w L W. destruct (Nat.eq_dec it a) as [->|N]; [|apply (G i it); [lia|assumption]].
    eapply settled_mono; [exact F|]. apply C; [|assumption].
    apply in_seq. split; [lia|]. simpl.
    destruct (CO i a w W) as (b & s & m & HB & _).
    pose proof (ei_frame _ _ _ _ EI) as (_&_&_&_&_&_&_&_&_&L10). rewrite L10.
    apply nth_error_Some. congruence.
Qed.

(** ** Candidates *)

Lemma collect_ok : forall A (l : list (res A)) xs, collect l = Ok xs ->
  length xs = length l /\ forall i, nth_error l i = option_map Ok (nth_error xs i).
Proof.
  induction l as [|r l IH]; intros xs H; simpl in H.
  - injection H; intros <-. split; [reflexivity|]. intros [|i]; reflexivity.
  - destruct r as [x|e]; [|discriminate]. simpl in H. destruct (collect l) as [ys|e]; [|discriminate].
    simpl in H. injection H; intros <-. destruct (IH ys eq_refl) as [A1 A2].
    split; [simpl; lia|]. intros [|i]; [reflexivity|]. simpl. apply A2.
Qed.

Lemma collect_err : forall A (l : list (res A)) e, collect l = Err e ->
  exists i, nth_error l i = Some (Err e).
Proof.
  induction l as [|r l IH]; intros e H; simpl in H; [discriminate|].
  destruct r as [x|e']; simpl in H.
  - destruct (collect l) as [ys|e']; simpl in H; [discriminate|]. injection H; intros ->.
    destruct (IH e eq_refl) as (i & I). now exists (S i).
  - injection H; intros ->. now exists 0.
Qed.

Lemma collect_total : forall A (l : list (res A)), (forall i e, nth_error l i <> Some (Err e)) ->
  exists xs, collect l = Ok xs.
Proof.
  intros A l H. destruct (collect l) as [xs|e] eqn:E; [eauto|].
  apply collect_err in E. destruct E as (i & E). now apply H in E.
Qed.

(** Position in a filtered list of windows. *)
Lemma filter_map_nth : forall A B (f : A -> B) p l j y,
  nth_error (filter p (map f l)) j = Some y -> exists x, In x l /\ y = f x /\ p (f x) = true.
Proof.
  intros A B f p l j y H. apply nth_error_In, filter_In in H. destruct H as [H P].
  apply in_map_iff in H. destruct H as (x & <- & I). now exists x.
Qed.

Lemma filter_map_swap : forall A B (f : A -> B) p l,
  filter p (map f l) = map f (filter (fun x => p (f x)) l).
Proof.
  induction l as [|x t IH]; [reflexivity|]. simpl. destruct (p (f x)); simpl; now rewrite IH.
Qed.

Lemma sorted_nth : forall l j j' x x', StronglySorted lt l ->
  nth_error l j = Some x -> nth_error l j' = Some x' -> j' < j -> x' < x.
Proof.
  induction l as [|y t IH]; intros [|j] [|j'] x x' S H H' L; try discriminate; try lia.
  - simpl in *. injection H'; intros <-. inversion S as [|? ? S1 F]; subst.
    rewrite Forall_forall in F. apply F. now apply nth_error_In in H.
  - inversion S; subst. simpl in *. eapply IH; try eassumption. lia.
Qed.

Definition ext_of (max_duration : option Z) (max_ext : nat -> option Z) (i : nat) : option Z :=
  match max_duration with None => max_ext i | Some d => Some d end.

Definition ext_cands (thr : Q) (max_duration : option Z) (max_ext : nat -> option Z)
    (ev : nat -> list nat -> list Q) (st : sched) : res (list (list (list nat))) :=
  collect (imap (fun i b => ext_candidates (sc_dt st) (sc_size st) thr (ev i)
                   (ext_of max_duration max_ext i) b) (sc_blocks st)).

(** The windows of block [i] are exactly the ones it may try, in order. *)
Lemma cands_spec : forall thr md me ev st cands, ext_cands thr md me ev st = Ok cands ->
  length cands = length (sc_blocks st) /\
  forall i b, nth_error (sc_blocks st) i = Some b ->
    (bk_start b = None -> nth i cands [] = []) /\
    forall s, bk_start b = Some s -> exists ms, StronglySorted lt ms /\
      nth i cands [] = map (ext_window (sc_size st) s (bk_nslots b)) ms /\
      forall m, In m ms <-> tried thr md me ev st i m.
Proof.
  intros thr md me ev st cands H. apply collect_ok in H. destruct H as [L N].
  rewrite imap_length in L. split; [assumption|].
  intros i b B. specialize (N i). rewrite nth_error_imap, B in N. simpl in N.
  destruct (nth_error cands i) as [c|] eqn:C; [|discriminate]. simpl in N.
  rewrite (nth_error_nth _ _ [] C). injection N; clear N; intros N. unfold ext_candidates in N.
  split.
  - intros S. rewrite S in N. now injection N.
  - intros s S. rewrite S in N.
    assert (TR : forall m, tried thr md me ev st i m <->
      exists d, ext_of md me i = Some d /\ bk_nslots b < m <= Z.to_nat (cdiv d (sc_dt st)) /\
        improves thr (ev i (ext_window (sc_size st) s (bk_nslots b) (bk_nslots b + 1)))
                 (ev i (ext_window (sc_size st) s (bk_nslots b) m))).
    { intros m. unfold tried, ext_limit, ext_of. split.
      - intros (b1 & s1 & N1 & E1 & E2 & E3 & E4 & E5). rewrite B in E1; injection E1; intros ->.
        rewrite S in E2; injection E2; intros ->.
        destruct (match md with None => me i | Some d => Some d end) as [d|]; [|discriminate].
        injection E3; intros <-. exists d. now split.
      - intros (d & E1 & E2 & E3). exists b, s, (Z.to_nat (cdiv d (sc_dt st))). rewrite E1. tauto. }
    destruct (ext_of md me i) as [d|] eqn:X.
    + destruct (Nat.eqb_spec (bk_nslots b) (Z.to_nat (cdiv d (sc_dt st)))) as [Q|Q].
      * injection N; intros <-. exists []. split; [constructor|]. split; [reflexivity|].
        intros m. rewrite TR. split; [intros []|]. intros (d' & E & M & _). injection E; intros <-. lia.
      * unfold ext_windows in N.
        set (f := ext_window (sc_size st) s (bk_nslots b)) in *.
        destruct (seq (bk_nslots b + 1) (Z.to_nat (cdiv d (sc_dt st)) - bk_nslots b)) as [|w0 ws] eqn:SQ; [discriminate|].
        assert (W0 : w0 = bk_nslots b + 1).
        { destruct (Z.to_nat (cdiv d (sc_dt st)) - bk_nslots b); [discriminate|]. injection SQ; auto. }
        unfold keep_better in N. cbn [map] in N. change (f w0 :: map f ws) with (map f (w0 :: ws)) in N.
        apply (f_equal (fun r => match r with Ok x => x | Err _ => [] end)) in N. cbv beta iota in N.
        rewrite filter_map_swap, <- SQ in N.
        exists (filter (fun x => better thr (treat (ev i (f w0))) (treat (ev i (f x))))
                 (seq (bk_nslots b + 1) (Z.to_nat (cdiv d (sc_dt st)) - bk_nslots b))).
        split; [apply StronglySorted_filter, StronglySorted_seq|]. split; [now rewrite N|].
        intros m. rewrite TR, filter_In, in_seq, better_spec, W0. split.
        -- intros [M I]. exists d. split; [reflexivity|]. split; [lia|assumption].
        -- intros (d' & E & M & I). injection E; intros <-. split; [lia|assumption].
    + injection N; intros <-. exists []. split; [constructor|]. split; [reflexivity|].
      intros m. rewrite TR. split; [intros []|]. intros (d' & E & _). discriminate.
Qed.

Lemma cands_ok : forall thr md me ev st cands, ext_cands thr md me ev st = Ok cands -> cand_ok st cands.
Proof.
  intros thr md me ev st cands H. apply cands_spec in H. destruct H as [L N].
  intros i j w J.
  assert (LT : i < length cands).
  { destruct (le_lt_dec (length cands) i) as [G|G]; [|assumption].
    rewrite nth_overflow in J by assumption. destruct j; discriminate. }
  rewrite L in LT. destruct (nth_error (sc_blocks st) i) as [b|] eqn:B;
    [|apply nth_error_None in B; lia].
  destruct (N i b B) as [N1 N2]. destruct (bk_start b) as [s|] eqn:S.
  2: { rewrite N1 in J by reflexivity. destruct j; discriminate. }
  destruct (N2 s eq_refl) as (ms & SO & E & T). rewrite E in J. rewrite nth_error_map in J.
  destruct (nth_error ms j) as [m|] eqn:M; [|discriminate]. injection J; intros <-.
  exists b, s, m. split; [reflexivity|]. split; [assumption|]. split; [|split].
  - pose proof (proj1 (T m) (nth_error_In _ _ M)) as (b1 & s1 & N' & E1 & _ & _ & E4 & _).
    rewrite B in E1; injection E1; intros <-. lia.
  - reflexivity.
  - intros j' w' LJ J'. rewrite E, nth_error_map in J'.
    destruct (nth_error ms j') as [m'|] eqn:M'; [|discriminate]. injection J'; intros <-.
    exists m'. split; [|reflexivity]. eapply sorted_nth; eassumption.
Qed.

(** ** Whole extension *)

Definition runs (done : bool) (max_duration : option Z) : Prop :=
  done = false \/ max_duration <> None.

Lemma extend_unfold : forall done thr md me ev st, runs done md ->
  extend done thr md me ev st =
  match ext_cands thr md me ev st with
  | Err e => (st, done, Some e)
  | Ok cands => (fold_left (grow_all cands) (seq 0 (fold_right Nat.max 0 (map (@length _) cands))) st,
                 true, None)
  end.
Proof.
  intros done thr md me ev st R. unfold extend, ext_cands, ext_of.
  destruct done, md as [d|]; try reflexivity. destruct R as [R|R]; congruence.
Qed.

Lemma extend_again : forall thr me ev st, extend true thr None me ev st = (st, true, None).
Proof. reflexivity. Qed.

Lemma max_len : forall A (l : list (list A)) i j x, nth_error (nth i l []) j = Some x ->
  j < fold_right Nat.max 0 (map (@length _) l).
Proof.
  induction l as [|a l IH]; intros i j x H.
  - destruct i, j; discriminate.
  - simpl. destruct i as [|i].
    + simpl in H. assert (j < length a) by (apply nth_error_Some; congruence). lia.
    + simpl in H. specialize (IH i j x H). lia.
Qed.

Lemma extend_inv : forall done thr md me ev st st' done', sc_dt st <> 0%Z -> sched_inv st ->
  extend done thr md me ev st = (st', done', None) ->
  (~ runs done md /\ st' = st /\ done' = true) \/
  (runs done md /\ done' = true /\ exists cands it, ext_cands thr md me ev st = Ok cands /\
     ext_inv st cands it st' /\
     forall i j w, nth_error (nth i cands []) j = Some w -> settled st' i w).
Proof.
  intros done thr md me ev st st' done' D I E.
  assert (R : runs done md \/ ~ runs done md).
  { unfold runs. destruct done, md; auto; try (left; right; discriminate).
    right. intros [R|R]; congruence. }
  destruct R as [R|R].
  - right. split; [assumption|]. rewrite extend_unfold in E by assumption.
    destruct (ext_cands thr md me ev st) as [cands|e] eqn:C; [|discriminate].
    set (mx := fold_right Nat.max 0 (map (@length _) cands)) in *.
    assert (E1 : st' = fold_left (grow_all cands) (seq 0 mx) st) by congruence.
    split; [congruence|].
    destruct (grow_loop st cands mx 0 st D I (cands_ok _ _ _ _ _ _ C) (ext_inv_start _ _ _ I)) as (A & _ & B).
    exists cands, (0 + mx). split; [reflexivity|]. rewrite E1. split; [assumption|].
    intros i j w W. apply (B i j); [|assumption]. pose proof (max_len _ _ _ _ _ W). unfold mx. lia.
  - left. split; [assumption|]. unfold extend in E.
    destruct done, md as [d|]; try (exfalso; apply R; unfold runs; auto; right; discriminate).
    now injection E.
Qed.

(** What the extension does to one block. *)
Definition extended (thr : Q) (md : option Z) (me : nat -> option Z) (ev : nat -> list nat -> list Q)
    (st : sched) (i : nat) (b0 b : blk) : Prop :=
  bk_idx b = bk_idx b0 /\ bk_ndelay b = bk_ndelay b0 /\ bk_score b = bk_score b0 /\
  (bk_start b0 = None -> b = b0) /\
  (forall k, covers b0 k -> covers b k) /\
  (forall k, covers b k -> covers b0 k \/
     (slot_free (sc_free st) k /\ exists s0 w, bk_start b0 = Some s0 /\
        tried thr md me ev st i w /\ in_window (sc_size st) s0 (bk_nslots b0) w k)) /\
  (b = b0 \/ exists s, bk_start b = Some s /\ bk_time b = Some (times_at st s (bk_nslots b)) /\
     bk_dur b = (Z.of_nat (bk_nslots b) * sc_dt st)%Z) /\
  (b = b0 \/ exists N, ext_limit md me (sc_dt st) i = Some N /\ bk_nslots b <= N).

Lemma extend_spec : forall done thr md me ev st st' done', sc_dt st <> 0%Z -> sched_inv st ->
  extend done thr md me ev st = (st', done', None) ->
  sched_inv st' /\ frame st st' /\
  (forall i b0, nth_error (sc_blocks st) i = Some b0 -> exists b,
     nth_error (sc_blocks st') i = Some b /\ extended thr md me ev st i b0 b) /\
  (forall k, slot_free (sc_free st') k <->
     slot_free (sc_free st) k /\ forall b, In b (sc_blocks st') -> ~ covers b k) /\
  (runs done md -> forall i b0 s0 w, nth_error (sc_blocks st) i = Some b0 -> bk_start b0 = Some s0 ->
     tried thr md me ev st i w ->
     exists b, nth_error (sc_blocks st') i = Some b /\
       ((forall k, in_window (sc_size st) s0 (bk_nslots b0) w k ->
           slot_free (sc_free st') k \/ covers b k) ->
        forall k, in_window (sc_size st) s0 (bk_nslots b0) w k -> covers b k)).
Proof.
  intros done thr md me ev st st' done' D I E.
  assert (SAME : forall i b0, extended thr md me ev st i b0 b0).
  { intros i b0. unfold extended. tauto. }
  destruct (extend_inv _ _ _ _ _ _ _ _ D I E) as [(R & -> & _)|(R & _ & cands & it & C & X & S)].
  { pose proof (ext_inv_start st [] 0 I) as [A B _ _ F].
    split; [assumption|]. split; [assumption|]. split; [|split; [assumption|intros R'; contradiction]].
    intros i b0 H. exists b0. split; [assumption|apply SAME]. }
  destruct X as [A B [LE _] BL F]. pose proof (cands_ok _ _ _ _ _ _ C) as CO.
  pose proof (cands_spec _ _ _ _ _ _ C) as [_ CS].
  split; [assumption|]. split; [assumption|]. split; [|split; [assumption|]].
  - intros i b0 H. destruct (LE i b0 H) as (b & HB & C1 & C2). exists b. split; [assumption|].
    destruct (BL i b0 b H HB) as [->|(X1 & X2 & X3 & X4 & X5 & X6 & XN & X7)]; [apply SAME|].
    destruct X4 as (s0 & s & Y1 & Y2 & Y3).
    destruct (CS i b0 H) as [_ CS']. destruct (CS' s0 Y1) as (ms & SO & EQ & TR).
    assert (XW : forall k, covers b k -> covers b0 k \/
     (slot_free (sc_free st) k /\ exists s0 w, bk_start b0 = Some s0 /\
        tried thr md me ev st i w /\ in_window (sc_size st) s0 (bk_nslots b0) w k)).
    { intros k K. destruct (X7 k K) as [Z|(Z & j & w & _ & J & W)]; [now left|right].
      split; [assumption|]. rewrite EQ, nth_error_map in J.
      destruct (nth_error ms j) as [m|] eqn:M; [|discriminate]. injection J; intros <-.
      exists s0, m. split; [assumption|]. split; [apply TR; now apply nth_error_In in M|].
      now apply window_In. }
    unfold extended. split; [assumption|]. split; [assumption|]. split; [assumption|].
    split; [intros; congruence|]. split; [assumption|]. split; [exact XW|]. split.
    + right. exists s. now split.
    + right. destruct (si_booked _ A i b HB s Y2) as (P & _).
      destruct (si_booked _ I i b0 H s0 Y1) as (P0 & Q0 & NF).
      destruct (si_sizes _ I) as (_ & SZ & _).
      assert (TL : forall m, tried thr md me ev st i m -> exists N, ext_limit md me (sc_dt st) i = Some N /\
                     bk_nslots b0 < m <= N).
      { intros m (b1 & s1 & N & T1 & T2 & T3 & T4 & _). rewrite H in T1; injection T1; intros <-. now exists N. }
      destruct XN as (k & K1 & K2). destruct (XW k K1) as [Z|(_ & s1 & m & Z1 & Z2 & Z3)]; [now apply NF in Z|].
      destruct (TL m Z2) as (N & TN & LN). exists N. split; [assumption|].
      assert (INW : forall k, covers b k -> in_window (sc_size st) s0 (bk_nslots b0) N k).
      { intros k' K'. destruct (XW k' K') as [(z & E1 & E2)|(_ & z & m' & E1 & E2 & E3)];
          rewrite Y1 in E1; injection E1; intros <-.
        - apply window_contains; lia.
        - destruct (TL m' E2) as (N' & TN' & LN'). rewrite TN in TN'; injection TN'; intros <-.
          eapply window_nested; [|exact E3]. lia. }
      assert (W1 : covers b s) by (exists s; split; [assumption|lia]).
      assert (W2 : covers b (s + bk_nslots b - 1)) by (exists s; split; [assumption|lia]).
      apply INW in W1, W2. destruct W1 as (_ & W1), W2 as (_ & W2). lia.
  - intros _ i b0 s0 w H S0 T. destruct (CS i b0 H) as [_ CS']. destruct (CS' s0 S0) as (ms & SO & EQ & TR).
    apply TR in T. apply In_nth_error in T. destruct T as (j & T).
    destruct (S i j (ext_window (sc_size st) s0 (bk_nslots b0) w)) as (b & HB & X).
    { rewrite EQ, nth_error_map, T. reflexivity. }
    exists b. split; [assumption|]. intros Y k K. apply X; [|now apply window_In].
    intros k' K'. apply Y. now apply window_In.
Qed.

(** ** Errors *)

Lemma ext_candidates_err : forall dt size thr ev ext b e,
  ext_candidates dt size thr ev ext b = Err e <->
  e = EIndexError /\ exists s d, bk_start b = Some s /\ ext = Some d /\
    Z.to_nat (cdiv d dt) < bk_nslots b.
Proof.
  intros dt size thr ev ext b e; unfold ext_candidates.
  destruct (bk_start b) as [s|]; [|split; [discriminate|intros (_ & s & d & X & _); discriminate]].
  destruct ext as [d|]; [|split; [discriminate|intros (_ & s' & d & _ & X & _); discriminate]].
  destruct (Nat.eqb_spec (bk_nslots b) (Z.to_nat (cdiv d dt))) as [Q|Q].
  - split; [discriminate|]. intros (_ & s' & d' & _ & X & L). injection X; intros <-. lia.
  - unfold ext_windows. destruct (Z.to_nat (cdiv d dt) - bk_nslots b) as [|m] eqn:M.
    + simpl. split.
      * intros H; injection H; intros <-. split; [reflexivity|]. exists s, d. repeat split. lia.
      * intros (-> & _). reflexivity.
    + simpl. split; [discriminate|]. intros (_ & s' & d' & _ & X & L). injection X; intros <-. lia.
Qed.

Lemma extend_errors : forall done thr md me ev st, runs done md ->
  (forall e, snd (extend done thr md me ev st) = Some e ->
     e = EIndexError /\ fst (extend done thr md me ev st) = (st, done)) /\
  (snd (extend done thr md me ev st) <> None <->
     exists i b s N, nth_error (sc_blocks st) i = Some b /\ bk_start b = Some s /\
       ext_limit md me (sc_dt st) i = Some N /\ N < bk_nslots b).
Proof.
  intros done thr md me ev st R. rewrite extend_unfold by assumption.
  assert (EL : forall i N, ext_limit md me (sc_dt st) i = Some N <->
             exists d, ext_of md me i = Some d /\ N = Z.to_nat (cdiv d (sc_dt st))).
  { intros i N. unfold ext_limit, ext_of.
    destruct (match md with None => me i | Some d => Some d end) as [d|].
    - split; [intros H; injection H; intros <-; now exists d|].
      intros (d' & X & ->). congruence.
    - split; [discriminate|]. intros (d' & X & _). discriminate. }
  destruct (ext_cands thr md me ev st) as [cands|e] eqn:C.
  - split; [discriminate|]. split; [simpl; congruence|]. intros (i & b & s & N & B & S & L & G).
    exfalso. apply EL in L. destruct L as (d & X & ->).
    apply collect_ok in C. destruct C as [_ C]. specialize (C i).
    rewrite nth_error_imap, B in C. simpl in C.
    assert (Y : ext_candidates (sc_dt st) (sc_size st) thr (ev i) (ext_of md me i) b = Err EIndexError).
    { apply ext_candidates_err. split; [reflexivity|]. exists s, d. auto. }
    rewrite Y in C. destruct (nth_error cands i); discriminate.
  - apply collect_err in C. destruct C as (i & C). rewrite nth_error_imap in C.
    destruct (nth_error (sc_blocks st) i) as [b|] eqn:B; [|discriminate]. simpl in C.
    injection C; clear C; intros C. apply ext_candidates_err in C.
    destruct C as (-> & s & d & S & X & L). split.
    + intros e E. simpl in E. injection E; intros <-. split; reflexivity.
    + split; [|simpl; discriminate]. intros _. exists i, b, s, (Z.to_nat (cdiv d (sc_dt st))).
      split; [assumption|]. split; [assumption|]. split; [|assumption]. apply EL. now exists d.
Qed.

(** ** The relative threshold *)

Lemma mean_unique : forall l q q', mean_or_zero l q -> mean_or_zero l q' -> (q == q')%Q.
Proof.
  intros l q q' A B. apply treat_complete in A, B. destruct A as (x & X & <-), B as (y & Y & <-).
  rewrite X in Y. injection Y; intros ->. reflexivity.
Qed.

Lemma qsum_nonneg : forall l, (forall x, In x l -> (0 <= x)%Q) -> (0 <= qsum l)%Q.
Proof.
  induction l as [|x t IH]; intros H; [apply Qle_refl|]. cbn [qsum fold_right].
  assert (0 <= x)%Q by (apply H; now left).
  assert (0 <= qsum t)%Q by (apply IH; intros; apply H; now right). unfold qsum in *. lra.
Qed.

Lemma len_pos : forall A (l : list A), l <> [] -> (0 < inject_Z (Z.of_nat (length l)))%Q.
Proof.
  intros A [|x t] H; [congruence|]. change 0%Q with (inject_Z 0). rewrite <- Zlt_Qlt.
  cbn [length]. lia.
Qed.

Lemma mean_nonneg : forall l q, (forall x, In x l -> (0 <= x)%Q) -> mean_or_zero l q -> (0 <= q)%Q.
Proof.
  intros l q H [[_ E]|(_ & N & E)]; [rewrite E; apply Qle_refl|].
  pose proof (qsum_nonneg l H). pose proof (len_pos _ l N).
  apply Qnot_lt_le. intros C. nra.
Qed.

Lemma qsum_const : forall l c, (forall x, In x l -> (x == c)%Q) ->
  (qsum l == c * inject_Z (Z.of_nat (length l)))%Q.
Proof.
  induction l as [|x t IH]; intros c H.
  - simpl. change (inject_Z (Z.of_nat 0)) with 0%Q. ring.
  - cbn [qsum fold_right length]. rewrite Nat2Z.inj_succ. unfold Z.succ.
    rewrite inject_Z_plus. change (inject_Z 1) with 1%Q.
    assert (E : (qsum t == c * inject_Z (Z.of_nat (length t)))%Q) by (apply IH; intros; apply H; now right).
    assert (X : (x == c)%Q) by (apply H; now left). unfold qsum in E. rewrite E, X. ring.
Qed.

Lemma mean_const : forall l c q, (forall x, In x l -> (x == c)%Q) -> mean_or_zero l q -> (q == c)%Q.
Proof.
  intros l c q H [[(x & X & E) Q]|(_ & N & E)].
  - rewrite Q, <- (H x X), E. reflexivity.
  - rewrite (qsum_const l c H) in E. pose proof (len_pos _ l N) as P.
    apply Qmult_inj_r in E; [assumption|]. intros C. rewrite C in P. discriminate.
Qed.

Lemma first_not_tried : forall thr md me ev st i b s, (1 <= thr)%Q ->
  nth_error (sc_blocks st) i = Some b -> bk_start b = Some s ->
  (forall w x, In x (ev i w) -> (0 <= x)%Q) ->
  ~ tried thr md me ev st i (bk_nslots b + 1).
Proof.
  intros thr md me ev st i b s T B S NN (b1 & s1 & N & E1 & E2 & E3 & E4 & f & v & F & V & L).
  rewrite B in E1; injection E1; intros <-. rewrite S in E2; injection E2; intros <-.
  pose proof (mean_unique _ _ _ F V) as Q. rewrite <- Q in L.
  pose proof (mean_nonneg _ _ (fun x => NN _ x) F). nra.
Qed.

Lemma uniform_not_tried : forall thr md me ev st i c m, (1 <= thr)%Q -> (0 <= c)%Q ->
  (forall w x, In x (ev i w) -> (x == c)%Q) -> ~ tried thr md me ev st i m.
Proof.
  intros thr md me ev st i c m T C NN (b1 & s1 & N & E1 & E2 & E3 & E4 & f & v & F & V & L).
  apply (mean_const _ c) in F, V; [|intros x X; now apply NN in X|intros x X; now apply NN in X].
  rewrite F, V in L. nra.
Qed.

Lemma not_tried_nothing : forall done thr md me ev st,
  snd (extend done thr md me ev st) = None ->
  (forall i m, ~ tried thr md me ev st i m) ->
  extend done thr md me ev st = (st, true, None).
Proof.
  intros done thr md me ev st E NT.
  assert (R : runs done md \/ (done = true /\ md = None)).
  { unfold runs. destruct done, md; auto; left; right; discriminate. }
  destruct R as [R|[-> ->]]; [|reflexivity].
  rewrite extend_unfold in * by assumption.
  destruct (ext_cands thr md me ev st) as [cands|e] eqn:C; [|discriminate].
  apply cands_spec in C. destruct C as [L CS].
  assert (M : fold_right Nat.max 0 (map (@length _) cands) = 0).
  { assert (X : forall c, In c cands -> c = []).
    { intros c HC. apply In_nth with (d := []) in HC. destruct HC as (i & LT & <-).
      rewrite L in LT. destruct (nth_error (sc_blocks st) i) as [b|] eqn:B; [|apply nth_error_None in B; lia].
      destruct (CS i b B) as [C1 C2]. destruct (bk_start b) as [s|]; [|now apply C1].
      destruct (C2 s eq_refl) as (ms & _ & -> & T). destruct ms as [|m ms]; [reflexivity|].
      exfalso. apply (NT i m). apply T. now left. }
    clear - X. induction cands as [|c t IH]; [reflexivity|]. simpl.
    rewrite (X c) by now left. simpl. apply IH. intros; apply X; now right. }
  rewrite M. reflexivity.
Qed.

(** ** Forms used by the theorems *)

Lemma window_run : forall size s n w, exists a m,
  ext_window size s n w = seq a m /\ a + m <= Nat.max a size /\ m <= w.
Proof.
  intros. exists (win_lo s n w), (win_hi size s n w - win_lo s n w). split; [apply window_seq|].
  unfold win_lo, win_hi. pose proof (half_spec n). pose proof (half_spec w). lia.
Qed.

Lemma window_block : forall size s n w k, s + n <= size -> n <= w ->
  s <= k < s + n -> In k (ext_window size s n w).
Proof. intros. apply window_In. now apply window_contains. Qed.

Lemma window_incl : forall size s n w w' k, w <= w' ->
  In k (ext_window size s n w) -> In k (ext_window size s n w').
Proof. intros size s n w w' k L H. apply window_In in H. apply window_In. revert H. now apply window_nested. Qed.

Lemma window_centred : forall size s n w, n <= w -> w <= s -> s + n + w <= size ->
  exists l r, ext_window size s n w = seq (s - l) (l + n + r) /\ l + n + r = w /\
    l <= r + 1 /\ r <= l + 1.
Proof.
  intros size s n w A B C. exists (w / 2 - n / 2), (w - n - (w / 2 - n / 2)).
  pose proof (half_spec n). pose proof (half_spec w).
  split; [|lia]. rewrite window_seq. unfold win_lo, win_hi. f_equal; lia.
Qed.

Lemma uniform_nothing : forall done thr md me ev st, (1 <= thr)%Q ->
  (forall i, exists c, (0 <= c)%Q /\ forall w x, In x (ev i w) -> (x == c)%Q) ->
  snd (extend done thr md me ev st) = None ->
  extend done thr md me ev st = (st, true, None).
Proof.
  intros done thr md me ev st T U E. apply not_tried_nothing; [assumption|].
  intros i m. destruct (U i) as (c & C & X). exact (uniform_not_tried thr md me ev st i c m T C X).
Qed.
