(** Specification and proofs for the heuristic booking. *)
From Coq Require Import List Arith ZArith QArith Bool Lia Lqa.
From Verif Require Import Base M_Slots M_Sched P_Slots.
Import ListNotations.
Open Scope nat_scope.

(** ** Specification *)

(** The block occupies slot [k]. *)
Definition covers (b : blk) (k : nat) : Prop :=
  exists s, bk_start b = Some s /\ s <= k < s + bk_nslots b.

Definition slot_free (f : list bool) (k : nat) : Prop := nth k f false = true.

(** No two different blocks share a slot. *)
Definition no_overlap (bs : list blk) : Prop :=
  forall i j b c k, i <> j -> nth_error bs i = Some b -> nth_error bs j = Some c ->
    covers b k -> covers c k -> False.

(** Booked blocks are inside the schedule and their slots are not free. *)
Definition booked_ok (f : list bool) (bs : list blk) : Prop :=
  forall i b, nth_error bs i = Some b ->
    forall s, bk_start b = Some s ->
      0 < bk_nslots b /\ s + bk_nslots b <= length f /\
      forall k, covers b k -> ~ slot_free f k.

(** The arrays of a schedule have consistent sizes. *)
Definition sizes_ok (st : sched) : Prop :=
  length (sc_stops st) = sc_size st /\ length (sc_free st) = sc_size st /\
  length (sc_proc st) = sc_size st /\ length (sc_todo st) = length (sc_blocks st).

(** The number of slots of a block is the one its duration requires. *)
Definition nslots_ok (st : sched) : Prop :=
  forall i b, nth_error (sc_blocks st) i = Some b ->
    bk_nslots b = Z.to_nat (cdiv (bk_dur b) (sc_dt st)).

Definition nonneg_scores (bs : list blk) : Prop :=
  forall b, In b bs -> forall x, In x (bk_score b) -> (0 <= x)%Q.

(** Block [i] is booked by the step from [bs] to [bs']. *)
Definition newly (bs bs' : list blk) (i : nat) (b : blk) : Prop :=
  nth_error bs' i = Some b /\ is_booked b = true /\
  exists b0, nth_error bs i = Some b0 /\ bk_start b0 = None.

(** ** Rationals *)

Lemma Qltb_lt : forall a b, Qltb a b = true <-> (a < b)%Q.
Proof.
  intros; unfold Qltb. rewrite negb_true_iff. split; intros H.
  - apply Qnot_le_lt. intros L. apply Qle_bool_iff in L. congruence.
  - destruct (Qle_bool b a) eqn:E; [|reflexivity]. apply Qle_bool_iff in E.
    exfalso; lra.
Qed.

Lemma Qltb_ge : forall a b, Qltb a b = false <-> (b <= a)%Q.
Proof.
  intros; unfold Qltb. rewrite negb_false_iff. apply Qle_bool_iff.
Qed.

Lemma argmax_from_spec : forall l i best bv,
  let r := argmax_from i best bv l in
  (r = best /\ forall j x, nth_error l j = Some x -> (x <= bv)%Q) \/
  (exists j x, nth_error l j = Some x /\ r = i + j /\ (bv < x)%Q /\
     (forall j' y, nth_error l j' = Some y -> (y <= x)%Q) /\
     (forall j' y, j' < j -> nth_error l j' = Some y -> (y < x)%Q)).
Proof.
  induction l as [|x t IH]; intros i best bv r; subst r; simpl.
  - left; split; [reflexivity|]. intros [|j] x H; discriminate.
  - destruct (Qltb bv x) eqn:E.
    + apply Qltb_lt in E. destruct (IH (S i) i x) as [[R F]|(j & y & N & R & L & F1 & F2)].
      * right. exists 0, x. split; [reflexivity|]. split; [lia|]. split; [assumption|]. split.
        -- intros [|j'] y H; [injection H; intros <-; apply Qle_refl|]. now apply (F j').
        -- intros j' y H; lia.
      * right. exists (S j), y. split; [assumption|]. split; [lia|]. split; [lra|]. split.
        -- intros [|j'] z H; [injection H; intros <-; lra|]. now apply (F1 j').
        -- intros [|j'] z Hj H; [injection H; intros <-; assumption|].
           apply (F2 j'); [lia|assumption].
    + apply Qltb_ge in E. destruct (IH (S i) best bv) as [[R F]|(j & y & N & R & L & F1 & F2)].
      * left. split; [assumption|]. intros [|j] y H; [injection H; intros <-; assumption|].
        now apply (F j).
      * right. exists (S j), y. split; [assumption|]. split; [lia|]. split; [assumption|]. split.
        -- intros [|j'] z H; [injection H; intros <-; lra|]. now apply (F1 j').
        -- intros [|j'] z Hj H; [injection H; intros <-; lra|].
           apply (F2 j'); [lia|assumption].
Qed.

Lemma argmax_spec : forall l, l <> [] ->
  exists x, nth_error l (argmax l) = Some x /\
    (forall j y, nth_error l j = Some y -> (y <= x)%Q) /\
    (forall j y, j < argmax l -> nth_error l j = Some y -> (y < x)%Q).
Proof.
  intros [|x t] H; [contradiction|]. unfold argmax.
  destruct (argmax_from_spec t 1 0 x) as [[R F]|(j & y & N & R & L & F1 & F2)]; rewrite R.
  - exists x. split; [reflexivity|]. split.
    + intros [|j] y E; [injection E; intros <-; apply Qle_refl|now apply (F j)].
    + intros; lia.
  - exists y. split; [assumption|]. split.
    + intros [|j'] z E; [injection E; intros <-; lra|now apply (F1 j')].
    + intros [|j'] z Hj E; [injection E; intros <-; assumption|].
      apply (F2 j'); [lia|assumption].
Qed.

Lemma qsum_nonneg : forall l, (forall x, In x l -> (0 <= x)%Q) -> (0 <= qsum l)%Q.
Proof.
  induction l as [|x t IH]; intros H; simpl; [apply Qle_refl|].
  assert (0 <= x)%Q by (apply H; now left).
  assert (0 <= qsum t)%Q by (apply IH; intros; apply H; now right). lra.
Qed.

Lemma inject_pos : forall n, 0 < n -> (0 < inject_Z (Z.of_nat n))%Q.
Proof. intros n H. change 0%Q with (inject_Z 0). rewrite <- Zlt_Qlt. lia. Qed.

Lemma nth_nonneg : forall l k, (forall x, In x l -> (0 <= x)%Q) -> (0 <= nth k l 0)%Q.
Proof.
  intros l k H. destruct (nth_in_or_default k l 0%Q) as [I|E]; [now apply H|].
  rewrite E; apply Qle_refl.
Qed.

Lemma Qdiv_nonneg : forall a b, (0 <= a)%Q -> (0 < b)%Q -> (0 <= a / b)%Q.
Proof. intros. apply Qle_shift_div_l; [assumption|]. lra. Qed.

Lemma window_mean_nonneg : forall l s n, 0 < n ->
  (forall x, In x l -> (0 <= x)%Q) -> (0 <= window_mean l s n)%Q.
Proof.
  intros l s n Hn H; unfold window_mean. apply Qdiv_nonneg; [|now apply inject_pos].
  apply qsum_nonneg. intros x I. apply in_map_iff in I. destruct I as (j & <- & _).
  now apply nth_nonneg.
Qed.

(** ** Scores *)

Definition window_free (f : list bool) (s n : nat) : Prop :=
  forall k, s <= k < s + n -> slot_free f k.

Lemma window_free_dec : forall f s n,
  forallb (fun j => nth (s + j) f false) (seq 0 n) = true <-> window_free f s n.
Proof.
  intros; rewrite forallb_forall. unfold window_free, slot_free. split.
  - intros H k Hk. specialize (H (k - s)). rewrite in_seq in H.
    replace (s + (k - s)) with k in H by lia. apply H; lia.
  - intros H j Hj. apply in_seq in Hj. apply H; lia.
Qed.

Lemma slot_free_lt : forall f k, slot_free f k -> k < length f.
Proof.
  unfold slot_free; intros f k H. destruct (le_lt_dec (length f) k); [|assumption].
  rewrite nth_overflow in H by assumption; discriminate.
Qed.

Lemma cnst_row_length : forall f sc n, length (cnst_row f sc n) = length f.
Proof. intros; apply imap_length. Qed.

Lemma cnst_row_val : forall f sc n s, s + n < length f -> window_free f s n ->
  nth s (cnst_row f sc n) 0%Q = window_mean sc s n.
Proof.
  intros f sc n s H W. unfold cnst_row. rewrite nth_imap with (d' := false) by lia.
  destruct (Nat.ltb_spec (s + n) (length f)); [|lia].
  apply window_free_dec in W. now rewrite W.
Qed.

Lemma cnst_row_zero : forall f sc n s, ~ (s + n < length f /\ window_free f s n) ->
  nth s (cnst_row f sc n) 0%Q = 0%Q.
Proof.
  intros f sc n s H. destruct (le_lt_dec (length f) s).
  { apply nth_overflow. now rewrite cnst_row_length. }
  unfold cnst_row. rewrite nth_imap with (d' := false) by lia.
  destruct (Nat.ltb_spec (s + n) (length f)); [|reflexivity].
  destruct (forallb (fun j => nth (s + j) f false) (seq 0 n)) eqn:E; [|reflexivity].
  apply window_free_dec in E. tauto.
Qed.

Lemma window_free_dec' : forall f s n, window_free f s n \/ ~ window_free f s n.
Proof.
  intros. destruct (forallb (fun j => nth (s + j) f false) (seq 0 n)) eqn:E.
  - left; now apply window_free_dec.
  - right. intros W. apply window_free_dec in W. congruence.
Qed.

Lemma cnst_row_nonneg : forall f sc n s, 0 < n -> (forall x, In x sc -> (0 <= x)%Q) ->
  (0 <= nth s (cnst_row f sc n) 0)%Q.
Proof.
  intros f sc n s Hn H.
  assert (D : (s + n < length f /\ window_free f s n) \/ ~ (s + n < length f /\ window_free f s n)).
  { destruct (window_free_dec' f s n); destruct (lt_dec (s + n) (length f)); tauto. }
  destruct D as [[D1 D2]|D].
  - rewrite cnst_row_val by assumption. now apply window_mean_nonneg.
  - rewrite cnst_row_zero by assumption. apply Qle_refl.
Qed.

Lemma weigh_length : forall m h u r, length (weigh m h u r) = length r.
Proof. intros m [h|] u r; [apply imap_length|reflexivity]. Qed.

(** The day/night weight applied to a start. *)
Definition weight_at (m : list bool) (h : option Q) (u : Q) (s : nat) : Q :=
  match h with
  | None => 1%Q
  | Some v => if nth s m false then budget_weight v u else 1%Q
  end.

Lemma budget_weight_nonneg : forall h u, (0 <= budget_weight h u)%Q.
Proof.
  intros; unfold budget_weight. destruct (Qeq_bool h 0); [apply Qle_refl|].
  destruct (Qle_bool 1 (u / h)) eqn:E; [lra|].
  assert (~ (1 <= u / h)%Q) by (intros L; apply Qle_bool_iff in L; congruence). lra.
Qed.

Lemma weight_at_nonneg : forall m h u s, (0 <= weight_at m h u s)%Q.
Proof.
  intros m [h|] u s; simpl; [|lra]. destruct (nth s m false); [apply budget_weight_nonneg|lra].
Qed.

Lemma weigh_nth : forall m h u r s,
  (nth s (weigh m h u r) 0 == nth s r 0 * weight_at m h u s)%Q.
Proof.
  intros m [h|] u r s; simpl; [|lra].
  destruct (le_lt_dec (length r) s).
  { rewrite !nth_overflow by (rewrite ?imap_length; assumption). lra. }
  rewrite nth_imap with (d' := 0%Q) by assumption.
  destruct (nth s m false); lra.
Qed.

(** Starting slots where a block fits: all its slots are free, and free of
    processing if it requires a delay, and it stops before the last slot. *)
Definition admissible (st : sched) (g : gst) (b : blk) (s : nat) : Prop :=
  s + bk_nslots b < length (g_free g) /\
  window_free (g_free g) s (bk_nslots b) /\
  (bk_ndelay b <> 0 -> forall k, s <= k < s + bk_nslots b -> nth k (g_proc g) 0%Z = 0%Z).

(** Its score there: mean constraint score of the window, weighted. *)
Definition weighted_score (p : params) (st : sched) (g : gst) (b : blk) (s : nat) : Q :=
  (window_mean (bk_score b) s (bk_nslots b)
   * weight_at (sc_day st) (bp_day p) (g_dused g) s
   * weight_at (sc_night st) (bp_night p) (g_nused g) s)%Q.

Lemma slot_avail_length : forall d f pr, length (slot_avail d f pr) = length f.
Proof. intros; unfold slot_avail. destruct (d =? 0); [reflexivity|apply imap_length]. Qed.

Lemma slot_avail_nth : forall d f pr k,
  nth k (slot_avail d f pr) false = true <->
  slot_free f k /\ (d <> 0 -> nth k pr 0%Z = 0%Z).
Proof.
  intros; unfold slot_avail, slot_free. destruct (Nat.eqb_spec d 0).
  - tauto.
  - destruct (le_lt_dec (length f) k).
    + rewrite !nth_overflow by (rewrite ?imap_length; assumption). split; [discriminate|tauto].
    + rewrite nth_imap with (d' := false) by assumption.
      rewrite andb_true_iff, Z.eqb_eq. tauto.
Qed.

Lemma startable_nth : forall a n s, 0 < n -> s + n <= length a ->
  (nth s (startable a n) false = true <-> forall k, s <= k < s + n -> nth k a false = true).
Proof.
  intros a n s Hn H. unfold startable. rewrite nth_imap with (d' := false) by lia.
  rewrite andb_true_iff, forallb_forall. split.
  - intros [_ F] k Hk. specialize (F (k - s)). rewrite in_seq in F.
    replace (s + (k - s)) with k in F by lia.
    rewrite nth_indep with (d' := true) by lia. apply F; lia.
  - intros F. split; [apply F; lia|]. intros j Hj. apply in_seq in Hj.
    rewrite nth_indep with (d' := false) by lia. apply F; lia.
Qed.

Lemma place_score_length : forall p st g r b,
  length (place_score p st g r b) = length r.
Proof. intros; unfold place_score. now rewrite imap_length, !weigh_length. Qed.

(** [row] is the score row of [b] computed when the free slots were [f0]. *)
Lemma place_score_adm : forall p st g f0 b s,
  0 < bk_nslots b -> length (g_free g) = length f0 ->
  (forall k, slot_free (g_free g) k -> slot_free f0 k) ->
  admissible st g b s ->
  (nth s (place_score p st g (cnst_row f0 (bk_score b) (bk_nslots b)) b) 0
   == weighted_score p st g b s)%Q.
Proof.
  intros p st g f0 b s Hn HL HF (A1 & A2 & A3).
  unfold place_score.
  assert (Hs : s < length (cnst_row f0 (bk_score b) (bk_nslots b)))
    by (rewrite cnst_row_length; lia).
  rewrite nth_imap with (d' := 0%Q) by (rewrite !weigh_length; assumption).
  rewrite !weigh_nth.
  rewrite cnst_row_val by (try lia; intros k Hk; apply HF, A2; assumption).
  assert (E1 : nth s (g_free g) false = true) by (apply A2; lia).
  assert (E2 : nth s (startable (slot_avail (bk_ndelay b) (g_free g) (g_proc g)) (bk_nslots b)) false = true).
  { apply startable_nth; [assumption|rewrite slot_avail_length; lia|].
    intros k Hk. apply slot_avail_nth. split; [now apply A2|]. intros D. now apply A3. }
  rewrite E1, E2. unfold weighted_score, b2q. lra.
Qed.

Lemma place_score_nadm : forall p st g f0 b s,
  0 < bk_nslots b -> length (g_free g) = length f0 ->
  ~ admissible st g b s ->
  (nth s (place_score p st g (cnst_row f0 (bk_score b) (bk_nslots b)) b) 0 == 0)%Q.
Proof.
  intros p st g f0 b s Hn HL HA.
  destruct (le_lt_dec (length f0) s) as [L|L].
  { rewrite nth_overflow; [apply Qeq_refl|]. now rewrite place_score_length, cnst_row_length. }
  unfold place_score.
  rewrite nth_imap with (d' := 0%Q) by (rewrite !weigh_length, cnst_row_length; assumption).
  rewrite !weigh_nth.
  destruct (lt_dec (s + bk_nslots b) (length f0)) as [Q|Q].
  - assert (E2 : nth s (startable (slot_avail (bk_ndelay b) (g_free g) (g_proc g)) (bk_nslots b)) false = false).
    { destruct (nth s (startable _ _) false) eqn:E; [|reflexivity]. exfalso; apply HA.
      rewrite startable_nth in E by (rewrite ?slot_avail_length; lia).
      split; [lia|]. split.
      - intros k Hk. now apply E, slot_avail_nth in Hk.
      - intros D k Hk. apply E, slot_avail_nth in Hk. destruct Hk as [_ Hk]; now apply Hk. }
    rewrite E2. unfold b2q at 2. lra.
  - rewrite cnst_row_zero by tauto. lra.
Qed.

Lemma admissible_dec : forall st g b s, admissible st g b s \/ ~ admissible st g b s.
Proof.
  intros. unfold admissible.
  destruct (lt_dec (s + bk_nslots b) (length (g_free g))) as [A|A]; [|tauto].
  destruct (window_free_dec' (g_free g) s (bk_nslots b)) as [B|B]; [|tauto].
  destruct (Nat.eq_dec (bk_ndelay b) 0) as [D|D]; [left; split; [assumption|split; [assumption|tauto]]|].
  destruct (forallb (fun k => (nth (s + k) (g_proc g) 0 =? 0)%Z) (seq 0 (bk_nslots b))) eqn:F.
  - left; split; [assumption|split; [assumption|]]. intros _ k Hk.
    rewrite forallb_forall in F. specialize (F (k - s)). rewrite in_seq in F.
    replace (s + (k - s)) with k in F by lia. apply Z.eqb_eq, F. lia.
  - right. intros (_ & _ & C). specialize (C D).
    rewrite <- not_true_iff_false in F. apply F. apply forallb_forall. intros k Hk.
    apply in_seq in Hk. apply Z.eqb_eq, C. lia.
Qed.

Lemma weighted_score_nonneg : forall p st g b s, 0 < bk_nslots b ->
  (forall x, In x (bk_score b) -> (0 <= x)%Q) -> (0 <= weighted_score p st g b s)%Q.
Proof.
  intros p st g b s Hn H. unfold weighted_score.
  apply Qmult_le_0_compat; [apply Qmult_le_0_compat|];
    [now apply window_mean_nonneg|apply weight_at_nonneg|apply weight_at_nonneg].
Qed.

(** ** One iteration *)

Definition step_pre (st : sched) (g : gst) (b : blk) (row : list Q) (f0 : list bool) : Prop :=
  0 < bk_nslots b /\ length (g_free g) = length f0 /\
  (forall k, slot_free (g_free g) k -> slot_free f0 k) /\
  row = cnst_row f0 (bk_score b) (bk_nslots b) /\
  (forall x, In x (bk_score b) -> (0 <= x)%Q).

Lemma nth_error_nth0 : forall (l : list Q) j x, nth_error l j = Some x -> nth j l 0%Q = x.
Proof. intros; now apply nth_error_nth. Qed.

(** What one iteration does with a block to be placed. *)
Lemma step_choice : forall p st g i b f0,
  nth_error (g_blocks g) i = Some b ->
  nth i (sc_todo st) false = true -> bk_start b = None ->
  step_pre st g b (nth i (sc_cnst st) []) f0 ->
  (exists s, greedy_step p st g i = place st p g i b s /\
     admissible st g b s /\
     (0 < weighted_score p st g b s)%Q /\ (bp_min p <= weighted_score p st g b s)%Q /\
     (forall s', admissible st g b s' -> (weighted_score p st g b s' <= weighted_score p st g b s)%Q) /\
     (forall s', s' < s -> admissible st g b s' ->
        (weighted_score p st g b s' < weighted_score p st g b s)%Q)) \/
  (greedy_step p st g i = g /\
   forall s, admissible st g b s -> (0 < weighted_score p st g b s)%Q ->
     (weighted_score p st g b s < bp_min p)%Q).
Proof.
  intros p st g i b f0 HB HT HS (Hn & HL & HF & HR & HP).
  unfold greedy_step. rewrite HB, HT. unfold is_booked. rewrite HS. cbn [negb orb].
  set (score := place_score p st g (nth i (sc_cnst st) []) b).
  assert (ADM : forall s, admissible st g b s -> (nth s score 0 == weighted_score p st g b s)%Q).
  { intros s A. unfold score. rewrite HR. now apply place_score_adm. }
  assert (NADM : forall s, ~ admissible st g b s -> (nth s score 0 == 0)%Q).
  { intros s A. unfold score. rewrite HR. now apply place_score_nadm. }
  assert (LEN : length score = length f0)
    by (unfold score; now rewrite place_score_length, HR, cnst_row_length).
  destruct (all_zero score) eqn:Z.
  - right. split; [reflexivity|]. intros s A P.
    assert (s < length score) by (destruct A; lia).
    unfold all_zero in Z. rewrite forallb_forall in Z.
    specialize (Z (nth s score 0%Q) (nth_In _ _ H)). apply Qeq_bool_iff in Z.
    rewrite ADM in Z by assumption. lra.
  - destruct (existsb (fun x => Qle_bool (bp_min p) x) score) eqn:X; cbn [negb].
    + left. exists (argmax score). split; [reflexivity|].
      assert (NE : score <> []).
      { intros E. rewrite E in Z. discriminate. }
      destruct (argmax_spec score NE) as (x & E & M1 & M2).
      assert (POS : (0 < x)%Q).
      { rewrite <- not_true_iff_false in Z. unfold all_zero in Z. rewrite forallb_forall in Z.
        destruct (Qlt_le_dec 0 x) as [Q|Q]; [assumption|exfalso].
        apply Z. intros y I. apply In_nth_error in I. destruct I as (j & I).
        apply Qeq_bool_iff.
        assert (L : (y <= x)%Q) by (now apply (M1 j)).
        pose proof (nth_error_nth0 _ _ _ I) as EY.
        destruct (admissible_dec st g b j) as [A|A].
        - pose proof (weighted_score_nonneg p st g b j Hn HP) as W.
          rewrite <- (ADM j A), EY in W. lra.
        - pose proof (NADM j A) as W. rewrite EY in W. exact W. }
      pose proof (nth_error_nth0 _ _ _ E) as EX.
      destruct (admissible_dec st g b (argmax score)) as [A|A];
        [|exfalso; pose proof (NADM _ A) as W; rewrite EX in W; lra].
      pose proof (ADM _ A) as W. rewrite EX in W.
      split; [assumption|]. split; [lra|]. split.
      * apply existsb_exists in X. destruct X as (y & I & L). apply Qle_bool_iff in L.
        apply In_nth_error in I. destruct I as (j & I). pose proof (M1 j y I). lra.
      * split.
        -- intros s' A'. pose proof (ADM _ A') as W'.
           assert (L : s' < length score) by (destruct A'; lia).
           pose proof (M1 s' _ (nth_error_nth' score 0%Q L)). lra.
        -- intros s' Hs A'. pose proof (ADM _ A') as W'.
           assert (L : s' < length score) by (destruct A'; lia).
           pose proof (M2 s' _ Hs (nth_error_nth' score 0%Q L)). lra.
    + right. split; [reflexivity|]. intros s A P.
      assert (L : s < length score) by (destruct A; lia).
      rewrite <- not_true_iff_false, existsb_exists in X.
      destruct (Qlt_le_dec (weighted_score p st g b s) (bp_min p)) as [Q|Q]; [assumption|exfalso].
      apply X. exists (nth s score 0%Q). split; [now apply nth_In|].
      apply Qle_bool_iff. rewrite ADM by assumption. exact Q.
Qed.

Lemma step_skip : forall p st g i,
  (forall b, nth_error (g_blocks g) i = Some b ->
     nth i (sc_todo st) false = false \/ bk_start b <> None) ->
  greedy_step p st g i = g.
Proof.
  intros p st g i H. unfold greedy_step.
  destruct (nth_error (g_blocks g) i) as [b|]; [|reflexivity].
  destruct (H b eq_refl) as [E|E].
  - now rewrite E.
  - unfold is_booked. destruct (bk_start b); [|contradiction].
    now rewrite orb_true_r.
Qed.

(** ** The loop *)

(** Facts about the state on which the loop starts. *)
Definition prepared (st : sched) : Prop :=
  length (sc_free st) = sc_size st /\
  nonneg_scores (sc_blocks st) /\
  forall i b, nth_error (sc_blocks st) i = Some b ->
    0 < bk_nslots b /\
    nth i (sc_cnst st) [] = cnst_row (sc_free st) (bk_score b) (bk_nslots b).

(** Invariant of the loop. *)
Record ginv (st : sched) (g : gst) : Prop := mkGinv {
  gi_len : length (g_free g) = length (sc_free st);
  gi_plen : length (g_proc g) = length (sc_proc st);
  gi_blen : length (g_blocks g) = length (sc_blocks st);
  gi_blk : forall i b, nth_error (g_blocks g) i = Some b ->
    exists b0, nth_error (sc_blocks st) i = Some b0 /\
      (b = b0 \/
       (bk_start b0 = None /\ exists s,
          b = with_place b0 s (nth s (sc_starts st) 0%Z,
                               nth (s + bk_nslots b0 - 1) (sc_stops st) 0%Z) /\
          s + bk_nslots b0 < length (sc_free st) /\
          window_free (sc_free st) s (bk_nslots b0) /\
          nth i (sc_todo st) false = true));
  gi_free : forall k, slot_free (g_free g) k <->
    slot_free (sc_free st) k /\
    forall i b, newly (sc_blocks st) (g_blocks g) i b -> ~ covers b k;
  gi_disj : forall i j b c k, i <> j ->
    newly (sc_blocks st) (g_blocks g) i b -> newly (sc_blocks st) (g_blocks g) j c ->
    covers b k -> covers c k -> False;
}.

Lemma not_booked_covers : forall b k, bk_start b = None -> ~ covers b k.
Proof. intros b k H (s & E & _); congruence. Qed.

Lemma booked_start : forall b, is_booked b = true <-> bk_start b <> None.
Proof. intros b; unfold is_booked. destruct (bk_start b); split; congruence. Qed.

Lemma ginv_init : forall st, prepared st ->
  ginv st (mkG (sc_free st) (sc_proc st) (sc_blocks st) 0%Q 0%Q).
Proof.
  intros st P. constructor; simpl; try reflexivity.
  - intros i b H. exists b; split; [assumption|now left].
  - intros k; split; [|tauto]. intros H; split; [assumption|].
    intros i b (N1 & N2 & b0 & N3 & N4). exfalso. rewrite N1 in N3; injection N3; intros <-.
    apply booked_start in N2; congruence.
  - intros i j b c k _ (N1 & N2 & b0 & N3 & N4). exfalso.
    rewrite N1 in N3; injection N3; intros <-. apply booked_start in N2; congruence.
Qed.

Lemma ginv_place : forall p st g i b s,
  prepared st -> ginv st g ->
  nth_error (g_blocks g) i = Some b -> bk_start b = None ->
  nth i (sc_todo st) false = true ->
  admissible st g b s ->
  ginv st (place st p g i b s).
Proof.
  intros p st g i b s (P0 & P1 & P2) G HB HS HT (A1 & A2 & A3).
  destruct (gi_blk _ _ G i b HB) as (b0 & B0 & Bb).
  assert (b = b0).
  { destruct Bb as [E|(_ & s0 & E & _)]; [assumption|]. subst b. discriminate. }
  subst b0. clear Bb.
  pose proof (gi_len _ _ G) as GL.
  assert (NW : forall j c, newly (sc_blocks st) (g_blocks (place st p g i b s)) j c <->
     (j <> i /\ newly (sc_blocks st) (g_blocks g) j c) \/
     (j = i /\ c = with_place b s (nth s (sc_starts st) 0%Z, nth (s + bk_nslots b - 1) (sc_stops st) 0%Z))).
  { intros j c. unfold newly; simpl. rewrite nth_error_upd.
    destruct (Nat.eqb_spec j i) as [->|Hji].
    - rewrite HB; simpl. split.
      + intros (E & _). injection E; intros <-. right; split; reflexivity.
      + intros [[X _]|[_ ->]]; [contradiction|]. repeat split. now exists b.
    - split; [tauto|]. intros [[_ X]|[X _]]; [assumption|contradiction]. }
  assert (CV : forall k t, covers (with_place b s t) k <-> s <= k < s + bk_nslots b).
  { intros k t; unfold covers; simpl. split.
    - intros (s1 & E & H). injection E; intros <-. exact H.
    - intros H. now exists s. }
  constructor.
  - simpl. now rewrite set_range_length.
  - simpl. destruct (bk_ndelay b =? 0); [apply (gi_plen _ _ G)|].
    unfold freeze_proc. rewrite add_range_length. apply (gi_plen _ _ G).
  - simpl. rewrite upd_length. apply (gi_blen _ _ G).
  - intros j c; simpl. rewrite nth_error_upd.
    destruct (Nat.eqb_spec j i) as [->|Hji].
    + rewrite HB; simpl. intros E; injection E; intros <-.
      exists b. split; [assumption|]. right. split; [assumption|].
      exists s. split; [reflexivity|]. split; [lia|]. split; [|assumption].
      intros k Hk. apply (gi_free _ _ G), A2. exact Hk.
    + apply (gi_blk _ _ G).
  - intros k. simpl g_free.
    destruct (le_lt_dec (length (g_free g)) k) as [L|L].
    { unfold slot_free. rewrite !nth_overflow by (rewrite ?set_range_length; lia).
      split; [discriminate|]. intros [X _]; discriminate. }
    unfold slot_free at 1. rewrite nth_set_range by assumption.
    destruct (in_range s (s + bk_nslots b) k) eqn:R.
    + apply in_range_true in R. split; [discriminate|].
      intros [_ X]. exfalso. eapply (X i); [apply NW; right; split; reflexivity|]. now apply CV.
    + apply in_range_false in R. fold (slot_free (g_free g) k). rewrite (gi_free _ _ G).
      split; intros [X Y]; (split; [assumption|]); intros j c N.
      * apply NW in N. destruct N as [[_ N]|[_ ->]]; [now apply (Y j)|]. now rewrite CV.
      * destruct (Nat.eq_dec j i) as [->|Hj].
        -- destruct N as (N1 & N2 & _). rewrite N1 in HB. injection HB; intros ->.
           apply booked_start in N2; congruence.
        -- apply (Y j), NW. now left.
  - intros j j' c c' k Hjj N N' C C'. apply NW in N. apply NW in N'.
    destruct N as [[Hj N]|[-> ->]], N' as [[Hj' N']|[-> ->]].
    + eapply (gi_disj _ _ G j j'); eassumption.
    + apply CV in C'. specialize (A2 k C'). apply (gi_free _ _ G) in A2.
      destruct A2 as [_ A2]. now apply (A2 j c N).
    + apply CV in C. specialize (A2 k C). apply (gi_free _ _ G) in A2.
      destruct A2 as [_ A2]. now apply (A2 j' c' N').
    + contradiction.
Qed.

Lemma ginv_step_pre : forall st g i b, prepared st -> ginv st g ->
  nth_error (g_blocks g) i = Some b -> bk_start b = None ->
  step_pre st g b (nth i (sc_cnst st) []) (sc_free st).
Proof.
  intros st g i b (P0 & P1 & P2) G HB HS.
  destruct (gi_blk _ _ G i b HB) as (b0 & B0 & Bb).
  assert (b = b0).
  { destruct Bb as [E|(_ & s0 & E & _)]; [assumption|]. subst b. discriminate. }
  subst b0. destruct (P2 i b B0) as [Q1 Q2].
  split; [assumption|]. split; [apply (gi_len _ _ G)|]. split.
  - intros k H. now apply (gi_free _ _ G) in H.
  - split; [assumption|]. apply P1. now apply nth_error_In in B0.
Qed.

(** Every iteration either leaves the state as it is or places the block of
    its index, unbooked so far, at an admissible start. *)
Lemma step_cases : forall p st g i, prepared st -> ginv st g ->
  greedy_step p st g i = g \/
  exists b s, nth_error (g_blocks g) i = Some b /\ bk_start b = None /\
    nth i (sc_todo st) false = true /\ admissible st g b s /\
    (0 < weighted_score p st g b s)%Q /\
    greedy_step p st g i = place st p g i b s.
Proof.
  intros p st g i P G.
  destruct (nth_error (g_blocks g) i) as [b|] eqn:HB;
    [|left; apply step_skip; intros b H; congruence].
  destruct (nth i (sc_todo st) false) eqn:HT;
    [|left; apply step_skip; intros c H; now left].
  destruct (bk_start b) eqn:HS;
    [left; apply step_skip; intros c H; right; rewrite HB in H; injection H; intros <-; congruence|].
  destruct (step_choice p st g i b (sc_free st) HB HT HS (ginv_step_pre st g i b P G HB HS))
    as [(s & E & A & W & _)|[E _]].
  - right. exists b, s. repeat split; try assumption; try apply A.
  - now left.
Qed.

Lemma ginv_step : forall p st g i, prepared st -> ginv st g -> ginv st (greedy_step p st g i).
Proof.
  intros p st g i P G.
  destruct (step_cases p st g i P G) as [->|(b & s & HB & HS & HT & A & _ & ->)]; [assumption|].
  now apply ginv_place.
Qed.

Lemma ginv_fold : forall p st l g, prepared st -> ginv st g ->
  ginv st (fold_left (greedy_step p st) l g).
Proof.
  induction l as [|i t IH]; intros g P G; simpl; [assumption|].
  apply IH; [assumption|]. now apply ginv_step.
Qed.

Lemma ginv_greedy : forall p st l, prepared st -> ginv st (greedy p st l).
Proof. intros; apply ginv_fold; [assumption|now apply ginv_init]. Qed.

(** ** Preparation *)

Lemma score_loop_spec : forall dt free bs ts bs' ts' rows,
  length ts = length bs ->
  score_loop dt free bs ts = (bs', ts', rows, None) ->
  bs' = map (fun b => with_nslots b (Z.to_nat (cdiv (bk_dur b) dt))) bs /\
  length ts' = length bs /\
  rows = map (fun b => cnst_row free (bk_score b) (Z.to_nat (cdiv (bk_dur b) dt))) bs /\
  (forall b, In b bs -> 0 < Z.to_nat (cdiv (bk_dur b) dt)) /\
  (forall i, i < length bs ->
     nth i ts' false = (if all_zero (nth i rows []) then false else nth i ts false)).
Proof.
  intros dt free. induction bs as [|b bs IH]; intros ts bs' ts' rows HL E.
  - simpl in E. injection E; intros; subst. repeat split; [intros b []|intros i H; simpl in H; lia].
  - destruct ts as [|t ts]; [discriminate|]. simpl in HL. simpl in E.
    destruct (Nat.eqb_spec (Z.to_nat (cdiv (bk_dur b) dt)) 0) as [Z0|Z0]; [discriminate|].
    destruct (score_loop dt free bs ts) as [[[bs1 ts1] rows1] e1] eqn:E1.
    injection E; intros; subst. destruct (IH ts bs1 ts1 rows1) as (I1 & I2 & I3 & I4 & I5); [lia|assumption|].
    subst bs1 rows1. split; [reflexivity|]. split; [simpl; lia|]. split; [reflexivity|]. split.
    + intros c [<-|I]; [lia|now apply I4].
    + intros [|i] H; [reflexivity|]. simpl. apply I5. simpl in H; lia.
Qed.

Lemma compute_scores_spec : forall st st',
  sizes_ok st -> compute_scores st = (st', None) ->
  sc_free st' = sc_free st /\ sc_proc st' = sc_proc st /\
  sc_starts st' = sc_starts st /\ sc_stops st' = sc_stops st /\
  sc_dt st' = sc_dt st /\ sc_hour st' = sc_hour st /\
  sc_day st' = sc_day st /\ sc_night st' = sc_night st /\
  sc_blocks st' = map (fun b => with_nslots b (Z.to_nat (cdiv (bk_dur b) (sc_dt st)))) (sc_blocks st) /\
  sc_cnst st' = map (fun b => cnst_row (sc_free st) (bk_score b) (Z.to_nat (cdiv (bk_dur b) (sc_dt st)))) (sc_blocks st) /\
  (forall b, In b (sc_blocks st) -> 0 < Z.to_nat (cdiv (bk_dur b) (sc_dt st))) /\
  length (sc_todo st') = length (sc_blocks st') /\
  (forall i, i < length (sc_blocks st) ->
     nth i (sc_todo st') false =
       (if all_zero (nth i (sc_cnst st') []) then false else nth i (sc_todo st) false)) /\
  0 < sc_size st.
Proof.
  intros st st' (S1 & S2 & S3 & S4) E. unfold compute_scores in E.
  destruct (Nat.eqb_spec (sc_size st) 0) as [Z0|Z0]; [discriminate|].
  destruct (score_loop (sc_dt st) (sc_free st) (sc_blocks st) (sc_todo st)) as [[[bs ts] rows] e] eqn:E1.
  injection E; intros; subst e st'. simpl.
  apply score_loop_spec in E1; [|assumption]. destruct E1 as (-> & I2 & -> & I4 & I5).
  repeat split; try reflexivity; try assumption.
  - now rewrite map_length.
  - lia.
Qed.

(** ** reset *)

Lemma reset_one_length : forall fp b, length (fst (reset_one fp b)) = length (fst fp) /\
  length (snd (reset_one fp b)) = length (snd fp).
Proof.
  intros [f p] b; unfold reset_one; simpl. destruct (bk_start b); [|now split].
  simpl. split; [apply set_range_length|]. destruct (bk_ndelay b =? 0); [reflexivity|].
  unfold py_add_slice. apply add_range_length.
Qed.

Lemma reset_fold_length : forall bs fp,
  length (fst (fold_left reset_one bs fp)) = length (fst fp) /\
  length (snd (fold_left reset_one bs fp)) = length (snd fp).
Proof.
  induction bs as [|b t IH]; intros fp; [now split|]. simpl.
  destruct (IH (reset_one fp b)) as [A B]. destruct (reset_one_length fp b) as [C D].
  split; congruence.
Qed.

Lemma reset_fold_free : forall bs fp k,
  slot_free (fst (fold_left reset_one bs fp)) k <->
  k < length (fst fp) /\ (slot_free (fst fp) k \/ exists b, In b bs /\ covers b k).
Proof.
  induction bs as [|b t IH]; intros fp k; simpl.
  - split.
    + intros H; split; [now apply slot_free_lt in H|now left].
    + intros [_ [H|(b & [] & _)]]; assumption.
  - rewrite IH. destruct (reset_one_length fp b) as [C _]. rewrite C.
    assert (R : k < length (fst fp) ->
      (slot_free (fst (reset_one fp b)) k <-> slot_free (fst fp) k \/ covers b k)).
    { intros L. unfold reset_one, covers. destruct (bk_start b) as [s|] eqn:E.
      - simpl. unfold slot_free at 1. rewrite nth_set_range by assumption.
        destruct (in_range s (s + bk_nslots b) k) eqn:R.
        + apply in_range_true in R. split; [intros _; right; exists s; now split|reflexivity].
        + apply in_range_false in R. split; [now left|]. intros [X|(s' & Q & X)]; [exact X|].
          injection Q; intros ->. contradiction.
      - split; [now left|]. intros [X|(s' & Q & _)]; [exact X|congruence]. }
    split.
    + intros (L & X). split; [assumption|]. destruct X as [X|(c & I & X)].
      * apply R in X; [|assumption]. destruct X as [X|X]; [now left|].
        right; exists b; split; [now left|assumption].
      * right; exists c; split; [now right|assumption].
    + intros (L & X). split; [assumption|]. destruct X as [X|(c & [<-|I] & X)].
      * left. apply R; [assumption|now left].
      * left. apply R; [assumption|now right].
      * right; exists c; now split.
Qed.

Lemma reset_free : forall st k,
  slot_free (sc_free (reset_bookings st)) k <->
  k < length (sc_free st) /\
  (slot_free (sc_free st) k \/ exists b, In b (sc_blocks st) /\ covers b k).
Proof. intros; apply (reset_fold_free (sc_blocks st) (sc_free st, sc_proc st)). Qed.

Lemma reset_unbooked : forall st i b,
  nth_error (sc_blocks (reset_bookings st)) i = Some b ->
  bk_start b = None /\ exists b0, nth_error (sc_blocks st) i = Some b0 /\ b = with_start b0 None.
Proof.
  intros st i b H. unfold reset_bookings in H; simpl in H.
  rewrite nth_error_map in H. destruct (nth_error (sc_blocks st) i) as [b0|]; [|discriminate].
  injection H; intros <-. split; [reflexivity|]. now exists b0.
Qed.

Lemma sizes_reset : forall st, sizes_ok st -> sizes_ok (reset_bookings st).
Proof.
  intros st (S1 & S2 & S3 & S4). unfold sizes_ok, reset_bookings, sc_size; simpl.
  destruct (reset_fold_length (sc_blocks st) (sc_free st, sc_proc st)) as [A B]. simpl in A, B.
  rewrite A, B, map_length. repeat split; assumption.
Qed.
