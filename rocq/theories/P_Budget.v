(** Day and night budgets of the heuristic booking. *)
From Coq Require Import List Arith ZArith QArith Bool Lia Lqa.
From Verif Require Import Base M_Slots M_Sched P_Slots P_Booking P_Book P_Book2 P_Book3.
Import ListNotations.
Open Scope nat_scope.

(** Number of slots of the mask, free in [f0] and not any more in [f]. *)
Definition used_slots (mask f0 f : list bool) : nat :=
  length (filter (fun k => nth k mask false && nth k f0 false && negb (nth k f false))
                 (seq 0 (length f0))).

Lemma mask_count_seq : forall mask s n,
  mask_count mask s n = length (filter (fun k => nth k mask false) (seq s n)).
Proof.
  unfold mask_count, count_true. intros mask s. revert mask.
  assert (Z : forall n m, length (filter (fun k => nth k (@nil bool) false) (seq m n)) = 0).
  { induction n as [|n IH]; intros m; [reflexivity|]. simpl. destruct m; apply IH. }
  assert (B : forall n mask, length (filter (fun x : bool => x) (firstn n mask)) =
     length (filter (fun k => nth k mask false) (seq 0 n))).
  { induction n as [|n IH]; intros [|x t]; try reflexivity.
    - simpl firstn. rewrite Z. reflexivity.
    - cbn [firstn seq filter nth]. rewrite <- seq_shift.
      assert (E : forall l, length (filter (fun k => nth k (x :: t) false) (map S l)) =
         length (filter (fun k => nth k t false) l)).
      { induction l as [|a l IHl]; [reflexivity|]. cbn [map filter].
        change (nth (S a) (x :: t) false) with (nth a t false).
        destruct (nth a t false); cbn [length]; now rewrite IHl. }
      destruct x; cbn [length]; rewrite E, IH; reflexivity. }
  induction s as [|s IH]; intros mask n; [apply B|].
  destruct mask as [|x t].
  - simpl skipn. rewrite firstn_nil. now rewrite Z.
  - simpl skipn. rewrite IH. rewrite <- seq_shift.
    generalize (seq s n). induction l as [|a l IHl]; [reflexivity|]. cbn [map filter].
    change (nth (S a) (x :: t) false) with (nth a t false).
    destruct (nth a t false); cbn [length]; now rewrite IHl.
Qed.

Lemma filter_ext_len : forall (f g : nat -> bool) l, (forall x, In x l -> f x = g x) ->
  length (filter f l) = length (filter g l).
Proof.
  induction l as [|a l IH]; intros H; [reflexivity|]. simpl.
  rewrite (H a) by now left. destruct (g a); simpl; rewrite IH; auto; intros; apply H; now right.
Qed.

Lemma used_slots_window : forall mask f0 f s n, length f = length f0 -> s + n <= length f0 ->
  window_free f0 s n -> window_free f s n ->
  used_slots mask f0 (set_range s (s + n) false f) = used_slots mask f0 f + mask_count mask s n.
Proof.
  intros mask f0 f s n L F W0 W. unfold used_slots. rewrite mask_count_seq.
  replace (length f0) with (s + (n + (length f0 - s - n))) by lia.
  rewrite !seq_app, !filter_app, !app_length.
  set (r := length f0 - s - n).
  assert (A : forall k, ~ (s <= k < s + n) -> nth k (set_range s (s + n) false f) false = nth k f false).
  { intros k K. destruct (le_lt_dec (length f) k).
    - rewrite !nth_overflow by (rewrite ?set_range_length; lia). reflexivity.
    - rewrite nth_set_range by assumption. apply in_range_false in K. now rewrite K. }
  rewrite (filter_ext_len _ (fun k => nth k mask false && nth k f0 false && negb (nth k f false)) (seq 0 s)).
  2:{ intros x X. apply in_seq in X. rewrite A by lia. reflexivity. }
  rewrite (filter_ext_len _ (fun k => nth k mask false && nth k f0 false && negb (nth k f false)) (seq (0 + s + n) r)).
  2:{ intros x X. apply in_seq in X. rewrite A by lia. reflexivity. }
  rewrite (filter_ext_len _ (fun k => nth k mask false) (seq (0 + s) n)).
  2:{ intros x X. apply in_seq in X. rewrite nth_set_range by lia.
      replace (in_range s (s + n) x) with true by (symmetry; apply in_range_true; lia).
      pose proof (W0 x ltac:(lia)) as Y. unfold slot_free in Y. rewrite Y. now rewrite !andb_true_r. }
  rewrite (filter_ext_len (fun k => nth k mask false && nth k f0 false && negb (nth k f false)) (fun _ => false) (seq (0 + s) n)).
  2:{ intros x X. apply in_seq in X.
      pose proof (W x ltac:(lia)) as Y. unfold slot_free in Y. rewrite Y. apply andb_false_r. }
  assert (Z : forall l : list nat, length (filter (fun _ => false) l) = 0) by (induction l; auto).
  rewrite Z. simpl. lia.
Qed.

Definition hours_of (st : sched) (n : nat) : Q := (inject_Z (Z.of_nat n) * sc_hour st)%Q.

Definition budget_inv (p : params) (st : sched) (g : gst) : Prop :=
  (bp_day p <> None -> (g_dused g == hours_of st (used_slots (sc_day st) (sc_free st) (g_free g)))%Q) /\
  (bp_night p <> None -> (g_nused g == hours_of st (used_slots (sc_night st) (sc_free st) (g_free g)))%Q).

Lemma hours_add : forall st a b, (hours_of st (a + b) == hours_of st a + hours_of st b)%Q.
Proof. intros. unfold hours_of. rewrite Nat2Z.inj_add, inject_Z_plus. ring. Qed.

Lemma budget_step : forall p st g i, prepared st -> ginv st g -> budget_inv p st g ->
  budget_inv p st (greedy_step p st g i).
Proof.
  intros p st g i P G [B1 B2].
  destruct (step_cases p st g i P G) as [->|(b & s & HB & HS & HT & (A1 & A2 & A3) & _ & ->)]; [now split|].
  pose proof (gi_len _ _ G) as GL.
  assert (W0 : window_free (sc_free st) s (bk_nslots b)).
  { intros k K. apply (gi_free _ _ G k). now apply A2. }
  assert (U : forall mask, used_slots mask (sc_free st) (set_range s (s + bk_nslots b) false (g_free g))
     = used_slots mask (sc_free st) (g_free g) + mask_count mask s (bk_nslots b)).
  { intros mask. apply used_slots_window; try assumption. lia. }
  unfold budget_inv, place; cbn [g_free g_dused g_nused]. split; intros N.
  - specialize (B1 N). destruct (bp_day p) as [h|]; [|contradiction].
    rewrite U, hours_add, B1. unfold hours_of. reflexivity.
  - specialize (B2 N). destruct (bp_night p) as [h|]; [|contradiction].
    rewrite U, hours_add, B2. unfold hours_of. reflexivity.
Qed.

Lemma budget_fold : forall p st l g, prepared st -> ginv st g -> budget_inv p st g ->
  budget_inv p st (fold_left (greedy_step p st) l g).
Proof.
  induction l as [|i t IH]; intros g P G B; [assumption|]. simpl.
  apply IH; [assumption|now apply ginv_step|now apply budget_step].
Qed.

Lemma budget_greedy : forall p st l, prepared st -> budget_inv p st (greedy p st l).
Proof.
  intros p st l P. apply budget_fold; [assumption|now apply ginv_init|].
  assert (Z : forall mask, used_slots mask (sc_free st) (sc_free st) = 0).
  { intros mask. unfold used_slots. rewrite (filter_ext_len _ (fun _ => false)).
    - generalize (seq 0 (length (sc_free st))). induction l0; auto.
    - intros x _. destruct (nth x mask false), (nth x (sc_free st) false); reflexivity. }
  unfold budget_inv, hours_of; cbn [g_free g_dused g_nused]. rewrite !Z.
  split; intros _; change (inject_Z (Z.of_nat 0)) with 0%Q; ring.
Qed.

(** ** The weight *)

Lemma budget_weight_spec : forall h u, (0 < h)%Q -> (0 <= u)%Q ->
  ((u < h)%Q -> (budget_weight h u == 1 - u / h)%Q) /\ ((h <= u)%Q -> (budget_weight h u == 0)%Q).
Proof.
  intros h u H U. unfold budget_weight.
  destruct (Qeq_bool h 0) eqn:E; [apply Qeq_bool_iff in E; lra|].
  destruct (Qle_bool 1 (u / h)) eqn:C.
  - apply Qle_bool_iff in C. split; intros X; [|lra].
    assert (Y : (u / h < 1)%Q) by (apply Qlt_shift_div_r; lra). lra.
  - assert (Y : ~ (1 <= u / h)%Q) by (rewrite <- Qle_bool_iff; congruence).
    split; intros X; [lra|]. exfalso. apply Y. apply Qle_shift_div_l; lra.
Qed.

(** Hours of the slots of the mask taken by the call so far. *)
Definition taken_hours (st : sched) (mask f : list bool) : Q :=
  hours_of st (used_slots mask (sc_free st) f).

(** Weight required by a budget [h], [u] hours being taken. *)
Definition linear_weight (h u : Q) : Q := if Qlt_le_dec u h then (1 - u / h)%Q else 0%Q.

Lemma weight_linear : forall h u, (0 <= h)%Q -> (0 <= u)%Q -> (budget_weight h u == linear_weight h u)%Q.
Proof.
  intros h u H U. unfold linear_weight. destruct (Qlt_le_dec u h) as [L|L].
  - apply (budget_weight_spec h u); lra.
  - destruct (Qlt_le_dec 0 h) as [P|P]; [now apply (budget_weight_spec h u)|].
    unfold budget_weight. replace (Qeq_bool h 0) with true; [reflexivity|].
    symmetry. apply Qeq_bool_iff. lra.
Qed.

Lemma weighted_score_spec : forall p st l b s, prepared st ->
  (0 <= sc_hour st)%Q ->
  (forall h, bp_day p = Some h -> (0 <= h)%Q) -> (forall h, bp_night p = Some h -> (0 <= h)%Q) ->
  let g := greedy p st l in
  (weighted_score p st g b s ==
   window_mean (bk_score b) s (bk_nslots b)
   * match bp_day p with
     | Some h => if nth s (sc_day st) false then linear_weight h (taken_hours st (sc_day st) (g_free g)) else 1
     | None => 1 end
   * match bp_night p with
     | Some h => if nth s (sc_night st) false then linear_weight h (taken_hours st (sc_night st) (g_free g)) else 1
     | None => 1 end)%Q.
Proof.
  intros p st l b s P HH HD HN g. unfold weighted_score, weight_at.
  destruct (budget_greedy p st l P) as [B1 B2]. fold g in B1, B2.
  assert (TN : forall mask f, (0 <= taken_hours st mask f)%Q).
  { intros mask f. unfold taken_hours, hours_of.
    assert (0 <= inject_Z (Z.of_nat (used_slots mask (sc_free st) f)))%Q
      by (change 0%Q with (inject_Z 0); rewrite <- Zle_Qle; lia).
    now apply Qmult_le_0_compat. }
  assert (LW : forall h u v, (0 <= h)%Q -> (u == v)%Q -> (0 <= v)%Q -> (budget_weight h u == linear_weight h v)%Q).
  { intros h u v A B C. rewrite weight_linear by (try rewrite B; assumption).
    unfold linear_weight. destruct (Qlt_le_dec u h), (Qlt_le_dec v h); try lra; try reflexivity.
    now rewrite B. }
  destruct (bp_day p) as [h1|]; destruct (bp_night p) as [h2|].
  - destruct (nth s (sc_day st) false), (nth s (sc_night st) false);
      rewrite ?(LW h1 (g_dused g) (taken_hours st (sc_day st) (g_free g)) (HD _ eq_refl) (B1 ltac:(discriminate)) (TN _ _));
      rewrite ?(LW h2 (g_nused g) (taken_hours st (sc_night st) (g_free g)) (HN _ eq_refl) (B2 ltac:(discriminate)) (TN _ _));
      reflexivity.
  - destruct (nth s (sc_day st) false);
      rewrite ?(LW h1 (g_dused g) (taken_hours st (sc_day st) (g_free g)) (HD _ eq_refl) (B1 ltac:(discriminate)) (TN _ _));
      reflexivity.
  - destruct (nth s (sc_night st) false);
      rewrite ?(LW h2 (g_nused g) (taken_hours st (sc_night st) (g_free g)) (HN _ eq_refl) (B2 ltac:(discriminate)) (TN _ _));
      reflexivity.
  - reflexivity.
Qed.

(** ** Exhausted budgets *)

(** The block booked when [i] is visited after [pre]: its start is not in the
    day once the day budget is used up. *)
Lemma day_exhausted : forall p st pre i b s h, prepared st -> (0 <= sc_hour st)%Q ->
  bp_day p = Some h -> (0 <= h)%Q ->
  let g := greedy p st pre in
  newly (g_blocks g) (g_blocks (greedy_step p st g i)) i b -> bk_start b = Some s ->
  (h <= taken_hours st (sc_day st) (g_free g))%Q ->
  nth s (sc_day st) false = false.
Proof.
  intros p st pre i b s h P HH D H g (N1 & N2 & b1 & N3 & N4) HS EX.
  pose proof (ginv_greedy p st pre P) as G. fold g in G.
  destruct (step_cases p st g i P G) as [E|(c & s1 & HB & HC & HT & A & W & E)].
  - rewrite E in N1. rewrite N1 in N3. injection N3; intros ->. unfold is_booked in N2.
    rewrite N4 in N2. discriminate.
  - rewrite E in N1. simpl in N1. rewrite nth_error_upd, Nat.eqb_refl, HB in N1.
    injection N1; intros <-. simpl in HS. injection HS; intros <-.
    destruct (nth s1 (sc_day st) false) eqn:M; [|reflexivity]. exfalso.
    unfold weighted_score, weight_at in W. rewrite D, M in W.
    destruct (budget_greedy p st pre P) as [B1 _]. fold g in B1. specialize (B1 ltac:(congruence)).
    assert (Z : (budget_weight h (g_dused g) == 0)%Q).
    { unfold taken_hours in EX. rewrite weight_linear; [|assumption|lra].
      unfold linear_weight. destruct (Qlt_le_dec (g_dused g) h); [lra|reflexivity]. }
    rewrite Z in W. lra.
Qed.

Lemma night_exhausted : forall p st pre i b s h, prepared st -> (0 <= sc_hour st)%Q ->
  bp_night p = Some h -> (0 <= h)%Q ->
  let g := greedy p st pre in
  newly (g_blocks g) (g_blocks (greedy_step p st g i)) i b -> bk_start b = Some s ->
  (h <= taken_hours st (sc_night st) (g_free g))%Q ->
  nth s (sc_night st) false = false.
Proof.
  intros p st pre i b s h P HH D H g (N1 & N2 & b1 & N3 & N4) HS EX.
  pose proof (ginv_greedy p st pre P) as G. fold g in G.
  destruct (step_cases p st g i P G) as [E|(c & s1 & HB & HC & HT & A & W & E)].
  - rewrite E in N1. rewrite N1 in N3. injection N3; intros ->. unfold is_booked in N2.
    rewrite N4 in N2. discriminate.
  - rewrite E in N1. simpl in N1. rewrite nth_error_upd, Nat.eqb_refl, HB in N1.
    injection N1; intros <-. simpl in HS. injection HS; intros <-.
    destruct (nth s1 (sc_night st) false) eqn:M; [|reflexivity]. exfalso.
    unfold weighted_score, weight_at in W. rewrite D, M in W.
    destruct (budget_greedy p st pre P) as [_ B1]. fold g in B1. specialize (B1 ltac:(congruence)).
    assert (Z : (budget_weight h (g_nused g) == 0)%Q).
    { unfold taken_hours in EX. rewrite weight_linear; [|assumption|lra].
      unfold linear_weight. destruct (Qlt_le_dec (g_nused g) h); [lra|reflexivity]. }
    rewrite Z in W. lra.
Qed.
