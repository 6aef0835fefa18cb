(** Specification and lemmas for the combination of constraints. *)
From Coq Require Import List Arith ZArith QArith Bool Lia Lqa Permutation.
From Verif Require Import Base M_Sched M_Cnst P_Booking.
Import ListNotations.
Open Scope nat_scope.

(** ** Specification *)

(** [q] is the mean of the pairs (weight, value). *)
Definition wmean (l : list (Q * Q)) (q : Q) : Prop :=
  (q * qsum (map fst l) == qsum (map (fun p => fst p * snd p) l))%Q.

Definition positive_weights (ws : list Q) : Prop := Forall (fun w => (0 < w)%Q) ws.

(** ** Sums *)

Lemma qsum_app : forall a b, (qsum (a ++ b) == qsum a + qsum b)%Q.
Proof.
  induction a as [|x t IH]; intros b; simpl.
  - lra.
  - unfold qsum in *. simpl. rewrite IH. lra.
Qed.

Lemma qsum_perm : forall a b, Permutation a b -> (qsum a == qsum b)%Q.
Proof.
  induction 1 as [|x a b P IH|x y a|a b c P IH Q IH2]; unfold qsum in *; simpl.
  - reflexivity.
  - rewrite IH. reflexivity.
  - lra.
  - rewrite IH. exact IH2.
Qed.

Lemma qsum_pos : forall ws, positive_weights ws -> ws <> [] -> (0 < qsum ws)%Q.
Proof.
  induction ws as [|w [|v t] IH]; intros P N; [congruence| |].
  - inversion P; subst. unfold qsum; simpl. lra.
  - inversion P; subst. specialize (IH H2 ltac:(discriminate)). unfold qsum in *. simpl in *. lra.
Qed.

Lemma qsum_nonneg_weights : forall ws, positive_weights ws -> (0 <= qsum ws)%Q.
Proof.
  intros [|w t] P; [apply Qle_refl|]. apply Qlt_le_weak, qsum_pos; [assumption|discriminate].
Qed.

(** ** Average *)

Lemma weighted_sum_known : forall ws qs, length ws = length qs ->
  exists s, weighted_sum ws (map Some qs) = Some s /\
    (s == qsum (map (fun p => fst p * snd p) (combine ws qs)))%Q.
Proof.
  induction ws as [|w ws IH]; intros [|q qs] L; try discriminate.
  - exists 0%Q. split; reflexivity.
  - injection L; intros L'. destruct (IH qs L') as (s & E & S). simpl. rewrite E. simpl.
    exists (w * q + s)%Q. split; [reflexivity|]. unfold qsum in *. simpl. now rewrite S.
Qed.

Lemma weighted_sum_nan : forall ws xs, In None xs -> weighted_sum ws xs = None.
Proof.
  intros ws xs; revert ws; induction xs as [|[x|] xs IH]; intros [|w ws] H; simpl in *; try tauto; try reflexivity.
  destruct H as [H|H]; [discriminate|]. now rewrite IH.
Qed.

Lemma combine_fst : forall A B (l : list A) (m : list B), length l = length m -> map fst (combine l m) = l.
Proof.
  induction l as [|x t IH]; intros [|y m] L; simpl in *; try reflexivity; try discriminate.
  injection L; intros L'. now rewrite IH.
Qed.

Lemma average_known : forall ws qs, length ws = length qs -> positive_weights ws -> ws <> [] ->
  exists q, average ws (map Some qs) = Some q /\ wmean (combine ws qs) q.
Proof.
  intros ws qs L P N. destruct (weighted_sum_known ws qs L) as (s & E & S).
  unfold average. rewrite E. simpl. eexists. split; [reflexivity|]. unfold wmean.
  rewrite combine_fst by assumption. rewrite <- S.
  pose proof (qsum_pos ws P N). field. intros C. lra.
Qed.

Lemma known_or_nan : forall xs : vec, In None xs \/ exists qs, xs = map Some qs.
Proof.
  induction xs as [|[x|] t IH].
  - right. exists []. reflexivity.
  - destruct IH as [H|(qs & E)]; [left; now right|right]. exists (x :: qs). simpl. now rewrite E.
  - left. now left.
Qed.

Lemma wmean_unique : forall l q q', (0 < qsum (map fst l))%Q -> wmean l q -> wmean l q' -> (q == q')%Q.
Proof.
  unfold wmean. intros l q q' P A B. rewrite <- B in A.
  apply Qmult_inj_r in A; [assumption|]. intros C. lra.
Qed.

(** ** One slot *)

Lemma prod_zero_known : forall qs, prod_is_zero (map Some qs) = true <-> exists q, In q qs /\ (q == 0)%Q.
Proof.
  intros qs. unfold prod_is_zero.
  assert (E : existsb is_nan (map Some qs) = false).
  { apply not_true_iff_false. intros H. apply existsb_exists in H. destruct H as (x & X & Y).
    apply in_map_iff in X. destruct X as (q & <- & _). discriminate. }
  rewrite E. simpl. rewrite existsb_exists. split.
  - intros (x & X & Y). apply in_map_iff in X. destruct X as (q & <- & I). apply Qeq_bool_iff in Y. now exists q.
  - intros (q & I & Z). exists (Some q). split; [now apply in_map|]. now apply Qeq_bool_iff.
Qed.

Lemma slot_nan : forall ws xs, In None xs -> combine_slot ws xs = 0%Q.
Proof.
  intros ws xs H. unfold combine_slot, average. rewrite weighted_sum_nan by assumption. simpl.
  now destruct (prod_is_zero xs).
Qed.

Lemma slot_zero : forall ws xs, (exists q, In (Some q) xs /\ (q == 0)%Q) -> combine_slot ws xs = 0%Q.
Proof.
  intros ws xs (q & I & Z). destruct (known_or_nan xs) as [N|(qs & ->)]; [now apply slot_nan|].
  unfold combine_slot. assert (P : prod_is_zero (map Some qs) = true).
  { apply prod_zero_known. apply in_map_iff in I. destruct I as (q' & E & I). injection E; intros ->. now exists q. }
  now rewrite P.
Qed.

Lemma slot_mean : forall ws qs, length ws = length qs -> positive_weights ws -> ws <> [] ->
  (forall q, In q qs -> ~ (q == 0)%Q) -> wmean (combine ws qs) (combine_slot ws (map Some qs)).
Proof.
  intros ws qs L P N Z. unfold combine_slot.
  assert (E : prod_is_zero (map Some qs) = false).
  { apply not_true_iff_false. intros H. apply prod_zero_known in H. destruct H as (q & I & C). now apply (Z q I). }
  rewrite E. destruct (average_known ws qs L P N) as (q & -> & W). exact W.
Qed.

(** A weighted mean is between bounds of the values. *)
Lemma wmean_bounds : forall ws qs q lo hi, length ws = length qs -> positive_weights ws -> ws <> [] ->
  (forall x, In x qs -> (lo <= x <= hi)%Q) -> wmean (combine ws qs) q -> (lo <= q <= hi)%Q.
Proof.
  intros ws qs q lo hi L P N B W. unfold wmean in W. rewrite combine_fst in W by assumption.
  pose proof (qsum_pos ws P N) as S.
  assert (X : (lo * qsum ws <= qsum (map (fun p => fst p * snd p) (combine ws qs)) <= hi * qsum ws)%Q).
  { clear N W S. revert qs L B. induction ws as [|w ws IH]; intros [|x qs] L B; try discriminate.
    - unfold qsum; simpl. lra.
    - inversion P; subst. injection L; intros L'.
      specialize (IH H2 qs L' ltac:(intros; apply B; now right)).
      specialize (B x (or_introl eq_refl)). unfold qsum in *. simpl in *. nra. }
  rewrite <- W in X. split; apply Qnot_lt_le; intros C; nra.
Qed.

Lemma slot_bounds : forall ws xs, length ws = length xs -> positive_weights ws -> ws <> [] ->
  (forall q, In (Some q) xs -> (0 <= q <= 1)%Q) -> (0 <= combine_slot ws xs <= 1)%Q.
Proof.
  intros ws xs L P N B. destruct (known_or_nan xs) as [H|(qs & ->)].
  - rewrite slot_nan by assumption. lra.
  - unfold combine_slot. destruct (prod_is_zero (map Some qs)); [lra|].
    rewrite map_length in L. destruct (average_known ws qs L P N) as (q & -> & W).
    eapply wmean_bounds; try eassumption. intros x X. apply B. now apply in_map.
Qed.

Lemma slot_between : forall ws qs lo hi, length ws = length qs -> positive_weights ws -> ws <> [] ->
  (forall q, In q qs -> (lo <= q <= hi)%Q /\ ~ (q == 0)%Q) -> (lo <= combine_slot ws (map Some qs) <= hi)%Q.
Proof.
  intros ws qs lo hi L P N B. eapply wmean_bounds; try eassumption.
  - intros x X. now apply B.
  - apply slot_mean; try assumption. intros q I. now apply B.
Qed.

(** The slot is usable exactly when every constraint is positive there. *)
Lemma slot_positive : forall ws xs, length ws = length xs -> positive_weights ws -> ws <> [] ->
  (forall q, In (Some q) xs -> (0 <= q)%Q) ->
  ((0 < combine_slot ws xs)%Q <-> forall x, In x xs -> exists q, x = Some q /\ (0 < q)%Q).
Proof.
  intros ws xs L P N B. split.
  - intros H x X. destruct (known_or_nan xs) as [C|(qs & ->)].
    + rewrite slot_nan in H by assumption. lra.
    + apply in_map_iff in X. destruct X as (q & <- & I). exists q. split; [reflexivity|].
      assert (0 <= q)%Q by (apply B; now apply in_map).
      destruct (Qlt_le_dec 0 q) as [G|G]; [assumption|].
      rewrite slot_zero in H; [lra|]. exists q. split; [now apply in_map|]. lra.
  - intros H. destruct (known_or_nan xs) as [C|(qs & ->)].
    + destruct (H None C) as (q & E & _). discriminate.
    + rewrite map_length in L.
      assert (Z : forall q, In q qs -> (0 < q)%Q).
      { intros q I. destruct (H (Some q) (in_map Some qs q I)) as (q' & E & G). injection E; intros ->. assumption. }
      pose proof (slot_mean ws qs L P N ltac:(intros q I C; specialize (Z q I); lra)) as W.
      unfold wmean in W. rewrite combine_fst in W by assumption.
      pose proof (qsum_pos ws P N) as S.
      assert (T : (0 < qsum (map (fun p => fst p * snd p) (combine ws qs)))%Q).
      { clear W S H B. revert qs L Z N. induction ws as [|w ws IH]; intros [|x qs] L Z N; try discriminate; [congruence|].
        inversion P; subst. injection L; intros L'.
        assert (0 < x)%Q by (apply Z; now left).
        destruct ws as [|w' ws'].
        - destruct qs; [|discriminate]. unfold qsum; simpl. nra.
        - specialize (IH H2 qs L' ltac:(intros; apply Z; now right) ltac:(discriminate)).
          unfold qsum in *. cbn [combine map fold_right fst snd] in *. nra. }
      rewrite <- W in T. apply Qnot_le_lt. intros C. nra.
Qed.

Lemma slot_ones : forall ws xs, length ws = length xs -> positive_weights ws -> ws <> [] ->
  (forall x, In x xs -> exists q, x = Some q /\ (q == 1)%Q) -> (combine_slot ws xs == 1)%Q.
Proof.
  intros ws xs L P N H. destruct (known_or_nan xs) as [C|(qs & ->)].
  - destruct (H None C) as (q & E & _). discriminate.
  - rewrite map_length in L.
    assert (Z : forall q, In q qs -> (q == 1)%Q).
    { intros q I. destruct (H (Some q) (in_map Some qs q I)) as (q' & E & G). injection E; intros ->. assumption. }
    assert (B : (1 <= combine_slot ws (map Some qs) <= 1)%Q).
    { apply slot_between; try assumption. intros q I. rewrite (Z q I). split; [lra|discriminate]. }
    lra.
Qed.

(** The order of the constraints does not matter. *)
Lemma combine_map_some : forall ws qs, combine ws (map Some qs) = map (fun p : Q * Q => (fst p, Some (snd p))) (combine ws qs).
Proof. induction ws as [|w ws IH]; intros [|q qs]; simpl; try reflexivity. now rewrite IH. Qed.

Lemma slot_perm : forall ws xs ws' xs', length ws = length xs -> length ws' = length xs' ->
  positive_weights ws -> Permutation (combine ws xs) (combine ws' xs') ->
  (combine_slot ws xs == combine_slot ws' xs')%Q.
Proof.
  intros ws xs ws' xs' L L' P PM.
  assert (PX : Permutation xs xs').
  { assert (E : forall A B (l : list A) (m : list B), length l = length m -> map snd (combine l m) = m).
    { clear. induction l as [|x t IH]; intros [|y m] L; simpl in *; try reflexivity; try discriminate.
      injection L; intros L'. now rewrite IH. }
    rewrite <- (E _ _ ws xs L), <- (E _ _ ws' xs' L'). now apply Permutation_map. }
  assert (PW : Permutation ws ws').
  { rewrite <- (combine_fst _ _ ws xs L), <- (combine_fst _ _ ws' xs' L'). now apply Permutation_map. }
  destruct (known_or_nan xs) as [C|(qs & EQ)].
  - rewrite slot_nan by assumption. rewrite slot_nan; [reflexivity|]. eapply Permutation_in; eassumption.
  - destruct (known_or_nan xs') as [C|(qs' & EQ')].
    { exfalso. rewrite EQ in PX. apply Permutation_sym in PX. eapply Permutation_in in C; [|exact PX].
      apply in_map_iff in C. destruct C as (q & X & _). discriminate. }
    subst xs xs'. rewrite map_length in L, L'.
    assert (P' : positive_weights ws') by (unfold positive_weights in *; rewrite Forall_forall in *;
      intros w W; apply P; eapply Permutation_in; [apply Permutation_sym, PW|assumption]).
    destruct ws as [|w0 ws0].
    + apply Permutation_nil in PW. subst ws'. destruct qs; [|discriminate]. destruct qs'; [|discriminate]. reflexivity.
    + assert (N' : ws' <> []) by (intros ->; apply Permutation_sym, Permutation_nil in PW; discriminate).
      assert (D : (exists q, In q qs /\ q == 0)%Q \/ forall q, In q qs -> ~ (q == 0)%Q).
      { destruct (existsb (fun q => Qeq_bool q 0) qs) eqn:E.
        - left. apply existsb_exists in E. destruct E as (q & I & Z). apply Qeq_bool_iff in Z. now exists q.
        - right. intros q I Z. rewrite <- not_true_iff_false in E. apply E. apply existsb_exists.
          exists q. split; [assumption|]. now apply Qeq_bool_iff. }
      assert (IN : forall q, In q qs <-> In q qs').
      { intros q. split; intros I.
        - apply (in_map Some) in I. eapply Permutation_in in I; [|exact PX]. apply in_map_iff in I.
          destruct I as (q' & E & I). injection E; intros ->. assumption.
        - apply (in_map Some) in I. eapply Permutation_in in I; [|apply Permutation_sym, PX]. apply in_map_iff in I.
          destruct I as (q' & E & I). injection E; intros ->. assumption. }
      destruct D as [(q & I & Z)|Z].
      * rewrite !slot_zero; [reflexivity| |]; exists q; (split; [|assumption]); apply in_map; [now apply IN|assumption].
      * pose proof (slot_mean (w0 :: ws0) qs L P ltac:(discriminate) Z) as W.
        pose proof (slot_mean ws' qs' L' P' N' ltac:(intros q I; apply Z; now apply IN)) as W'.
        apply (wmean_unique (combine (w0 :: ws0) qs)).
        -- rewrite combine_fst by assumption. apply qsum_pos; [assumption|discriminate].
        -- exact W.
        -- unfold wmean in *. rewrite combine_fst in * by assumption.
           rewrite (qsum_perm _ _ PW). rewrite W'. apply qsum_perm.
           rewrite !combine_map_some in PM.
           assert (X : forall l, map (fun p : Q * Q => (fst p * snd p)%Q) l =
                      map (fun p : Q * option Q => (fst p * match snd p with Some x => x | None => 0 end)%Q)
                        (map (fun p : Q * Q => (fst p, Some (snd p))) l)).
           { intros l. rewrite map_map. reflexivity. }
           rewrite !X. apply Permutation_map, Permutation_sym. exact PM.
Qed.

(** ** All slots *)

Lemma eval_one_row : forall tg ck ns sun c sun' v, eval_one tg ck ns sun c = (sun', Ok (Some v)) ->
  length v = length (ck_time ck) - 1.
Proof.
  assert (F : forall n v r, bind (fit_row n v) (fun r => Ok (Some r)) = Ok (Some r) -> length r = n).
  { intros n v r. unfold fit_row. destruct (Nat.eqb_spec (length v) n) as [E|E].
    - intros H; injection H; intros <-. assumption.
    - destruct v as [|x [|y t]]; simpl; try discriminate. intros H; injection H; intros <-. apply repeat_length. }
  intros tg ck ns sun c sun' v H. unfold eval_one in H.
  apply (f_equal snd) in H. destruct (cn_kind c), tg; simpl in H; try discriminate; now apply F in H.
Qed.

Lemma eval_rows_length : forall tg ck ns cs sun sun' rows, eval_rows tg ck ns sun cs = (sun', Ok rows) ->
  length rows = length cs /\
  forall v, In (Some v) rows -> length v = length (ck_time ck) - 1.
Proof.
  intros tg ck ns; induction cs as [|c t IH]; intros sun sun' rows H; simpl in H.
  - injection H; intros <- _. split; [reflexivity|]. intros v [].
  - destruct (eval_one tg ck ns sun c) as [s1 [r|e]] eqn:E; [|discriminate].
    destruct (eval_rows tg ck ns s1 t) as [s2 [rs|e]] eqn:E2; simpl in H; [|discriminate].
    injection H; intros <- _. destruct (IH _ _ _ E2) as [A B].
    split; [simpl; lia|]. intros v [->|V]; [|now apply B]. now apply eval_one_row in E.
Qed.

(** The value of constraint [j] at slot [k]: its own value if evaluated; if
    not, one when no constraint could be evaluated, else zero. *)
Definition value_at (rows : list (option vec)) (k j : nat) : option Q :=
  match nth j rows None with
  | Some v => nth k v None
  | None => if existsb (fun r : option vec => match r with Some _ => true | None => false end) rows
            then Some 0%Q else Some 1%Q
  end.
Definition values_at (rows : list (option vec)) (k : nat) : vec :=
  map (value_at rows k) (seq 0 (length rows)).

Lemma map_by_index : forall A B (f : A -> B) (l : list A) d,
  map f l = map (fun j => f (nth j l d)) (seq 0 (length l)).
Proof.
  intros A B f l d. induction l as [|x t IH]; [reflexivity|]. simpl. f_equal.
  rewrite <- seq_shift, map_map. exact IH.
Qed.

Lemma filled_values : forall n rows k, k < n ->
  map (fun v => nth k v None) (filled_rows n rows) = values_at rows k.
Proof.
  intros n rows k L. unfold filled_rows, values_at. rewrite map_map.
  assert (E : forallb (fun r : option vec => match r with None => true | Some _ => false end) rows =
              negb (existsb (fun r : option vec => match r with Some _ => true | None => false end) rows)).
  { induction rows as [|[v|] t IH]; simpl; [reflexivity|reflexivity|assumption]. }
  rewrite E. unfold value_at.
  set (b := existsb _ rows). clearbody b. clear E.
  assert (R : forall x : option Q, nth k (repeat x n) None = x).
  { intros x. clear - L. revert k L. induction n as [|n IH]; intros [|k] L; simpl; try lia; [reflexivity|].
    apply IH. lia. }
  rewrite (map_by_index _ _ _ rows None). apply map_ext. intros j.
  destruct (nth j rows None) as [v|]; [reflexivity|]. rewrite R. now destruct b.
Qed.

Lemma combined_length : forall ws n rows, length (combined ws n rows) = n.
Proof. intros. unfold combined. now rewrite map_length, seq_length. Qed.

Lemma combined_nth : forall ws n rows k, k < n ->
  nth k (combined ws n rows) 0%Q = combine_slot ws (values_at rows k).
Proof.
  intros ws n rows k L. unfold combined.
  rewrite (nth_indep _ 0%Q (combine_slot ws (map (fun v => nth 0 v None) (filled_rows n rows))))
    by (rewrite map_length, seq_length; assumption).
  rewrite (map_nth (fun k => combine_slot ws (map (fun v => nth k v None) (filled_rows n rows)))).
  rewrite seq_nth by assumption. simpl. now rewrite filled_values.
Qed.

Lemma evaluate_ok : forall cs tg ck ns sun sun' rows score,
  evaluate cs tg ck ns sun = (sun', Ok (rows, score)) ->
  cs <> [] /\ length rows = length cs /\ length score = length (ck_time ck) - 1 /\
  forall k, k < length (ck_time ck) - 1 ->
    nth k score 0%Q = combine_slot (map cn_weight cs) (values_at rows k).
Proof.
  intros cs tg ck ns sun sun' rows score H. unfold evaluate in H.
  destruct (eval_rows tg ck ns sun cs) as [s1 [rs|e]] eqn:E; simpl in H; [|discriminate].
  destruct cs as [|c t]; [discriminate|].
  assert (rs = rows /\ combined (map cn_weight (c :: t)) (length (ck_time ck) - 1) rs = score) as [-> <-].
  { split; congruence. }
  split; [discriminate|]. apply eval_rows_length in E. split; [tauto|].
  split; [apply combined_length|]. intros k L. now apply combined_nth.
Qed.

Definition weights_ok (cs : list cnst) : Prop := positive_weights (map cn_weight cs).

Lemma values_length : forall rows k, length (values_at rows k) = length rows.
Proof. intros. unfold values_at. now rewrite map_length, seq_length. Qed.

(** Forms for the theorems. *)
Lemma evaluate_bounds : forall cs tg ck ns sun sun' rows score k, weights_ok cs ->
  evaluate cs tg ck ns sun = (sun', Ok (rows, score)) -> k < length score ->
  (forall j q, value_at rows k j = Some q -> (0 <= q <= 1)%Q) ->
  (0 <= nth k score 0 <= 1)%Q.
Proof.
  intros cs tg ck ns sun sun' rows score k W H L B.
  destruct (evaluate_ok _ _ _ _ _ _ _ _ H) as (N & LR & LS & V).
  rewrite V by lia. apply slot_bounds.
  - now rewrite values_length, map_length.
  - exact W.
  - destruct cs; [congruence|discriminate].
  - intros q I. unfold values_at in I. apply in_map_iff in I. destruct I as (j & E & _). now apply B in E.
Qed.

Lemma evaluate_positive : forall cs tg ck ns sun sun' rows score k, weights_ok cs ->
  evaluate cs tg ck ns sun = (sun', Ok (rows, score)) -> k < length score ->
  (forall j q, value_at rows k j = Some q -> (0 <= q)%Q) ->
  ((0 < nth k score 0)%Q <->
   forall j, j < length cs -> exists q, value_at rows k j = Some q /\ (0 < q)%Q).
Proof.
  intros cs tg ck ns sun sun' rows score k W H L B.
  destruct (evaluate_ok _ _ _ _ _ _ _ _ H) as (N & LR & LS & V).
  rewrite V by lia. rewrite slot_positive.
  - split.
    + intros A j J. destruct (A (value_at rows k j)) as (q & E & G).
      * unfold values_at. apply in_map_iff. exists j. split; [reflexivity|]. apply in_seq. lia.
      * now exists q.
    + intros A x X. unfold values_at in X. apply in_map_iff in X. destruct X as (j & <- & J).
      apply in_seq in J. destruct (A j) as (q & E & G); [lia|]. now exists q.
  - now rewrite values_length, map_length.
  - exact W.
  - destruct cs; [congruence|discriminate].
  - intros q I. unfold values_at in I. apply in_map_iff in I. destruct I as (j & E & _). now apply B in E.
Qed.

Lemma evaluate_mean : forall cs tg ck ns sun sun' rows score k qs, weights_ok cs ->
  evaluate cs tg ck ns sun = (sun', Ok (rows, score)) -> k < length score ->
  values_at rows k = map Some qs -> (forall q, In q qs -> ~ (q == 0)%Q) ->
  wmean (combine (map cn_weight cs) qs) (nth k score 0%Q).
Proof.
  intros cs tg ck ns sun sun' rows score k qs W H L E Z.
  destruct (evaluate_ok _ _ _ _ _ _ _ _ H) as (N & LR & LS & V).
  rewrite V by lia. rewrite E. apply slot_mean; try assumption.
  - rewrite map_length. pose proof (values_length rows k) as X. rewrite E, map_length in X. lia.
  - destruct cs; [congruence|discriminate].
Qed.

Lemma evaluate_blocked : forall cs tg ck ns sun sun' rows score k j,
  evaluate cs tg ck ns sun = (sun', Ok (rows, score)) -> k < length score -> j < length cs ->
  (value_at rows k j = None \/ exists q, value_at rows k j = Some q /\ (q == 0)%Q) ->
  nth k score 0%Q = 0%Q.
Proof.
  intros cs tg ck ns sun sun' rows score k j H L J C.
  destruct (evaluate_ok _ _ _ _ _ _ _ _ H) as (N & LR & LS & V). rewrite V by lia.
  assert (I : In (value_at rows k j) (values_at rows k)).
  { unfold values_at. apply in_map_iff. exists j. split; [reflexivity|]. apply in_seq. lia. }
  destruct C as [C|(q & C & Z)]; rewrite C in I.
  - now apply slot_nan.
  - apply slot_zero. now exists q.
Qed.
