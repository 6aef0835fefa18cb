(** Specification and lemmas for each constraint. *)
From Coq Require Import List Arith ZArith QArith Bool Lia Lqa Permutation.
From Verif Require Import Base M_Sched M_Cnst P_Booking P_Cnst.
Import ListNotations.
Open Scope nat_scope.

(** ** Lists *)

Lemma removelast_length : forall A (l : list A), length (removelast l) = length l - 1.
Proof. intros. rewrite removelast_firstn_len, firstn_length. lia. Qed.

Lemma nth_removelast : forall A (l : list A) d k, k < length l - 1 -> nth k (removelast l) d = nth k l d.
Proof.
  induction l as [|x [|y t] IH]; intros d k L; simpl in L; try lia.
  destruct k as [|k]; [reflexivity|]. change (removelast (x :: y :: t)) with (x :: removelast (y :: t)).
  simpl nth at 1. rewrite IH by (simpl; lia). reflexivity.
Qed.

Lemma nth_tl : forall A (l : list A) d k, nth k (tl l) d = nth (S k) l d.
Proof. intros A [|x t] d [|k]; reflexivity. Qed.

Lemma tl_length : forall A (l : list A), length (tl l) = length l - 1.
Proof. intros A [|x t]; simpl; lia. Qed.

Lemma map2_length : forall A B C (f : A -> B -> C) l m, length (map2 f l m) = min (length l) (length m).
Proof. intros. unfold map2. now rewrite map_length, combine_length. Qed.

Lemma nth_map2 : forall A B C (f : A -> B -> C) l m da db dc k, k < length l -> k < length m ->
  nth k (map2 f l m) dc = f (nth k l da) (nth k m db).
Proof.
  induction l as [|x l IH]; intros [|y m] da db dc k L M; simpl in *; try lia.
  destruct k as [|k]; [reflexivity|]. apply IH; lia.
Qed.

Lemma nth_map_in : forall A B (f : A -> B) l da db k, k < length l -> nth k (map f l) db = f (nth k l da).
Proof.
  induction l as [|x l IH]; intros da db k L; simpl in *; [lia|].
  destruct k as [|k]; [reflexivity|]. apply IH. lia.
Qed.

(** A function of the two ends of each slot. *)
Lemma ends_length : forall A B C (f : A -> B -> C) (l : list A) (g : A -> B),
  length (map2 f (starts_of l) (stops_of (map g l))) = length l - 1.
Proof.
  intros. unfold starts_of, stops_of. rewrite map2_length, removelast_length, tl_length, map_length. lia.
Qed.

Lemma fwd_length : forall A C (f : A -> A -> C) l, length (map2 f (starts_of l) (stops_of l)) = length l - 1.
Proof. intros. unfold starts_of, stops_of. rewrite map2_length, removelast_length, tl_length. lia. Qed.

Lemma fwd_nth : forall A C (f : A -> A -> C) l d dc k, k < length l - 1 ->
  nth k (map2 f (starts_of l) (stops_of l)) dc = f (nth k l d) (nth (S k) l d).
Proof.
  intros A C f l d dc k L. unfold starts_of, stops_of.
  rewrite (nth_map2 _ _ _ f _ _ d d) by (rewrite ?removelast_length, ?tl_length; lia).
  now rewrite nth_removelast, nth_tl by assumption.
Qed.

Lemma bwd_length : forall A C (f : A -> A -> C) l, length (map2 f (stops_of l) (starts_of l)) = length l - 1.
Proof. intros. unfold starts_of, stops_of. rewrite map2_length, removelast_length, tl_length. lia. Qed.

Lemma bwd_nth : forall A C (f : A -> A -> C) l d dc k, k < length l - 1 ->
  nth k (map2 f (stops_of l) (starts_of l)) dc = f (nth (S k) l d) (nth k l d).
Proof.
  intros A C f l d dc k L. unfold starts_of, stops_of.
  rewrite (nth_map2 _ _ _ f _ _ d d) by (rewrite ?removelast_length, ?tl_length; lia).
  now rewrite nth_removelast, nth_tl by assumption.
Qed.

Lemma mask_score_length : forall A (f : A -> bool) l, length (mask_score (starts_of (map f l))) = length l - 1.
Proof. intros. unfold mask_score, starts_of. now rewrite map_length, removelast_length, map_length. Qed.

Lemma mask_score_nth : forall A (f : A -> bool) l d k, k < length l - 1 ->
  nth k (mask_score (starts_of (map f l))) None = if f (nth k l d) then Some 1%Q else None.
Proof.
  intros A f l d k L. unfold mask_score, starts_of.
  rewrite (nth_map_in _ _ _ _ false) by (rewrite removelast_length, map_length; lia).
  rewrite nth_removelast by (rewrite map_length; lia).
  rewrite (nth_map_in _ _ f _ d) by lia. reflexivity.
Qed.

Lemma qltb_iff : forall a b, Qltb a b = true <-> (a < b)%Q.
Proof.
  intros a b. unfold Qltb. rewrite negb_true_iff. rewrite <- not_true_iff_false, Qle_bool_iff. split; intros H; lra.
Qed.
Lemma qltb_false : forall a b, Qltb a b = false <-> (b <= a)%Q.
Proof. intros a b. rewrite <- not_true_iff_false, qltb_iff. split; intros H; lra. Qed.
Lemma qle_false : forall a b, Qle_bool a b = false <-> (b < a)%Q.
Proof. intros a b. rewrite <- not_true_iff_false, Qle_bool_iff. split; intros H; lra. Qed.

(** ** Windows of hours *)

(** The instants accepted: between the two hours, both included, or, for a
    window over midnight, strictly outside the complementary window. *)
Definition hour_window (hmin hmax h : Q) : Prop :=
  ((hmin <= hmax)%Q -> (hmin <= h <= hmax)%Q) /\ ((hmax < hmin)%Q -> (hmin < h)%Q \/ (h < hmax)%Q).

Lemma hour_mask_spec : forall hmin hmax h, hour_mask hmin hmax h = true <-> hour_window hmin hmax h.
Proof.
  intros hmin hmax h. unfold hour_mask, hour_window. destruct (Qltb hmax hmin) eqn:E.
  - apply qltb_iff in E. rewrite negb_true_iff, andb_false_iff, !qle_false. split.
    + intros H. split; intros; [lra|tauto].
    + intros [_ H]. tauto.
  - apply qltb_false in E. rewrite andb_true_iff, !Qle_bool_iff. split.
    + intros H. split; intros; [tauto|lra].
    + intros [H _]. tauto.
Qed.

Lemma hour_mask_swap : forall a b h, ~ (a == b)%Q -> hour_mask a b h = negb (hour_mask b a h).
Proof.
  intros a b h N. unfold hour_mask. destruct (Qltb b a) eqn:E1, (Qltb a b) eqn:E2.
  - apply qltb_iff in E1. apply qltb_iff in E2. lra.
  - f_equal. apply andb_comm.
  - now rewrite negb_involutive, andb_comm.
  - apply qltb_false in E1. apply qltb_false in E2. exfalso. apply N. lra.
Qed.

Lemma hour_mask_ends : forall a b, (a < b)%Q ->
  hour_mask a b a = true /\ hour_mask a b b = true /\ hour_mask b a b = false /\ hour_mask b a a = false.
Proof.
  intros a b L. assert (X : forall h, (a <= h <= b)%Q -> hour_mask a b h = true /\ hour_mask b a h = false).
  { intros h H. assert (hour_mask a b h = true) by (apply hour_mask_spec; split; intros; lra).
    split; [assumption|]. rewrite hour_mask_swap by lra. now rewrite H0. }
  destruct (X a) as [A1 A2]; [lra|]. destruct (X b) as [B1 B2]; [lra|]. tauto.
Qed.

Lemma hour_of_range : forall day t, (0 < day)%Z -> (0 <= hour_of day t < 24)%Q.
Proof.
  intros day t D. unfold hour_of. pose proof (Z.mod_pos_bound t day D) as B.
  assert (P : (0 < inject_Z day)%Q) by (change 0%Q with (inject_Z 0); now rewrite <- Zlt_Qlt).
  split.
  - apply Qle_shift_div_l; [assumption|]. rewrite Qmult_0_l. change 0%Q with (inject_Z 0). rewrite <- Zle_Qle. lia.
  - apply Qlt_shift_div_r; [assumption|]. change 24%Q with (inject_Z 24). rewrite <- inject_Z_mult, <- Zlt_Qlt. lia.
Qed.

Lemma hour_of_day : forall day t k, (0 < day)%Z -> hour_of day (t + k * day) = hour_of day t.
Proof. intros day t k D. unfold hour_of. now rewrite Z.mod_add by lia. Qed.

(** [h] hours after a midnight. *)
Lemma hour_of_exact : forall day k x, (0 < day)%Z -> (0 <= x < day)%Z ->
  (hour_of day (k * day + x) * inject_Z day == 24 * inject_Z x)%Q.
Proof.
  intros day k x D X. unfold hour_of. rewrite Z.add_comm, Z.mod_add, Z.mod_small by lia.
  rewrite inject_Z_mult. assert (P : (0 < inject_Z day)%Q) by (change 0%Q with (inject_Z 0); now rewrite <- Zlt_Qlt).
  field. lra.
Qed.

Definition accepted (v : vec) (k : nat) (P : Prop) : Prop :=
  (P -> nth k v None = Some 1%Q) /\ (~ P -> nth k v None = None).

Lemma accepted_mask : forall A (f : A -> bool) l d k P, k < length l - 1 ->
  (f (nth k l d) = true <-> P) -> accepted (mask_score (starts_of (map f l))) k P.
Proof.
  intros A f l d k P L E. unfold accepted. rewrite (mask_score_nth _ f l d) by assumption.
  destruct (f (nth k l d)); split; intros H; try reflexivity.
  - exfalso. apply H. now apply E.
  - apply E in H. discriminate.
Qed.

Lemma utc_spec : forall hmin hmax day time k, k < length time - 1 ->
  accepted (utc_eval hmin hmax day time) k (hour_window hmin hmax (hour_of day (nth k time 0%Z))).
Proof.
  intros. unfold utc_eval. apply accepted_mask with (d := 0%Z); [assumption|]. apply hour_mask_spec.
Qed.

Lemma local_spec : forall hmin hmax day offset time k, k < length time - 1 ->
  accepted (local_eval hmin hmax day offset time) k
    (hour_window hmin hmax (hour_of day (nth k time 0%Z + offset (nth k time 0%Z)))).
Proof.
  intros. unfold local_eval.
  apply accepted_mask with (d := 0%Z) (f := fun t => hour_mask hmin hmax (hour_of day (t + offset t)));
    [assumption|]. apply hour_mask_spec.
Qed.

Lemma range_spec : forall ranges time k, k < length time - 1 ->
  accepted (range_eval ranges time) k
    (exists r, In r ranges /\ (fst r <= nth k time 0 <= snd r)%Z).
Proof.
  intros. unfold range_eval. apply accepted_mask with (d := 0%Z); [assumption|].
  rewrite existsb_exists. split; intros (r & I & E); exists r; (split; [assumption|]).
  - apply andb_true_iff in E. lia.
  - apply andb_true_iff. lia.
Qed.

(** ** Periodic windows *)

Lemma periodic_mask_spec : forall start p tol t, (0 < p)%Z -> (0 <= tol)%Z ->
  (periodic_mask start p tol t = true <-> exists k, (Z.abs (t - (start + k * p)) <= tol)%Z).
Proof.
  intros start p tol t P T. unfold periodic_mask.
  pose proof (Z.mod_pos_bound (t - start) p P) as B. pose proof (Z.div_mod (t - start) p ltac:(lia)) as D.
  set (q := ((t - start) / p)%Z) in *. set (m := ((t - start) mod p)%Z) in *. clearbody q m.
  rewrite orb_true_iff, !Z.leb_le. split.
  - intros [H|H].
    + exists q. replace (t - (start + q * p))%Z with m by lia. lia.
    + exists (q + 1)%Z. replace (t - (start + (q + 1) * p))%Z with (m - p)%Z by lia. lia.
  - intros (k & H).
    assert (C : (k <= q \/ q + 1 <= k)%Z) by lia.
    destruct C as [C|C].
    + left. assert (p * (q - k) >= 0)%Z by nia. lia.
    + right. assert (p * (k - q - 1) >= 0)%Z by nia. lia.
Qed.

Lemma periodic_spec : forall start p tol time k, (0 < p)%Z -> (0 <= tol)%Z -> k < length time - 1 ->
  accepted (periodic_eval start p tol time) k
    (exists i, (Z.abs (nth k time 0 - (start + i * p)) <= tol)%Z).
Proof.
  intros. unfold periodic_eval. apply accepted_mask with (d := 0%Z); [assumption|]. now apply periodic_mask_spec.
Qed.

Lemma periodic_shift : forall start p tol t k, (0 < p)%Z ->
  periodic_mask start p tol (t + k * p) = periodic_mask start p tol t /\
  periodic_mask (start + k * p) p tol t = periodic_mask start p tol t.
Proof.
  intros. unfold periodic_mask.
  replace (t + k * p - start)%Z with (t - start + k * p)%Z by lia.
  replace (t - (start + k * p))%Z with (t - start + (- k) * p)%Z by lia.
  rewrite !Z.mod_add by lia. tauto.
Qed.

(** ** Normalised scores *)

Lemma nanbest_in : forall le v m, nanbest le v = Some m -> In (Some m) v.
Proof.
  induction v as [|[a|] t IH]; intros m H; cbn [nanbest fold_right] in H.
  - discriminate.
  - change (fold_right _ None t) with (nanbest le t) in H. destruct (nanbest le t) as [b|].
    + destruct (le a b); injection H; intros ->; [right; now apply IH|now left].
    + injection H; intros ->. now left.
  - right. now apply IH.
Qed.

Lemma nanbest_none : forall le v, nanbest le v = None <-> forallb is_nan v = true.
Proof.
  induction v as [|[a|] t IH]; cbn [nanbest fold_right forallb is_nan]; [tauto| |].
  - change (fold_right _ None t) with (nanbest le t). destruct (nanbest le t) as [b|].
    + destruct (le a b); split; discriminate.
    + split; discriminate.
  - exact IH.
Qed.

Lemma nanmax_le : forall v m x, nanmax v = Some m -> In (Some x) v -> (x <= m)%Q.
Proof.
  induction v as [|[a|] t IH]; intros m x H I; cbn [nanmax nanbest fold_right] in H.
  - destruct I.
  - change (fold_right _ None t) with (nanmax t) in H. destruct (nanmax t) as [b|] eqn:E.
    + destruct (Qle_bool a b) eqn:L; injection H; intros <-.
      * apply Qle_bool_iff in L. destruct I as [I|I]; [injection I; intros <-; assumption|]. now apply (IH b).
      * apply qle_false in L. destruct I as [I|I]; [injection I; intros <-; apply Qle_refl|].
        specialize (IH b x eq_refl I). lra.
    + injection H; intros <-. destruct I as [I|I]; [injection I; intros <-; apply Qle_refl|].
      exfalso. apply nanbest_none in E. rewrite forallb_forall in E. apply E in I. discriminate.
  - destruct I as [I|I]; [discriminate|]. now apply (IH m).
Qed.

Lemma nanmin_le : forall v m x, nanmin v = Some m -> In (Some x) v -> (m <= x)%Q.
Proof.
  induction v as [|[a|] t IH]; intros m x H I; cbn [nanmin nanbest fold_right] in H.
  - destruct I.
  - change (fold_right _ None t) with (nanmin t) in H. destruct (nanmin t) as [b|] eqn:E.
    + destruct (Qle_bool b a) eqn:L; injection H; intros <-.
      * apply Qle_bool_iff in L. destruct I as [I|I]; [injection I; intros <-; assumption|]. now apply (IH b).
      * apply qle_false in L. destruct I as [I|I]; [injection I; intros <-; apply Qle_refl|].
        specialize (IH b x eq_refl I). lra.
    + injection H; intros <-. destruct I as [I|I]; [injection I; intros <-; apply Qle_refl|].
      exfalso. apply nanbest_none in E. rewrite forallb_forall in E. apply E in I. discriminate.
  - destruct I as [I|I]; [discriminate|]. now apply (IH m).
Qed.

Definition unit_scores (v : vec) : Prop := forall q, In (Some q) v -> (0 <= q <= 1)%Q.

Lemma over_nth : forall v d k, nth k (over v d) None =
  match nth k v None with
  | Some e => if Qeq_bool d 0 then None else Some (e / d)%Q
  | None => None
  end.
Proof. intros. unfold over. now rewrite (map_nth (fun x => match x with Some e => if Qeq_bool d 0 then None else Some (e / d)%Q | None => None end) v None k). Qed.

Lemma over_itself_nth : forall v k, nth k (over_itself v) None =
  match nth k v None with
  | Some e => if Qeq_bool e 0 then None else Some (e / e)%Q
  | None => None
  end.
Proof. intros. unfold over_itself. now rewrite (map_nth (fun x => match x with Some e => if Qeq_bool e 0 then None else Some (e / e)%Q | None => None end) v None k). Qed.

Lemma qeq_false : forall a b, Qeq_bool a b = false <-> ~ (a == b)%Q.
Proof. intros a b. rewrite <- not_true_iff_false, Qeq_bool_iff. tauto. Qed.

Lemma qdiv_self : forall e, ~ (e == 0)%Q -> (e / e == 1)%Q.
Proof. intros. field. assumption. Qed.

Lemma div_unit : forall e d, (0 <= e <= d)%Q -> ~ (d == 0)%Q -> (0 <= e / d <= 1)%Q.
Proof.
  intros e d H N. assert (0 < d)%Q by (destruct (Qlt_le_dec 0 d); [assumption|]; exfalso; apply N; lra).
  split; [apply Qle_shift_div_l|apply Qle_shift_div_r]; lra.
Qed.

Lemma div_unit_neg : forall e d, (d <= e <= 0)%Q -> ~ (d == 0)%Q -> (0 <= e / d <= 1)%Q.
Proof.
  intros e d H N.
  assert (X : (e / d == (- e) / (- d))%Q) by (field; lra).
  rewrite X. apply div_unit; lra.
Qed.

(** *** Elevation *)

(** Elevation in the middle of slot [k]. *)
Definition mid_elevation (el : list Q) (k : nat) : Q := ((nth k el 0 + nth (S k) el 0) / 2)%Q.

Lemma mids_spec : forall (emin : Q) el k, k < length el - 1 -> exists e, (e == mid_elevation el k)%Q /\
  nth k (map (fun e => if Qle_bool e emin then None else Some e)
     (map2 (fun a b => (a + b) / 2)%Q (stops_of el) (starts_of el))) None =
  if Qle_bool e emin then None else Some e.
Proof.
  intros emin el k L. exists ((nth (S k) el 0 + nth k el 0) / 2)%Q. split.
  - unfold mid_elevation. field.
  - rewrite (nth_map_in _ _ _ _ 0%Q) by (rewrite bwd_length; assumption).
    rewrite (bwd_nth _ _ _ el 0%Q) by assumption. reflexivity.
Qed.

Lemma nth_In_lt : forall A (l : list A) d x, In x l -> exists k, k < length l /\ nth k l d = x.
Proof. intros A l d x I. destruct (In_nth l x d I) as (k & L & E). now exists k. Qed.

Lemma elevation_length : forall emin scale el, length (elevation_eval emin scale el) = length el - 1.
Proof.
  intros. unfold elevation_eval.
  destruct (forallb is_nan _); [now rewrite map_length, tl_length|].
  destruct scale; simpl.
  - destruct (nanmax _); unfold over; rewrite !map_length, bwd_length; reflexivity.
  - unfold over_itself. now rewrite !map_length, bwd_length.
Qed.

Lemma elevation_spec : forall emin scale el k, (0 <= emin)%Q -> k < length el - 1 ->
  ((mid_elevation el k <= emin)%Q -> nth k (elevation_eval emin scale el) None = None) /\
  ((emin < mid_elevation el k)%Q ->
   exists q, nth k (elevation_eval emin scale el) None = Some q /\
     (scale = false -> (q == 1)%Q) /\
     (scale = true -> exists top, (q * top == mid_elevation el k)%Q /\
        (exists j, j < length el - 1 /\ (top == mid_elevation el j)%Q) /\
        (forall j, j < length el - 1 -> (mid_elevation el j <= top)%Q))).
Proof.
  intros emin scale el k E L. unfold elevation_eval.
  set (m := map (fun e => if Qle_bool e emin then None else Some e) _).
  assert (LM : length m = length el - 1) by (unfold m; now rewrite map_length, bwd_length).
  assert (M : forall j, j < length el - 1 -> exists e, (e == mid_elevation el j)%Q /\
     nth j m None = if Qle_bool e emin then None else Some e) by (intros; now apply mids_spec).
  clearbody m. destruct (M k L) as (e & EQ & N). split; intros H.
  - assert (X : nth k m None = None) by (rewrite N; assert (Q : Qle_bool e emin = true) by (apply Qle_bool_iff; lra); now rewrite Q).
    destruct (forallb is_nan m).
    + rewrite (nth_map_in _ _ _ _ 0%Q) by (rewrite tl_length; assumption). reflexivity.
    + destruct scale; simpl.
      * destruct (nanmax m); [rewrite over_nth|]; now rewrite X.
      * rewrite over_itself_nth. now rewrite X.
  - assert (X : nth k m None = Some e) by (rewrite N; assert (Q : Qle_bool e emin = false) by (apply qle_false; lra); now rewrite Q).
    assert (I : In (Some e) m) by (rewrite <- X; apply nth_In; lia).
    destruct (forallb is_nan m) eqn:F.
    { rewrite forallb_forall in F. apply F in I. discriminate. }
    destruct scale; simpl.
    + destruct (nanmax m) as [top|] eqn:T.
      2: { apply nanbest_none in T. congruence. }
      pose proof (nanmax_le _ _ _ T I) as LE.
      assert (NZ : Qeq_bool top 0 = false) by (apply qeq_false; lra).
      rewrite over_nth, X, NZ. exists (e / top)%Q. split; [reflexivity|]. split; [discriminate|]. intros _.
      exists top. split; [rewrite <- EQ; field; apply qeq_false; assumption|]. split.
      * apply nanbest_in in T. destruct (nth_In_lt _ _ None _ T) as (j & J & JE). exists j. split; [lia|].
        destruct (M j ltac:(lia)) as (e' & EQ' & N'). rewrite N' in JE. destruct (Qle_bool e' emin); [discriminate|].
        injection JE; intros <-. assumption.
      * intros j J. destruct (M j J) as (e' & EQ' & N'). destruct (Qle_bool e' emin) eqn:C.
        -- apply Qle_bool_iff in C. lra.
        -- rewrite <- EQ'. apply (nanmax_le _ _ _ T). rewrite <- N'. apply nth_In. lia.
    + assert (NZ : Qeq_bool e 0 = false) by (apply qeq_false; lra).
      rewrite over_itself_nth, X, NZ. exists (e / e)%Q. split; [reflexivity|]. split; [|discriminate].
      intros _. apply qdiv_self. now apply qeq_false.
Qed.

Lemma elevation_unit : forall emin scale el k q, (0 <= emin)%Q ->
  nth k (elevation_eval emin scale el) None = Some q -> (0 < q <= 1)%Q.
Proof.
  intros emin scale el k q E H.
  assert (L : k < length el - 1).
  { destruct (le_lt_dec (length el - 1) k) as [G|G]; [|assumption]. rewrite nth_overflow in H; [discriminate|].
    now rewrite elevation_length. }
  destruct (elevation_spec emin scale el k E L) as [A B].
  destruct (Qlt_le_dec emin (mid_elevation el k)) as [G|G].
  - destruct (B G) as (q' & E' & S1 & S2). rewrite E' in H. injection H; intros ->.
    destruct scale.
    + destruct (S2 eq_refl) as (top & Q1 & _ & Q2). specialize (Q2 k L).
      split; apply Qnot_le_lt || apply Qnot_lt_le; intros C; nra.
    + specialize (S1 eq_refl). lra.
  - rewrite (A G) in H. discriminate.
Qed.

(** Above the limit a higher target never has a lower score, and the highest has one. *)
Lemma elevation_order : forall emin el k j qk qj, (0 <= emin)%Q ->
  nth k (elevation_eval emin true el) None = Some qk ->
  nth j (elevation_eval emin true el) None = Some qj ->
  ((qk <= qj)%Q <-> (mid_elevation el k <= mid_elevation el j)%Q).
Proof.
  intros emin el k j qk qj E HK HJ.
  assert (B : forall i q, nth i (elevation_eval emin true el) None = Some q -> i < length el - 1).
  { intros i q H. destruct (le_lt_dec (length el - 1) i) as [G|G]; [|assumption]. rewrite nth_overflow in H; [discriminate|].
    now rewrite elevation_length. }
  assert (T : forall i q, nth i (elevation_eval emin true el) None = Some q ->
    exists top, (q * top == mid_elevation el i)%Q /\ (0 < top)%Q /\
        (exists l, l < length el - 1 /\ (top == mid_elevation el l)%Q) /\
        (forall l, l < length el - 1 -> (mid_elevation el l <= top)%Q)).
  { intros i q H. pose proof (B i q H) as L. destruct (elevation_spec emin true el i E L) as [A1 A2].
    destruct (Qlt_le_dec emin (mid_elevation el i)) as [G|G].
    - destruct (A2 G) as (q' & E' & _ & S2). rewrite E' in H. injection H; intros ->.
      destruct (S2 eq_refl) as (top & Q1 & Q3 & Q2). exists top. repeat split; try assumption.
      specialize (Q2 i L). lra.
    - rewrite (A1 G) in H. discriminate. }
  destruct (T k qk HK) as (t1 & P1 & R1 & (l1 & X1 & Y1) & Z1).
  destruct (T j qj HJ) as (t2 & P2 & R2 & (l2 & X2 & Y2) & Z2).
  assert (ET : (t1 == t2)%Q).
  { apply Qle_antisym; [rewrite Y1; now apply Z2|rewrite Y2; now apply Z1]. }
  rewrite <- P1, <- P2, <- ET. split; intros H; [nra|apply Qnot_lt_le; intros C; nra].
Qed.

Lemma elevation_best : forall emin scale el, (0 <= emin)%Q ->
  (exists k, k < length el - 1 /\ (emin < mid_elevation el k)%Q) ->
  exists k q, nth k (elevation_eval emin scale el) None = Some q /\ (q == 1)%Q.
Proof.
  intros emin scale el E (k & L & H). destruct (elevation_spec emin scale el k E L) as [_ B].
  destruct (B H) as (q & Q1 & S1 & S2). destruct scale.
  - destruct (S2 eq_refl) as (top & P & (j & J & TJ) & M). specialize (M k L) as MK.
    destruct (elevation_spec emin true el j E J) as [_ B2].
    destruct (B2 ltac:(lra)) as (q2 & Q2 & _ & S3). destruct (S3 eq_refl) as (top2 & P2 & (j2 & J2 & TJ2) & M2).
    exists j, q2. split; [assumption|]. specialize (M2 j J). specialize (M j2 J2).
    assert (ET : (top2 == top)%Q) by lra. rewrite ET, <- TJ in P2.
    assert (0 < top)%Q by lra. assert ((q2 - 1) * top == 0)%Q by lra.
    apply Qmult_integral in H1. destruct H1; lra.
  - exists k, q. split; [assumption|]. now apply S1.
Qed.

(** *** Night *)

Lemma night_clip_nth : forall emax sun k, nth k (night_clip emax sun) None =
  match nth k sun None with Some e => if Qltb emax e then None else Some e | None => None end.
Proof.
  intros. unfold night_clip.
  now rewrite (map_nth (fun x => match x with Some e => if Qltb emax e then None else Some e | None => None end) sun None k).
Qed.

(** Unless no slot is dark enough, a slot has a score exactly if the Sun is low
    enough, which is one for the lowest. *)
Lemma night_spec : forall emax scale sun k, (emax < 0)%Q ->
  (exists j e, nth j sun None = Some e /\ (e <= emax)%Q) ->
  let v := snd (night_eval emax scale sun) in
  length v = length sun /\
  (forall e, nth k sun None = Some e -> (emax < e)%Q -> nth k v None = None) /\
  (nth k sun None = None -> nth k v None = None) /\
  (forall e, nth k sun None = Some e -> (e <= emax)%Q ->
     exists q, nth k v None = Some q /\ (0 < q <= 1)%Q /\
       (scale = false -> (q == 1)%Q) /\
       (scale = true -> exists low, (q * low == e)%Q /\ In (Some low) sun /\
          forall x, In (Some x) sun -> (low <= x)%Q)).
Proof.
  intros emax scale sun k E (j & e0 & J & JE). unfold night_eval. cbn [snd].
  assert (NF : forallb is_nan (night_clip emax sun) = false).
  { apply not_true_iff_false. intros F. rewrite forallb_forall in F.
    assert (X : nth j (night_clip emax sun) None = Some e0).
    { rewrite night_clip_nth, J. assert (Qltb emax e0 = false) as -> by now apply qltb_false. reflexivity. }
    assert (I : In (Some e0) (night_clip emax sun)).
    { rewrite <- X. apply nth_In. destruct (le_lt_dec (length (night_clip emax sun)) j) as [G|G]; [|assumption].
      rewrite nth_overflow in X by assumption. discriminate. }
    apply F in I. discriminate. }
  rewrite NF.
  set (v := if negb scale then _ else _).
  assert (V : exists d, (d == 0 -> False)%Q /\ (scale = true -> In (Some d) sun /\ (d < 0)%Q /\ forall x, In (Some x) sun -> (d <= x)%Q) /\
     length v = length sun /\
     forall i, nth i v None = match nth i (night_clip emax sun) None with
        | Some e => Some (if scale then e / d else e / e)%Q | None => None end).
  { unfold v. destruct scale; simpl.
    - destruct (nanmin (night_clip emax sun)) as [low|] eqn:M.
      2: { apply nanbest_none in M. congruence. }
      assert (I : In (Some low) sun /\ (low <= emax)%Q).
      { apply nanbest_in in M. unfold night_clip in M. apply in_map_iff in M. destruct M as (x & X & I).
        destruct x as [x|]; [|discriminate]. destruct (Qltb emax x) eqn:C; [discriminate|].
        injection X; intros <-. apply qltb_false in C. tauto. }
      exists low. split; [lra|]. split; [|split].
      + intros _. split; [tauto|]. split; [lra|]. intros x X.
        destruct (Qltb emax x) eqn:C.
        * apply qltb_iff in C. lra.
        * apply (nanmin_le _ _ _ M). unfold night_clip. apply in_map_iff. exists (Some x). rewrite C. tauto.
      + unfold over, night_clip. now rewrite !map_length.
      + intros i. rewrite over_nth. assert (NZ : Qeq_bool low 0 = false) by (apply qeq_false; lra). now rewrite NZ.
    - exists 1%Q. split; [lra|]. split; [discriminate|]. split.
      + unfold over_itself, night_clip. now rewrite !map_length.
      + intros i. rewrite over_itself_nth. destruct (nth i (night_clip emax sun) None) as [e|] eqn:N; [|reflexivity].
        rewrite night_clip_nth in N. destruct (nth i sun None) as [x|]; [|discriminate].
        destruct (Qltb emax x) eqn:C; [discriminate|]. injection N; intros <-. apply qltb_false in C.
        assert (NZ : Qeq_bool x 0 = false) by (apply qeq_false; lra). now rewrite NZ. }
  clearbody v. destruct V as (d & D & DS & LV & V). split; [assumption|]. split; [|split].
  - intros e N H. rewrite V, night_clip_nth, N. apply qltb_iff in H. now rewrite H.
  - intros N. now rewrite V, night_clip_nth, N.
  - intros e N H. rewrite V, night_clip_nth, N. assert (Qltb emax e = false) as -> by now apply qltb_false.
    assert (IE : In (Some e) sun).
    { rewrite <- N. apply nth_In. destruct (le_lt_dec (length sun) k) as [G|G]; [|assumption].
      rewrite nth_overflow in N by assumption. discriminate. }
    eexists. split; [reflexivity|]. destruct scale.
    + destruct (DS eq_refl) as (I & DN & LE). specialize (LE e IE) as LE1.
      split; [|split; [discriminate|]].
      * assert (X : (e / d == (- e) / (- d))%Q) by (field; lra). rewrite X.
        split; [apply Qlt_shift_div_l|apply Qle_shift_div_r]; lra.
      * intros _. exists d. split; [field; lra|]. now split.
    + assert (Z : (e / e == 1)%Q) by (apply qdiv_self; lra). rewrite Z. split; [lra|]. split; [reflexivity|discriminate].
Qed.

Lemma night_in_place : forall emax scale sun, fst (night_eval emax scale sun) = night_clip emax sun.
Proof. reflexivity. Qed.

(** A second night constraint sees the Sun elevations left by the first. *)
Lemma night_clip_twice : forall e1 e2 sun,
  night_clip e2 (night_clip e1 sun) = night_clip (if Qle_bool e1 e2 then e1 else e2) sun.
Proof.
  intros e1 e2 sun. unfold night_clip. rewrite map_map. apply map_ext. intros [x|]; [|reflexivity].
  destruct (Qle_bool e1 e2) eqn:L; destruct (Qltb e1 x) eqn:A; try reflexivity.
  - apply qltb_false in A. apply Qle_bool_iff in L. assert (Qltb e2 x = false) as -> by (apply qltb_false; lra). reflexivity.
  - apply qltb_iff in A. apply qle_false in L. assert (Qltb e2 x = true) as -> by (apply qltb_iff; lra). reflexivity.
Qed.

Lemma night_after_night : forall e1 e2 scale sun,
  night_eval e2 scale (night_clip e1 sun) = night_eval (if Qle_bool e1 e2 then e1 else e2) scale sun.
Proof. intros. unfold night_eval. now rewrite night_clip_twice. Qed.

(** *** Distance to the Sun *)

Lemma solar_unit : forall closer smin smax scale sep, (forall e, In e sep -> (0 <= e)%Q) ->
  unit_scores (solar_eval closer smin smax scale sep) /\ length (solar_eval closer smin smax scale sep) = length sep.
Proof.
  intros closer smin smax scale sep P. unfold solar_eval.
  set (s := map _ sep).
  assert (LS : length s = length sep) by (unfold s; now rewrite map_length).
  assert (S : forall e, In (Some e) s -> (0 <= e)%Q).
  { intros e I. unfold s in I. apply in_map_iff in I. destruct I as (x & X & I). destruct (_ || _); [discriminate|].
    injection X; intros <-. now apply P. }
  clearbody s.
  match goal with |- context [if scale then ?x else _] => set (score := x) end.
  assert (U : unit_scores score /\ length score = length sep).
  { unfold score. destruct (nanmax s) as [top|] eqn:T.
    - destruct closer.
      + set (inv := scale_by (fun e => (top + (1 # 10) - e)%Q) s).
        assert (LI : length inv = length sep) by (unfold inv, scale_by; now rewrite map_length).
        assert (I : forall e, In (Some e) inv -> (0 < e)%Q).
        { intros e X. unfold inv, scale_by in X. apply in_map_iff in X. destruct X as ([x|] & X & I); [|discriminate].
          injection X; intros <-. pose proof (nanmax_le _ _ _ T I). lra. }
        clearbody inv. destruct (nanmax inv) as [m|] eqn:M.
        * split; [|unfold over; now rewrite map_length]. intros q Q. unfold over in Q. apply in_map_iff in Q.
          destruct Q as ([x|] & X & Y); [|discriminate]. pose proof (nanmax_le _ _ _ M Y). pose proof (I x Y).
          destruct (Qeq_bool m 0) eqn:Z; [discriminate|]. injection X; intros <-. apply div_unit; [lra|now apply qeq_false].
        * split; [|assumption]. apply nanbest_none in M. rewrite forallb_forall in M. intros q Q. apply M in Q. discriminate.
      + split; [|unfold over; now rewrite map_length]. intros q Q. unfold over in Q. apply in_map_iff in Q.
        destruct Q as ([x|] & X & Y); [|discriminate]. pose proof (nanmax_le _ _ _ T Y). pose proof (S x Y).
        destruct (Qeq_bool top 0) eqn:Z; [discriminate|]. injection X; intros <-. apply div_unit; [lra|now apply qeq_false].
    - split; [|assumption]. apply nanbest_none in T. rewrite forallb_forall in T. intros q Q. apply T in Q. discriminate. }
  clearbody score. destruct U as [U L]. destruct scale; [tauto|]. split; [|now rewrite map_length].
  intros q Q. apply in_map_iff in Q. destruct Q as ([x|] & X & Y); [|discriminate]. specialize (U x Y).
  destruct (Qltb 0 x); injection X; intros <-; lra.
Qed.

(** *** Crossings *)

Lemma centred_length : forall nslots size hit, length (centred nslots size hit) = size.
Proof. intros. unfold centred. now rewrite map_length, seq_length. Qed.

Lemma centred_spec : forall nslots size hit k, k < size ->
  (In k hit -> nth k (centred nslots size hit) 0%Q = 1%Q) /\
  (~ In k hit -> (exists i, In i hit /\ i <= k + nslots / 2 < i + nslots) ->
     nth k (centred nslots size hit) 0%Q = (1#2)%Q) /\
  (~ In k hit -> ~ (exists i, In i hit /\ i <= k + nslots / 2 < i + nslots) ->
     nth k (centred nslots size hit) 0%Q = 0%Q).
Proof.
  intros nslots size hit k L. unfold centred.
  rewrite (nth_map_in _ _ _ _ 0) by (rewrite seq_length; assumption).
  rewrite seq_nth by assumption. simpl (0 + k).
  set (nb := filter _ _).
  assert (H : existsb (Nat.eqb k) hit = true <-> In k hit).
  { rewrite existsb_exists. split; [intros (x & X & Y); apply Nat.eqb_eq in Y; now subst|].
    intros I. exists k. split; [assumption|]. apply Nat.eqb_refl. }
  assert (N : existsb (Z.eqb (Z.of_nat k)) nb = true <-> exists i, In i hit /\ i <= k + nslots / 2 < i + nslots).
  { rewrite existsb_exists. unfold nb. split.
    - intros (z & I & E). apply Z.eqb_eq in E. subst z. apply filter_In in I. destruct I as [I _].
      apply in_flat_map in I. destruct I as (i & I & J). apply in_map_iff in J. destruct J as (j & E & J).
      apply in_seq in J. exists i. split; [assumption|]. lia.
    - intros (i & I & B). exists (Z.of_nat k). split; [|apply Z.eqb_refl]. apply filter_In. split.
      + apply in_flat_map. exists i. split; [assumption|]. apply in_map_iff. exists (k + nslots / 2 - i).
        split; [lia|]. apply in_seq. lia.
      + apply andb_true_iff. split; [apply Z.leb_le; lia|apply Z.ltb_lt; lia]. }
  clearbody nb. destruct (existsb (Nat.eqb k) hit), (existsb (Z.eqb (Z.of_nat k)) nb); repeat split; intros;
    try reflexivity; exfalso; tauto || (intuition congruence).
Qed.

Lemma centred_unit : forall nslots size hit q, In q (centred nslots size hit) -> (q = 0 \/ q = 1#2 \/ q = 1)%Q.
Proof.
  intros nslots size hit q I. unfold centred in I. apply in_map_iff in I. destruct I as (k & <- & _).
  destruct (existsb _ hit); [tauto|]. destruct (existsb _ _); tauto.
Qed.

Lemma where_true_In : forall m k, In k (where_true m) <-> nth k m false = true.
Proof.
  intros m k. unfold where_true. rewrite filter_In, in_seq. split; [tauto|]. intros H. split; [|assumption].
  destruct (le_lt_dec (length m) k) as [G|G]; [|lia]. rewrite nth_overflow in H by assumption. discriminate.
Qed.

(** The scores given by the slots where something happens. *)
Definition crossing_scores (v : vec) (n nslots : nat) (event : nat -> Prop) : Prop :=
  length v = n /\
  forall k, k < n ->
    (event k -> nth k v None = Some 1%Q) /\
    (~ event k -> (exists i, i < n /\ event i /\ i <= k + nslots / 2 < i + nslots) -> nth k v None = Some (1#2)%Q) /\
    (~ event k -> ~ (exists i, i < n /\ event i /\ i <= k + nslots / 2 < i + nslots) -> nth k v None = Some 0%Q).

Lemma crossing_of_mask : forall m nslots (event : nat -> Prop),
  (forall k, k < length m -> (nth k m false = true <-> event k)) ->
  crossing_scores (map Some (centred nslots (length m) (where_true m))) (length m) nslots event.
Proof.
  intros m nslots event H. split; [now rewrite map_length, centred_length|]. intros k L.
  rewrite (nth_map_in _ _ _ _ 0%Q) by (rewrite centred_length; assumption).
  destruct (centred_spec nslots (length m) (where_true m) k L) as (A & B & C).
  rewrite where_true_In, (H k L) in A, B, C.
  assert (X : (exists i, In i (where_true m) /\ i <= k + nslots / 2 < i + nslots) <->
              (exists i, i < length m /\ event i /\ i <= k + nslots / 2 < i + nslots)).
  { split; intros (i & P); exists i.
    - destruct P as [P Q]. rewrite where_true_In in P.
      assert (I : i < length m).
      { destruct (le_lt_dec (length m) i) as [G|G]; [|assumption]. rewrite nth_overflow in P by assumption. discriminate. }
      split; [assumption|]. split; [now apply H|assumption].
    - destruct P as (I & P & Q). rewrite where_true_In. split; [now apply H|assumption]. }
  rewrite X in B, C. repeat split; intros.
  - now rewrite A.
  - now rewrite B.
  - now rewrite C.
Qed.

(** Transit: [ha] decreases. *)
Lemma transit_mask : forall nslots ha,
  crossing_scores (transit_eval nslots ha) (length ha - 1) nslots
    (fun k => (nth (S k) ha 0 < nth k ha 0)%Q).
Proof.
  intros nslots ha. unfold transit_eval.
  set (m := map2 (fun a b => Qltb b a) (starts_of ha) (stops_of ha)).
  assert (LM : length m = length ha - 1) by (unfold m; apply fwd_length).
  assert (E : forall k, k < length m -> (nth k m false = true <-> (nth (S k) ha 0 < nth k ha 0)%Q)).
  { intros k L. unfold m. rewrite (fwd_nth _ _ _ ha 0%Q) by lia. apply qltb_iff. }
  clearbody m.
  assert (X : starts_of (centred nslots (length ha) (where_true m)) = centred nslots (length m) (where_true m)).
  { unfold starts_of. apply list_ext_nth with (d := 0%Q).
    - rewrite removelast_length, !centred_length. lia.
    - intros k L. rewrite removelast_length, centred_length in L.
      rewrite nth_removelast by (rewrite centred_length; lia).
      destruct (centred_spec nslots (length ha) (where_true m) k ltac:(lia)) as (A & B & C).
      destruct (centred_spec nslots (length m) (where_true m) k ltac:(lia)) as (A' & B' & C').
      destruct (in_dec Nat.eq_dec k (where_true m)) as [I|I]; [now rewrite A, A'|].
      destruct (existsb (fun i => (i <=? k + nslots / 2) && (k + nslots / 2 <? i + nslots)) (where_true m)) eqn:D.
      + apply existsb_exists in D. destruct D as (i & D1 & D2). apply andb_true_iff in D2.
        assert (Z : exists i, In i (where_true m) /\ i <= k + nslots / 2 < i + nslots).
        { exists i. split; [assumption|]. destruct D2 as [D2 D3]. apply Nat.leb_le in D2. apply Nat.ltb_lt in D3. lia. }
        now rewrite B, B'.
      + assert (Z : ~ exists i, In i (where_true m) /\ i <= k + nslots / 2 < i + nslots).
        { intros (i & D1 & D2). rewrite <- not_true_iff_false in D. apply D. apply existsb_exists. exists i.
          split; [assumption|]. apply andb_true_iff. split; [apply Nat.leb_le|apply Nat.ltb_lt]; lia. }
        now rewrite C, C'. }
  rewrite X, <- LM. now apply crossing_of_mask.
Qed.

(** [x] is the representative of [y] in [0, c). *)
Definition wrapped (c x y : Q) : Prop := (0 <= x < c)%Q /\ exists m : Z, (y == x + c * inject_Z m)%Q.

Lemma inject_lt : forall a b : Z, (inject_Z a < inject_Z b)%Q <-> (a < b)%Z.
Proof. intros. now rewrite <- Zlt_Qlt. Qed.
Lemma inject_le : forall a b : Z, (inject_Z a <= inject_Z b)%Q <-> (a <= b)%Z.
Proof. intros. now rewrite <- Zle_Qle. Qed.

Lemma zq_lt1 : forall a b : Z, (inject_Z a < inject_Z b + 1)%Q -> (a <= b)%Z.
Proof. intros a b H. assert (inject_Z a < inject_Z (b + 1))%Q by (rewrite inject_Z_plus; exact H). apply (proj1 (inject_lt _ _)) in H0. lia. Qed.

Lemma transit_event : forall a b A B, wrapped 24 a A -> wrapped 24 b B -> (A <= B)%Q -> (B - A < 24)%Q ->
  ((b < a)%Q <-> exists m : Z, (A < 24 * inject_Z m)%Q /\ (24 * inject_Z m <= B)%Q).
Proof.
  intros a b A B (RA & ma & EA) (RB & mb & EB) LE ST.
  assert (M : (ma <= mb)%Z) by (apply zq_lt1; lra).
  assert (M2 : (mb <= ma + 1)%Z) by (apply zq_lt1; rewrite inject_Z_plus; change (inject_Z 1) with 1%Q; lra).
  split.
  - intros H. exists mb. destruct (Z.eq_dec mb ma) as [E|E].
    + subst mb. exfalso. lra.
    + assert (mb = ma + 1)%Z as -> by lia. rewrite inject_Z_plus in *. change (inject_Z 1) with 1%Q in *. lra.
  - intros (m & H1 & H2).
    assert (m <= mb)%Z by (apply zq_lt1; lra).
    assert (ma < m)%Z by (apply (proj1 (inject_lt _ _)); lra).
    assert (mb = ma + 1)%Z as E by lia. rewrite E, inject_Z_plus in EB. change (inject_Z 1) with 1%Q in EB. lra.
Qed.

Lemma lst_event : forall lst a b A B, wrapped 360 a A -> wrapped 360 b B -> (0 <= lst < 360)%Q ->
  (A <= B)%Q -> (B - A <= 180)%Q ->
  (lst_crossed lst a b = true <-> exists m : Z, (A <= lst + 360 * inject_Z m)%Q /\ (lst + 360 * inject_Z m <= B)%Q).
Proof.
  intros lst a b A B (RA & ma & EA) (RB & mb & EB) RL LE ST.
  assert (M : (ma <= mb)%Z) by (apply zq_lt1; lra).
  assert (M2 : (mb <= ma + 1)%Z) by (apply zq_lt1; rewrite inject_Z_plus; change (inject_Z 1) with 1%Q; lra).
  unfold lst_crossed. destruct (Qltb b a) eqn:C.
  - apply qltb_iff in C. destruct (Z.eq_dec mb ma) as [E|E]; [subst mb; exfalso; lra|].
    assert (mb = ma + 1)%Z as -> by lia. rewrite inject_Z_plus in EB. change (inject_Z 1) with 1%Q in EB. clear E M M2.
    assert (OA : opposite a = (a - 180)%Q) by (unfold opposite; assert (Qltb a 180 = false) as -> by (apply qltb_false; lra); reflexivity).
    assert (OB : opposite b = (b + 180)%Q) by (unfold opposite; assert (Qltb b 180 = true) as -> by (apply qltb_iff; lra); reflexivity).
    rewrite OA, OB, andb_true_iff, !Qle_bool_iff. unfold opposite. destruct (Qltb lst 180) eqn:L.
    + apply qltb_iff in L. split.
      * intros H. exists (ma + 1)%Z. rewrite inject_Z_plus. change (inject_Z 1) with 1%Q. lra.
      * intros (m & H1 & H2).
        assert (ma + 1 <= m)%Z by (assert (inject_Z ma < inject_Z m)%Q by lra; apply (proj1 (inject_lt _ _)) in H; lia).
        apply (proj2 (inject_le _ _)) in H. rewrite inject_Z_plus in H. change (inject_Z 1) with 1%Q in H. lra.
    + apply qltb_false in L. split.
      * intros H. exists ma. lra.
      * intros (m & H1 & H2).
        assert (m <= ma)%Z by (assert (inject_Z m < inject_Z (ma + 1))%Q by (rewrite inject_Z_plus; change (inject_Z 1) with 1%Q; lra); apply (proj1 (inject_lt _ _)) in H; lia).
        apply (proj2 (inject_le _ _)) in H. lra.
  - apply qltb_false in C. rewrite andb_true_iff, !Qle_bool_iff.
    assert (mb = ma).
    { destruct (Z.eq_dec mb ma) as [E|E]; [assumption|]. assert (mb = ma + 1)%Z as -> by lia.
      rewrite inject_Z_plus in EB. change (inject_Z 1) with 1%Q in EB. exfalso. lra. }
    subst mb. split.
    + intros H. exists ma. lra.
    + intros (m & H1 & H2).
      assert (m <= ma)%Z by (apply zq_lt1; lra). assert (ma <= m)%Z by (apply zq_lt1; lra).
      assert (m = ma) as -> by lia. lra.
Qed.

Lemma lst_mask : forall lst nslots lsts,
  crossing_scores (lst_eval lst nslots lsts) (length lsts - 1) nslots
    (fun k => lst_crossed lst (nth k lsts 0%Q) (nth (S k) lsts 0%Q) = true).
Proof.
  intros lst nslots lsts. unfold lst_eval.
  rewrite <- (fwd_length _ _ (lst_crossed lst) lsts). apply crossing_of_mask. intros k L.
  rewrite fwd_length in L. now rewrite (fwd_nth _ _ _ lsts 0%Q) by assumption.
Qed.

(** Both crossing constraints in terms of the angles that keep increasing. *)
Lemma crossing_ext : forall v n nslots e e', (forall k, k < n -> (e k <-> e' k)) ->
  crossing_scores v n nslots e -> crossing_scores v n nslots e'.
Proof.
  intros v n nslots e e' H [L C]. split; [assumption|]. intros k K. destruct (C k K) as (A & B & D).
  assert (X : (exists i, i < n /\ e i /\ i <= k + nslots / 2 < i + nslots) <->
              (exists i, i < n /\ e' i /\ i <= k + nslots / 2 < i + nslots)).
  { split; intros (i & I & E & R); exists i; (split; [assumption|split; [now apply H|assumption]]). }
  rewrite X, (H k K) in *. tauto.
Qed.

Definition rising (c step : Q) (l full : list Q) : Prop :=
  length full = length l /\
  (forall k, k < length l -> wrapped c (nth k l 0%Q) (nth k full 0%Q)) /\
  (forall k, S k < length l -> (nth k full 0 <= nth (S k) full 0)%Q /\ (nth (S k) full 0 - nth k full 0 <= step)%Q).

Lemma transit_spec : forall nslots ha full step, rising 24 step ha full -> (step < 24)%Q ->
  crossing_scores (transit_eval nslots ha) (length ha - 1) nslots
    (fun k => exists m : Z, (nth k full 0 < 24 * inject_Z m)%Q /\ (24 * inject_Z m <= nth (S k) full 0)%Q).
Proof.
  intros nslots ha full step (L & W & R) S. eapply crossing_ext; [|apply transit_mask]. intros k K.
  destruct (R k) as [R1 R2]; [lia|]. apply transit_event; try (apply W; lia); lra.
Qed.

Lemma lst_spec : forall lst nslots lsts full step, rising 360 step lsts full -> (step <= 180)%Q -> (0 <= lst < 360)%Q ->
  crossing_scores (lst_eval lst nslots lsts) (length lsts - 1) nslots
    (fun k => exists m : Z, (nth k full 0 <= lst + 360 * inject_Z m)%Q /\ (lst + 360 * inject_Z m <= nth (S k) full 0)%Q).
Proof.
  intros lst nslots lsts full step (L & W & R) S RL. eapply crossing_ext; [|apply lst_mask]. intros k K.
  destruct (R k) as [R1 R2]; [lia|]. apply lst_event; try (apply W; lia); lra.
Qed.

(** Azimuths: between the two ends of the slot, after wrapping if circumpolar. *)
Lemma azimuth_spec : forall az circumpolar nslots azs,
  crossing_scores (azimuth_eval az circumpolar nslots azs) (length azs - 1) nslots
    (fun k => if circumpolar
              then (wrap180 (nth k azs 0) <= wrap180 az <= wrap180 (nth (S k) azs 0))%Q
                \/ (wrap180 (nth (S k) azs 0) <= wrap180 az <= wrap180 (nth k azs 0))%Q
              else (nth k azs 0 <= az <= nth (S k) azs 0)%Q).
Proof.
  intros az circumpolar nslots azs. unfold azimuth_eval.
  set (m := if circumpolar then _ else _).
  assert (LM : length m = length azs - 1) by (unfold m; destruct circumpolar; apply fwd_length).
  rewrite <- LM. apply crossing_of_mask. intros k L. rewrite LM in L. unfold m.
  destruct circumpolar; rewrite (fwd_nth _ _ _ azs 0%Q) by assumption.
  - rewrite orb_true_iff, !andb_true_iff, !Qle_bool_iff. tauto.
  - now rewrite andb_true_iff, !Qle_bool_iff.
Qed.

Lemma wrap_event : forall a A (m0 : Z), wrapped 360 a A -> (360 * inject_Z m0 - 180 < A <= 360 * inject_Z m0 + 180)%Q ->
  (wrap180 a == A - 360 * inject_Z m0)%Q.
Proof.
  intros a A m0 ((R1 & R2) & m & E) (H1 & H2). unfold wrap180. destruct (Qle_bool a 180) eqn:C.
  - apply Qle_bool_iff in C.
    assert (m <= m0)%Z by (apply zq_lt1; lra).
    assert (m0 <= m)%Z by (apply zq_lt1; lra).
    assert (m = m0) as -> by lia. lra.
  - apply qle_false in C.
    assert (m + 1 <= m0)%Z by (apply zq_lt1; rewrite inject_Z_plus; change (inject_Z 1) with 1%Q; lra).
    assert (m0 <= m + 1)%Z by (apply zq_lt1; rewrite inject_Z_plus; change (inject_Z 1) with 1%Q; lra).
    assert (m0 = m + 1)%Z as -> by lia. rewrite inject_Z_plus. change (inject_Z 1) with 1%Q. lra.
Qed.

(** [x] is between [a] and [b], in one order or the other. *)
Definition between (a x b : Q) : Prop := (a <= x <= b)%Q \/ (b <= x <= a)%Q.

Lemma azimuth_event : forall az a b A B (m0 : Z), wrapped 360 a A -> wrapped 360 b B -> (0 <= az < 360)%Q ->
  (360 * inject_Z m0 - 180 < A <= 360 * inject_Z m0 + 180)%Q ->
  (360 * inject_Z m0 - 180 < B <= 360 * inject_Z m0 + 180)%Q ->
  ((wrap180 a <= wrap180 az <= wrap180 b)%Q \/ (wrap180 b <= wrap180 az <= wrap180 a)%Q <->
   exists m : Z, between A (az + 360 * inject_Z m)%Q B).
Proof.
  intros az a b A B m0 WA WB RZ HA HB. rewrite (wrap_event _ _ _ WA HA), (wrap_event _ _ _ WB HB). split.
  - intros H. unfold wrap180 in H. destruct (Qle_bool az 180) eqn:C.
    + exists m0. unfold between. destruct H; [left|right]; lra.
    + exists (m0 + -1)%Z. unfold between. rewrite inject_Z_plus. change (inject_Z (-1)) with (-1)%Q.
      destruct H; [left|right]; lra.
  - intros (m & H).
    assert (W : wrapped 360 az (az + 360 * inject_Z m)) by (split; [assumption|exists m; reflexivity]).
    assert (R : (360 * inject_Z m0 - 180 < az + 360 * inject_Z m <= 360 * inject_Z m0 + 180)%Q) by (destruct H; lra).
    rewrite (wrap_event _ _ _ W R). destruct H; [left|right]; lra.
Qed.

(** A track of azimuths, as an angle that is not wrapped. *)
Definition azimuth_track (azs full : list Q) : Prop :=
  length full = length azs /\ forall k, k < length azs -> wrapped 360 (nth k azs 0%Q) (nth k full 0%Q).

(** The target does not pass South (180 degrees) during the slot [k]. *)
Definition not_south (full : list Q) (k : nat) : Prop :=
  exists m : Z, (360 * inject_Z m - 180 < nth k full 0 <= 360 * inject_Z m + 180)%Q /\
                (360 * inject_Z m - 180 < nth (S k) full 0 <= 360 * inject_Z m + 180)%Q.

Lemma azimuth_passes : forall az nslots azs full, azimuth_track azs full -> (0 <= az < 360)%Q ->
  (forall k, k < length azs - 1 -> not_south full k) ->
  crossing_scores (azimuth_eval az true nslots azs) (length azs - 1) nslots
    (fun k => exists m : Z, between (nth k full 0%Q) (az + 360 * inject_Z m)%Q (nth (S k) full 0%Q)).
Proof.
  intros az nslots azs full (L & W) RZ NS. eapply crossing_ext; [|apply (azimuth_spec az true)]. intros k K.
  destruct (NS k K) as (m0 & HA & HB). refine (azimuth_event _ _ _ _ _ m0 _ _ RZ HA HB); apply W; lia.
Qed.
