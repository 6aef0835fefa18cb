(** Specification and lemmas: whole evaluations, scores of blocks, sets. *)
From Coq Require Import List Arith ZArith QArith Bool Lia Lqa Permutation.
From Verif Require Import Base M_Sched M_Cnst P_Booking P_Cnst P_Cnst2.
Import ListNotations.
Open Scope nat_scope.

(** ** Every score is between zero and one *)

(** The parameters accepted by the classes, a Sun limit not above the horizon. *)
Definition valid_kind (k : ckind) : Prop :=
  match k with
  | CElevation emin _ => (0 <= emin)%Q
  | CNight emax _ => (emax <= 0)%Q
  | _ => True
  end.
Definition valid_cnst (c : cnst) : Prop := valid_kind (cn_kind c) /\ (0 < cn_weight c)%Q.
Definition valid_target (tg : option target) : Prop :=
  match tg with Some t => forall e, In e (tg_sep t) -> (0 <= e)%Q | None => True end.

Lemma unit_mask : forall m, unit_scores (mask_score m).
Proof.
  intros m q I. unfold mask_score in I. apply in_map_iff in I. destruct I as ([|] & E & _); [|discriminate].
  injection E; intros <-. lra.
Qed.

Lemma unit_centred : forall n s h l, (forall q, In q l -> In q (centred n s h)) -> unit_scores (map Some l).
Proof.
  intros n s h l H q I. apply in_map_iff in I. destruct I as (x & E & I). injection E; intros <-.
  apply H, centred_unit in I. destruct I as [-> | [-> | ->]]; lra.
Qed.

Lemma in_removelast : forall A (l : list A) x, In x (removelast l) -> In x l.
Proof.
  induction l as [|a [|b t] IH]; intros x I; simpl in *; try tauto.
  destruct I as [I|I]; [now left|right]. now apply IH.
Qed.

Lemma unit_elevation : forall emin scale el, (0 <= emin)%Q -> unit_scores (elevation_eval emin scale el).
Proof.
  intros emin scale el E q I. destruct (nth_In_lt _ _ None _ I) as (k & _ & H).
  apply elevation_unit in H; [lra|assumption].
Qed.

Lemma unit_night : forall emax scale sun, (emax <= 0)%Q -> unit_scores (snd (night_eval emax scale sun)).
Proof.
  intros emax scale sun E q I. unfold night_eval in I. cbn [snd] in I.
  destruct (forallb is_nan (night_clip emax sun)) eqn:F.
  { unfold stops_of in I. rewrite forallb_forall in F.
    assert (X : In (Some q) (night_clip emax sun)) by (destruct (night_clip emax sun); [destruct I|now right]).
    apply F in X. discriminate. }
  assert (C : forall e, In (Some e) (night_clip emax sun) -> (e <= emax)%Q).
  { intros e X. unfold night_clip in X. apply in_map_iff in X. destruct X as ([x|] & X & _); [|discriminate].
    destruct (Qltb emax x) eqn:L; [discriminate|]. injection X; intros <-. now apply qltb_false. }
  destruct scale; cbn [negb] in I.
  - destruct (nanmin (night_clip emax sun)) as [low|] eqn:M.
    + unfold over in I. apply in_map_iff in I. destruct I as ([x|] & X & Y); [|discriminate].
      destruct (Qeq_bool low 0) eqn:Z; [discriminate|]. injection X; intros <-.
      apply div_unit_neg; [|now apply qeq_false]. split; [now apply (nanmin_le _ _ _ M)|]. specialize (C x Y). lra.
    + apply nanbest_none in M. congruence.
  - unfold over_itself in I. apply in_map_iff in I. destruct I as ([x|] & X & Y); [|discriminate].
    destruct (Qeq_bool x 0) eqn:Z; [discriminate|]. injection X; intros <-.
    assert (W : (x / x == 1)%Q) by (apply qdiv_self; now apply qeq_false). lra.
Qed.

Lemma unit_fit : forall n v r, unit_scores v -> fit_row n v = Ok r -> unit_scores r.
Proof.
  intros n v r U H. unfold fit_row in H. destruct (length v =? n); [now injection H; intros <-|].
  destruct v as [|x [|y t]]; try discriminate. injection H; intros <-. intros q I.
  apply repeat_spec in I. apply U. now left.
Qed.

Lemma unit_one : forall tg ck ns sun c sun' v, valid_cnst c -> valid_target tg ->
  eval_one tg ck ns sun c = (sun', Ok (Some v)) -> unit_scores v.
Proof.
  intros tg ck ns sun c sun' v [V _] T H. unfold eval_one in H. apply (f_equal snd) in H.
  assert (F : forall n w, unit_scores w -> bind (fit_row n w) (fun r => Ok (Some r)) = Ok (Some v) -> unit_scores v).
  { intros n w U E. destruct (fit_row n w) as [r|e] eqn:R; [|discriminate]. cbn in E. injection E; intros <-.
    eapply unit_fit; eassumption. }
  destruct (cn_kind c); destruct tg as [t|]; cbn [snd] in H; try discriminate; try (apply F in H; [assumption|]).
  - now apply unit_elevation.
  - unfold transit_eval. eapply unit_centred. intros q I. apply in_removelast in I. exact I.
  - unfold azimuth_eval. eapply unit_centred. intros q I. exact I.
  - unfold lst_eval. eapply unit_centred. intros q I. exact I.
  - apply unit_mask.
  - apply unit_mask.
  - apply unit_mask.
  - apply unit_mask.
  - apply unit_mask.
  - apply unit_mask.
  - now apply unit_night.
  - now apply unit_night.
  - apply unit_mask.
  - apply unit_mask.
  - now apply solar_unit.
Qed.

Lemma unit_rows : forall tg ck ns cs sun sun' rows, Forall valid_cnst cs -> valid_target tg ->
  eval_rows tg ck ns sun cs = (sun', Ok rows) -> forall v, In (Some v) rows -> unit_scores v.
Proof.
  intros tg ck ns; induction cs as [|c t IH]; intros sun sun' rows V T H v I; simpl in H.
  - assert (rows = []) as -> by congruence. destruct I.
  - inversion V; subst. destruct (eval_one tg ck ns sun c) as [s1 [r|e]] eqn:E; [|discriminate].
    destruct (eval_rows tg ck ns s1 t) as [s2 [rs|e]] eqn:E2; cbn in H; [|discriminate].
    assert (rows = r :: rs) as -> by congruence. destruct I as [I|I].
    + subst r. eapply unit_one; eassumption.
    + eapply IH; eassumption.
Qed.

Lemma valid_weights : forall cs, Forall valid_cnst cs -> weights_ok cs.
Proof.
  intros cs V. unfold weights_ok, positive_weights. rewrite Forall_forall in *. intros w W.
  apply in_map_iff in W. destruct W as (c & <- & C). now apply V.
Qed.

Lemma values_unit : forall tg ck ns cs sun sun' rows score, Forall valid_cnst cs -> valid_target tg ->
  evaluate cs tg ck ns sun = (sun', Ok (rows, score)) ->
  forall k j q, value_at rows k j = Some q -> (0 <= q <= 1)%Q.
Proof.
  intros tg ck ns cs sun sun' rows score V T H k j q E.
  assert (R : eval_rows tg ck ns sun cs = (sun', Ok rows)).
  { unfold evaluate in H. destruct (eval_rows tg ck ns sun cs) as [s1 [rs|e]]; cbn in H; [|discriminate].
    destruct cs; [discriminate|]. congruence. }
  unfold value_at in E. destruct (nth j rows None) as [v|] eqn:N.
  - eapply (unit_rows _ _ _ _ _ _ _ V T R v).
    + rewrite <- N. apply nth_In. destruct (le_lt_dec (length rows) j) as [G|G]; [|assumption].
      rewrite nth_overflow in N by assumption. discriminate.
    + rewrite <- E. apply nth_In. destruct (le_lt_dec (length v) k) as [G|G]; [|assumption].
      rewrite nth_overflow in E by assumption. discriminate.
  - destruct (existsb _ rows); injection E; intros <-; lra.
Qed.

Lemma evaluate_unit : forall tg ck ns cs sun sun' rows score, Forall valid_cnst cs -> valid_target tg ->
  evaluate cs tg ck ns sun = (sun', Ok (rows, score)) ->
  length score = length (ck_time ck) - 1 /\ forall k, (0 <= nth k score 0 <= 1)%Q.
Proof.
  intros tg ck ns cs sun sun' rows score V T H.
  destruct (evaluate_ok _ _ _ _ _ _ _ _ H) as (_ & _ & L & _). split; [assumption|]. intros k.
  destruct (le_lt_dec (length score) k) as [G|G]; [rewrite nth_overflow by assumption; lra|].
  eapply evaluate_bounds; try eassumption; [now apply valid_weights|].
  intros j q. eapply values_unit; eassumption.
Qed.

Lemma evaluate_usable : forall tg ck ns cs sun sun' rows score k, Forall valid_cnst cs -> valid_target tg ->
  evaluate cs tg ck ns sun = (sun', Ok (rows, score)) -> k < length score ->
  ((0 < nth k score 0)%Q <-> forall j, j < length cs -> exists q, value_at rows k j = Some q /\ (0 < q)%Q).
Proof.
  intros tg ck ns cs sun sun' rows score k V T H L.
  eapply evaluate_positive; try eassumption; [now apply valid_weights|].
  intros j q E. eapply values_unit in E; try eassumption. lra.
Qed.

Lemma ok_map_inv : forall (l : list (res (option vec))), (exists rows, l = map Ok rows) <-> forall x, In x l -> exists r, x = Ok r.
Proof.
  induction l as [|x t IH]; split.
  - intros _ x [].
  - intros _. now exists [].
  - intros (rows & E) y Y. destruct rows as [|r rows]; [discriminate|]. cbn in E. injection E; intros E1 E2.
    destruct Y as [<- | Y]; [now exists r|]. apply IH; [now exists rows|assumption].
  - intros H. destruct (H x (or_introl eq_refl)) as (r & ->).
    destruct (proj2 IH ltac:(intros y Y; apply H; now right)) as (rows & ->). now exists (r :: rows).
Qed.

(** ** Score of a placed block *)

Lemma qsum_le : forall l, (forall q, In q l -> (0 <= q <= 1)%Q) -> (0 <= qsum l <= inject_Z (Z.of_nat (length l)))%Q.
Proof.
  induction l as [|x t IH]; intros H.
  - split; apply Qle_refl.
  - specialize (IH ltac:(intros; apply H; now right)). specialize (H x (or_introl eq_refl)).
    unfold qsum in *. cbn [fold_right length]. rewrite Nat2Z.inj_succ, <- Z.add_1_r, inject_Z_plus.
    change (inject_Z 1) with 1%Q. lra.
Qed.

Lemma mean_unit : forall l, (forall q, In q l -> (0 <= q <= 1)%Q) -> l <> [] -> (0 <= mean_of l <= 1)%Q.
Proof.
  intros l H N. unfold mean_of. apply div_unit; [now apply qsum_le|]. destruct l as [|x t]; [congruence|].
  unfold Qeq, inject_Z; cbn [Qnum Qden length]; lia.
Qed.

Lemma get_score_unit : forall k row s n q, 0 < n -> (forall v, row = Some v -> unit_scores v) ->
  get_score k row s n = Ok (Some q) -> (0 <= q <= 1)%Q.
Proof.
  intros k row s n q N U H. unfold get_score in H.
  assert (NE : forall A (f : nat -> A), map f (seq s n) <> []) by (intros A f; destruct n; [lia|discriminate]).
  assert (F : forall (b : bool), Ok (Some (if b then 1%Q else 0%Q)) = Ok (Some q) -> (0 <= q <= 1)%Q).
  { intros b E. injection E; intros <-. destruct b; lra. }
  assert (P : forall v : vec, Ok (Some (mean_of (map (fun x => if positive x then 1%Q else 0%Q) (map (fun i => nth i v None) (seq s n))))) = Ok (Some q) -> (0 <= q <= 1)%Q).
  { intros v E. injection E; intros <-. apply mean_unit; [|rewrite map_map; apply NE].
    intros y Y. apply in_map_iff in Y. destruct Y as (x & <- & _). destruct (positive x); lra. }
  assert (M : forall v, unit_scores v ->
     Ok (if existsb is_nan (map (fun i => nth i v None) (seq s n)) then None
         else Some (mean_of (map (fun x => match x with Some q => q | None => 0%Q end) (map (fun i => nth i v None) (seq s n))))) = Ok (Some q) -> (0 <= q <= 1)%Q).
  { intros v UV E. destruct (existsb is_nan _); [discriminate|]. injection E; intros <-.
    apply mean_unit; [|rewrite map_map; apply NE].
    intros y Y. apply in_map_iff in Y. destruct Y as (x & <- & X). destruct x as [x|]; [|lra].
    apply in_map_iff in X. destruct X as (i & X & _). apply UV. rewrite <- X. apply nth_In.
    destruct (le_lt_dec (length v) i) as [G|G]; [|assumption]. rewrite nth_overflow in X by assumption. discriminate. }
  destruct row as [v|]; destruct k; try discriminate;
    first [eapply F; exact H|eapply P; exact H|eapply M; [apply U; reflexivity|exact H]].
Qed.

Lemma block_score_unit : forall cs rows start n q, 0 < n -> weights_ok cs -> cs <> [] -> length rows = length cs ->
  (forall v, In (Some v) rows -> unit_scores v) ->
  block_score cs rows start n = Ok q -> (0 <= q <= 1)%Q.
Proof.
  intros cs rows start n q N W NE L U H. unfold block_score in H. destruct start as [s|].
  2: { injection H; intros <-. lra. }
  destruct (get_scores cs rows s n) as [xs|e] eqn:G; [|discriminate]. cbn in H. injection H; intros <-.
  assert (X : length xs = length cs /\ unit_scores xs).
  { clear W NE H. revert rows xs L U G. induction cs as [|c t IH]; intros [|r rows] xs L U G; cbn in G; try discriminate.
    - injection G; intros <-. split; [reflexivity|]. intros y [].
    - destruct (get_score (cn_kind c) r s n) as [x|e] eqn:E1; [|discriminate]. cbn in G.
      destruct (get_scores t rows s n) as [ys|e] eqn:E2; [|discriminate]. cbn in G. injection G; intros <-.
      destruct (IH rows ys) as [I1 I2]; [now injection L|intros v V; apply U; now right|assumption|].
      split; [cbn; lia|]. intros y [Y|Y]; [|now apply I2]. subst x. eapply get_score_unit; [exact N| |exact E1].
      intros v ->. apply U. now left. }
  destruct X as [LX UX]. destruct (average (map cn_weight cs) xs) as [a|] eqn:A; [|lra].
  destruct (known_or_nan xs) as [C|(qs & EQ)].
  - unfold average in A. rewrite weighted_sum_nan in A by assumption. discriminate.
  - subst xs. rewrite map_length in LX.
    destruct (average_known (map cn_weight cs) qs) as (a' & E & M).
    + now rewrite map_length.
    + exact W.
    + destruct cs; [congruence|discriminate].
    + rewrite E in A. injection A; intros <-. eapply wmean_bounds; [| | | |exact M].
      * now rewrite map_length.
      * exact W.
      * destruct cs; [congruence|discriminate].
      * intros x X. apply UX. now apply in_map.
Qed.

(** A constraint that could not be evaluated makes the score of a placed block raise. *)
Lemma block_score_raises : forall cs rows s n, length rows = length cs ->
  (exists j, j < length cs /\ nth j rows None = None) ->
  exists e, block_score cs rows (Some s) n = Err e.
Proof.
  intros cs rows s n L (j & J & N). unfold block_score.
  assert (X : exists e, get_scores cs rows s n = Err e).
  { revert rows j L J N. induction cs as [|c t IH]; intros [|r rows] j L J N; cbn in *; try lia.
    destruct (get_score (cn_kind c) r s n) as [x|e] eqn:E; [|now exists e]. cbn.
    destruct j as [|j].
    - subst r. unfold get_score in E. destruct (cn_kind c); discriminate.
    - destruct (IH rows j ltac:(lia) ltac:(lia) N) as (e & ->). now exists e. }
  destruct X as (e & ->). now exists e.
Qed.

Lemma block_score_defined : forall cs rows s n, length rows = length cs ->
  (forall c, In c cs -> cn_kind c <> CBase) ->
  ((exists q, block_score cs rows (Some s) n = Ok q) <-> forall j, j < length cs -> nth j rows None <> None).
Proof.
  intros cs rows s n L B. split.
  - intros (q & Q) j J N. destruct (block_score_raises cs rows s n L) as (e & E); [now exists j|congruence].
  - intros H. unfold block_score.
    assert (X : exists xs, get_scores cs rows s n = Ok xs).
    { revert rows L B H. induction cs as [|c t IH]; intros [|r rows] L B H; cbn in *; try lia; try (eexists; reflexivity).
      destruct r as [v|]; [|exfalso; now apply (H 0 ltac:(lia))].
      destruct (IH rows ltac:(lia)) as (xs & ->); [intros d D; apply B; now right| |].
      { intros j J. apply (H (S j)). lia. }
      assert (G : exists x, get_score (cn_kind c) (Some v) s n = Ok x).
      { specialize (B c (or_introl eq_refl)). unfold get_score. destruct (cn_kind c); try congruence; eexists; reflexivity. }
      destruct G as (x & ->). eexists; reflexivity. }
    destruct X as (xs & ->). eexists; reflexivity.
Qed.

(** ** Sets of constraints *)

(** The class of a constraint. *)
Definition cls (k : ckind) : nat :=
  match k with
  | CElevation _ _ => 0 | CTransit => 1 | CAzimuth _ => 2 | CSidereal _ => 3 | CLocalTime _ _ => 4
  | CUTCHour _ _ => 5 | CTimeRange _ => 6 | CNight _ _ => 7 | CPeriodic _ _ _ => 8 | CSolar _ _ _ _ => 9 | CBase => 10
  end.
Definition classes (l : list cnst) : list nat := map (fun c => cls (cn_kind c)) l.
Definition class_of (c : cnst) : nat := cls (cn_kind c).

Lemma same_class_iff : forall a b, same_class a b = true <-> cls a = cls b.
Proof. intros [] []; cbn; split; intros; try reflexivity; discriminate. Qed.

Lemma has_twins_iff : forall l, has_twins l = false <-> NoDup (classes l).
Proof.
  induction l as [|c t IH]; cbn; [split; [constructor|reflexivity]|].
  rewrite orb_false_iff, IH. split.
  - intros [A B]. constructor; [|assumption]. intros I. unfold classes in I. apply in_map_iff in I. destruct I as (d & E & I).
    rewrite <- not_true_iff_false in A. apply A. apply existsb_exists. exists d. split; [assumption|]. apply same_class_iff. congruence.
  - intros N. inversion N; subst. split; [|assumption]. apply not_true_iff_false. intros A. apply existsb_exists in A.
    destruct A as (d & I & E). apply same_class_iff in E. apply H1. unfold classes. apply in_map_iff. exists d. split; [congruence|assumption].
Qed.

Lemma is_elevation_iff : forall c, is_elevation c = true <-> class_of c = 0.
Proof. intros [[] w]; cbn; split; intros; try reflexivity; discriminate. Qed.

Lemma has_elevation_iff : forall l, existsb is_elevation l = true <-> In 0 (classes l).
Proof.
  intros l. rewrite existsb_exists. unfold classes. rewrite in_map_iff. split; intros (c & A & B); exists c.
  - split; [now apply is_elevation_iff|assumption].
  - split; [assumption|now apply is_elevation_iff].
Qed.

(** The sets a program can hold. *)
Inductive cset_reach : cset -> Prop :=
| cr_new l s : new_cset l = Ok s -> cset_reach s
| cr_add s c s' r : cset_reach s -> cset_add s c = (s', Ok r) -> cset_reach r
| cr_left s c s' r : cset_reach s -> cset_add s c = (s', r) -> cset_reach s'.

Definition cset_inv (s : cset) : Prop :=
  NoDup (classes (cs_list s)) /\ (cs_default s = true -> In 0 (classes (cs_list s))).

Lemma pop_elevation_spec : forall l, NoDup (classes l) ->
  match pop_elevation l with
  | None => ~ In 0 (classes l)
  | Some m => exists a c b, l = a ++ c :: b /\ m = a ++ b /\ class_of c = 0 /\ ~ In 0 (classes m)
  end.
Proof.
  induction l as [|c t IH]; intros N; cbn; [tauto|].
  inversion N; subst. specialize (IH H2). destruct (is_elevation c) eqn:E.
  - apply is_elevation_iff in E. exists [], c, t. repeat split; [assumption|]. unfold class_of in E. now rewrite <- E.
  - assert (NE : class_of c <> 0) by (intros X; apply is_elevation_iff in X; congruence).
    destruct (pop_elevation t) as [m|]; cbn.
    + destruct IH as (a & d & b & -> & -> & D & Z). exists (c :: a), d, b. repeat split; [assumption|].
      cbn. intros [X|X]; [now apply NE|tauto].
    + intros [X|X]; [now apply NE|tauto].
Qed.

Lemma new_cset_ok : forall l, (exists s, new_cset l = Ok s) <-> NoDup (classes l).
Proof.
  intros l. unfold new_cset. rewrite <- has_twins_iff. destruct (has_twins l).
  - split; [intros (s & H); discriminate|discriminate].
  - split; [reflexivity|]. intros _. destruct (existsb is_elevation l); eexists; reflexivity.
Qed.

Lemma classes_app : forall a b, classes (a ++ b) = classes a ++ classes b.
Proof. intros. unfold classes. apply map_app. Qed.

Lemma new_cset_spec : forall l s, new_cset l = Ok s ->
  NoDup (classes (cs_list s)) /\ In 0 (classes (cs_list s)) /\
  ((In 0 (classes l) /\ s = mkCset l false) \/ (~ In 0 (classes l) /\ s = mkCset (l ++ [default_el]) true)).
Proof.
  intros l s H. unfold new_cset in H. destruct (has_twins l) eqn:T; [discriminate|]. apply has_twins_iff in T.
  destruct (existsb is_elevation l) eqn:E; injection H; intros <-; cbn.
  - apply has_elevation_iff in E. tauto.
  - assert (N : ~ In 0 (classes l)) by (intros X; apply has_elevation_iff in X; congruence).
    rewrite classes_app. split; [|split; [apply in_or_app; right; now left|tauto]].
    cbn. apply NoDup_app_comm_1 || idtac. rewrite <- app_nil_r. cbn.
    apply Permutation_NoDup with (l := 0 :: classes l); [|now constructor].
    rewrite app_nil_r. apply Permutation_cons_append.
Qed.

Lemma add_cases : forall s c, cset_inv s ->
  let base := if is_elevation c && cs_default s then match pop_elevation (cs_list s) with Some m => m | None => [] end
              else cs_list s in
  let left := if is_elevation c && cs_default s then mkCset base false else s in
  cset_add s c = (left, bind (new_cset (base ++ [c])) (fun r => Ok (mkCset (cs_list r) (cs_default left)))).
Proof.
  intros s c [N D] base left. unfold cset_add, left, base. destruct (is_elevation c && cs_default s) eqn:E; [|reflexivity].
  apply andb_true_iff in E. destruct E as [_ E]. specialize (D E).
  pose proof (pop_elevation_spec (cs_list s) N) as P. destruct (pop_elevation (cs_list s)); [reflexivity|tauto].
Qed.

Lemma reach_inv : forall s, cset_reach s -> cset_inv s.
Proof.
  induction 1 as [l s H|s c s' r R IH H|s c s' r R IH H].
  - apply new_cset_spec in H. destruct H as (A & B & _). split; tauto.
  - rewrite (add_cases s c IH) in H. injection H; intros H1 H2. clear H.
    destruct (new_cset _) as [r0|] eqn:E; [|discriminate]. cbn in H1. injection H1; intros <-.
    apply new_cset_spec in E. split; cbn; tauto.
  - rewrite (add_cases s c IH) in H. injection H; intros H1 H2. subst s'.
    destruct (is_elevation c && cs_default s) eqn:E; [|assumption]. split; cbn; [|discriminate].
    destruct IH as [N _]. pose proof (pop_elevation_spec (cs_list s) N) as P.
    destruct (pop_elevation (cs_list s)) as [m|]; [|constructor].
    destruct P as (a & d & b & E1 & E2 & _). rewrite E1 in N. subst m. rewrite classes_app in *. cbn in N.
    now apply NoDup_remove_1 in N.
Qed.

Lemma nodup_snoc : forall (l : list nat) x, NoDup (l ++ [x]) <-> NoDup l /\ ~ In x l.
Proof.
  intros l x. split.
  - intros N. assert (P : NoDup (x :: l)) by (eapply Permutation_NoDup; [|exact N]; apply Permutation_sym, Permutation_cons_append).
    inversion P; subst. tauto.
  - intros [N I]. apply Permutation_NoDup with (l := x :: l); [apply Permutation_cons_append|now constructor].
Qed.

(** The addition works exactly if the class is new, or replaces the default elevation. *)
Lemma add_ok : forall s c, cset_reach s ->
  ((exists s' r, cset_add s c = (s', Ok r)) <->
   (~ In (class_of c) (classes (cs_list s)) \/ (class_of c = 0 /\ cs_default s = true))) /\
  (forall s' e, cset_add s c = (s', Err e) -> e = EValueError /\ s' = s).
Proof.
  intros s c R. pose proof (reach_inv s R) as I. pose proof (add_cases s c I) as A. destruct I as [N D].
  assert (CO : forall b, class_of c = 0 -> is_elevation c && b = b) by (intros b Z; apply is_elevation_iff in Z; now rewrite Z).
  destruct (is_elevation c && cs_default s) eqn:E; cbn zeta in A.
  - apply andb_true_iff in E. destruct E as [E1 E2]. apply is_elevation_iff in E1.
    pose proof (pop_elevation_spec (cs_list s) N) as P. destruct (pop_elevation (cs_list s)) as [m|]; [|tauto].
    destruct P as (a & d & b & S1 & S2 & S3 & S4).
    assert (NM : NoDup (classes m)).
    { rewrite S1 in N. subst m. rewrite classes_app in *. cbn in N. now apply NoDup_remove_1 in N. }
    assert (X : exists r, new_cset (m ++ [c]) = Ok r).
    { apply new_cset_ok. rewrite classes_app. cbn. apply nodup_snoc. fold (class_of c). rewrite E1. tauto. }
    destruct X as (r & X). rewrite X in A. cbn in A. rewrite A. split.
    + split; [tauto|]. intros _. eexists; eexists; reflexivity.
    + intros s' e H. discriminate.
  - rewrite A. split.
    + split.
      * intros (s' & r & H). destruct (new_cset (cs_list s ++ [c])) as [r0|] eqn:X; [|discriminate].
        assert (Y : NoDup (classes (cs_list s ++ [c]))) by (apply new_cset_ok; now exists r0).
        rewrite classes_app in Y. cbn in Y. apply nodup_snoc in Y. left. tauto.
      * intros [H|[H1 H2]].
        -- assert (X : exists r, new_cset (cs_list s ++ [c]) = Ok r).
           { apply new_cset_ok. rewrite classes_app. cbn. apply nodup_snoc. split; assumption. }
           destruct X as (r & ->). eexists; eexists; reflexivity.
        -- rewrite (CO _ H1) in E. congruence.
    + intros s' e H. destruct (new_cset (cs_list s ++ [c])) as [r0|e0] eqn:X; [discriminate|].
      cbn in H. unfold new_cset in X. destruct (has_twins _); [|destruct (existsb _ _); discriminate].
      split; congruence.
Qed.

(** The result: at most one constraint per class, one on the elevation, the
    constraint added, and all the others. *)
Lemma add_result : forall s c s' r, cset_reach s -> cset_add s c = (s', Ok r) ->
  NoDup (classes (cs_list r)) /\ In 0 (classes (cs_list r)) /\ In c (cs_list r) /\
  (forall d, In d (cs_list s) -> class_of d <> class_of c -> In d (cs_list r)) /\
  (forall d, In d (cs_list r) -> d = c \/ In d (cs_list s) \/ (d = default_el /\ ~ In 0 (classes (cs_list s)))).
Proof.
  intros s c s' r R H. pose proof (reach_inv s R) as I. rewrite (add_cases s c I) in H. destruct I as [N D].
  injection H; intros H1 H2; clear H.
  set (base := if is_elevation c && cs_default s then _ else _) in *.
  assert (B : (forall d, In d base -> In d (cs_list s)) /\ (forall d, In d (cs_list s) -> class_of d <> class_of c -> In d base)
              /\ (In 0 (classes (cs_list s)) -> In 0 (classes base) \/ class_of c = 0)).
  { unfold base. destruct (is_elevation c && cs_default s) eqn:E; [|tauto].
    apply andb_true_iff in E. destruct E as [E1 E2]. apply is_elevation_iff in E1.
    pose proof (pop_elevation_spec (cs_list s) N) as P. destruct (pop_elevation (cs_list s)) as [m|]; [|tauto].
    destruct P as (a & d0 & b & S1 & S2 & S3 & S4). rewrite S1, S2. split; [|split; [|tauto]].
    - intros d X. apply in_app_or in X. apply in_or_app. destruct X; [now left|right; now right].
    - intros d X Y. apply in_app_or in X. apply in_or_app. destruct X as [X|[X|X]]; [now left| |now right]. subst d. congruence. }
  clearbody base. destruct B as (B1 & B2 & B3).
  destruct (new_cset (base ++ [c])) as [r0|] eqn:E; [|discriminate]. cbn in H1. injection H1; intros <-. cbn.
  apply new_cset_spec in E. destruct E as (E1 & E2 & E3). split; [assumption|]. split; [assumption|].
  destruct E3 as [[E3 ->]|[E3 ->]]; cbn in *.
  - split; [apply in_or_app; right; now left|]. split.
    + intros d X Y. apply in_or_app. left. now apply B2.
    + intros d X. apply in_app_or in X. destruct X as [X|[X|[]]]; [right; left; now apply B1|now left].
  - rewrite classes_app in E3. split; [apply in_or_app; left; apply in_or_app; right; now left|]. split.
    + intros d X Y. apply in_or_app. left. apply in_or_app. left. now apply B2.
    + intros d X. apply in_app_or in X. destruct X as [X|[X|[]]].
      * apply in_app_or in X. destruct X as [X|[X|[]]]; [right; left; now apply B1|now left].
      * right. right. split; [now symmetry|]. intros Z. apply E3. apply in_or_app. apply B3 in Z. destruct Z as [Z|Z]; [now left|right; now left].
Qed.

(** The left operand is changed only by the removal of its default elevation. *)
Lemma add_left : forall s c s' r, cset_reach s -> cset_add s c = (s', r) ->
  (class_of c <> 0 \/ cs_default s = false -> s' = s) /\
  (class_of c = 0 -> cs_default s = true -> ~ In 0 (classes (cs_list s')) /\ cs_default s' = false).
Proof.
  intros s c s' r R H. pose proof (reach_inv s R) as I. rewrite (add_cases s c I) in H. destruct I as [N D].
  apply (f_equal fst) in H. cbn [fst] in H. subst s'. split.
  - intros C. assert (E : is_elevation c && cs_default s = false).
    { apply andb_false_iff. destruct C as [C|C]; [left|now right]. apply not_true_iff_false. intros X. now apply is_elevation_iff in X. }
    now rewrite E.
  - intros C1 C2. assert (E : is_elevation c && cs_default s = true) by (apply andb_true_iff; split; [now apply is_elevation_iff|assumption]).
    rewrite E. cbn. split; [|reflexivity]. pose proof (pop_elevation_spec (cs_list s) N) as P.
    destruct (pop_elevation (cs_list s)) as [m|]; [|tauto]. destruct P as (a & d & b & _ & _ & _ & X). exact X.
Qed.
