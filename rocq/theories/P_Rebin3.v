(** [ST_Slice.rebin]. *)
From Coq Require Import List Arith ZArith QArith Qround Lqa Lia Bool.
From Verif Require Import Base M_Slots M_Nd P_Nd M_Rebin P_Rebin P_Rebin2.
Import ListNotations.
Open Scope nat_scope.

(** ** Specification *)

(** The aggregation of each method. *)
Definition aggregates (m : method) : list sample -> sample -> Prop :=
  match m with MMean => mean_of | MMedian => median_of | MOther => fun _ _ => False end.

(** Mean of the coordinates of an axis. *)
Definition axis_mean (l : list Q) (q : Q) : Prop :=
  l <> [] /\ (q * inject_Z (Z.of_nat (length l)) == fold_right Qplus 0 l)%Q.

(** [g] holds [m] bins of [b] consecutive samples of the line [f] of length [n]. *)
Definition regroup {A B} (agg : list A -> B -> Prop) (n b : nat) (f : nat -> A) (m : nat) (g : nat -> B) : Prop :=
  bins n b m /\ forall i, i < m -> agg (bin f b i) (g i).

(** The bin width: one sample when nothing is asked or less than a sample is. *)
Definition asked (n b : nat) (step : Q) (want : option Q) : Prop :=
  match want with
  | None => b = 1
  | Some w => ((w < step)%Q /\ b = 1) \/ ((step <= w)%Q /\ width n b step w)
  end.

(** Interval between the first two coordinates. *)
Definition step (l : list Q) : Q := (nth 1 l 0 - nth 0 l 0)%Q.
(** Increasing axis and non-negative width, when a rebinning is asked. *)
Definition askable (l : list Q) (want : option Q) : Prop :=
  forall w, want = Some w -> (0 < step l)%Q /\ (0 <= w)%Q.

(** The sample of a slice at a time bin and a frequency bin. *)
Definition at_ (y : slice) (i c : nat) : sample :=
  match sl_value y with
  | V2 v => nth c (nth i v []) None
  | V1 l => if length (sl_time y) =? 1 then nth c l None else nth i l None
  | V0 x => x
  end.

(** ** Rows *)
Definition good_rows (b m : nat) : list (list nat) :=
  map (fun i => map (fun j => i * b + j) (seq 0 b)) (seq 0 m).

Lemma bin_rows_good : forall b n, 0 < b -> bin_rows (Z.of_nat b) n = good_rows b (n / b).
Proof.
  intros b n B. unfold bin_rows, good_rows. rewrite Nat2Z.id.
  rewrite <- Nat2Z.inj_div. rewrite Nat2Z.id. apply map_ext. intros i. apply map_ext. intros j. lia.
Qed.

Lemma bins_div : forall n b, 0 < b -> bins n b (n / b).
Proof.
  intros n b B. split; [exact B|]. pose proof (Nat.div_mod n b ltac:(lia)). pose proof (Nat.mod_upper_bound n b ltac:(lia)). lia.
Qed.

Lemma bins_one : forall n, bins n 1 n.
Proof. intros n. unfold bins. lia. Qed.

Lemma rows_spec : forall want st n r, (0 < st)%Q -> (0 <= want)%Q -> 0 < n -> rows_of want st n = Ok r ->
  exists b m, asked n b st (Some want) /\ bins n b m /\
    match r with None => b = 1 /\ m = n | Some rows => rows = good_rows b m end.
Proof.
  intros want st n r P W N H. unfold rows_of in H.
  assert (Z0 : Qeq_bool st 0 = false).
  { destruct (Qeq_bool st 0) eqn:C; [|reflexivity]. apply Qeq_bool_iff in C. lra. }
  rewrite Z0 in H. pose proof (floor_bounds st want P) as [FL FU]. set (k := Qfloor (want / st)) in *.
  assert (K0 : (0 <= k)%Z).
  { unfold k. change 0%Z with (Qfloor 0). apply Qfloor_resp_le. apply Qle_shift_div_l; lra. }
  destruct (Z.ltb_spec (Z.of_nat n) k) as [C|C].
  - injection H as <-. exists n, (n / n). rewrite bin_rows_good by exact N.
    split; [|split; [now apply bins_div|reflexivity]].
    assert ((inject_Z (Z.of_nat n) <= inject_Z k)%Q) by (rewrite <- Zle_Qle; lia).
    assert (X : (inject_Z (Z.of_nat n) * st <= inject_Z k * st)%Q) by (apply Qmult_le_compat_r; lra).
    right. split.
    + assert (Y : (1 * st <= inject_Z (Z.of_nat n) * st)%Q).
      { apply Qmult_le_compat_r; [|lra]. change 1%Q with (inject_Z 1). rewrite <- Zle_Qle. lia. }
      lra.
    + right. split; [reflexivity|]. lra.
  - destruct (Z.eqb_spec k 0) as [Z|Z].
    + injection H as <-. exists 1, n. split; [|split; [apply bins_one|auto]].
      left. split; [|reflexivity]. rewrite Z in FU. change (inject_Z 0) with 0%Q in FU. lra.
    + injection H as <-. assert (KE : k = Z.of_nat (Z.to_nat k)) by lia.
      rewrite KE in *. set (b := Z.to_nat k) in *. exists b, (n / b).
      split; [|split; [apply bins_div; lia|apply bin_rows_good; lia]].
      right. split.
      * assert (Y : (1 * st <= inject_Z (Z.of_nat b) * st)%Q).
        { apply Qmult_le_compat_r; [|lra]. change 1%Q with (inject_Z 1). rewrite <- Zle_Qle. lia. }
        lra.
      * left. split; [lia|]. split; assumption.
Qed.

Lemma diffs_two : forall l, one_value (diffs l) = true -> 1 < length l.
Proof. intros [|x [|y t]]; cbn; try discriminate. lia. Qed.

(** Both axes follow the same description. *)
Definition rows_good (l : list Q) (want : option Q) (r : option (list (list nat))) : Prop :=
  exists b m, asked (length l) b (step l) want /\ bins (length l) b m /\
    match r with None => b = 1 /\ m = length l | Some rows => rows = good_rows b m end.

Lemma freq_rows_spec : forall df freq r, askable freq df -> freq_rows df freq = Ok r -> rows_good freq df r.
Proof.
  intros [w|] freq r A H; cbn [freq_rows] in H.
  - destruct (one_value (diffs freq)) eqn:O; cbn [negb] in H; [|discriminate].
    destruct (A w eq_refl) as [P W]. apply diffs_two in O.
    destruct (rows_spec w (step freq) (length freq) r P W ltac:(lia) H) as (b & m & X). exists b, m. exact X.
  - injection H as <-. exists 1, (length freq). cbn [asked]. split; [reflexivity|]. split; [apply bins_one|auto].
Qed.

Lemma time_rows_spec : forall dt time r, askable time dt -> time_rows dt time = Ok r -> rows_good time dt r.
Proof.
  intros [w|] time r A H; cbn [time_rows] in H.
  - destruct time as [|t0 [|t1 ts]]; try discriminate.
    destruct (A w eq_refl) as [P W].
    destruct (rows_spec w (step (t0 :: t1 :: ts)) (length (t0 :: t1 :: ts)) r P W ltac:(cbn; lia) H) as (b & m & X).
    exists b, m. exact X.
  - injection H as <-. exists 1, (length time). cbn [asked]. split; [reflexivity|]. split; [apply bins_one|auto].
Qed.

(** ** Regrouping of lists *)
Lemma nth_map_seq : forall A (f : nat -> A) m i d, i < m -> nth i (map f (seq 0 m)) d = f i.
Proof.
  intros A f m i d H. rewrite (nth_indep _ d (f 0)) by (now rewrite map_length, seq_length).
  rewrite map_nth. now rewrite seq_nth.
Qed.

Lemma bin_list_good : forall A B (d : A) (f : list A -> B) b m x i (e : B), i < m ->
  nth i (bin_list d f (good_rows b m) x) e = f (bin (fun k => nth k x d) b i).
Proof.
  intros. unfold bin_list, good_rows. rewrite map_map. rewrite nth_map_seq by assumption.
  f_equal. unfold bin. rewrite map_map. reflexivity.
Qed.
Lemma bin_list_length : forall A B (d : A) (f : list A -> B) b m x,
  length (bin_list d f (good_rows b m) x) = m.
Proof. intros. unfold bin_list, good_rows. now rewrite !map_length, seq_length. Qed.

Lemma mean_axis : forall l, l <> [] -> axis_mean l (mean l).
Proof.
  intros l N. split; [exact N|]. unfold mean, qsum.
  assert (0 < inject_Z (Z.of_nat (length l)))%Q by (apply inj_pos; destruct l; [congruence|cbn; lia]).
  field. lra.
Qed.

Lemma agg_single : forall m f x, method_fun m = Ok f -> aggregates m [x] x.
Proof.
  intros [| |] f x H; try discriminate; cbn [aggregates].
  - destruct x as [q|]; cbn [mean_of count total].
    + split; [lia|]. change (inject_Z (Z.of_nat 1)) with 1%Q. lra.
    + intros y [<-|[]]. reflexivity.
  - destruct x as [q|]; cbn [median_of count].
    + assert (R : Qle_bool q q = true) by (apply Qle_bool_iff; lra).
      assert (K : ranked [Some q] 0 q).
      { split; [now left|]. cbn [filter below upto]. rewrite R. cbn [negb length]. lia. }
      exists q, q. split; [exact K|]. split; [exact K|lra].
    + intros y [<-|[]]. reflexivity.
Qed.
Lemma agg_fun : forall m f l, method_fun m = Ok f -> aggregates m l (f l).
Proof.
  intros [| |] f l H; try discriminate; injection H as <-; [apply nanmean_spec|apply nanmedian_spec].
Qed.

Lemma bin_one : forall A (f : nat -> A) i, bin f 1 i = [f i].
Proof. intros. unfold bin. cbn. now rewrite Nat.mul_1_r, Nat.add_0_r. Qed.

(** An axis. *)
Lemma axis_good : forall x want r, rows_good x want r ->
  exists b, asked (length x) b (step x) want /\
    regroup axis_mean (length x) b (fun i => nth i x 0%Q)
      (length (apply_rows r (fun r => bin_axis r x) x))
      (fun i => nth i (apply_rows r (fun r => bin_axis r x) x) 0%Q) /\
    match r with None => b = 1 | Some rows => rows = good_rows b (length (bin_axis rows x)) end.
Proof.
  intros x want r (b & m & A & B & R). exists b. split; [exact A|].
  destruct r as [rows|]; cbn [apply_rows].
  - subst rows. unfold bin_axis. rewrite bin_list_length. split; [|reflexivity]. split; [exact B|].
    intros i I. rewrite bin_list_good by exact I. apply mean_axis.
    intros C. apply (f_equal (@length Q)) in C. rewrite bin_length in C. cbn in C. destruct B. lia.
  - destruct R as [-> ->]. split; [|reflexivity]. split; [exact B|]. intros i I. rewrite bin_one.
    split; [discriminate|]. cbn. change (inject_Z 1) with 1%Q. lra.
Qed.

(** A list of samples along this axis. *)
Lemma list_good : forall meth f rows b l n, method_fun meth = Ok f -> length l = n ->
  match rows with None => b = 1 | Some r => r = good_rows b (n / b) end -> 0 < b ->
  regroup (aggregates meth) n b (fun i => nth i l None) (n / b)
    (fun i => nth i (apply_rows rows (fun r => bin_list None f r l) l) None) /\
  length (apply_rows rows (fun r => bin_list None f r l) l) = n / b.
Proof.
  intros meth f rows b l n F L R B. split; [split; [now apply bins_div|]|].
  - intros i I. destruct rows as [r|]; cbn [apply_rows].
    + subst r. rewrite bin_list_good by exact I. now apply agg_fun.
    + subst b. rewrite bin_one. eapply agg_single. exact F.
  - destruct rows as [r|]; cbn [apply_rows].
    + subst r. apply bin_list_length.
    + subst b. now rewrite Nat.div_1_r.
Qed.

Lemma regroup_count : forall A B (agg : list A -> B -> Prop) n b f m g, regroup agg n b f m g -> m = n / b.
Proof. intros A B agg n b f m g [X _]. now apply bins_unique. Qed.

(** ** Spectra and light curves *)
Theorem rebin_spectrum : forall dt df meth x y l, sl_value x = V1 l -> length l = length (sl_freq x) ->
  askable (sl_freq x) df -> rebin dt df meth x = Ok y ->
  exists b l', asked (length l) b (step (sl_freq x)) df /\
    sl_value y = V1 l' /\ length l' = length (sl_freq y) /\ sl_time y = sl_time x /\
    regroup axis_mean (length l) b (fun i => nth i (sl_freq x) 0%Q) (length l') (fun i => nth i (sl_freq y) 0%Q) /\
    regroup (aggregates meth) (length l) b (fun i => nth i l None) (length l') (fun i => nth i l' None).
Proof.
  intros dt df meth x y l V L A H. unfold rebin in H. destruct (method_fun meth) as [f|] eqn:F; [|discriminate].
  cbn [bind] in H. rewrite V, L, Nat.eqb_refl in H.
  destruct (freq_rows df (sl_freq x)) as [r|] eqn:R; [|discriminate]. cbn [bind] in H.
  injection H as <-. cbn [sl_value sl_freq sl_time].
  destruct (axis_good _ _ _ (freq_rows_spec _ _ _ A R)) as (b & AS & RG & RR).
  pose proof (regroup_count _ _ _ _ _ _ _ _ RG) as M. pose proof (proj1 (proj1 RG)) as BP.
  destruct (list_good meth f r b l (length (sl_freq x)) F L) as [LG LL]; [|exact BP|].
  { destruct r as [rows|]; [|exact RR]. cbn [apply_rows] in M. rewrite <- M. exact RR. }
  exists b, (apply_rows r (fun r => bin_list None f r l) l). rewrite L, LL, M.
  split; [exact AS|]. split; [reflexivity|]. split; [reflexivity|]. split; [reflexivity|].
  rewrite M in RG. split; [exact RG|exact LG].
Qed.

Theorem rebin_light_curve : forall dt df meth x y l, sl_value x = V1 l -> length l = length (sl_time x) ->
  length l <> length (sl_freq x) -> askable (sl_time x) dt -> rebin dt df meth x = Ok y ->
  exists b l', asked (length l) b (step (sl_time x)) dt /\
    sl_value y = V1 l' /\ length l' = length (sl_time y) /\ sl_freq y = sl_freq x /\
    regroup axis_mean (length l) b (fun i => nth i (sl_time x) 0%Q) (length l') (fun i => nth i (sl_time y) 0%Q) /\
    regroup (aggregates meth) (length l) b (fun i => nth i l None) (length l') (fun i => nth i l' None).
Proof.
  intros dt df meth x y l V L NF A H. unfold rebin in H. destruct (method_fun meth) as [f|] eqn:F; [|discriminate].
  cbn [bind] in H. rewrite V in H. destruct (Nat.eqb_spec (length l) (length (sl_freq x))); [contradiction|].
  rewrite L, Nat.eqb_refl in H.
  destruct (time_rows dt (sl_time x)) as [r|] eqn:R; [|discriminate]. cbn [bind] in H.
  injection H as <-. cbn [sl_value sl_freq sl_time].
  destruct (axis_good _ _ _ (time_rows_spec _ _ _ A R)) as (b & AS & RG & RR).
  pose proof (regroup_count _ _ _ _ _ _ _ _ RG) as M. pose proof (proj1 (proj1 RG)) as BP.
  destruct (list_good meth f r b l (length (sl_time x)) F L) as [LG LL]; [|exact BP|].
  { destruct r as [rows|]; [|exact RR]. cbn [apply_rows] in M. rewrite <- M. exact RR. }
  exists b, (apply_rows r (fun r => bin_list None f r l) l). rewrite L, LL, M.
  split; [exact AS|]. split; [reflexivity|]. split; [reflexivity|]. split; [reflexivity|].
  rewrite M in RG. split; [exact RG|exact LG].
Qed.

(** ** Dynamic spectra *)
Definition shaped (t w : nat) (v : list (list sample)) : Prop :=
  length v = t /\ forall r, In r v -> length r = w.

Lemma squeeze_at : forall t w v i c time freq, shaped t w v -> length time = t -> length freq = w ->
  i < t -> c < w -> at_ (mkSlice time freq (squeeze t w v)) i c = nth c (nth i v []) None.
Proof.
  intros t w v i c time freq [L R] LT LF I C. unfold at_. cbn [sl_value sl_time]. rewrite LT.
  destruct t as [|[|t]]; [lia| |].
  - assert (i = 0) by lia. subst i. cbn [Nat.eqb]. destruct w as [|[|w]]; cbn [squeeze]; [lia| |reflexivity].
    assert (c = 0) by lia. now subst c.
  - destruct w as [|[|w]]; cbn [squeeze]; [lia| |reflexivity].
    assert (c = 0) by lia. subst c. cbn [Nat.eqb].
    rewrite (nth_indep _ None (nth 0 (@nil sample) None)) by (rewrite map_length; lia).
    rewrite (map_nth (fun r => nth 0 r None)). reflexivity.
Qed.

Theorem rebin_dynamic : forall dt df meth x y v, sl_value x = V2 v ->
  shaped (length (sl_time x)) (length (sl_freq x)) v ->
  askable (sl_time x) dt -> askable (sl_freq x) df -> rebin dt df meth x = Ok y ->
  exists bt bf (mid : nat -> nat -> sample),
    asked (length (sl_time x)) bt (step (sl_time x)) dt /\ asked (length (sl_freq x)) bf (step (sl_freq x)) df /\
    regroup axis_mean (length (sl_time x)) bt (fun i => nth i (sl_time x) 0%Q)
      (length (sl_time y)) (fun i => nth i (sl_time y) 0%Q) /\
    regroup axis_mean (length (sl_freq x)) bf (fun i => nth i (sl_freq x) 0%Q)
      (length (sl_freq y)) (fun i => nth i (sl_freq y) 0%Q) /\
    (forall c, c < length (sl_freq x) ->
       regroup (aggregates meth) (length (sl_time x)) bt (fun i => nth c (nth i v []) None)
         (length (sl_time y)) (fun i => mid i c)) /\
    (forall i, i < length (sl_time y) ->
       regroup (aggregates meth) (length (sl_freq x)) bf (mid i) (length (sl_freq y)) (at_ y i)).
Proof.
  intros dt df meth x y v V [LV RV] AT AF H. unfold rebin in H.
  destruct (method_fun meth) as [f|] eqn:F; [|discriminate]. cbn [bind] in H. rewrite V in H.
  destruct (time_rows dt (sl_time x)) as [rt|] eqn:RT; [|discriminate]. cbn [bind] in H.
  destruct (freq_rows df (sl_freq x)) as [rf|] eqn:RF; [|discriminate]. cbn [bind] in H.
  injection H as <-. cbn [sl_time sl_freq].
  destruct (axis_good _ _ _ (time_rows_spec _ _ _ AT RT)) as (bt & AST & RGT & RRT).
  destruct (axis_good _ _ _ (freq_rows_spec _ _ _ AF RF)) as (bf & ASF & RGF & RRF).
  set (time1 := apply_rows rt (fun r => bin_axis r (sl_time x)) (sl_time x)) in *.
  set (freq1 := apply_rows rf (fun r => bin_axis r (sl_freq x)) (sl_freq x)) in *.
  set (w := length (sl_freq x)) in *.
  set (v1 := apply_rows rt (fun r => bin_time f r w v) v).
  set (v2 := apply_rows rf (fun r => bin_freq f r v1) v1).
  pose proof (regroup_count _ _ _ _ _ _ _ _ RGT) as MT. pose proof (regroup_count _ _ _ _ _ _ _ _ RGF) as MF.
  assert (S1 : shaped (length time1) w v1).
  { unfold v1, time1. destruct rt as [rows|]; cbn [apply_rows].
    - unfold bin_time, bin_axis, bin_list. split; [now rewrite !map_length|].
      intros r I. apply in_map_iff in I. destruct I as (q & <- & _). now rewrite map_length, seq_length.
    - split; [exact LV|exact RV]. }
  assert (S2 : shaped (length time1) (length freq1) v2).
  { destruct S1 as [L1 R1]. unfold v2, freq1. destruct rf as [rows|]; cbn [apply_rows].
    - unfold bin_freq. split; [now rewrite map_length|]. intros r I. apply in_map_iff in I.
      destruct I as (q & <- & _). unfold bin_axis, bin_list. now rewrite !map_length.
    - split; [exact L1|exact R1]. }
  exists bt, bf, (fun i c => nth c (nth i v1 []) None).
  split; [exact AST|]. split; [exact ASF|]. split; [exact RGT|]. split; [exact RGF|]. split.
  - intros c C. split; [apply RGT|]. intros i I. unfold v1. destruct rt as [rows|]; cbn [apply_rows] in *.
    + rewrite RRT. unfold bin_time, good_rows. rewrite map_map.
      fold time1. rewrite nth_map_seq by exact I. rewrite nth_map_seq by exact C.
      rewrite map_map. now apply agg_fun.
    + subst bt. rewrite bin_one. eapply agg_single. exact F.
  - intros i I. split; [apply RGF|]. intros c C. rewrite (squeeze_at _ _ v2 i c _ _ S2 eq_refl eq_refl I C).
    unfold v2. destruct rf as [rows|]; cbn [apply_rows] in *.
    + unfold bin_freq. rewrite (nth_indep (map (bin_list None f rows) v1) [] (bin_list None f rows [])) by (rewrite map_length; destruct S1; lia).
      rewrite map_nth. rewrite RRF. fold freq1. rewrite bin_list_good by exact C. now apply agg_fun.
    + subst bf. rewrite bin_one. eapply agg_single. exact F.
Qed.

(** ** Refusals *)
Theorem rebin_refused : forall dt df x,
  rebin dt df MOther x = Err EValueError /\
  (forall meth q, meth <> MOther -> sl_value x = V0 q -> rebin dt df meth x = Err EValueError) /\
  (forall meth l, meth <> MOther -> sl_value x = V1 l -> length l <> length (sl_freq x) ->
     length l <> length (sl_time x) -> rebin dt df meth x = Err EValueError) /\
  (forall meth v w, meth <> MOther -> sl_value x = V2 v -> dt = Some w -> length (sl_time x) < 2 ->
     rebin dt df meth x = Err EIndexError) /\
  (forall meth v w, meth <> MOther -> sl_value x = V2 v -> dt = None -> df = Some w ->
     (exists i, S (S i) < length (sl_freq x) /\
        ~ (nth (S i) (sl_freq x) 0 - nth i (sl_freq x) 0 == nth (S (S i)) (sl_freq x) 0 - nth (S i) (sl_freq x) 0)%Q) ->
     rebin dt df meth x = Err EException).
Proof.
  intros dt df x. split; [reflexivity|].
  assert (MF : forall meth, meth <> MOther -> exists f, method_fun meth = Ok f).
  { intros [| |] N; cbn; eauto. contradiction. }
  split; [|split; [|split]].
  - intros meth q N V. unfold rebin. destruct (MF meth N) as [f ->]. cbn [bind]. now rewrite V.
  - intros meth l N V L1 L2. unfold rebin. destruct (MF meth N) as [f ->]. cbn [bind]. rewrite V.
    destruct (Nat.eqb_spec (length l) (length (sl_freq x))); [contradiction|].
    destruct (Nat.eqb_spec (length l) (length (sl_time x))); [contradiction|]. reflexivity.
  - intros meth v w N V -> L. unfold rebin. destruct (MF meth N) as [f ->]. cbn [bind]. rewrite V.
    cbn [time_rows]. destruct (sl_time x) as [|a [|b t]]; cbn in *; try reflexivity. lia.
  - intros meth v w N V -> -> (i & I & D). unfold rebin. destruct (MF meth N) as [f ->]. cbn [bind]. rewrite V.
    cbn [time_rows bind apply_rows freq_rows].
    assert (O : one_value (diffs (sl_freq x)) = false); [|rewrite O; reflexivity].
    destruct (one_value (diffs (sl_freq x))) eqn:O; [|reflexivity]. exfalso. apply D. clear D.
    assert (G : forall l c i, forallb (Qeq_bool c) (diffs l) = true -> S i < length l ->
                (c == nth (S i) l 0 - nth i l 0)%Q).
    { intros l c. induction l as [|a [|b t] IH]; intros k Fb Lk; cbn [length] in Lk; try lia.
      cbn [diffs forallb] in Fb. apply andb_prop in Fb. destruct Fb as [F1 F2]. destruct k as [|k].
      - cbn [nth]. now apply Qeq_bool_iff.
      - apply (IH k F2). cbn [length]. lia. }
    destruct (sl_freq x) as [|a [|b t]] eqn:EF; cbn [length] in I; try lia.
    cbn [diffs one_value] in O.
    assert (O' : forallb (Qeq_bool (b - a)) (diffs (a :: b :: t)) = true).
    { cbn [diffs forallb]. change (diffs (b :: t)) with (diffs (b :: t)) in O. rewrite O.
      rewrite (proj2 (Qeq_bool_iff _ _) (Qeq_refl _)). reflexivity. }
    rewrite <- (G (a :: b :: t) (b - a)%Q i O') by (cbn [length]; lia).
    rewrite <- (G (a :: b :: t) (b - a)%Q (S i) O') by (cbn [length]; lia). reflexivity.
Qed.

(** ** Decreasing axes *)
Theorem rebin_descending : forall dt df w meth x l, sl_value x = V1 l -> length l = length (sl_freq x) ->
  meth <> MOther -> df = Some w -> (0 < w)%Q -> one_value (diffs (sl_freq x)) = true ->
  (step (sl_freq x) < 0)%Q ->
  rebin dt df meth x = Ok (mkSlice (sl_time x) [] (V1 [])).
Proof.
  intros dt df w meth x l V L N -> W O S. unfold rebin.
  assert (MF : exists f, method_fun meth = Ok f) by (destruct meth; cbn; eauto; contradiction).
  destruct MF as [f ->]. cbn [bind]. rewrite V, L, Nat.eqb_refl. cbn [freq_rows]. rewrite O. cbn [negb].
  fold (step (sl_freq x)). set (st := step (sl_freq x)) in *. unfold rows_of.
  assert (Z0 : Qeq_bool st 0 = false).
  { destruct (Qeq_bool st 0) eqn:C; [|reflexivity]. apply Qeq_bool_iff in C. lra. }
  rewrite Z0. assert (K : (Qfloor (w / st) < 0)%Z).
  { rewrite Zlt_Qlt. change (inject_Z 0) with 0%Q. eapply Qle_lt_trans; [apply Qfloor_le|].
    setoid_replace (w / st)%Q with (- (w / - st))%Q by (field; lra).
    assert (0 < w / - st)%Q by (apply Qlt_shift_div_l; lra). lra. }
  set (k := Qfloor (w / st)) in *. destruct (Z.ltb_spec (Z.of_nat (length (sl_freq x))) k); [lia|].
  destruct (Z.eqb_spec k 0); [lia|]. cbn [bind].
  assert (R : bin_rows k (length (sl_freq x)) = []).
  { unfold bin_rows.
    assert (Z.of_nat (length (sl_freq x)) / k <= 0)%Z.
    { rewrite <- Z.div_opp_opp by lia. pose proof (Z.div_le_upper_bound (- Z.of_nat (length (sl_freq x))) (- k) 0). lia. }
    replace (Z.to_nat (Z.of_nat (length (sl_freq x)) / k)) with 0 by lia. reflexivity. }
  rewrite R. reflexivity.
Qed.
