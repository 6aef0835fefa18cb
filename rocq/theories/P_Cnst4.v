(** Constraint evaluations over several blocks, and computed witnesses. *)
From Coq Require Import List Arith ZArith QArith Bool Lia Lqa Permutation.
From Verif Require Import Base M_Sched M_Cnst P_Booking P_Cnst P_Cnst2 P_Cnst3.
Import ListNotations.
Open Scope nat_scope.

(** ** The Sun elevations along the evaluations *)

Definition sun_step (sun : vec) (c : cnst) : vec :=
  match cn_kind c with CNight e _ => night_clip e sun | _ => sun end.
Definition sun_after (cs : list cnst) (sun : vec) : vec := fold_left sun_step cs sun.

Lemma eval_one_after : forall tg ck ns sun c, fst (eval_one tg ck ns sun c) = sun_step sun c.
Proof. intros. unfold eval_one, sun_step. destruct (cn_kind c); reflexivity. Qed.

Lemma eval_rows_after : forall tg ck ns cs sun sun' rows, eval_rows tg ck ns sun cs = (sun', Ok rows) ->
  sun' = sun_after cs sun.
Proof.
  intros tg ck ns; induction cs as [|c t IH]; intros sun sun' rows H; cbn in H.
  - unfold sun_after; cbn; congruence.
  - pose proof (eval_one_after tg ck ns sun c) as A.
    destruct (eval_one tg ck ns sun c) as [s1 [r|e]]; [|discriminate]. cbn in A. subst s1.
    destruct (eval_rows tg ck ns (sun_step sun c) t) as [s2 [rs|e]] eqn:E; cbn in H; [|discriminate].
    assert (s2 = sun') as <- by congruence. unfold sun_after; cbn. now apply IH in E.
Qed.

Lemma evaluate_after : forall cs tg ck ns sun sun' x, evaluate cs tg ck ns sun = (sun', Ok x) -> sun' = sun_after cs sun.
Proof.
  intros cs tg ck ns sun sun' x H. unfold evaluate in H.
  destruct (eval_rows tg ck ns sun cs) as [s1 [rs|e]] eqn:E; cbn in H; [|discriminate].
  apply eval_rows_after in E. congruence.
Qed.

Lemma clip_comm : forall a b s, night_clip a (night_clip b s) = night_clip b (night_clip a s).
Proof.
  intros a b s. unfold night_clip. rewrite !map_map. apply map_ext. intros [x|]; [|reflexivity].
  destruct (Qltb a x) eqn:A, (Qltb b x) eqn:B; rewrite ?A, ?B; reflexivity.
Qed.

Lemma sun_step_comm : forall s c d, sun_step (sun_step s c) d = sun_step (sun_step s d) c.
Proof. intros s c d. unfold sun_step. destruct (cn_kind c), (cn_kind d); try reflexivity. apply clip_comm. Qed.

Lemma sun_after_perm : forall cs cs' sun, Permutation cs cs' -> sun_after cs sun = sun_after cs' sun.
Proof.
  intros cs cs' sun P. revert sun. unfold sun_after. induction P; intros sun; cbn.
  - reflexivity.
  - apply IHP.
  - now rewrite sun_step_comm.
  - now rewrite IHP1.
Qed.

Definition unique_classes (cs : list cnst) : Prop := NoDup (classes cs).

Lemma eval_indep_night : forall tg ck ns c sun sun2, class_of c <> 7 ->
  snd (eval_one tg ck ns sun2 c) = snd (eval_one tg ck ns sun c).
Proof.
  intros tg ck ns c sun sun2 N. unfold class_of in N. unfold eval_one. destruct (cn_kind c); try reflexivity.
  cbn in N. congruence.
Qed.

(** In a set every constraint sees the Sun elevations given to the set. *)
Lemma eval_rows_once : forall tg ck ns cs sun, unique_classes cs -> forall rows,
  snd (eval_rows tg ck ns sun cs) = Ok rows <-> map (fun c => snd (eval_one tg ck ns sun c)) cs = map Ok rows.
Proof.
  intros tg ck ns; induction cs as [|c t IH]; intros sun N rows.
  - cbn. destruct rows; split; intros H; try reflexivity; try discriminate; congruence.
  - unfold unique_classes in N. cbn in N. inversion N; subst. specialize (IH (sun_step sun c) H2).
    pose proof (eval_one_after tg ck ns sun c) as A.
    assert (T : map (fun d => snd (eval_one tg ck ns (sun_step sun c) d)) t = map (fun d => snd (eval_one tg ck ns sun d)) t).
    { destruct (Nat.eq_dec (class_of c) 7) as [E|E].
      - apply map_ext_in. intros d D. apply eval_indep_night. intros X. apply H1. fold (class_of c). rewrite E, <- X.
        unfold classes. apply in_map_iff. exists d. split; [reflexivity|assumption].
      - assert (S : sun_step sun c = sun) by (unfold sun_step, class_of in *; destruct (cn_kind c); try reflexivity; cbn in E; congruence).
        now rewrite S. }
    cbn [eval_rows map]. destruct (eval_one tg ck ns sun c) as [s1 r] eqn:E. cbn [fst] in A. subst s1.
    cbn [snd]. destruct r as [r|e].
    + cbn [snd]. rewrite T in IH. destruct (snd (eval_rows tg ck ns (sun_step sun c) t)) as [rs|e] eqn:F; cbn [bind].
      * split.
        -- intros H. injection H; intros <-. cbn. f_equal. now apply IH.
        -- intros H. destruct rows as [|r' rows']; [discriminate|]. cbn in H. injection H; intros G1 G2.
           apply IH in G1. congruence.
      * split; [discriminate|]. intros H. destruct rows as [|r' rows']; [discriminate|]. cbn in H.
        injection H; intros G1 G2. apply IH in G1. discriminate.
    + cbn [snd]. split; [discriminate|]. intros H. destruct rows; discriminate.
Qed.

Lemma set_perm : forall cs cs' tg ck ns sun sun' rows score, Permutation cs cs' -> unique_classes cs -> weights_ok cs ->
  evaluate cs tg ck ns sun = (sun', Ok (rows, score)) ->
  exists rows' score', evaluate cs' tg ck ns sun = (sun', Ok (rows', score')) /\
    Permutation (combine cs rows) (combine cs' rows') /\
    length score' = length score /\ forall k, (nth k score' 0 == nth k score 0)%Q.
Proof.
  intros cs cs' tg ck ns sun sun' rows score P N W H.
  pose proof (evaluate_ok _ _ _ _ _ _ _ _ H) as (NE & LR & LS & V).
  assert (N' : unique_classes cs').
  { unfold unique_classes in *. eapply Permutation_NoDup; [|exact N]. unfold classes. now apply Permutation_map. }
  pose proof (eval_rows_once tg ck ns cs sun N) as R.
  pose proof (eval_rows_once tg ck ns cs' sun N') as R'.
  assert (RR : snd (eval_rows tg ck ns sun cs) = Ok rows).
  { unfold evaluate in H. destruct (eval_rows tg ck ns sun cs) as [s1 [rs|e]]; cbn in H; [|discriminate].
    destruct cs; [discriminate|]. cbn. congruence. }
  apply R in RR.
  set (g := fun c => snd (eval_one tg ck ns sun c)) in *.
  set (pick := fun x : res (option vec) => match x with Ok a => a | Err _ => None end).
  assert (EX : exists rows', map g cs' = map Ok rows').
  { apply ok_map_inv. intros x X. apply (proj1 (ok_map_inv (map g cs))); [now exists rows|].
    eapply Permutation_in; [|exact X]. apply Permutation_map, Permutation_sym, P. }
  destruct EX as (rows' & E').
  assert (ROW : rows = map (fun c => pick (g c)) cs).
  { rewrite <- (map_map g pick), RR, map_map. cbn. now rewrite map_id. }
  assert (ROW' : rows' = map (fun c => pick (g c)) cs').
  { rewrite <- (map_map g pick), E', map_map. cbn. now rewrite map_id. }
  assert (NE' : cs' <> []) by (intros ->; apply Permutation_sym, Permutation_nil in P; congruence).
  exists rows', (combined (map cn_weight cs') (length (ck_time ck) - 1) rows').
  assert (EV : evaluate cs' tg ck ns sun = (sun', Ok (rows', combined (map cn_weight cs') (length (ck_time ck) - 1) rows'))).
  { apply R' in E'. destruct (eval_rows tg ck ns sun cs') as [s1 x] eqn:EE. cbn in E'. subst x.
    pose proof (eval_rows_after _ _ _ _ _ _ _ EE) as S1. apply evaluate_after in H.
    unfold evaluate. rewrite EE. cbn. rewrite S1, H, (sun_after_perm cs cs' sun P). destruct cs'; [congruence|reflexivity]. }
  split; [assumption|]. split.
  { assert (C : forall l, combine l (map (fun c => pick (g c)) l) = map (fun c => (c, pick (g c))) l).
    { clear. induction l as [|c t IH]; [reflexivity|]. cbn. now rewrite IH. }
    rewrite ROW, ROW', !C. now apply Permutation_map. }
  split; [rewrite combined_length; lia|]. intros k.
  destruct (le_lt_dec (length (ck_time ck) - 1) k) as [G|G].
  { rewrite !nth_overflow; [reflexivity|lia|rewrite combined_length; lia]. }
  rewrite V by assumption. rewrite combined_nth by assumption.
  set (blank := if existsb (fun r : option vec => match r with Some _ => true | None => false end) rows then Some 0%Q else Some 1%Q).
  assert (B' : existsb (fun r : option vec => match r with Some _ => true | None => false end) rows' =
               existsb (fun r : option vec => match r with Some _ => true | None => false end) rows).
  { apply eq_true_iff_eq. rewrite !existsb_exists. assert (PR : Permutation rows rows') by (rewrite ROW, ROW'; now apply Permutation_map).
    split; intros (x & X & Y); exists x; (split; [|assumption]); eapply Permutation_in; try exact X;
      [apply Permutation_sym|]; exact PR. }
  set (h := fun c => match pick (g c) with Some v => nth k v None | None => blank end).
  assert (VA : forall l rs, rs = map (fun c => pick (g c)) l ->
     existsb (fun r : option vec => match r with Some _ => true | None => false end) rs =
     existsb (fun r : option vec => match r with Some _ => true | None => false end) rows ->
     values_at rs k = map h l).
  { intros l rs E B. unfold values_at, value_at. rewrite B. fold blank.
    rewrite <- (map_by_index _ _ (fun r : option vec => match r with Some v => nth k v None | None => blank end) rs None).
    rewrite E, map_map. reflexivity. }
  rewrite (VA cs rows ROW eq_refl), (VA cs' rows' ROW' B').
  apply slot_perm.
  - now rewrite !map_length.
  - now rewrite !map_length.
  - unfold positive_weights. unfold weights_ok, positive_weights in W. rewrite Forall_forall in *.
    intros w I. apply W. eapply Permutation_in; [|exact I]. apply Permutation_map, Permutation_sym, P.
  - assert (C : forall l, combine (map cn_weight l) (map h l) = map (fun c => (cn_weight c, h c)) l).
    { clear. induction l as [|c t IH]; [reflexivity|]. cbn. now rewrite IH. }
    rewrite !C. apply Permutation_map, Permutation_sym, P.
Qed.

Lemma evaluate_between : forall cs tg ck ns sun sun' rows score k lo hi, weights_ok cs ->
  evaluate cs tg ck ns sun = (sun', Ok (rows, score)) -> k < length score ->
  (forall j, j < length cs -> exists q, value_at rows k j = Some q /\ ~ (q == 0)%Q /\ (lo <= q <= hi)%Q) ->
  (lo <= nth k score 0 <= hi)%Q.
Proof.
  intros cs tg ck ns sun sun' rows score k lo hi W H L B.
  destruct (evaluate_ok _ _ _ _ _ _ _ _ H) as (N & LR & LS & V). rewrite V by lia.
  assert (VV : forall x, In x (values_at rows k) -> exists q, x = Some q /\ ~ (q == 0)%Q /\ (lo <= q <= hi)%Q).
  { intros x X. unfold values_at in X. apply in_map_iff in X. destruct X as (j & <- & J). apply in_seq in J. apply B. lia. }
  pose proof (values_length rows k) as LV.
  destruct (known_or_nan (values_at rows k)) as [C|(qs & E)].
  - destruct (VV None C) as (q & X & _). discriminate.
  - rewrite E in *. rewrite map_length in LV. apply slot_between.
    + rewrite map_length. lia.
    + exact W.
    + destruct cs; [congruence|discriminate].
    + intros q I. destruct (VV (Some q) (in_map Some qs q I)) as (q' & X & Y). injection X; intros ->. tauto.
Qed.

(** ** Blocks without target *)

Definition needs_target (c : cnst) : Prop :=
  match cn_kind c with CElevation _ _ | CTransit | CAzimuth _ | CSidereal _ => True | _ => False end.
Definition on_the_clock (c : cnst) : Prop :=
  match cn_kind c with CLocalTime _ _ | CUTCHour _ _ | CTimeRange _ | CPeriodic _ _ _ => True | _ => False end.

Lemma rows_nth : forall tg ck ns cs sun sun' rows j c, eval_rows tg ck ns sun cs = (sun', Ok rows) ->
  nth_error cs j = Some c -> exists s, snd (eval_one tg ck ns s c) = Ok (nth j rows None).
Proof.
  intros tg ck ns; induction cs as [|c0 t IH]; intros sun sun' rows j c H E; [destruct j; discriminate|].
  cbn in H. destruct (eval_one tg ck ns sun c0) as [s1 [r|e]] eqn:X; [|discriminate].
  destruct (eval_rows tg ck ns s1 t) as [s2 [rs|e]] eqn:Y; cbn in H; [|discriminate].
  assert (rows = r :: rs) as -> by congruence. destruct j as [|j]; cbn in E.
  - injection E; intros <-. exists sun. now rewrite X.
  - cbn. eapply IH; eassumption.
Qed.

Lemma evaluate_rows : forall cs tg ck ns sun sun' rows score, evaluate cs tg ck ns sun = (sun', Ok (rows, score)) ->
  eval_rows tg ck ns sun cs = (sun', Ok rows).
Proof.
  intros cs tg ck ns sun sun' rows score H. unfold evaluate in H.
  destruct (eval_rows tg ck ns sun cs) as [s1 [rs|e]]; cbn in H; [|discriminate].
  destruct cs; [discriminate|]. congruence.
Qed.

Lemma no_target_blocked : forall cs ck ns sun sun' rows score c d,
  evaluate cs None ck ns sun = (sun', Ok (rows, score)) ->
  In c cs -> needs_target c -> In d cs -> on_the_clock d ->
  forall k, k < length score -> nth k score 0%Q = 0%Q.
Proof.
  intros cs ck ns sun sun' rows score c d H IC C ID D k K.
  destruct (evaluate_ok _ _ _ _ _ _ _ _ H) as (_ & LR & _ & _).
  pose proof (evaluate_rows _ _ _ _ _ _ _ _ H) as R.
  apply In_nth_error in IC. destruct IC as (j & J). apply In_nth_error in ID. destruct ID as (i & I).
  destruct (rows_nth _ _ _ _ _ _ _ _ _ R J) as (s1 & S1). destruct (rows_nth _ _ _ _ _ _ _ _ _ R I) as (s2 & S2).
  assert (LJ : j < length cs) by (apply nth_error_Some; congruence).
  assert (LI : i < length cs) by (apply nth_error_Some; congruence).
  assert (N1 : nth j rows None = None).
  { unfold eval_one in S1. unfold needs_target in C. destruct (cn_kind c); try destruct C; cbn in S1; congruence. }
  assert (N2 : exists v, nth i rows None = Some v).
  { unfold eval_one in S2. unfold on_the_clock in D.
    destruct (cn_kind d); try destruct D; cbn [snd] in S2;
      match type of S2 with bind ?x _ = _ => destruct x as [r|]; [|discriminate] end; cbn in S2;
      injection S2; intros <-; eexists; reflexivity. }
  destruct N2 as (v & N2).
  eapply evaluate_blocked with (j := j); try eassumption. right. exists 0%Q. split; [|reflexivity].
  unfold value_at. rewrite N1.
  assert (B : existsb (fun r : option vec => match r with Some _ => true | None => false end) rows = true).
  { apply existsb_exists. exists (Some v). split; [|reflexivity]. rewrite <- N2. apply nth_In. lia. }
  now rewrite B.
Qed.

Lemma nothing_evaluated : forall cs ck ns sun, cs <> [] -> weights_ok cs -> (forall c, In c cs -> needs_target c) ->
  exists rows score, evaluate cs None ck ns sun = (sun, Ok (rows, score)) /\
    length score = length (ck_time ck) - 1 /\ forall k, k < length score -> (nth k score 0 == 1)%Q.
Proof.
  intros cs ck ns sun NE W H.
  assert (R : eval_rows None ck ns sun cs = (sun, Ok (map (fun _ => None) cs))).
  { clear NE W. induction cs as [|c t IH]; [reflexivity|]. cbn [eval_rows map].
    assert (X : eval_one None ck ns sun c = (sun, Ok None)).
    { specialize (H c (or_introl eq_refl)). unfold needs_target in H. unfold eval_one. destruct (cn_kind c); try destruct H; reflexivity. }
    rewrite X, IH; [reflexivity|]. intros d D. apply H. now right. }
  exists (map (fun _ => None) cs), (combined (map cn_weight cs) (length (ck_time ck) - 1) (map (fun _ => None) cs)).
  assert (E : evaluate cs None ck ns sun = (sun, Ok (map (fun _ => None) cs, combined (map cn_weight cs) (length (ck_time ck) - 1) (map (fun _ => None) cs)))).
  { unfold evaluate. rewrite R. cbn. destruct cs; [congruence|reflexivity]. }
  split; [assumption|]. split; [apply combined_length|]. intros k K. rewrite combined_length in K.
  rewrite combined_nth by assumption. apply slot_ones.
  - rewrite values_length. now rewrite !map_length.
  - exact W.
  - destruct cs; [congruence|discriminate].
  - intros x X. unfold values_at in X. apply in_map_iff in X. destruct X as (j & <- & J). exists 1%Q. split; [|reflexivity].
    unfold value_at.
    assert (Z : nth j (map (fun _ : cnst => @None vec) cs) None = None).
    { clear. revert j. induction cs as [|c t IH]; intros [|j]; cbn; try reflexivity. apply IH. }
    rewrite Z. assert (B : existsb (fun r : option vec => match r with Some _ => true | None => false end) (map (fun _ => None) cs) = false).
    { clear. induction cs as [|c t IH]; [reflexivity|]. cbn. exact IH. }
    now rewrite B.
Qed.

(** ** Nights *)

(** A night constraint that no slot satisfies makes the evaluation raise. *)
Lemma night_impossible : forall cs tg ck ns sun c e scale, unique_classes cs -> In c cs -> cn_kind c = CNight e scale ->
  length sun = length (ck_time ck) - 1 -> length sun <> 0 -> length sun <> 2 ->
  (forall x, In (Some x) sun -> (e < x)%Q) ->
  exists err, snd (evaluate cs tg ck ns sun) = Err err.
Proof.
  intros cs tg ck ns sun c e scale N I K L L0 L2 H.
  destruct (snd (evaluate cs tg ck ns sun)) as [[rows score]|err] eqn:E; [exfalso|now exists err].
  destruct (evaluate cs tg ck ns sun) as [sun' x] eqn:F. cbn in E. subst x.
  pose proof (evaluate_rows _ _ _ _ _ _ _ _ F) as R.
  pose proof (proj1 (eval_rows_once tg ck ns cs sun N rows) ltac:(now rewrite R)) as M.
  assert (X : In (snd (eval_one tg ck ns sun c)) (map Ok rows)) by (rewrite <- M; apply in_map_iff; now exists c).
  apply in_map_iff in X. destruct X as (r & X & _). unfold eval_one in X. rewrite K in X. cbn [snd] in X.
  unfold night_eval in X. cbn [snd fst] in X.
  assert (A : forallb is_nan (night_clip e sun) = true).
  { apply forallb_forall. intros y Y. unfold night_clip in Y. apply in_map_iff in Y. destruct Y as ([z|] & Y & Z).
    - apply H, qltb_iff in Z. rewrite Z in Y. now subst y.
    - now subst y. }
  rewrite A in X. unfold fit_row in X.
  assert (LS : length (stops_of (night_clip e sun)) = length sun - 1) by (unfold stops_of, night_clip; now rewrite tl_length, map_length).
  destruct (Nat.eqb_spec (length (stops_of (night_clip e sun))) (length (ck_time ck) - 1)) as [Q|Q]; [lia|].
  destruct (stops_of (night_clip e sun)) as [|a [|b t]]; cbn in X, LS; try discriminate. lia.
Qed.

(** What is left of the Sun elevations after some evaluations. *)
Lemma sun_after_spec : forall cs sun k,
  (nth k (sun_after cs sun) None = nth k sun None \/ nth k (sun_after cs sun) None = None) /\
  forall x, nth k sun None = Some x ->
    (nth k (sun_after cs sun) None = None <->
     exists c e scale, In c cs /\ cn_kind c = CNight e scale /\ (e < x)%Q).
Proof.
  induction cs as [|c t IH]; intros sun k.
  - unfold sun_after; cbn. split; [now left|]. intros x X. rewrite X. split; [discriminate|]. intros (c & e & sc & [] & _).
  - change (sun_after (c :: t) sun) with (sun_after t (sun_step sun c)). destruct (IH (sun_step sun c) k) as [A B].
    assert (S : forall x, nth k sun None = Some x ->
       (nth k (sun_step sun c) None = Some x /\ ~ (exists e scale, cn_kind c = CNight e scale /\ (e < x)%Q)) \/
       (nth k (sun_step sun c) None = None /\ (exists e scale, cn_kind c = CNight e scale /\ (e < x)%Q))).
    { intros x X. unfold sun_step.
      destruct (cn_kind c) eqn:K; try (left; split; [assumption|intros (? & ? & Y & _); discriminate]).
      rewrite night_clip_nth, X. destruct (Qltb emax x) eqn:L.
      - right. split; [reflexivity|]. apply qltb_iff in L. now exists emax, scale.
      - left. split; [reflexivity|]. apply qltb_false in L. intros (e & s & Y & Z). injection Y; intros _ ->. lra. }
    split.
    + destruct (nth k sun None) as [x|] eqn:X.
      * destruct (S x eq_refl) as [[S1 _]|[S1 _]]; rewrite S1 in A; tauto.
      * assert (S1 : nth k (sun_step sun c) None = None).
        { unfold sun_step. destruct (cn_kind c); try assumption. now rewrite night_clip_nth, X. }
        rewrite S1 in A. tauto.
    + intros x X. destruct (S x X) as [[S1 S2]|[S1 S2]].
      * rewrite (B x S1). split; intros (d & e & s & I & K & L).
        -- exists d, e, s. split; [now right|tauto].
        -- destruct I as [<- | I]; [exfalso; apply S2; now exists e, s|]. exists d, e, s. tauto.
      * rewrite S1 in A. split; intros _; [|tauto]. destruct S2 as (e & s & K & L). exists c, e, s. split; [now left|tauto].
Qed.

(** Each block is evaluated with what the previous ones left. *)
Lemma evaluate_blocks_spec : forall blocks ck sun sun' l, evaluate_blocks blocks ck sun = (sun', Ok l) ->
  length l = length blocks /\
  forall i cs tg ns, nth_error blocks i = Some (cs, tg, ns) ->
    exists rows, evaluate cs tg ck ns (sun_after (concat (map (fun b => fst (fst b)) (firstn i blocks))) sun) =
      (sun_after (concat (map (fun b => fst (fst b)) (firstn (S i) blocks))) sun, Ok (rows, nth i l [])).
Proof.
  induction blocks as [|[[cs tg] ns] t IH]; intros ck sun sun' l H.
  - cbn in H. assert (l = []) as -> by congruence. split; [reflexivity|]. intros [|i]; discriminate.
  - cbn [evaluate_blocks] in H. destruct (evaluate cs tg ck ns sun) as [s1 [[rows s]|e]] eqn:E; [|discriminate].
    destruct (evaluate_blocks t ck s1) as [s2 [l'|e]] eqn:F; cbn in H; [|discriminate].
    assert (l = s :: l') as -> by congruence. destruct (IH _ _ _ _ F) as [L N].
    split; [cbn; lia|]. pose proof (evaluate_after _ _ _ _ _ _ _ E) as A. intros [|i] cs' tg' ns' I.
    + cbn in I. injection I; intros <- <- <-. exists rows. cbn [firstn map concat fst app nth]. rewrite app_nil_r.
      unfold sun_after at 1. cbn. rewrite E. now rewrite A.
    + cbn in I. destruct (N i cs' tg' ns' I) as (rows' & R). exists rows'.
      rewrite !firstn_cons. cbn [map concat fst nth]. unfold sun_after in *. rewrite !fold_left_app. rewrite <- A. exact R.
Qed.

(** ** Witnesses *)

Definition hours (n : nat) : list Z := map (fun k => Z.of_nat k * 60)%Z (seq 0 n).
Definition clock0 (n : nat) : clock := mkClock (hours n) 1440%Z (fun _ => 60%Z).

Definition two_nights (a b : Q) : list (list cnst * option target * nat) :=
  [([mkCnst (CNight a true) 1], None, 1); ([mkCnst (CNight b true) 1], None, 1)].

Definition evening : vec := [Some 5%Q; Some (-5 # 1)%Q; Some (-10 # 1)%Q; Some (-20 # 1)%Q].

Definition shown (r : res (list (list Q))) : list (list Q) :=
  match r with Ok l => map (map Qred) l | Err _ => [] end.

Lemma night_order_matters :
  shown (snd (evaluate_blocks (two_nights (-5 # 1) (-15 # 1)) (clock0 5) evening)) =
    [[0; 1 # 4; 1 # 2; 1]; [0; 0; 0; 1]]%Q /\
  shown (snd (evaluate_blocks (two_nights (-15 # 1) (-5 # 1)) (clock0 5) evening)) =
    [[0; 0; 0; 1]; [0; 0; 0; 1]]%Q.
Proof. split; vm_compute; reflexivity. Qed.

(** Two constraints of unequal weights over three slots. *)
Definition demo_set : list cnst := [mkCnst (CElevation 10 true) 1; mkCnst (CUTCHour 0 1) 2].
Definition demo_target : target := 
  mkTarget [20; 40; 60; 5]%Q [22; 23; 0; 1]%Q [100; 110; 120; 130]%Q false [350; 5; 20; 35]%Q [10; 20; 30]%Q.

Lemma demo_set_valid : Forall valid_cnst demo_set /\ unique_classes demo_set /\ valid_target (Some demo_target).
Proof.
  split; [|split].
  - repeat constructor; discriminate.
  - unfold unique_classes. cbn. repeat constructor; cbn; intuition discriminate.
  - cbn. intros e [<- | [<- | [<- | []]]]; discriminate.
Qed.

Lemma lst_long_slots : exists a b A B lst, wrapped 360 a A /\ wrapped 360 b B /\ (0 <= lst < 360)%Q /\ (A <= B)%Q /\ (B - A < 360)%Q /\
  (exists m : Z, (A <= lst + 360 * inject_Z m)%Q /\ (lst + 360 * inject_Z m <= B)%Q) /\ lst_crossed lst a b = false.
Proof.
  exists 100%Q, 20%Q, 100%Q, 380%Q, 200%Q.
  split; [split; [lra|exists 0%Z; reflexivity]|]. split; [split; [lra|exists 1%Z; reflexivity]|].
  split; [lra|]. split; [lra|]. split; [lra|]. split; [exists 0%Z; change (inject_Z 0) with 0%Q; lra|]. reflexivity.
Qed.

Lemma azimuth_south : azimuth_eval 0 true 1 [179; 181]%Q = [Some 1%Q] /\ azimuth_eval 90 true 1 [179; 181]%Q = [Some 1%Q].
Proof. split; vm_compute; reflexivity. Qed.

Lemma elevation_replaced : forall w, exists s s' r,
  new_cset [] = Ok s /\ cset_add s (mkCnst (CElevation 30 true) w) = (s', Ok r) /\
  cs_list s = [default_el] /\ cs_list s' = [] /\
  (forall tg ck ns sun, evaluate (cs_list s') tg ck ns sun = (sun, Err EZeroDivisionError)) /\
  exists s2 t, cset_add s' (mkCnst (CUTCHour 2 4) w) = (s2, Ok t) /\ cs_list t = [mkCnst (CUTCHour 2 4) w; default_el] /\
    cset_add t (mkCnst (CElevation 30 true) w) = (t, Err EValueError).
Proof.
  intros w. eexists; eexists; eexists. split; [reflexivity|]. split; [reflexivity|]. split; [reflexivity|].
  split; [reflexivity|]. split; [reflexivity|]. eexists; eexists. split; [reflexivity|]. split; reflexivity.
Qed.

Lemma no_target_score : forall ck sun c d, needs_target (mkCnst c 1) -> on_the_clock (mkCnst d 1) ->
  exists rows score, evaluate [mkCnst c 1; mkCnst d 1] None ck 1 sun = (sun, Ok (rows, score)) /\
    block_score [mkCnst c 1; mkCnst d 1] rows (Some 0) 1 = Err ETypeError.
Proof.
  intros ck sun c d C D. unfold needs_target in C. cbn in C. unfold on_the_clock in D. cbn in D.
  assert (F : forall A (f : A -> bool) l, fit_row (length l - 1) (mask_score (starts_of (map f l))) = Ok (mask_score (starts_of (map f l)))).
  { intros A f l. unfold fit_row. now rewrite mask_score_length, Nat.eqb_refl. }
  unfold evaluate. cbn [eval_rows]. unfold eval_one. cbn [cn_kind].
  destruct c; try destruct C; destruct d; try destruct D; unfold local_eval, utc_eval, range_eval, periodic_eval;
    cbn [fst snd]; rewrite F; cbn [fst snd bind]; eexists; eexists; split; reflexivity.
Qed.
