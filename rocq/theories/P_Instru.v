(** Specification and proofs for arrays of antennas (C55). *)
From Coq Require Import ZArith QArith Bool String List Arith Lia Sorting.Sorted Sorting.Permutation.
From Verif Require Import Base M_Instru.
Import ListNotations.
Open Scope nat_scope.
Open Scope list_scope.

(** * Specification *)
(** One antenna: name, position, gain, delay and weight. *)
Notation row P G := (string * P * G * Q * option Q)%type.
Definition rname {P G} (r : row P G) : string := fst (fst (fst (fst r))).
Definition rows {P G L} (a : interf P G L) : list (row P G) :=
  combine (combine (combine (combine (i_names a) (i_positions a)) (i_gains a)) (i_delays a)) (i_weights a).
Definition weight_ok (w : option Q) : Prop := match w with Some x => (0 <= x /\ x <= 1)%Q | None => False end.
(** A well-formed array: as many names, positions, gains, delays and weights, the
    weights between 0 and 1. *)
Definition wf {P G L} (a : interf P G L) : Prop :=
  length (i_names a) = i_size a /\ length (i_gains a) = i_size a /\ length (i_delays a) = i_size a /\
  length (i_weights a) = i_size a /\ Forall weight_ok (i_weights a).
Definition unique {P G L} (a : interf P G L) : Prop := NoDup (i_names a).

(** * Weights *)
Lemma w_min_spec : forall l x, weight_ok x -> Forall weight_ok l -> exists m, w_extremum Qle_bool x l = Some m /\ (0 <= m)%Q.
Proof.
  unfold w_extremum. induction l as [|y l IH]; intros x Hx Hl.
  - destruct x as [x|]; [|destruct Hx]. exists x. split; [reflexivity|apply Hx].
  - inversion Hl; subst. destruct x as [x|]; [|destruct Hx]. destruct y as [y|]; [|destruct H1]. cbn [fold_left].
    apply IH; [|assumption]. destruct (Qle_bool x y); assumption.
Qed.
Lemma w_max_spec : forall l x, weight_ok x -> Forall weight_ok l ->
  exists m, w_extremum (fun a b => Qle_bool b a) x l = Some m /\ (m <= 1)%Q.
Proof.
  unfold w_extremum. induction l as [|y l IH]; intros x Hx Hl.
  - destruct x as [x|]; [|destruct Hx]. exists x. split; [reflexivity|apply Hx].
  - inversion Hl; subst. destruct x as [x|]; [|destruct Hx]. destruct y as [y|]; [|destruct H1]. cbn [fold_left].
    apply IH; [|assumption]. destruct (Qle_bool y x); assumption.
Qed.

Lemma set_weights_ok : forall w, w <> [] -> Forall weight_ok w -> set_weights (length w) (Some w) = Ok w.
Proof.
  intros w N H. unfold set_weights. rewrite Nat.eqb_refl. cbn [negb]. destruct w as [|x l]; [congruence|].
  inversion H; subst. destruct (w_min_spec l x H2 H3) as [m [E1 L1]]. destruct (w_max_spec l x H2 H3) as [m' [E2 L2]].
  rewrite E1, E2. cbn. apply Qle_bool_iff in L1, L2. rewrite L1, L2. reflexivity.
Qed.

(** The converse, without NaN. *)
Lemma w_min_le : forall l x m, w_extremum Qle_bool x l = Some m -> forall y, In (Some y) (x :: l) -> (m <= y)%Q.
Proof.
  unfold w_extremum. induction l as [|z l IH]; intros x m E y I; cbn [fold_left] in E.
  - subst x. destruct I as [I|[]]. injection I as ->. apply Qle_refl.
  - destruct x as [x|]; destruct z as [z|].
    + specialize (IH _ _ E). destruct I as [I|[I|I]]; [| |apply IH; right; exact I]; injection I as ->.
      * destruct (Qle_bool y z) eqn:B; [apply IH; left; reflexivity|].
        eapply Qle_trans; [apply IH; left; reflexivity|]. apply Qlt_le_weak, Qnot_le_lt. intro C. apply Qle_bool_iff in C. congruence.
      * destruct (Qle_bool x y) eqn:B; [|apply IH; left; reflexivity].
        eapply Qle_trans; [apply IH; left; reflexivity|]. apply Qle_bool_iff. exact B.
    + exfalso. clear - E. induction l; cbn in E; [discriminate|auto].
    + exfalso. clear - E. induction l; cbn in E; [discriminate|auto].
    + exfalso. clear - E. induction l; cbn in E; [discriminate|auto].
Qed.
Lemma w_max_ge : forall l x m, w_extremum (fun a b => Qle_bool b a) x l = Some m -> forall y, In (Some y) (x :: l) -> (y <= m)%Q.
Proof.
  unfold w_extremum. induction l as [|z l IH]; intros x m E y I; cbn [fold_left] in E.
  - subst x. destruct I as [I|[]]. injection I as ->. apply Qle_refl.
  - destruct x as [x|]; destruct z as [z|].
    + specialize (IH _ _ E). destruct I as [I|[I|I]]; [| |apply IH; right; exact I]; injection I as ->.
      * destruct (Qle_bool z y) eqn:B; [apply IH; left; reflexivity|].
        eapply Qle_trans; [|apply IH; left; reflexivity]. apply Qlt_le_weak, Qnot_le_lt. intro C. apply Qle_bool_iff in C. congruence.
      * destruct (Qle_bool y x) eqn:B; [|apply IH; left; reflexivity].
        eapply Qle_trans; [|apply IH; left; reflexivity]. apply Qle_bool_iff. exact B.
    + exfalso. clear - E. induction l; cbn in E; [discriminate|auto].
    + exfalso. clear - E. induction l; cbn in E; [discriminate|auto].
    + exfalso. clear - E. induction l; cbn in E; [discriminate|auto].
Qed.
Lemma w_no_nan : forall f l x, ~ In None (x :: l) -> exists m, w_extremum f x l = Some m.
Proof.
  unfold w_extremum. intros f l. induction l as [|y l IH]; intros x H.
  - destruct x as [x|]; [exists x; reflexivity|]. exfalso. apply H. left. reflexivity.
  - destruct x as [x|]; [|exfalso; apply H; left; reflexivity].
    destruct y as [y|]; [|exfalso; apply H; right; left; reflexivity]. cbn [fold_left]. apply IH.
    intros [C|C]; [destruct (f x y); discriminate|]. apply H. right. right. exact C.
Qed.

Lemma set_weights_inv : forall n w w', ~ In None w -> set_weights n (Some w) = Ok w' ->
  w' = w /\ length w = n /\ w <> [] /\ Forall weight_ok w.
Proof.
  intros n w w' H E. unfold set_weights in E. destruct (length w =? n) eqn:B; [|discriminate]. apply Nat.eqb_eq in B.
  cbn [negb] in E. destruct w as [|x l]; [discriminate|].
  destruct (w_no_nan Qle_bool l x H) as [m Em]. destruct (w_no_nan (fun a b => Qle_bool b a) l x H) as [m' Em'].
  rewrite Em, Em' in E. cbn in E. destruct (Qle_bool 0 m) eqn:C1; [|discriminate]. destruct (Qle_bool m' 1) eqn:C2; [|discriminate].
  cbn in E. injection E as <-. split; [reflexivity|split; [exact B|split; [discriminate|]]].
  apply Qle_bool_iff in C1, C2. apply Forall_forall. intros [y|] I; [|exact (H I)]. split.
  - eapply Qle_trans; [exact C1|]. eapply w_min_le; eassumption.
  - eapply Qle_trans; [|exact C2]. eapply w_max_ge; eassumption.
Qed.

(** * Masks *)
Lemma masked_length : forall A B (m : list bool) (l : list A) (l' : list B), length l = length l' ->
  length (masked m l) = length (masked m l').
Proof.
  intros A B. induction m as [|b m IH]; intros l l' H; [reflexivity|]. destruct l, l'; try discriminate; [reflexivity|].
  cbn in *. destruct b; cbn; [f_equal|]; apply IH; lia.
Qed.
Lemma masked_combine : forall A B (m : list bool) (l : list A) (l' : list B), length l = length l' ->
  combine (masked m l) (masked m l') = masked m (combine l l').
Proof.
  intros A B. induction m as [|b m IH]; intros l l' H; [reflexivity|]. destruct l, l'; try discriminate; [reflexivity|].
  cbn in *. destruct b; cbn; [f_equal|]; apply IH; lia.
Qed.
Lemma masked_filter : forall A B (f : A -> bool) (key : B -> A) (l : list B), masked (map f (map key l)) l = filter (fun x => f (key x)) l.
Proof. intros. induction l as [|x l IH]; [reflexivity|]. cbn. rewrite IH. reflexivity. Qed.
Lemma masked_in : forall A (m : list bool) (l : list A) x, In x (masked m l) -> In x l.
Proof.
  intros A. induction m as [|b m IH]; intros l x H; [destruct H|]. destruct l as [|y l]; [destruct H|]. cbn in H.
  destruct b; [destruct H as [H|H]; [left; exact H|]|]; right; eauto.
Qed.
Lemma combine_app : forall A B (a a' : list A) (b b' : list B), length a = length b ->
  combine (a ++ a') (b ++ b') = combine a b ++ combine a' b'.
Proof.
  intros A B. induction a as [|x a IH]; intros a' b b' H; destruct b; try discriminate; [reflexivity|].
  cbn in *. rewrite IH by lia. reflexivity.
Qed.
Lemma map_fst_combine : forall A B (a : list A) (b : list B), length a = length b -> map fst (combine a b) = a.
Proof.
  intros A B. induction a as [|x a IH]; intros b H; destruct b; try discriminate; [reflexivity|]. cbn in *. rewrite IH by lia. reflexivity.
Qed.
Lemma map_snd_combine : forall A B (a : list A) (b : list B), length a = length b -> map snd (combine a b) = b.
Proof.
  intros A B. induction a as [|x a IH]; intros b H; destruct b; try discriminate; [reflexivity|]. cbn in *. rewrite IH by lia. reflexivity.
Qed.

Lemma nodup_app : forall A (a b : list A), NoDup a -> NoDup b -> (forall x, In x a -> In x b -> False) -> NoDup (a ++ b).
Proof.
  intros A. induction a as [|x a IH]; intros b Ha Hb H; [exact Hb|]. inversion Ha; subst. cbn. constructor.
  - intro I. apply in_app_iff in I. destruct I as [I|I]; [auto|]. apply (H x); [left; reflexivity|exact I].
  - apply IH; [assumption|assumption|]. intros y I J. apply (H y); [right; exact I|exact J].
Qed.

Section Laws.
Context {P G L : Type}.
Implicit Types a b c : interf P G L.

Ltac lens := repeat rewrite combine_length; unfold i_size in *; lia.

Lemma rows_length : forall a, wf a -> length (rows a) = i_size a.
Proof. intros a (H1 & H2 & H3 & H4 & _). unfold rows. lens. Qed.
Lemma rows_names : forall a, wf a -> map rname (rows a) = i_names a.
Proof.
  intros a (H1 & H2 & H3 & H4 & _). unfold rows.
  transitivity (map fst (map fst (map fst (map fst (combine (combine (combine (combine (i_names a) (i_positions a)) (i_gains a)) (i_delays a)) (i_weights a)))))).
  - rewrite !map_map. reflexivity.
  - rewrite !map_fst_combine by lens. reflexivity.
Qed.

(** An array is its rows and its place. *)
Lemma rows_inj : forall a b, wf a -> wf b -> i_place a = i_place b -> rows a = rows b -> a = b.
Proof.
  intros [pl n p g d w] [pl' n' p' g' d' w'] (H1 & H2 & H3 & H4 & _) (K1 & K2 & K3 & K4 & _) E R. unfold i_size in *. cbn in *.
  subst pl'. unfold rows in R. cbn [i_names i_positions i_gains i_delays i_weights] in R.
  pose proof (f_equal (map snd) R) as W. rewrite !map_snd_combine in W by lens.
  apply (f_equal (map fst)) in R. rewrite !map_fst_combine in R by lens.
  pose proof (f_equal (map snd) R) as D. rewrite !map_snd_combine in D by lens.
  apply (f_equal (map fst)) in R. rewrite !map_fst_combine in R by lens.
  pose proof (f_equal (map snd) R) as Gn. rewrite !map_snd_combine in Gn by lens.
  apply (f_equal (map fst)) in R. rewrite !map_fst_combine in R by lens.
  pose proof (f_equal (map snd) R) as Po. rewrite !map_snd_combine in Po by lens.
  apply (f_equal (map fst)) in R. rewrite !map_fst_combine in R by lens. subst. reflexivity.
Qed.

Lemma rows_weights : forall a, wf a -> map snd (rows a) = i_weights a.
Proof. intros a (H1 & H2 & H3 & H4 & _). unfold rows. apply map_snd_combine. lens. Qed.

(** ** The common step of selections and differences *)
Definition cut (a : interf P G L) (m : list bool) : res (interf P G L) :=
  bind (by_mask m (i_names a)) (fun n =>
  bind (by_mask m (i_positions a)) (fun p =>
  bind (by_mask m (i_gains a)) (fun g =>
  bind (by_mask m (i_weights a)) (fun w =>
  bind (set_weights (length p) (Some w)) (fun w =>
  bind (by_mask m (i_delays a)) (fun d =>
  bind (set_delays (length p) (Some d)) (fun d =>
  Ok (mkInterf (i_place a) n p g d w)))))))).

Lemma cut_spec : forall a m, wf a -> length m = i_size a ->
  (masked m (rows a) <> [] /\ exists c, cut a m = Ok c /\ wf c /\ rows c = masked m (rows a) /\ i_place c = i_place a) \/
  (masked m (rows a) = [] /\ cut a m = Err EValueError).
Proof.
  intros a m W Hm. pose proof W as (H1 & H2 & H3 & H4 & HW). unfold i_size in *. unfold cut, by_mask.
  rewrite H1, H2, H3, H4, Hm, Nat.eqb_refl. cbn [bind].
  assert (Lp : length (masked m (i_positions a)) = length (masked m (rows a)))
    by (apply masked_length; symmetry; exact (rows_length a W)).
  assert (Lw : length (masked m (i_weights a)) = length (masked m (i_positions a))) by (apply masked_length; assumption).
  destruct (masked m (rows a)) as [|r rs] eqn:E.
  - right. split; [reflexivity|]. cbn in Lp. rewrite Lp in *. destruct (masked m (i_weights a)); [reflexivity|discriminate].
  - left. split; [discriminate|]. rewrite <- Lw. rewrite set_weights_ok; [| |].
    + cbn [bind]. unfold set_delays. rewrite Lw.
      rewrite (masked_length _ _ m (i_delays a) (i_positions a)) by assumption. rewrite Nat.eqb_refl. cbn [negb bind].
      eexists. split; [reflexivity|]. split; [|split; [|reflexivity]].
      * unfold wf, i_size. cbn. repeat split; try (apply masked_length; congruence).
        apply Forall_forall. intros x I. rewrite Forall_forall in HW. apply HW. eapply masked_in. exact I.
      * unfold rows. cbn [i_names i_positions i_gains i_delays i_weights].
        rewrite !masked_combine; [exact E|lens|lens|lens|lens].
    + intro C. rewrite C in Lw. cbn in Lw. rewrite Lp in Lw. discriminate.
    + apply Forall_forall. intros x I. rewrite Forall_forall in HW. apply HW. eapply masked_in. exact I.
Qed.

(** * Difference *)
Definition outside (l : list string) (r : row P G) : bool := negb (has_name l (rname r)).
Lemma has_name_in : forall l x, has_name l x = true <-> In x l.
Proof.
  intros. unfold has_name. rewrite existsb_exists. split.
  - intros [y [I E]]. apply String.eqb_eq in E. subst. exact I.
  - intro I. exists x. split; [exact I|apply String.eqb_refl].
Qed.
Lemma outside_spec : forall l r, outside l r = true <-> ~ In (rname r) l.
Proof. intros. unfold outside. rewrite negb_true_iff, <- has_name_in. destruct (has_name l (rname r)); intuition congruence. Qed.

Lemma sub_cut : forall a b, i_sub a b = cut a (map (fun x => negb (has_name (i_names b) x)) (i_names a)).
Proof. reflexivity. Qed.
Lemma sub_cut' : forall a b, wf a -> i_sub a b = cut a (map (fun x => negb (has_name (i_names b) x)) (map rname (rows a))).
Proof. intros a b W. rewrite (rows_names a W). reflexivity. Qed.

(** The rows of [a] whose name is not in [b]; an empty result raises. *)
Theorem sub_spec : forall a b, wf a ->
  (exists r, In r (rows a) /\ ~ In (rname r) (i_names b)) ->
  exists c, i_sub a b = Ok c /\ wf c /\ rows c = filter (outside (i_names b)) (rows a) /\ i_place c = i_place a.
Proof.
  intros a b W [r [I N]]. rewrite (sub_cut' a b W).
  destruct (cut_spec a (map (fun x => negb (has_name (i_names b) x)) (map rname (rows a))) W) as [[_ H]|[E _]].
  - rewrite !map_length. apply rows_length. exact W.
  - rewrite (masked_filter _ _ (fun x => negb (has_name (i_names b) x)) rname) in H. exact H.
  - exfalso. rewrite (masked_filter _ _ (fun x => negb (has_name (i_names b) x)) rname) in E.
    assert (F : In r []). { rewrite <- E. apply filter_In. split; [exact I|]. apply outside_spec. exact N. } destruct F.
Qed.
Theorem sub_empty : forall a b, wf a -> incl (i_names a) (i_names b) -> i_sub a b = Err EValueError.
Proof.
  intros a b W H. rewrite (sub_cut' a b W).
  destruct (cut_spec a (map (fun x => negb (has_name (i_names b) x)) (map rname (rows a))) W) as [[N _]|[_ E]].
  - rewrite !map_length. apply rows_length. exact W.
  - exfalso. apply N. rewrite (masked_filter _ _ (fun x => negb (has_name (i_names b) x)) rname).
    destruct (filter _ (rows a)) as [|r l] eqn:E; [reflexivity|]. exfalso.
    assert (I : In r (filter (fun x => negb (has_name (i_names b) (rname x))) (rows a))) by (rewrite E; left; reflexivity).
    apply filter_In in I. destruct I as [I1 I2]. apply outside_spec in I2. apply I2, H. rewrite <- (rows_names a W). apply in_map. exact I1.
  - exact E.
Qed.
Theorem sub_self_refuted : forall a, wf a -> i_sub a a = Err EValueError.
Proof. intros a W. apply sub_empty; [exact W|apply incl_refl]. Qed.

Lemma sub_ok : forall a b c, wf a -> i_sub a b = Ok c ->
  wf c /\ rows c = filter (outside (i_names b)) (rows a) /\ i_place c = i_place a /\ rows c <> [].
Proof.
  intros a b c W E. rewrite (sub_cut' a b W) in E.
  destruct (cut_spec a (map (fun x => negb (has_name (i_names b) x)) (map rname (rows a))) W) as [[N [c' [E' H]]]|[_ E']].
  - rewrite !map_length. apply rows_length. exact W.
  - rewrite E' in E. injection E as ->. destruct H as (Wc & R & Pl). rewrite R.
    rewrite (masked_filter _ _ (fun x => negb (has_name (i_names b) x)) rname) in N |- *. auto.
  - rewrite E' in E. discriminate.
Qed.

(** * Sum *)
Lemma add_spec_any : forall a b, wf a -> wf b ->
  (rows a ++ filter (outside (i_names a)) (rows b) <> [] /\
   exists c, i_add a b = Ok c /\ wf c /\ rows c = rows a ++ filter (outside (i_names a)) (rows b) /\ i_place c = i_place a) \/
  (rows a ++ filter (outside (i_names a)) (rows b) = [] /\ i_add a b = Err EValueError).
Proof.
  intros a b Wa Wb. pose proof Wa as (A1 & A2 & A3 & A4 & AW). pose proof Wb as (B1 & B2 & B3 & B4 & BW). unfold i_size in *.
  unfold i_add. set (m := map (fun x => negb (has_name (i_names a) x)) (i_names b)).
  assert (Hm : length m = length (i_positions b)) by (unfold m; rewrite map_length; exact B1).
  unfold by_mask. rewrite Hm, B1, B2, B3, B4, Nat.eqb_refl. cbn [bind].
  assert (F : filter (outside (i_names a)) (rows b) = masked m (rows b)).
  { unfold m. rewrite <- (rows_names b Wb). symmetry. exact (masked_filter _ _ (fun x => negb (has_name (i_names a) x)) rname (rows b)). }
  rewrite F.
  assert (Lp : length (i_positions a ++ masked m (i_positions b)) = length (rows a ++ masked m (rows b))).
  { rewrite !app_length, (rows_length a Wa). f_equal. apply masked_length. symmetry. exact (rows_length b Wb). }
  assert (Lw : length (i_weights a ++ masked m (i_weights b)) = length (i_positions a ++ masked m (i_positions b))).
  { rewrite !app_length, A4. f_equal. apply masked_length. exact B4. }
  assert (Ww : Forall weight_ok (i_weights a ++ masked m (i_weights b))).
  { apply Forall_app. split; [exact AW|]. apply Forall_forall. intros x I. rewrite Forall_forall in BW. apply BW. eapply masked_in. exact I. }
  destruct (rows a ++ masked m (rows b)) as [|r rs] eqn:E.
  - right. split; [reflexivity|]. cbn in Lp. rewrite Lp in *. destruct (i_weights a ++ masked m (i_weights b)); [reflexivity|discriminate].
  - left. split; [discriminate|]. 
    assert (Sw : set_weights (length (i_positions a ++ masked m (i_positions b))) (Some (i_weights a ++ masked m (i_weights b))) =
                 Ok (i_weights a ++ masked m (i_weights b))).
    { rewrite <- Lw. apply set_weights_ok; [|exact Ww]. intro C. rewrite C in Lw. cbn in Lw. rewrite Lp in Lw. discriminate. }
    rewrite Sw. cbn [bind]. unfold set_delays.
      assert (Ld : length (i_delays a ++ masked m (i_delays b)) = length (i_positions a ++ masked m (i_positions b))).
      { rewrite !app_length, A3. f_equal. apply masked_length. exact B3. }
      rewrite Ld, Nat.eqb_refl. cbn [negb bind]. eexists. split; [reflexivity|]. split; [|split; [|reflexivity]].
      * unfold wf, i_size. cbn. repeat split; [| |exact Ld|exact Lw|exact Ww]; rewrite !app_length; f_equal; try assumption;
          apply masked_length; assumption.
      * rewrite <- E. unfold rows. cbn [i_names i_positions i_gains i_delays i_weights].
        rewrite !combine_app by lens. f_equal. apply (f_equal (@length _)) in E. clear Lp Lw Ww.
        rewrite !masked_combine; [reflexivity|lens|lens|lens|lens].
Qed.

(** [a], then the rows of [b] whose name is not in [a]. *)
Theorem add_spec : forall a b, wf a -> wf b -> 0 < i_size a \/ 0 < i_size b ->
  exists c, i_add a b = Ok c /\ wf c /\ rows c = rows a ++ filter (outside (i_names a)) (rows b) /\ i_place c = i_place a.
Proof.
  intros a b Wa Wb H. destruct (add_spec_any a b Wa Wb) as [[_ E]|[E _]]; [exact E|]. exfalso.
  apply app_eq_nil in E. destruct E as [E1 E2]. rewrite <- (rows_length a Wa), E1 in H. cbn in H.
  destruct H as [H|H]; [lia|]. assert (N : i_names a = []) by (rewrite <- (rows_names a Wa), E1; reflexivity).
  rewrite N in E2. rewrite <- (rows_length b Wb) in H. destruct (rows b) as [|r l]; [cbn in H; lia|]. cbn in E2. discriminate.
Qed.
Theorem add_empty : forall a b, wf a -> wf b -> i_size a = 0 -> i_size b = 0 -> i_add a b = Err EValueError.
Proof.
  intros a b Wa Wb Ha Hb. destruct (add_spec_any a b Wa Wb) as [[N _]|[_ E]]; [|exact E]. exfalso. apply N.
  rewrite <- (rows_length a Wa) in Ha. rewrite <- (rows_length b Wb) in Hb. destruct (rows a); [|discriminate]. destruct (rows b); [reflexivity|discriminate].
Qed.
Lemma add_ok : forall a b c, wf a -> wf b -> i_add a b = Ok c ->
  wf c /\ rows c = rows a ++ filter (outside (i_names a)) (rows b) /\ i_place c = i_place a /\ rows c <> [].
Proof.
  intros a b c Wa Wb E. destruct (add_spec_any a b Wa Wb) as [[N [c' [E' H]]]|[_ E']]; rewrite E' in E; [|discriminate].
  injection E as ->. destruct H as (W & R & Pl). rewrite R. auto.
Qed.

(** ** Names *)
Lemma names_filter : forall a l, wf a -> map rname (filter (outside l) (rows a)) = filter (fun x => negb (has_name l x)) (i_names a).
Proof.
  intros a l W. rewrite <- (rows_names a W). induction (rows a) as [|r rs IH]; [reflexivity|]. cbn.
  unfold outside at 1. destruct (negb (has_name l (rname r))); cbn; [f_equal|]; exact IH.
Qed.
Lemma add_names : forall a b c, wf a -> wf b -> i_add a b = Ok c ->
  i_names c = i_names a ++ filter (fun x => negb (has_name (i_names a) x)) (i_names b).
Proof.
  intros a b c Wa Wb E. destruct (add_ok a b c Wa Wb E) as (W & R & _ & _).
  rewrite <- (rows_names c W), R, map_app, (rows_names a Wa), (names_filter b _ Wb). reflexivity.
Qed.
Lemma sub_names : forall a b c, wf a -> i_sub a b = Ok c -> i_names c = filter (fun x => negb (has_name (i_names b) x)) (i_names a).
Proof.
  intros a b c Wa E. destruct (sub_ok a b c Wa E) as (W & R & _ & _). rewrite <- (rows_names c W), R. apply names_filter. exact Wa.
Qed.
Lemma not_has : forall l x, negb (has_name l x) = true <-> ~ In x l.
Proof. intros. rewrite negb_true_iff, <- has_name_in. destruct (has_name l x); intuition congruence. Qed.

(** The union of the names, without repetition. *)
Theorem add_union : forall a b c, wf a -> wf b -> i_add a b = Ok c ->
  (forall x, In x (i_names c) <-> In x (i_names a) \/ In x (i_names b)) /\ (unique a -> unique b -> unique c).
Proof.
  intros a b c Wa Wb E. rewrite (add_names a b c Wa Wb E). split.
  - intro x. rewrite in_app_iff, filter_In, not_has. destruct (in_dec string_dec x (i_names a)); tauto.
  - unfold unique. intros Ua Ub. rewrite (add_names a b c Wa Wb E).
    apply nodup_app; [exact Ua|apply NoDup_filter; exact Ub|]. intros x I J. apply filter_In in J. destruct J as [_ J].
    apply not_has in J. exact (J I).
Qed.
Theorem sub_difference : forall a b c, wf a -> i_sub a b = Ok c ->
  (forall x, In x (i_names c) <-> In x (i_names a) /\ ~ In x (i_names b)) /\ (unique a -> unique c).
Proof.
  intros a b c W E. unfold unique. rewrite (sub_names a b c W E). split.
  - intro x. rewrite filter_In, not_has. reflexivity.
  - intro U. apply NoDup_filter. exact U.
Qed.

(** * Laws *)
Lemma filter_none : forall A (f : A -> bool) l, (forall x, In x l -> f x = false) -> filter f l = [].
Proof. intros A f l H. induction l as [|x l IH]; [reflexivity|]. cbn. rewrite H by (left; reflexivity). apply IH. intros. apply H. right. assumption. Qed.
Lemma filter_all : forall A (f : A -> bool) l, (forall x, In x l -> f x = true) -> filter f l = l.
Proof. intros A f l H. induction l as [|x l IH]; [reflexivity|]. cbn. rewrite H by (left; reflexivity). f_equal. apply IH. intros. apply H. right. assumption. Qed.
Lemma filter_filter : forall A (f g : A -> bool) l, filter f (filter g l) = filter (fun x => g x && f x) l.
Proof. intros A f g l. induction l as [|x l IH]; [reflexivity|]. cbn. destruct (g x); cbn; [destruct (f x)|]; rewrite IH; reflexivity. Qed.
Lemma outside_in : forall a l r, wf a -> In r (rows a) -> incl (i_names a) l -> outside l r = false.
Proof.
  intros a l r W I H. unfold outside. apply negb_false_iff, has_name_in, H. rewrite <- (rows_names a W). apply in_map. exact I.
Qed.
Lemma rows_nil : forall a, wf a -> (0 < i_size a <-> rows a <> []).
Proof. intros a W. rewrite <- (rows_length a W). destruct (rows a); cbn; split; intro; try congruence; lia. Qed.

Theorem add_self : forall a, wf a -> 0 < i_size a -> i_add a a = Ok a.
Proof.
  intros a W H. destruct (add_spec a a W W (or_introl H)) as [c (E & Wc & R & Pl)]. rewrite E. f_equal.
  apply rows_inj; [exact Wc|exact W|exact Pl|]. rewrite R. rewrite filter_none; [apply app_nil_r|].
  intros r I. apply (outside_in a _ r W I). apply incl_refl.
Qed.

Theorem add_assoc : forall a b c x y, wf a -> wf b -> wf c -> i_add a b = Ok x -> i_add b c = Ok y -> i_add x c = i_add a y.
Proof.
  intros a b c x y Wa Wb Wc Ex Ey. destruct (add_ok _ _ _ Wa Wb Ex) as (Wx & Rx & Px & Nx).
  destruct (add_ok _ _ _ Wb Wc Ey) as (Wy & Ry & Py & Ny).
  destruct (add_spec x c Wx Wc) as [u (Eu & Wu & Ru & Pu)]; [left; apply rows_nil; assumption|].
  destruct (add_spec a y Wa Wy) as [v (Ev & Wv & Rv & Pv)]; [right; apply rows_nil; assumption|].
  rewrite Eu, Ev. f_equal. apply rows_inj; [exact Wu|exact Wv|congruence|].
  rewrite Ru, Rv, Rx, Ry, filter_app, filter_filter, app_assoc. f_equal. apply filter_ext. intro r.
  unfold outside. rewrite (add_names a b x Wa Wb Ex).
  destruct (has_name (i_names b) (rname r)) eqn:B; destruct (has_name (i_names a) (rname r)) eqn:A; cbn.
  - apply negb_false_iff, has_name_in, in_app_iff. left. apply has_name_in. exact A.
  - apply negb_false_iff, has_name_in, in_app_iff. right. apply filter_In. split; [apply has_name_in; exact B|rewrite A; reflexivity].
  - apply negb_false_iff, has_name_in, in_app_iff. left. apply has_name_in. exact A.
  - apply not_has. intro I. apply in_app_iff in I. destruct I as [I|I]; [apply has_name_in in I; congruence|].
    apply filter_In in I. destruct I as [I _]. apply has_name_in in I. congruence.
Qed.

Lemma sub_same : forall a a' b b', wf a -> wf a' -> i_place a = i_place a' ->
  filter (outside (i_names b)) (rows a) = filter (outside (i_names b')) (rows a') -> i_sub a b = i_sub a' b'.
Proof.
  intros a a' b b' W W' Pl E. destruct (i_sub a b) as [c|e] eqn:E1.
  - destruct (sub_ok _ _ _ W E1) as (Wc & R & Pc & N). destruct (sub_spec a' b' W') as [c' (E2 & Wc' & R' & Pc')].
    + rewrite R, E in N. destruct (filter (outside (i_names b')) (rows a')) as [|r l] eqn:F; [congruence|].
      assert (I : In r (r :: l)) by (left; reflexivity). rewrite <- F in I. apply filter_In in I. destruct I as [I1 I2].
      exists r. split; [exact I1|]. apply outside_spec. exact I2.
    + rewrite E2. f_equal. apply rows_inj; [assumption|assumption|congruence|congruence].
  - assert (A : filter (outside (i_names b)) (rows a) = []).
    { destruct (filter (outside (i_names b)) (rows a)) as [|r l] eqn:F; [reflexivity|]. exfalso.
      assert (I : In r (r :: l)) by (left; reflexivity). rewrite <- F in I. apply filter_In in I. destruct I as [I1 I2].
      destruct (sub_spec a b W) as [c (E2 & _)]; [exists r; split; [exact I1|apply outside_spec; exact I2]|congruence]. }
    assert (S1 : i_sub a b = Err EValueError).
    { apply sub_empty; [exact W|]. intros x I. rewrite <- (rows_names a W) in I. apply in_map_iff in I. destruct I as [r [<- I]].
      destruct (in_dec string_dec (rname r) (i_names b)) as [J|J]; [exact J|]. exfalso. apply outside_spec in J.
      assert (K : In r (filter (outside (i_names b)) (rows a))) by (apply filter_In; auto). rewrite A in K. destruct K. }
    rewrite S1 in E1. injection E1 as <-. symmetry. apply sub_empty; [exact W'|].
    intros x I. rewrite <- (rows_names a' W') in I. apply in_map_iff in I. destruct I as [r [<- I]].
    destruct (in_dec string_dec (rname r) (i_names b')) as [J|J]; [exact J|]. exfalso. apply outside_spec in J.
    assert (K : In r (filter (outside (i_names b')) (rows a'))) by (apply filter_In; auto). rewrite <- E, A in K. destruct K.
Qed.

(** (a + b) - b = a - b, whether it is empty or not. *)
Theorem add_then_sub : forall a b c, wf a -> wf b -> i_add a b = Ok c -> i_sub c b = i_sub a b.
Proof.
  intros a b c Wa Wb E. destruct (add_ok _ _ _ Wa Wb E) as (Wc & R & Pl & _). apply sub_same; [exact Wc|exact Wa|exact Pl|].
  rewrite R, filter_app. rewrite (filter_none _ _ (filter (outside (i_names a)) (rows b))); [apply app_nil_r|].
  intros r I. apply filter_In in I. destruct I as [I _]. apply (outside_in b _ r Wb I). apply incl_refl.
Qed.
(** (a - b) - c = a - (b + c). *)
Theorem sub_twice : forall a b c x y, wf a -> wf b -> wf c -> i_sub a b = Ok x -> i_add b c = Ok y -> i_sub x c = i_sub a y.
Proof.
  intros a b c x y Wa Wb Wc Ex Ey. destruct (sub_ok _ _ _ Wa Ex) as (Wx & Rx & Px & _).
  apply sub_same; [exact Wx|exact Wa|exact Px|]. rewrite Rx, filter_filter. apply filter_ext. intro r.
  destruct (add_union b c y Wb Wc Ey) as [U _]. specialize (U (rname r)). unfold outside.
  destruct (has_name (i_names b) (rname r)) eqn:B; destruct (has_name (i_names c) (rname r)) eqn:C; cbn; symmetry.
  - apply negb_false_iff, has_name_in, U. left. apply has_name_in. exact B.
  - apply negb_false_iff, has_name_in, U. left. apply has_name_in. exact B.
  - apply negb_false_iff, has_name_in, U. right. apply has_name_in. exact C.
  - apply not_has. intro I. apply U in I. destruct I as [I|I]; apply has_name_in in I; congruence.
Qed.

(** Two arrays describe their common antennas in the same way. *)
Definition agree (a b : interf P G L) : Prop :=
  forall r s, In r (rows a) -> In s (rows b) -> rname r = rname s -> r = s.

Lemma nodup_rows : forall a, wf a -> unique a -> NoDup (rows a).
Proof. intros a W U. unfold unique in U. rewrite <- (rows_names a W) in U. eapply NoDup_map_inv. exact U. Qed.

(** The rows of a sum: those of [a] and those of [b]. *)
Lemma add_rows_in : forall a b c r, wf a -> wf b -> agree a b -> i_add a b = Ok c ->
  (In r (rows c) <-> In r (rows a) \/ In r (rows b)).
Proof.
  intros a b c r Wa Wb Ag E. destruct (add_ok _ _ _ Wa Wb E) as (Wc & R & _ & _). rewrite R, in_app_iff, filter_In, outside_spec.
  split; [tauto|]. intros [I|I]; [left; exact I|]. destruct (in_dec string_dec (rname r) (i_names a)) as [J|J]; [|right; auto].
  left. rewrite <- (rows_names a Wa) in J. apply in_map_iff in J. destruct J as [s [En Is]]. rewrite <- (Ag s r Is I En). exact Is.
Qed.

Theorem add_comm_rows : forall a b c d, wf a -> wf b -> unique a -> unique b -> agree a b ->
  i_add a b = Ok c -> i_add b a = Ok d -> Permutation (rows c) (rows d).
Proof.
  intros a b c d Wa Wb Ua Ub Ag Ec Ed.
  assert (Ag' : agree b a) by (intros r s Ir Is En; symmetry; apply Ag; auto).
  apply NoDup_Permutation.
  - apply nodup_rows; [apply (add_ok _ _ _ Wa Wb Ec)|]. apply (add_union a b c Wa Wb Ec); assumption.
  - apply nodup_rows; [apply (add_ok _ _ _ Wb Wa Ed)|]. apply (add_union b a d Wb Wa Ed); assumption.
  - intro r. rewrite (add_rows_in a b c r Wa Wb Ag Ec), (add_rows_in b a d r Wb Wa Ag' Ed). tauto.
Qed.

(** (a - b) + b and a + b: same names; same rows when common antennas agree. *)
Theorem sub_then_add : forall a b c d e, wf a -> wf b -> i_sub a b = Ok c -> i_add c b = Ok d -> i_add a b = Ok e ->
  (forall x, In x (i_names d) <-> In x (i_names e)) /\
  (unique a -> unique b -> agree a b -> Permutation (rows d) (rows e)).
Proof.
  intros a b c d e Wa Wb Ec Ed Ee. destruct (sub_ok _ _ _ Wa Ec) as (Wc & Rc & _ & _).
  destruct (sub_difference a b c Wa Ec) as [Dn Du].
  destruct (add_union c b d Wc Wb Ed) as [Ud1 Ud2]. destruct (add_union a b e Wa Wb Ee) as [Ue1 Ue2]. split.
  - intro x. rewrite Ud1, Ue1, Dn. destruct (in_dec string_dec x (i_names b)); tauto.
  - intros Ua Ub Ag. assert (Ag' : agree c b).
    { intros r s Ir Is En. rewrite Rc in Ir. apply filter_In in Ir. apply Ag; tauto. }
    apply NoDup_Permutation.
    + apply nodup_rows; [apply (add_ok _ _ _ Wc Wb Ed)|auto].
    + apply nodup_rows; [apply (add_ok _ _ _ Wa Wb Ee)|auto].
    + intro r. rewrite (add_rows_in c b d r Wc Wb Ag' Ed), (add_rows_in a b e r Wa Wb Ag Ee), Rc, filter_In, outside_spec.
      split; [tauto|]. intros [I|I]; [|tauto]. destruct (in_dec string_dec (rname r) (i_names b)) as [J|J]; [|tauto].
      right. rewrite <- (rows_names b Wb) in J. apply in_map_iff in J. destruct J as [s [En Is]]. rewrite (Ag r s I Is); auto.
Qed.

Theorem sub_disjoint : forall a b c, wf a -> i_sub a b = Ok c -> forall x, In x (i_names c) -> ~ In x (i_names b).
Proof. intros a b c W E x I. apply (sub_difference a b c W E) in I. tauto. Qed.

(** * Construction *)
Theorem new_wf : forall (pl : L) n p g d w, length n = length p -> length g = length p ->
  match w with Some w => ~ In None w | None => True end ->
  (exists a, new_interf pl n p g d w = Ok a /\ wf a /\ i_names a = n /\ i_positions a = p /\ i_gains a = g /\ i_place a = pl /\
     (forall d', d = Some d' -> i_delays a = d') /\ (d = None -> i_delays a = repeat 0%Q (length p)) /\
     (forall w', w = Some w' -> i_weights a = w') /\ (w = None -> i_weights a = repeat (Some 1%Q) (length p))) \/
  (new_interf pl n p g d w = Err EValueError /\
    ((exists d', d = Some d' /\ length d' <> length p) \/
     (exists w', w = Some w' /\ (length w' <> length p \/ w' = [] \/ ~ Forall weight_ok w')))).
Proof.
  intros pl n p g d w Hn Hg Hw. unfold new_interf.
  assert (D : (exists d', set_delays (length p) d = Ok d' /\ length d' = length p /\ (forall x, d = Some x -> d' = x) /\
               (d = None -> d' = repeat 0%Q (length p))) \/
              (set_delays (length p) d = Err EValueError /\ exists x, d = Some x /\ length x <> length p)).
  { unfold set_delays. destruct d as [d|].
    - destruct (length d =? length p) eqn:B.
      + apply Nat.eqb_eq in B. left. exists d. cbn. repeat split; [exact B|intros; congruence|discriminate].
      + apply Nat.eqb_neq in B. right. cbn. split; [reflexivity|]. exists d. auto.
    - left. exists (repeat 0%Q (length p)). repeat split; [apply repeat_length|discriminate]. }
  destruct D as [[d' (Ed & Ld & Kd & Zd)]|[Ed Kd]]; [|right; rewrite Ed; split; [reflexivity|left; exact Kd]].
  rewrite Ed. cbn [bind].
  assert (Wt : (exists w', set_weights (length p) w = Ok w' /\ length w' = length p /\ Forall weight_ok w' /\
                (forall x, w = Some x -> w' = x) /\ (w = None -> w' = repeat (Some 1%Q) (length p))) \/
               (set_weights (length p) w = Err EValueError /\
                exists w', w = Some w' /\ (length w' <> length p \/ w' = [] \/ ~ Forall weight_ok w'))).
  { destruct w as [w|].
    - destruct (set_weights (length p) (Some w)) as [w'|e] eqn:Ew.
      + left. destruct (set_weights_inv _ _ _ Hw Ew) as (-> & Lw & _ & Fw). exists w. repeat split; [exact Lw|exact Fw|intros; congruence|discriminate].
      + right. assert (e = EValueError).
        { unfold set_weights in Ew. destruct (negb (length w =? length p)); [congruence|]. destruct w; [congruence|].
          destruct (_ || _); congruence. } subst e. split; [reflexivity|]. exists w. split; [reflexivity|].
        destruct (Nat.eq_dec (length w) (length p)) as [B|B]; [|left; exact B]. right. destruct w as [|x l]; [left; reflexivity|].
        right. intro F. rewrite <- B in Ew. rewrite set_weights_ok in Ew; [discriminate|discriminate|exact F].
    - left. exists (repeat (Some 1%Q) (length p)). split; [reflexivity|]. split; [apply repeat_length|]. split; [|split; [discriminate|reflexivity]].
      apply Forall_forall. intros x I. apply repeat_spec in I. subst x. split; discriminate. }
  destruct Wt as [[w' (Ew & Lw & Fw & Kw & Zw)]|[Ew Kw]]; rewrite Ew; cbn [bind].
  - left. eexists. split; [reflexivity|]. cbn. split; [unfold wf, i_size; cbn; repeat split; assumption|].
    repeat (split; [reflexivity|]). split; [intros x Hx; exact (Kd x Hx)|]. split; [exact Zd|]. split; [intros x Hx; exact (Kw x Hx)|exact Zw].
  - right. split; [reflexivity|]. right. exact Kw.
Qed.
End Laws.

(** The number of names and gains is not checked, NaN weights hide others. *)
Theorem new_names_refuted : exists a : interf nat nat nat,
  new_interf 0 ["A"; "B"]%string [10; 11; 12] [20; 21; 22] None None = Ok a /\ ~ wf a /\
  i_getitem a (SNames ["A"]%string) = Err EIndexError.
Proof. eexists. split; [reflexivity|]. split; [intros (H & _); discriminate|reflexivity]. Qed.
Theorem nan_weight_refuted : exists a : interf nat nat nat,
  new_interf 0 ["A"; "B"]%string [10; 11] [20; 21] None (Some [None; Some (5 # 1)%Q]) = Ok a /\
  i_getitem a (SNames ["B"]%string) = Err EValueError.
Proof. eexists. split; reflexivity. Qed.
(** The sum keeps the description of its first operand. *)
Theorem add_order_refuted : exists a b c d : interf nat nat nat, wf a /\ wf b /\ unique a /\ unique b /\
  i_add a b = Ok c /\ i_add b a = Ok d /\ ~ Permutation (rows c) (rows d).
Proof.
  exists (mkInterf 0 ["A"]%string [1] [1] [0%Q] [Some 1%Q]), (mkInterf 0 ["A"]%string [2] [1] [0%Q] [Some 1%Q]). do 2 eexists.
  split; [repeat constructor; discriminate|]. split; [repeat constructor; discriminate|].
  split; [repeat constructor; auto|]. split; [repeat constructor; auto|].
  split; [reflexivity|]. split; [reflexivity|]. intro H. apply Permutation_length_1 in H. discriminate.
Qed.
