(** Specification and proofs for subbands and frequencies (C53, C54). *)
From Coq Require Import ZArith QArith Qround Qfield Lqa Bool List Arith Lia Sorting.Sorted.
From Verif Require Import Base M_Subbands.
Import ListNotations.
Local Open Scope Z_scope.

(** * Specification *)

(** Subband [n] is centred on [n] times 195.3125 kHz. *)
Definition width : Q := 25 # 128.
Definition band (n : Z) (f : Q) : Prop :=
  (inject_Z n * width - width / 2 <= f /\ f < inject_Z n * width + width / 2)%Q.
Definition in_reach (f : Q) : Prop := (0 <= f /\ f <= 100)%Q.
Definition valid_sb (n : Z) : Prop := 0 <= n <= 511.
(** [count] consecutive subbands from [a]. *)
Definition run (a : Z) (count : nat) : list Z := map (fun i => a + Z.of_nat i) (seq 0 count).

Ltac unw := unfold width in *; change ((25 # 128) / 2)%Q with (25 # 256) in *.

(** * freq2sb *)

Lemma band_floor : forall f, band (Qfloor (f / sb_width + (1 # 2))) f.
Proof.
  intro f. pose proof (Qfloor_le (f / sb_width + (1 # 2))) as A. pose proof (Qlt_floor (f / sb_width + (1 # 2))) as B.
  rewrite inject_Z_plus in B. set (n := inject_Z (Qfloor _)) in *.
  assert (E : (f == (f / sb_width) * width)%Q) by (unfold sb_width, width; field).
  unfold band. fold n. set (t := (f / sb_width)%Q) in *. clearbody t n. unw. change (inject_Z 1) with 1%Q in B.
  split; rewrite E; lra.
Qed.

Lemma band_unique : forall f n m, band n f -> band m f -> n = m.
Proof.
  intros f n m [A B] [C D]. unw.
  assert (L1 : (inject_Z n < inject_Z m + 1)%Q) by lra. assert (L2 : (inject_Z m < inject_Z n + 1)%Q) by lra.
  change 1%Q with (inject_Z 1) in L1, L2. rewrite <- inject_Z_plus in L1, L2. rewrite <- Zlt_Qlt in L1, L2. lia.
Qed.

Lemma band_mono : forall f g n m, band n f -> band m g -> (f <= g)%Q -> n <= m.
Proof.
  intros f g n m [A B] [C D] L. unw. assert (L1 : (inject_Z n < inject_Z m + 1)%Q) by lra.
  change 1%Q with (inject_Z 1) in L1. rewrite <- inject_Z_plus in L1. rewrite <- Zlt_Qlt in L1. lia.
Qed.

Lemma qmin_spec : forall a b c, (c <= qmin a b <-> c <= a /\ c <= b)%Q.
Proof.
  intros. unfold qmin. destruct (Qle_bool a b) eqn:E.
  - apply Qle_bool_iff in E. split; [intro; split; [assumption|eapply Qle_trans; eassumption]|tauto].
  - assert (~ (a <= b)%Q) by (intro H; apply Qle_bool_iff in H; congruence). apply Qnot_le_lt in H.
    split; [intro; split; [eapply Qle_trans; [eassumption|apply Qlt_le_weak; assumption]|assumption]|tauto].
Qed.
Lemma qmax_spec : forall a b c, (qmax a b <= c <-> a <= c /\ b <= c)%Q.
Proof.
  intros. unfold qmax. destruct (Qle_bool a b) eqn:E.
  - apply Qle_bool_iff in E. split; [intro; split; [eapply Qle_trans; eassumption|assumption]|tauto].
  - assert (~ (a <= b)%Q) by (intro H; apply Qle_bool_iff in H; congruence). apply Qnot_le_lt in H.
    split; [intro; split; [assumption|eapply Qle_trans; [apply Qlt_le_weak; eassumption|assumption]]|tauto].
Qed.

Lemma fold_num_some : forall f l x, exists m, fold_num f (Some x) (map Some l) = Some m.
Proof. intros f l. induction l as [|y l IH]; intros; cbn; [eauto|apply IH]. Qed.
Lemma fold_min_spec : forall l x m c, fold_num qmin (Some x) (map Some l) = Some m -> ((c <= m)%Q <-> (c <= x)%Q /\ Forall (fun y => (c <= y)%Q) l).
Proof.
  induction l as [|y l IH]; intros x m c E; cbn in E.
  - injection E as <-. split; [intro; split; [assumption|constructor]|tauto].
  - rewrite (IH _ _ _ E), qmin_spec. split; [intros [[A B] C]; split; [assumption|constructor; assumption]|].
    intros [A B]. inversion B; subst. tauto.
Qed.
Lemma fold_max_spec : forall l x m c, fold_num qmax (Some x) (map Some l) = Some m -> ((m <= c)%Q <-> (x <= c)%Q /\ Forall (fun y => (y <= c)%Q) l).
Proof.
  induction l as [|y l IH]; intros x m c E; cbn in E.
  - injection E as <-. split; [intro; split; [assumption|constructor]|tauto].
  - rewrite (IH _ _ _ E), qmax_spec. split; [intros [[A B] C]; split; [assumption|constructor; assumption]|].
    intros [A B]. inversion B; subst. tauto.
Qed.
Lemma fold_nan : forall f l, fold_num f None l = None.
Proof. intros f l. induction l; cbn; auto. Qed.
Lemma fold_has_nan : forall f l x, In None (x :: l) -> fold_num f x l = None.
Proof.
  intros f l. induction l as [|y l IH]; intros x H; cbn.
  - destruct H as [H|[]]. auto.
  - apply IH. destruct H as [->|[->|H]]; [left; reflexivity|left; destruct x; reflexivity|right; exact H].
Qed.

Lemma below_false : forall a b, below (Some a) b = false <-> (b <= a)%Q.
Proof. intros. cbn. rewrite negb_false_iff. apply Qle_bool_iff. Qed.
Lemma above_false : forall a b, above (Some a) b = false <-> (a <= b)%Q.
Proof. intros. cbn. rewrite negb_false_iff. apply Qle_bool_iff. Qed.

Lemma Forall2_map : forall A B (R : A -> B -> Prop) (f : A -> B) l, (forall x, In x l -> R x (f x)) -> Forall2 R l (map f l).
Proof. intros A B R f l. induction l; intros H; cbn; constructor; [apply H; left; reflexivity|apply IHl; intros; apply H; right; assumption]. Qed.

Theorem freq2sb_ok : forall scale l, l <> [] -> Forall (fun f => in_reach (scale * f)) l ->
  exists ns, freq2sb (Freq scale (map Some l)) = Ok (map Some ns) /\ Forall2 (fun f n => band n (scale * f)) l ns.
Proof.
  intros scale l N H. destruct l as [|x l]; [congruence|]. clear N.
  exists (map (fun f => Qfloor (scale * f / sb_width + (1 # 2))) (x :: l)). split.
  - unfold freq2sb. rewrite map_map. cbn [option_map]. rewrite <- (map_map (Qmult scale) Some). cbn [map np_extremum bind].
    destruct (fold_num_some qmin (map (Qmult scale) l) (scale * x)%Q) as [lo El]. rewrite El.
    destruct (fold_num_some qmax (map (Qmult scale) l) (scale * x)%Q) as [hi Eh]. rewrite Eh.
    assert (F1 : below (Some lo) 0 = false).
    { apply below_false. apply (fold_min_spec _ _ _ _ El). inversion H; subst. split; [apply H2|].
      apply Forall_map. eapply Forall_impl; [|exact H3]. intros a Ha. apply Ha. }
    assert (F2 : above (Some hi) 100 = false).
    { apply above_false. apply (fold_max_spec _ _ _ _ Eh). inversion H; subst. split; [apply H2|].
      apply Forall_map. eapply Forall_impl; [|exact H3]. intros a Ha. apply Ha. }
    rewrite F1, F2. cbn [option_map]. rewrite !map_map. reflexivity.
  - apply Forall2_map. intros. apply band_floor.
Qed.

Theorem freq2sb_out : forall scale l, l = [] \/ Exists (fun f => ~ in_reach (scale * f)) l ->
  freq2sb (Freq scale (map Some l)) = Err EValueError.
Proof.
  intros scale l [->|H]; [reflexivity|]. destruct l as [|x l]; [inversion H|].
  unfold freq2sb. rewrite map_map. cbn [option_map]. rewrite <- (map_map (Qmult scale) Some). cbn [map np_extremum bind].
  destruct (fold_num_some qmin (map (Qmult scale) l) (scale * x)%Q) as [lo El]. rewrite El.
  destruct (fold_num_some qmax (map (Qmult scale) l) (scale * x)%Q) as [hi Eh]. rewrite Eh.
  destruct (below (Some lo) 0) eqn:F1; [reflexivity|]. destruct (above (Some hi) 100) eqn:F2; [reflexivity|]. exfalso.
  apply below_false in F1. apply above_false in F2.
  apply (fold_min_spec _ _ _ _ El) in F1. apply (fold_max_spec _ _ _ _ Eh) in F2.
  destruct F1 as [A B], F2 as [C D]. rewrite Forall_map in B, D. rewrite Forall_forall in B, D.
  apply Exists_exists in H. destruct H as [f [[<-|I] Hn]]; apply Hn; split; auto.
Qed.

Theorem freq2sb_types : freq2sb NotQuantity = Err ETypeError /\ freq2sb NotFrequency = Err ETypeError.
Proof. split; reflexivity. Qed.

(** With a NaN among the frequencies nothing is refused. *)
Theorem freq2sb_nan : forall scale l, In None l ->
  exists r, freq2sb (Freq scale l) = Ok r /\
    Forall2 (fun f n => match f with Some x => exists k, n = Some k /\ band k (scale * x) | None => n = None end) l r.
Proof.
  intros scale l H. destruct l as [|x l]; [destruct H|]. eexists. split.
  - unfold freq2sb. cbn [map np_extremum bind]. rewrite !fold_has_nan; [cbn [below above bind]; reflexivity| |];
    change (In None (map (option_map (Qmult scale)) (x :: l))); apply in_map_iff; exists None; auto.
  - match goal with |- Forall2 ?R _ _ => change (Forall2 R (x :: l) (map (option_map (fun x => Qfloor (x / sb_width + (1 # 2)))) (map (option_map (Qmult scale)) (x :: l)))) end.
    rewrite map_map. apply Forall2_map. intros [f|] _; cbn [option_map]; [|reflexivity]. eexists. split; [reflexivity|apply band_floor].
Qed.

Theorem freq2sb_nan_refuted : exists l r, Exists (fun f => match f with Some x => ~ in_reach x | None => False end) l /\
  freq2sb (Freq 1 l) = Ok r.
Proof.
  exists [None; Some (500 # 1)], [None; Some 2560]. split; [|vm_compute; reflexivity].
  right. left. intros [_ H]. vm_compute in H. congruence.
Qed.

(** Indices grow with frequencies. *)
Lemma one_index : forall f n, freq2sb (Freq 1 [Some f]) = Ok [Some n] <-> in_reach f /\ band n f.
Proof.
  intros f n. assert (E : (1 * f == f)%Q) by ring.
  assert (Bd : forall k, band k (1 * f) <-> band k f) by (intro; unfold band; rewrite E; tauto).
  assert (Rc : in_reach (1 * f) <-> in_reach f) by (unfold in_reach; rewrite E; tauto).
  split.
  - intro H. change [Some f] with (map Some [f]) in H. assert (R : in_reach (1 * f)).
    { destruct (Qlt_le_dec (1 * f) 0) as [L|L].
      - rewrite (freq2sb_out 1 [f]) in H; [discriminate|]. right. left. intros [A _]. apply (Qlt_not_le _ _ L A).
      - destruct (Qlt_le_dec 100 (1 * f)) as [L'|L']; [|split; assumption].
        rewrite (freq2sb_out 1 [f]) in H; [discriminate|]. right. left. intros [_ A]. apply (Qlt_not_le _ _ L' A). }
    split; [apply Rc; exact R|].
    destruct (freq2sb_ok 1 [f]) as [ns [E1 E2]]; [discriminate|constructor; [exact R|constructor]|].
    rewrite E1 in H. inversion E2; subst. inversion H4; subst. cbn in H. injection H as <-. apply Bd. assumption.
  - intros [R B]. destruct (freq2sb_ok 1 [f]) as [ns [E1 E2]]; [discriminate|constructor; [apply Rc; exact R|constructor]|].
    cbn [map] in E1. rewrite E1. inversion E2; subst. inversion H3; subst. cbn. repeat f_equal.
    apply (band_unique f); [apply Bd; assumption|exact B].
Qed.

Theorem freq2sb_mono : forall f g n m, freq2sb (Freq 1 [Some f]) = Ok [Some n] -> freq2sb (Freq 1 [Some g]) = Ok [Some m] ->
  (f <= g)%Q -> n <= m.
Proof. intros f g n m A B L. apply one_index in A. apply one_index in B. eapply band_mono; [apply A|apply B|exact L]. Qed.

(** * sb2freq *)

Lemma zmin_spec : forall l x c, c <= zmin_list x l <-> c <= x /\ Forall (fun y => c <= y) l.
Proof.
  unfold zmin_list. induction l as [|y l IH]; intros; cbn [fold_left]; [split; [intro; split; [assumption|constructor]|tauto]|].
  rewrite IH. split.
  - intros [A B]. split; [lia|constructor; [lia|exact B]].
  - intros [A B]. inversion B; subst. split; [lia|assumption].
Qed.
Lemma zmax_spec : forall l x c, zmax_list x l <= c <-> x <= c /\ Forall (fun y => y <= c) l.
Proof.
  unfold zmax_list. induction l as [|y l IH]; intros; cbn [fold_left]; [split; [intro; split; [assumption|constructor]|tauto]|].
  rewrite IH. split.
  - intros [A B]. split; [lia|constructor; [lia|exact B]].
  - intros [A B]. inversion B; subst. split; [lia|assumption].
Qed.

Lemma valid_int64 : forall n, valid_sb n -> int64 n = true.
Proof. intros n H. unfold valid_sb in H. unfold int64. apply andb_true_iff. split; [apply Z.leb_le|apply Z.ltb_lt]; lia. Qed.

Theorem sb2freq_ok : forall l, l <> [] -> Forall valid_sb l ->
  exists fs, sb2freq (Ints l) = Ok fs /\ Forall2 (fun n f => (f == inject_Z n * width - width / 2)%Q) l fs.
Proof.
  intros l N H. eexists. split.
  - unfold sb2freq. assert (F : forallb int64 l = true).
    { apply forallb_forall. intros n I. apply valid_int64. rewrite Forall_forall in H. auto. }
    rewrite F. cbn [negb]. destruct l as [|x l]; [congruence|].
    assert (G : (zmin_list x l <? 0) || (511 <? zmax_list x l) = false).
    { apply orb_false_iff. inversion H; subst. split; apply Z.ltb_ge.
      - apply zmin_spec. split; [apply H2|]. eapply Forall_impl; [|exact H3]. intros a Ha. apply Ha.
      - apply zmax_spec. split; [apply H2|]. eapply Forall_impl; [|exact H3]. intros a Ha. apply Ha. }
    rewrite G. reflexivity.
  - apply Forall2_map. intros n _. unfold sb_width, width. set (t := inject_Z n). field.
Qed.

Theorem sb2freq_out : forall l, l = [] \/ Exists (fun n => ~ valid_sb n) l -> forallb int64 l = true ->
  sb2freq (Ints l) = Err EValueError.
Proof.
  intros l H F. unfold sb2freq. rewrite F. cbn [negb]. destruct H as [->|H]; [reflexivity|].
  destruct l as [|x l]; [inversion H|].
  destruct ((zmin_list x l <? 0) || (511 <? zmax_list x l)) eqn:G; [reflexivity|]. exfalso.
  apply orb_false_iff in G. destruct G as [A B]. apply Z.ltb_ge in A, B. apply zmin_spec in A. apply zmax_spec in B.
  destruct A as [A1 A2], B as [B1 B2]. rewrite Forall_forall in A2, B2.
  apply Exists_exists in H. destruct H as [n [[<-|I] Hn]]; apply Hn; split; auto.
Qed.

Theorem sb2freq_types : sb2freq NotInts = Err ETypeError /\
  forall l, Exists (fun n => ~ (- 2 ^ 63 <= n < 2 ^ 63)) l -> sb2freq (Ints l) = Err ETypeError.
Proof.
  split; [reflexivity|]. intros l H. unfold sb2freq. assert (F : forallb int64 l = false).
  { apply Exists_exists in H. destruct H as [n [I Hn]]. destruct (forallb int64 l) eqn:E; [|reflexivity].
    rewrite forallb_forall in E. apply E in I. unfold int64 in I. apply andb_true_iff in I. destruct I as [A B].
    apply Z.leb_le in A. apply Z.ltb_lt in B. tauto. }
  rewrite F. reflexivity.
Qed.

(** The documentation gives n times the width as the start. *)
Theorem start_refuted : forall n f, sb2freq (Ints [n]) = Ok [f] -> (f < inject_Z n * width)%Q /\ ~ (f == inject_Z n * width)%Q.
Proof.
  intros n f H. assert (L : (f < inject_Z n * width)%Q).
  { unfold sb2freq in H. destruct (forallb int64 [n]); [|discriminate]. cbn [negb] in H.
    destruct ((zmin_list n [] <? 0) || (511 <? zmax_list n [])); [discriminate|]. injection H as <-.
    unfold sb_width; change ((100#512)/2)%Q with (100#1024); unw; set (t := inject_Z n). lra. }
  split; [exact L|]. intro E. rewrite E in L. exact (Qlt_irrefl _ L).
Qed.

(** * Both ways *)

Lemma band_start : forall n f, (f == inject_Z n * width - width / 2)%Q -> band n f.
Proof. intros n f E. unfold band. rewrite E. unw; set (t := inject_Z n). split; lra. Qed.
Lemma start_reach : forall n f, (f == inject_Z n * width - width / 2)%Q -> 1 <= n <= 511 -> in_reach f.
Proof.
  intros n f E [A B]. unfold in_reach. rewrite E. unw. rewrite Zle_Qle in A, B.
  change (inject_Z 1) with 1%Q in A. change (inject_Z 511) with 511%Q in B. set (t := inject_Z n) in *. split; lra.
Qed.

Theorem there_and_back : forall l, l <> [] -> Forall (fun n => 1 <= n <= 511) l ->
  exists fs, sb2freq (Ints l) = Ok fs /\ freq2sb (Freq 1 (map Some fs)) = Ok (map Some l).
Proof.
  intros l N H. destruct (sb2freq_ok l N) as [fs [E1 E2]].
  { eapply Forall_impl; [|exact H]. unfold valid_sb. intros; lia. }
  exists fs. split; [exact E1|].
  assert (R : Forall (fun f => in_reach (1 * f)) fs).
  { clear E1 N. revert H. induction E2 as [|x y l' fs' E E2 IH]; intro G; constructor.
    - inversion G; subst. assert (E' : (1 * y == y)%Q) by ring. unfold in_reach. rewrite E'. exact (start_reach _ _ E H1).
    - apply IH. inversion G; assumption. }
  destruct (freq2sb_ok 1 fs) as [ns [E3 E4]]; [intros ->; inversion E2; subst; congruence|exact R|].
  rewrite E3. repeat f_equal. clear - E2 E4. revert ns E4. induction E2; intros ns E4; inversion E4; subst; [reflexivity|].
  f_equal; [|apply IHE2; assumption]. apply (band_unique (1 * y)); [assumption|].
  apply band_start. rewrite <- H. ring.
Qed.

Theorem zero_not_back : forall l, Forall valid_sb l -> In 0 l ->
  exists fs, sb2freq (Ints l) = Ok fs /\ freq2sb (Freq 1 (map Some fs)) = Err EValueError.
Proof.
  intros l H I. destruct (sb2freq_ok l) as [fs [E1 E2]]; [intros ->; destruct I|exact H|].
  exists fs. split; [exact E1|]. apply freq2sb_out. right. clear E1 H. induction E2; [destruct I|].
  destruct I as [->|I].
  - left. intros [A _]. rewrite H in A. vm_compute in A. congruence.
  - right. apply IHE2. exact I.
Qed.

Lemma index_bounds : forall f n, in_reach f -> band n f -> 0 <= n <= 512.
Proof.
  intros f n [A B] [C D]. unw. split.
  - assert (L : (inject_Z (-1) < inject_Z n)%Q) by (change (inject_Z (-1)) with (-1)%Q; set (t := inject_Z n) in *; lra).
    rewrite <- Zlt_Qlt in L. lia.
  - assert (L : (inject_Z n < inject_Z 513)%Q) by (change (inject_Z 513) with 513%Q; set (t := inject_Z n) in *; lra).
    rewrite <- Zlt_Qlt in L. lia.
Qed.

Theorem back_and_there : forall f n, freq2sb (Freq 1 [Some f]) = Ok [Some n] -> (f < 100 - width / 2)%Q ->
  exists s, sb2freq (Ints [n]) = Ok [s] /\ (s <= f /\ f < s + width)%Q.
Proof.
  intros f n H L. apply one_index in H. destruct H as [R B]. pose proof (index_bounds _ _ R B) as Bd.
  assert (n <> 512).
  { intros ->. destruct B as [A _]. change (inject_Z 512) with 512%Q in A. unw. lra. }
  destruct (sb2freq_ok [n]) as [fs [E1 E2]]; [discriminate|constructor; [unfold valid_sb; lia|constructor]|].
  inversion E2 as [|? y ? ys E3 E4]; subst. inversion E4; subst. exists y. split; [exact E1|].
  destruct B as [B1 B2]. rewrite E3. set (t := inject_Z n) in *. unw. split; lra.
Qed.

Theorem top_refuted : forall f, (100 - width / 2 <= f)%Q -> (f <= 100)%Q ->
  freq2sb (Freq 1 [Some f]) = Ok [Some 512] /\ sb2freq (Ints [512]) = Err EValueError.
Proof.
  intros f A B. split; [|reflexivity]. apply one_index. unfold in_reach, band. change (inject_Z 512) with 512%Q.
  unw. repeat split; lra.
Qed.

(** * Ranges *)

Lemma start_ok : forall n, valid_sb n -> exists f, start_freq n = Ok f /\ (f == inject_Z n * width - width / 2)%Q.
Proof.
  intros n H. destruct (sb2freq_ok [n]) as [fs [E1 E2]]; [discriminate|constructor; [exact H|constructor]|].
  inversion E2 as [|? y ? ys E3 E4]; subst. inversion E4; subst. exists y. unfold start_freq. rewrite E1. split; [reflexivity|exact E3].
Qed.

Lemma run_S : forall a k, run a (S k) = a :: run (a + 1) k.
Proof.
  intros. unfold run. cbn [seq map]. f_equal; [lia|]. rewrite <- seq_shift, map_map. apply map_ext. intro. lia.
Qed.
Lemma run_in : forall k a n, In n (run a k) <-> a <= n < a + Z.of_nat k.
Proof.
  intros. unfold run. rewrite in_map_iff. split.
  - intros [i [<- I]]. apply in_seq in I. lia.
  - intro H. exists (Z.to_nat (n - a)). split; [lia|apply in_seq; lia].
Qed.

(** Maximal groups of consecutive values. *)
Definition is_run (g : list Z) : Prop := exists a k, g = run a (S k).
Definition no_join (gs : list (list Z)) : Prop :=
  forall gs1 g g' gs2, gs = gs1 ++ g :: g' :: gs2 -> last g 0 + 1 <> hd 0 g'.

Lemma split_head : forall l x, exists g gs, split_runs x l = (x :: g) :: gs.
Proof.
  destruct l as [|y l]; intros; cbn; [eauto|]. destruct (y - x =? 1); [|eauto]. destruct (split_runs y l); eauto.
Qed.

Lemma split_concat : forall l x, concat (split_runs x l) = x :: l.
Proof.
  induction l as [|y l IH]; intros; [reflexivity|]. cbn [split_runs]. specialize (IH y).
  destruct (split_head l y) as [g [gs E]]. rewrite E in IH |- *. destruct (y - x =? 1).
  - cbn [concat] in IH |- *. rewrite <- IH. reflexivity.
  - cbn [concat] in IH |- *. rewrite <- IH. reflexivity.
Qed.

Lemma split_is_run : forall l x, Forall is_run (split_runs x l).
Proof.
  induction l as [|y l IH]; intros.
  - constructor; [exists x, 0%nat; rewrite run_S; reflexivity|constructor].
  - cbn [split_runs]. specialize (IH y). destruct (split_head l y) as [g [gs E]]. rewrite E in IH |- *.
    destruct (y - x =? 1) eqn:D.
    + apply Z.eqb_eq in D. inversion IH; subst. constructor; [|assumption]. destruct H1 as [a [k H1]].
      rewrite run_S in H1. injection H1 as -> H1. exists x, (S k). rewrite run_S. f_equal.
      replace (x + 1) with a by lia. rewrite run_S. f_equal. exact H1.
    + constructor; [exists x, 0%nat; rewrite run_S; reflexivity|exact IH].
Qed.

Lemma no_join_cons : forall g g' gs, last g 0 + 1 <> hd 0 g' -> no_join (g' :: gs) -> no_join (g :: g' :: gs).
Proof.
  intros g g' gs H N gs1 h h' gs2 E. destruct gs1 as [|y gs1].
  - injection E as <- <- <-. exact H.
  - injection E as <- E. exact (N _ _ _ _ E).
Qed.

Lemma split_no_join : forall l x, no_join (split_runs x l).
Proof.
  induction l as [|y l IH]; intros.
  - intros gs1 g g' gs2 E. destruct gs1 as [|? [|? ?]]; cbn in E; discriminate.
  - cbn [split_runs]. specialize (IH y). destruct (split_head l y) as [g [gs E]]. rewrite E in IH |- *.
    destruct (y - x =? 1) eqn:D.
    + intros gs1 h h' gs2 Eq. destruct gs1 as [|z gs1].
      * injection Eq as <- Eq. specialize (IH [] (y :: g) h' gs2). rewrite Eq in IH. specialize (IH eq_refl).
        exact IH.
      * injection Eq as <- Eq. apply (IH ((y :: g) :: gs1) h h' gs2). cbn. f_equal. exact Eq.
    + apply no_join_cons; [|exact IH]. cbn. apply Z.eqb_neq in D. lia.
Qed.

Lemma zmin_run : forall k a x, a <= x -> zmin_list a (run x k) = a.
Proof.
  induction k; intros a x L; [reflexivity|]. rewrite run_S. unfold zmin_list. cbn [fold_left].
  replace (Z.min a x) with a by lia. apply IHk. lia.
Qed.
Lemma zmax_run : forall k a, zmax_list a (run (a + 1) k) = a + Z.of_nat k.
Proof.
  induction k; intros a; [cbn; lia|]. rewrite run_S. unfold zmax_list. cbn [fold_left].
  replace (Z.max a (a + 1)) with (a + 1) by lia. specialize (IHk (a + 1)). unfold zmax_list in IHk. rewrite IHk. lia.
Qed.

Lemma group_ok : forall a k, Forall valid_sb (run a (S k)) ->
  exists lo hi, group_range (run a (S k)) = Ok (lo, hi) /\
    (lo == inject_Z a * width - width / 2)%Q /\ (hi == inject_Z (a + Z.of_nat k) * width + width / 2)%Q.
Proof.
  intros a k H. rewrite Forall_forall in H.
  destruct (start_ok a) as [lo [E1 E2]]; [apply H; apply run_in; lia|].
  destruct (start_ok (a + Z.of_nat k)) as [hi [E3 E4]]; [apply H; apply run_in; lia|].
  exists lo, (hi + SB_WIDTH)%Q. split; [|split; [exact E2|]].
  - rewrite run_S. cbn [group_range]. rewrite zmin_run by lia. rewrite E1. cbn [bind]. rewrite zmax_run, E3. reflexivity.
  - rewrite E4. unfold SB_WIDTH; unw; set (t := inject_Z _). ring.
Qed.

(** What each group and its range are. *)
Definition range_of (g : list Z) (r : Q * Q) : Prop :=
  exists a k, g = run a (S k) /\ (fst r == inject_Z a * width - width / 2)%Q /\
    (snd r == inject_Z (a + Z.of_nat k) * width + width / 2)%Q.

Theorem ranges_spec : forall l, l <> [] -> Forall valid_sb l ->
  exists groups ranges, frequency_ranges l = Ok ranges /\ concat groups = l /\ no_join groups /\
    Forall2 range_of groups ranges.
Proof.
  intros l N H. destruct l as [|x l]; [congruence|]. exists (split_runs x l).
  assert (Q : exists ranges, map_res group_range (split_runs x l) = Ok ranges /\ Forall2 range_of (split_runs x l) ranges).
  { pose proof (split_is_run l x) as R. rewrite <- (split_concat l x) in H. induction (split_runs x l) as [|g gs IH].
    - exists []. split; [reflexivity|constructor].
    - cbn [concat] in H. apply Forall_app in H. destruct H as [H1 H2]. inversion R; subst.
      destruct (IH H2 H4) as [rs [E1 E2]]. destruct H3 as [a [k ->]]. destruct (group_ok a k H1) as [lo [hi [G1 [G2 G3]]]].
      exists ((lo, hi) :: rs). cbn [map_res]. rewrite G1. cbn [bind]. rewrite E1. split; [reflexivity|].
      constructor; [|exact E2]. exists a, k. auto. }
  destruct Q as [rs [E1 E2]]. exists rs. cbn [frequency_ranges]. repeat split; [exact E1|apply split_concat|apply split_no_join|exact E2].
Qed.

Lemma range_union : forall g r x, range_of g r -> ((fst r <= x)%Q /\ (x < snd r)%Q <-> exists n, In n g /\ band n x).
Proof.
  intros g r x [a [k [-> [E1 E2]]]]. rewrite E1, E2. split.
  - intros [A B]. destruct (Z_le_gt_dec a (Qfloor (x / sb_width + (1 # 2)))) as [L|L].
    + destruct (Z_le_gt_dec (Qfloor (x / sb_width + (1 # 2))) (a + Z.of_nat k)) as [L'|L'].
      * eexists. split; [|apply band_floor]. apply run_in. lia.
      * exfalso. destruct (band_floor x) as [C D]. assert (L2 : a + Z.of_nat k + 1 <= Qfloor (x / sb_width + (1 # 2))) by lia.
        rewrite Zle_Qle, inject_Z_plus in L2. change (inject_Z 1) with 1%Q in L2.
        set (t := inject_Z (Qfloor _)) in *. set (b := inject_Z (a + Z.of_nat k)) in *. unw. lra.
    + exfalso. destruct (band_floor x) as [C D]. assert (L2 : Qfloor (x / sb_width + (1 # 2)) + 1 <= a) by lia.
      rewrite Zle_Qle, inject_Z_plus in L2. change (inject_Z 1) with 1%Q in L2.
      set (t := inject_Z (Qfloor _)) in *. set (b := inject_Z a) in *. unw. lra.
  - intros [n [I [C D]]]. apply run_in in I. assert (L1 : a <= n) by lia. assert (L2 : n <= a + Z.of_nat k) by lia.
    rewrite Zle_Qle in L1, L2. set (t := inject_Z n) in *. set (b := inject_Z a) in *. set (c := inject_Z (a + Z.of_nat k)) in *.
    unw. split; lra.
Qed.

Theorem ranges_union : forall l ranges x, Forall valid_sb l -> frequency_ranges l = Ok ranges ->
  (Exists (fun r => (fst r <= x)%Q /\ (x < snd r)%Q) ranges <-> exists n, In n l /\ band n x).
Proof.
  intros l ranges x H E. destruct l as [|y l]; [discriminate|].
  destruct (ranges_spec (y :: l)) as [gs [rs [E1 [E2 [_ E3]]]]]; [discriminate|exact H|].
  rewrite E1 in E. injection E as ->. rewrite <- E2. clear E1 E2 H. induction E3 as [|g r gs rs R F IH].
  - split; [intro A; inversion A|intros [n [[] _]]].
  - cbn [concat]. split.
    + intro A. inversion A; subst.
      * apply (range_union g r x R) in H0. destruct H0 as [n [I B]]. exists n. rewrite in_app_iff. auto.
      * apply IH in H0. destruct H0 as [n [I B]]. exists n. rewrite in_app_iff. auto.
    + intros [n [I B]]. apply in_app_iff in I. destruct I as [I|I].
      * left. apply (range_union g r x R). eauto.
      * right. apply IH. eauto.
Qed.

(** Increasing subbands: increasing ranges, separated by at least one subband. *)
Definition apart (r s : Q * Q) : Prop := (snd r + width <= fst s)%Q.

Lemma sorted_app_lt : forall (a b : list Z), StronglySorted Z.lt (a ++ b) -> forall x y, In x a -> In y b -> x < y.
Proof.
  induction a as [|z a IH]; intros b H x y I J; [destruct I|]. cbn in H. inversion H; subst. destruct I as [<-|I].
  - rewrite Forall_forall in H3. apply H3. apply in_app_iff. auto.
  - eapply IH; eassumption.
Qed.
Lemma sorted_app_r : forall (a b : list Z), StronglySorted Z.lt (a ++ b) -> StronglySorted Z.lt b.
Proof. induction a; intros b H; [exact H|]. cbn in H. inversion H; subst. auto. Qed.

Theorem ranges_apart : forall l ranges, Forall valid_sb l -> StronglySorted Z.lt l -> frequency_ranges l = Ok ranges ->
  StronglySorted apart ranges.
Proof.
  intros l ranges H So E. destruct l as [|y l]; [discriminate|].
  destruct (ranges_spec (y :: l)) as [gs [rs [E1 [E2 [NJ E3]]]]]; [discriminate|exact H|].
  rewrite E1 in E. injection E as ->. rewrite <- E2 in So. clear E1 E2 H. induction E3 as [|g r gs rs R F IH]; [constructor|].
  cbn [concat] in So. constructor.
  - apply IH; first [exact (sorted_app_r _ _ So)|intros a b c d Eq; apply (NJ (g :: a) b c d); rewrite Eq; reflexivity].
  - destruct R as [a [k [-> [R1 R2]]]].
    assert (K : forall h, In h gs -> forall n, In n h -> a + Z.of_nat k + 1 < n).
    { intros h I n J. assert (L : a + Z.of_nat k < n).
      { apply (sorted_app_lt _ _ So); [apply run_in; lia|]. apply in_concat. eauto. }
      destruct (Z.eq_dec n (a + Z.of_nat k + 1)) as [->|]; [exfalso|lia].
      destruct gs as [|g' gs]; [destruct I|]. specialize (NJ [] (run a (S k)) g' gs eq_refl).
      assert (L1 : last (run a (S k)) 0 = a + Z.of_nat k).
      { unfold run. rewrite seq_S, map_app. cbn [map]. rewrite last_last. lia. }
      rewrite L1 in NJ. inversion F; subst. destruct H1 as [b [k' [-> _]]]. rewrite run_S in NJ. cbn [hd] in NJ.
      assert (Lb : a + Z.of_nat k < b).
      { apply (sorted_app_lt _ _ So); [apply run_in; lia|]. cbn [concat]. apply in_app_iff. left. apply run_in. lia. }
      destruct I as [<-|I].
      - apply run_in in J. lia.
      - pose proof (sorted_app_r _ _ So) as So2. cbn [concat] in So2.
        pose proof (sorted_app_lt _ _ So2 b (a + Z.of_nat k + 1)) as X.
        assert (b < a + Z.of_nat k + 1); [|lia]. apply X; [apply run_in; lia|apply in_concat; eauto]. }
    clear - K F R1 R2. induction F as [|h s gs rs Q F IH]; constructor.
    + destruct Q as [b [k' [-> [Q1 Q2]]]]. unfold apart. rewrite Q1, R2.
      assert (L : a + Z.of_nat k + 2 <= b).
      { assert (a + Z.of_nat k + 1 < b); [|lia]. apply (K (run b (S k'))); [left; reflexivity|apply run_in; lia]. }
      rewrite Zle_Qle, inject_Z_plus in L. change (inject_Z 2) with 2%Q in L.
      set (t := inject_Z b) in *. set (c := inject_Z (a + Z.of_nat k)) in *. unw. lra.
    + apply IH. intros h' I. apply K. right. exact I.
Qed.

Theorem ranges_out : forall l, l = [] \/ Exists (fun n => ~ valid_sb n) l -> forallb int64 l = true ->
  frequency_ranges l = Err EValueError.
Proof.
  intros l H F. destruct H as [->|H]; [reflexivity|]. destruct l as [|x l]; [inversion H|]. cbn [frequency_ranges].
  pose proof (split_is_run l x) as R. rewrite <- (split_concat l x) in H, F.
  induction (split_runs x l) as [|g gs IH]; [inversion H|]. cbn [concat] in H, F. inversion R; subst.
  rewrite forallb_app in F. apply andb_true_iff in F. destruct F as [F1 F2]. cbn [map_res].
  destruct H2 as [a [k ->]].
  assert (D : Forall valid_sb (run a (S k)) \/ Exists (fun n => ~ valid_sb n) (run a (S k))).
  { destruct (Forall_Exists_dec valid_sb (fun n => match Z_le_dec 0 n, Z_le_dec n 511 with
      | left p, left q => left (conj p q) | right p, _ => right (fun h => p (proj1 h)) | _, right q => right (fun h => q (proj2 h)) end) (run a (S k))); auto. }
  destruct D as [D|D].
  - destruct (group_ok a k D) as [lo [hi [E _]]]. rewrite E. cbn [bind].
    apply Exists_app in H. destruct H as [H|H].
    + exfalso. apply Exists_exists in H. destruct H as [n [I Hn]]. rewrite Forall_forall in D. exact (Hn (D n I)).
    + rewrite (IH F2 H H3) || rewrite (IH H F2 H3). reflexivity.
  - assert (B : a < 0 \/ 511 < a + Z.of_nat k).
    { apply Exists_exists in D. destruct D as [n [I Hn]]. apply run_in in I. unfold valid_sb in Hn. lia. }
    rewrite forallb_forall in F1.
    rewrite run_S. cbn [group_range]. rewrite zmin_run by lia. rewrite zmax_run.
    assert (S0 : forall n, int64 n = true -> ~ valid_sb n -> start_freq n = Err EValueError).
    { intros n I Hn. unfold start_freq. rewrite sb2freq_out; [reflexivity|right; left; exact Hn|cbn; rewrite I; reflexivity]. }
    assert (V : valid_sb a \/ ~ valid_sb a) by (unfold valid_sb; lia).
    destruct V as [V|V].
    + destruct (start_ok a V) as [lo [E _]]. rewrite E. cbn [bind]. rewrite S0; [reflexivity| |unfold valid_sb in *; lia].
      apply F1. apply run_in. lia.
    + rewrite S0; [reflexivity| |exact V]. apply F1. apply run_in. lia.
Qed.

(** The order of the list decides whether neighbours are merged. *)
Theorem order_refuted : exists l l' r r', (forall n, In n l <-> In n l') /\ frequency_ranges l = Ok r /\
  frequency_ranges l' = Ok r' /\ length r <> length r'.
Proof.
  exists [1; 2; 3], [3; 2; 1]. do 2 eexists. split; [cbn; tauto|]. split; [vm_compute; reflexivity|].
  split; [vm_compute; reflexivity|]. cbn. discriminate.
Qed.
