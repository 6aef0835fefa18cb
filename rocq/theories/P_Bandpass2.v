(** Lemmas for the correction of the bandpass and its coefficients. *)
From Coq Require Import Reals ZArith Bool List Lia Lra.
From Verif Require Import Base M_Bandpass P_Bandpass.
Import ListNotations.
Open Scope list_scope.

(** ** Numbers of channels which are not multiples of 16 *)
Definition two_taps : list R := 1%R :: 1%R :: repeat 0%R 46.
Lemma two_taps_length : length two_taps = 48%nat.
Proof. reflexivity. Qed.
Lemma two_taps_zero : forall j, (2 <= j)%nat -> nth j two_taps 0%R = 0%R.
Proof.
  intros j J. destruct j as [|[|j]]; [lia|lia|]. unfold two_taps. cbn [nth].
  destruct (Nat.lt_ge_cases j 46) as [L|L]; [|apply nth_overflow; rewrite repeat_length; assumption].
  apply (repeat_spec 46). apply nth_In. rewrite repeat_length. assumption.
Qed.
Lemma two_taps_tone : forall x, tone two_taps x = (2 + 2 * cos (2 * PI * x))%R.
Proof.
  intro x. unfold tone. rewrite two_taps_length.
  rewrite (rsum_long (fun j => nth j two_taps 0 * cos (2 * PI * INR j * x))%R 48 2) by (try lia; intros j J; rewrite two_taps_zero by assumption; ring).
  rewrite (rsum_long (fun j => nth j two_taps 0 * sin (2 * PI * INR j * x))%R 48 2) by (try lia; intros j J; rewrite two_taps_zero by assumption; ring).
  change (seq 0 2) with [0%nat; 1%nat]. rewrite !rsum_cons. unfold two_taps. cbn [nth INR rsum fold_right].
  replace (2 * PI * 0 * x)%R with 0%R by ring. rewrite cos_0, sin_0. replace (2 * PI * 1 * x)%R with (2 * PI * x)%R by ring.
  pose proof (sin2_cos2 (2 * PI * x)) as E. unfold Rsqr in E. nra.
Qed.
Lemma channels_refuted : exists h bp bp' c, (48 <= length h)%nat /\ (c < 24)%nat /\ get_bandpass h 24 = Ok bp /\ get_bandpass h (2 * 24) = Ok bp' /\ nth (2 * c) bp' None <> nth c bp None.
Proof.
  assert (K : (48 <= length two_taps)%nat) by (rewrite two_taps_length; lia).
  destruct (bandpass_all two_taps 12 K ltac:(lia)) as (bp & H & _ & V). destruct (bandpass_all two_taps 24 K ltac:(lia)) as (bp' & H' & _ & V').
  change (2 * 12)%Z with 24%Z in *. exists two_taps, bp, bp', 12%nat. split; [assumption|]. split; [lia|]. split; [assumption|]. split; [exact H'|].
  rewrite V' by (vm_compute; lia). rewrite V by (vm_compute; lia).
  assert (W : width two_taps 24 = (1 / 2)%R) by (unfold width; rewrite two_taps_length; change (24 / 16)%Z with 1%Z; rewrite INR_IZR_INZ; change (Z.of_nat 48) with 48%Z; lra).
  assert (W' : width two_taps (2 * 24) = (1 / 3)%R) by (unfold width; rewrite two_taps_length; change (2 * 24 / 16)%Z with 3%Z; change (2 * 24)%Z with 48%Z; rewrite INR_IZR_INZ; change (Z.of_nat 48) with 48%Z; lra).
  rewrite W, W'. replace ((INR (2 * 12) / IZR (2 * 24) - 1 / 2) * (1 / 3))%R with 0%R by (rewrite INR_IZR_INZ; change (Z.of_nat (2 * 12)) with 24%Z; change (2 * 24)%Z with 48%Z; lra).
  replace ((INR 12 / IZR 24 - 1 / 2) * (1 / 2))%R with 0%R by (rewrite INR_IZR_INZ; change (Z.of_nat 12) with 12%Z; lra).
  unfold seen. rewrite !two_taps_tone.
  replace (2 * PI * 0)%R with 0%R by ring. rewrite cos_0.
  replace (2 * PI * (0 - 1 / 3))%R with (- (2 * (PI / 3)))%R by field. replace (2 * PI * (0 + 1 / 3))%R with (2 * (PI / 3))%R by field.
  replace (2 * PI * (0 - 1 / 2))%R with (- PI)%R by field. replace (2 * PI * (0 + 1 / 2))%R with PI by field.
  rewrite !cos_neg, cos_PI, cos_2PI3.
  replace (2 + 2 * 1 + (2 + 2 * (-1 / 2)) + (2 + 2 * (-1 / 2)))%R with 6%R by lra.
  replace (2 + 2 * 1 + (2 + 2 * -1) + (2 + 2 * -1))%R with 4%R by lra.
  intro E. pose proof (gain_right 6 ltac:(lra)) as G6. pose proof (gain_right 4 ltac:(lra)) as G4. rewrite E in G6.
  destruct (gain 4) as [v|]; cbn in G6, G4; [|lra]. destruct G6 as [G6 _]. destruct G4 as [G4 P4]. lra.
Qed.

(** ** Coefficients *)
Lemma filters_right : forall x f, ((exists c, coefficients x f = Ok c) <-> (0 <= f <= 3)%Z) /\ (forall e, coefficients x f = Err e -> e = EValueError).
Proof.
  intros x f. split; [split|].
  - intros (c & H). destruct f as [|[p|[p|p|]|]|]; try (destruct p); try discriminate H; lia.
  - intro F. assert (D : f = 0%Z \/ f = 1%Z \/ f = 2%Z \/ f = 3%Z) by lia. destruct D as [D|[D|[D|D]]]; subst f; eexists; reflexivity.
  - intros e H. destruct f as [|[p|[p|p|]|]|]; try (destruct p); try discriminate H; injection H as <-; reflexivity.
Qed.
Lemma logistic_up : forall b a k x y, (0 < b)%R -> (k < 0)%R -> (x < y)%R -> (b / (1 + exp (k * (x - a))) < b / (1 + exp (k * (y - a))))%R.
Proof.
  intros b a k x y B K H. pose proof (exp_pos (k * (x - a))). pose proof (exp_pos (k * (y - a))).
  assert (E : (exp (k * (y - a)) < exp (k * (x - a)))%R) by (apply exp_increasing; nra).
  unfold Rdiv. apply Rmult_lt_compat_l; [assumption|]. apply Rinv_lt_contravar; [nra|lra].
Qed.
Lemma logistic_down : forall b a k x y, (0 < b)%R -> (0 < k)%R -> (x < y)%R -> (b / (1 + exp (k * (y - a))) < b / (1 + exp (k * (x - a))))%R.
Proof.
  intros b a k x y B K H. pose proof (exp_pos (k * (x - a))). pose proof (exp_pos (k * (y - a))).
  assert (E : (exp (k * (x - a)) < exp (k * (y - a)))%R) by (apply exp_increasing; nra).
  unfold Rdiv. apply Rmult_lt_compat_l; [assumption|]. apply Rinv_lt_contravar; [nra|lra].
Qed.
Lemma logistic_neg : forall b a k x y, (b < 0)%R -> (0 < k)%R -> (x < y)%R -> (b / (1 + exp (k * (x - a))) < b / (1 + exp (k * (y - a))))%R.
Proof.
  intros b a k x y B K H. pose proof (logistic_down (- b) a k x y ltac:(lra) K H) as L. unfold Rdiv in *. lra.
Qed.
Definition low (x : R) : Prop := (x < 50)%R.
Ltac pick x := destruct (Rlt_dec x 50); try (unfold low in *; lra).
Lemma coefficients_low : forall x y f c d, low x -> low y -> coefficients x f = Ok c -> coefficients y f = Ok d ->
  ((f <= 1)%Z -> c = d) /\ ((2 <= f)%Z -> (x < y)%R -> (fst c < fst d /\ snd d < snd c)%R).
Proof.
  intros x y f c d X Y H H'. destruct (filters_right x f) as [[A _] _]. specialize (A (ex_intro _ c H)).
  assert (D : f = 0%Z \/ f = 1%Z \/ f = 2%Z \/ f = 3%Z) by lia.
  destruct D as [D|[D|[D|D]]]; subst f; cbn in H, H'; unfold to_fit_const_sig, to_fit_sig_sig in H, H'; pick x; pick y;
    apply (f_equal (fun r => match r with Ok v => v | Err _ => c end)) in H; apply (f_equal (fun r => match r with Ok v => v | Err _ => d end)) in H'; cbn beta iota in H, H'; subst c d.
  - split; [reflexivity|lia].
  - split; [reflexivity|lia].
  - split; [lia|]. intros _ L. cbn [fst snd]. unfold sigmoid. split; apply Rplus_lt_compat_r; [apply logistic_up|apply logistic_down]; lra.
  - split; [lia|]. intros _ L. cbn [fst snd]. unfold sigmoid. split; apply Rplus_lt_compat_r; [apply logistic_up|apply logistic_down]; lra.
Qed.
Lemma ncs_down : forall a b c k d x y, (0 < b)%R -> (0 < k)%R -> (d < 0)%R -> (x < y)%R -> (non_constant_sigmoid y a b c k d < non_constant_sigmoid x a b c k d)%R.
Proof. intros. unfold non_constant_sigmoid. pose proof (logistic_down b a k x y ltac:(assumption) ltac:(assumption) ltac:(assumption)). nra. Qed.
Lemma ncs_up : forall a b c k d x y, (b < 0)%R -> (0 < k)%R -> (0 < d)%R -> (x < y)%R -> (non_constant_sigmoid x a b c k d < non_constant_sigmoid y a b c k d)%R.
Proof. intros. unfold non_constant_sigmoid. pose proof (logistic_neg b a k x y ltac:(assumption) ltac:(assumption) ltac:(assumption)). nra. Qed.
Lemma coefficients_high : forall x y f c d, ~ low x -> (x < y)%R -> coefficients x f = Ok c -> coefficients y f = Ok d -> (fst d < fst c /\ snd c < snd d)%R.
Proof.
  intros x y f c d X Y H H'. destruct (filters_right x f) as [[A _] _]. specialize (A (ex_intro _ c H)).
  assert (D : f = 0%Z \/ f = 1%Z \/ f = 2%Z \/ f = 3%Z) by lia.
  destruct D as [D|[D|[D|D]]]; subst f; cbn in H, H'; unfold to_fit_const_sig, to_fit_sig_sig in H, H'; pick x; pick y;
    apply (f_equal (fun r => match r with Ok v => v | Err _ => c end)) in H; apply (f_equal (fun r => match r with Ok v => v | Err _ => d end)) in H'; cbn beta iota in H, H'; subst c d;
    cbn [fst snd]; split; [apply ncs_down|apply ncs_up|apply ncs_down|apply ncs_up|apply ncs_down|apply ncs_up|apply ncs_down|apply ncs_up]; lra.
Qed.
Lemma exp_20 : forall y, (0 <= y)%R -> ((1 + y) ^ 20 <= exp (20 * y))%R.
Proof.
  intros y Y. assert (E : (exp (20 * y) = exp y ^ 20)%R).
  { replace (20 * y)%R with (INR 20 * y)%R by (rewrite INR_IZR_INZ; change (Z.of_nat 20) with 20%Z; reflexivity).
    generalize 20%nat as n. induction n as [|n IH]; [cbn; rewrite Rmult_0_l, exp_0; reflexivity|]. rewrite S_INR. cbn [pow]. rewrite <- IH, <- exp_plus. f_equal. ring. }
  rewrite E. apply pow_incr. split; [lra|]. apply exp_ineq1_le.
Qed.
Lemma slope_negative : forall x c, (98 <= x)%R -> coefficients x 0 = Ok c -> (fst c < 0)%R.
Proof.
  intros x c X H. assert (S98 : (fst (fst (to_fit_const_sig 98 50 1.03693912 88.9487679 1.02863838 0.0909061184 0.381796685 (-0.00162453382), 0, 0)) < 0)%R).
  { cbn [fst]. unfold to_fit_const_sig. destruct (Rlt_dec 98 50); [lra|]. unfold non_constant_sigmoid.
    pose proof (exp_20 (0.381796685 * (98 - 88.9487679) / 20) ltac:(lra)) as E.
    replace (20 * (0.381796685 * (98 - 88.9487679) / 20))%R with (0.381796685 * (98 - 88.9487679))%R in E by lra.
    assert (P : (24 <= (1 + 0.381796685 * (98 - 88.9487679) / 20) ^ 20)%R) by lra.
    assert (B : (1.02863838 / (1 + exp (0.381796685 * (98 - 88.9487679))) <= 1.02863838 / 25)%R).
    { unfold Rdiv. apply Rmult_le_compat_l; [lra|]. apply Rinv_le_contravar; lra. }
    lra. }
  cbn [fst] in S98. destruct (Req_dec x 98) as [E|E].
  - subst x. cbn in H. apply (f_equal (fun r => match r with Ok v => v | Err _ => c end)) in H. cbn beta iota in H. subst c. exact S98.
  - assert (L : ~ low 98) by (unfold low; lra). pose proof (coefficients_high 98 x 0 _ c L ltac:(lra) eq_refl H) as [B _]. cbn [fst] in B. lra.
Qed.

(** ** Correction of the data *)
Lemma subbands_length : forall {A} k n (l : list A), length (subbands k n l) = k.
Proof. induction k; intros; cbn; [reflexivity|]. f_equal. apply IHk. Qed.
Lemma map2_nth : forall {A B C} (f : A -> B -> C) a b i da db dc, (i < length a)%nat -> (i < length b)%nat -> nth i (map2 f a b) dc = f (nth i a da) (nth i b db).
Proof. induction a as [|x a IH]; intros b i da db dc I J; cbn in I; [lia|]. destruct b as [|y b]; cbn in J; [lia|]. destruct i; [reflexivity|]. cbn. apply IH; lia. Qed.
Lemma map2_length : forall {A B C} (f : A -> B -> C) a b, length (map2 f a b) = Nat.min (length a) (length b).
Proof. induction a as [|x a IH]; intros [|y b]; cbn; try reflexivity. f_equal. apply IH. Qed.
(** Sub-bands of [n] channels treated one by one, then put together. *)
Lemma treated : forall {A B K} (g : K -> list A -> list B) (ks : list K) k n (row : list A) (dk : K) (da : A) (db : B) (h : K -> nat -> A -> B),
  (0 < n)%nat -> length ks = k -> length row = (k * n)%nat ->
  (forall kk sb, length sb = n -> length (g kk sb) = n /\ forall c, (c < n)%nat -> nth c (g kk sb) db = h kk c (nth c sb da)) ->
  length (concat (map2 g ks (subbands k n row))) = (k * n)%nat /\
  forall f, (f < k * n)%nat -> nth f (concat (map2 g ks (subbands k n row))) db = h (nth (f / n) ks dk) (f mod n)%nat (nth f row da).
Proof.
  intros A B K g ks k n row dk da db h N. revert ks row. induction k as [|k IH]; intros ks row LK LR G.
  - destruct ks; [|discriminate]. cbn. split; [reflexivity|]. intros; lia.
  - destruct ks as [|k0 ks]; [discriminate|]. cbn in LK. injection LK as LK. cbn [subbands map2 concat].
    assert (F : length (firstn n row) = n) by (rewrite firstn_length; cbn in LR; lia).
    destruct (G k0 _ F) as [GL GV]. destruct (IH ks (skipn n row) LK ltac:(rewrite skipn_length; cbn in LR; lia) G) as [IL IV].
    split; [rewrite app_length, GL, IL; cbn; lia|]. intros f Hf. destruct (Nat.lt_ge_cases f n) as [S1|S1].
    + rewrite app_nth1 by lia. rewrite GV by assumption. rewrite Nat.div_small, Nat.mod_small by assumption. cbn [nth]. f_equal.
      rewrite <- (firstn_skipn n row) at 2. rewrite app_nth1 by lia. reflexivity.
    + rewrite app_nth2 by lia. rewrite GL, IV by (cbn in Hf; lia).
      assert (D1 : (f / n = S ((f - n) / n))%nat) by (replace f with ((f - n) + 1 * n)%nat at 1 by lia; rewrite Nat.div_add by lia; lia).
      assert (D2 : (f mod n = (f - n) mod n)%nat) by (replace f with ((f - n) + 1 * n)%nat at 1 by lia; rewrite Nat.mod_add by lia; reflexivity).
      rewrite D1, D2. cbn [nth]. f_equal.
      rewrite <- (firstn_skipn n row) at 2. rewrite app_nth2 by lia. rewrite F. reflexivity.
Qed.
Lemma treated1 : forall {A B} (g : list A -> list B) k n (row : list A) (da : A) (db : B) (h : nat -> A -> B),
  (0 < n)%nat -> length row = (k * n)%nat ->
  (forall sb, length sb = n -> length (g sb) = n /\ forall c, (c < n)%nat -> nth c (g sb) db = h c (nth c sb da)) ->
  length (concat (map g (subbands k n row))) = (k * n)%nat /\
  forall f, (f < k * n)%nat -> nth f (concat (map g (subbands k n row))) db = h (f mod n)%nat (nth f row da).
Proof.
  intros A B g k n row da db h N L G. assert (E : forall l : list (list A), map g l = map2 (fun _ : unit => g) (repeat tt (length l)) l) by (induction l; cbn; [reflexivity|f_equal; assumption]).
  rewrite E, subbands_length. apply (treated (fun _ : unit => g) (repeat tt k) k n row tt da db (fun _ => h) N (repeat_length tt k) L). intros _. exact G.
Qed.
Lemma bandpass_ok : forall h n bp, (48 <= length h)%nat -> get_bandpass h n = Ok bp -> (16 <= n)%Z /\ length bp = Z.to_nat n.
Proof. intros h n bp K H. destruct (bandpass_refused h n K) as [(A & _) _]. destruct (A (ex_intro _ bp H)) as (L & _). split; [assumption|]. apply (bandpass_right h n bp K H). Qed.

(** Specification: data of [nf] channels at each time. *)
Definition shaped (nf : nat) (data : list (list cell)) : Prop := forall row, In row data -> length row = nf.
Definition sample (data : list (list cell)) (t f : nat) : cell := nth f (nth t data []) [].

Lemma divides : forall nf n, (16 <= n)%Z -> (Z.of_nat nf mod n =? 0)%Z = true -> nf = (nf / Z.to_nat n * Z.to_nat n)%nat /\ (0 < Z.to_nat n)%nat.
Proof.
  intros nf n N H. apply Z.eqb_eq in H. apply Z.mod_divide in H; [|lia]. destruct H as (k & E). split; [|lia].
  assert (K0 : (0 <= k)%Z) by nia. assert (NF : nf = (Z.to_nat k * Z.to_nat n)%nat) by nia. rewrite NF at 2. rewrite Nat.div_mul by lia. exact NF.
Qed.
Lemma nth_map_nil : forall {A B} (g : list A -> list B) l t, g [] = [] -> nth t (map g l) [] = g (nth t l []).
Proof. intros. rewrite <- H at 1. apply map_nth. Qed.

Lemma correct_values : forall h nf data n fr d, (48 <= length h)%nat -> shaped nf data -> correct_bandpass h nf data n None fr = Ok d ->
  exists bp, get_bandpass h n = Ok bp /\ length d = length data /\ shaped nf d /\
    forall t f, (t < length data)%nat -> (f < nf)%nat -> sample d t f = map (fun x => omul x (nth (f mod Z.to_nat n) bp None)) (sample data t f).
Proof.
  intros h nf data n fr d K SH H. unfold correct_bandpass in H. destruct (get_bandpass h n) as [bp|] eqn:G; [|discriminate H]. cbn [bind] in H.
  destruct (bandpass_ok h n bp K G) as [N LB]. destruct (Z.of_nat nf mod n =? 0)%Z eqn:M; [|discriminate H]. cbn [negb] in H. injection H as <-.
  destruct (divides nf n N M) as [E P]. set (k := (nf / Z.to_nat n)%nat) in *. set (m := Z.to_nat n) in *.
  assert (Q : forall row, length row = nf -> length (concat (map (multiply bp) (subbands k m row))) = (k * m)%nat /\
     forall f, (f < k * m)%nat -> nth f (concat (map (multiply bp) (subbands k m row))) [] = map (fun x => omul x (nth (f mod m) bp None)) (nth f row [])).
  { intros row L. apply (treated1 (multiply bp) k m row [] [] (fun c x => map (fun y => omul y (nth c bp None)) x)); [assumption|lia|].
    intros sb S1. unfold multiply. split; [rewrite map2_length; lia|]. intros c C. rewrite (map2_nth _ bp sb c None []) by lia. reflexivity. }
  exists bp. split; [reflexivity|]. split; [apply map_length|]. split.
  - intros r I. apply in_map_iff in I. destruct I as (row & <- & I). rewrite (proj1 (Q row (SH row I))). lia.
  - intros t f T F. unfold sample. rewrite nth_indep with (d' := concat (map (multiply bp) (subbands k m []))) by (rewrite map_length; assumption).
    rewrite (map_nth (fun row => concat (map (multiply bp) (subbands k m row)))). apply (Q (nth t data [])); [apply SH, nth_In; assumption|lia].
Qed.
Lemma all_ok_some : forall {A} (l : list (res A)) v i d, all_ok l = Ok v -> length v = length l /\ ((i < length l)%nat -> nth i l (Err EValueError) = Ok (nth i v d)).
Proof.
  induction l as [|x l IH]; intros v i d H; cbn in H; [injection H as <-; split; [reflexivity|cbn; lia]|].
  destruct x as [x|]; [|discriminate]. cbn in H. destruct (all_ok l) as [t|] eqn:E; [|discriminate]. cbn in H. injection H as <-.
  split; [cbn; f_equal; apply (IH t 0%nat d eq_refl)|]. destruct i as [|i]; [reflexivity|]. cbn. intro I. apply (IH t i d eq_refl). lia.
Qed.
Lemma subbands_first : forall {A} k n (l : list A) i d, (0 < n)%nat -> length l = (k * n)%nat -> (i < k)%nat -> nth 0 (nth i (subbands k n l) []) d = nth (i * n) l d.
Proof.
  induction k as [|k IH]; intros n l i d N L I; [lia|]. cbn [subbands]. destruct i as [|i].
  - cbn [nth Nat.mul]. destruct l as [|x l]; [cbn in L; lia|]. destruct n; [lia|reflexivity].
  - cbn [nth]. rewrite IH by (try rewrite skipn_length; cbn in L; lia).
    rewrite <- (firstn_skipn n l) at 2. rewrite app_nth2; rewrite firstn_length; cbn in L |- *; [|lia]. f_equal. lia.
Qed.
Lemma correct_filtered : forall h nf data n lna fr d, (48 <= length h)%nat -> shaped nf data -> correct_bandpass h nf data n (Some lna) (Some fr) = Ok d ->
  exists bp, get_bandpass h n = Ok bp /\ length d = length data /\ shaped nf d /\
    forall t f, (t < length data)%nat -> (f < nf)%nat -> exists co, coefficients (nth (f / Z.to_nat n * Z.to_nat n) fr 0%R) lna = Ok co /\
      sample d t f = map (fun x => odiv x (corrected co (nth (f mod Z.to_nat n) bp None))) (sample data t f).
Proof.
  intros h nf data n lna fr d K SH H. unfold correct_bandpass in H. destruct (get_bandpass h n) as [bp|] eqn:G; [|discriminate H]. cbn [bind] in H.
  destruct (bandpass_ok h n bp K G) as [N LB]. destruct (Z.of_nat nf mod n =? 0)%Z eqn:M; [|discriminate H]. cbn [negb] in H.
  destruct (divides nf n N M) as [E P]. set (k := (nf / Z.to_nat n)%nat) in *. set (m := Z.to_nat n) in *.
  destruct (Nat.eqb_spec (length fr) (k * m)) as [LF|]; [|discriminate H]. cbn [negb] in H.
  destruct (coefficients 0 lna) as [c0|]; [|discriminate H]. cbn [bind] in H.
  destruct (all_ok (map (fun sb => coefficients (nth 0 sb 0%R) lna) (subbands k m fr))) as [co|] eqn:AO; [|discriminate H]. cbn [bind] in H. injection H as <-.
  assert (LC : length co = k). { destruct (all_ok_some _ co 0%nat (0, 0)%R AO) as [L _]. rewrite L, map_length, subbands_length. reflexivity. }
  assert (Q : forall row, length row = nf -> length (concat (map2 (divide bp) co (subbands k m row))) = (k * m)%nat /\
     forall f, (f < k * m)%nat -> nth f (concat (map2 (divide bp) co (subbands k m row))) [] = map (fun x => odiv x (corrected (nth (f / m) co (0, 0)%R) (nth (f mod m) bp None))) (nth f row [])).
  { intros row L. apply (treated (divide bp) co k m row (0, 0)%R [] [] (fun q c x => map (fun y => odiv y (corrected q (nth c bp None))) x)); [assumption|assumption|lia|].
    intros q sb S1. unfold divide. split; [rewrite map2_length; lia|]. intros c C. rewrite (map2_nth _ bp sb c None []) by lia. reflexivity. }
  exists bp. split; [reflexivity|]. split; [apply map_length|]. split.
  - intros r I. apply in_map_iff in I. destruct I as (row & <- & I). rewrite (proj1 (Q row (SH row I))). lia.
  - intros t f T F. exists (nth (f / m) co (0, 0)%R). assert (FD : (f / m < k)%nat) by (apply Nat.div_lt_upper_bound; lia). split.
    + destruct (all_ok_some _ co (f / m)%nat (0, 0)%R AO) as [_ V]. rewrite map_length, subbands_length in V. specialize (V FD). rewrite <- V.
      rewrite nth_indep with (d' := coefficients (nth 0 [] 0%R) lna) by (rewrite map_length, subbands_length; assumption).
      rewrite (map_nth (fun sb => coefficients (nth 0 sb 0%R) lna)). rewrite subbands_first by assumption. reflexivity.
    + unfold sample. rewrite nth_indep with (d' := concat (map2 (divide bp) co (subbands k m []))) by (rewrite map_length; assumption).
      rewrite (map_nth (fun row => concat (map2 (divide bp) co (subbands k m row)))). apply (Q (nth t data [])); [apply SH, nth_In; assumption|lia].
Qed.
Lemma all_ok_all : forall {A} (l : list (res A)), (forall x, In x l -> exists v, x = Ok v) -> exists v, all_ok l = Ok v.
Proof.
  induction l as [|x l IH]; intro H; [exists []; reflexivity|]. destruct (H x (or_introl eq_refl)) as (v & ->). destruct (IH (fun y I => H y (or_intror I))) as (t & E).
  exists (v :: t). cbn. rewrite E. reflexivity.
Qed.
Lemma correct_accepts : forall h nf data n lna fr, (48 <= length h)%nat ->
  ((exists d, correct_bandpass h nf data n lna fr = Ok d) <->
   (16 <= n)%Z /\ Z.Even n /\ (n | Z.of_nat nf)%Z /\ (forall l, lna = Some l -> (0 <= l <= 3)%Z /\ exists x, fr = Some x /\ length x = nf)) /\
  (forall e, correct_bandpass h nf data n lna fr = Err e -> e = EValueError \/ e = EAttributeError /\ lna <> None /\ fr = None).
Proof.
  intros h nf data n lna fr K. destruct (bandpass_refused h n K) as [(B1 & B2) B3]. unfold correct_bandpass.
  destruct (get_bandpass h n) as [bp|e0] eqn:G; cbn [bind].
  2:{ split; [|intros e H; injection H as <-; left; apply B3; reflexivity]. split; [intros (d & H); discriminate H|].
      intros (N & EV & _). destruct (B2 (conj N EV)) as (b & Hb). discriminate Hb. }
  destruct (B1 (ex_intro _ bp eq_refl)) as [N EV].
  destruct (Z.of_nat nf mod n =? 0)%Z eqn:M; cbn [negb].
  2:{ split; [|intros e H; injection H as <-; left; reflexivity]. split; [intros (d & H); discriminate H|].
      intros (_ & _ & D & _). apply Z.mod_divide in D; [|lia]. rewrite D in M. discriminate M. }
  assert (DV : (n | Z.of_nat nf)%Z) by (apply Z.eqb_eq in M; apply Z.mod_divide; [lia|assumption]).
  destruct (divides nf n N M) as [E P].
  destruct lna as [l|].
  2:{ split; [|intros e H; discriminate H]. split; [intros _; split; [assumption|]; split; [assumption|]; split; [assumption|]; intros l H; discriminate H|]. intros _. eexists. reflexivity. }
  destruct fr as [x|].
  2:{ split; [|intros e H; injection H as <-; right; repeat split; discriminate]. split; [intros (d & H); discriminate H|].
      intros (_ & _ & _ & F). destruct (F l eq_refl) as (_ & x & Q & _). discriminate Q. }
  rewrite <- E. destruct (Nat.eqb_spec (length x) nf) as [LX|LX]; cbn [negb].
  2:{ split; [|intros e H; injection H as <-; left; reflexivity]. split; [intros (d & H); discriminate H|].
      intros (_ & _ & _ & F). destruct (F l eq_refl) as (_ & y & Q & LY). injection Q as <-. contradiction. }
  destruct (filters_right 0 l) as [[F1 F2] F3].
  destruct (coefficients 0 l) as [c0|e0] eqn:C0; cbn [bind].
  2:{ split; [|intros e H; injection H as <-; left; apply F3; reflexivity]. split; [intros (d & H); discriminate H|].
      intros (_ & _ & _ & F). destruct (F l eq_refl) as (R1 & _). destruct (F2 R1) as (c & Hc). discriminate Hc. }
  assert (R1 : (0 <= l <= 3)%Z) by (apply F1; exists c0; reflexivity).
  destruct (all_ok_all (map (fun sb => coefficients (nth 0 sb 0%R) l) (subbands (nf / Z.to_nat n) (Z.to_nat n) x))) as (co & AO).
  { intros y I. apply in_map_iff in I. destruct I as (sb & <- & _). apply (proj2 (proj1 (filters_right _ l)) R1). }
  rewrite AO. cbn [bind]. split; [|intros e H; discriminate H]. split; [|intros _; eexists; reflexivity].
  intros _. split; [assumption|]. split; [assumption|]. split; [assumption|]. (intros l' Q; injection Q as <-; split; [assumption|exists x; split; [reflexivity|assumption]]).
Qed.

(** A flat spectrum seen through the filters becomes flat. *)
Lemma correct_flat : forall h nf data n fr d a t f, (48 <= length h)%nat -> shaped nf data -> correct_bandpass h nf data n None fr = Ok d ->
  (t < length data)%nat -> (f < nf)%nat ->
  let s := seen h (width h n) ((INR (f mod Z.to_nat n) / IZR n - 1 / 2) * width h n) in
  s <> 0%R -> sample data t f = [Some (a * s)%R] -> sample d t f = [Some (a * 2 ^ 50)%R].
Proof.
  intros h nf data n fr d a t f K SH H T F s S0 E. destruct (correct_values h nf data n fr d K SH H) as (bp & G & _ & _ & V).
  rewrite V, E by assumption. destruct (bandpass_ok h n bp K G) as [N LB].
  pose proof (proj2 (bandpass_right h n bp K G) (f mod Z.to_nat n)%nat ltac:(apply Nat.mod_upper_bound; lia)) as C. fold s in C. cbn [map].
  destruct (nth (f mod Z.to_nat n) bp None) as [g|]; cbn in C; [|contradiction]. cbn. do 2 f_equal. destruct C as [C _]. rewrite <- C. ring.
Qed.
(** The array of the caller is corrected itself: a second call corrects twice. *)
Lemma correct_twice : forall h nf data n fr d d' bp t f, (48 <= length h)%nat -> shaped nf data -> correct_bandpass h nf data n None fr = Ok d ->
  correct_bandpass h nf (caller_after true data (Ok d)) n None fr = Ok d' -> get_bandpass h n = Ok bp -> (t < length data)%nat -> (f < nf)%nat ->
  sample d' t f = map (fun x => omul (omul x (nth (f mod Z.to_nat n) bp None)) (nth (f mod Z.to_nat n) bp None)) (sample data t f).
Proof.
  intros h nf data n fr d d' bp t f K SH H H' G T F. cbn in H'.
  destruct (correct_values h nf data n fr d K SH H) as (b & Gb & L & S1 & V). rewrite G in Gb. injection Gb as <-.
  destruct (correct_values h nf d n fr d' K S1 H') as (b & Gb & _ & _ & V'). rewrite G in Gb. injection Gb as <-.
  rewrite V' by lia. rewrite V by assumption. apply map_map.
Qed.
(** The same with usual operations, where the response is finite. *)
Lemma correct_right : forall h nf data n fr d, (48 <= length h)%nat -> shaped nf data -> correct_bandpass h nf data n None fr = Ok d ->
  exists bp, get_bandpass h n = Ok bp /\ length d = length data /\ shaped nf d /\
    forall t f g, (t < length data)%nat -> (f < nf)%nat -> nth (f mod Z.to_nat n) bp None = Some g ->
      sample d t f = map (option_map (fun x => x * g)%R) (sample data t f).
Proof.
  intros h nf data n fr d K SH H. destruct (correct_values h nf data n fr d K SH H) as (bp & G & L & S1 & V). exists bp. split; [assumption|]. split; [assumption|]. split; [assumption|].
  intros t f g T F E. rewrite V by assumption. apply map_ext. intros [x|]; [cbn; rewrite E; reflexivity|reflexivity].
Qed.
Lemma filtered_right : forall h nf data n lna fr d, (48 <= length h)%nat -> shaped nf data -> correct_bandpass h nf data n (Some lna) (Some fr) = Ok d ->
  exists bp, get_bandpass h n = Ok bp /\ length d = length data /\ shaped nf d /\
    forall t f g, (t < length data)%nat -> (f < nf)%nat -> nth (f mod Z.to_nat n) bp None = Some g -> exists slope yint,
      coefficients (nth (f - f mod Z.to_nat n) fr 0%R) lna = Ok (slope, yint) /\
      ((slope / g + yint <> 0)%R -> sample d t f = map (option_map (fun x => x / (slope / g + yint))%R) (sample data t f)).
Proof.
  intros h nf data n lna fr d K SH H. destruct (correct_filtered h nf data n lna fr d K SH H) as (bp & G & L & S1 & V). destruct (bandpass_ok h n bp K G) as [N LB].
  exists bp. split; [assumption|]. split; [assumption|]. split; [assumption|]. intros t f g T F E. destruct (V t f T F) as ((slope & yint) & C & W). exists slope, yint. split.
  - rewrite <- C. do 2 f_equal. pose proof (Nat.div_mod f (Z.to_nat n) ltac:(lia)). lia.
  - intro NZ. rewrite W. apply map_ext. unfold corrected. intros [x|]; [|reflexivity]. cbn [odiv fst snd option_map]. rewrite E.
    pose proof (proj2 (bandpass_right h n bp K G) (f mod Z.to_nat n)%nat ltac:(apply Nat.mod_upper_bound; lia)) as P. rewrite E in P. cbn in P.
    destruct (Req_EM_T g 0) as [Z0|_]; [lra|]. destruct (Req_EM_T (slope / g + yint) 0); [contradiction|reflexivity].
Qed.
Lemma twice_right : forall h nf data n fr d d' bp t f g, (48 <= length h)%nat -> shaped nf data -> correct_bandpass h nf data n None fr = Ok d ->
  correct_bandpass h nf (caller_after true data (Ok d)) n None fr = Ok d' -> get_bandpass h n = Ok bp -> (t < length data)%nat -> (f < nf)%nat ->
  nth (f mod Z.to_nat n) bp None = Some g -> sample d' t f = map (option_map (fun x => x * g * g)%R) (sample data t f).
Proof. intros h nf data n fr d d' bp t f g K SH H H' G T F E. rewrite (correct_twice h nf data n fr d d' bp t f K SH H H' G T F). apply map_ext. intros [x|]; [rewrite E; reflexivity|reflexivity]. Qed.
