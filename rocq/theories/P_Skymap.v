(** Maps of skies: sizes of images and HEALPix orders. *)
From Coq Require Import ZArith QArith Qround Qabs Bool List Lia Lqa.
From Verif Require Import Base M_Skymap.
Import ListNotations.
Open Scope nat_scope.
Open Scope list_scope.

(** ** C186: the image *)

Lemma trunc_floor : forall q, (0 <= q)%Q -> trunc q = Qfloor q.
Proof.
  intros [n d] H. unfold trunc, Qfloor. cbn [Qnum Qden]. apply Z.quot_div_nonneg; [|lia]. unfold Qle in H. cbn in H. lia.
Qed.
Lemma trunc_spec : forall q, (0 <= q)%Q -> (inject_Z (trunc q) <= q < inject_Z (trunc q) + 1)%Q.
Proof.
  intros q H. rewrite (trunc_floor q H). split; [apply Qfloor_le|].
  pose proof (Qlt_floor q) as L. rewrite inject_Z_plus in L. exact L.
Qed.
Lemma trunc_neg : forall q, (q < 0)%Q -> (trunc q <= 0)%Z.
Proof.
  intros [n d] H. unfold trunc. cbn [Qnum Qden]. unfold Qlt in H. cbn in H.
  assert (n <= 0)%Z by lia. assert (E : n = (- (- n))%Z) by lia. rewrite E, Z.quot_opp_l by lia.
  pose proof (Z.quot_pos (- n) (Zpos d)). lia.
Qed.
Lemma inject_lt : forall a b, (inject_Z a < inject_Z b)%Q -> (a < b)%Z.
Proof. intros a b H. now rewrite Zlt_Qlt. Qed.

(** The size of the pixels *)
Definition size (w : wcs) : Q := snd (w_delt w).
Definition scale (r : Q) : Z := if (trunc (dangle / r) <=? 1)%Z then 1%Z else trunc (dangle / r).

Lemma scale_pos : forall r, (1 <= scale r)%Z.
Proof. intros r. unfold scale. destruct (Z.leb_spec (trunc (dangle / r)) 1); lia. Qed.
Lemma scale_pos_q : forall r, (1 <= inject_Z (scale r))%Q.
Proof. intros r. pose proof (scale_pos r) as P. change 1%Q with (inject_Z 1). now rewrite <- Zle_Qle. Qed.
Lemma wcs_ok : forall c r d w s, compute_wcs c r d = Ok (w, s) ->
  ~ (r == 0)%Q /\ size w = (dangle / inject_Z (scale r))%Q /\ fst (w_delt w) = (- size w)%Q /\ w_val w = c /\
  s = match d with None => (480 * scale r, 240 * scale r)%Z | Some d => (trunc (2 * d / size w)%Q, trunc (2 * d / size w)%Q) end /\
  w_pix w = (inject_Z (fst s) / 2 + (1 # 2), inject_Z (snd s) / 2 + (1 # 2))%Q.
Proof.
  intros c r d w s H. unfold compute_wcs in H. destruct (Qeq_bool r 0) eqn:E; [discriminate|].
  split; [intros X; apply Qeq_bool_iff in X; congruence|]. fold (scale r) in H.
  cbv zeta in H. fold (scale r) in H. destruct d as [d|]; injection H as <- <-; cbn; repeat split; reflexivity.
Qed.

Theorem wcs_refused : forall c r d, (r == 0)%Q -> compute_wcs c r d = Err EOverflowError.
Proof. intros c r d H. unfold compute_wcs. apply Qeq_bool_iff in H. now rewrite H. Qed.
Theorem wcs_total : forall c r d, ~ (r == 0)%Q -> exists w s, compute_wcs c r d = Ok (w, s).
Proof.
  intros c r d H. unfold compute_wcs. destruct (Qeq_bool r 0) eqn:E; [apply Qeq_bool_iff in E; contradiction|].
  cbv zeta. destruct d; eauto.
Qed.

Lemma div_mult : forall a b, (0 < b)%Q -> (a / b * b == a)%Q.
Proof. intros. field. intros X. rewrite X in H. now apply Qlt_irrefl in H. Qed.

(** Pixels are at least as large as asked for, and less than twice as large. *)
Theorem wcs_pixel : forall c r d w s, compute_wcs c r d = Ok (w, s) -> (0 < r)%Q -> (r <= 675 # 1000)%Q -> (r <= size w < 2 * r)%Q.
Proof.
  intros c r d w s H P L. apply wcs_ok in H. destruct H as (_ & -> & _).
  assert (Q : (1 <= dangle / r)%Q) by (apply Qle_shift_div_l; [exact P|]; unfold dangle; lra).
  destruct (trunc_spec (dangle / r)) as [T1 T2]; [lra|].
  set (t := trunc (dangle / r)) in *.
  assert (T : (1 <= t)%Z).
  { assert (X : (inject_Z 0 < inject_Z t)%Q) by (change (inject_Z 0) with 0%Q; lra). apply inject_lt in X. lia. }
  assert (E : scale r = t) by (unfold scale; fold t; destruct (Z.leb_spec t 1); lia).
  rewrite E. assert (TQ : (1 <= inject_Z t)%Q) by (change 1%Q with (inject_Z 1); now rewrite <- Zle_Qle).
  pose proof (div_mult dangle r P) as D.
  split.
  - apply Qle_shift_div_l; [lra|]. nra.
  - apply Qlt_shift_div_r; [lra|]. nra.
Qed.
(** Beyond half of 0.675 degrees the resolution asked for has no effect. *)
Theorem wcs_threshold_refuted : forall c r d, (27 # 80 < r)%Q \/ (r < 0)%Q -> compute_wcs c r d = compute_wcs c 1 d.
Proof.
  intros c r d H. unfold compute_wcs.
  assert (N : Qeq_bool r 0 = false).
  { destruct (Qeq_bool r 0) eqn:E; [|reflexivity]. apply Qeq_bool_iff in E. exfalso. destruct H; lra. }
  rewrite N. change (Qeq_bool 1 0) with false. cbv zeta.
  assert (S1 : (trunc (dangle / r) <= 1)%Z).
  { destruct H as [H|H].
    - assert (P : (0 <= dangle / r)%Q) by (apply Qle_shift_div_l; unfold dangle; lra).
      assert (U : (dangle / r < 2)%Q) by (apply Qlt_shift_div_r; unfold dangle; lra).
      destruct (trunc_spec _ P) as [T1 _]. assert (X : (inject_Z (trunc (dangle / r)) < inject_Z 2)%Q) by (change (inject_Z 2) with 2%Q; lra).
      apply inject_lt in X. lia.
    - assert (U : (dangle / r < 0)%Q).
      { assert (X : (dangle / r == - (dangle / - r))%Q) by (field; lra). rewrite X.
        assert (0 < dangle / - r)%Q by (apply Qlt_shift_div_l; unfold dangle; lra). lra. }
      apply trunc_neg in U. lia. }
  destruct (Z.leb_spec (trunc (dangle / r)) 1); [|lia]. reflexivity.
Qed.
(** Without radius the image covers 324 by 162 degrees, whatever the resolution. *)
Theorem wcs_full : forall c r w s, compute_wcs c r None = Ok (w, s) ->
  (inject_Z (fst s) * size w == 324 /\ inject_Z (snd s) * size w == 162)%Q.
Proof.
  intros c r w s H. apply wcs_ok in H. destruct H as (_ & -> & _ & _ & -> & _). cbn [fst snd].
  pose proof (scale_pos_q r). rewrite !inject_Z_mult. unfold dangle.
  change (inject_Z 480) with 480%Q. change (inject_Z 240) with 240%Q. split; field; lra.
Qed.
(** With a radius it is a square of the largest number of pixels within twice the radius. *)
Theorem wcs_radius : forall c r d w s, compute_wcs c r (Some d) = Ok (w, s) -> (0 <= d)%Q ->
  fst s = snd s /\ (0 <= fst s)%Z /\ (inject_Z (fst s) * size w <= 2 * d < (inject_Z (fst s) + 1) * size w)%Q.
Proof.
  intros c r d w s H P. apply wcs_ok in H. destruct H as (_ & E & _ & _ & -> & _). cbn [fst snd].
  assert (S : (0 < size w)%Q) by (rewrite E; pose proof (scale_pos_q r); apply Qlt_shift_div_l; unfold dangle; lra).
  assert (Q : (0 <= 2 * d / size w)%Q) by (apply Qle_shift_div_l; [exact S|lra]).
  destruct (trunc_spec _ Q) as [T1 T2]. pose proof (div_mult (2 * d) (size w) S) as D.
  set (t := trunc (2 * d / size w)) in *.
  split; [reflexivity|]. split.
  - assert (X : (inject_Z (-1) < inject_Z t)%Q) by (change (inject_Z (-1)) with (-1)%Q; lra). apply inject_lt in X. lia.
  - split; nra.
Qed.
(** The centre asked for is in the middle; right ascensions grow to the left. *)
Theorem wcs_center : forall c r d w s, compute_wcs c r d = Ok (w, s) ->
  w_val w = c /\ (fst (w_pix w) == (1 + inject_Z (fst s)) / 2 /\ snd (w_pix w) == (1 + inject_Z (snd s)) / 2)%Q /\
  (fst (w_delt w) == - size w)%Q /\ (0 < size w)%Q.
Proof.
  intros c r d w s H. apply wcs_ok in H. destruct H as (_ & E & F & G & _ & K). rewrite K, F. cbn [fst snd].
  split; [exact G|]. split; [split; field|]. split; [reflexivity|]. rewrite E. pose proof (scale_pos_q r). apply Qlt_shift_div_l; unfold dangle; lra.
Qed.
Theorem wcs_hpx : forall c r d w s, compute_wcs c r d = Ok (w, s) <-> compute_wcs_hpx c r d = Ok (w, (snd s, fst s)).
Proof.
  intros c r d w [s1 s2]. unfold compute_wcs_hpx. destruct (compute_wcs c r d) as [[w' [t1 t2]]|e]; cbn [bind fst snd].
  - split; intros H; injection H as -> -> ->; reflexivity.
  - split; discriminate.
Qed.

(** ** C189, C190: orders of HEALPix *)

Section Orders.
Variable base : Q.
Hypothesis base_pos : (0 < base)%Q.
Notation available := (available base).
Notation order_of := (order_of base).

Lemma argmin_spec : forall f l b, 
  (argmin f b l = b \/ In (argmin f b l) l) /\ (f (argmin f b l) <= f b)%Q /\ forall k, In k l -> (f (argmin f b l) <= f k)%Q.
Proof.
  induction l as [|x l IH]; intros b; cbn [argmin].
  - split; [auto|]. split; [lra|]. intros k [].
  - destruct (Qle_bool (f b) (f x)) eqn:E.
    + apply Qle_bool_iff in E. destruct (IH b) as (A & B & C). split; [destruct A; [auto|right; now right]|].
      split; [exact B|]. intros k [<-|K]; [lra|auto].
    + assert (E' : (f x < f b)%Q) by (apply Qnot_le_lt; intros X; apply Qle_bool_iff in X; congruence).
      destruct (IH x) as (A & B & C). split; [destruct A as [->|A]; right; [now left|now right]|].
      split; [lra|]. intros k [<-|K]; [lra|auto].
Qed.
(** The first of the smallest: those before are larger. *)
Lemma argmin_first : forall f n a b, b < a -> (forall k, k < a -> k < b -> (f b < f k)%Q) -> (forall k, b < k -> k < a -> (f b <= f k)%Q) ->
  forall k, k < argmin f b (seq a n) -> (f (argmin f b (seq a n)) < f k)%Q.
Proof.
  intros f n. induction n as [|n IH]; intros a b BA L G k K; cbn [seq argmin] in *.
  - apply L; lia.
  - destruct (Qle_bool (f b) (f a)) eqn:E.
    + apply Qle_bool_iff in E. apply IH; [lia| | |exact K].
      * intros j J1 J2. apply L; lia.
      * intros j J1 J2. destruct (Nat.eq_dec j a) as [->|]; [exact E|]. apply G; lia.
    + assert (E' : (f a < f b)%Q) by (apply Qnot_le_lt; intros X; apply Qle_bool_iff in X; congruence).
      apply IH; [lia| | |exact K].
      * intros j J1 J2. destruct (Nat.lt_trichotomy j b) as [J|[->|J]]; [|exact E'|].
        { assert (f b < f j)%Q by (apply L; lia). lra. }
        { assert (f b <= f j)%Q by (apply G; lia). lra. }
      * intros j J1 J2. lia.
Qed.
Opaque argmin.
Lemma order_lt : forall r, order_of r < 30.
Proof.
  intros r. unfold M_Skymap.order_of. destruct (argmin_spec (fun k => Qabs (available k - r)) (seq 1 (orders - 1)) 0) as ([E|H] & _).
  - rewrite E. lia.
  - apply in_seq in H. unfold orders in *. lia.
Qed.
Lemma order_best : forall r k, k < 30 -> (Qabs (available (order_of r) - r) <= Qabs (available k - r))%Q.
Proof.
  intros r k K. unfold M_Skymap.order_of. destruct (argmin_spec (fun k => Qabs (available k - r)) (seq 1 (orders - 1)) 0) as (_ & A & B).
  destruct k as [|k]; [exact A|]. apply (B (S k)). apply in_seq. unfold orders. lia.
Qed.
Lemma order_first : forall r k, k < order_of r -> (Qabs (available (order_of r) - r) < Qabs (available k - r))%Q.
Proof.
  intros r k K. unfold M_Skymap.order_of in *.
  apply (argmin_first (fun k => Qabs (available k - r)) (orders - 1) 1 0); [lia| | |exact K]; intros; exfalso; lia.
Qed.

Lemma pow_pos : forall k, (0 < inject_Z (2 ^ Z.of_nat k))%Q.
Proof. intros k. change 0%Q with (inject_Z 0). rewrite <- Zlt_Qlt. apply Z.pow_pos_nonneg; lia. Qed.
Lemma available_half : forall k, (available k == 2 * available (S k))%Q.
Proof.
  intros k. unfold M_Skymap.available. rewrite Nat2Z.inj_succ, Z.pow_succ_r by lia. rewrite inject_Z_mult. change (inject_Z 2) with 2%Q.
  pose proof (pow_pos k). field. lra.
Qed.
Lemma available_pos : forall k, (0 < available k)%Q.
Proof. intros k. pose proof (pow_pos k). unfold M_Skymap.available. apply Qlt_shift_div_l; lra. Qed.
Lemma available_lt : forall j k, j < k -> (available k < available j)%Q.
Proof.
  intros j k H. induction H as [|k H IH].
  - pose proof (available_half j). pose proof (available_pos (S j)). lra.
  - pose proof (available_half k). pose proof (available_pos (S k)). lra.
Qed.

Theorem nside_nearest : forall r, exists k, k < 30 /\ resol2nside base r = ((2 ^ Z.of_nat k)%Z, (base / inject_Z (2 ^ Z.of_nat k))%Q) /\
  (forall j, j < 30 -> (Qabs (base / inject_Z (2 ^ Z.of_nat k) - r) <= Qabs (base / inject_Z (2 ^ Z.of_nat j) - r))%Q).
Proof.
  intros r. exists (order_of r). split; [apply order_lt|]. split; [reflexivity|]. intros j J. now apply order_best.
Qed.

Lemma abs_cases : forall x, (0 <= x /\ Qabs x == x)%Q \/ (x <= 0 /\ Qabs x == - x)%Q.
Proof. intros x. destruct (Qlt_le_dec x 0); [right|left]; split; try lra; [apply Qabs_neg; lra|now apply Qabs_pos]. Qed.
Ltac absolute := repeat match goal with
  | H : context [Qabs ?x] |- _ => let E := fresh "E" in let E1 := fresh "E1" in let E2 := fresh "E2" in
      destruct (abs_cases x) as [[E1 E2]|[E1 E2]]; rewrite E2 in H; clear E2
  | |- context [Qabs ?x] => let E1 := fresh "E1" in let E2 := fresh "E2" in
      destruct (abs_cases x) as [[E1 E2]|[E1 E2]]; rewrite E2; clear E2 end.

(** Between the extreme resolutions the one used is within a half of the one asked for. *)
Theorem nside_factor : forall r, (base / inject_Z (2 ^ 29) <= r <= base)%Q ->
  let e := snd (resol2nside base r) in ((3 # 4) * e <= r <= (3 # 2) * e)%Q.
Proof.
  intros r [A B] e. change e with (available (order_of r)). clear e. set (k := order_of r).
  pose proof (order_lt r) as K. fold k in K.
  assert (Z0 : (available 0 == base)%Q) by (unfold M_Skymap.available; cbn; field).
  split.
  - destruct (Nat.eq_dec k 29) as [E|N].
    + rewrite E. change (base / inject_Z (2 ^ 29))%Q with (available 29) in A. pose proof (available_pos 29). lra.
    + pose proof (order_best r (S k)) as H. fold k in H. specialize (H ltac:(lia)).
      pose proof (available_half k). pose proof (available_pos k). absolute; lra.
  - destruct k as [|k'] eqn:E.
    + rewrite Z0. lra.
    + pose proof (order_best r k') as H. fold k in H. rewrite E in H. specialize (H ltac:(lia)).
      pose proof (available_half k'). pose proof (available_pos k'). absolute; lra.
Qed.
(** A finer resolution has no smaller [nside]. *)
Lemma order_monotone : forall r r', (r <= r')%Q -> order_of r' <= order_of r.
Proof.
  intros r r' H. destruct (le_lt_dec (order_of r') (order_of r)) as [|L]; [assumption|exfalso].
  pose proof (order_first r' (order_of r) L) as F. pose proof (order_best r (order_of r') (order_lt r')) as G.
  pose proof (available_lt _ _ L) as D. absolute; lra.
Qed.
Theorem nside_monotone : forall r r', (r <= r')%Q -> (fst (resol2nside base r') <= fst (resol2nside base r))%Z.
Proof. intros r r' H. cbn. apply Z.pow_le_mono_r; [lia|]. apply inj_le. now apply order_monotone. Qed.
(** Resolutions null or negative are accepted: they give the largest number of pixels. *)
Theorem nside_negative : forall r, (r <= base / inject_Z (2 ^ 29))%Q -> fst (resol2nside base r) = (2 ^ 29)%Z.
Proof.
  intros r H. cbn [resol2nside fst]. change 29%Z with (Z.of_nat 29). f_equal. f_equal.
  pose proof (order_lt r) as K. destruct (Nat.eq_dec (order_of r) 29) as [|N]; [assumption|exfalso].
  change (base / inject_Z (2 ^ 29))%Q with (available 29) in H.
  pose proof (order_best r 29 ltac:(lia)) as G. pose proof (available_lt (order_of r) 29 ltac:(lia)) as D. absolute; lra.
Qed.

(** The effective resolution is its own: the same [nside] is found again. *)
Theorem nside_again : forall r, resol2nside base (snd (resol2nside base r)) = resol2nside base r.
Proof.
  intros r. unfold resol2nside. cbn [snd]. set (k := order_of r). pose proof (order_lt r) as K. fold k in K.
  assert (E : order_of (available k) = k); [|now rewrite E].
  pose proof (order_best (available k) k K) as B. destruct (Nat.lt_trichotomy (order_of (available k)) k) as [L|[L|L]]; [|exact L|].
  - exfalso. apply available_lt in L. assert (X : (Qabs (available k - available k) == 0)%Q) by (rewrite Qabs_wd with (y := 0%Q) by ring; reflexivity).
    rewrite X in B. absolute; lra.
  - exfalso. apply available_lt in L. assert (X : (Qabs (available k - available k) == 0)%Q) by (rewrite Qabs_wd with (y := 0%Q) by ring; reflexivity).
    rewrite X in B. absolute; lra.
Qed.

Definition built (h : hpx) : Prop := exists r t f p o v, h = new_hpx base r t f p o v.
Theorem shaped_like_same : forall h, built h -> exists h', shaped_like base (Some h) = Ok h' /\ h_nside h' = h_nside h /\ h_resolution h' = h_resolution h /\
  npix h' = npix h /\ h_time h' = h_time h /\ h_freq h' = h_freq h /\ h_pol h' = h_pol h /\ h_observer h' = h_observer h /\ h_value h' = 0%Q.
Proof.
  intros h (r & t & f & p & o & v & ->). eexists. split; [reflexivity|]. unfold npix. cbn [new_hpx h_nside h_resolution h_time h_freq h_pol h_observer h_value].
  rewrite nside_again. repeat split.
Qed.
Theorem shaped_like_refused : shaped_like base None = Err ETypeError.
Proof. reflexivity. Qed.
(** Reaches of an unbounded chain of copies *)
Fixpoint copies (n : nat) (h : hpx) : res hpx := match n with 0 => Ok h | S n => bind (shaped_like base (Some h)) (copies n) end.
Theorem shaped_like_chain : forall n h, built h -> exists h', copies n h = Ok h' /\ h_nside h' = h_nside h /\ built h'.
Proof.
  induction n as [|n IH]; intros h B; [exists h; auto|].
  destruct (shaped_like_same h B) as (h1 & E & N & _). cbn [copies]. rewrite E. cbn [bind].
  assert (B1 : built h1) by (cbn in E; injection E as <-; unfold built; eauto 10).
  destruct (IH h1 B1) as (h2 & E2 & N2 & B2). exists h2. split; [exact E2|]. split; [congruence|exact B2].
Qed.
End Orders.
