(** Specification and lemmas for the theoretical response of a sub-band. *)
From Coq Require Import Reals ZArith Bool List Lia Lra.
From Verif Require Import Base M_Bandpass.
Import ListNotations.
Open Scope list_scope.

(** Specification: the power of a tone of frequency [x] (cycles by sample) at the output of the
    filter of coefficients [h]. *)
Definition tone (h : list R) (x : R) : R :=
  (rsum (fun j => nth j h 0 * cos (2 * PI * INR j * x)) (seq 0 (length h)) ^ 2 +
   rsum (fun j => nth j h 0 * sin (2 * PI * INR j * x)) (seq 0 (length h)) ^ 2)%R.
(** In sub-bands of width [w], a tone at [x] from a centre is seen there and by both
    neighbours. *)
Definition seen (h : list R) (w x : R) : R := (tone h x + tone h (x - w) + tone h (x + w))%R.
(** The correction of a power: 2^50 over it. *)
Definition correction (s : R) (v : option R) : Prop :=
  match v with Some g => (g * s = 2 ^ 50 /\ 0 < g)%R | None => s = 0%R end.

Lemma rsum_cons : forall f a l, rsum f (a :: l) = (f a + rsum f l)%R.
Proof. reflexivity. Qed.
Lemma rsum_ext : forall f g l, (forall j, In j l -> f j = g j) -> rsum f l = rsum g l.
Proof. induction l as [|a l IH]; intro H; [reflexivity|]. rewrite !rsum_cons. rewrite H by (left; reflexivity). rewrite IH; [reflexivity|]. intros; apply H; right; assumption. Qed.
Lemma rsum_app : forall f a b, rsum f (a ++ b) = (rsum f a + rsum f b)%R.
Proof. intros f a b. induction a as [|x a IH]; [change (rsum f ([] ++ b)) with (rsum f b); change (rsum f []) with 0%R; ring|]. rewrite <- app_comm_cons, !rsum_cons, IH. ring. Qed.
Lemma rsum_zero : forall f l, (forall j, In j l -> f j = 0%R) -> rsum f l = 0%R.
Proof. induction l as [|a l IH]; intro H; [reflexivity|]. rewrite rsum_cons. rewrite H by (left; reflexivity). rewrite IH; [ring|]. intros; apply H; right; assumption. Qed.
Lemma rsum_opp : forall f l, rsum (fun j => - f j)%R l = (- rsum f l)%R.
Proof. intros f l. induction l as [|a l IH]; [change (0 = - 0)%R; ring|]. rewrite !rsum_cons, IH. ring. Qed.
Lemma rsum_long : forall f n m, (m <= n)%nat -> (forall j, (m <= j)%nat -> f j = 0%R) -> rsum f (seq 0 n) = rsum f (seq 0 m).
Proof.
  intros f n m L Z. replace n with (m + (n - m))%nat by lia. rewrite seq_app, rsum_app.
  rewrite (rsum_zero f (seq (0 + m) (n - m))); [ring|]. intros j I. apply in_seq in I. apply Z. lia.
Qed.

Lemma power_tone : forall h n k, (0 < n)%nat -> (length h <= n)%nat -> fft_power h n k = tone h (INR k / INR n).
Proof.
  intros h n k P L. assert (N : INR n <> 0%R) by (apply not_0_INR; lia). unfold fft_power, tone.
  assert (A : forall j, angle n j k = (2 * PI * INR j * (INR k / INR n))%R) by (intro j; unfold angle; field; assumption).
  rewrite (rsum_long (fun j => nth j h 0 * cos (angle n j k))%R n (length h) L) by (intros j J; rewrite nth_overflow by assumption; ring).
  rewrite (rsum_long (fun j => nth j h 0 * - sin (angle n j k))%R n (length h) L) by (intros j J; rewrite nth_overflow by assumption; ring).
  rewrite (rsum_ext (fun j => nth j h 0 * - sin (angle n j k))%R (fun j => - (nth j h 0 * sin (2 * PI * INR j * (INR k / INR n))))%R)
    by (intros j _; rewrite A; ring).
  rewrite rsum_opp.
  rewrite (rsum_ext (fun j => nth j h 0 * cos (angle n j k))%R (fun j => nth j h 0 * cos (2 * PI * INR j * (INR k / INR n)))%R)
    by (intros j _; rewrite A; ring).
  ring.
Qed.
Lemma tone_period : forall h x, tone h (x + 1) = tone h x.
Proof.
  intros h x. unfold tone. f_equal; f_equal; apply rsum_ext; intros j _;
    replace (2 * PI * INR j * (x + 1))%R with (2 * PI * INR j * x + 2 * INR j * PI)%R by ring; [rewrite cos_period|rewrite sin_period]; reflexivity.
Qed.
Lemma tone_even : forall h x, tone h (- x) = tone h x.
Proof.
  intros h x. unfold tone. f_equal.
  - f_equal. apply rsum_ext. intros j _. replace (2 * PI * INR j * - x)%R with (- (2 * PI * INR j * x))%R by ring. rewrite cos_neg. reflexivity.
  - rewrite (rsum_ext (fun j => nth j h 0 * sin (2 * PI * INR j * - x))%R (fun j => - (nth j h 0 * sin (2 * PI * INR j * x)))%R).
    + rewrite rsum_opp. ring.
    + intros j _. replace (2 * PI * INR j * - x)%R with (- (2 * PI * INR j * x))%R by ring. rewrite sin_neg. ring.
Qed.
Lemma tone_nonneg : forall h x, (0 <= tone h x)%R.
Proof. intros. unfold tone. apply Rplus_le_le_0_compat; apply pow2_ge_0. Qed.
Lemma seen_nonneg : forall h w x, (0 <= seen h w x)%R.
Proof. intros. unfold seen. pose proof (tone_nonneg h x). pose proof (tone_nonneg h (x - w)). pose proof (tone_nonneg h (x + w)). lra. Qed.
Lemma seen_even : forall h w x, seen h w (- x) = seen h w x.
Proof. intros. unfold seen. rewrite <- (tone_even h (- x - w)), <- (tone_even h (- x + w)), tone_even. replace (- (- x - w))%R with (x + w)%R by ring. replace (- (- x + w))%R with (x - w)%R by ring. ring. Qed.

Lemma gain_right : forall s, (0 <= s)%R -> correction s (gain s).
Proof.
  intros s P. unfold gain. destruct (Req_EM_T s 0) as [E|E]; cbn [correction]; [assumption|].
  assert (Q : (0 < s)%R) by lra. assert (R0 : sqrt s <> 0%R) by (intro H; apply sqrt_eq_0 in H; lra).
  pose proof (sqrt_lt_R0 s Q) as SP.
  split.
  - rewrite <- (sqrt_sqrt s) at 2 by assumption. field. assumption.
  - apply pow_lt. apply Rdiv_lt_0_compat; [apply pow_lt; lra|assumption].
Qed.

(** Slices *)
Lemma slice_len : forall {A} (l : list A) a b, (0 <= a <= b)%Z -> (b <= Z.of_nat (length l))%Z -> length (slice l a b) = Z.to_nat (b - a).
Proof.
  intros A l a b H L. unfold slice, bound. destruct (Z.ltb_spec a 0); [lia|]. destruct (Z.ltb_spec b 0); [lia|].
  rewrite !Z.min_l by lia. rewrite firstn_length, skipn_length. lia.
Qed.
Lemma slice_nth : forall {A} (l : list A) a b d c, (0 <= a <= b)%Z -> (b <= Z.of_nat (length l))%Z -> (c < Z.to_nat (b - a))%nat ->
  nth c (slice l a b) d = nth (Z.to_nat a + c) l d.
Proof.
  intros A l a b d c H L C. unfold slice, bound. destruct (Z.ltb_spec a 0); [lia|]. destruct (Z.ltb_spec b 0); [lia|].
  rewrite !Z.min_l by lia. rewrite <- (firstn_skipn (Z.to_nat a) l) at 2. rewrite app_nth2; rewrite firstn_length; [|lia].
  rewrite Nat.min_l by lia. replace (Z.to_nat a + c - Z.to_nat a)%nat with c by lia.
  rewrite <- (firstn_skipn (Z.to_nat (b - a)) (skipn (Z.to_nat a) l)) at 2. rewrite app_nth1; [reflexivity|]. rewrite firstn_length, skipn_length. lia.
Qed.
Lemma slice_neg : forall {A} (l : list A) a b, (a < 0)%Z -> (0 <= a + Z.of_nat (length l))%Z -> (0 <= b)%Z -> slice l a b = slice l (a + Z.of_nat (length l)) b.
Proof.
  intros A l a b H L B. assert (E : bound (Z.of_nat (length l)) a = bound (Z.of_nat (length l)) (a + Z.of_nat (length l))).
  { unfold bound. destruct (Z.ltb_spec a 0); [|lia]. destruct (Z.ltb_spec (a + Z.of_nat (length l)) 0); lia. }
  unfold slice. rewrite E. reflexivity.
Qed.
Lemma slice_negb : forall {A} (l : list A) a b, (b < 0)%Z -> (0 <= b + Z.of_nat (length l))%Z -> slice l a b = slice l a (b + Z.of_nat (length l)).
Proof.
  intros A l a b H L. assert (E : bound (Z.of_nat (length l)) b = bound (Z.of_nat (length l)) (b + Z.of_nat (length l))).
  { unfold bound. destruct (Z.ltb_spec b 0); [|lia]. destruct (Z.ltb_spec (b + Z.of_nat (length l)) 0); lia. }
  unfold slice. rewrite E. reflexivity.
Qed.
Lemma add_all_ok : forall a b c n, length a = n -> length b = n -> length c = n ->
  exists s, add_all a b c = Ok s /\ length s = n /\ forall i, (i < n)%nat -> nth i s 0%R = (nth i a 0 + nth i b 0 + nth i c 0)%R.
Proof.
  induction a as [|x a IH]; intros b c n A B C; subst n.
  - destruct b; [|discriminate]. destruct c; [|discriminate]. exists []. split; [reflexivity|]. split; [reflexivity|]. intros i I. cbn in I. lia.
  - destruct b as [|y b]; [discriminate|]. destruct c as [|z c]; [discriminate|]. cbn in B, C. injection B as B. injection C as C.
    destruct (IH b c (length a) eq_refl B C) as (s & E & L & N). exists ((x + y + z)%R :: s). cbn [add_all]. rewrite E. split; [reflexivity|].
    split; [cbn; lia|]. intros [|i] I; [reflexivity|]. cbn. apply N. cbn in I. lia.
Qed.
Lemma nth_powers : forall h m k, (k < m)%nat -> nth k (map (fft_power h m) (seq 0 m)) 0%R = fft_power h m k.
Proof. intros. rewrite nth_indep with (d' := fft_power h m 0%nat) by (rewrite map_length, seq_length; assumption). rewrite map_nth, seq_nth by assumption. reflexivity. Qed.

(** The width of the sub-bands simulated with [n] channels. *)
Definition width (h : list R) (n : Z) : R := (IZR n / (IZR (n / 16) * INR (length h)))%R.

Lemma bandpass_all : forall h m, (48 <= length h)%nat -> (8 <= m)%Z ->
  exists bp, get_bandpass h (2 * m) = Ok bp /\ length bp = Z.to_nat (2 * m) /\
    forall c, (c < Z.to_nat (2 * m))%nat -> nth c bp None = gain (seen h (width h (2 * m)) ((INR c / IZR (2 * m) - 1 / 2) * width h (2 * m))).
Proof.
  intros h m K M. unfold get_bandpass. destruct (Z.ltb_spec (2 * m) 16); [lia|].
  replace ((2 * m) mod 2)%Z with 0%Z by (rewrite Z.mul_comm, Z_mod_mult; reflexivity). cbn [negb orb Z.eqb].
  pose proof (Z.div_mod (2 * m) 16 ltac:(lia)) as DM. pose proof (Z.mod_pos_bound (2 * m) 16 ltac:(lia)) as MB.
  set (q := (2 * m / 16)%Z) in *. assert (Q1 : (1 <= q)%Z) by lia.
  set (nf := Z.to_nat (q * Z.of_nat (length h))).
  assert (NF : (Z.of_nat nf = q * Z.of_nat (length h))%Z) by (unfold nf; rewrite Z2Nat.id; [reflexivity|]; nia).
  assert (BIG : (3 * m <= Z.of_nat nf)%Z) by nia.
  assert (LK : (length h <= nf)%nat) by nia.
  destruct (Nat.eqb_spec nf 0); [lia|].
  replace (2 * m / 2)%Z with m by (rewrite Z.mul_comm, Z.div_mul; lia).
  set (g := map (fft_power h nf) (seq 0 nf)). assert (LG : length g = nf) by (unfold g; rewrite map_length, seq_length; reflexivity).
  assert (W : width h (2 * m) = (IZR (2 * m) / INR nf)%R).
  { unfold width. fold q. rewrite !INR_IZR_INZ, NF, (mult_IZR q). reflexivity. }
  assert (NZ : INR nf <> 0%R) by (apply not_0_INR; lia).
  assert (MZ : IZR (2 * m) <> 0%R) by (apply not_0_IZR; lia).
  rewrite (slice_neg g (- m)) by lia.
  rewrite (slice_negb g (- m - 2 * m) (- m)) by lia. rewrite (slice_neg g (- m - 2 * m)) by lia. rewrite LG.
  set (N := Z.of_nat nf) in *.
  assert (L1 : length (slice g (- m + N) N) = Z.to_nat m) by (rewrite slice_len by lia; f_equal; lia).
  assert (L2 : length (slice g 0 m) = Z.to_nat m) by (rewrite slice_len by lia; f_equal; lia).
  assert (L3 : length (slice g (- m - 2 * m + N) (- m + N)) = Z.to_nat (2 * m)) by (rewrite slice_len by lia; f_equal; lia).
  assert (L4 : length (slice g m (m + 2 * m)) = Z.to_nat (2 * m)) by (rewrite slice_len by lia; f_equal; lia).
  destruct (add_all_ok (slice g (- m + N) N ++ slice g 0 m) (slice g (- m - 2 * m + N) (- m + N)) (slice g m (m + 2 * m)) (Z.to_nat (2 * m))) as (s & E & LS & NS).
  { rewrite app_length, L1, L2. lia. } { assumption. } { assumption. }
  exists (map gain s). split; [rewrite E; reflexivity|]. split; [rewrite map_length; assumption|].
  intros c C. rewrite nth_indep with (d' := gain 0) by (rewrite map_length; lia). rewrite map_nth. f_equal. rewrite NS by assumption.
  assert (T : forall k, (k < nf)%nat -> nth k g 0%R = tone h (INR k / INR nf)) by (intros k Hk; unfold g; rewrite nth_powers by assumption; apply power_tone; lia).
  assert (X : ((INR c / IZR (2 * m) - 1 / 2) * width h (2 * m) = (INR c - IZR m) / INR nf)%R).
  { rewrite W. rewrite mult_IZR in *. field. split; [assumption|]. intro H0. apply MZ. rewrite H0. ring. }
  assert (IR : forall z, (0 <= z)%Z -> INR (Z.to_nat z) = IZR z) by (intros z Hz; rewrite INR_IZR_INZ, Z2Nat.id by assumption; reflexivity).
  assert (NR : IZR N = INR nf) by (unfold N; rewrite <- INR_IZR_INZ; reflexivity).
  unfold seen. rewrite X. f_equal; [f_equal|].
  - destruct (Nat.lt_ge_cases c (Z.to_nat m)) as [B|B].
    + rewrite app_nth1 by lia. rewrite slice_nth by lia. rewrite T by lia. rewrite plus_INR, IR by lia. rewrite plus_IZR, opp_IZR, NR.
      rewrite <- (tone_period h ((INR c - IZR m) / INR nf)). f_equal. field. assumption.
    + rewrite app_nth2 by lia. rewrite L1, slice_nth by lia. rewrite T by lia. rewrite plus_INR, minus_INR, !IR by lia. f_equal. field. assumption.
  - rewrite slice_nth by lia. rewrite T by lia. rewrite plus_INR, IR by lia. rewrite plus_IZR, minus_IZR, opp_IZR, NR, W.
    rewrite <- (tone_period h ((INR c - IZR m) / INR nf - IZR (2 * m) / INR nf)). f_equal. field. assumption.
  - rewrite slice_nth by lia. rewrite T by lia. rewrite plus_INR, IR by lia. f_equal. rewrite W, mult_IZR. field. assumption.
Qed.

(** ** Theorems *)
Lemma bandpass_refused : forall h n, (48 <= length h)%nat -> ((exists bp, get_bandpass h n = Ok bp) <-> (16 <= n /\ Z.Even n)%Z) /\ (forall e, get_bandpass h n = Err e -> e = EValueError).
Proof.
  intros h n K. assert (D : (16 <= n /\ Z.Even n)%Z \/ get_bandpass h n = Err EValueError).
  { unfold get_bandpass. destruct (Z.ltb_spec n 16); [right; reflexivity|]. destruct (Z.eqb_spec (n mod 2) 0) as [M|M]; [|right; reflexivity].
    left. split; [assumption|]. exists (n / 2)%Z. pose proof (Z.div_mod n 2 ltac:(lia)). lia. }
  assert (O : (16 <= n /\ Z.Even n)%Z -> exists bp, get_bandpass h n = Ok bp).
  { intros (L & m & E). subst n. destruct (bandpass_all h m K ltac:(lia)) as (bp & H & _). exists bp. exact H. }
  split.
  - split; [|exact O]. intros (bp & H). destruct D as [D|D]; [exact D|congruence].
  - intros e H. destruct D as [D|D]; [destruct (O D) as (bp & Q); congruence|congruence].
Qed.
Lemma bandpass_right : forall h n bp, (48 <= length h)%nat -> get_bandpass h n = Ok bp ->
  length bp = Z.to_nat n /\ forall c, (c < Z.to_nat n)%nat -> correction (seen h (width h n) ((INR c / IZR n - 1 / 2) * width h n)) (nth c bp None).
Proof.
  intros h n bp K H. destruct (bandpass_refused h n K) as [(A & _) _]. destruct (A (ex_intro _ bp H)) as (L & m & E). subst n.
  destruct (bandpass_all h m K ltac:(lia)) as (bp' & H' & LB & V). rewrite H in H'. injection H' as <-. split; [assumption|].
  intros c C. rewrite V by assumption. apply gain_right, seen_nonneg.
Qed.
Lemma width_right : forall h n, (0 < length h)%nat -> (16 <= n)%Z ->
  (16 / INR (length h) <= width h n)%R /\ (width h n = (16 / INR (length h))%R <-> (16 | n)%Z).
Proof.
  intros h n K L. assert (KP : (0 < INR (length h))%R) by (apply lt_0_INR; lia).
  pose proof (Z.div_mod n 16 ltac:(lia)) as DM. pose proof (Z.mod_pos_bound n 16 ltac:(lia)) as MB. unfold width.
  set (q := (n / 16)%Z) in *. assert (QP : (0 < IZR q)%R) by (apply IZR_lt; lia).
  assert (E : (IZR n / (IZR q * INR (length h)) = 16 / INR (length h) * (1 + IZR (n mod 16) / (16 * IZR q)))%R).
  { rewrite DM at 1. rewrite plus_IZR, mult_IZR. field. split; lra. }
  rewrite E. assert (F : (0 < 16 / INR (length h))%R) by (apply Rdiv_lt_0_compat; lra).
  assert (G : (0 <= IZR (n mod 16) / (16 * IZR q))%R) by (apply Rle_mult_inv_pos; [apply IZR_le; lia|lra]).
  split; [nra|]. split.
  - intro H. assert (Z0 : (IZR (n mod 16) / (16 * IZR q) = 0)%R) by nra.
    apply Z.mod_divide; [lia|]. apply eq_IZR. apply Rmult_eq_reg_r with (/ (16 * IZR q))%R; [|apply Rinv_neq_0_compat; lra].
    unfold Rdiv in Z0. rewrite Z0. ring.
  - intro H. apply Z.mod_divide in H; [|lia]. rewrite H. field. split; lra.
Qed.
Lemma bandpass_symmetric : forall h n bp c, (48 <= length h)%nat -> get_bandpass h n = Ok bp -> (0 < c < Z.to_nat n)%nat ->
  nth c bp None = nth (Z.to_nat n - c) bp None.
Proof.
  intros h n bp c K H C. destruct (bandpass_refused h n K) as [(A & _) _]. destruct (A (ex_intro _ bp H)) as (L & m & E). subst n.
  destruct (bandpass_all h m K ltac:(lia)) as (bp' & H' & LB & V). rewrite H in H'. injection H' as <-.
  rewrite !V by lia. f_equal. rewrite <- seen_even. f_equal. rewrite minus_INR by lia.
  assert (MZ : IZR (2 * m) <> 0%R) by (apply not_0_IZR; lia).
  replace (INR (Z.to_nat (2 * m))) with (IZR (2 * m)) by (rewrite INR_IZR_INZ, Z2Nat.id by lia; reflexivity). field. assumption.
Qed.
Lemma bandpass_finer : forall h n k bp bp' c, (48 <= length h)%nat -> (16 | n)%Z -> (1 <= k)%nat -> get_bandpass h n = Ok bp ->
  get_bandpass h (Z.of_nat k * n) = Ok bp' -> (c < Z.to_nat n)%nat -> nth (k * c) bp' None = nth c bp None.
Proof.
  intros h n k bp bp' c K D KP H H' C.
  destruct (bandpass_refused h n K) as [(A & _) _]. destruct (A (ex_intro _ bp H)) as (L & m & E).
  destruct (width_right h n ltac:(lia) L) as (_ & _ & W). specialize (W D).
  destruct (width_right h (Z.of_nat k * n) ltac:(lia) ltac:(nia)) as (_ & _ & W'). specialize (W' ltac:(apply Z.divide_mul_r; assumption)).
  subst n. destruct (bandpass_all h m K ltac:(lia)) as (b & Hb & _ & V). rewrite H in Hb. injection Hb as <-.
  replace (Z.of_nat k * (2 * m))%Z with (2 * (Z.of_nat k * m))%Z in * by ring.
  destruct (bandpass_all h (Z.of_nat k * m) K ltac:(nia)) as (b & Hb & _ & V'). rewrite H' in Hb. injection Hb as <-.
  rewrite V' by nia. rewrite V by assumption. rewrite W, W'. f_equal. f_equal. f_equal. f_equal. rewrite mult_INR.
  replace (2 * (Z.of_nat k * m))%Z with (Z.of_nat k * (2 * m))%Z by ring. rewrite (mult_IZR (Z.of_nat k)), <- INR_IZR_INZ. field. split; [apply not_0_IZR; lia|apply not_0_INR; lia].
Qed.
