(** Repeated rebinning tasks. *)
From Coq Require Import String List Arith ZArith QArith Bool Lia Lqa.
From Verif Require Import Base M_Slots M_Nd P_Nd M_Rebin P_Rebin P_Rebin2 M_Pipeline P_Pipeline P_Pipeline2 M_PipeTasks.
Import ListNotations.
Open Scope nat_scope.

(** Rebinning twice to the width of [a] samples, both times for the sampling
    step [dx], is rebinning once to [a * a] samples. *)
Lemma rebin_repeated : forall data ax k dx nd n a ax1 d1,
  nth_error (sh data) k = Some n -> length ax = n -> 0 < a -> a * a <= n -> (0 < dx)%Q ->
  (nd == inject_Z (Z.of_nat a) * dx)%Q ->
  (forall ip iq, inside (firstn k (sh data)) ip -> inside (skipn (S k) (sh data)) iq ->
     complete (line data ip iq) n) -> complete (fun j => nth j ax None) n ->
  rebin_along data ax k dx nd = Ok (ax1, d1) ->
  exists ax2 d2 ax3 d3, rebin_along d1 ax1 k dx nd = Ok (ax2, d2) /\
    rebin_along data ax k dx (inject_Z (Z.of_nat a) * nd) = Ok (ax3, d3) /\
    length ax3 = n / (a * a) /\
    length ax2 = length ax3 /\ (forall i, i < length ax3 -> same (nth i ax2 None) (nth i ax3 None)) /\
    sh d2 = sh d3 /\ (forall idx, inside (sh d3) idx -> same (get d2 idx) (get d3 idx)).
Proof.
  intros data ax k dx nd n a ax1 d1 NE LA A AB P E1 CD CA H1.
  destruct (rebin_exact data ax k dx nd n a NE LA A ltac:(nia) P E1) as (x1 & y1 & Q1 & L1 & X1 & S1 & G1).
  rewrite H1 in Q1. injection Q1 as <- <-.
  assert (LK : length (firstn k (sh data)) = k).
  { apply firstn_length_le. apply Nat.lt_le_incl. apply nth_error_Some. congruence. }
  assert (F1 : firstn k (sh d1) = firstn k (sh data)).
  { rewrite S1, firstn_app, LK, Nat.sub_diag, firstn_O, app_nil_r. rewrite firstn_firstn, Nat.min_id. reflexivity. }
  assert (K1 : skipn (S k) (sh d1) = skipn (S k) (sh data)).
  { rewrite S1, skipn_app, LK, skipn_all2 by lia. replace (S k - k) with 1 by lia. reflexivity. }
  assert (N1 : nth_error (sh d1) k = Some (n / a)).
  { rewrite S1, nth_error_app2 by lia. rewrite LK, Nat.sub_diag. reflexivity. }
  assert (BA : a <= n / a) by (apply Nat.div_le_lower_bound; lia).
  destruct (rebin_exact d1 ax1 k dx nd (n / a) a N1 L1 A BA P E1) as (ax2 & d2 & Q2 & L2 & X2 & S2 & G2).
  assert (E3 : (inject_Z (Z.of_nat a) * nd == inject_Z (Z.of_nat (a * a)) * dx)%Q).
  { rewrite Nat2Z.inj_mul, inject_Z_mult, E1. ring. }
  destruct (rebin_exact data ax k dx (inject_Z (Z.of_nat a) * nd)%Q n (a * a) NE LA ltac:(nia) AB P E3) as (ax3 & d3 & Q3 & L3 & X3 & S3 & G3).
  assert (DD : n / a / a = n / (a * a)) by (apply Nat.div_div; lia).
  assert (FIT : forall i, i < n / (a * a) -> i * (a * a) + a * a <= n).
  { intros i I. pose proof (Nat.mul_div_le n (a * a) ltac:(nia)). nia. }
  exists ax2, d2, ax3, d3. split; [exact Q2|]. split; [exact Q3|]. split; [exact L3|]. rewrite L2, L3, DD. split; [reflexivity|]. split; [|split].
  - intros i I. rewrite X2, X3 by lia.
    apply (bin_bin (fun j => nth j ax None) (fun j => nth j ax1 None) a a i n A A CA (FIT i I) X1).
  - rewrite S2, S3, F1, K1, DD. reflexivity.
  - intros idx I. rewrite S3 in I. destruct (inside_split _ _ _ _ I) as (ip & i & iq & -> & Ip & Ii & Iq).
    rewrite G2, G3 by (rewrite ?F1, ?K1, ?DD; auto).
    apply (bin_bin (line data ip iq) (line d1 ip iq) a a i n A A (CD ip iq Ip Iq) (FIT i Ii)).
    intros j J. unfold line. now apply G1.
Qed.

Lemma reads_two : forall {T F D} ps (t : task T F D) a b va vb, targs t = [a; b] ->
  get_item ps a = Ok va -> get_item ps b = Ok vb -> reads ps t [(a, Some va); (b, Some vb)].
Proof.
  intros T F D ps t a b va vb E A B. unfold reads. rewrite E. constructor; [split; [reflexivity|exists va; auto]|].
  constructor; [split; [reflexivity|exists vb; auto]|constructor].
Qed.

(** ** One rebinning task *)
Theorem time_rebin_none : forall ps x, get_item ps "rebin_dt" = Ok VNone -> (exists v, get_item ps "dt" = Ok v) ->
  snd (run ps [time_rebin] x) = Ok x.
Proof.
  intros ps x N (v & V). apply run_applies. eapply applies_cons; [apply reads_two with (a := "dt"%string) (b := "rebin_dt"%string); [reflexivity|exact V|exact N]| |apply applies_nil].
  cbn. auto.
Qed.
Theorem time_rebin_once : forall ps dt w times freqs data ax d, get_item ps "dt" = Ok (num dt) -> get_item ps "rebin_dt" = Ok (num w) ->
  (snd (run ps [time_rebin] (times, freqs, data)) = Ok (ax, freqs, d) <-> rebin_along data times 0 dt w = Ok (ax, d)).
Proof.
  intros ps dt w times freqs data ax d A B. rewrite run_applies. split.
  - intro H. inversion H as [|t r kw x y z R E Ap]; subst. inversion Ap; subst.
    rewrite (reads_det _ _ _ _ R (reads_two ps time_rebin _ _ _ _ eq_refl A B)) in E. cbn in E. exact (proj2 E).
  - intro H. eapply applies_cons; [apply (reads_two ps time_rebin _ _ _ _ eq_refl A B)| |apply applies_nil]. cbn. auto.
Qed.
Theorem frequency_rebin_once : forall ps df w times freqs data ax d, get_item ps "df" = Ok (num df) -> get_item ps "rebin_df" = Ok (num w) ->
  (snd (run ps [frequency_rebin] (times, freqs, data)) = Ok (times, ax, d) <-> rebin_along data freqs 1 df w = Ok (ax, d)).
Proof.
  intros ps df w times freqs data ax d A B. rewrite run_applies. split.
  - intro H. inversion H as [|t r kw x y z R E Ap]; subst. inversion Ap; subst.
    rewrite (reads_det _ _ _ _ R (reads_two ps frequency_rebin _ _ _ _ eq_refl A B)) in E. cbn in E. exact (proj2 E).
  - intro H. eapply applies_cons; [apply (reads_two ps frequency_rebin _ _ _ _ eq_refl A B)| |apply applies_nil]. cbn. auto.
Qed.

(** ** The task twice in a pipeline *)
Theorem time_rebin_twice : forall ps dt w times freqs data n rest a,
  get_item ps "dt" = Ok (num dt) -> get_item ps "rebin_dt" = Ok (num w) ->
  sh data = n :: rest -> length times = n -> 0 < a -> a * a <= n -> (0 < dt)%Q -> (w == inject_Z (Z.of_nat a) * dt)%Q ->
  (forall j, j < n -> nth j times None <> None) -> (forall idx, inside (sh data) idx -> get data idx <> None) ->
  exists ax2 d2 ax3 d3,
    snd (run ps [time_rebin; time_rebin] (times, freqs, data)) = Ok (ax2, freqs, d2) /\
    rebin_along data times 0 dt (inject_Z (Z.of_nat a) * w) = Ok (ax3, d3) /\
    length ax3 = n / (a * a) /\
    length ax2 = length ax3 /\ (forall i, i < length ax3 -> same (nth i ax2 None) (nth i ax3 None)) /\
    sh d2 = sh d3 /\ (forall idx, inside (sh d3) idx -> same (get d2 idx) (get d3 idx)).
Proof.
  intros ps dt w times freqs data n rest a G1 G2 SH L A AA P E CT CD.
  assert (NE : nth_error (sh data) 0 = Some n) by (rewrite SH; reflexivity).
  destruct (rebin_exact data times 0 dt w n a NE L A ltac:(nia) P E) as (ax1 & d1 & Q1 & _).
  destruct (rebin_repeated data times 0 dt w n a ax1 d1 NE L A AA P E) as (ax2 & d2 & ax3 & d3 & Q2 & R).
  - intros ip iq I J j Jn. cbn in I. inversion I; subst. unfold line. cbn [app]. apply CD. rewrite SH in J |- *. cbn in J.
    constructor; assumption.
  - exact CT.
  - exact Q1.
  - exists ax2, d2, ax3, d3. split; [|exact R]. apply run_applies.
    eapply applies_cons with (y := (ax1, freqs, d1)); [apply (reads_two ps time_rebin _ _ _ _ eq_refl G1 G2)|cbn; auto|].
    eapply applies_cons with (y := (ax2, freqs, d2)); [apply (reads_two ps time_rebin _ _ _ _ eq_refl G1 G2)|cbn; auto|constructor].
Qed.
