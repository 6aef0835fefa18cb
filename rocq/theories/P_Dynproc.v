(** De-dispersion and averages of dynamic spectra. *)
From Coq Require Import ZArith QArith Qabs Qround Lqa String Bool List Arith Lia.
From Verif Require Import Base M_Nd P_Nd M_Rebin P_Rebin M_Polar P_Polar2 M_TFArray P_TFArray M_Dedisperse P_Dedisperse M_Dynspec M_Dynproc.
Import ListNotations.
Open Scope nat_scope.
Open Scope list_scope.

(** ** One channel *)

(** What is wanted: each sample [c] steps earlier, nothing where there is none. *)
Definition advanced {A} (nan : A) (n c : nat) (x : nat -> A) (t : nat) : A := if t + c <? n then x (t + c) else nan.

Theorem roll_late : forall A (nan : A) n c x t, t < n -> 0 < c ->
  roll_mask nan n (Z.of_nat c) x t = advanced nan n c x t.
Proof.
  intros A nan n c x t T C. unfold roll_mask, advanced, slice_bound.
  destruct (Z.ltb_spec (- Z.of_nat c) 0) as [_|H]; [|lia].
  destruct (Nat.leb_spec (Z.to_nat (- Z.of_nat c + Z.of_nat n)) t), (Nat.ltb_spec (t + c) n); try lia; [reflexivity|].
  f_equal. rewrite Z.mod_small by lia. lia.
Qed.
(** Without delay nothing is left. *)
Theorem roll_none : forall A (nan : A) n x t, roll_mask nan n 0 x t = nan.
Proof. intros A nan n x t. unfold roll_mask, slice_bound. cbn. destruct n; reflexivity. Qed.
(** Negative delays: the samples put at their place are masked, those which went
    round the end are left. *)
Theorem roll_early : forall A (nan : A) n k x t, t < n -> 0 < k -> k <= n ->
  roll_mask nan n (- Z.of_nat k) x t = if t <? k then x (n + t - k) else nan.
Proof.
  intros A nan n k x t T K L. unfold roll_mask, slice_bound. rewrite Z.opp_involutive.
  destruct (Z.ltb_spec (Z.of_nat k) 0); [lia|]. rewrite Nat2Z.id.
  destruct (Nat.leb_spec (Nat.min k n) t), (Nat.ltb_spec t k); try lia; [reflexivity|]. f_equal.
  replace (Z.of_nat t + - Z.of_nat k)%Z with (Z.of_nat (n + t - k) + (-1) * Z.of_nat n)%Z by lia.
  rewrite Z.mod_add by lia. rewrite Z.mod_small by lia. lia.
Qed.

(** ** de_disperse_array *)
(** The delay in steps, of frequency [f] with respect to [m]. *)
Definition steps (dm f m step : Q) (d : Z) : Prop := nearest (relative_delay dm f m / step) d.

Theorem array_spec : forall A (nan : A) data T fs pol step dm fmax,
  sh data = T :: length fs :: pol -> (0 <= dm)%Q -> (0 < step)%Q -> (forall f, In f fs -> (0 < f)%Q) ->
  highest fs fmax ->
  exists r, de_disperse_array nan data fs step dm = Ok r /\ sh r = sh data /\
    forall t c f d p, t < T -> nth_error fs c = Some f -> steps dm f fmax step (Z.of_nat d) ->
      get r (t :: c :: p) = if d =? 0 then nan else advanced nan T d (fun t => get data (t :: c :: p)) t.
Proof.
  intros A nan data T fs pol step dm fmax Sh D St Fp [H1 H2]. unfold de_disperse_array. rewrite Sh, Nat.eqb_refl. cbn [negb].
  destruct (qmax_highest fs) as (m & Em & [M1 M2]); [intro; subst; contradiction|].
  assert (Mx : (m == fmax)%Q) by (apply Qle_antisym; auto).
  rewrite Em. cbn [bind]. eexists. split; [reflexivity|]. split; [exact Sh|].
  intros t c f d p Ht Ec Nd. cbn [shift_channels get]. rewrite Sh. cbn [hd].
  assert (Ed : nth c (cells_from m fs dm step) 0%Z = Z.of_nat d).
  { unfold cells_from. rewrite (nth_error_nth (map _ fs) c 0%Z (x := Z.of_nat d)); [reflexivity|].
    rewrite nth_error_map, Ec. cbn [option_map]. f_equal. apply round_even_eq.
    change (dispersion_delay f dm - dispersion_delay m dm)%Q with (relative_delay dm f m).
    assert (E : (relative_delay dm f m == relative_delay dm f fmax)%Q) by (unfold relative_delay; now rewrite Mx).
    destruct Nd as [N|N]; [left|right]; now rewrite E. }
  rewrite Ed. destruct (Nat.eqb_spec d 0) as [->|N]; [apply roll_none|]. apply roll_late; lia.
Qed.
(** The highest frequency is always lost, and everything without dispersion. *)
Theorem array_top : forall A (nan : A) data T fs pol step dm fmax r c,
  sh data = T :: length fs :: pol -> (0 <= dm)%Q -> (0 < step)%Q -> (forall f, In f fs -> (0 < f)%Q) ->
  highest fs fmax -> de_disperse_array nan data fs step dm = Ok r -> nth_error fs c = Some fmax ->
  forall t p, t < T -> get r (t :: c :: p) = nan.
Proof.
  intros A nan data T fs pol step dm fmax r c Sh D St Fp H E Ec t p Ht.
  destruct (array_spec A nan data T fs pol step dm fmax Sh D St Fp H) as (r0 & E0 & _ & G).
  rewrite E0 in E. injection E as <-. rewrite (G t c fmax 0 p Ht Ec); [reflexivity|].
  left. assert (K : (relative_delay dm fmax fmax / step == 0)%Q) by (unfold relative_delay, Qdiv; ring).
  rewrite K. reflexivity.
Qed.
Theorem array_no_delay : forall A (nan : A) data T fs pol step r,
  sh data = T :: length fs :: pol -> (0 < step)%Q -> (forall f, In f fs -> (0 < f)%Q) -> fs <> [] ->
  de_disperse_array nan data fs step 0 = Ok r ->
  forall t c p, t < T -> c < length fs -> get r (t :: c :: p) = nan.
Proof.
  intros A nan data T fs pol step r Sh St Fp Ne E t c p Ht Hc.
  destruct (qmax_highest fs Ne) as (m & _ & M).
  destruct (array_spec A nan data T fs pol step 0 m Sh (Qle_refl 0) St Fp M) as (r0 & E0 & _ & G).
  rewrite E0 in E. injection E as <-. destruct (nth_error fs c) as [f|] eqn:Ec; [|apply nth_error_None in Ec; lia].
  rewrite (G t c f 0 p Ht Ec); [reflexivity|]. left.
  assert (K : (relative_delay 0 f m / step == 0)%Q) by (unfold relative_delay, Qdiv; ring). rewrite K. reflexivity.
Qed.
(** The function of the same name of tf_utils.py gives the same where there is a delay. *)
Theorem array_agrees : forall A B (real : A -> B) (nan : B) data T fs pol step dm fmax r s,
  sh data = T :: length fs :: pol -> (0 <= dm)%Q -> (0 < step)%Q -> (forall f, In f fs -> (0 < f)%Q) ->
  highest fs fmax -> de_disperse real nan data fs step dm = Ok r ->
  de_disperse_array nan (nmap real data) fs step dm = Ok s ->
  forall t c f d p, t < T -> nth_error fs c = Some f -> inside pol p -> steps dm f fmax step (Z.of_nat d) ->
    0 < d -> get s (t :: c :: p) = get r (t :: c :: p).
Proof.
  intros A B real nan data T fs pol step dm fmax r s Sh D St Fp H E1 E2 t c f d p Ht Ec Hp Nd D0.
  destruct (de_disperse_spec A B real nan data T fs pol step dm fmax Sh D St Fp H) as (r0 & E & _ & G). rewrite E in E1. injection E1 as <-.
  destruct (array_spec B nan (nmap real data) T fs pol step dm fmax Sh D St Fp H) as (s0 & E' & _ & G'). rewrite E' in E2. injection E2 as <-.
  rewrite (G t c f d p Ht Ec Hp Nd), (G' t c f d p Ht Ec Nd). destruct (Nat.eqb_spec d 0); [lia|]. unfold advanced. reflexivity.
Qed.
Theorem array_refused : forall A (nan : A) data fs step dm,
  (length (sh data) < 2 -> de_disperse_array nan data fs step dm = Err EException) /\
  (2 <= length (sh data) -> nth 1 (sh data) 0 <> length fs \/ fs = [] ->
     de_disperse_array nan data fs step dm = Err EValueError).
Proof.
  intros A nan data fs step dm. unfold de_disperse_array.
  destruct (sh data) as [|a [|b pol]]; cbn [length nth]; split; intros; try lia; try reflexivity.
  destruct (Nat.eqb_spec b (length fs)); [|reflexivity]. destruct H0 as [H0|H0]; [contradiction|]. subst fs. reflexivity.
Qed.

(** ** Dynspec._dedisperse *)
Definition mhz (f : Q) : Q := (f / 1000000)%Q.
Theorem dedisperse_spec : forall A (d : dynspec A) data T freqs pol dm step f0 f1,
  sh data = T :: length freqs :: pol -> d_dm d = Some dm -> freq_range d = Ok (f0, f1) ->
  exists r, dedisperse d data freqs step = Ok r /\ sh r = sh data /\
    forall t c f p, t < T -> nth_error freqs c = Some f ->
      (forall n, 0 < n -> steps dm (mhz f) (mhz f1) step (Z.of_nat n) ->
         get r (t :: c :: p) = advanced None T n (fun t => get data (t :: c :: p)) t) /\
      (steps dm (mhz f) (mhz f1) step 0 -> get r (t :: c :: p) = None) /\
      (forall n, 0 < n -> n <= T -> steps dm (mhz f) (mhz f1) step (- Z.of_nat n) ->
         get r (t :: c :: p) = if t <? n then get data (T + t - n :: c :: p) else None).
Proof.
  intros A d data T freqs pol dm step f0 f1 Sh DM FR. unfold dedisperse. rewrite DM, Sh. cbn [nth]. rewrite Nat.eqb_refl. cbn [negb].
  rewrite FR. cbn [bind snd]. eexists. split; [reflexivity|]. split; [exact Sh|].
  intros t c f p Ht Ec. cbn [shift_channels get]. rewrite Sh. cbn [hd].
  assert (Ed : forall z, steps dm (mhz f) (mhz f1) step z ->
    nth c (cells_from (f1 / 1000000) (map (fun f => f / 1000000)%Q freqs) dm step) 0%Z = z).
  { intros z Nd. unfold cells_from. rewrite map_map. rewrite (nth_error_nth (map _ freqs) c 0%Z (x := z)); [reflexivity|].
    rewrite nth_error_map, Ec. cbn [option_map]. f_equal. now apply round_even_eq. }
  split; [|split].
  - intros n N Nd. rewrite (Ed _ Nd). now apply roll_late.
  - intros Nd. rewrite (Ed _ Nd). apply roll_none.
  - intros n N L Nd. rewrite (Ed _ Nd). now apply roll_early.
Qed.
Theorem dedisperse_off : forall A (d : dynspec A) data freqs step, d_dm d = None -> dedisperse d data freqs step = Ok data.
Proof. intros A d data freqs step E. unfold dedisperse. now rewrite E. Qed.
Theorem dedisperse_refused : forall A (d : dynspec A) data freqs step dm, d_dm d = Some dm ->
  nth 1 (sh data) 0 <> length freqs -> dedisperse d data freqs step = Err EValueError.
Proof. intros A d data freqs step dm E N. unfold dedisperse. rewrite E. destruct (Nat.eqb_spec (nth 1 (sh data) 0) (length freqs)); [contradiction|reflexivity]. Qed.

(** ** Averages *)
(** [want] is at least [b] steps and less than [b + 1]. *)
Definition asked_steps (b : nat) (want step : Q) : Prop := (qn b * step <= want)%Q /\ (want < (qn b + 1) * step)%Q.
Lemma asked_floor : forall b want step, (0 < step)%Q -> (asked_steps b want step <-> Qfloor (want / step) = Z.of_nat b).
Proof.
  intros b want step S. pose proof (floor_bounds step want S) as (L & U). unfold asked_steps, qn. split.
  - intros (A & B). set (k := Qfloor (want / step)) in *.
    assert (X : (inject_Z k < inject_Z (Z.of_nat b) + 1)%Q) by (apply (Qmult_lt_r _ _ step S); lra).
    assert (Y : (inject_Z (Z.of_nat b) < inject_Z k + 1)%Q) by (apply (Qmult_lt_r _ _ step S); lra).
    change 1%Q with (inject_Z 1) in X, Y. rewrite <- inject_Z_plus in X, Y. rewrite <- Zlt_Qlt in X, Y. lia.
  - intros E. rewrite E in L, U. split; assumption.
Qed.

Lemma bin_sizes_ok : forall n want step b, (0 < step)%Q -> asked_steps b want step -> 0 < b <= n ->
  bin_sizes n want step = Ok (n / b, n / (n / b)).
Proof.
  intros n want step b S A (B0 & B1). apply (asked_floor b want step S) in A. unfold bin_sizes. rewrite A.
  destruct (Z.eqb_spec (Z.of_nat b) 0); [lia|]. destruct (Z.ltb_spec (Z.of_nat b) 0); [lia|]. rewrite Nat2Z.id.
  assert (M : 0 < n / b) by (apply Nat.div_str_pos; lia).
  destruct (Nat.eqb_spec (n / b) 0); [lia|]. f_equal. f_equal.
  set (m := n / b) in *. pose proof (Nat.div_mod n m ltac:(lia)). 
  replace (n - n mod m) with (n / m * m) by lia. apply Nat.div_mul. lia.
Qed.
(** The width of a bin, for [n] samples and [b] asked. *)
Theorem widths : forall n b, 0 < b <= n ->
  let m := n / b in let w := n / m in
  0 < m /\ b <= w /\ m * w <= n /\ n - m * w < m /\
  (w = b <-> n - m * b < m).
Proof.
  intros n b (B0 & B1) m w. assert (M : 0 < m) by (apply Nat.div_str_pos; lia).
  pose proof (Nat.div_mod n b ltac:(lia)) as D1. pose proof (Nat.mod_upper_bound n b ltac:(lia)) as U1. fold m in D1.
  pose proof (Nat.div_mod n m ltac:(lia)) as D2. pose proof (Nat.mod_upper_bound n m ltac:(lia)) as U2. fold w in D2.
  assert (BW : b <= w) by (apply Nat.div_le_lower_bound; lia).
  split; [exact M|]. split; [exact BW|]. split; [lia|]. split; [lia|]. split.
  - intros E. rewrite E in D2. lia.
  - intros H. assert (w < b + 1); [|lia]. unfold w. apply Nat.div_lt_upper_bound; nia.
Qed.

Definition rebinned (m w : nat) (old new : list Q) : Prop :=
  length new = m /\ forall i, i < m -> (nth i new 0 * qn w == qsum (bin (fun j => nth j old 0%Q) w i))%Q.
Lemma axis_bins_spec : forall m w x, 0 < w -> rebinned m w x (axis_bins m w x).
Proof.
  intros m w x W. unfold rebinned, axis_bins. rewrite map_length, seq_length. split; [reflexivity|].
  intros i I. rewrite (nth_map_seq _ (fun i => mean (map (fun j => nth (i * w + j) x 0%Q) (seq 0 w)))) by exact I.
  unfold mean. rewrite map_length, seq_length. unfold bin, qn. field.
  intros K. assert (Y : (0 < inject_Z (Z.of_nat w))%Q) by (now apply inj_pos). lra.
Qed.

Theorem rebin_spec : forall s n t want step b data coords, sh data = s ++ n :: t -> length coords = n ->
  (0 < step)%Q -> asked_steps b want step -> 0 < b <= n ->
  let m := n / b in let w := n / m in
  exists r x, rebin_axis (length s) (Some want) step data coords = Ok (r, x) /\
    sh r = s ++ m :: t /\ rebinned m w coords x /\
    forall ip i iq, inside s ip -> i < m -> inside t iq ->
      mean_of (bin (fun k => get data (ip ++ k :: iq)) w i) (get r (ip ++ i :: iq)).
Proof.
  intros s n t want step b data coords Sh LC S A B m w.
  destruct (widths n b B) as (M & BW & MW & _). fold m w in M, BW, MW.
  unfold rebin_axis.
  assert (N : nth (length s) (sh data) 0 = n) by (rewrite Sh, app_nth2, Nat.sub_diag by lia; reflexivity).
  rewrite N, (bin_sizes_ok n want step b S A B). fold m. fold w. cbn [bind].
  destruct (rebin_core data (map Some coords) s t n m w Sh ltac:(now rewrite map_length) MW) as (d & a & E & _ & SH & G & _).
  rewrite E. cbn [bind]. eexists. eexists. split; [reflexivity|]. split; [exact SH|]. split; [apply axis_bins_spec; lia|].
  intros ip i iq P I Q. rewrite (G ip i iq P I Q). apply nanmean_spec.
Qed.
Theorem rebin_off : forall k step data coords, rebin_axis k None step data coords = Ok (data, coords).
Proof. reflexivity. Qed.
(** Less than one step, or more than the samples. *)
Theorem rebin_refused : forall k want step b data coords, (0 < step)%Q -> asked_steps b want step ->
  (b = 0 \/ nth k (sh data) 0 < b) -> rebin_axis k (Some want) step data coords = Err EZeroDivisionError.
Proof.
  intros k want step b data coords S A H. apply (asked_floor b want step S) in A. unfold rebin_axis, bin_sizes. rewrite A.
  destruct (Z.eqb_spec (Z.of_nat b) 0) as [|N]; [reflexivity|]. destruct (Z.ltb_spec (Z.of_nat b) 0); [lia|].
  rewrite Nat2Z.id. rewrite Nat.div_small by lia. reflexivity.
Qed.
