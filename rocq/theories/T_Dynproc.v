(** C125 to C132: processing of dynamic spectra, from the de-dispersion to the file. *)
From Coq Require Import ZArith QArith Qabs Lqa String Bool List Arith Lia.
From Verif Require Import Base M_Nd P_Nd M_Rebin P_Rebin M_Polar P_Polar2 M_TFArray P_TFArray M_Select M_SData P_SData M_Dedisperse P_Dedisperse M_Lane M_Dynspec M_Dynproc P_Dynproc P_Dynproc2 P_Dynproc3 P_Dynproc4.
Import ListNotations.
Open Scope nat_scope.
Open Scope list_scope.
Notation sample := M_Rebin.sample.
Notation nearest := P_Polar2.nearest.

(** * C125: de-dispersion *)
Theorem C125_array : forall A (nan : A) data T fs pol step dm fmax,
  sh data = T :: length fs :: pol -> (0 <= dm)%Q -> (0 < step)%Q -> (forall f, In f fs -> (0 < f)%Q) ->
  highest fs fmax ->
  exists r, de_disperse_array nan data fs step dm = Ok r /\ sh r = sh data /\
    forall t c f d p, t < T -> nth_error fs c = Some f -> steps dm f fmax step (Z.of_nat d) ->
      get r (t :: c :: p) = if d =? 0 then nan else advanced nan T d (fun t => get data (t :: c :: p)) t.
Proof. exact array_spec. Qed.
Print Assumptions C125_array.
Theorem C125_highest : forall A (nan : A) data T fs pol step dm fmax r c,
  sh data = T :: length fs :: pol -> (0 <= dm)%Q -> (0 < step)%Q -> (forall f, In f fs -> (0 < f)%Q) ->
  highest fs fmax -> de_disperse_array nan data fs step dm = Ok r -> nth_error fs c = Some fmax ->
  forall t p, t < T -> get r (t :: c :: p) = nan.
Proof. exact array_top. Qed.
Print Assumptions C125_highest.
Theorem C125_no_dispersion : forall A (nan : A) data T fs pol step r,
  sh data = T :: length fs :: pol -> (0 < step)%Q -> (forall f, In f fs -> (0 < f)%Q) -> fs <> [] ->
  de_disperse_array nan data fs step 0 = Ok r ->
  forall t c p, t < T -> c < length fs -> get r (t :: c :: p) = nan.
Proof. exact array_no_delay. Qed.
Print Assumptions C125_no_dispersion.
Theorem C125_agrees : forall A B (real : A -> B) (nan : B) data T fs pol step dm fmax r s,
  sh data = T :: length fs :: pol -> (0 <= dm)%Q -> (0 < step)%Q -> (forall f, In f fs -> (0 < f)%Q) ->
  highest fs fmax -> de_disperse real nan data fs step dm = Ok r ->
  de_disperse_array nan (nmap real data) fs step dm = Ok s ->
  forall t c f d p, t < T -> nth_error fs c = Some f -> inside pol p -> steps dm f fmax step (Z.of_nat d) ->
    0 < d -> get s (t :: c :: p) = get r (t :: c :: p).
Proof. exact array_agrees. Qed.
Print Assumptions C125_agrees.
Theorem C125_array_refused : forall A (nan : A) data fs step dm,
  (length (sh data) < 2 -> de_disperse_array nan data fs step dm = Err EException) /\
  (2 <= length (sh data) -> nth 1 (sh data) 0 <> length fs \/ fs = [] ->
     de_disperse_array nan data fs step dm = Err EValueError).
Proof. exact array_refused. Qed.
Print Assumptions C125_array_refused.
Theorem C125_lane : forall A (d : dynspec A) data T freqs pol dm step f0 f1,
  sh data = T :: length freqs :: pol -> d_dm d = Some dm -> freq_range d = Ok (f0, f1) ->
  exists r, dedisperse d data freqs step = Ok r /\ sh r = sh data /\
    forall t c f p, t < T -> nth_error freqs c = Some f ->
      (forall n, 0 < n -> steps dm (mhz f) (mhz f1) step (Z.of_nat n) ->
         get r (t :: c :: p) = advanced None T n (fun t => get data (t :: c :: p)) t) /\
      (steps dm (mhz f) (mhz f1) step 0 -> get r (t :: c :: p) = None) /\
      (forall n, 0 < n -> n <= T -> steps dm (mhz f) (mhz f1) step (- Z.of_nat n) ->
         get r (t :: c :: p) = if t <? n then get data (T + t - n :: c :: p) else None).
Proof. exact dedisperse_spec. Qed.
Print Assumptions C125_lane.
Theorem C125_off : forall A (d : dynspec A) data freqs step, d_dm d = None -> dedisperse d data freqs step = Ok data.
Proof. exact dedisperse_off. Qed.
Print Assumptions C125_off.
Theorem C125_refused : forall A (d : dynspec A) data freqs step dm, d_dm d = Some dm ->
  nth 1 (sh data) 0 <> length freqs -> dedisperse d data freqs step = Err EValueError.
Proof. exact dedisperse_refused. Qed.
Print Assumptions C125_refused.

Definition demo_cube : nd sample := mkNd [6; 3; 1] (fun i => Some (qn (nth 0 i 0 * 10 + nth 1 i 0))).
(** The channel of reference should be left where it is. *)
Theorem C125_reference_refuted : ~ forall (data r : nd sample) T fs pol step dm m c, sh data = T :: length fs :: pol -> (0 < dm)%Q -> (0 < step)%Q ->
  (forall f, In f fs -> (0 < f)%Q) -> highest fs m -> nth_error fs c = Some m -> de_disperse_array None data fs step dm = Ok r ->
  forall t p, t < T -> inside pol p -> get r (t :: c :: p) = get data (t :: c :: p).
Proof.
  intros H. specialize (H demo_cube).
  assert (F : forall f, In f [20; 30; 40]%Q -> (0 < f)%Q) by (intros f [<-|[<-|[<-|[]]]]; reflexivity).
  assert (M : highest [20; 30; 40]%Q 40) by (split; [right; right; now left|intros f [<-|[<-|[<-|[]]]]; vm_compute; congruence]).
  destruct (array_spec sample None demo_cube 6 [20; 30; 40]%Q [1] 1 1 40 eq_refl ltac:(vm_compute; congruence) ltac:(reflexivity) F M) as (r & E & _ & _).
  specialize (H r 6 [20; 30; 40]%Q [1] 1%Q 1%Q 40%Q 2 eq_refl ltac:(reflexivity) ltac:(reflexivity) F M eq_refl E 0 [0] ltac:(lia) ltac:(repeat constructor)).
  rewrite (array_top sample None demo_cube 6 [20; 30; 40]%Q [1] 1 1 40 r 2 eq_refl ltac:(vm_compute; congruence) ltac:(reflexivity) F M E eq_refl 0 [0]) in H by lia.
  discriminate.
Qed.
Print Assumptions C125_reference_refuted.
(** Channels above the range asked should not hold samples of other times. *)
Definition demo_ds : dynspec nat := mkDs [] [] None (Some (20000000, 30000000)%Q) 0 (Some (3 # 10)%Q) None None false "none" 0 0.
Theorem C125_above_refuted : ~ forall (d : dynspec nat) data r freqs step dm f0 f1, d_dm d = Some dm -> freq_range d = Ok (f0, f1) ->
  sh data = [6; 3; 1] -> dedisperse d data freqs step = Ok r ->
  forall t c f v z, t < 6 -> nth_error freqs c = Some f -> steps dm (mhz f) (mhz f1) step z -> get r [t; c; 0] = Some v ->
  (0 <= Z.of_nat t + z < 6)%Z /\ get data [Z.to_nat (Z.of_nat t + z); c; 0] = Some v.
Proof.
  intros H. specialize (H demo_ds demo_cube).
  assert (E : exists r, dedisperse demo_ds demo_cube [20000000; 30000000; 40000000]%Q (1 # 2) = Ok r /\ get r [0; 2; 0] = Some (qn 52)).
  { eexists. split; vm_compute; reflexivity. }
  destruct E as (r & E & G).
  destruct (H r _ _ _ _ _ eq_refl eq_refl eq_refl E 0 2 40000000%Q (qn 52) (-1)%Z ltac:(lia) eq_refl) as (B & _); [left; vm_compute; reflexivity|exact G|]. cbn in B. lia.
Qed.
Print Assumptions C125_above_refuted.
Example C125_ex : exists r, dedisperse demo_ds demo_cube [20000000; 30000000; 40000000]%Q (1 # 2) = Ok r /\
  steps (3 # 10) (mhz 20000000) (mhz 30000000) (1 # 2) 3 /\ steps (3 # 10) (mhz 40000000) (mhz 30000000) (1 # 2) (-1) /\
  map (fun t => get r [t; 0; 0]) (seq 0 6) = [Some (qn 30); Some (qn 40); Some (qn 50); None; None; None] /\
  map (fun t => get r [t; 1; 0]) (seq 0 6) = [None; None; None; None; None; None] /\
  map (fun t => get r [t; 2; 0]) (seq 0 6) = [Some (qn 52); None; None; None; None; None].
Proof. eexists. split; [vm_compute; reflexivity|]. split; [left; vm_compute; reflexivity|]. split; [left; vm_compute; reflexivity|]. repeat split; vm_compute; reflexivity. Qed.

(** * C126: averages *)
Theorem C126_widths : forall n b, 0 < b <= n ->
  let m := n / b in let w := n / m in
  0 < m /\ b <= w /\ m * w <= n /\ n - m * w < m /\
  (w = b <-> n - m * b < m).
Proof. exact widths. Qed.
Print Assumptions C126_widths.
Theorem C126_average : forall s n t want step b data coords, sh data = s ++ n :: t -> length coords = n ->
  (0 < step)%Q -> asked_steps b want step -> 0 < b <= n ->
  let m := n / b in let w := n / m in
  exists r x, rebin_axis (length s) (Some want) step data coords = Ok (r, x) /\
    sh r = s ++ m :: t /\ rebinned m w coords x /\
    forall ip i iq, inside s ip -> i < m -> inside t iq ->
      mean_of (bin (fun k => get data (ip ++ k :: iq)) w i) (get r (ip ++ i :: iq)).
Proof. exact rebin_spec. Qed.
Print Assumptions C126_average.
Theorem C126_off : forall k step data coords, rebin_axis k None step data coords = Ok (data, coords).
Proof. exact rebin_off. Qed.
Print Assumptions C126_off.
Theorem C126_refused : forall k want step b data coords, (0 < step)%Q -> asked_steps b want step ->
  (b = 0 \/ nth k (sh data) 0 < b) -> rebin_axis k (Some want) step data coords = Err EZeroDivisionError.
Proof. exact rebin_refused. Qed.
Print Assumptions C126_refused.

(** The width of the bins is not the one asked. *)
Theorem C126_width_refuted : ~ forall n want step b data coords r x, sh data = [n; 1; 1] -> length coords = n -> (0 < step)%Q -> asked_steps b want step -> 0 < b <= n ->
  rebin_axis 0 (Some want) step data coords = Ok (r, x) -> forall i, i < hd 0 (sh r) -> (nth i x 0 * qn b == qsum (bin (fun j => nth j coords 0%Q) b i))%Q.
Proof.
  intros H.
  set (data := mkNd [11; 1; 1] (fun i => Some (qn (hd 0 i)))). set (coords := map qn (seq 0 11)).
  assert (A : asked_steps 4 4 1) by (split; vm_compute; congruence).
  assert (E : exists r x, rebin_axis 0 (Some 4%Q) 1 data coords = Ok (r, x) /\ hd 0 (sh r) = 2 /\ (nth 0 x 0 == 2)%Q).
  { eexists. eexists. split; [vm_compute; reflexivity|]. split; reflexivity. }
  destruct E as (r & x & E & S & X). specialize (H 11 4%Q 1%Q 4 data coords r x eq_refl eq_refl ltac:(reflexivity) A ltac:(lia) E 0 ltac:(rewrite S; lia)).
  rewrite X in H. vm_compute in H. discriminate.
Qed.
Print Assumptions C126_width_refuted.
(** Eleven samples by fours: two bins of five, of which the first has a NaN. *)
Example C126_ex : exists r x, asked_steps 4 (9 # 4) (1 # 2) /\
  rebin_axis 0 (Some (9 # 4)%Q) (1 # 2) (mkNd [11; 1; 1] (fun i => if hd 0 i =? 4 then None else Some (qn (hd 0 i)))) (map qn (seq 0 11)) = Ok (r, x) /\
  sh r = [2; 1; 1] /\ (exists a c, get r [0; 0; 0] = Some a /\ get r [1; 0; 0] = Some c /\ (a == 3 # 2)%Q /\ (c == 7)%Q) /\
  (nth 0 x 0 == 2)%Q /\ (nth 1 x 0 == 7)%Q.
Proof.
  eexists. eexists. split; [split; vm_compute; congruence|]. split; [vm_compute; reflexivity|]. split; [reflexivity|].
  split; [eexists; eexists; split; [vm_compute; reflexivity|]; split; [vm_compute; reflexivity|]; split; reflexivity|]. split; reflexivity.
Qed.

(** * C127: edges of the sub-bands *)
Theorem C127_edges : forall n e data T S P, 0 < n -> 0 < e -> sh data = [T; S * n; P] ->
  exists r, remove_edges n (Z.of_nat e) data = Ok r /\ sh r = sh data /\
    forall t s k p, t < T -> s < S -> k < n -> p < P ->
      (k < e \/ n <= k + e -> get r [t; s * n + k; p] = None) /\
      (e <= k -> k + e < n -> get r [t; s * n + k; p] = get data [t; s * n + k; p]).
Proof. exact edges_spec. Qed.
Print Assumptions C127_edges.
Theorem C127_off : forall n e data, (e <= 0)%Z -> remove_edges n e data = Ok data.
Proof. exact edges_off. Qed.
Print Assumptions C127_off.
Theorem C127_everything : forall n e data T S P r, 0 < n -> n <= 2 * e -> sh data = [T; S * n; P] ->
  remove_edges n (Z.of_nat e) data = Ok r ->
  forall t f p, t < T -> f < S * n -> p < P -> get r [t; f; p] = None.
Proof. exact edges_all. Qed.
Print Assumptions C127_everything.
Theorem C127_refused : forall n e data T F P, 0 < n -> (0 < e)%Z -> sh data = [T; F; P] -> 0 < T -> 0 < P -> F mod n <> 0 ->
  remove_edges n e data = Err EValueError.
Proof. exact edges_refused. Qed.
Print Assumptions C127_refused.

Definition demo_bands : nd sample := mkNd [3; 8; 1] (fun i => Some (qn (S (nth 0 i 0) * nth (nth 1 i 0) [1; 2; 4; 1; 3; 6; 12; 3] 0))).
Example C127_ex : exists r, remove_edges 4 1 demo_bands = Ok r /\ 
  map (fun f => get r [1; f; 0]) (seq 0 8) = [None; Some (qn 4); Some (qn 8); None; None; Some (qn 12); Some (qn 24); None] /\
  (exists s, remove_edges 4 2 demo_bands = Ok s /\ map (fun f => get s [1; f; 0]) (seq 0 8) = repeat None 8) /\
  remove_edges 3 1 demo_bands = Err EValueError.
Proof. eexists. split; [vm_compute; reflexivity|]. split; [vm_compute; reflexivity|]. split; [eexists; split; vm_compute; reflexivity|vm_compute; reflexivity]. Qed.

(** * C128: bandpass *)
Section Band.
Variable table : nat -> res (list Q).
Theorem C128_standard : forall n bp data T S P, table n = Ok bp -> bp <> [] -> sh data = [T; S * length bp; P] ->
  exists r, bp_correct table "standard" n data = Ok r /\ sh r = sh data /\
    forall t s k p, t < T -> s < S -> p < P -> k < length bp ->
      get r [t; s * length bp + k; p] =
      match get data [t; s * length bp + k; p] with Some x => Some (x * nth k bp 0)%Q | None => None end.
Proof. exact (standard_spec table). Qed.
Theorem C128_none : forall kind n data, kind <> "standard"%string -> kind <> "median"%string -> kind <> "adjusted"%string ->
  bp_correct table kind n data = Ok data.
Proof. exact (band_none table). Qed.
Theorem C128_median : forall n data T S, 0 < n -> sh data = [T; S * n; 1] ->
  exists r spectrum level, bp_correct table "median" n data = Ok r /\ sh r = sh data /\
    (forall f, f < S * n -> median_of (over_time data T f 0) (spectrum f)) /\
    (forall s, s < S -> median_of (bin spectrum n s) (level s)) /\
    forall t s k, t < T -> s < S -> k < n ->
      get r [t; s * n + k; 0] = sdiv (sop Qmult (get data [t; s * n + k; 0]) (level s)) (spectrum (s * n + k)).
Proof. exact (median_spec table). Qed.
Theorem C128_median_refused : forall n data T S P, 0 < n -> 0 < S -> 1 < P -> sh data = [T; S * n; P] ->
  bp_correct table "median" n data = Err EValueError.
Proof. exact (median_refused table). Qed.
Theorem C128_adjusted : forall n data T S P, 0 < n -> sh data = [T; S * n; P] ->
  exists r spectrum level response, bp_correct table "adjusted" n data = Ok r /\ sh r = sh data /\
    (forall f p, f < S * n -> p < P -> median_of (over_time data T f p) (spectrum p f)) /\
    (forall s p, s < S -> p < P -> median_of (bin (spectrum p) n s) (level s p)) /\
    (forall k p, k < n -> p < P ->
       median_of (map (fun s => sdiv (spectrum p (s * n + k)) (level s p)) (seq 0 S)) (response k p)) /\
    forall t s k p, t < T -> s < S -> k < n -> p < P ->
      get r [t; s * n + k; p] = sdiv (get data [t; s * n + k; p]) (response k p).
Proof. exact (adjusted_spec table). Qed.
Theorem C128_refused : forall kind n data T F P, (kind = "adjusted")%string -> 0 < n -> 0 < T -> 0 < P ->
  sh data = [T; F; P] -> F mod n <> 0 -> bp_correct table kind n data = Err EValueError.
Proof. exact (band_refused table). Qed.
End Band.
Print Assumptions C128_standard.
Print Assumptions C128_none.
Print Assumptions C128_median.
Print Assumptions C128_median_refused.
Print Assumptions C128_adjusted.
Print Assumptions C128_refused.
Theorem C128_flat : forall table n data T S r, 0 < n -> sh data = [T; S * n; 1] -> bp_correct table "median" n data = Ok r ->
  forall s, s < S ->
  (forall k, k < n -> exists q, median_of (over_time data T (s * n + k) 0) (Some q) /\ (0 < q)%Q) ->
  exists level, (0 < level)%Q /\ forall k, k < n -> median_of (over_time r T (s * n + k) 0) (Some level).
Proof. exact median_flat. Qed.
Print Assumptions C128_flat.

Definition demo_table (n : nat) : res (list Q) := if n =? 4 then Ok [2; 1; 1; 2]%Q else Err EValueError.
Example C128_ex : (exists r, bp_correct demo_table "median" 4 demo_bands = Ok r /\
   forall f, f < 8 -> exists v, get r [1; f; 0] = Some v /\ (v == if f <? 4 then 3 else 9)%Q) /\
  (exists r, bp_correct demo_table "standard" 4 demo_bands = Ok r /\ exists v, get r [1; 7; 0] = Some v /\ (v == 12)%Q) /\
  (exists r, bp_correct demo_table "adjusted" 4 demo_bands = Ok r /\
   forall f, f < 8 -> exists v, get r [1; f; 0] = Some v /\ (v == if f <? 4 then 3 else 9)%Q) /\
  (forall k, k < 4 -> exists q, median_of (over_time demo_bands 3 (1 * 4 + k) 0) (Some q) /\ (0 < q)%Q).
Proof.
  split; [|split; [|split]].
  - eexists. split; [vm_compute; reflexivity|]. intros f F. do 8 (destruct f as [|f]; [eexists; split; [vm_compute; reflexivity|vm_compute; reflexivity]|]). lia.
  - eexists. split; [vm_compute; reflexivity|]. eexists. split; vm_compute; reflexivity.
  - eexists. split; [vm_compute; reflexivity|]. intros f F. do 8 (destruct f as [|f]; [eexists; split; [vm_compute; reflexivity|vm_compute; reflexivity]|]). lia.
  - intros k K. do 4 (destruct k as [|k]; [match goal with |- exists q, median_of ?l (Some q) /\ _ => let v := eval vm_compute in (nanmedian l) in
      match v with Some ?q => exists q; split; [replace (Some q) with (nanmedian l) by (vm_compute; reflexivity); apply nanmedian_spec|reflexivity] end end|]). lia.
Qed.

(** * C129: interferences *)
Section Rfi.
Variable background : nd sample -> nd sample.
Variable nanstd : nd sample -> sample.
Theorem C129_mask : forall n data T F P, sh data = [T; F; P] -> (0 < n)%Q ->
  let r := clean background nanstd n data in
  sh r = sh data /\
  forall t f p bg, bg = background (mkNd [T; F] (fun i => get data (i ++ [p]))) ->
    (exceeds n (get data [t; f; p]) (get bg [t; f]) (nanstd bg) -> get r [t; f; p] = None) /\
    (~ exceeds n (get data [t; f; p]) (get bg [t; f]) (nanstd bg) -> get r [t; f; p] = get data [t; f; p]).
Proof. exact (clean_spec background nanstd). Qed.
Theorem C129_off : forall n data, (n <= 0)%Q -> clean background nanstd n data = data.
Proof. exact (clean_off background nanstd). Qed.
Theorem C129_threshold : forall n m data T F P, sh data = [T; F; P] -> (0 < n)%Q -> (n <= m)%Q ->
  (forall x s, nanstd x = Some s -> (0 <= s)%Q) ->
  forall t f p v, get (clean background nanstd n data) [t; f; p] = Some v -> get (clean background nanstd m data) [t; f; p] = Some v.
Proof. exact (clean_monotone background nanstd). Qed.
End Rfi.
Print Assumptions C129_mask.
Print Assumptions C129_off.
Print Assumptions C129_threshold.

Example C129_ex : let bg := fun x : nd sample => mkNd (sh x) (fun _ => Some (2%Q)) in
  let r := clean bg (fun _ => Some (1 # 2)%Q) 3 demo_bands in
  map (fun f => get r [0; f; 0]) (seq 0 8) = [Some (qn 1); Some (qn 2); None; Some (qn 1); Some (qn 3); None; None; Some (qn 3)].
Proof. vm_compute. reflexivity. Qed.

(** * C130: gain jumps *)
Section Jumps.
Variable jump_index : nd sample -> nat.
Variable time_profile : nd sample -> list sample.
Variable fit : list sample -> list sample.
Notation curve := (P_Dynproc2.curve fit).
Theorem C130_curve : forall profile pre lo hi post t, ordered (pre ++ lo :: hi :: post) -> lo < t < hi ->
  same (jumps_fitted fit profile (pre ++ lo :: hi :: post) t) (curve profile lo hi t).
Proof. exact (fitted_inner fit). Qed.
Theorem C130_jump : forall profile pre lo j hi post, ordered (pre ++ lo :: j :: hi :: post) -> lo < j < hi ->
  same (jumps_fitted fit profile (pre ++ lo :: j :: hi :: post) j) (sop Qmult (curve profile lo j j) (curve profile j hi j)).
Proof. exact (fitted_jump fit). Qed.
Theorem C130_bounds : forall n dt index, 0 < n -> (0 < dt)%Q ->
  ordered (jump_edges n dt index) /\ hd 1 (jump_edges n dt index) = 0 /\ last (jump_edges n dt index) 0 = n - 1.
Proof. exact edges_ordered. Qed.
Theorem C130_off : forall dt data, correct_jumps jump_index time_profile fit false dt data = data.
Proof. exact (jumps_off jump_index time_profile fit). Qed.
Theorem C130_divided : forall dt data T F P, sh data = [T; F; P] ->
  let r := correct_jumps jump_index time_profile fit true dt data in
  sh r = sh data /\
  forall t f p plane, plane = mkNd [T; F] (fun i => get data (i ++ [p])) ->
    get r [t; f; p] = sdiv (get data [t; f; p])
      (jumps_fitted fit (time_profile plane) (jump_edges T dt (jump_index plane)) t).
Proof. exact (jumps_spec jump_index time_profile fit). Qed.
End Jumps.
Print Assumptions C130_curve.
Print Assumptions C130_jump.
Print Assumptions C130_bounds.
Print Assumptions C130_off.
Print Assumptions C130_divided.

(** A sample where the gain jumps should be divided by one curve as the others. *)
Theorem C130_jump_refuted : ~ forall fit profile edges t, ordered edges -> hd 1 edges = 0 -> t <= last edges 0 ->
  exists lo hi, In lo edges /\ In hi edges /\ lo <= t <= hi /\ same (jumps_fitted fit profile edges t) (curve fit profile lo hi t).
Proof.
  intros H. specialize (H (fun l => map (fun _ => Some 2%Q) l) (repeat (Some 1%Q) 9) [0; 4; 8] 4).
  destruct H as (lo & hi & L & R & B & E).
  - intros a b A L. cbn in L. destruct a as [|[|a]], b as [|[|[|b]]]; cbn; lia.
  - reflexivity.
  - cbn; lia.
  - cbn in L, R. destruct L as [<-|[<-|[<-|[]]]], R as [<-|[<-|[<-|[]]]]; try lia; vm_compute in E; discriminate.
Qed.
Print Assumptions C130_jump_refuted.
(** Twelve minutes by steps of sixty seconds. *)
Example C130_ex : jump_edges 13 60 8 = [0; 2; 8; 12] /\ 
  (let r := correct_jumps (fun _ => 8) (fun x => repeat (Some 1%Q) (hd 0 (sh x))) (fun l => map (fun _ => Some (2%Q)) l) true 60 (mkNd [13; 1; 1] (fun _ => Some 8%Q)) in
   forall t, t < 13 -> exists v, get r [t; 0; 0] = Some v /\ (v == if (t =? 2) || (t =? 8) then 2 else 4)%Q).
Proof.
  split; [vm_compute; reflexivity|]. cbv zeta. intros t T.
  do 13 (destruct t as [|t]; [eexists; split; [vm_compute; reflexivity|vm_compute; reflexivity]|]). lia.
Qed.

(** * C131: the lanes joined *)
Section Get.
Variable bandpass : nat -> res (list Q).
Variable background : nd sample -> nd sample.
Variable nanstd : nd sample -> sample.
Variable jump_index : nd sample -> nat.
Variable time_profile : nd sample -> list sample.
Variable fit : list sample -> list sample.
Context {A U : Type} (U0 : units U).
Variable stokes : lane A -> list Q -> list Q -> nd A -> res (nd sample).
Variable polar : list U.
Notation proc := (process bandpass background nanstd jump_index time_profile fit stokes polar).
Notation get_all := (dynspec_get bandpass background nanstd jump_index time_profile fit U0 stokes polar).
Notation gathered := (P_Dynproc3.gathered bandpass background nanstd jump_index time_profile fit stokes polar).
Theorem C131_valid : forall d l s, proc d l = Ok (Some s) -> valid s /\ s_polar s = polar.
Proof. exact (@process_valid bandpass background nanstd jump_index time_profile fit A U stokes polar). Qed.
Theorem C131_plain : forall d l f t raw x, no_processing d -> d_lanes d <> [] ->
  select_data d l = Ok (Some (f, t, raw)) -> stokes l f t raw = Ok x ->
  (sh x = [length t; length f; length polar] -> proc d l = Ok (Some (mkS t f polar x))) /\
  (length (sh x) = 3 -> sh x <> [length t; length f; length polar] -> proc d l = Err EAssertionError).
Proof. exact (@process_plain bandpass background nanstd jump_index time_profile fit A U stokes polar). Qed.
Theorem C131_averaged : forall d l f t raw x wt wf bt bf, averages_only d wt wf -> d_lanes d <> [] ->
  select_data d l = Ok (Some (f, t, raw)) -> stokes l f t raw = Ok x -> sh x = [length t; length f; length polar] ->
  (0 < l_dt l)%Q -> (0 < l_df l)%Q -> asked_steps bt wt (l_dt l) -> asked_steps bf wf (l_df l) ->
  0 < bt <= length t -> 0 < bf <= length f ->
  let nt := length t / bt in let nf := length f / bf in
  exists s y, proc d l = Ok (Some s) /\ s_polar s = polar /\
    rebinned nt (length t / nt) t (s_time s) /\ rebinned nf (length f / nf) f (s_freq s) /\
    (forall i k p, i < nt -> k < length f -> p < length polar -> mean_of (bin (fun j => get x [j; k; p]) (length t / nt) i) (get y [i; k; p])) /\
    (forall i k p, i < nt -> k < nf -> p < length polar -> mean_of (bin (fun j => get y [i; j; p]) (length f / nf) k) (get (s_data s) [i; k; p])).
Proof. exact (@process_averaged bandpass background nanstd jump_index time_profile fit A U stokes polar). Qed.
Theorem C131_skipped : forall d l, select_data d l = Ok None -> proc d l = Ok None.
Proof. exact (@process_skipped bandpass background nanstd jump_index time_profile fit A U stokes polar). Qed.
Theorem C131_every_lane : forall d r, get_all d = Ok r -> exists ps, gathered d (d_lanes d) ps.
Proof. exact (@get_gathered bandpass background nanstd jump_index time_profile fit A U U0 stokes polar). Qed.
Theorem C131_joined : forall d r, get_all d = Ok r ->
  (r = None /\ gathered d (d_lanes d) []) \/
  exists p ps s, gathered d (d_lanes d) (p :: ps) /\ r = Some s /\ valid s /\ s_time s = s_time p /\ s_polar s = polar /\
    length (s_freq s) = total_freqs (p :: ps) /\
    (forall q, In q ps -> times_match (s_time p) (s_time q)) /\
    (forall q j', In q (p :: ps) -> j' < length (s_freq q) -> exists j, j < length (s_freq s) /\ column_of s q j j') /\
    (forall j, j < length (s_freq s) -> exists q j', In q (p :: ps) /\ j' < length (s_freq q) /\ column_of s q j j').
Proof. exact (@get_spec bandpass background nanstd jump_index time_profile fit A U U0 stokes polar). Qed.
Theorem C131_increasing : forall d p ps s, gathered d (d_lanes d) (p :: ps) -> stacked (p :: ps) ->
  get_all d = Ok (Some s) -> s_freq s = concat (map s_freq (p :: ps)) /\ increasing (s_freq s).
Proof. exact (@get_increasing bandpass background nanstd jump_index time_profile fit A U U0 stokes polar). Qed.
End Get.
Print Assumptions C131_valid.
Print Assumptions C131_plain.
Print Assumptions C131_averaged.
Print Assumptions C131_skipped.
Print Assumptions C131_every_lane.
Print Assumptions C131_joined.
Print Assumptions C131_increasing.

Definition two_lanes : dynspec nat :=
  let lane i f := mkLane i 1 10 2 (map qn (seq 0 5)) (map (fun k => f + qn k * 10)%Q (seq 0 4)) f (f + 40) [(0%Z, (0, 4))] (mkNd [5; 4] (fun p => 1000 * i + 100 * nth 0 p 0 + nth 1 p 0)) in
  mkDs [lane 0 1000%Q; lane 1 2000%Q] [] (Some (1, 3)%Q) (Some (1000, 2040)%Q) 0 None None None false "none" 0 0.
Definition ascii_units : units string := mkUnits string (fun x => x) (fun x _ => x) (fun x _ => x).
Definition intensity (_ : lane nat) (_ _ : list Q) (x : nd nat) : res (nd sample) :=
  Ok (mkNd (sh x ++ [1]) (fun i => Some (qn (get x (firstn 2 i))))).
Definition demo_get := dynspec_get demo_table (fun x => x) (fun _ => None) (fun _ => 0) (fun _ => []) (fun x => x) ascii_units intensity ["I"%string].
Example C131_ex : exists s, demo_get two_lanes = Ok (Some s) /\ no_processing two_lanes /\ sh (s_data s) = [2; 8; 1] /\
  get (s_data s) [1; 6; 0] = Some (qn 1202) /\ (nth 6 (s_freq s) 0 == 2020)%Q /\ (nth 1 (s_time s) 0 == 2)%Q /\
  demo_get (with_beam two_lanes 5) = Ok None.
Proof.
  eexists. split; [vm_compute; reflexivity|]. split; [repeat split|]. repeat split; vm_compute; reflexivity.
Qed.

Definition averaged_lanes : dynspec nat := mkDs (d_lanes two_lanes) [] (Some (1, 4)%Q) (Some (1000, 1030)%Q) 0 None (Some (5 # 2)%Q) (Some 21%Q) false "none" 0 0.
Example C131_averaged_ex : averages_only averaged_lanes (5 # 2) 21 /\ asked_steps 2 (5 # 2) 1 /\ asked_steps 2 21 10 /\
  exists s, demo_get averaged_lanes = Ok (Some s) /\ sh (s_data s) = [1; 2; 1] /\ get (s_data s) [0; 1; 0] = Some (3645 # 18)%Q.
Proof. split; [repeat split|]. split; [split; vm_compute; (reflexivity || discriminate)|]. split; [split; vm_compute; (reflexivity || discriminate)|]. eexists. split; [vm_compute; reflexivity|]. split; vm_compute; reflexivity. Qed.

(** * C132: the file written *)
Section Files.
Context {A U : Type}.
Variable upper : string -> string.
Variable run : dynspec A -> string -> res (option (sdata sample U)).
Notation group_of := (P_Dynproc3.group_of upper run).
Theorem C132_written : forall d names beams d' gs, names <> [] -> write_hdf5 upper run d names beams = Ok (d', gs) ->
  Forall2 (group_of d names) beams gs /\ NoDup beams /\
  d' = match beams with [] => d | _ => with_beam d (last beams 0%Z) end.
Proof. exact (@write_spec A U upper run). Qed.
Theorem C132_refused : forall d names beams,
  (forall b r, beams = b :: r -> ~ In b (obs_beams (d_lanes d)) -> write_hdf5 upper run d names beams = Err EIndexError) /\
  (forall b r n ns, beams = b :: r -> In b (obs_beams (d_lanes d)) -> names = n :: ns -> run (with_beam d b) n = Ok None ->
     write_hdf5 upper run d names beams = Err EAttributeError).
Proof. exact (@write_refused A U upper run). Qed.
End Files.
Print Assumptions C132_written.
Print Assumptions C132_refused.

(** The coordinates attached to an axis should have its length. *)
Theorem C132_axes_refuted : ~ forall d names beams d' gs g x, write_hdf5 (fun s => s) (fun d (_ : string) => demo_get d) d names beams = Ok (d', gs) -> In g gs -> In x (g_sets g) ->
  length (snd (ds_first x)) = nth 0 (sh (ds_data x)) 0.
Proof.
  intros H.
  assert (E : exists d' g x, write_hdf5 (fun s => s) (fun d (_ : string) => demo_get d) two_lanes ["I"%string] [0%Z] = Ok (d', [g]) /\ g_sets g = [x] /\
    length (snd (ds_first x)) = 8 /\ nth 0 (sh (ds_data x)) 0 = 2).
  { eexists. eexists. eexists. split; [vm_compute; reflexivity|]. split; [reflexivity|]. split; vm_compute; reflexivity. }
  destruct E as (d' & g & x & E & G & L & S). specialize (H _ _ _ _ _ g x E (or_introl eq_refl)). rewrite G in H. specialize (H (or_introl eq_refl)). lia.
Qed.
Print Assumptions C132_axes_refuted.
Example C132_ex : exists d' g x, write_hdf5 (fun s => s) (fun d (_ : string) => demo_get d) two_lanes ["I"%string] [0%Z] = Ok (d', [g]) /\ g_sets g = [x] /\
  ds_name x = "STOKES_I"%string /\ get (ds_data x) [1; 6] = Some (qn 1202) /\ (g_fmax g == 2030)%Q /\ (g_end g == 2)%Q /\
  write_hdf5 (fun s => s) (fun d (_ : string) => demo_get d) two_lanes ["I"%string] [0; 0]%Z = Err EValueError /\
  write_hdf5 (fun s => s) (fun d (_ : string) => demo_get d) two_lanes ["I"; "I"]%string [0]%Z = Err EValueError /\
  write_hdf5 (fun s => s) (fun d (_ : string) => demo_get d) two_lanes ["I"%string] [3]%Z = Err EIndexError.
Proof. eexists. eexists. eexists. split; [vm_compute; reflexivity|]. split; [reflexivity|]. repeat split; vm_compute; reflexivity. Qed.
