(** C118 to C121: lane files of UnDySPuTeD. *)
From Coq Require Import ZArith QArith Reals Lra Ascii String Bool List Arith Lia Sorted.
From Verif Require Import Base M_Nd M_Rebin M_Polar P_Polar M_TFArray P_TFArray P_TFArray2 M_Lane P_Lane.
Import ListNotations.
Open Scope nat_scope.
Open Scope list_scope.

(** * C118: names *)
Theorem C118_accepted : forall found name d, lane_index found name = Ok d <-> found = true /\ lane_name name d.
Proof. exact name_accepted. Qed.
Print Assumptions C118_accepted.
Theorem C118_refused : forall name, (forall d, ~ lane_name name d) -> lane_index true name = Err EValueError.
Proof. exact name_refused. Qed.
Print Assumptions C118_refused.
Theorem C118_unique : forall name d e, lane_name name d -> lane_name name e -> d = e.
Proof. exact name_unique. Qed.
Print Assumptions C118_unique.
Theorem C118_long_index : lane_index true "OBS_10.spectra" = Err EValueError /\ lane_index true "OBS_0.spectra.bak" = Err EValueError.
Proof. exact name_long_index. Qed.
Print Assumptions C118_long_index.
Theorem C118_any_character_refuted : lane_index true "OBS_1Xspectra" = Ok 1.
Proof. exact name_any_character. Qed.
Print Assumptions C118_any_character_refuted.

Example C118_ex : lane_name "20191129_141900_0.spectra" 0 /\ lane_index true "20191129_141900_0.spectra" = Ok 0 /\
  lane_index true "A_1.spectra_2.spectra" = Ok 2 /\ lane_index false "20191129_141900_0.spectra" = Err EException.
Proof.
  split; [|repeat split; reflexivity].
  exists "20191129_141900"%string, "0"%char, "."%char, ""%string. repeat split; [lia|discriminate|now left].
Qed.

(** * C119: axes *)
Theorem C119_axes : forall idx c B S T h, holds c B S T h -> exists l, load idx c = Ok l /\
  l_index l = idx /\ l_nchan l = 2 * h /\ (l_dt l == time_step c)%Q /\ (l_df l == channel_width h)%Q /\
  length (l_time l) = B * T /\
  (forall k, k < B * T -> (nth k (l_time l) 0 == start_time c + qn k * time_step c)%Q) /\
  length (l_freq l) = S * (2 * h) /\
  (forall s k, s < S -> k < 2 * h ->
     (nth (s * (2 * h) + k) (l_freq l) 0 == inject_Z (c_channel c 0 s) * subband + (qn k - qn h) * channel_width h)%Q) /\
  (exists lo hi, least (channels_of c) lo /\ greatest (channels_of c) hi /\
     (l_fmin l == (inject_Z lo - (1 # 2)) * subband)%Q /\ (l_fmax l == (inject_Z hi + (1 # 2)) * subband)%Q) /\
  l_beams l = sort_beam_edges (beams_of c) (2 * h) /\
  sh (l_data l) = [B * T; S * (2 * h); 2; 2] /\
  forall b s t k, b < B -> s < S -> t < T -> k < 2 * h ->
    mat_at (l_data l) [b * T + t; s * (2 * h) + half_swap h k] = raw_matrix c [b; s; t; k].
Proof. exact load_spec. Qed.
Print Assumptions C119_axes.
Theorem C119_times : forall idx c B S T h l, holds c B S T h -> 0 < T -> load idx c = Ok l ->
  exists a b, tmin l = Ok a /\ tmax l = Ok b /\ (a == start_time c)%Q /\
    (b == start_time c + (qn (B * T) - 1) * time_step c)%Q /\
    (b + l_dt l == start_time c + qn (B * T) * time_step c)%Q.
Proof. exact load_times. Qed.
Print Assumptions C119_times.
Theorem C119_range : forall idx c B S T h l, holds c B S T h -> load idx c = Ok l ->
  (forall f, In f (l_freq l) -> (l_fmin l <= f)%Q /\ (f + l_df l <= l_fmax l)%Q) /\
  (exists f, In f (l_freq l) /\ (f == l_fmin l)%Q) /\ (exists f, In f (l_freq l) /\ (f + l_df l == l_fmax l)%Q).
Proof. exact load_range. Qed.
Print Assumptions C119_range.
Theorem C119_refused : forall idx c,
  (c_bytes c < 48 -> load idx c = Err EValueError) /\
  (48 <= c_bytes c -> (h_fftlen (c_header c) = 0 \/ Nat.odd (h_fftlen (c_header c)) = true) -> load idx c = Err EValueError) /\
  (48 <= c_bytes c < block_bytes (c_header c) -> 0 < h_fftlen (c_header c) -> Nat.even (h_fftlen (c_header c)) = true ->
     load idx c = Err EIndexError) /\
  (block_bytes (c_header c) <= c_bytes c -> 0 < h_fftlen (c_header c) -> Nat.even (h_fftlen (c_header c)) = true ->
     h_nbchan (c_header c) = 0 -> load idx c = Err EValueError).
Proof. exact load_refused. Qed.
Print Assumptions C119_refused.

(** Two blocks, and a part of a third one, of three sub-bands, two steps and four channels. *)
Definition demo_content (e : list nat -> list field) : content :=
  mkContent 1130 (mkHdr 100 5 4 6 2 3) (fun _ s => nth s [1; 0; 0]%Z 0%Z) (fun _ s => nth s [300; 200; 201]%Z 0%Z)
    (fun p => if nth 4 p 0 =? 0 then rec_xx (e (firstn 4 p)) else rec_yy (e (firstn 4 p)))
    (fun p => if nth 4 p 0 =? 0 then rec_re (e (firstn 4 p)) else rec_im (e (firstn 4 p))).
Example C119_ex : forall e, exists l, holds (demo_content e) 2 3 2 2 /\ load 3 (demo_content e) = Ok l /\ length (l_time l) = 4 /\
  (nth 1 (l_time l) 0 == 100 + (10 # 390625) + (12288 # 100000000))%Q /\ (nth 0 (l_freq l) 0 == 300 * 195312.5 - 97656.25)%Q /\
  (l_fmin l == 200 * 195312.5 - 97656.25)%Q /\ (l_fmax l == 300 * 195312.5 + 97656.25)%Q.
Proof.
  intros e. assert (H : holds (demo_content e) 2 3 2 2) by (repeat split; cbn; lia).
  destruct (C119_axes 3 (demo_content e) 2 3 2 2 H) as (l & E & _ & _ & _ & _ & LT & NT & _ & NF & (lo & hi & (A1 & A2) & (B1 & B2) & C1 & C2) & _).
  exists l. split; [exact H|]. split; [exact E|]. split; [exact LT|]. split; [rewrite NT by lia; reflexivity|].
  split; [rewrite (NF 0 0) by lia; reflexivity|]. cbn in A1, B1.
  pose proof (A2 200%Z (or_intror (or_introl eq_refl))). pose proof (B2 300%Z (or_introl eq_refl)).
  split.
  - rewrite C1. replace lo with 200%Z; [reflexivity|]. destruct A1 as [<-|[<-|[<-|[]]]]; lia.
  - rewrite C2. replace hi with 300%Z; [reflexivity|]. destruct B1 as [<-|[<-|[<-|[]]]]; lia.
Qed.

(** * C120: Stokes parameters *)
Theorem C120_stokes : forall idx c B S T h l s, holds c B S T h -> load idx c = Ok l ->
  Forall is_letter (letters_of s) -> s <> ""%string ->
  exists r, get_stokes (l_data l) s = Ok (Some r) /\ sh r = [B * T; S * (2 * h); String.length s] /\
    forall b i t k es n a f, b < B -> i < S -> t < T -> k < 2 * h -> records c [b; i; t; k] es ->
      nth_error (letters_of s) n = Some a -> letter a f ->
      get r [b * T + t; i * (2 * h) + half_swap h k; n] = f es.
Proof. exact lane_stokes. Qed.
Print Assumptions C120_stokes.
Theorem C120_refused : forall data s, Exists (fun a => ~ is_letter a) (letters_of s) ->
  get_stokes data s = Err ENotImplementedError.
Proof. exact stokes_refused. Qed.
Print Assumptions C120_refused.
Theorem C120_none : forall data, get_stokes data "" = Ok None.
Proof. exact stokes_none. Qed.
Print Assumptions C120_none.
Theorem C120_documented_refuted : forall data, get_stokes data "L" = Err ENotImplementedError /\
  get_stokes data "XX" = Err ENotImplementedError /\ get_stokes data "YY" = Err ENotImplementedError.
Proof. exact documented_names. Qed.
Print Assumptions C120_documented_refuted.
Theorem C120_derotation_off : forall data freq, lane_derotation None data freq = Ok data.
Proof. exact derotation_off. Qed.
Print Assumptions C120_derotation_off.
Theorem C120_derotation : forall data nt freq rm, sh data = [nt; length freq; 2; 2] ->
  exists r, lane_derotation (Some rm) data freq = Ok r /\ sh r = [nt; length freq; 2; 2] /\
    forall t f, mat_at r [t; f] = turned (- (rm * wavelength (nth f freq 0%R) ^ 2)) (mat_at data [t; f]).
Proof. exact derotation_turns. Qed.
Print Assumptions C120_derotation.
Theorem C120_derotation_undoes : forall data nt freq rm r (es : nat -> nat -> list field),
  sh data = [nt; length freq; 2; 2] -> lane_derotation (Some rm) data freq = Ok r ->
  (forall t f, t < nt -> f < length freq -> mat_at data [t; f] =
     mtrans (coherency (map (turn_field (rm * wavelength (nth f freq 0%R) ^ 2)) (es t f)))) ->
  forall t f, t < nt -> f < length freq -> mat_at r [t; f] = mtrans (coherency (es t f)).
Proof. exact derotation_undoes. Qed.
Print Assumptions C120_derotation_undoes.
Theorem C120_transposed : forall idx c B S T h l fft0 fft1, holds c B S T h -> load idx c = Ok l ->
  sh fft0 = [B; S; T; 2 * h; 2] -> get fft0 = c_fft0 c -> get fft1 = c_fft1 c ->
  forall b s t k, b < B -> s < S -> t < T -> k < 2 * h ->
  mat_at (l_data l) [b * T + t; s * (2 * h) + half_swap h k] = mtrans (mat_at (spectra_data_to_matrix fft0 fft1) [b; s; t; k]).
Proof. exact lane_transposed. Qed.
Print Assumptions C120_transposed.

Example C120_ex : forall e b i t k, records (demo_content e) [b; i; t; k] (e [b; i; t; k]).
Proof. intros. repeat split; reflexivity. Qed.
Example C120_ex_value : forall e, exists l r, load 3 (demo_content e) = Ok l /\ get_stokes (l_data l) "Iv" = Ok (Some r) /\
  get r [2; 4 + 3; 1] = SV (e [1; 1; 0; 1]).
Proof.
  intros e. assert (H : holds (demo_content e) 2 3 2 2) by (repeat split; cbn; lia).
  destruct (C119_axes 3 (demo_content e) 2 3 2 2 H) as (l & E & _).
  assert (F : Forall is_letter (letters_of "Iv")) by (repeat constructor; [exists SI; constructor|exists SV; constructor]).
  destruct (C120_stokes 3 (demo_content e) 2 3 2 2 l "Iv" H E F ltac:(discriminate)) as (r & R & _ & G).
  exists l, r. split; [exact E|]. split; [exact R|].
  apply (G 1 1 0 1 (e [1; 1; 0; 1]) 1 "v"%char SV); try lia; [apply C120_ex|reflexivity|constructor].
Qed.

(** * C121: beams *)
Theorem C121_beams : forall beams n,
  StronglySorted Z.lt (map fst (sort_beam_edges beams n)) /\
  (forall b, In b (map fst (sort_beam_edges beams n)) <-> In b beams) /\
  forall b start stop, In (b, (start, stop)) (sort_beam_edges beams n) ->
    exists lo hi, first_sub beams b lo /\ last_sub beams b hi /\ start = lo * n /\ stop = (hi + 1) * n.
Proof. exact lane_beams_spec. Qed.
Print Assumptions C121_beams.
Theorem C121_partition : forall beams n, grouped beams -> 0 < n ->
  forall f, f < length beams * n ->
  forall b start stop, In (b, (start, stop)) (sort_beam_edges beams n) ->
    (start <= f < stop <-> nth_error beams (f / n) = Some b).
Proof. exact lane_beams_partition. Qed.
Print Assumptions C121_partition.
Theorem C121_interleaved_refuted : sort_beam_edges [0; 1; 0; 1]%Z 2 = [(0%Z, (0, 6)); (1%Z, (2, 8))].
Proof. exact lane_beams_interleaved. Qed.
Print Assumptions C121_interleaved_refuted.

Example C121_ex : grouped [1; 0; 0]%Z /\ sort_beam_edges [1; 0; 0]%Z 4 = [(0%Z, (4, 12)); (1%Z, (0, 4))].
Proof.
  split; [|reflexivity]. intros i j k b H A B.
  assert (K : k < 3) by (apply (nth_error_Some [1; 0; 0]%Z); congruence).
  destruct k as [|[|[|k]]]; [| | |lia]; destruct i as [|[|[|i]]]; try lia; destruct j as [|[|[|j]]]; try lia; cbn in *; congruence.
Qed.
