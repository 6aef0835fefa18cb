(** Model of an UnDySPuTeD lane file: nenupy/undysputed/dynspec.py 48-58
    ([HEADER_STRUCT]) and 73-380 ([_Lane]).  Numbers are exact; the integers of a
    header are natural numbers.  Dask is not modelled: arrays are computed at once. *)
From Coq Require Import String Ascii List Arith ZArith QArith Reals Bool.
From Verif Require Import Base M_Nd M_Polar M_TFArray M_Select.
Import ListNotations.
Open Scope nat_scope.

(** ** The name of the file: 97-108

    [re.compile("_(?P<index>\d).spectra$").findall(name)], on ASCII characters: at each
    position an underscore, a digit, any character but a line feed, then "spectra"
    at the end or before a last line feed. *)
Definition line_feed : ascii := ascii_of_nat 10.
Definition is_digit (c : ascii) : bool := (48 <=? nat_of_ascii c) && (nat_of_ascii c <=? 57).
Definition digit_value (c : ascii) : nat := nat_of_ascii c - 48.
Definition match_here (s : string) : option nat :=
  match s with
  | String u (String d (String any rest)) =>
      if Ascii.eqb u "_" && is_digit d && negb (Ascii.eqb any line_feed) &&
         (String.eqb rest "spectra" || String.eqb rest (String.append "spectra" (String line_feed "")))
      then Some (digit_value d) else None
  | _ => None
  end.
Fixpoint findall (s : string) : list nat :=
  match match_here s, s with
  | Some d, _ => [d]                       (* the match reaches the end of the name *)
  | None, String _ t => findall t
  | None, EmptyString => []
  end.
(** The file, [None] when it does not exist.  FileNotFoundError is [EException]. *)
Definition lane_index (found : bool) (name : string) : res nat :=
  if negb found then Err EException                                     (* 98-99 *)
  else match findall name with
       | [d] => Ok d
       | _ => Err EValueError                                           (* 102-105 *)
       end.

(** ** The content *)
Record header := mkHdr { h_timestamp : nat; h_seq : nat; h_fftlen : nat; h_nfft2int : nat;
                         h_nffte : nat; h_nbchan : nat }.
(** The samples of a block: [c_beam b s] and [c_channel b s] of block [b] and sub-band
    [s]; [c_fft0] and [c_fft1] at [block; sub-band; step; channel; value]. *)
Record content := mkContent { c_bytes : nat; c_header : header; c_beam : nat -> nat -> Z;
                              c_channel : nat -> nat -> Z; c_fft0 : list nat -> R; c_fft1 : list nat -> R }.

(** 48-58: three 8-byte and six 4-byte integers. *)
Definition header_bytes : nat := 3 * 8 + 6 * 4.
(** 265-276 *)
Definition block_bytes (h : header) : nat :=
  header_bytes + h_nbchan h * (3 * 4 + 2 * (h_nffte h * h_fftlen h * 2 * 4)).
(** 279: what is left of the last block is ignored. *)
Definition n_blocks (c : content) : nat := c_bytes c / block_bytes (c_header c).

(** 369-383: [da.stack([row1, row2], axis=-1)], so that entry [i; j] is entry [i] of row [j]. *)
Definition to_ejones (s : list nat) (fft0 fft1 : list nat -> R) : nd cpx :=
  mkNd (s ++ [2; 2]) (fun idx =>
    let p := firstn (length s) idx in
    let row1 := [(fft0 (p ++ [0]), 0%R); (fft1 (p ++ [0]), Ropp (fft1 (p ++ [1])))] in
    let row2 := [(fft1 (p ++ [0]), fft1 (p ++ [1])); (fft0 (p ++ [1]), 0%R)] in
    match skipn (length s) idx with
    | [i; j] => nth i (nth j [row1; row2] []) (0%R, 0%R)
    | _ => (0%R, 0%R)
    end).

(** 291-301 *)
Definition compute_times (start bsn : nat) (dt : Q) (n_times : nat) : list Q :=
  map (fun k => qn k * dt + (qn start + qn bsn / (1953125 # 10)))%Q (seq 0 n_times).
Definition lane_times (h : header) (dt : Q) (n : nat) : list Q :=
  compute_times (h_timestamp h) (h_seq h) dt n.
(** 303-316 *)
Definition compute_frequencies (n_channels : nat) (df : Q) (channels : list Z) : res (nd Q) :=
  let width := (df * qn n_channels)%Q in
  spectra_frequencies (map (fun c => inject_Z c * width)%Q channels) n_channels df.

(** 318-334; the keys are the numbers. *)
Definition sort_beam_edges (beams : list Z) (n_channels : nat) : list (Z * (nat * nat)) :=
  map (fun b =>
         let idx := filter (fun i => (nth i beams 0 =? b)%Z) (seq 0 (length beams)) in
         (b, (hd 0 idx * n_channels, (last idx 0 + 1) * n_channels)))
      (unique beams).

Record lane (A : Type) := mkLane { l_index : nat; l_dt : Q; l_df : Q; l_nchan : nat; l_time : list Q;
  l_freq : list Q; l_fmin : Q; l_fmax : Q; l_beams : list (Z * (nat * nat)); l_data : nd A }.
Arguments mkLane {A}. Arguments l_index {A}. Arguments l_dt {A}. Arguments l_df {A}. Arguments l_nchan {A}.
Arguments l_time {A}. Arguments l_freq {A}. Arguments l_fmin {A}. Arguments l_fmax {A}.
Arguments l_beams {A}. Arguments l_data {A}.

(** [np.min] and [np.max] of integers. *)
Definition zmin_list (l : list Z) : res Z :=
  match l with [] => Err EValueError | x :: r => Ok (fold_left Z.min r x) end.
Definition zmax_list (l : list Z) : res Z :=
  match l with [] => Err EValueError | x :: r => Ok (fold_left Z.max r x) end.

(** 189-250 and 337-366. *)
Definition load (index : nat) (c : content) : res (lane cpx) :=
  let h := c_header c in
  let n := h_fftlen h in
  if c_bytes c <? header_bytes then Err EValueError                     (* 257-261 *)
  else
    let dt := ((512 # 100000000) * qn n * qn (h_nfft2int h))%Q in
    let df := (1 / (512 # 100000000) / qn n)%Q in
    let nb := n_blocks c in
    if n =? 0 then Err EValueError                                      (* 349: int(0 / 0) *)
    else
      bind (blocks_to_tf (to_ejones [nb; h_nbchan h; h_nffte h; n] (c_fft0 c) (c_fft1 c)) (h_nffte h) n) (fun data =>
      if nb =? 0 then Err EIndexError                                   (* 221: [0, :] *)
      else
        let channels := map (c_channel c 0) (seq 0 (h_nbchan h)) in
        let times := lane_times h dt (nb * h_nffte h) in
        bind (compute_frequencies n df channels) (fun freqs =>
        bind (zmin_list channels) (fun cmin =>                          (* 244 *)
        bind (zmax_list channels) (fun cmax =>
        Ok (mkLane index dt df n times (flat freqs (h_nbchan h * n))
              (df * qn n * (inject_Z cmin - 1 / 2))%Q (df * qn n * (inject_Z cmax + 1 / 2))%Q
              (sort_beam_edges (map (c_beam c 0) (seq 0 (h_nbchan h))) n) data))))).

(** 110-118: [time_unix[0]] and [time_unix[-1]]. *)
Definition tmin {A} (l : lane A) : res Q := match l_time l with [] => Err EIndexError | t :: _ => Ok t end.
Definition tmax {A} (l : lane A) : res Q := match l_time l with [] => Err EIndexError | t :: r => Ok (last r t) end.

(** ** Stokes parameters: 158-185, and the same code at 1313-1337

    A string is a sequence of one-letter names; the empty string gives [None]. *)
Definition letter_value (c : ascii) (d : mat) : res R :=
  let u := up_char c in
  if Ascii.eqb u "I" then Ok (re (m00 d) + re (m11 d))%R
  else if Ascii.eqb u "Q" then Ok (re (m00 d) - re (m11 d))%R
  else if Ascii.eqb u "U" then Ok (re (m01 d) * 2)%R
  else if Ascii.eqb u "V" then Ok (im (m01 d) * 2)%R
  else Err ENotImplementedError.
Fixpoint stokes_planes (data : nd cpx) (s : string) (result : list (list nat -> R)) : res (list (list nat -> R)) :=
  match s with
  | EmptyString => Ok result
  | String c t =>
      bind (letter_value c zero_mat) (fun _ =>
      stokes_planes data t
        (result ++ [fun p => match letter_value c (mat_at data p) with Ok v => v | Err _ => 0%R end]))
  end.
Definition get_stokes (data : nd cpx) (s : string) : res (option (nd R)) :=
  bind (stokes_planes data s []) (fun planes =>
  Ok (match planes with
      | [] => None
      | _ => let lead := firstn (length (sh data) - 2) (sh data) in
             Some (mkNd (lead ++ [length planes])
                        (fun idx => nth (last idx 0) planes (fun _ => 0%R) (firstn (length lead) idx)))
      end)).

(** 1339-1364: [frequency] in hertz, one per channel as its caller gives them (1572). *)
Definition lane_derotation (rm : option R) (data : nd cpx) (frequency : list R) : res (nd cpx) :=
  match rm with
  | None => Ok data
  | Some rm =>
      match sh data with
      | [nt; nf; 2; 2] =>
          if nf =? length frequency then
            Ok (mkNd [nt; nf; 2; 2] (fun idx =>
              match idx with
              | [t; f; i; j] =>
                  let a := faraday_angle (nth f frequency 0%R) rm true in
                  let rotation_matrix := mkMat (creal (cos a)) (creal (- sin a)) (creal (sin a)) (creal (cos a)) in
                  let inverse_matrix := mkMat (creal (cos a)) (creal (sin a)) (creal (- sin a)) (creal (cos a)) in
                  mget (mmul (mmul rotation_matrix (mat_at data [t; f])) inverse_matrix) i j
              | _ => (0%R, 0%R)
              end))
          else Err EValueError
      | _ => Err EValueError
      end
  end.
