(** Model of the processing of dynamic spectra: nenupy/undysputed/dynspec.py
    1106-1200 ([Dynspec.get]), 1204-1307 ([write_hdf5]), 1599-1648 (bandpass and
    edge channels), 1704-1732 ([_clean]), 1734-1759 ([_dedisperse]), 1809-1850
    ([_rebin]), 1952-2032 ([_correct_jumps]); nenupy/undysputed/utils.py 23-82.
    Samples are rationals or NaN; a division by zero gives NaN here.  Rounding, dask
    and log messages are not modelled. *)
From Coq Require Import String List Arith ZArith QArith Qround Bool.
From Verif Require Import Base M_Nd M_Rebin M_Polar M_TFArray M_Dedisperse M_Select M_SData M_Lane M_Dynspec.
Import ListNotations.
Open Scope nat_scope.

(** ** De-dispersion

    dynspec.py 1753-1756, utils.py 75-79: [x = np.roll(x, -c, 0); x[-c:] = nan]. *)
Definition roll_mask {A} (nan : A) (n : nat) (c : Z) (x : nat -> A) (t : nat) : A :=
  if slice_bound n (- c) <=? t then nan else x (Z.to_nat ((Z.of_nat t + c) mod Z.of_nat n)).
Definition shift_channels {A} (nan : A) (cells : list Z) (data : nd A) : nd A :=
  mkNd (sh data) (fun idx => match idx with
    | t :: f :: p => roll_mask nan (hd 0 (sh data)) (nth f cells 0%Z) (fun t => get data (t :: f :: p)) t
    | _ => get data idx
    end).
(** The delays in time steps with respect to [reference]; frequencies in MHz. *)
Definition cells_from (reference : Q) (frequencies : list Q) (dm step : Q) : list Z :=
  map (fun f => round_even ((dispersion_delay f dm - dispersion_delay reference dm) / step)%Q) frequencies.

(** utils.py 54-82.  The array given is modified and returned. *)
Definition de_disperse_array {A} (nan : A) (data : nd A) (frequencies : list Q) (step dm : Q) : res (nd A) :=
  match sh data with
  | _ :: nf :: _ =>
      if negb (nf =? length frequencies) then Err EValueError            (* 59-63 *)
      else bind (M_Dedisperse.qmax_list frequencies) (fun m =>
           Ok (shift_channels nan (cells_from m frequencies dm step) data))
  | _ => Err EException                                                  (* 54-58 *)
  end.

(** ** Averages over bins: 1809-1850

    [n] samples of width [step] averaged over [want]: the number of bins and their
    width.  Negative values of [want] are not modelled. *)
Definition bin_sizes (n : nat) (want step : Q) : res (nat * nat) :=
  let bins := Qfloor (want / step) in                                    (* 1816 *)
  if (bins =? 0)%Z then Err EZeroDivisionError                           (* 1818 *)
  else if (bins <? 0)%Z then Err EValueError
  else let m := n / Z.to_nat bins in
       if m =? 0 then Err EZeroDivisionError                             (* 1819 *)
       else Ok (m, (n - n mod m) / m).                                   (* 1819-1826 *)
(** The mean of consecutive values, [np.nanmean(x.reshape((m, w)), axis=1)]. *)
Definition axis_bins (m w : nat) (x : list Q) : list Q :=
  map (fun i => mean (map (fun j => nth (i * w + j) x 0%Q) (seq 0 w))) (seq 0 m).
(** Axis [k] of the data and its coordinates. *)
Definition rebin_axis (k : nat) (want : option Q) (step : Q) (data : nd sample) (coords : list Q)
  : res (nd sample * list Q) :=
  match want with
  | None => Ok (data, coords)
  | Some want =>
      bind (bin_sizes (nth k (sh data) 0) want step) (fun mw =>
      let '(m, w) := mw in
      bind (reshape (firstn k (sh data) ++ m :: w :: skipn (S k) (sh data)) (take_axis k (m * w) data)) (fun x =>
      Ok (reduce nanmean (S k) x, axis_bins m w coords)))
  end.

(** ** RFI, bandpass, edges, jumps *)
Section Process.
(** [_bandpass(n_channels)] (1578-1597), computed from a table; [_background]
    (1655-1702) and [np.nanstd]; the median time profile, the index of the jump and
    the values of the fitted curve (1958-2009). *)
Variable bandpass : nat -> res (list Q).
Variable background : nd sample -> nd sample.
Variable nanstd : nd sample -> sample.
Variable jump_index : nd sample -> nat.
Variable time_profile : nd sample -> list sample.
Variable fit : list sample -> list sample.

(** Reshape to (time, sub-band, channel, polarisation), work there and come back. *)
Definition by_subband (n : nat) (f : nd sample -> nd sample) (data : nd sample) : res (nd sample) :=
  match sh data with
  | [nt; nf; np] =>
      if n =? 0 then Err EZeroDivisionError
      else bind (reshape [nt; nf / n; n; np] data) (fun x => reshape [nt; nf; np] (f x))
  | _ => Err EValueError
  end.
(** 1599-1632 *)
Definition times_channel (bp : list Q) (x : nd sample) : nd sample :=
  mkNd (sh x) (fun idx => sop Qmult (get x idx) (Some (nth (nth 2 idx 0) bp 0%Q))).
Definition over_profile (x : nd sample) : nd sample :=
  let profile := reduce nanmedian 0 x in                                 (* 1625: (sub-band, channel, pol) *)
  let level := reduce nanmedian 1 profile in                             (* 1626: (sub-band, pol) *)
  let normalised := mkNd (sh profile) (fun idx => sdiv (get profile idx) (get level [nth 0 idx 0; nth 2 idx 0])) in
  let response := reduce nanmedian 0 normalised in                       (* 1628: (channel, pol) *)
  mkNd (sh x) (fun idx => sdiv (get x idx) (get response [nth 2 idx 0; nth 3 idx 0])).
Definition bp_correct (kind : string) (n : nat) (data : nd sample) : res (nd sample) :=
  if String.eqb kind "standard" then                                     (* 1601-1606 *)
    bind (bandpass n) (fun bp => by_subband (length bp) (times_channel bp) data)
  else if String.eqb kind "median" then                                  (* 1608-1620 *)
    match sh data with
    | [nt; nf; np] =>
        if n =? 0 then Err EZeroDivisionError
        else
          let spectrum := reduce nanmedian 0 data in
          let s := nf * np / n in
          bind (reshape [s; n; np] spectrum) (fun folded =>
          let broadband := reduce nanmedian 1 folded in
          bind (reshape [nt; s; n; np] data) (fun x =>
          bind (reshape [nt; nf; np] (mkNd (sh x) (fun idx =>
                  sop Qmult (get x idx) (get broadband [nth 1 idx 0; nth 3 idx 0])))) (fun y =>
          Ok (mkNd (sh y) (fun idx => sdiv (get y idx) (get spectrum (tl idx)))))))
    | _ => Err EValueError
    end
  else if String.eqb kind "adjusted" then by_subband n over_profile data  (* 1622-1631 *)
  else Ok data.

(** 1634-1648; [edge] channels at each side. *)
Definition drop_edges (n : nat) (edge : Z) (x : nd sample) : nd sample :=
  mkNd (sh x) (fun idx =>
    let k := nth 2 idx 0 in
    if (k <? slice_bound n edge) || (slice_bound n (- edge) <=? k) then None else get x idx).
Definition remove_edges (nchan : nat) (edge : Z) (data : nd sample) : res (nd sample) :=
  if (0 <? edge)%Z then by_subband nchan (drop_edges nchan edge) data else Ok data.

(** [data[..., p]] *)
Definition plane (p : nat) (data : nd sample) : nd sample :=
  mkNd (firstn 2 (sh data)) (fun idx => get data (idx ++ [p])).
(** 1704-1732.  A comparison with NaN is false; NaN times one is NaN. *)
Definition above (x b : sample) (n : Q) (std : sample) : bool :=
  match x, b, std with
  | Some x, Some b, Some s => negb (Qle_bool x (b + n * s))
  | _, _, _ => false
  end.
Definition clean (threshold : Q) (data : nd sample) : nd sample :=
  if negb (Qle_bool threshold 0) then
    mkNd (sh data) (fun idx =>
      let p := nth 2 idx 0 in
      let bg := background (plane p data) in
      if above (get data idx) (get bg (firstn 2 idx)) threshold (nanstd bg) then None else get data idx)
  else data.

(** 1969-1989: the bounds of the intervals between jumps; [int(360 / dt)]. *)
Definition jump_edges (n : nat) (dt : Q) (index : nat) : list nat :=
  let jumps := Z.to_nat (Qceiling (qn n * dt / 360) - 1) in
  let points := Z.to_nat (Qfloor (360 / dt)) in
  0 :: map (fun k => (if points =? 0 then 0 else index mod points) + k * points) (seq 0 jumps) ++ [n - 1].
(** 1999-2009: the product of the curves of the intervals, both bounds included. *)
Fixpoint jumps_fitted (profile : list sample) (edges : list nat) (t : nat) : sample :=
  match edges with
  | lo :: ((hi :: _) as rest) =>
      let r := jumps_fitted profile rest t in
      if (lo <=? t) && (t <=? hi)
      then sop Qmult (nth (t - lo) (fit (firstn (hi + 1 - lo) (skipn lo profile))) None) r
      else r
  | _ => Some 1%Q
  end.
Definition correct_jumps (on : bool) (dt : Q) (data : nd sample) : nd sample :=
  if negb on then data
  else mkNd (sh data) (fun idx =>
    let x := plane (nth 2 idx 0) data in
    let n := hd 0 (sh data) in
    sdiv (get data idx) (jumps_fitted (time_profile x) (jump_edges n dt (jump_index x)) (nth 0 idx 0))).

(** ** [get]: 1145-1200 *)
Context {A U : Type} (units_of : units U).
(** The correction of the polarisation, the derotation and the Stokes parameters of
    the samples selected in a lane (1570-1573): frequencies, times and data. *)
Variable stokes : lane A -> list Q -> list Q -> nd A -> res (nd sample).
(** [SData(polar=stokes)]: one unit, or one per element of a list. *)
Variable polar : list U.

(** 1734-1759; frequencies in hertz. *)
Definition dedisperse (d : dynspec A) (data : nd sample) (freqs : list Q) (dt : Q) : res (nd sample) :=
  match d_dm d with
  | None => Ok data
  | Some dm =>
      if negb (nth 1 (sh data) 0 =? length freqs) then Err EValueError    (* 1744-1745 *)
      else bind (freq_range d) (fun fr =>
           Ok (shift_channels None (cells_from (snd fr / 1000000) (map (fun f => f / 1000000)%Q freqs) dm dt) data))
  end.
Definition process (d : dynspec A) (l : lane A) : res (option (sdata sample U)) :=
  bind (select_data d l) (fun r =>
  match r with
  | None => Ok None
  | Some (freqs, times, raw) =>
      bind (stokes l freqs times raw) (fun data =>
      bind (bp_correct (d_bp d) (l_nchan l) data) (fun data =>
      bind (obs_nchan (d_lanes d)) (fun c =>
      bind (remove_edges c (d_edge d) data) (fun data =>
      let data := clean (d_rfi d) data in
      let data := correct_jumps (d_jump d) (l_dt l) data in
      bind (dedisperse d data freqs (l_dt l)) (fun data =>
      bind (rebin_axis 0 (d_rebin_dt d) (l_dt l) data times) (fun dt =>
      bind (rebin_axis 1 (d_rebin_df d) (l_df l) (fst dt) freqs) (fun df =>
      bind (sdata_new (snd dt) (snd df) polar (fst df)) (fun s => Ok (Some s)))))))))
  end).
Fixpoint get_lanes (d : dynspec A) (lanes : list (lane A)) (spec : option (sdata sample U))
  : res (option (sdata sample U)) :=
  match lanes with
  | [] => Ok spec
  | l :: rest =>
      bind (process d l) (fun r =>
      match r, spec with
      | None, _ => get_lanes d rest spec
      | Some s, None => get_lanes d rest (Some s)
      | Some s, Some t => bind (s_and units_of t (OSData s)) (fun u => get_lanes d rest (Some u))
      end)
  end.
Definition dynspec_get (d : dynspec A) : res (option (sdata sample U)) := get_lanes d (d_lanes d) None.
End Process.

(** ** [write_hdf5]: 1204-1307

    [run d name] is [d.get(name)].  A dataset: its name, the values [amp[:, :, 0]],
    the coordinates attached to its first and second axes.  The root attributes, and
    what is left in the file after an exception, are not modelled. *)
Record dataset := mkSet { ds_name : string; ds_data : nd sample; ds_first : string * list Q; ds_second : string * list Q }.
Record beam_group := mkGroup { g_beam : Z; g_start : Q; g_end : Q; g_fmin : Q; g_fmax : Q; g_sets : list dataset }.
Section Write.
Context {A U : Type}.
Variable upper : string -> string.
Variable run : dynspec A -> string -> res (option (sdata sample U)).

(** [amp[:, :, 0]] *)
Definition first_polar (s : sdata sample U) : nd sample :=
  mkNd (firstn 2 (sh (s_data s))) (fun idx => get (s_data s) (idx ++ [0])).
(** 1253-1301: [coords] are those of the first Stokes parameter of the beam. *)
Fixpoint write_stokes (d : dynspec A) (names : list string) (coords : option (list Q * list Q)) (done : list dataset)
  : res (option (list Q * list Q) * list dataset) :=
  match names with
  | [] => Ok (coords, done)
  | n :: rest =>
      bind (run d n) (fun r =>
      match r with
      | None => Err EAttributeError                                      (* 1263: None has no amp *)
      | Some s =>
          if existsb (fun x => String.eqb (ds_name x) (String.append "STOKES_" (upper n))) done then Err EValueError
          else
            let c := match coords with Some c => c | None => (s_freq s, s_time s) end in
            write_stokes d rest (Some c)
              (done ++ [mkSet (String.append "STOKES_" (upper n)) (first_polar s)
                          ("frequency"%string, fst c) ("time"%string, snd c)])
      end)
  end.
Fixpoint write_beams (d : dynspec A) (beams : list Z) (names : list string) (done : list beam_group)
  : res (dynspec A * list beam_group) :=
  match beams with
  | [] => Ok (d, done)
  | b :: rest =>
      if negb (existsb (Z.eqb b) (obs_beams (d_lanes d))) then Err EIndexError     (* 1236-1239 *)
      else if existsb (fun g => (g_beam g =? b)%Z) done then Err EValueError       (* create_group *)
      else
        let d' := with_beam d b in                                                 (* 1247 *)
        bind (write_stokes d' names None []) (fun r =>
        match r with
        | (None, sets) => write_beams d' rest names (done ++ [mkGroup b 0 0 0 0 sets])
        | (Some (f, t), sets) =>
            bind (M_Dedisperse.qmax_list f) (fun fmax =>
            bind (M_Select.qmin_list f) (fun fmin =>
            write_beams d' rest names (done ++ [mkGroup b (hd 0%Q t) (last t 0%Q) fmin fmax sets])))
        end)
  end.
Definition write_hdf5 (d : dynspec A) (names : list string) (beams : list Z) : res (dynspec A * list beam_group) :=
  write_beams d beams names [].
End Write.
