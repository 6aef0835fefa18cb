(** Model of nenupy/observation/obs_config.py: the configurations of the receivers and
    their data volumes.
    Numbers are exact rationals; volumes are in bytes (the code converts to Mibyte or
    Gibyte).  The default start time [Time.now()] is left out ([None]).  [accepts] is that of
    nenupy/miscellaneous.py 27-70.  Parsets are those of [M_Parset]; [secs] gives the
    seconds of a date, [py_float] is [float(s)] ([None]: ValueError). *)
From Coq Require Import Ascii String List Arith ZArith QArith Qabs Bool.
From Verif Require Import Base M_Polar M_Dedisperse M_Pipeline M_PText M_POptions M_Parset.
Import ListNotations.
Open Scope nat_scope.
Open Scope list_scope.

(** ** Properties of the receivers (55-235) *)
Inductive backend := Nickel | Raw | Tf | Bst | Fold | Wave | Single.
Inductive attr := NSubBands | NChannels | NPolars | NMAs | TimeRes | NBits | FreqRes | TFold | NBins | DsTime.
Definition attr_eqb (a b : attr) : bool :=
  match a, b with
  | NSubBands, NSubBands | NChannels, NChannels | NPolars, NPolars | NMAs, NMAs | TimeRes, TimeRes | NBits, NBits
  | FreqRes, FreqRes | TFold, TFold | NBins, NBins | DsTime, DsTime => true
  | _, _ => false
  end.
Definition attr_name (a : attr) : string :=
  match a with
  | NSubBands => "nSubBands" | NChannels => "nChannels" | NPolars => "nPolars" | NMAs => "nMAs" | TimeRes => "timeRes"
  | NBits => "nBits" | FreqRes => "freqRes" | TFold => "tFold" | NBins => "nBins" | DsTime => "dsTime"
  end.
Record range := mkRange { r_min : Q; r_max : Q; r_default : Q }.
Definition ints (a b d : Z) : range := mkRange (inject_Z a) (inject_Z b) (inject_Z d).
Definition props (b : backend) : list (attr * range) :=
  match b with
  | Nickel => [(NSubBands, ints 1 384 384); (NChannels, ints 1 64 64); (NPolars, ints 1 4 4); (NMAs, ints 2 102 96); (TimeRes, mkRange 0 10 1)]
  | Raw => [(NPolars, ints 1 4 4); (NSubBands, ints 1 192 192); (NBits, ints 8 16 8)]
  | Tf => [(NPolars, ints 1 4 4); (TimeRes, mkRange (32 # 100000) (8389 # 100000) (5 # 1000)); (FreqRes, mkRange 95 12210 6100); (NSubBands, ints 1 768 768)]
  | Bst => [(NSubBands, ints 1 768 768); (NPolars, ints 1 2 2)]
  | Fold => [(NSubBands, ints 1 192 192); (NPolars, ints 1 4 4); (TFold, mkRange (536870912 # 100000000) (2147483648 # 100000000) (1073741824 # 100000000)); (NBins, ints 16 8096 2048)]
  | Wave => [(NSubBands, ints 1 192 192)]
  | Single => [(NSubBands, ints 1 192 192); (NPolars, ints 1 4 4); (DsTime, ints 1 4096 128); (NBits, ints 8 64 32)]
  end.
Fixpoint assoc {V} (a : attr) (l : list (attr * V)) : option V :=
  match l with [] => None | (b, v) :: r => if attr_eqb a b then Some v else assoc a r end.
Fixpoint store {V} (a : attr) (v : V) (l : list (attr * V)) : list (attr * V) :=
  match l with [] => [(a, v)] | (b, w) :: r => if attr_eqb a b then (b, v) :: r else (b, w) :: store a v r end.

(** ** [_BackendConfig] *)
(** A value: int, float, TimeDelta (in seconds), Quantity (in Hz), or another object with
    what [float()] makes of it. *)
Inductive arg := AInt (n : Z) | AFloat (x : Q) | ADelta (s : Q) | AFreq (hz : Q) | AOther (as_float : option Q).
Record config := mkConfig { c_backend : backend; c_values : list (attr * Q); c_duration : Q; c_start : option Q }.
Definition get (c : config) (a : attr) : option Q := assoc a (c_values c).

(** The decorators of the setters, 312-460. *)
Definition convert (a : attr) (x : arg) : res Q :=
  match a with
  | TimeRes | TFold => match x with AInt n => Ok (inject_Z n) | AFloat q | ADelta q => Ok q | _ => Err ETypeError end
  | FreqRes => match x with AInt n => Ok (inject_Z n) | AFloat q | AFreq q => Ok q | _ => Err ETypeError end
  | _ => match x with AInt n => Ok (inject_Z n) | _ => Err ETypeError end
  end.
(** 406, 425 *)
Definition is2pow (n : Z) : bool := (Z.land n (n - 1) =? 0)%Z && negb (n =? 0)%Z.
Definition pow2_fails (a : attr) (x : arg) : bool :=
  match a, x with
  | DsTime, AInt n | NBits, AInt n => negb (is2pow n)
  | _, _ => false
  end.
Definition Qgt_bool (a b : Q) : bool := negb (Qle_bool a b).
(** 490-506 *)
Definition check_attr (b : backend) (a : attr) (v : Q) : res Q :=
  match assoc a (props b) with
  | None => Err EKeyError
  | Some r => Ok (if Qgt_bool v (r_max r) then r_default r else if Qgt_bool (r_min r) v then r_default r else v)
  end.
Definition set_attr (c : config) (a : attr) (x : arg) : res config :=
  bind (convert a x) (fun v =>
  if pow2_fails a x then Err EValueError
  else bind (check_attr (c_backend c) a v) (fun v => Ok (mkConfig (c_backend c) (store a v (c_values c)) (c_duration c) (c_start c)))).
(** 470-480: [strict=False], so [float()] is tried. *)
Definition duration_of (x : arg) : res Q :=
  match x with
  | AInt n => Ok (inject_Z n)
  | AFloat q | ADelta q => Ok q
  | AFreq _ => Err ETypeError
  | AOther (Some q) => Ok q
  | AOther None => Err ETypeError
  end.
Definition set_duration (c : config) (x : arg) : res config :=
  bind (duration_of x) (fun d => Ok (mkConfig (c_backend c) (c_values c) d (c_start c))).

(** [kwargs]: the names are distinct. *)
Notation kwargs := (list (string * arg)) (only parsing).
Fixpoint kw (k : string) (l : kwargs) : option arg :=
  match l with [] => None | (k', v) :: r => if String.eqb k k' then Some v else kw k r end.
(** The names of [dir(self)] without underscore: the properties of [_BackendConfig], the
    attribute [startTime], and those of the class. *)
Definition common_dir : list string :=
  map attr_name [NSubBands; NChannels; NBins; NPolars; TimeRes; TFold; DsTime; NBits; FreqRes; NMAs] ++ ["durationSec"; "startTime"]%string.
Definition directory (public : bool) : list string := (if public then ["volume"; "fromParset"]%string else ["volume"]%string) ++ common_dir.
Definition name_refused (dir : list string) (k : string) : bool := starts_with "_" k || negb (existsb (String.eqb k) dir).
Definition default_arg (a : attr) (d : Q) : arg := match a with TimeRes | TFold | FreqRes => AFloat d | _ => AInt (Qround.Qfloor d) end.
Fixpoint set_all (l : list (attr * range)) (k : kwargs) (c : config) : res config :=
  match l with
  | [] => Ok c
  | (a, r) :: rest => bind (set_attr c a (match kw (attr_name a) k with Some x => x | None => default_arg a (r_default r) end)) (set_all rest k)
  end.
(** 264-301.  [start] stands for the keyword [startTime]. *)
Definition init (public : bool) (b : backend) (k : kwargs) (start : option Q) : res config :=
  bind (match kw "durationSec" k with Some x => duration_of x | None => Ok 0%Q end) (fun d =>
  if existsb (fun p => name_refused (directory public) (fst p)) k then Err EAttributeError
  else set_all (props b) k (mkConfig b [] d start)).

(** ** Volumes *)
Definition qdiv (a b : Q) : option Q := if Qeq_bool b 0 then None else Some (a / b)%Q.
Definition clipped (d : Q) : Q := if Qgt_bool 0 d then 0%Q else d.
Definition value (c : config) (a : attr) : Q := match get c a with Some v => v | None => 0%Q end.
Definition tick : Q := 512 # 100000000.
(** 545, 651-655, 837-839, 1003-1007, 1141-1144, 1271-1274, 1398-1402.  [None]: not a finite number. *)
Definition config_volume (c : config) : option Q :=
  let v := value c in let d := c_duration c in
  match c_backend c with
  | Bst => Some (v NPolars * d * v NSubBands * 4)%Q
  | Nickel => let baselines := (v NMAs * (v NMAs - 1) / 2 + v NMAs)%Q in
              option_map (fun per_sb => per_sb * v NSubBands * d)%Q (qdiv (v NPolars * baselines * 8 * v NChannels) (v TimeRes))
  | Tf => option_map (fun per_sb => per_sb * v NSubBands * d)%Q
            (match qdiv (200000000 / 1024) (v FreqRes) with None => None | Some x => qdiv (v NPolars * 4 * x) (v TimeRes) end)
  | Raw => Some (v NPolars * (v NBits / 8) / tick * v NSubBands * (d - 60))%Q
  | Fold => option_map (fun rate => rate * clipped (d - 60))%Q (qdiv (v NSubBands * v NPolars * 4 * v NBins) (v TFold))
  | Wave => Some (451590 * v NSubBands * clipped (d - 60))%Q
  | Single => option_map (fun rate => rate * clipped (d - 60))%Q (qdiv (v NSubBands * v NPolars * (v NBits / 8) / tick) (v DsTime))
  end.

(** ** [_checkDFvsDT] (771-817) *)
Fixpoint argmin_from (x : Q) (best : Q) (l : list Q) : Q :=
  match l with
  | [] => best
  | y :: r => if Qgt_bool (Qabs (best - x)) (Qabs (y - x)) then argmin_from x y r else argmin_from x best r
  end.
Definition closest (x : Q) (l : list Q) : Q := match l with [] => 0%Q | y :: r => argmin_from x y r end.
Definition allowed_fftlen : list Q := map (fun k => inject_Z (2 ^ (Z.of_nat k + 4))) (seq 0 8).
Definition allowed_nfft2int : list Q := map (fun k => inject_Z (2 ^ (Z.of_nat k + 2))) (seq 0 9).
Definition fft_length (df : Q) : Q := closest (1 / tick / df) allowed_fftlen.
Definition fft_number (dt df : Q) : Q := closest (dt / (tick * fft_length df)) allowed_nfft2int.
Definition effective (dt df : Q) : Q * Q := ((tick * fft_length df * fft_number dt df)%Q, (1 / tick / fft_length df)%Q).

(** ** The classes of a receiver *)
(** [_UnDySPuTeDConfig]: the properties of the object, and its beams. *)
Record dev := mkDev { d_main : option config; d_beams : list config; d_start : option Q }.
Inductive receiver := One (c : config) | Beams (d : dev).
(** BSTConfig, NICKELConfig; TFConfig 866-880; the others 1021, 1158, 1288, 1416. *)
Fixpoint kw_set (k : string) (x : arg) (l : kwargs) : kwargs :=
  match l with [] => [(k, x)] | (k', y) :: r => if String.eqb k k' then (k', x) :: r else (k', y) :: kw_set k x r end.
Definition make (b : backend) (k : kwargs) (start : option Q) : res receiver :=
  match b with
  | Bst | Nickel => bind (init true b k start) (fun c => Ok (One c))
  | Tf => bind (init true Tf k start) (fun c =>
          let '(dt, df) := effective (value c TimeRes) (value c FreqRes) in
          bind (set_attr c TimeRes (AFloat dt)) (fun c =>
          bind (set_attr c FreqRes (AFloat df)) (fun c =>
          bind (init false Tf (kw_set "freqRes" (AFloat (value c FreqRes)) (kw_set "timeRes" (AFloat (value c TimeRes)) k)) start) (fun beam =>
          Ok (Beams (mkDev (Some c) [beam] start))))))
  | _ => bind (init true b k start) (fun c => bind (init false b k start) (fun beam => Ok (Beams (mkDev (Some c) [beam] start))))
  end.
Fixpoint sum_volumes (l : list (option Q)) : option Q :=
  match l with [] => Some 0%Q | None :: _ => None | Some v :: r => option_map (fun s => (v + s)%Q) (sum_volumes r) end.
(** 919-922 and the like. *)
Definition receiver_volume (r : receiver) : option Q :=
  match r with One c => config_volume c | Beams d => sum_volumes (map config_volume (d_beams d)) end.
(** [receiver.attr = x]: of an object made from a parset nothing is checked against its
    backend, [self._backend] is missing. *)
Definition receiver_set (r : receiver) (a : attr) (x : arg) : res receiver :=
  match r with
  | One c => bind (set_attr c a x) (fun c => Ok (One c))
  | Beams d =>
      match d_main d with
      | Some c => bind (set_attr c a x) (fun c => Ok (Beams (mkDev (Some c) (d_beams d) (d_start d))))
      | None => bind (convert a x) (fun _ => if pow2_fails a x then Err EValueError else Err EAttributeError)
      end
  end.
Definition receiver_set_duration (r : receiver) (x : arg) : res receiver :=
  match r with
  | One c => bind (set_duration c x) (fun c => Ok (One c))
  | Beams d => bind (duration_of x) (fun q =>
                 Ok (Beams (mkDev (option_map (fun c => mkConfig (c_backend c) (c_values c) q (c_start c)) (d_main d)) (d_beams d) (d_start d))))
  end.
Definition receiver_start (r : receiver) : option Q := match r with One c => c_start c | Beams d => d_start d end.

(** ** [_parseParameters] (736-765) *)
Fixpoint split_dashes (s : string) : list string :=
  match s with
  | EmptyString => [EmptyString]
  | String a r =>
      let here := match split_dashes r with h :: t => String a h :: t | [] => [String a EmptyString] end in
      match r with
      | EmptyString => here
      | String b r' => if Ascii.eqb a "-" && Ascii.eqb b "-" then EmptyString :: split_dashes r' else here
      end
  end.
(** [s.split()] *)
Fixpoint words_from (current : string) (s : string) : list string :=
  match s with
  | EmptyString => if String.eqb current "" then [] else [current]
  | String a r => if is_space a then (if String.eqb current "" then words_from "" r else current :: words_from "" r)
                  else words_from (current ++ String a EmptyString)%string r
  end.
Definition words (s : string) : list string := words_from EmptyString s.
(** A value of the dictionary: a text or [True]. *)
Inductive dval := DText (s : string) | DTrue.
Definition parse_parameters (text : string) (pulsar : bool) : string * list (string * dval) :=
  let p := lower text in
  let mode := match split_char ":" p with m :: _ => m | [] => EmptyString end in
  let pairs := filter (has_char "=") (if pulsar then split_dashes p else words p) in
  let flags := filter (fun s => negb (has_char "=" s)) (split_dashes p) in
  let put d s := match split_char "=" s with k :: v :: _ => dict_set String.eqb k (DText v) d | _ => d end in
  (mode, fold_left (fun d s => dict_set String.eqb (rstrip_sp s) DTrue d) flags (fold_left put pairs [])).

(** ** [fromParset] *)
Section FromParset.
  Variable ck : clock.
  Variable secs : date ck -> Q.
  Variable py_float : string -> option Q.

  Definition item_get (k : string) (p : property ck) : res (pval ck) := match dict_get String.eqb k p with Some v => Ok v | None => Err EKeyError end.
  (** [x in value] for a text [x]. *)
  Definition contains_text (x : string) (v : pval ck) : res bool :=
    match v with
    | PStr _ s => Ok (has_sub x s)
    | PList _ l => Ok (existsb (fun i => match i with IStr _ s => String.eqb x s | _ => false end) l)
    | _ => Err ETypeError
    end.
  (** [int(value.replace("s", ""))] *)
  Definition int_of_duration (v : pval ck) : res Z :=
    match v with
    | PStr _ s => match py_int (drop_char "s" s) with Some n => Ok n | None => Err EValueError end
    | _ => Err EAttributeError
    end.
  Definition beam_duration (p : property ck) : res Z := bind (item_get "duration" p) int_of_duration.
  (** [len(value)] *)
  Definition len_of (v : pval ck) : res Z :=
    match v with
    | PList _ l => Ok (Z.of_nat (length l))
    | PStr _ s => Ok (Z.of_nat (String.length s))
    | _ => Err ETypeError
    end.
  Definition arg_of (v : pval ck) : arg :=
    match v with
    | PInt _ n => AInt n
    | PBool _ b => AInt (if b then 1 else 0)
    | PStr _ s => AOther (py_float s)
    | _ => AOther None
    end.
  Definition lower_of (v : pval ck) : res string := match v with PStr _ s => Ok (lower s) | _ => Err EAttributeError end.
  Definition start_of (p : parset ck) : res (option Q) :=
    bind (item_get "startTime" (p_observation ck p)) (fun v => Ok (match v with PTime _ t => Some (secs t) | _ => None end)).

  (** 573-593: the distinct times of all the beams, one per second. *)
  Definition insert_time (l : list Q) (t : Q) : list Q := if existsb (Qeq_bool t) l then l else l ++ [t].
  Fixpoint bst_times (l : list Q) (beams : list (property ck)) : res (list Q) :=
    match beams with
    | [] => Ok l
    | b :: r =>
        bind (beam_duration b) (fun n =>
        bind (item_get "startTime" b) (fun t =>
        match t with
        | PTime _ t => bst_times (fold_left insert_time (map (fun i => (secs t + inject_Z (Z.of_nat i))%Q) (seq 0 (Z.to_nat n))) l) r
        | _ => Err ETypeError
        end))
    end.
  Definition bst_from (p : parset ck) : res receiver :=
    bind (bst_times [] (map snd (p_digibeams ck p))) (fun l =>
    bind (start_of p) (fun t => make Bst [("durationSec"%string, AInt (Z.of_nat (length l)))] t)).
  (** 687-714 *)
  Definition nickel_from (p : parset ck) : res receiver :=
    let unused := bind (start_of p) (make Nickel []) in
    match dict_get String.eqb "nri_receivers"%string (p_output ck p) with
    | None => unused
    | Some v =>
        bind (contains_text "nickel" v) (fun used =>
        if negb used then unused
        else bind (match dict_get Z.eqb 0%Z (p_anabeams ck p) with Some a => Ok a | None => Err EKeyError end) (fun a =>
             bind (beam_duration a) (fun d =>
             bind (item_get "nri_dumpTime" (p_output ck p)) (fun dt =>
             bind (bind (item_get "nri_subbandList" (p_output ck p)) len_of) (fun nsb =>
             bind (item_get "nri_channelization" (p_output ck p)) (fun ch =>
             bind (bind (item_get "maList" a) len_of) (fun nma =>
             bind (start_of p) (make Nickel
               [("durationSec", AInt d); ("timeRes", arg_of dt); ("nSubBands", AInt nsb); ("nChannels", arg_of ch); ("nMAs", AInt nma)]%string))))))))
    end.
  (** The loops on the digital beams: [Ok None] when the beam is passed over. *)
  Definition float_of (d : dval) : res Q := match d with DTrue => Ok 1%Q | DText s => match py_float s with Some x => Ok x | None => Err EValueError end end.
  Definition int_of (d : dval) : res Z := match d with DTrue => Ok 1%Z | DText s => match py_int s with Some x => Ok x | None => Err EValueError end end.
  Definition sub_bands (b : property ck) : res Z := bind (item_get "subbandList" b) len_of.
  Definition param (k : string) (d : list (string * dval)) : res dval := match dict_get String.eqb k d with Some v => Ok v | None => Err EKeyError end.
  Definition optional {A} (f : dval -> res A) (k : string) (d : list (string * dval)) (default : A) : res A :=
    match dict_get String.eqb k d with Some v => f v | None => Ok default end.
  Definition polars (d : list (string * dval)) : Z := match dict_get String.eqb "onlyi"%string d with Some _ => 1 | None => 4 end.
  (** 965-992, 1088-1097, 1223-1258, 1350-1380, 1478-1512 *)
  Definition beam_from (b : backend) (db : property ck) : res (option config) :=
    bind (bind (item_get "toDo" db) lower_of) (fun todo =>
    let wanted := match b with Tf => "dynamicspectrum" | Raw => "waveform" | _ => "pulsar" end%string in
    if negb (String.eqb todo wanted) then Ok None
    else match b with
    | Raw =>
        bind (beam_duration db) (fun d =>
        bind (sub_bands db) (fun n =>
        bind (init false Raw [("durationSec", AInt d); ("nSubBands", AInt n)]%string None) (fun c => Ok (Some c))))
    | _ =>
        match dict_get String.eqb "parameters"%string db with
        | None => Ok None
        | Some v =>
            bind (match v with PStr _ s => Ok s | _ => Err EAttributeError end) (fun s =>
            let '(mode, par) := parse_parameters s (match b with Tf => false | _ => true end) in
            let name := match b with Tf => "tf" | Fold => "fold" | Wave => "waveolaf" | _ => "single" end%string in
            if negb (String.eqb mode name) then Ok None
            else bind (match b with
              | Tf =>
                  bind (bind (param "dt" par) float_of) (fun dt =>
                  bind (bind (param "df" par) float_of) (fun df =>
                  let '(dt, df) := effective (dt / 1000) (df * 1000) in
                  bind (beam_duration db) (fun d =>
                  bind (sub_bands db) (fun n =>
                  Ok [("timeRes", AFloat dt); ("freqRes", AFloat df); ("durationSec", AInt d); ("nSubBands", AInt n)]%string))))
              | Fold =>
                  bind (sub_bands db) (fun n =>
                  bind (optional float_of "tfold" par (1073741824 # 100000000)) (fun t =>
                  bind (beam_duration db) (fun d =>
                  bind (optional int_of "nbin" par 2048%Z) (fun nb =>
                  Ok [("nSubBands", AInt n); ("nPolars", AInt (polars par)); ("tFold", AFloat t); ("durationSec", AInt d); ("nBins", AInt nb)]%string))))
              | Wave =>
                  bind (sub_bands db) (fun n =>
                  bind (beam_duration db) (fun d => Ok [("nSubBands", AInt n); ("durationSec", AInt d)]%string))
              | _ =>
                  bind (sub_bands db) (fun n =>
                  bind (optional int_of "dstime" par 128%Z) (fun ds =>
                  bind (beam_duration db) (fun d =>
                  bind (optional int_of "nbits" par 32%Z) (fun nb =>
                  Ok [("nSubBands", AInt n); ("nPolars", AInt (polars par)); ("dsTime", AInt ds); ("durationSec", AInt d); ("nBits", AInt nb)]%string))))
              end) (fun k => bind (init false b k None) (fun c => Ok (Some c))))
        end
    end).
  Fixpoint beams_from (b : backend) (l : list (property ck)) : res (list config) :=
    match l with
    | [] => Ok []
    | db :: r => bind (beam_from b db) (fun o => bind (beams_from b r) (fun cs => Ok (match o with Some c => c :: cs | None => cs end)))
    end.
  Definition dev_from (b : backend) (p : parset ck) : res receiver :=
    bind (start_of p) (fun t =>
    bind (bind (item_get "hd_receivers" (p_output ck p)) (contains_text "undysputed")) (fun used =>
    if used then bind (beams_from b (map snd (p_digibeams ck p))) (fun l => Ok (Beams (mkDev None l t)))
    else Ok (Beams (mkDev None [] t)))).
  Definition from_parset (b : backend) (p : parset ck) : res receiver :=
    match b with Bst => bst_from p | Nickel => nickel_from p | _ => dev_from b p end.

  (** ** [ObsConfig] *)
  (** 1520-1530, in the order of the dictionary. *)
  Definition backends : list backend := [Nickel; Raw; Tf; Bst; Fold; Wave; Single].
End FromParset.
Arguments from_parset {ck} secs py_float b p.

Definition backend_eqb (a b : backend) : bool :=
  match a, b with Nickel, Nickel | Raw, Raw | Tf, Tf | Bst, Bst | Fold, Fold | Wave, Wave | Single, Single => true | _, _ => false end.
Notation obs := (list (backend * list receiver)) (only parsing).
Definition receivers (o : obs) (b : backend) : list receiver :=
  match find (fun p => backend_eqb (fst p) b) o with Some p => snd p | None => [] end.
(** 1543-1545 *)
Definition obs_empty : obs := map (fun b => (b, [])) backends.
(** 1548-1556 *)
Definition obs_add (o o' : obs) : obs := map (fun b => (b, receivers o b ++ receivers o' b)) backends.
(** 1588-1591 *)
Definition obs_volume (o : obs) (b : backend) : option Q := sum_volumes (map receiver_volume (receivers o b)).
(** 1615-1624 *)
Fixpoint obs_all {ck} (secs : date ck -> Q) (py_float : string -> option Q) (p : parset ck) (l : list backend) : res obs :=
  match l with
  | [] => Ok []
  | b :: r => bind (from_parset secs py_float b p) (fun x => bind (obs_all secs py_float p r) (fun o => Ok ((b, [x]) :: o)))
  end.
Definition obs_from {ck} (secs : date ck -> Q) (py_float : string -> option Q) (p : parset ck) : res obs := obs_all secs py_float p backends.
(** 1652-1657 *)
Fixpoint obs_from_list {ck} (secs : date ck -> Q) (py_float : string -> option Q) (total : obs) (l : list (parset ck)) : res obs :=
  match l with
  | [] => Ok total
  | p :: r => bind (obs_from secs py_float p) (fun o => obs_from_list secs py_float (obs_add total o) r)
  end.
(** 1694-1704, of observations with a date: [argsort] keeps here the order of the equal ones
    (numpy does not promise it); the volumes in order, then their running sums. *)
Fixpoint insert_obs (x : Q * Q) (l : list (Q * Q)) : list (Q * Q) :=
  match l with [] => [x] | y :: r => if Qgt_bool (fst y) (fst x) then x :: l else y :: insert_obs x r end.
Definition sort_obs (l : list (Q * Q)) : list (Q * Q) := fold_left (fun s x => insert_obs x s) l [].
Fixpoint running (s : Q) (l : list Q) : list Q := match l with [] => [] | v :: r => (s + v)%Q :: running (s + v) r end.
Definition cumulative (l : list (Q * Q)) : list Q * list Q :=
  let s := sort_obs l in (map fst s, running 0 (map snd s)).
