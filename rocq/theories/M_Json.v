(** Model of nenupy/observation/parset.py, the description of a parset kept by the
    database: [_parse_parameters] 166-195 (as in [M_Config]), the dictionaries 197-411,
    the settings of the receivers 413-556, [_JsonEntry] 559-767 and [Parset.version],
    [Parset.to_json] 814-882.

    Dictionaries of the result are records; those of a receiver are the constructors
    of [setting].  Dates stand for their text ([isot]).  Sky coordinates, time
    differences and [float] are the functions of [world].  The name of the parset, its
    user part, the messages and the file written (753-757, 876-880) are not modelled. *)
From Coq Require Import Ascii String List Arith ZArith QArith Bool.
From Verif Require Import Base M_Polar M_Pipeline M_Subbands M_PText M_Parset M_Config.
Import ListNotations.
Open Scope nat_scope.

(** Degrees of an angle; [TimeDelta(x, format='sec')] in seconds; [date + seconds] and
    [date - date]; horizontal to equatorial coordinates at a date and back (degrees);
    both kinds for a source of the Solar System at a date; [float(text)]. *)
Record world (ck : clock) := mkWorld {
  w_deg : angle ck -> Q;
  w_delta : pval ck -> res Q;
  w_add : date ck -> Q -> date ck;
  w_sub : date ck -> date ck -> Q;
  w_icrs : date ck -> Q -> Q -> Q * Q;
  w_altaz : date ck -> Q -> Q -> Q * Q;
  w_solar : string -> date ck -> res ((Q * Q) * (Q * Q));
  w_float : string -> option Q }.

(** ** Topics: the regular expression 606 *)
Definition is_upper (c : ascii) : bool := let n := nat_of_ascii c in (65 <=? n) && (n <=? 90).
(** [\w], among the characters of ASCII. *)
Definition is_word (c : ascii) : bool :=
  let n := nat_of_ascii c in is_digit c || is_upper c || ((97 <=? n) && (n <=? 122)) || (n =? 95).
Fixpoint all_word (s : string) : bool := match s with EmptyString => true | String a r => is_word a && all_word r end.
(** [[0]?[0-9]|1[0-top]] *)
Definition two_digits (top : ascii) (s : string) : bool :=
  match s with
  | String a EmptyString => is_digit a
  | String a (String b EmptyString) =>
      (Ascii.eqb a "0" && is_digit b) || (Ascii.eqb a "1" && is_digit b && (nat_of_ascii b <=? nat_of_ascii top))
  | _ => false
  end.
(** [\d+[A-Z]] *)
Fixpoint digits_upper (s : string) : bool :=
  match s with
  | String a (String b EmptyString) => is_digit a && is_upper b
  | String a r => is_digit a && digits_upper r
  | EmptyString => false
  end.
Definition is_code (s : string) : bool :=
  match s with
  | String "E" (String "S" r) => two_digits "7" r
  | String "L" (String "T" r) => negb (String.prefix "08" r) && two_digits "3" r
  | String "R" (String "P" r) => digits_upper r
  | String "S" (String "P" r) => String.eqb r "16" || String.eqb r "17"
  | _ => false
  end.
(** The groups "code" and "name". *)
Definition match_topic (s : string) : option (string * string) :=
  match split_once " " s with
  | Some (code, name) => if is_code code && negb (String.eqb name "") && all_word name then Some (code, name) else None
  | None => None
  end.

(** ** Versions: 814-823.  Tuples of integers in lexicographic order. *)
Fixpoint ints_of (l : list string) : res (list Z) :=
  match l with
  | [] => Ok []
  | s :: r => match py_int s with Some n => bind (ints_of r) (fun q => Ok (n :: q)) | None => Err EValueError end
  end.
Definition version_of {ck} (o : property ck) : res (list Z) :=
  match dict_get String.eqb "parsetVersion"%string o with
  | None => Ok [0%Z]
  | Some (PStr _ s) => if String.eqb s "" then Ok [1; 0]%Z else ints_of (split_char "." s)
  | Some _ => Err EAttributeError
  end.
Fixpoint tuple_lt (a b : list Z) : bool :=
  match a, b with
  | _, [] => false
  | [], _ :: _ => true
  | x :: a', y :: b' => if (x <? y)%Z then true else if (x =? y)%Z then tuple_lt a' b' else false
  end.
(** [version < (1, 0)] *)
Definition old_version (v : list Z) : bool := tuple_lt v [1; 0]%Z.

Section Json.
Context {ck : clock}.
Variable W : world ck.
Notation property := (M_Parset.property ck).
Notation pval := (M_Parset.pval ck).
Notation item := (M_Parset.item ck).

Definition has_key (k : string) (p : property) : bool := match dict_get String.eqb k p with Some _ => true | None => false end.
(** [float(property.get(k, 0.0))] *)
Definition shift_of (k : string) (p : property) : res Q :=
  match dict_get String.eqb k p with
  | None => Ok 0%Q
  | Some (PInt _ n) => Ok (inject_Z n)
  | Some (PBool _ b) => Ok (if b then 1%Q else 0%Q)
  | Some (PStr _ s) => match w_float ck W s with Some q => Ok q | None => Err EValueError end
  | Some _ => Err ETypeError
  end.
(** 212-223 *)
Definition constrain (lo hi x : Q) : Q := if negb (Qle_bool lo x) then lo else if negb (Qle_bool x hi) then hi else x.

(** 226-228 and 381-383: the start, the stop and the duration. *)
Definition times_of (p : property) : res (date ck * date ck * Q) :=
  bind (bind (item_get ck "duration" p) (w_delta ck W)) (fun d =>
  bind (item_get ck "startTime" p) (fun t =>
  match t with
  | PTime _ t => Ok (t, w_add ck W t d, d)
  | _ => Err ETypeError
  end)).
(** 230-233: the pointing of a file is recorded in the property. *)
Definition directed (p : property) : property :=
  if has_key "azelFile" p then dict_set String.eqb "directionType"%string (PStr ck "azelgeo_azelfile") p else p.

(** [SkyCoord(az + decal_az, alt + decal_el, frame=AltAz).transform_to(ICRS)] *)
Definition shifted_altaz (p : property) (t : date ck) (az alt : Q) : res (Q * Q) :=
  bind (shift_of "decal_az" p) (fun da =>
  bind (shift_of "decal_el" p) (fun de =>
  Ok (w_icrs ck W t (constrain 0 360 (az + da)) (constrain 0 90 (alt + de))))).
(** 266-279, 301-310, 349-360 *)
Definition shifted_radec (p : property) (c : Q * Q) : res (option Q * option Q) :=
  bind (shift_of "decal_ra" p) (fun dr =>
  bind (shift_of "decal_dec" p) (fun dd =>
  Ok (Some (constrain 0 360 (fst c + dr)), Some (constrain (-90) 90 (snd c + dd))))).
Definition angle_of (e : err) (k : string) (p : property) : res Q :=
  bind (item_get ck k p) (fun v => match v with PAngle _ a => Ok (w_deg ck W a) | _ => Err e end).
Definition by_horizon (p : property) : bool := has_key "decal_az" p || has_key "decal_el" p.

Record center := mkCenter { c_ra : option Q; c_dec : option Q; c_type : string }.
(** 208-374, [_get_pointing_center_dict] *)
Definition center_of (q : property) : res center :=
  bind (times_of q) (fun '(start, _, d) =>
  let p := directed q in
  let mid := w_add ck W start (d / 2)%Q in
  bind (bind (item_get ck "directionType" p) (fun v => lower_of ck v)) (fun kind =>
  bind (if String.eqb kind "j2000" then
          bind (angle_of EAttributeError "angle1" p) (fun ra =>
          bind (angle_of EAttributeError "angle2" p) (fun dec =>
          bind (if by_horizon p
                then let a := w_altaz ck W mid ra dec in shifted_altaz p mid (fst a) (snd a)
                else Ok (ra, dec)) (shifted_radec p)))
        else if String.eqb kind "azelgeo" then
          bind (angle_of ETypeError "angle1" p) (fun az =>
          bind (angle_of ETypeError "angle2" p) (fun alt =>
          bind (shifted_altaz p mid az alt) (shifted_radec p)))
        else if String.eqb kind "azelgeo_azelfile" then
          let c := w_icrs ck W mid 0 90 in Ok (Some (fst c), Some (snd c))
        else if String.eqb kind "natif" then Ok (None, None)
        else
          bind (w_solar ck W kind mid) (fun s =>
          bind (if by_horizon p then shifted_altaz p mid (fst (snd s)) (snd (snd s)) else Ok (fst s)) (shifted_radec p)))
    (fun c => Ok (mkCenter (fst c) (snd c) kind)))).

(** 376-393, [_get_time_dict]; [np.round(x, 3)]. *)
Record span := mkSpan { t_start : date ck; t_stop : date ck; t_duration : Q }.
Definition round3 (x : Q) : Q := (inject_Z (round_even (x * 1000)) / 1000)%Q.
Definition time_of (p : property) : res span := bind (times_of p) (fun '(a, b, d) => Ok (mkSpan a b (round3 d))).

(** 395-411: lists of integers are those of [frequency_ranges]; [np.diff] refuses a
    scalar (ValueError) and texts (TypeError). *)
Fixpoint all_ints (l : list item) : option (list Z) :=
  match l with
  | [] => Some []
  | IInt _ n :: r => option_map (cons n) (all_ints r)
  | _ => None
  end.
Definition freqs_of (p : property) (field : string) : res (list (Q * Q)) :=
  bind (item_get ck field p) (fun v =>
  match v with
  | PList _ l => match all_ints l with Some n => frequency_ranges n | None => Err ETypeError end
  | _ => Err EValueError
  end).

(** ** Receivers *)
Inductive setting :=
| SEmpty                                                                (* {} *)
| SDefault (f : list (Q * Q))                                           (* "LaNewBa", 1 s, 195.3125 kHz *)
| SFold (source : string) (polars : Z) (f : list (Q * Q))
| SSingle (source : string) (down polars : Z) (f : list (Q * Q))
| SWaveolaf (source : string) (f : list (Q * Q))
| SWave (source : string) (f : list (Q * Q))
| SWaveform (f : list (Q * Q))
| STf (dt df : Q) (f : list (Q * Q))                                    (* ms, kHz *)
| SNickel (channels dump : pval) (f : list (Q * Q))
| SXst (f : list (Q * Q)).
(** The entry "name". *)
Definition receiver_name (s : setting) : option string :=
  match s with
  | SEmpty => None
  | SDefault _ | SXst _ => Some "LaNewBa"%string
  | SNickel _ _ _ => Some "nickel"%string
  | _ => Some "undysputed"%string
  end.

(** [digibeam["parameters"]] parsed; [None] is the KeyError that is caught. *)
Definition parameters_of (p : property) (pulsar : bool) : res (option (string * list (string * dval))) :=
  match dict_get String.eqb "parameters"%string p with
  | None => Ok None
  | Some (PStr _ s) => Ok (Some (parse_parameters s pulsar))
  | Some _ => Err EAttributeError
  end.
(** The truth of [config.get(k, False)]. *)
Definition truthy (k : string) (c : list (string * dval)) : bool :=
  match dict_get String.eqb k c with
  | None => false
  | Some DTrue => true
  | Some (DText s) => negb (String.eqb s "")
  end.
(** [config["src"].rstrip()] *)
Definition source_of (c : list (string * dval)) : res string :=
  bind (param "src" c) (fun v => match v with DText s => Ok (rstrip_sp s) | DTrue => Err EAttributeError end).
Definition npolars (c : list (string * dval)) : Z := if truthy "onlyi" c then 1 else 4.

(** 413-426 *)
Definition default_setting (p : property) : res setting := bind (freqs_of p "subbandList") (fun f => Ok (SDefault f)).
(** 428-476 *)
Definition pulsar_setting (p : property) : res setting :=
  bind (parameters_of p true) (fun r =>
  match r with
  | None => bind (item_get ck "noBeam" p) (fun _ => Ok SEmpty)          (* the message *)
  | Some (mode, c) =>
      if String.eqb mode "fold" then
        bind (source_of c) (fun s => bind (freqs_of p "subbandList") (fun f => Ok (SFold s (npolars c) f)))
      else if String.eqb mode "single" then
        bind (source_of c) (fun s => bind (bind (param "dstime" c) int_of) (fun d =>
        bind (freqs_of p "subbandList") (fun f => Ok (SSingle s d (npolars c) f))))
      else if String.eqb mode "waveolaf" then
        bind (source_of c) (fun s => bind (freqs_of p "subbandList") (fun f => Ok (SWaveolaf s f)))
      else if String.eqb mode "wave" then
        bind (source_of c) (fun s => bind (freqs_of p "subbandList") (fun f => Ok (SWave s f)))
      else Ok SEmpty
  end).
(** 478-483 *)
Definition waveform_setting (p : property) : res setting := bind (freqs_of p "subbandList") (fun f => Ok (SWaveform f)).
(** 485-520: every KeyError of the second part is caught. *)
Definition dynspec_setting (p : property) : res setting :=
  bind (bind (parameters_of p false) (fun r =>
        match r with
        | Some (_, c) => Ok (Some c)
        | None => bind (item_get ck "noBeam" p) (fun _ => Ok None)
        end)) (fun config =>
  let body :=
    match config with
    | None => bind (freqs_of p "subbandList") (fun f => Ok (STf 5 (61 # 10) f))
    | Some c =>
        if truthy "tf: rawrt" c then waveform_setting p
        else bind (bind (param "dt" c) (float_of (w_float ck W))) (fun dt =>
             bind (bind (param "df" c) (float_of (w_float ck W))) (fun df =>
             bind (freqs_of p "subbandList") (fun f => Ok (STf dt df f))))
    end in
  match body with
  | Err EKeyError => bind (item_get ck "toDo" p) (fun _ => Ok SEmpty)
  | r => r
  end).
(** 522-549 *)
Definition nickel_setting (p output : property) (version : list Z) : res setting :=
  bind (item_get ck "nri_channelization" output) (fun ch =>
  bind (item_get ck "nri_dumpTime" output) (fun dump =>
  if old_version version then bind (freqs_of output "nri_subbandList") (fun f => Ok (SNickel ch dump f))
  else bind (bind (parameters_of p false) (fun r =>
             match r with Some _ => Ok tt | None => bind (item_get ck "noBeam" p) (fun _ => Ok tt) end)) (fun _ =>
       bind (freqs_of p "subbandList") (fun f => Ok (SNickel ch dump f))))).
(** ["nickel" in output.get("nri_receivers", [])] *)
Definition nickel_used (output : property) : res bool :=
  match dict_get String.eqb "nri_receivers"%string output with None => Ok false | Some v => contains_text ck "nickel" v end.
(** 551-555 *)
Definition tbd_setting (p output : property) (version : list Z) : res setting :=
  bind (nickel_used output) (fun b => if b && old_version version then nickel_setting p output version else default_setting p).
(** 557-564 and 678-681 *)
Definition setting_of (p output : property) (version : list Z) : res setting :=
  bind (match dict_get String.eqb "toDo"%string p with None => Ok "none"%string | Some v => lower_of ck v end) (fun k =>
  if String.eqb k "none" then default_setting p
  else if String.eqb k "pulsar" then pulsar_setting p
  else if String.eqb k "waveform" then waveform_setting p
  else if String.eqb k "dynamicspectrum" then dynspec_setting p
  else if String.eqb k "tbd" then tbd_setting p output version
  else if String.eqb k "nickel" then nickel_setting p output version
  else Err EKeyError).

(** ** Entries *)
(** A NICKEL pointing (688-705) has no "receiver": its setting is inlined. *)
Record pointing := mkPt {
  g_idx : Z; g_name : pval; g_center : center; g_time : span;
  g_receiver : option setting; g_inlined : option setting }.
Record fov := mkFov {
  f_idx : Z; f_pointings : list pointing; f_name : pval; f_center : center; f_time : span;
  f_squint : pval; f_optfreq : option pval; f_mas : list item; f_ants : list item; f_filters : list (Z * date ck) }.
Record metadata := mkMeta {
  m_start : date ck; m_stop : date ck; m_duration : Q; m_topic : string * string;
  m_title : option pval; m_contact : option pval; m_name : option pval }.
Record jentry := mkEntry { e_meta : metadata; e_fovs : list fov; e_pointings : list (nat * pointing) }.

(** 583-633 *)
Definition date_of (v : pval) : res (date ck) := match v with PTime _ t => Ok t | _ => Err EAttributeError end.
Definition metadata_of (o : property) : res metadata :=
  bind (bind (item_get ck "startTime" o) date_of) (fun a =>
  bind (bind (item_get ck "stopTime" o) date_of) (fun b =>
  bind (match dict_get String.eqb "topic"%string o with
        | None => Ok "LT00 DEBUG"%string
        | Some (PStr _ s) => Ok s
        | Some _ => Err ETypeError
        end) (fun topic =>
  Ok (mkMeta a b (round3 (w_sub ck W b a)) (match match_topic topic with Some t => t | None => ("LT00", "DEBUG")%string end)
        (dict_get String.eqb "title"%string o) (dict_get String.eqb "contactName"%string o) (dict_get String.eqb "name"%string o))))).

(** Iteration on a value: the elements of a list, the characters of a text. *)
Fixpoint chars (s : string) : list item := match s with EmptyString => [] | String a r => IStr ck (String a EmptyString) :: chars r end.
Definition iterate (v : pval) : res (list item) :=
  match v with PList _ l => Ok l | PStr _ s => Ok (chars s) | _ => Err ETypeError end.
(** 653 *)
Fixpoint filters_of (l m : list item) : res (list (Z * date ck)) :=
  match l, m with
  | x :: l', y :: m' =>
      bind (match x with IInt _ n => Ok n | IStr _ s => match py_int s with Some n => Ok n | None => Err EValueError end | ITime _ _ => Err ETypeError end) (fun n =>
      bind (match y with ITime _ t => Ok t | _ => Err EAttributeError end) (fun t =>
      bind (filters_of l' m') (fun r => Ok ((n, t) :: r))))
  | _, _ => Ok []
  end.
(** 636-654 *)
Definition fov_of (index : Z) (p : property) : res fov :=
  bind (item_get ck "target" p) (fun name =>
  bind (center_of p) (fun c =>
  bind (time_of p) (fun t =>
  bind (bind (item_get ck "maList" p) iterate) (fun mas =>
  bind (bind (item_get ck "antList" p) iterate) (fun ants =>
  bind (item_get ck "filter" p) (fun fl =>
  bind (item_get ck "filterTime" p) (fun ft =>
  bind (iterate fl) (fun l => bind (iterate ft) (fun m => bind (filters_of l m) (fun fs =>
  Ok (mkFov index [] name c t (match dict_get String.eqb "beamSquint"%string p with Some v => v | None => PBool ck false end)
        (dict_get String.eqb "optFrq"%string p) mas ants fs))))))))))).

(** 568-570, 684: the first field of view of that index.  Booleans are integers; no
    index equals a text (a list of indices would be compared one by one: not modelled). *)
Fixpoint position (n : Z) (l : list fov) : res nat :=
  match l with
  | [] => Err EIndexError
  | f :: r => if (f_idx f =? n)%Z then Ok 0 else bind (position n r) (fun k => Ok (S k))
  end.
Definition fov_index (v : pval) (l : list fov) : res nat :=
  match v with
  | PInt _ n => position n l
  | PBool _ b => position (if b then 1 else 0)%Z l
  | _ => Err EIndexError
  end.
(** 657-686 *)
Definition pointing_of (index : Z) (p output : property) (version : list Z) (fovs : list fov) : res (nat * pointing) :=
  bind (item_get ck "target" p) (fun name =>
  bind (center_of p) (fun c =>
  bind (time_of p) (fun t =>
  bind (setting_of p output version) (fun s =>
  bind (bind (item_get ck "noBeam" p) (fun v => fov_index v fovs)) (fun k =>
  Ok (k, mkPt index name c t (Some s) None)))))).
(** 688-705: the name is that of the setting. *)
Definition nickel_pointing (p output : property) (index : Z) : res (nat * pointing) :=
  bind (item_get ck "target" p) (fun _ =>
  bind (center_of p) (fun c =>
  bind (time_of p) (fun t =>
  bind (nickel_setting p output [0; 0]%Z) (fun s =>
  Ok (0, mkPt index (PStr ck "nickel") c t None (Some s)))))).
(** 707-747; [Time(text)] reads what [isot] has written. *)
Fixpoint xst_pointings (output : property) (first : nat) (i : nat) (l : list fov) : res (list (nat * pointing)) :=
  match l with
  | [] => Ok []
  | f :: r =>
      bind (match read_time ck (show_isot ck (t_start (f_time f))) with Some t => Ok t | None => Err EValueError end) (fun start =>
      let z := w_icrs ck W (w_add ck W start (t_duration (f_time f) / 2)%Q) 0 90 in
      bind (freqs_of output "xst_sbList") (fun fr =>
      bind (xst_pointings output first (S i) r) (fun q =>
      Ok ((i, mkPt (Z.of_nat (first + i)) (PStr ck "") (mkCenter (Some (fst z)) (Some (snd z)) "zenith_xst") (f_time f) (Some (SXst fr)) None) :: q))))
  end.

(** 572-580: the field of view keeps the pointings added. *)
Fixpoint append_to (k : nat) (g : pointing) (l : list fov) : list fov :=
  match l, k with
  | [], _ => []
  | f :: r, 0 => mkFov (f_idx f) (f_pointings f ++ [g]) (f_name f) (f_center f) (f_time f) (f_squint f) (f_optfreq f) (f_mas f) (f_ants f) (f_filters f) :: r
  | f :: r, S k' => f :: append_to k' g r
  end.
Definition data_of (e : jentry) : metadata * list fov * jentry :=
  let l := fold_left (fun l kg => append_to (fst kg) (snd kg) l) (e_pointings e) (e_fovs e) in
  (e_meta e, l, mkEntry (e_meta e) l (e_pointings e)).

(** 749-770.  [pointing["receiver"]] is a KeyError for a NICKEL pointing, as is
    [["name"]] for an empty setting; the [continue] is that of the inner loop. *)
Fixpoint receivers_read (l : list pointing) : res unit :=
  match l with
  | [] => Ok tt
  | g :: r => match g_receiver g with Some s => match receiver_name s with Some _ => receivers_read r | None => Err EKeyError end | None => Err EKeyError end
  end.
Definition keep_local (f : fov) : res fov :=
  match f_mas f with
  | [] => Ok f
  | _ => match all_ints (f_mas f) with
         | None => Err ETypeError
         | Some n =>
             if negb (existsb (fun k => (96 <? k)%Z) n) then Ok f
             else bind (receivers_read (f_pointings f)) (fun _ =>
                  Ok (mkFov (f_idx f) (f_pointings f) (f_name f) (f_center f) (f_time f) (f_squint f) (f_optfreq f)
                        (map (IInt ck) (filter (fun k => negb (96 <? k)%Z) n)) (f_ants f) (f_filters f)))
         end
  end.
Definition remove_unused (e : jentry) : res jentry := bind (map_res keep_local (e_fovs e)) (fun l => Ok (mkEntry (e_meta e) l (e_pointings e))).

(** The truth of [output.get("xst_userfile", False)]. *)
Definition xst_used (output : property) : bool :=
  match dict_get String.eqb "xst_userfile"%string output with
  | None => false
  | Some (PBool _ b) => b
  | Some (PInt _ n) => negb (n =? 0)%Z
  | Some (PStr _ s) => negb (String.eqb s "")
  | Some (PList _ l) => match l with [] => false | _ => true end
  | Some _ => true
  end.

(** 828-882 *)
Definition to_entry (p : parset ck) : res jentry :=
  let output := p_output ck p in
  bind (version_of (p_observation ck p)) (fun v =>
  bind (metadata_of (p_observation ck p)) (fun meta =>
  bind (map_res (fun b => fov_of (fst b) (snd b)) (p_anabeams ck p)) (fun fovs =>
  bind (map_res (fun b => pointing_of (fst b) (snd b) output v fovs) (p_digibeams ck p)) (fun beams =>
  let digi_idx := last (map fst (p_digibeams ck p)) 0%Z in
  bind (if old_version v then Ok []
        else map_res (fun b => pointing_of (fst b + digi_idx + 1)%Z (snd b) output v fovs) (p_centers ck p)) (fun centers =>
  let l := beams ++ centers in
  bind (if xst_used output then xst_pointings output (length l) 0 fovs else Ok []) (fun xst =>
  let l := l ++ xst in
  bind (if negb (old_version v) then Ok []
        else bind (nickel_used output) (fun b =>
             if negb b then Ok []
             else bind (map_res (fun b => item_get ck "toDo" (snd b)) (p_digibeams ck p)) (fun todos =>
                  if existsb (fun t => match t with PStr _ s => String.eqb s "TBD" | _ => false end) todos then Ok []
                  else bind (match dict_get Z.eqb 0%Z (p_anabeams ck p) with Some a => Ok a | None => Err EKeyError end) (fun a =>
                       bind (nickel_pointing a output (Z.of_nat (length l))) (fun g => Ok [g]))))) (fun extra =>
  remove_unused (mkEntry meta fovs (l ++ extra))))))))).
Definition to_json (p : parset ck) : res (metadata * list fov) := bind (to_entry p) (fun e => Ok (fst (data_of e))).
End Json.
