(** Model of nenupy/observation/tapdatabase.py, [ObsDatabase] (150-446): the query made from the
    attributes. The service is not modelled: [search] gives the query it sends. Dates, their texts
    and the texts of numbers are given; numbers are rational. The list given to [meta_names] is
    kept by reference in Python, it is a value here. *)
From Coq Require Import Ascii String List Arith ZArith QArith Bool.
From Verif Require Import Base M_PText.
Import ListNotations.
Open Scope nat_scope.
Open Scope list_scope.

(** 102-145 *)
Definition colnames : list string :=
  ["owner"; "embargo"; "mime"; "accsize"; "dataproduct_type"; "dataproduct_subtype"; "calib_level";
   "obs_collection"; "obs_id"; "obs_title"; "obs_publisher_did"; "obs_creator_did"; "access_url";
   "access_format"; "access_estsize"; "target_name"; "target_class"; "s_ra"; "s_dec"; "s_fov";
   "s_region"; "s_resolution"; "t_min"; "t_max"; "t_exptime"; "t_resolution"; "em_min"; "em_max";
   "em_res_power"; "o_ucd"; "pol_states"; "facility_name"; "instrument_name"; "s_xel1"; "s_xel2";
   "t_xel"; "em_xel"; "pol_xel"; "s_pixel_scale"; "em_ucd"; "preview"; "source_table"]%string.
(** 160-169 and 429-438 *)
Definition default_names : list string :=
  ["target_name"; "obs_creator_did"; "s_ra"; "s_dec"; "t_min"; "t_max"; "em_min"; "em_max"]%string.

(** Quantities given as frequencies: MHz, metres, or another unit that is not spectral. *)
Inductive fquantity := Freq (mhz : Q) | Wave (m : Q) | NotSpectral.
(** [wavelength(f).to(u.m).value]; a frequency 0, of infinite wavelength, is not modelled. *)
Definition lightspeed : Q := 299792458 # 1000000.
Definition wavelength (f : fquantity) : res Q :=
  match f with Freq x => Ok (lightspeed / x)%Q | Wave x => Ok x | NotSpectral => Err EValueError end.
(** The radius: an angle in degrees or another quantity. *)
Inductive rquantity := Angle (deg : Q) | NotAngle.

(** Values given to the setters: a list, or anything else. *)
Inductive given (A : Type) := GList (l : list A) | GOther.
Arguments GList {A}. Arguments GOther {A}.
Inductive fvalue := FNone | FNumber (x : Q) | FQuantity (f : fquantity).
Inductive rvalue := RNone | RNumber (x : Q) | RQuantity (r : rquantity) | RArray.
Inductive cvalue := CNone | CPoint (ra dec : Q) | CPoints | COther.

Section Tap.
Variable time : Type.
Variable mjd : time -> Q.
Variable read_time : string -> option time.
Variable show : Q -> string.
Inductive tvalue := TNone | TTime (t : time) | TText (s : string).

Record db := mkDb {
  d_names : list string;
  d_cond_time : string;
  d_cond_freq : string;
  d_cond_pos : string;
  d_time : option (time * time);
  d_freq : option (fquantity * fquantity);
  d_radius : rquantity;
  d_center : option (Q * Q) }.

(** 200-215; [numpy.isin] of an empty list is empty. *)
Definition set_names (m : given string) (d : db) : res db :=
  match m with
  | GOther => Err ETypeError
  | GList l => if forallb (fun n => existsb (String.eqb n) colnames) l
               then Ok (mkDb l (d_cond_time d) (d_cond_freq d) (d_cond_pos d) (d_time d) (d_freq d) (d_radius d) (d_center d))
               else Err EValueError
  end.
(** 235-255. [Time(x)] of a text that is not a date, or of [None], is ValueError. *)
Definition to_time (x : tvalue) : res time :=
  match x with
  | TTime t => Ok t
  | TText s => match read_time s with Some t => Ok t | None => Err EValueError end
  | TNone => Err EValueError
  end.
Definition time_text (a b : time) : string := ("(t_min >= " ++ show (mjd a) ++ " AND t_max <= " ++ show (mjd b) ++ ")")%string.
Definition put_time (c : string) (r : option (time * time)) (d : db) : db :=
  mkDb (d_names d) c (d_cond_freq d) (d_cond_pos d) r (d_freq d) (d_radius d) (d_center d).
Definition set_time (t : given tvalue) (d : db) : res db :=
  match t with
  | GList [TNone; TNone] => Ok (put_time EmptyString None d)
  | GOther => Err ETypeError
  | GList [x; y] => bind (to_time x) (fun a => bind (to_time y) (fun b => Ok (put_time (time_text a b) (Some (a, b)) d)))
  | GList _ => Err EValueError
  end.
(** 275-297. Unless all are quantities, every one is multiplied by 1 MHz: a quantity is then no
    more spectral. [None * u.MHz] is TypeError. *)
Definition is_quantity (x : fvalue) : bool := match x with FQuantity _ => true | _ => false end.
Definition in_mhz (x : fvalue) : res fquantity :=
  match x with FNone => Err ETypeError | FNumber x => Ok (Freq x) | FQuantity _ => Ok NotSpectral end.
Definition quantities (x y : fvalue) : res (fquantity * fquantity) :=
  match x, y with
  | FQuantity a, FQuantity b => Ok (a, b)
  | _, _ => bind (in_mhz x) (fun a => bind (in_mhz y) (fun b => Ok (a, b)))
  end.
Definition freq_text (lmin lmax : Q) : string := ("(em_min >= " ++ show lmin ++ " AND em_max <= " ++ show lmax ++ ")")%string.
Definition put_freq (c : string) (r : option (fquantity * fquantity)) (d : db) : db :=
  mkDb (d_names d) (d_cond_time d) c (d_cond_pos d) (d_time d) r (d_radius d) (d_center d).
Definition set_freq (f : given fvalue) (d : db) : res db :=
  match f with
  | GList [FNone; FNone] => Ok (put_freq EmptyString None d)
  | GOther => Err ETypeError
  | GList [x; y] =>
      bind (quantities x y) (fun '(a, b) =>
      bind (wavelength a) (fun lmax => bind (wavelength b) (fun lmin =>
      Ok (put_freq (freq_text lmin lmax) (Some (a, b)) d))))
  | GList _ => Err EValueError
  end.
(** 316-327 *)
Definition put_radius (r : rquantity) (d : db) : db :=
  mkDb (d_names d) (d_cond_time d) (d_cond_freq d) (d_cond_pos d) (d_time d) (d_freq d) r (d_center d).
Definition set_radius (r : rvalue) (d : db) : res db :=
  match r with
  | RNone => Ok (put_radius (Angle 180) d)
  | RNumber x => Ok (put_radius (Angle x) d)
  | RQuantity q => Ok (put_radius q d)
  | RArray => Err EValueError
  end.
(** 346-366 *)
Definition pos_text (ra dec radius : Q) : string :=
  ("1 = CONTAINS(POINT('ICRS', s_ra, s_dec), CIRCLE('ICRS', " ++ show ra ++ ", " ++ show dec ++ ", " ++ show radius ++ "))")%string.
Definition put_center (c : string) (p : option (Q * Q)) (d : db) : db :=
  mkDb (d_names d) (d_cond_time d) (d_cond_freq d) c (d_time d) (d_freq d) (d_radius d) p.
Definition set_center (c : cvalue) (d : db) : res db :=
  match c with
  | CNone => Ok (put_center EmptyString None d)
  | COther => Err ETypeError
  | CPoints => Err EValueError
  | CPoint ra dec => match d_radius d with
                     | NotAngle => Err EValueError
                     | Angle r => Ok (put_center (pos_text ra dec r) (Some (ra, dec)) d)
                     end
  end.

(** 369-397 *)
Definition conditions (d : db) : string :=
  join " AND " (filter (fun c => negb (String.eqb c "")) [d_cond_time d; d_cond_freq d; d_cond_pos d]).
Definition query (d : db) : string :=
  ("SELECT " ++ join ", " (d_names d) ++ " from nenufar.bst WHERE (" ++ conditions d ++ ")")%string.
(** 403-423: the query sent *)
Definition search (d : db) : res string :=
  if String.eqb (conditions d) "" then Err EValueError else Ok (query d).
(** 426-446: the setters one after the other; none of them fails. *)
Definition reset (d : db) : res db :=
  bind (set_names (GList default_names) d) (fun d => bind (set_time (GList [TNone; TNone]) d) (fun d =>
  bind (set_freq (GList [FNone; FNone]) d) (fun d => bind (set_radius (RQuantity (Angle 180)) d) (set_center CNone)))).
(** 155-178 *)
Definition new_db : db := mkDb default_names EmptyString EmptyString EmptyString None None (Angle 180) None.
End Tap.
