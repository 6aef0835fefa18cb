(** Model of [ParsetUser.replay_from_parset], nenupy/observation/parset.py 1927-2033, on a parset
    already read. Dates have a number of milliseconds, leap seconds
    are not modelled. Coordinates, bodies of the solar system and meridian transits are functions
    given. *)
From Coq Require Import Ascii String List Arith ZArith QArith Bool.
From Verif Require Import Base M_Polar M_Dedisperse M_Pipeline M_PText M_POptions M_Parset.
Import ListNotations.
Open Scope nat_scope.
Open Scope list_scope.

Section Replay.
Variable ck : clock.
(** [ms t], [t + d] *)
Variable ms : date ck -> Z.
Variable plus : date ck -> Z -> date ck.
(** 1966-1980, [SkyCoord(...)] of a beam, with the texts of its coordinates; 1982,
    [SolarSystemTarget.from_name]; 1990, [next_meridian_transit]. *)
Variable target : Type.
Variable fixed : property ck -> res (target * (string * string)).
Variable solar : pval ck -> date ck -> res target.
Variable next_transit : target -> date ck -> date ck.

(** 1936-1944: the day of [from_time] and the time of the first beam, which is printed with
    whole seconds. *)
Definition day : Z := 86400000.
Definition whole_second (t : Z) : Z := ((t + 500) / 1000 * 1000)%Z.
Definition new_start (from_time start : date ck) : Z :=
  (ms from_time / day * day + whole_second (ms start) mod day)%Z.

Definition params := list (string * uval ck).
Definition has_field (k : string) (o : list option_entry) : bool := existsb (String.eqb k) (map o_key o).
(** 1952-1955; a value that is not a date cannot be added. *)
Definition move_start (d : Z) (p : params) : res params :=
  match dict_get String.eqb "startTime"%string p with
  | None => Ok p
  | Some (UTime _ t) => Ok (dict_set String.eqb "startTime"%string (UTime ck (plus t d)) p)
  | Some _ => Err ETypeError
  end.
(** 1956-1959: a duration given is set even if the beam has none. *)
Definition move_duration (duration : option Q) (p : params) : params :=
  match duration with
  | None => p
  | Some x => dict_set String.eqb "duration"%string (UDelta ck x) p
  end.
(** 1960-1964. Only dates can be moved here; astropy also adds numbers, taken as days, to a time
    difference. *)
Fixpoint move_items (d : Z) (l : list (item ck)) : res (list (item ck)) :=
  match l with
  | [] => Ok []
  | ITime _ t :: r => bind (move_items d r) (fun r => Ok (ITime ck (plus t d) :: r))
  | _ :: _ => Err ETypeError
  end.
Definition move_filter (d : Z) (p : params) : res params :=
  match dict_get String.eqb "filterTime"%string p with
  | None => Ok p
  | Some (UList _ l) => bind (move_items d l) (fun l => Ok (dict_set String.eqb "filterTime"%string (UList ck l) p))
  | Some (UStr _ EmptyString) => Ok (dict_set String.eqb "filterTime"%string (UList ck []) p)
  | Some _ => Err ETypeError
  end.
Definition is_text (s : string) (v : pval ck) : bool := match v with PStr _ t => String.eqb t s | _ => false end.
Definition start_of (p : params) : res (date ck) :=
  match dict_get String.eqb "startTime"%string p with Some (UTime _ t) => Ok t | Some _ => Err ETypeError | None => Err EKeyError end.
Definition quoted (s : string) : string := ("'" ++ s ++ "'")%string.
(** 1966-1994: the two transits compared are the same. *)
Definition pointed (q : property ck) (p : params) : res params :=
  match dict_get String.eqb "trackingType"%string q with
  | None => Ok p
  | Some v =>
    if is_text "tracking" v then
      bind (match dict_get String.eqb "directionType"%string q with
            | None => bind (fixed q) (fun x => Ok (fst x, Some (snd x)))
            | Some v => if is_text "J2000" v then bind (fixed q) (fun x => Ok (fst x, Some (snd x)))
                        else bind (start_of p) (fun t => bind (solar v t) (fun x => Ok (x, None)))
            end) (fun '(tg, angles) =>
      let p := match angles with
               | None => p
               | Some (ra, dec) => dict_set String.eqb "dec"%string (UStr ck (quoted dec)) (dict_set String.eqb "ra"%string (UStr ck (quoted ra)) p)
               end in
      bind (start_of p) (fun t => Ok (dict_set String.eqb "transitDate"%string (UTime ck (next_transit tg t)) p)))
    else Err ENotImplementedError
  end.
(** 1997-2007; [list.remove] removes the first one. *)
Fixpoint remove_first (s : string) (l : list (item ck)) : list (item ck) :=
  match l with
  | [] => []
  | IStr _ t :: r => if String.eqb t s then r else IStr ck t :: remove_first s r
  | x :: r => x :: remove_first s r
  end.
Definition fewer_receivers (p : params) : res params :=
  match dict_get String.eqb "hd_receivers"%string p with
  | None => Ok p
  | Some (UList _ l) => Ok (dict_set String.eqb "hd_receivers"%string (UList ck (remove_first "codalema" (remove_first "seti" l))) p)
  | Some _ => Err EAttributeError
  end.
(** 1949-2010: without [trackingType], the function returns at 1967 (no field of the receivers
    then). *)
Definition new_parameters (d : Z) (duration : option Q) (q : property ck) (o : list option_entry) : res params :=
  let p := copy_fields ck q o in
  if has_field "trackingType" o then
    bind (move_start d p) (fun p => bind (move_filter d (move_duration duration p)) (fun p =>
    match dict_get String.eqb "trackingType"%string q with
    | None => Ok p
    | Some _ => bind (pointed q p) fewer_receivers
    end))
  else fewer_receivers p.

Fixpoint replay_anas (d : Z) (duration : option Q) (l : list (Z * property ck)) (u : puser) : res puser :=
  match l with
  | [] => Ok u
  | (_, q) :: r => bind (new_parameters d duration q anabeam_options) (fun kw => replay_anas d duration r (add_analog_beam ck kw u))
  end.
Fixpoint replay_beams (d : Z) (duration : option Q) (add : Z -> params -> puser -> res puser) (o : list option_entry)
    (l : list (Z * property ck)) (u : puser) : res puser :=
  match l with
  | [] => Ok u
  | (_, q) :: r => bind (new_parameters d duration q o) (fun kw => bind (parent_index ck q) (fun k => bind (add k kw u) (replay_beams d duration add o r)))
  end.
(** 1927-2033. [same_lst] is not implemented: a text is subtracted from a date. *)
Definition replay (p : parset ck) (from_time : date ck) (duration : option Q) (same_lst : bool) : res puser :=
  match dict_get Z.eqb 0%Z (p_anabeams ck p) with
  | None => Err EKeyError
  | Some a =>
    match dict_get String.eqb "startTime"%string a with
    | None => Err EKeyError
    | Some v =>
      if same_lst then Err ETypeError
      else match v with
      | PTime _ start =>
        let d := (new_start from_time start - ms start)%Z in
        if (d <? 0)%Z then Err EValueError
        else
          bind (new_parameters d duration (p_observation ck p) observation_options) (fun kw =>
          bind (replay_anas d duration (p_anabeams ck p) (set_observation_config ck kw new_user)) (fun u =>
          bind (replay_beams d duration (add_numerical_beam ck) beam_options (p_digibeams ck p) u) (fun u =>
          bind (replay_beams d duration (add_phase_center ck) phasecenter_options (p_centers ck p) u) (fun u =>
          bind (new_parameters d duration (p_output ck p) output_options) (fun kw =>
          Ok (set_output_config ck kw u))))))
      | _ => Err EAttributeError
      end
    end
  end.
End Replay.
