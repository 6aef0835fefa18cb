(** Model of the ranges of mini-arrays and of the durations of user parsets:
    nenupy/observation/parset.py 1352-1368 ([_get_miniarray_dict]) and 1575-1598, 1648-1669
    ([_ParsetBlock._modify_properties] of a [TimeDelta] and [_get_duration]).
    Numbers of mini-arrays are integers; seconds are integers (floats below 2^53 are exact). *)
From Coq Require Import Ascii String List ZArith Bool.
From Verif Require Import Base M_PText.
Import ListNotations.
Open Scope Z_scope.
Open Scope list_scope.

(** * Ranges *)
(** 1356-1359: [np.split(a, np.where(np.diff(a) != 1)[0] + 1)]; an empty array is one empty group. *)
Fixpoint groups (l : list Z) : list (list Z) :=
  match l with
  | [] => [[]]
  | x :: r => match r with
              | [] => [[x]]
              | y :: _ => if y - x =? 1 then match groups r with g :: gs => (x :: g) :: gs | [] => [[x]] end
                          else [x] :: groups r
              end
  end.
(** 1362-1365: [group[0]] and [group[-1]] raise IndexError when the group is empty. *)
Definition group_range (g : list Z) : res (Z * Z) :=
  match g with [] => Err EIndexError | x :: _ => Ok (x, last g x) end.
Fixpoint all_ranges (gs : list (list Z)) : res (list (Z * Z)) :=
  match gs with [] => Ok [] | g :: r => bind (group_range g) (fun p => bind (all_ranges r) (fun t => Ok (p :: t))) end.
(** 1360-1368, the list of [value]. *)
Definition miniarray_ranges (l : list Z) : res (list (Z * Z)) := all_ranges (groups l).

(** * Durations *)
(** 1583-1584: [str(int(np.round(value.sec))) + "s"], of a whole number of seconds. *)
Definition duration_text (sec : Z) : string := (show_int sec ++ "s")%string.
(** 1652-1655: [re.match(r"(?P<value>\d+)(?P<unit>[smh])", s)]: the decimal digits at the start,
    then one letter; what follows is not looked at. ASCII digits only. *)
Fixpoint span_digits (s : string) : string * string :=
  match s with
  | EmptyString => (EmptyString, EmptyString)
  | String c r => if is_digit c then let '(d, t) := span_digits r in (String c d, t) else (EmptyString, s)
  end.
(** 1659-1664 *)
Definition unit_seconds (c : ascii) : option Z :=
  if Ascii.eqb c "s" then Some 1 else if Ascii.eqb c "m" then Some 60 else if Ascii.eqb c "h" then Some 3600 else None.
(** 1651-1669: without a match [None.group] raises AttributeError. *)
Definition get_duration (s : string) : res Z :=
  match span_digits s with
  | (EmptyString, _) => Err EAttributeError
  | (d, String c _) => match unit_seconds c with Some u => Ok (digits_value 0 d * u) | None => Err EAttributeError end
  | (_, EmptyString) => Err EAttributeError
  end.
