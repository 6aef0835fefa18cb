(** Python strings as used by nenupy/observation/parset.py: searching, splitting,
    integers in decimal.  Strings are ASCII: [isdigit], [lower] and [strip] know
    no other letters, digits or spaces. *)
From Coq Require Import Ascii String List Arith ZArith Bool Decimal DecimalString.
From Verif Require Import Base M_Pipeline.
Import ListNotations.
Open Scope nat_scope.

Definition newline : ascii := "010"%char.
Definition quote : ascii := """"%char.

(** [s.replace(c, '')] for one character. *)
Fixpoint drop_char (c : ascii) (s : string) : string :=
  match s with
  | EmptyString => EmptyString
  | String a r => if Ascii.eqb a c then drop_char c r else String a (drop_char c r)
  end.

(** [sep in s] *)
Fixpoint has_sub (p s : string) : bool :=
  String.prefix p s || match s with EmptyString => false | String _ r => has_sub p r end.
Fixpoint has_char (c : ascii) (s : string) : bool :=
  match s with EmptyString => false | String a r => Ascii.eqb a c || has_char c r end.

(** [s.endswith(c)] for one character. *)
Fixpoint ends_with (c : ascii) (s : string) : bool :=
  match s with
  | EmptyString => false
  | String a EmptyString => Ascii.eqb a c
  | String _ r => ends_with c r
  end.
(** [s.startswith(c)] for one character. *)
Definition starts_with (c : ascii) (s : string) : bool :=
  match s with EmptyString => false | String a _ => Ascii.eqb a c end.

(** [s[1:-1]] *)
Fixpoint but_last (s : string) : string :=
  match s with
  | EmptyString => EmptyString
  | String a EmptyString => EmptyString
  | String a r => String a (but_last r)
  end.
Definition inner (s : string) : string :=
  match s with EmptyString => EmptyString | String _ r => but_last r end.

(** [s.rstrip(c)] for one character. *)
Fixpoint rstrip (c : ascii) (s : string) : string :=
  match s with
  | EmptyString => EmptyString
  | String a r =>
      match rstrip c r with
      | EmptyString => if Ascii.eqb a c then EmptyString else String a EmptyString
      | t => String a t
      end
  end.

(** [s.split(c)] for one character: never empty. *)
Fixpoint split_char (c : ascii) (s : string) : list string :=
  match s with
  | EmptyString => [EmptyString]
  | String a r =>
      if Ascii.eqb a c then EmptyString :: split_char c r
      else match split_char c r with
           | h :: t => String a h :: t
           | [] => [String a EmptyString]
           end
  end.
(** [s.split(c, 1)] unpacked in two names: [None] is the ValueError raised when the
    separator is missing. *)
Fixpoint split_once (c : ascii) (s : string) : option (string * string) :=
  match s with
  | EmptyString => None
  | String a r =>
      if Ascii.eqb a c then Some (EmptyString, r)
      else match split_once c r with Some (h, t) => Some (String a h, t) | None => None end
  end.
(** [s.split('..')] *)
Fixpoint split_dots (s : string) : list string :=
  match s with
  | EmptyString => [EmptyString]
  | String a r =>
      let here := match split_dots r with h :: t => String a h :: t | [] => [String a EmptyString] end in
      match r with
      | EmptyString => here
      | String b r' =>
          if Ascii.eqb a "." && Ascii.eqb b "." then EmptyString :: split_dots r' else here
      end
  end.

(** [c.isspace()] *)
Definition is_space (c : ascii) : bool :=
  let n := nat_of_ascii c in ((9 <=? n) && (n <=? 13)) || ((28 <=? n) && (n <=? 32)).
Fixpoint lstrip_sp (s : string) : string :=
  match s with EmptyString => EmptyString | String a r => if is_space a then lstrip_sp r else s end.
Fixpoint rstrip_sp (s : string) : string :=
  match s with
  | EmptyString => EmptyString
  | String a r =>
      match rstrip_sp r with
      | EmptyString => if is_space a then EmptyString else String a EmptyString
      | t => String a t
      end
  end.
(** [s.strip()] *)
Definition strip (s : string) : string := rstrip_sp (lstrip_sp s).

(** [s.isdigit()] *)
Definition is_digit (c : ascii) : bool :=
  let n := nat_of_ascii c in (48 <=? n) && (n <=? 57).
Fixpoint all_digits (s : string) : bool :=
  match s with EmptyString => true | String a r => is_digit a && all_digits r end.
Definition isdigit (s : string) : bool :=
  match s with EmptyString => false | _ => all_digits s end.

(** [int(s)]: spaces around, a sign, decimal digits with single underscores
    between them; [None] is the ValueError. *)
Fixpoint digits_value (acc : Z) (s : string) : Z :=
  match s with
  | EmptyString => acc
  | String a r => digits_value (10 * acc + Z.of_nat (nat_of_ascii a - 48))%Z r
  end.
Fixpoint underscored (after_digit : bool) (s : string) : option string :=
  match s with
  | EmptyString => if after_digit then Some EmptyString else None
  | String a r =>
      if is_digit a then option_map (String a) (underscored true r)
      else if after_digit && Ascii.eqb a "_" then underscored false r
      else None
  end.
Definition py_int (s : string) : option Z :=
  match strip s with
  | String "-" r => option_map (fun d => - digits_value 0 d)%Z (underscored false r)
  | String "+" r => option_map (digits_value 0) (underscored false r)
  | t => option_map (digits_value 0) (underscored false t)
  end.

(** [str(n)] for an integer. *)
Definition show_int (n : Z) : string := NilZero.string_of_int (Z.to_int n).

(** [sep.join(l)] *)
Fixpoint join (sep : string) (l : list string) : string :=
  match l with
  | [] => EmptyString
  | [x] => x
  | x :: r => (x ++ sep ++ join sep r)%string
  end.

(** The regular expression of lines 1212, 1219 and 1226: the digits of the first
    bracket holding nothing else; [None] when there is none (the attribute of [None] then raises
    AttributeError). *)
Fixpoint bracket_here (s : string) : option string :=
  match s with
  | EmptyString => None
  | String a r =>
      if is_digit a then option_map (String a) (bracket_here r)
      else if Ascii.eqb a "]" then Some EmptyString else None
  end.
Fixpoint search_bracket (s : string) : option string :=
  match s with
  | EmptyString => None
  | String a r =>
      match (if Ascii.eqb a "[" then bracket_here r else None) with
      | Some d => Some d
      | None => search_bracket r
      end
  end.

(** The successive results of [readline] on a text file: each line with its
    newline, the last one possibly without. *)
Fixpoint lines (s : string) : list string :=
  match s with
  | EmptyString => []
  | String a r =>
      if Ascii.eqb a newline then String a EmptyString :: lines r
      else match lines r with
           | h :: t => String a h :: t
           | [] => [String a EmptyString]
           end
  end.
