(** Subband and frequency conversions of nenupy/instru/instrument_tools.py and
    the frequency ranges of nenupy/observation/parset.py.

    Frequencies are exact rationals; the binary floats of the code are not
    modelled (the subband width, 100/512 MHz, is exact in binary). [None] is a
    NaN. Arrays are flat: the shape of the input is kept by the code. *)
From Coq Require Import ZArith QArith Qround Bool List.
From Verif Require Import Base.
Import ListNotations.
Local Open Scope Z_scope.

(** instrument_tools.py 89: [sb_width = 100. * u.MHz / 512]; parset.py 49:
    [SB_WIDTH = 195.3125 * u.kHz], in MHz. *)
Definition sb_width : Q := 100 # 512.
Definition SB_WIDTH : Q := (1953125 # 10000) * (1 # 1000).

(** The argument of freq2sb: anything but a Quantity, a quantity in a unit that
    is not a frequency, or values in a unit worth [scale] MHz. *)
Inductive freq_arg :=
| NotQuantity
| NotFrequency
| Freq (scale : Q) (values : list (option Q)).

(** np.min and np.max: ValueError on an empty array, NaN if any value is NaN. *)
Fixpoint fold_num (f : Q -> Q -> Q) (x : option Q) (l : list (option Q)) : option Q :=
  match l with
  | [] => x
  | y :: l => fold_num f (match x, y with Some a, Some b => Some (f a b) | _, _ => None end) l
  end.
Definition np_extremum (f : Q -> Q -> Q) (l : list (option Q)) : res (option Q) :=
  match l with [] => Err EValueError | x :: l => Ok (fold_num f x l) end.
Definition qmin (a b : Q) : Q := if Qle_bool a b then a else b.
Definition qmax (a b : Q) : Q := if Qle_bool a b then b else a.

(** Comparisons with NaN are false. *)
Definition below (x : option Q) (b : Q) : bool :=
  match x with Some a => negb (Qle_bool b a) | None => false end.
Definition above (x : option Q) (b : Q) : bool :=
  match x with Some a => negb (Qle_bool a b) | None => false end.

(** instrument_tools.py 52-92, [freq2sb]. The index of a NaN is [None]: numpy
    casts it to an arbitrary integer. *)
Definition freq2sb (f : freq_arg) : res (list (option Z)) :=
  match f with
  | NotQuantity => Err ETypeError                                         (* 80-83 *)
  | NotFrequency => Err ETypeError                                        (* 84: UnitConversionError, a TypeError *)
  | Freq scale values =>
      let mhz := map (option_map (Qmult scale)) values in
      bind (np_extremum qmin mhz) (fun lo =>
      if below lo 0 then Err EValueError                                  (* 84-87 *)
      else bind (np_extremum qmax mhz) (fun hi =>
      if above hi 100 then Err EValueError
      else Ok (map (option_map (fun x => Qfloor (x / sb_width + (1 # 2))%Q)) mhz)))   (* 88-91 *)
  end.

(** The argument of sb2freq: a scalar or array of integers, or an array of any
    other type (floats, booleans, texts; an empty list is an array of floats). *)
Inductive sb_arg :=
| Ints (n : list Z)
| NotInts.

(** numpy keeps Python integers in int64 only if they all fit. *)
Definition int64 (n : Z) : bool := (- 2 ^ 63 <=? n) && (n <? 2 ^ 63).
Definition zmin_list (x : Z) (l : list Z) : Z := fold_left Z.min l x.
Definition zmax_list (x : Z) (l : list Z) : Z := fold_left Z.max l x.

(** instrument_tools.py 100-145, [sb2freq], in MHz. *)
Definition sb2freq (s : sb_arg) : res (list Q) :=
  match s with
  | NotInts => Err ETypeError                                             (* 134-137 *)
  | Ints n =>
      if negb (forallb int64 n) then Err ETypeError
      else match n with
      | [] => Err EValueError                                             (* 138: min of an empty array *)
      | x :: l =>
          if (zmin_list x l <? 0) || (511 <? zmax_list x l) then Err EValueError   (* 138-141 *)
          else Ok (map (fun k => inject_Z k * sb_width - sb_width / 2)%Q n)        (* 142-144 *)
      end
  end.

(** np.split at the positions where np.diff is not 1. *)
Fixpoint split_runs (x : Z) (l : list Z) : list (list Z) :=
  match l with
  | [] => [[x]]
  | y :: l =>
      if y - x =? 1 then
        match split_runs y l with
        | g :: gs => (x :: g) :: gs
        | [] => [[x]]
        end
      else [x] :: split_runs y l
  end.

(** [sb2freq(n)[0]] for one integer. *)
Definition start_freq (n : Z) : res Q :=
  bind (sb2freq (Ints [n])) (fun l => match l with x :: _ => Ok x | [] => Err EIndexError end).

Definition group_range (g : list Z) : res (Q * Q) :=
  match g with
  | [] => Err EValueError
  | x :: l =>
      bind (start_freq (zmin_list x l)) (fun lo =>
      bind (start_freq (zmax_list x l)) (fun hi => Ok (lo, hi + SB_WIDTH)%Q))
  end.

Fixpoint map_res {A B} (f : A -> res B) (l : list A) : res (list B) :=
  match l with
  | [] => Ok []
  | x :: l => bind (f x) (fun y => bind (map_res f l) (fun ys => Ok (y :: ys)))
  end.

(** parset.py 395-411, [_get_frequency_dict]: the ranges (gte, lt) in MHz. The
    list of subbands is a list of integers. *)
Definition frequency_ranges (subbands : list Z) : res (list (Q * Q)) :=
  match subbands with
  | [] => Err EValueError                                                 (* one empty group: min raises *)
  | x :: l => map_res group_range (split_runs x l)
  end.
