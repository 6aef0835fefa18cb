(** Model of the analog pointing of a Mini-Array: the grid of directions and its
    orders ([MiniArray] of nenupy/instru/nenufar.py 836-860, 900-938, 976-1010;
    nenupy/instru/instrument_tools.py 438-565), the beam squint correction
    (nenufar.py 862-897), and what successive beams do to a pointing (579, 1318-1350).
    Angular separations are computed values, any function of the coordinates and of
    the direction. *)
From Coq Require Import ZArith QArith Qabs Bool List Arith.
From Verif Require Import Base.
Import ListNotations.
Open Scope nat_scope.
Open Scope list_scope.

(** * The grid *)
(** Offsets in steps of the analog delays, instrument_tools.py 470-480 (nenufar.py
    985-995): 128 values per axis, of which 63 and 64 are the same. *)
Definition step1 (x : nat) : Z := if 64 <=? x then (Z.of_nat x - 64)%Z else (Z.of_nat x - 64 + 1)%Z.
Definition step2 (y : nat) : Z := if 64 <=? y then (64 - Z.of_nat y)%Z else (64 - 1 - Z.of_nat y)%Z.
(** 482-493: a step is 0.165/11 = 3/200; [arccos(1 - 2*(k1**2 + k2**2))] is NaN when the
    argument is below -1, and the direction is then put below the ground. A direction is
    named by its steps; azimuth and elevation of the steps are not computed here. *)
Inductive dir := Steps (k1 k2 : Z) | Nadir.
Definition direction (k1 k2 : Z) : dir := if (9 * (k1 * k1 + k2 * k2) <=? 40000)%Z then Steps k1 k2 else Nadir.
(** instrument_tools.py 472, 495: rows are y, columns are x. *)
Definition grid (row col : nat) : dir := direction (step1 col) (step2 row).
(** nenufar.py 1009: the transpose of it. *)
Definition grid_t (i j : nat) : dir := grid j i.

(** [np.unravel_index(np.argmin(s), s.shape)]: the first smallest, row by row. *)
Definition cells : list (nat * nat) := flat_map (fun i => map (pair i) (seq 0 128)) (seq 0 128).
Fixpoint first_min {A} (v : A -> Q) (best : A) (l : list A) : A :=
  match l with [] => best | x :: r => if Qle_bool (v best) (v x) then first_min v best r else first_min v x r end.
Definition unravel_argmin (v : nat * nat -> Q) : nat * nat :=
  match cells with [] => (0, 0) | x :: r => first_min v x r end.

(** instrument_tools.py 539-543: an order of 64 is the same as 63; the implementation
    named wrong there takes one from all the orders from 64. *)
Definition fix_order (o : nat) : nat := if o =? 64 then o - 1 else o.
Definition wrong_order (o : nat) : nat := if 64 <=? o then o - 1 else o.

(** Coordinates as given: a scalar, one or more dimensions. *)
Inductive coords (C : Type) := Scalar (c : C) | Vector (l : list C) | Higher.
Arguments Scalar {C}. Arguments Vector {C}. Arguments Higher {C}.
(** instrument_tools.py 497-545 *)
Definition pointing_order {C} (sep : C -> dir -> Q) (wrong : bool) (c : coords C) : res (list (nat * nat)) :=
  let order c := let (i, j) := unravel_argmin (fun p => sep c (grid (fst p) (snd p))) in
                 if wrong then (wrong_order i, wrong_order j) else (fix_order i, fix_order j) in
  match c with
  | Higher => Err EException                                                (* 499-500 *)
  | Scalar c => Ok [order c]
  | Vector l => Ok (map order l)
  end.
(** 547-559, orders as an array of pairs of natural numbers; those from 128 raise
    IndexError. Negative orders (counted from the end by numpy) are not modelled. *)
Definition pointing_coordinates (orders : list (nat * nat)) : res (list dir) :=
  if forallb (fun o => (fst o <? 128) && (snd o <? 128)) orders
  then Ok (map (fun o => grid (fst o) (snd o)) orders) else Err EIndexError.

(** nenufar.py 842-860, one coordinate ([ValueError] otherwise, 844-847). *)
Definition skycoord_to_order {C} (sep : C -> dir -> Q) (l : list C) : res (nat * nat) :=
  match l with
  | [c] => let (i, j) := unravel_argmin (fun p => sep c (grid_t (fst p) (snd p))) in Ok (wrong_order i, wrong_order j)
  | _ => Err EValueError
  end.
(** 836-839 *)
Definition order_to_skycoord (o : nat * nat) : dir := grid_t (fst o) (snd o).
(** 925-926: the direction in which one coordinate is actually pointed. *)
Definition snap {C} (sep : C -> dir -> Q) (c : C) : res dir :=
  bind (skycoord_to_order sep [c]) (fun o => Ok (order_to_skycoord o)).

(** * Beam squint *)
(** [np.interp(x, xp, fp)], [xp] increasing: the value of the ends outside. *)
Fixpoint interp_from (x : Q) (x0 y0 : Q) (l : list (Q * Q)) : Q :=
  match l with
  | [] => y0
  | (x1, y1) :: r => if Qle_bool x1 x then interp_from x x1 y1 r
                     else (y0 + (x - x0) * ((y1 - y0) / (x1 - x0)))%Q
  end.
Definition interp (x : Q) (table : list (Q * Q)) : res Q :=
  match table with
  | [] => Err EValueError
  | (x0, y0) :: r => if Qle_bool x x0 then Ok y0 else Ok (interp_from x x0 y0 r)
  end.
(** 884-886: the row of the closest frequency. *)
Fixpoint nearest_from (f : Q) (best : nat) (v : Q) (i : nat) (l : list Q) : nat :=
  match l with
  | [] => best
  | x :: r => let d := Qabs (x - f) in
              if Qle_bool v d then nearest_from f best v (S i) r else nearest_from f i d (S i) r
  end.
Definition nearest_row (freqs : list Q) (f : Q) : res nat :=
  match freqs with [] => Err EValueError | x :: r => Ok (nearest_from f 0 (Qabs (x - f)) 1 r) end.
(** 862-897 on one coordinate (azimuth, elevation); [wanted] has one row of elevations per
    frequency, [to_point] the elevations to be pointed, of the same length. *)
Definition beamsquint (freqs : list Q) (wanted : list (list Q)) (to_point : list Q) (f : Q) (c : Q * Q) : res (Q * Q) :=
  bind (nearest_row freqs f) (fun k =>
  match nth_error wanted k with
  | None => Err EIndexError
  | Some row => bind (interp (snd c) (combine row to_point)) (fun e => Ok (fst c, e))
  end).

(** * Pointings and beams *)
(** A pointing: the coordinates computed from the sky, and those set by hand or by a
    previous computation ([custom_ho_coordinates], astro_tools.py 1183-1216). *)
Record pointing (C : Type) := mkPointing { p_sky : list C; p_custom : option (list C) }.
Arguments mkPointing {C}. Arguments p_sky {C}. Arguments p_custom {C}.
Definition horizontal {C} (p : pointing C) : list C := match p_custom p with Some l => l | None => p_sky p end.
(** 900-938: [adjust] is the squint correction and the grid of one Mini-Array; the object
    given is changed and returned. *)
Definition analog_pointing {C} (adjust : C -> C) (p : pointing C) : pointing C :=
  mkPointing (p_sky p) (Some (map adjust (horizontal p))).
(** 579: a Mini-Array computes its beam towards the pointing it has just changed. *)
Definition miniarray_beam {C} (adjust : C -> C) (p : pointing C) : list C * pointing C :=
  let p := analog_pointing adjust p in (horizontal p, p).
(** 1318-1347: the array factor first, then one Mini-Array beam per rotation, one after
    the other on the same pointing. The directions used, and the pointing left. *)
Definition nenufar_beam {C} (adjusts : list (C -> C)) (p : pointing C) : list C * list (list C) * pointing C :=
  let steps := fold_left (fun st adjust =>
    let (used, p) := miniarray_beam adjust (snd st) in (fst st ++ [used], p)) adjusts ([], p) in
  (horizontal p, fst steps, snd steps).
