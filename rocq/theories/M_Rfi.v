(** Model of nenupy/io/tf_utils.py, [mitigate_rfi_along_axis] (1436-1560). Values are rational
    numbers; complex ones, met through their moduli only, are not modelled. The polynomial
    fitted to the decimal logarithm of a profile ([np.polyfit], [np.poly1d], then [10 **]) is
    the function [fit] of the degree, of the points and of the abscissa; [np.nanstd] is the
    function [std]. Dask arrays give the values of numpy ones. *)
From Coq Require Import QArith Qabs ZArith Bool List.
From Verif Require Import Base.
Import ListNotations.
Open Scope nat_scope.
Open Scope list_scope.

(** Results of divisions: NaN, a number, or plus infinity (moduli are not negative). *)
Inductive num := Nan | Fin (q : Q) | Inf.
Definition num_le (a b : num) : bool :=
  match a, b with Fin x, Fin y => Qle_bool x y | _, Inf => true | _, _ => false end.
Definition known (l : list num) : list num := filter (fun x => match x with Nan => false | _ => true end) l.
Fixpoint insert (x : num) (l : list num) : list num :=
  match l with [] => [x] | y :: r => if num_le x y then x :: l else y :: insert x r end.
Definition sorted (l : list num) : list num := fold_right insert [] l.
Definition mid (a b : num) : num := match a, b with Fin x, Fin y => Fin ((x + y) / 2) | Nan, _ | _, Nan => Nan | _, _ => Inf end.
(** [np.nanmedian] *)
Definition nanmedian (l : list num) : num :=
  match sorted (known l) with
  | [] => Nan
  | k => mid (nth ((length k - 1) / 2) k Nan) (nth (length k / 2) k Nan)
  end.
(** [np.nanmax] *)
Definition num_max (a b : num) : num := match a, b with Nan, y => y | x, Nan => x | x, y => if num_le x y then y else x end.
Definition nanmax (l : list num) : num := fold_right num_max Nan l.
(** Division of moduli *)
Definition num_div (a b : num) : num :=
  match a, b with
  | Fin x, Fin y => if Qeq_bool y 0 then (if Qeq_bool x 0 then Nan else Inf) else Fin (x / y)
  | Fin _, Inf => Fin 0
  | Inf, Fin _ => Inf
  | _, _ => Nan
  end.
Definition modulus (v : option Q) : num := match v with Some q => Fin (Qabs q) | None => Nan end.
Definition above (a : num) (b : Q) : bool := match a with Inf => true | Fin x => negb (Qle_bool x b) | Nan => false end.

(** Data by time, frequency and polarization (all dimensions after the second one, flattened):
    [a_dim] is their number of dimensions. *)
Record array := mkArray { a_dim : nat; a_times : nat; a_freqs : nat; a_pols : nat; a_value : nat -> nat -> nat -> option Q }.

Section Mitigate.
Variable fit : Z -> list (nat * Q) -> nat -> Q.
Variable std : list Q -> Q.

(** The lines 1524-1558, [o] being the index along [axis] and [x] along the other one
    ([no], [nx] and [np] are the sizes). *)
Section Along.
Variables (no nx np : nat) (d : nat -> nat -> nat -> option Q).
(** 1527-1530: the median along the other axis, over the largest one *)
Definition level (o p : nat) : num := nanmedian (map (fun x => modulus (d o x p)) (seq 0 nx)).
Definition largest : num := nanmax (flat_map (fun o => map (level o) (seq 0 np)) (seq 0 no)).
Definition flattened (o x p : nat) : num := num_div (modulus (d o x p)) (num_div (level o p) largest).   (* 1531 *)
Definition profile (x p : nat) : num := nanmedian (map (fun o => flattened o x p) (seq 0 no)).          (* 1535-1537 *)
(** 1540-1541: the logarithm is finite *)
Definition positive (a : num) : bool := match a with Fin q => negb (Qle_bool q 0) | _ => false end.
Definition not_nan (x : nat) : bool := forallb (fun p => positive (profile x p)) (seq 0 np).
Definition points (p : nat) : list (nat * Q) :=
  flat_map (fun x => if not_nan x then match profile x p with Fin q => [(x, q)] | _ => [] end else []) (seq 0 nx).
Definition smooth (degree : Z) (x p : nat) : Q := fit degree (points p) x.                              (* 1549-1550 *)
Definition spread (degree : Z) : Q := std (flat_map (fun x => map (smooth degree x) (seq 0 np)) (seq 0 nx)).
Definition clipped (sigma : Q) (degree : Z) (o x p : nat) : bool := above (flattened o x p) (smooth degree x p + sigma * spread degree).
(** 1549: [np.polyfit] refuses negative degrees, then the absence of points. *)
Definition along (sigma : Q) (degree : Z) : res (nat -> nat -> nat -> option Q) :=
  if (no * np =? 0) then Err EValueError                                                               (* 1530, maximum of nothing *)
  else if (degree <? 0)%Z then Err EValueError
  else if forallb (fun x => negb (not_nan x)) (seq 0 nx) then Err ETypeError
  else Ok (fun o x p => if clipped sigma degree o x p then None else d o x p).                         (* 1558 *)
End Along.

(** 1436-1560 *)
Definition mitigate (a : array) (axis : Z) (sigma : Q) (degree : Z) : res array :=
  if a_dim a <? 2 then Err EException                                                                  (* 1514-1515 *)
  else match axis with
  | 0%Z => bind (along (a_times a) (a_freqs a) (a_pols a) (a_value a) sigma degree) (fun v =>
             Ok (mkArray (a_dim a) (a_times a) (a_freqs a) (a_pols a) v))
  | 1%Z => bind (along (a_freqs a) (a_times a) (a_pols a) (fun f t p => a_value a t f p) sigma degree) (fun v =>
             Ok (mkArray (a_dim a) (a_times a) (a_freqs a) (a_pols a) (fun t f p => v f t p)))
  | _ => Err EIndexError                                                                               (* 1521-1522 *)
  end.
End Mitigate.
