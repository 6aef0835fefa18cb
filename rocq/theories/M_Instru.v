(** Model of arrays of antennas: [Interferometer] of nenupy/instru/interferometer.py
    (construction 183-195, selection 197-238, sum 249-257, difference 260-268,
    setters of weights and delays 373-406).
    Positions, gains and the place of the array are of any type. Operations return
    a new object (copy.deepcopy): the operands are not changed. A weight [None] is
    a NaN. *)
From Coq Require Import ZArith QArith Bool String List Arith.
From Verif Require Import Base.
Import ListNotations.
Open Scope nat_scope.
Open Scope list_scope.

Record interf (P G L : Type) := mkInterf {
  i_place : L;
  i_names : list string;
  i_positions : list P;
  i_gains : list G;
  i_delays : list Q;
  i_weights : list (option Q) }.
Arguments mkInterf {P G L}. Arguments i_place {P G L}. Arguments i_names {P G L}. Arguments i_positions {P G L}.
Arguments i_gains {P G L}. Arguments i_delays {P G L}. Arguments i_weights {P G L}.

(** 276: [antenna_positions.shape[0]]. *)
Definition i_size {P G L} (a : interf P G L) : nat := length (i_positions a).

(** np.min and np.max of weights: NaN as soon as there is one. *)
Definition w_extremum (keep : Q -> Q -> bool) (x : option Q) (l : list (option Q)) : option Q :=
  fold_left (fun m y => match m, y with
                        | Some a, Some b => Some (if keep a b then a else b)
                        | _, _ => None
                        end) l x.
Definition w_lt (x : option Q) (b : Q) : bool := match x with Some a => negb (Qle_bool b a) | None => false end.
Definition w_gt (x : option Q) (b : Q) : bool := match x with Some a => negb (Qle_bool a b) | None => false end.

(** 377-390, setter of the weights of an array of [n] antennas; [None] for ones. *)
Definition set_weights (n : nat) (w : option (list (option Q))) : res (list (option Q)) :=
  match w with
  | None => Ok (repeat (Some 1%Q) n)                                      (* 379 *)
  | Some w =>
      if negb (length w =? n) then Err EValueError                        (* 380-383 *)
      else match w with
           | [] => Err EValueError                                        (* 384: min of nothing *)
           | x :: l =>
               if w_lt (w_extremum Qle_bool x l) 0 || w_gt (w_extremum (fun a b => Qle_bool b a) x l) 1
               then Err EValueError                                       (* 384-387 *)
               else Ok w
           end
  end.
(** 398-406, setter of the delays. *)
Definition set_delays (n : nat) (d : option (list Q)) : res (list Q) :=
  match d with
  | None => Ok (repeat 0%Q n)
  | Some d => if negb (length d =? n) then Err EValueError else Ok d
  end.

(** 183-195. Neither names nor gains are compared with the positions. *)
Definition new_interf {P G L} (place : L) (names : list string) (positions : list P) (gains : list G)
  (delays : option (list Q)) (weights : option (list (option Q))) : res (interf P G L) :=
  bind (set_delays (length positions) delays) (fun d =>
  bind (set_weights (length positions) weights) (fun w =>
  Ok (mkInterf place names positions gains d w))).

(** [a[mask]], a mask of booleans: IndexError when the lengths differ. *)
Fixpoint masked {A} (mask : list bool) (l : list A) : list A :=
  match mask, l with
  | b :: mask, x :: l => if b then x :: masked mask l else masked mask l
  | _, _ => []
  end.
Definition by_mask {A} (mask : list bool) (l : list A) : res (list A) :=
  if length mask =? length l then Ok (masked mask l) else Err EIndexError.

(** np.isin on names. *)
Definition has_name (l : list string) (x : string) : bool := existsb (String.eqb x) l.

(** The argument of [__getitem__] as numpy sees it. A scalar is an array of one
    element; booleans are compared as 0 and 1. *)
Inductive selector :=
| SSlice (start stop step : option Z)
| SNames (l : list string)
| SNums (l : list Q)
| SBools (l : list bool)
| SNested.

(** [np.arange(a, b, s)] on integers. *)
Definition z_arange (a b s : Z) : list Z :=
  let n := if (0 <? s)%Z then cdiv (b - a) s else cdiv (a - b) (- s) in
  map (fun k => (a + Z.of_nat k * s)%Z) (seq 0 (Z.to_nat n)).
(** [np.r_[a:b:s]]: a missing start is 0, a missing step 1; [np.arange(a, None, s)] is
    [np.arange(0, a, s)]. A zero step divides by zero. *)
Definition r_slice (start stop step : option Z) : res (list Z) :=
  let a := match start with Some x => x | None => 0%Z end in
  let s := match step with Some x => x | None => 1%Z end in
  if (s =? 0)%Z then Err EZeroDivisionError
  else Ok (match stop with Some b => z_arange a b s | None => z_arange 0 a s end).

(** [np.unique(n).size != n.size] *)
Fixpoint repeated {A} (eqb : A -> A -> bool) (l : list A) : bool :=
  match l with [] => false | x :: l => existsb (eqb x) l || repeated eqb l end.

(** 213-219: the mask of a selection by names. *)
Definition names_mask {P G L} (a : interf P G L) (l : list string) : res (list bool) :=
  if repeated String.eqb l then Err EDuplicateAntenna                     (* 210-211 *)
  else if existsb (fun x => negb (has_name (i_names a) x)) l then Err EAntennaName   (* 217-222 *)
  else Ok (map (has_name l) (i_names a)).
(** 224-228: the mask of a selection by indices. *)
Definition nums_mask {P G L} (a : interf P G L) (l : list Q) : res (list bool) :=
  if repeated Qeq_bool l then Err EDuplicateAntenna
  else match l with
       | [] => Err EValueError                                            (* 225: max of nothing *)
       | x :: r =>
           if Qle_bool (inject_Z (Z.of_nat (i_size a)))
                (fold_left (fun m y => if Qle_bool y m then m else y) r x)
           then Err EAntennaIndex                                         (* 225-226 *)
           else Ok (map (fun k => existsb (Qeq_bool (inject_Z (Z.of_nat k))) l) (seq 0 (i_size a)))
       end.
Definition mask_of {P G L} (a : interf P G L) (s : selector) : res (list bool) :=
  match s with
  | SSlice start stop step => bind (r_slice start stop step) (fun l => nums_mask a (map inject_Z l))  (* 198-200 *)
  | SNames l => names_mask a l
  | SNums l => nums_mask a l
  | SBools l => nums_mask a (map (fun b : bool => if b then 1%Q else 0%Q) l)
  | SNested => Err EValueError                                            (* 206-209 *)
  end.

(** 197-238 *)
Definition i_getitem {P G L} (a : interf P G L) (s : selector) : res (interf P G L) :=
  bind (mask_of a s) (fun m =>
  bind (by_mask m (i_names a)) (fun n =>
  bind (by_mask m (i_positions a)) (fun p =>
  bind (by_mask m (i_gains a)) (fun g =>
  bind (by_mask m (i_weights a)) (fun w =>
  bind (set_weights (length p) (Some w)) (fun w =>
  bind (by_mask m (i_delays a)) (fun d =>
  bind (set_delays (length p) (Some d)) (fun d =>
  Ok (mkInterf (i_place a) n p g d w))))))))).

(** 249-257 *)
Definition i_add {P G L} (a b : interf P G L) : res (interf P G L) :=
  let m := map (fun x => negb (has_name (i_names a) x)) (i_names b) in
  bind (by_mask m (i_names b)) (fun n =>
  bind (by_mask m (i_positions b)) (fun p =>
  bind (by_mask m (i_gains b)) (fun g =>
  bind (by_mask m (i_weights b)) (fun w =>
  bind (set_weights (length (i_positions a ++ p)) (Some (i_weights a ++ w))) (fun w =>
  bind (by_mask m (i_delays b)) (fun d =>
  bind (set_delays (length (i_positions a ++ p)) (Some (i_delays a ++ d))) (fun d =>
  Ok (mkInterf (i_place a) (i_names a ++ n) (i_positions a ++ p) (i_gains a ++ g) d w)))))))).

(** 260-268 *)
Definition i_sub {P G L} (a b : interf P G L) : res (interf P G L) :=
  let m := map (fun x => negb (has_name (i_names b) x)) (i_names a) in
  bind (by_mask m (i_names a)) (fun n =>
  bind (by_mask m (i_positions a)) (fun p =>
  bind (by_mask m (i_gains a)) (fun g =>
  bind (by_mask m (i_weights a)) (fun w =>
  bind (set_weights (length p) (Some w)) (fun w =>
  bind (by_mask m (i_delays a)) (fun d =>
  bind (set_delays (length p) (Some d)) (fun d =>
  Ok (mkInterf (i_place a) n p g d w)))))))).
