(** Model of nenupy/astro/sky.py: [Sky] (the axes, [value], [__truediv__], [__mul__],
    [__getitem__], [visible_mask]) and [SkySliceBase] ([__sub__], [visible_sky]).

    Arrays live in a heap, for [copy.copy] and the in place operators of numpy share them. An
    array is flat, in the order of C, with its shape. The numbers are a type [V] with the
    operations of numpy; real and complex arrays only differ by the casts numpy refuses. The
    values of the axes (times, frequencies, polarizations, coordinates, observers) are labels.
    Not modelled: views given as values by the caller, boolean and integer arrays as
    indices, scalar coordinates, and the plots. *)
From Coq Require Import ZArith QArith Bool List.
From Verif Require Import Base.
Import ListNotations.
Open Scope nat_scope.
Open Scope list_scope.

(** Kinds of [dtype]: those below [np.float64] (integers, booleans, [float32], ...) for which
    [v.dtype < np.float64] holds (774), real and complex ones. *)
Inductive dtype := Small | Real | Cplx.
Definition is_cplx (d : dtype) : bool := match d with Cplx => true | _ => false end.

(** ** Shapes (numpy). [prod] is the size, [bcast] the common shape of reversed shapes,
    [unravel] and [ravel] the indices of a flat position and back, the last axis first. *)
Fixpoint prod (s : list nat) : nat := match s with [] => 1 | n :: r => n * prod r end.
Fixpoint bcast (a b : list nat) : option (list nat) :=
  match a, b with
  | [], s | s, [] => Some s
  | x :: a', y :: b' =>
    match bcast a' b' with
    | None => None
    | Some s => if x =? y then Some (x :: s) else if x =? 1 then Some (y :: s) else if y =? 1 then Some (x :: s) else None
    end
  end.
Fixpoint unravel (s : list nat) (k : nat) : list nat := match s with [] => [] | n :: r => k mod n :: unravel r (k / n) end.
Fixpoint ravel (s i : list nat) : nat := match s, i with n :: r, k :: t => k + n * ravel r t | _, _ => 0 end.
(** The index along an axis of length 1 is 0, whatever the one of the result. *)
Fixpoint squeeze (s i : list nat) : list nat :=
  match s, i with n :: r, k :: t => (if n =? 1 then 0 else k) :: squeeze r t | _, _ => [] end.
Fixpoint shape_eqb (a b : list nat) : bool :=
  match a, b with [], [] => true | x :: a', y :: b' => (x =? y) && shape_eqb a' b' | _, _ => false end.

(** An index given to [__getitem__]: an integer or a slice of step 1 *)
Inductive index := IInt (i : Z) | ISlice (a b : option Z).
(** The positions it selects along an axis of length [n], and whether the axis remains *)
Definition selected (n : nat) (i : index) : res (list nat * bool) :=
  match i with
  | IInt i =>
    let j := (if i <? 0 then i + Z.of_nat n else i)%Z in
    if ((0 <=? j) && (j <? Z.of_nat n))%Z then Ok ([Z.to_nat j], false) else Err EIndexError
  | ISlice a b =>
    let lo := match a with None => 0 | Some a => slice_bound n a end in
    let hi := match b with None => n | Some b => slice_bound n b end in
    Ok (seq lo (hi - lo), true)
  end.
(** [value[n]]: missing trailing indices select everything, too many are refused. *)
Fixpoint selections (s : list nat) (n : list index) : res (list (list nat * bool)) :=
  match s, n with
  | [], [] => Ok []
  | [], _ :: _ => Err EIndexError
  | k :: s', [] => bind (selections s' []) (fun r => Ok ((seq 0 k, true) :: r))
  | k :: s', i :: n' => bind (selected k i) (fun x => bind (selections s' n') (fun r => Ok (x :: r)))
  end.
(** The flat positions of the selected elements *)
Fixpoint positions (s : list nat) (l : list (list nat)) : list nat :=
  match s, l with
  | k :: s', x :: l' => flat_map (fun i => map (fun o => i * prod s' + o) (positions s' l')) x
  | _, _ => [0]
  end.
(** Labels of an axis after a selection: a scalar or an array *)
Inductive labels := One (x : Z) | Many (l : list Z).
Definition pick (l : list Z) (i : index) : res labels :=
  bind (selected (length l) i) (fun x =>
  let v := map (fun k => nth k l 0%Z) (fst x) in
  if snd x then Ok (Many v) else Ok (One (hd 0%Z v))).

(** Broadcast of one-dimensional arrays, scalars being arrays of one element *)
Definition zip_bcast {A B C} (f : A -> B -> C) (a : list A) (b : list B) : res (list C) :=
  if length a =? length b then Ok (map (fun p => f (fst p) (snd p)) (combine a b))
  else match a, b with
       | [x], _ => Ok (map (f x) b)
       | _, [y] => Ok (map (fun x => f x y) a)
       | _, _ => Err EValueError
       end.
Definition listed (l : labels) : list Z := match l with One x => [x] | Many l => l end.

Section Numbers.
Variable V : Type.
Variables (mul div sub : V -> V -> V) (one zero : V).

(** [a_lazy] tells dask arrays, which have no in place operators, from numpy ones. *)
Record array := mkArray { a_lazy : bool; a_type : dtype; a_shape : list nat; a_data : list V }.
Record sky := mkSky {
  s_time : list Z; s_freq : list Z; s_pol : list Z; s_coord : list Z; s_observer : Z;
  s_value : nat                         (* the place of [_value] in the heap *) }.
Record state := mkState { heap : list array; objects : list sky }.
Definition no_array : array := mkArray false Real [] [].
Definition array_at (h : list array) (l : nat) : array := nth l h no_array.

(** An argument: a scalar (complex or not), an array of the heap, another [Sky] *)
Inductive operand := Scalar (complex : bool) (v : V) | Array (l : nat) | Other (r : nat).

(** [expected_shape], 761-766 *)
Definition expected (s : sky) : list nat := [length (s_time s); length (s_freq s); length (s_pol s); length (s_coord s)].

(** The setter of [value], 759-777, given a scalar or a place of the heap *)
Definition set_scalar (h : list array) (s : sky) (complex : bool) (v : V) : list array * sky :=
  let a := mkArray false (if complex then Cplx else Real) (expected s) (map (mul v) (repeat one (prod (expected s)))) in
  (h ++ [a], mkSky (s_time s) (s_freq s) (s_pol s) (s_coord s) (s_observer s) (length h)).
Definition set_array (h : list array) (s : sky) (l : nat) : res (list array * sky) :=
  let a := array_at h l in
  let place k := mkSky (s_time s) (s_freq s) (s_pol s) (s_coord s) (s_observer s) k in
  if shape_eqb (a_shape a) (expected s) then
    match a_type a with
    | Small => Ok (h ++ [mkArray (a_lazy a) Real (a_shape a) (a_data a)], place (length h))     (* 774-775 *)
    | _ => Ok (h, place l)
    end
  else Err EValueError.

(** numpy and dask operations, element by element: the flat element [k] of the result, of
    reversed shape [s] *)
Definition element (s : list nat) (a : array) (k : nat) : V :=
  let r := rev (a_shape a) in nth (ravel r (squeeze r (unravel s k))) (a_data a) zero.
Definition elementwise (op : V -> V -> V) (s : list nat) (a b : array) : list V :=
  map (fun k => op (element s a k) (element s b k)) (seq 0 (prod s)).
Definition of_operand (st : state) (o : operand) : array :=
  match o with
  | Scalar c v => mkArray false (if c then Cplx else Real) [] [v]
  | Array l => array_at (heap st) l
  | Other r => array_at (heap st) (s_value (nth r (objects st) (mkSky [] [] [] [] 0 (length (heap st)))))
  end.
(** [v *= other], [v /= other]: in place for numpy (a complex operand is not cast to a real
    array, the shape is kept, and a dask operand is not taken); a new array for dask. Gives the
    heap and the place of the result. Arrays of a [Small] type are never values of a sky. *)
Definition in_place (op : V -> V -> V) (h : list array) (l : nat) (b : array) : res (list array * nat) :=
  let a := array_at h l in
  let s := bcast (rev (a_shape a)) (rev (a_shape b)) in
  if a_lazy a then
    match s with
    | None => Err EValueError
    | Some s => Ok (h ++ [mkArray true (if is_cplx (a_type a) || is_cplx (a_type b) then Cplx else Real) (rev s) (elementwise op s a b)], length h)
    end
  else if a_lazy b then Err ENotImplementedError
  else if is_cplx (a_type b) && negb (is_cplx (a_type a)) then Err ETypeError
  else match s with
       | Some s => if shape_eqb s (rev (a_shape a)) then Ok (upd l (mkArray false (a_type a) (a_shape a) (elementwise op s a b)) h, l) else Err EValueError
       | None => Err EValueError
       end.

Definition dummy : sky := mkSky [] [] [] [] 0 0.
Definition object (st : state) (r : nat) : sky := nth r (objects st) dummy.

(** [__truediv__], 716-721: the object itself, changed, is the result. An exception of the
    setter comes after the operator has written. *)
Definition divide (st : state) (r : nat) (o : operand) : state * res nat :=
  let s := object st r in
  match in_place div (heap st) (s_value s) (of_operand st o) with
  | Err e => (st, Err e)
  | Ok (h, l) =>
    match set_array h s l with
    | Err e => (mkState h (objects st), Err e)
    | Ok (h', s') => (mkState h' (upd r s' (objects st)), Ok r)
    end
  end.
(** [__mul__], 724-730: a shallow copy, then the operator on its (shared) value *)
Definition multiply (st : state) (r : nat) (o : operand) : state * res nat :=
  let s := object st r in
  match in_place mul (heap st) (s_value s) (of_operand st o) with
  | Err e => (st, Err e)
  | Ok (h, l) =>
    match set_array h s l with
    | Err e => (mkState h (objects st), Err e)
    | Ok (h', s') => (mkState h' (objects st ++ [s']), Ok (length (objects st)))
    end
  end.

(** What a program does with skies: build an array, write into one it holds, build a [Sky]
    (688-702; scalars of the axes are made arrays of one element, 787, 798, 809), set its value
    or its axes, divide and multiply it. *)
Inductive op :=
| NewArray (a : array)
| Poke (l : nat) (k : nat) (v : V)
| NewSky (t f p c : list Z) (observer : Z) (o : operand)
| SetValue (r : nat) (o : operand)
| SetTime (r : nat) (l : list Z)
| SetFreq (r : nat) (l : list Z)
| SetPol (r : nat) (l : list Z)
| Divide (r : nat) (o : operand)
| Multiply (r : nat) (o : operand).
(** The value given to the setter; a [Sky] has no comparison with a shape *)
Definition assign (h : list array) (s : sky) (o : operand) : res (list array * sky) :=
  match o with
  | Scalar c v => Ok (set_scalar h s c v)
  | Array l => set_array h s l
  | Other _ => Err EAttributeError
  end.
Definition run (st : state) (o : op) : state * res nat :=
  match o with
  | NewArray a => (mkState (heap st ++ [a]) (objects st), Ok (length (heap st)))
  | Poke l k v =>
    let a := array_at (heap st) l in
    (mkState (upd l (mkArray (a_lazy a) (a_type a) (a_shape a) (upd k v (a_data a))) (heap st)) (objects st), Ok l)
  | NewSky t f p c b o =>
    match assign (heap st) (mkSky t f p c b 0) o with
    | Err e => (st, Err e)
    | Ok (h, s) => (mkState h (objects st ++ [s]), Ok (length (objects st)))
    end
  | SetValue r o =>
    match assign (heap st) (object st r) o with
    | Err e => (st, Err e)
    | Ok (h, s) => (mkState h (upd r s (objects st)), Ok r)
    end
  | SetTime r t => let s := object st r in (mkState (heap st) (upd r (mkSky t (s_freq s) (s_pol s) (s_coord s) (s_observer s) (s_value s)) (objects st)), Ok r)
  | SetFreq r f => let s := object st r in (mkState (heap st) (upd r (mkSky (s_time s) f (s_pol s) (s_coord s) (s_observer s) (s_value s)) (objects st)), Ok r)
  | SetPol r p => let s := object st r in (mkState (heap st) (upd r (mkSky (s_time s) (s_freq s) p (s_coord s) (s_observer s) (s_value s)) (objects st)), Ok r)
  | Divide r o => divide st r o
  | Multiply r o => multiply st r o
  end.
Definition runs (st : state) (l : list op) : state := fold_left (fun st o => fst (run st o)) l st.

(** [__getitem__], 733-750: the value of the slice is a view, that is a place and positions. *)
Record slice := mkSlice {
  sl_coord : list Z; sl_time : labels; sl_freq : labels; sl_pol : labels; sl_observer : Z;
  sl_place : nat; sl_positions : list nat }.
Definition getitem (st : state) (r : nat) (n : list index) : res slice :=
  let s := object st r in
  let a := array_at (heap st) (s_value s) in
  bind (selections (a_shape a) n) (fun x =>
  if length (filter snd x) =? 1 then                                                             (* 736 *)
    match n with
    | n0 :: n1 :: n2 :: _ =>
      bind (pick (s_time s) n0) (fun t => bind (pick (s_freq s) n1) (fun f => bind (pick (s_pol s) n2) (fun p =>
      Ok (mkSlice (s_coord s) t f p (s_observer s) (s_value s) (positions (a_shape a) (map fst x))))))
    | _ => Err EIndexError
    end
  else Err EIndexError).
Definition slice_value (h : list array) (x : slice) : list V := map (fun k => nth k (a_data (array_at h (sl_place x))) zero) (sl_positions x).

(** [SkySliceBase.__sub__], 83-89: [all] of the product of the comparisons, a deep copy, and
    the operator in place on the copy; observers are not compared. *)
Definition common (x y : slice) : res bool :=
  bind (zip_bcast Z.eqb (sl_coord x) (sl_coord y)) (fun c =>
  bind (zip_bcast Z.eqb (listed (sl_time x)) (listed (sl_time y))) (fun t =>
  bind (zip_bcast Z.eqb (listed (sl_freq x)) (listed (sl_freq y))) (fun f =>
  bind (zip_bcast Z.eqb (listed (sl_pol x)) (listed (sl_pol y))) (fun p =>
  bind (zip_bcast andb c t) (fun m => bind (zip_bcast andb m f) (fun m => bind (zip_bcast andb m p) (fun m => Ok (forallb (fun b => b) m)))))))).
Definition subtract (h : list array) (x y : slice) : res (list array * slice) :=
  bind (common x y) (fun same =>
  if same then
    let a := array_at h (sl_place x) in
    let b := array_at h (sl_place y) in
    let c := mkArray (a_lazy a) (a_type a) [length (sl_positions x)] (slice_value h x) in
    bind (in_place sub (h ++ [c]) (length h) (mkArray (a_lazy b) (a_type b) [length (sl_positions y)] (slice_value h y))) (fun r =>
    Ok (fst r, mkSlice (sl_coord x) (sl_time x) (sl_freq x) (sl_pol x) (sl_observer x) (snd r)
                       (seq 0 (length (a_data (array_at (fst r) (snd r)))))))
  else Err EValueError).

(** ** [visible_mask], 824-831, and [visible_sky], 92-95: [alt] is the elevation of a coordinate
    for an observer at a time ([horizontal_coordinates], not modelled here), of shape
    (time, coordinates). *)
Section Visible.
Variable alt : Z -> Z -> Z -> Q.
Definition above (observer t c : Z) : bool := negb (Qle_bool (alt observer t c) 0).
Definition visible_mask (s : sky) : list nat * list bool :=
  (expected s,
   flat_map (fun t =>
     let row := map (above (s_observer s) t) (s_coord s) in
     concat (repeat (concat (repeat row (length (s_pol s)))) (length (s_freq s)))) (s_time s)).
Definition visible_sky (observer t : Z) (coords : list Z) : list bool := map (above observer t) coords.
End Visible.
End Numbers.
Arguments a_lazy {V}. Arguments a_type {V}. Arguments a_shape {V}. Arguments a_data {V}. Arguments mkArray {V}.
Arguments heap {V}. Arguments objects {V}. Arguments mkState {V}.
Arguments Scalar {V}. Arguments Array {V}. Arguments Other {V}.
Arguments NewArray {V}. Arguments Poke {V}. Arguments NewSky {V}. Arguments SetValue {V}. Arguments SetTime {V}.
Arguments SetFreq {V}. Arguments SetPol {V}. Arguments Divide {V}. Arguments Multiply {V}.
Arguments no_array {V}. Arguments array_at {V}. Arguments set_scalar {V}. Arguments set_array {V}. Arguments element {V}.
Arguments elementwise {V}. Arguments of_operand {V}. Arguments in_place {V}. Arguments object {V}. Arguments divide {V}.
Arguments multiply {V}. Arguments assign {V}. Arguments run {V}. Arguments runs {V}. Arguments getitem {V}.
Arguments slice_value {V}. Arguments subtract {V}.
