(** numpy n-dimensional arrays, as far as the modelled code uses them: a shape
    and the element at each multi-index (row-major, "C", order).  Strides, views
    and dtypes are not modelled: an operation returns a new array. *)
From Coq Require Import List Arith.
From Verif Require Import Base.
Import ListNotations.

Record nd (A : Type) := mkNd { sh : list nat; get : list nat -> A }.
Arguments mkNd {A} sh get.
Arguments sh {A} n.
Arguments get {A} n idx.

(** [np.prod(shape)]: number of elements. *)
Definition size (s : list nat) : nat := fold_right Nat.mul 1 s.

(** [np.ravel_multi_index] and [np.unravel_index]. *)
Fixpoint ravel (s idx : list nat) : nat :=
  match s, idx with
  | _ :: s', i :: idx' => i * size s' + ravel s' idx'
  | _, _ => 0
  end.
Fixpoint unravel (s : list nat) (k : nat) : list nat :=
  match s with
  | [] => []
  | _ :: s' => k / size s' :: unravel s' (k mod size s')
  end.

(** [a.reshape(s)], every dimension being given. *)
Definition reshape {A} (s : list nat) (a : nd A) : res (nd A) :=
  if size s =? size (sh a)
  then Ok (mkNd s (fun idx => get a (unravel (sh a) (ravel s idx))))
  else Err EValueError.

(** [a[:, ..., :m, ..., :]], the slice of the first [m] entries of axis [k]. *)
Definition take_axis {A} (k m : nat) (a : nd A) : nd A :=
  mkNd (firstn k (sh a) ++ Nat.min m (nth k (sh a) 0) :: skipn (S k) (sh a)) (get a).

(** [f(a, axis=k)] for a reduction [f] over one axis. *)
Definition reduce {A B} (f : list A -> B) (k : nat) (a : nd A) : nd B :=
  mkNd (firstn k (sh a) ++ skipn (S k) (sh a))
       (fun idx => f (map (fun j => get a (firstn k idx ++ j :: skipn k idx))
                          (seq 0 (nth k (sh a) 0)))).

(** Element-wise function. *)
Definition nmap {A B} (f : A -> B) (a : nd A) : nd B :=
  mkNd (sh a) (fun idx => f (get a idx)).

(** A one-dimensional array from a list. *)
Definition of_list {A} (d : A) (l : list A) : nd A :=
  mkNd [length l] (fun idx => nth (hd 0 idx) l d).
