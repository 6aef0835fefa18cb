(** Model of nenupy/astro/skymodel.py: [HpxGSM.add_point_source], [add_point_source_snr], with
    the targets of nenupy/astro/target.py they use ([Target.time], [update_time]).

    Times are Julian days, as rationals. A direction is the HEALPix pixel it is in
    ([hp.ang2pix], not modelled). The values are a function of the indices (time, frequency,
    polarization, pixel). The smoothing of healpy and the standard deviation are arguments. *)
From Coq Require Import ZArith QArith Qabs Bool List.
From Verif Require Import Base.
Import ListNotations.
Open Scope nat_scope.
Open Scope list_scope.

Definition cube := nat -> nat -> nat -> Q.
Definition map4 := nat -> nat -> nat -> nat -> Q.
Record gsm := mkGsm { g_time : list Q; g_nf : nat; g_np : nat; g_npix : nat; g_value : map4 }.

(** [Target], target.py 61-88, 1143-1222, 1279-1339: [t_track] is the ephemeris, in pixels,
    of a moving source. Coordinates are a scalar or an array. [ang2pix] of a scalar is a scalar. *)
Inductive coords := One (p : nat) | Many (l : list nat).
Record target := mkTarget { t_moving : bool; t_time : list Q; t_coord : coords; t_track : Q -> nat }.
Definition update_time (s : target) (times : list Q) : target :=
  mkTarget (t_moving s) times (if t_moving s then Many (map (t_track s) times) else t_coord s) (t_track s).

(** The value added: a scalar, or an array of some shape *)
Inductive amount := Scalar (v : Q) | Array (shape : list nat) (v : cube).

(** [np.isclose(a, b)]: 1e-8 + 1e-5 * |b| *)
Definition isclose (a b : Q) : bool := Qle_bool (Qabs (a - b)) ((1 # 100000000) + (1 # 100000) * Qabs b)%Q.
(** [np.all(np.isclose(a, b))] with broadcast *)
Definition all_close (a b : list Q) : res bool :=
  if length a =? length b then Ok (forallb (fun p => isclose (fst p) (snd p)) (combine a b))
  else match a, b with
       | [x], _ => Ok (forallb (isclose x) b)
       | _, [y] => Ok (forallb (fun x => isclose x y) a)
       | _, _ => Err EValueError
       end.
Definition shape_eqb (a b : list nat) : bool := if list_eq_dec Nat.eq_dec a b then true else false.

Section Model.
(** [np.abs(smoothing(...))] is [Qabs] of each pixel of [smooth] *)
Variable smooth : Q -> (nat -> Q) -> nat -> Q.

Definition add_row (g : gsm) (t : nat) (f : nat -> nat -> nat -> Q) : gsm :=
  mkGsm (g_time g) (g_nf g) (g_np g) (g_npix g)
    (fun t' i j k => if t' =? t then (g_value g t' i j k + f i j k)%Q else g_value g t' i j k).
(** One time of the loops, 156-167. The smoothed map is built from zeros. *)
Definition spot (p : nat) (v : Q) : nat -> Q := fun k => if k =? p then v else 0%Q.
Definition step (g : gsm) (t p : nat) (v : cube) (size : option Q) : gsm :=
  match size with
  | None => add_row g t (fun i j k => spot p (v t i j) k)
  | Some s => add_row g t (fun i j k => Qabs (smooth s (spot p (v t i j)) k))
  end.
(** The loop over times: an index beyond the pixels of the source is an [IndexError], what was
    added before stays. *)
Fixpoint loop (g : gsm) (t n : nat) (pix : list nat) (v : cube) (size : option Q) : gsm * res unit :=
  match n with
  | 0 => (g, Ok tt)
  | S n' => match nth_error pix t with
            | None => (g, Err EIndexError)
            | Some p => loop (step g t p v size) (S t) n' pix v size
            end
  end.
(** [add_point_source], 104-167 *)
Definition add_point_source (g : gsm) (s : target) (a : amount) (size : option Q) : gsm * target * res unit :=
  let shape := [length (g_time g); g_nf g; g_np g] in
  let value := match a with
               | Scalar v => Ok (fun _ _ _ => v)
               | Array sh v => if shape_eqb sh shape then Ok v else Err EAssertionError
               end in
  match value with
  | Err e => (g, s, Err e)
  | Ok v =>
    match all_close (t_time s) (g_time g) with
    | Err e => (g, s, Err e)
    | Ok ok =>
      let s := if ok then s else update_time s (g_time g) in
      let pix := match t_coord s with One p => repeat p (length (g_time g)) | Many l => l end in
      let r := loop g 0 (length (g_time g)) pix v size in
      (fst r, s, snd r)
    end
  end.

(** [add_point_source_snr], 169-209: [std] is [np.std] *)
Variable std : list Q -> Q.
Definition qsum (l : list Q) : Q := fold_right Qplus 0%Q l.
Definition mean (l : list Q) : Q := (qsum l / inject_Z (Z.of_nat (length l)))%Q.
Definition row (g : gsm) (t i j : nat) : list Q := map (g_value g t i j) (seq 0 (g_npix g)).
Definition add_point_source_snr (g : gsm) (s : target) (snr : Q) (size : option Q) : gsm * target * res unit :=
  add_point_source g s
    (Array [length (g_time g); g_nf g; g_np g] (fun t i j => (mean (row g t i j) + snr * std (row g t i j))%Q)) size.
End Model.
