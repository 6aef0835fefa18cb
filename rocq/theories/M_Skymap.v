(** Model of nenupy/astro/sky.py: [_compute_wcs] and [_fullsky_projection] of [SkySlice] and
    [HpxSkySlice] (the projection of the latter is [reproject], not modelled), and
    [HpxSky._resol2nside], [HpxSky.shaped_like].

    Angles are rationals, in degrees. Pixel coordinates given by [WCS.world_to_pixel] are an
    argument, [None] being NaN, as for the values; values are real. *)
From Coq Require Import ZArith QArith Qround Qabs Bool List.
From Verif Require Import Base.
Import ListNotations.
Open Scope nat_scope.
Open Scope list_scope.

(** [int] of a number *)
Definition trunc (q : Q) : Z := Z.quot (Qnum q) (Zpos (Qden q)).

(** ** [_compute_wcs], 545-564 and 634-652. [int] of an infinite number is an [OverflowError].
    [w_shape] is the tuple given back by [SkySlice], (ra, dec); the one of [HpxSkySlice] is
    reversed. [w_pix] is the reference pixel, from 1, [w_delt] the size of pixels, [w_val] the
    direction of the reference pixel. *)
Record wcs := mkWcs { w_pix : Q * Q; w_delt : Q * Q; w_val : Q * Q }.
Definition dangle : Q := 675 # 1000.
Definition compute_wcs (center : Q * Q) (resolution : Q) (radius : option Q) : res (wcs * (Z * Z)) :=
  if Qeq_bool resolution 0 then Err EOverflowError
  else
    let s := trunc (dangle / resolution) in
    let scale := if (s <=? 1)%Z then 1%Z else s in
    let resol := (dangle / inject_Z scale)%Q in
    let '(ra_dim, dec_dim) :=
      match radius with
      | None => (480 * scale, 240 * scale)%Z
      | Some r => let n := trunc (2 * r / resol)%Q in (n, n)
      end in
    Ok (mkWcs (inject_Z ra_dim / 2 + (1 # 2), inject_Z dec_dim / 2 + (1 # 2))%Q (- resol, resol)%Q center, (ra_dim, dec_dim)).
Definition compute_wcs_hpx (center : Q * Q) (resolution : Q) (radius : option Q) : res (wcs * (Z * Z)) :=
  bind (compute_wcs center resolution radius) (fun r => Ok (fst r, (snd (snd r), fst (snd r)))).

(** ** [SkySlice._fullsky_projection], 567-602. Arrays are flat, in the order of C, of shape
    ([nx], [ny]). A NaN is cast to the smallest integer, which is out of the image. *)
Definition cell (nx ny : nat) (p : option Q * option Q) : option nat :=
  match p with
  | (Some x, Some y) =>
    let i := Qfloor x in let j := Qfloor y in
    if ((0 <=? i) && (i <? Z.of_nat nx) && ((0 <=? j) && (j <? Z.of_nat ny)))%Z then Some (Z.to_nat i * ny + Z.to_nat j) else None
  | _ => None
  end.
Definition add (a b : option Q) : option Q := match a, b with Some a, Some b => Some (a + b)%Q | _, _ => None end.
Definition over (a : option Q) (n : nat) : option Q := match a with Some a => Some (a / inject_Z (Z.of_nat n))%Q | None => None end.
(** [hidden]: the complement of [visible_sky] if it is asked for. A mask of another length than
    the values is refused. *)
Definition project (nx ny : nat) (points : list (option Q * option Q)) (values : list (option Q)) (hidden : option (list bool)) : res (list (list (option Q))) :=
  if negb (length values =? length points) then Err EIndexError
  else
    let values := match hidden with
                  | None => values
                  | Some m => map (fun q => if snd q : bool then None else fst q) (combine values m)
                  end in
    let kept := flat_map (fun q => match cell nx ny (fst q) with Some k => [(k, snd q)] | None => [] end) (combine points values) in
    let cells := map fst kept in
    let data := repeat None (nx * ny) in
    let data := fold_left (fun d k => upd k (Some 0%Q) d) cells data in                                       (* 596 *)
    let weights := fold_left (fun w k => upd k (S (nth k w 0)) w) cells (repeat 0 (nx * ny)) in               (* 597 *)
    let weights := map (fun w => if w =? 0 then 1 else w) weights in
    let data := fold_left (fun d q => upd (fst q) (add (nth (fst q) d None) (snd q)) d) kept data in          (* 599 *)
    let means := map (fun k => (k, over (nth k data None) (nth k weights 0))) cells in                        (* 600 *)
    let data := fold_left (fun d q => upd (fst q) (snd q) d) means data in
    Ok (map (fun j => map (fun i => nth (i * ny + j) data None) (seq 0 nx)) (seq 0 ny)).                      (* transposed *)

(** ** [_resol2nside], 967-990: [base] is the resolution of order 0. [argmin] is the first one. *)
Section Orders.
Variable base : Q.
Definition orders : nat := 30.
Definition available (k : nat) : Q := (base / inject_Z (2 ^ Z.of_nat k))%Q.
Fixpoint argmin (f : nat -> Q) (best : nat) (l : list nat) : nat :=
  match l with
  | [] => best
  | k :: r => argmin f (if Qle_bool (f best) (f k) then best else k) r
  end.
Definition order_of (resolution : Q) : nat := argmin (fun k => Qabs (available k - resolution)) 0 (seq 1 (orders - 1)).
Definition resol2nside (resolution : Q) : Z * Q := let k := order_of resolution in ((2 ^ Z.of_nat k)%Z, available k).

(** [HpxSky.__init__] and [shaped_like], 890-963. The coordinates are the numbers of the
    HEALPix pixels; the value is the default 0, of the shape of the axes. [other] may be something
    else than a [HpxSky]. *)
Record hpx := mkHpx { h_nside : Z; h_resolution : Q; h_time : list Z; h_freq : list Z; h_pol : list Z; h_observer : Z; h_value : Q }.
Definition npix (h : hpx) : Z := (12 * h_nside h * h_nside h)%Z.
Definition new_hpx (resolution : Q) (t f p : list Z) (observer : Z) (v : Q) : hpx :=
  let r := resol2nside resolution in mkHpx (fst r) (snd r) t f p observer v.
Definition shaped_like (other : option hpx) : res hpx :=
  match other with
  | None => Err ETypeError
  | Some h => Ok (new_hpx (h_resolution h) (h_time h) (h_freq h) (h_pol h) (h_observer h) 0)
  end.
End Orders.
