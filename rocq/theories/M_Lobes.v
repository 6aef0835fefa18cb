(** Model of nenupy/schedule/contamination.py: Mini-Array rotations, grating lobes and
    sources in them ([BeamLobes], 271-593), masks of contamination and their files
    ([SourceInLobes], 55-222). Values are rational numbers, [None] is NaN. A MOC of order 5
    is the list of its HEALPix cells; the cell of a position is a function of astropy-healpix
    and mocpy. Figures are not modelled, nor the coordinates of the sources (arguments). *)
From Coq Require Import QArith Qround ZArith Bool List.
From Verif Require Import Base.
Import ListNotations.
Open Scope Z_scope.
Open Scope list_scope.

(** * Rotations *)
(** [np.unique] *)
Fixpoint uinsert (x : Z) (l : list Z) : list Z :=
  match l with
  | [] => [x]
  | y :: r => if x <? y then x :: l else if x =? y then l else y :: uinsert x r
  end.
Definition unique (l : list Z) : list Z := fold_right uinsert [] l.
(** 322-334, the setter of [miniarray_rotations] *)
Definition rotations (mr : option (list Z)) : res (list Z) :=
  match mr with
  | None => Ok [0; 10; 20; 30; 40; 50]
  | Some l => if forallb (fun rot => rot mod 10 =? 0) l then Ok (unique (map (fun rot => rot mod 60) l)) else Err EValueError
  end.
(** 48-49 *)
Definition ma_indices : list Z := [0; 1; 3; 7; 11; 13].
Definition ma_rotations : list Z := [0; 30; 20; 50; 10; 40].
(** 527, 532 *)
Definition selected (rots : list Z) : list Z :=
  map fst (filter (fun p => existsb (Z.eqb (snd p)) rots) (combine ma_indices ma_rotations)).

(** * Array factor, 521-554 *)
(** [factor m t f c] is the array factor of the Mini-Array [m] (M_Beam, M_Analog), [gain] that
    of its antennas: time, frequency and cell (any polarization). *)
Definition qmax (a b : Q) : Q := if Qle_bool a b then b else a.
Fixpoint qmaximum (l : list Q) : option Q :=
  match l with [] => None | [x] => Some x | x :: r => option_map (qmax x) (qmaximum r) end.
(** [.max()] with NaN; the array is not empty. *)
Fixpoint all_some {A} (l : list (option A)) : option (list A) :=
  match l with [] => Some [] | None :: _ => None | Some x :: r => option_map (cons x) (all_some r) end.
Definition nan_max (l : list (option Q)) : option Q := match all_some l with None => None | Some v => qmaximum v end.
Definition qsum (l : list Q) : Q := fold_right Qplus 0%Q l.
(** 532-543: without any Mini-Array [af] is the number 0, and [ma] has no value. *)
Definition summed (factor : Z -> nat -> nat -> nat -> Q) (gain : nat -> nat -> nat -> Q) (use_gain : bool) (rots : list Z) : res (nat -> nat -> nat -> Q) :=
  match selected rots with
  | [] => if use_gain then Err EUnboundLocalError else Err EAttributeError
  | ms => Ok (fun t f c => let s := qsum (map (fun m => factor m t f c) ms) in if use_gain then s * gain t f c else s)%Q
  end.
(** 549-554: NaN when the pointing is at the horizon or below; divided by the maximum over the
    cells (a null maximum gives NaN, infinite values of negative factors are not modelled). *)
Definition normalized (n_cells : nat) (pointing_alt : nat -> Q) (af : nat -> nat -> nat -> Q) (t f c : nat) : option Q :=
  let a := fun c => if Qle_bool (pointing_alt t) 0 then None else Some (af t f c) in
  match nan_max (map a (seq 0 n_cells)), a c with
  | Some m, Some v => if Qeq_bool m 0 then None else Some (v / m)%Q
  | _, _ => None
  end.

(** * Grating lobes *)
(** The attribute [moc]: not computed, the cells by frequency and time, or the booleans of
    [compute_weight_moc]. *)
Inductive moc := NoMoc | Cells (l : nat -> nat -> list Z) | Booleans (l : nat -> nat -> bool).
(** [value t f c] (first polarization), altitude of the cell [c] at [t], its HEALPix cell of
    order 5. *)
Record lobes := mkLobes {
  n_times : nat; n_freqs : nat; n_cells : nat;
  value : nat -> nat -> nat -> option Q;
  altitude : nat -> nat -> Q;
  pixel : nat -> Z;
  the_moc : moc }.
Definition with_moc (b : lobes) (m : moc) : lobes := mkLobes (n_times b) (n_freqs b) (n_cells b) (value b) (altitude b) (pixel b) m.
(** 372-411; the maximum is over the times and the cells, and a comparison with NaN is false. *)
Definition maximum (b : lobes) (f : nat) : option Q := nan_max (flat_map (fun t => map (value b t f) (seq 0 (n_cells b))) (seq 0 (n_times b))).
Definition above (b : lobes) (ratio : Q) (f t c : nat) : bool :=
  match maximum b f, value b t f c with
  | Some m, Some v => Qle_bool (m * ratio) v && Qle_bool 0 (altitude b t c)
  | _, _ => false
  end.
Definition cells_in_lobes (b : lobes) (ratio : Q) (f t : nat) : list Z := map (pixel b) (filter (above b ratio f t) (seq 0 (n_cells b))).
Definition compute_moc (b : lobes) (ratio : Q) : lobes := with_moc b (Cells (cells_in_lobes b ratio)).
Definition holds (l : list Z) (x : Z) : bool := existsb (Z.eqb x) l.
(** [src s t] is the cell of the source [s] at [t]; 451-482. Values by frequency and time. *)
Definition table {A} (b : lobes) (v : nat -> nat -> A) : list (list A) := map (fun f => map (v f) (seq 0 (n_times b))) (seq 0 (n_freqs b)).
Definition sources_in_lobes (b : lobes) (n_sources : nat) (src : nat -> nat -> Z) : res (list (list nat)) :=
  match the_moc b with
  | Cells l => Ok (table b (fun f t => length (filter (fun s => holds (l f t) (src s t)) (seq 0 n_sources))))
  | _ => Err EAttributeError
  end.
(** 413-448: [gsm f c] is the temperature of the sky model, [gpixel c] its cell. *)
Definition gsm_in_lobes (b : lobes) (n_gsm : nat) (gsm : nat -> nat -> Q) (gpixel : nat -> Z) (threshold : Q) : res (list (list nat)) :=
  match the_moc b with
  | Cells l => Ok (table b (fun f t =>
      let g := map gpixel (filter (fun c => Qle_bool threshold (gsm f c)) (seq 0 n_gsm)) in
      if existsb (holds g) (l f t) then 1%nat else 0%nat))
  | _ => Err EAttributeError
  end.
(** 340-370: the share of the thresholds for which a source at least is in the lobes; the
    attribute becomes an array of booleans. *)
Definition reached (b : lobes) (n_sources : nat) (src : nat -> nat -> Z) (ratio : Q) (f t : nat) : bool :=
  existsb (fun s => holds (cells_in_lobes b ratio f t) (src s t)) (seq 0 n_sources).
Definition weight (b : lobes) (n_sources : nat) (src : nat -> nat -> Z) (thresholds : list Q) (f t : nat) : option Q :=
  match thresholds with
  | [] => None
  | _ => Some (inject_Z (Z.of_nat (length (filter (fun r => reached b n_sources src r f t) thresholds))) / inject_Z (Z.of_nat (length thresholds)))%Q
  end.
Definition compute_weight_moc (b : lobes) (n_sources : nat) (src : nat -> nat -> Z) (thresholds : list Q) : lobes * list (list (option Q)) :=
  (with_moc b (Booleans (fun f t => match weight b n_sources src thresholds f t with Some w => negb (Qle_bool w 0) | None => false end)),
   table b (weight b n_sources src thresholds)).
(** 494-501: the index of the first time (or frequency) at the given one or after; -1 without. *)
Fixpoint first_at (k : nat) (x : Q) (l : list Q) : Z :=
  match l with [] => -1 | y :: r => if Qle_bool x y then Z.of_nat k else first_at (S k) x r end.

(** * Masks *)
(** Times in days, frequencies in MHz, values by frequency and time. *)
Record mask := mkMask { m_time : list Q; m_freq : list Q; m_value : list (list (option Q)) }.
Definition same_axis (a b : list Q) : bool := (length a =? length b)%nat && forallb (fun p => Qeq_bool (fst p) (snd p)) (combine a b).
Definition nadd (a b : option Q) : option Q := match a, b with Some x, Some y => Some (x + y)%Q | _, _ => None end.
Fixpoint zip {A} (g : A -> A -> A) (a b : list A) : list A :=
  match a, b with x :: a, y :: b => g x y :: zip g a b | _, _ => [] end.
(** 64-76. Axes of different lengths are refused (numpy raises, or the comparison is false);
    one time or frequency against several equal ones is not modelled. *)
Definition mask_add (a b : mask) : res mask :=
  if negb (same_axis (m_freq a) (m_freq b)) || negb (same_axis (m_time a) (m_time b)) then Err EException
  else Ok (mkMask (m_time a) (m_freq a) (zip (zip nadd) (m_value a) (m_value b))).

(** The table of a file: bytes or floats. *)
Inductive column := Bytes (l : list (list Z)) | Floats (l : list (list (option Q))).
Record fits := mkFits { f_jd : list Q; f_mhz : list Q; f_column : column }.
(** 173-175: [np.floor(value * 255)].astype(int), kept in [self.value]; NaN is the least
    integer. A byte is the rest modulo 256. *)
Definition int_min : Z := - 2 ^ 63.
Definition scaled (v : option Q) : Z := match v with Some x => Qfloor (x * 255) | None => int_min end.
(** 161-204, the object after the call and the file (sidereal times are not modelled). *)
Definition export (m : mask) (in_bytes : bool) : mask * fits :=
  if in_bytes then
    let v := map (map scaled) (m_value m) in
    (mkMask (m_time m) (m_freq m) (map (map (fun z => Some (inject_Z z))) v), mkFits (m_time m) (m_freq m) (Bytes (map (map (fun z => z mod 256)) v)))
  else (m, mkFits (m_time m) (m_freq m) (Floats (m_value m))).
(** 206-222 *)
Definition from_fits (f : fits) : mask :=
  mkMask (f_jd f) (f_mhz f) (match f_column f with Bytes l => map (map (fun z => Some (inject_Z z / 255)%Q)) l | Floats l => l end).
