(** Model of the profiles and backgrounds of dynamic spectra, nenupy/beamlet/sdata.py 474-550
    ([medianFProfile], [medianTProfile], [background], [fbackground]) and of the division of one
    spectrum by another of the same axes, 315-332 (the checks of axes are in M_SData).
    Samples are rational numbers or NaN ([None]); infinite quotients are [None] too. Times are not
    rounded to the millisecond ([isot], 482). *)
From Coq Require Import List Arith ZArith QArith Bool.
From Verif Require Import Base M_Rebin.
Import ListNotations.
Open Scope nat_scope.

(** Samples by time, frequency and polarization *)
Record spectrum := mkSp { x_time : list Q; x_freq : list Q; x_pol : nat; x_data : nat -> nat -> nat -> sample }.
(** [np.nanmedian(self.data, axis=0)] and [axis=1] *)
Definition med_spec (s : spectrum) (f p : nat) : sample := nanmedian (map (fun t => x_data s t f p) (seq 0 (length (x_time s)))).
Definition med_prof (s : spectrum) (t p : nat) : sample := nanmedian (map (fun f => x_data s t f p) (seq 0 (length (x_freq s)))).
(** 480-485 *)
Definition median_f (s : spectrum) : res spectrum :=
  match x_time s with
  | [] => Err EIndexError
  | t0 :: _ => Ok (mkSp [(t0 + (last (x_time s) 0 - t0) / 2)%Q] (x_freq s) (x_pol s) (fun _ f p => med_spec s f p))
  end.
(** 494-499, for one frequency at least (the mean of none is NaN) *)
Definition median_t (s : spectrum) : option spectrum :=
  match nanmean (map Some (x_freq s)) with
  | None => None
  | Some m => Some (mkSp (x_time s) [m] (x_pol s) (fun t _ p => med_prof s t p))
  end.
(** 542-550 *)
Definition fbackground (s : spectrum) : spectrum := mkSp (x_time s) (x_freq s) (x_pol s) (fun _ f p => med_spec s f p).
Definition smul (a b : sample) : sample := match a, b with Some x, Some y => Some (x * y)%Q | _, _ => None end.
Definition sdiv (a b : sample) : sample := match a, b with Some x, Some y => if Qeq_bool y 0 then None else Some (x / y)%Q | _, _ => None end.
(** [np.nanmax] *)
Definition nanmax (l : list sample) : sample :=
  match known l with [] => None | x :: r => Some (fold_left (fun m y => if Qle_bool y m then m else y) r x) end.
(** 508-536. The fit of 518-528, where a sample of the first channel and polarization is NaN, is not
    modelled ([None]). The largest value is that of all times and polarizations. *)
Definition background (s : spectrum) : option spectrum :=
  let nt := length (x_time s) in
  if existsb (fun t => match x_data s t 0 0 with None => true | Some _ => false end) (seq 0 nt) then None
  else
    let top := nanmax (flat_map (fun t => map (fun p => med_prof s t p) (seq 0 (x_pol s))) (seq 0 nt)) in
    Some (mkSp (x_time s) (x_freq s) (x_pol s) (fun t f p => smul (med_spec s f p) (sdiv (med_prof s t p) top))).
Definition divide (a b : spectrum) : spectrum := mkSp (x_time a) (x_freq a) (x_pol a) (fun t f p => sdiv (x_data a t f p) (x_data b t f p)).
