(** Model of the optional tasks of the pipeline and of its result: nenupy/io/tf.py 372-412
    ([correct_polarization]), 425-461 ([correct_parallactic_rotation]), 502-516
    ([correct_faraday_rotation]), 562-590 ([de_disperse]), 747-757 and 790-800
    ([mitigate_frequency_rfi], [mitigate_time_rfi]), 1834-1871 ([_to_sdata]) with
    nenupy/beamlet/sdata.py 177-181, 354-364, 393-412 (the checks of [SData]).
    The corrections themselves are arbitrary functions; they are modelled elsewhere. *)
From Coq Require Import String List Arith ZArith QArith Bool.
From Verif Require Import Base M_Pipeline.
Import ListNotations.
Open Scope nat_scope.
Open Scope list_scope.

(** A keyword argument; one that was never set is missing from the call: TypeError. *)
Fixpoint keyword (k : string) (kw : list (string * option pyval)) : option pyval :=
  match kw with [] => None | (k', v) :: r => if String.eqb k k' then v else keyword k r end.
Section Wrappers.
  Context {T F D : Type}.
  (** [utils.apply_dreambeam_corrections]: channels, dt, calib_dt, skycoord, parallactic *)
  Variable dreambeam : pyval -> pyval -> pyval -> pyval -> pyval -> T -> F -> D -> res D.
  (** [utils.correct_parallactic]: channels, dt, calib_dt, skycoord *)
  Variable parallactic : pyval -> pyval -> pyval -> pyval -> T -> F -> D -> res D.
  (** [utils.de_faraday_data]: rotation_measure *)
  Variable faraday : pyval -> F -> D -> res D.
  (** [utils.de_disperse_array]: dt, dispersion_measure *)
  Variable disperse : pyval -> pyval -> F -> D -> res D.
  (** [utils.mitigate_rfi_along_axis]: axis *)
  Variable mitigate : nat -> D -> res D.
  (** [data.nbytes >= DATA_VOLUME_SECURITY_THRESHOLD] *)
  Variable too_large : D -> bool.
  (** [not v] of a parameter *)
  Definition truthy (v : pyval) : bool :=
    match v with
    | VNone => false | VBool b => b | VNum (Some x) => negb (Qeq_bool x 0) | VNum None => true
    | VStr s => negb (String.eqb s EmptyString) | VList l => match l with [] => false | _ => true end
    end.
  (** 374-399 *)
  Definition polarization_step (kw : list (string * option pyval)) (tm : T) (fr : F) (d : D) : res (T * F * D) :=
    match keyword "channels" kw, keyword "dt" kw, keyword "skycoord" kw, keyword "calib_dt" kw, keyword "dreambeam_parallactic" kw with
    | Some ch, Some dt, Some sky, Some step, Some par =>
        if is_none step || is_none sky || is_none par then Ok (tm, fr, d)
        else bind (dreambeam ch dt step sky par tm fr d) (fun d' => Ok (tm, fr, d'))
    | _, _, _, _, _ => Err ETypeError
    end.
  (** 401-412 *)
  Definition correct_polarization : task T F D :=
    make_task "Polarization corection with DreamBeam" (CAll polarization_step) ["channels"; "dt"; "skycoord"; "calib_dt"; "dreambeam_parallactic"]%string false.
  (** 426-449 *)
  Definition parallactic_step (kw : list (string * option pyval)) (tm : T) (fr : F) (d : D) : res (T * F * D) :=
    match keyword "channels" kw, keyword "dt" kw, keyword "skycoord" kw, keyword "calib_dt" kw with
    | Some ch, Some dt, Some sky, Some step =>
        if is_none step || is_none sky then Ok (tm, fr, d)
        else bind (parallactic ch dt step sky tm fr d) (fun d' => Ok (tm, fr, d'))
    | _, _, _, _ => Err ETypeError
    end.
  (** 451-461 *)
  Definition correct_parallactic : task T F D :=
    make_task "Parallactic corection" (CAll parallactic_step) ["channels"; "dt"; "skycoord"; "calib_dt"]%string false.
  (** 502-516 *)
  Definition faraday_step (kw : list (string * option pyval)) (fr : F) (d : D) : res (F * D) :=
    match keyword "rotation_measure" kw with
    | Some rm => if is_none rm then Ok (fr, d) else bind (faraday rm fr d) (fun d' => Ok (fr, d'))
    | None => Err ETypeError
    end.
  Definition correct_faraday : task T F D := make_task "Correct faraday rotation" (CFreq faraday_step) ["rotation_measure"]%string false.
  (** 562-590 *)
  Definition disperse_step (kw : list (string * option pyval)) (fr : F) (d : D) : res (F * D) :=
    match keyword "dt" kw, keyword "dispersion_measure" kw, keyword "ignore_volume_warning" kw with
    | Some dt, Some dm, Some ignore =>
        if is_none dm then Ok (fr, d)
        else if too_large d && negb (truthy ignore) then Ok (fr, d)
        else bind (disperse dt dm fr d) (fun d' => Ok (fr, d'))
    | _, _, _ => Err ETypeError
    end.
  Definition de_disperse : task T F D :=
    make_task "De-disperse" (CFreq disperse_step) ["dt"; "dispersion_measure"; "ignore_volume_warning"]%string false.
  (** 747-757, 790-800; the name shows [sigma_clip] with two decimals, given here as text. *)
  Definition mitigate_frequency (sigma : string) : task T F D := make_task (String.append "Mitigate frequency RFI sig=" sigma) (CData (fun _ => mitigate 0)) [] true.
  Definition mitigate_time (sigma : string) : task T F D := make_task (String.append "Mitigate time RFI sig=" sigma) (CData (fun _ => mitigate 1)) [] true.
End Wrappers.

(** ** The result *)
Definition stokes_task : string := "Compute Stokes parameters".
(** An array by its shape and its values *)
Record array (V : Type) := mkArr { a_shape : list nat; a_at : list nat -> V }.
Arguments mkArr {V}. Arguments a_shape {V}. Arguments a_at {V}.
Definition product (l : list nat) : nat := fold_right Nat.mul 1 l.
(** The indices of the [k]-th element of an array of shape [s], the last index first. *)
Fixpoint unravel (s : list nat) (k : nat) : list nat :=
  match s with [] => [] | n :: r => (k / product r) :: unravel r (k mod product r) end.
(** 1858: the sizes [data.shape[:2]] then -1; the size that is left is not known when the first
    two are zero: ValueError. An array of fewer than two dimensions gets other sizes
    (not modelled: the data have two at least). *)
Definition merge {V} (a : array V) : res (array V) :=
  match a_shape a with
  | t :: f :: rest => if Nat.eqb (t * f) 0 then Err EValueError
                      else Ok (mkArr [t; f; product rest] (fun i => match i with
                             | [x; y; k] => a_at a (x :: y :: unravel rest k)
                             | _ => a_at a i end))
  | _ => Err EIndexError
  end.
(** sdata.py 399-412: the polarizations; every text makes a unit. *)
Definition polars (v : pyval) : res (list pyval) :=
  match v with VList l => Ok l | VStr s => Ok [v] | _ => Err ETypeError end.
(** sdata.py 355-364 *)
Definition make_sdata {V} (times freqs : nat) (polar : pyval) (a : array V) : res (array V * list pyval) :=
  bind (polars polar) (fun p =>
  match a_shape a with
  | [t; f; n] => if Nat.eqb times t && Nat.eqb freqs f && Nat.eqb (length p) n then Ok (a, p) else Err EAssertionError
  | _ => Err EValueError
  end).
(** 1853-1871 *)
Definition to_sdata {T F D V} (ts : list (task T F D)) (ps : params) (times freqs : nat) (a : array V) : res (array V * list pyval) :=
  if contains stokes_task ts then bind (get_item ps "stokes") (fun s => make_sdata times freqs s a)
  else bind (merge a) (fun a => make_sdata times freqs (VList [VStr "XX"; VStr "XY"; VStr "YX"; VStr "YY"]) a).
