(** Model of the correction of polarization by given Jones matrices,
    nenupy/undysputed/dynspec.py 1465-1526 ([Dynspec._polarization_correction2]).
    The data are four values per time and channel, the Jones matrices four per time and frequency
    given; [mul] is the product of two values. The data have as many times as [data_time] and
    channels as [data_frequency], the matrices are as many as their times and frequencies. *)
From Coq Require Import List Arith ZArith QArith Bool.
From Verif Require Import Base.
Import ListNotations.
Open Scope nat_scope.

(** [(np.diff(l) >= 0).all()], 1478-1481 *)
Fixpoint ascending (l : list Q) : bool :=
  match l with a :: ((b :: _) as r) => Qle_bool a b && ascending r | _ => true end.
(** 1491: [thresholds[:-1] + np.diff(thresholds)/2] *)
Fixpoint half_steps (l : list Q) : list Q :=
  match l with a :: ((b :: _) as r) => (a + (b - a) / 2)%Q :: half_steps r | _ => [] end.
(** 1484-1500; [data_array[0]] and [thresholds[0]] of nothing raise IndexError. *)
Definition prepare_intervals (data thresholds : list Q) : res (list Q) :=
  match data, thresholds with
  | d0 :: _, t0 :: _ =>
      let d1 := last data 0%Q in let t1 := last thresholds 0%Q in
      Ok ((if Qle_bool t0 d0 then t0 else d0) :: half_steps thresholds ++ [if Qle_bool d1 t1 then t1 else (d1 + (1 # 10))%Q])
  | _, _ => Err EIndexError
  end.
(** 1515, 1521 *)
Definition mask (lo hi : Q) (data : list Q) : list bool := map (fun x => Qle_bool lo x && negb (Qle_bool hi x)) data.
(** [np.argmax] of booleans, one of which is true *)
Fixpoint argmax (l : list bool) : nat := match l with [] => 0 | b :: r => if b then 0 else S (argmax r) end.
(** 1516-1518, 1522-1524 *)
Definition span (lo hi : Q) (data : list Q) : option (nat * nat) :=
  let m := mask lo hi data in
  if existsb (fun b => b) m then Some (argmax m, length m - argmax (rev m)) else None.
Definition inside (s : option (nat * nat)) (p : nat) : bool :=
  match s with None => false | Some (a, b) => (a <=? p) && (p <? b) end.
Definition interval_span (data intervals : list Q) (k : nat) : option (nat * nat) := span (nth k intervals 0%Q) (nth (S k) intervals 0%Q) data.
Section Correction.
  Context {A : Type}.
  Variable mul : A -> A -> A.
  (** Values by time, channel, line and column *)
  Definition spectra := nat -> nat -> nat -> nat -> A.
  Definition scale_span (n_chan : nat) (st sf : option (nat * nat)) (jones : nat -> nat -> A) (d : spectra) : spectra :=
    fun t f a b => if inside st t && inside sf (f / n_chan) then mul (d t f a b) (jones a b) else d t f a b.
  (** 1513-1525 *)
  Definition scale_all (n_chan : nat) (times freqs ti fi : list Q) (jones : nat -> nat -> nat -> nat -> A) (d : spectra) : spectra :=
    fold_left (fun d i => fold_left (fun d j => scale_span n_chan (interval_span times ti i) (interval_span freqs fi j) (jones i j) d)
                (seq 0 (length fi - 1)) d) (seq 0 (length ti - 1)) d.
  (** The first channel of each subband, 1504 *)
  Definition subband_first (n_chan : nat) (freqs : list Q) : list Q := map (fun s => nth (s * n_chan) freqs 0%Q) (seq 0 (length freqs / n_chan)).
  (** 1465-1526 *)
  Definition correct2 (jt jf : option (list Q)) (jones : option (nat -> nat -> nat -> nat -> A)) (n_chan : nat) (times freqs : list Q) (d : spectra) : res spectra :=
    match jt, jf, jones with
    | Some jt, Some jf, Some j =>
        if negb (ascending jt) then Err EValueError
        else if negb (ascending jf) then Err EValueError
        else if n_chan =? 0 then Err EZeroDivisionError
        else if negb (length freqs mod n_chan =? 0) then Err EValueError
        else bind (prepare_intervals times jt) (fun ti =>
             bind (prepare_intervals (subband_first n_chan freqs) jf) (fun fi =>
             Ok (scale_all n_chan times (subband_first n_chan freqs) ti fi j d)))
    | _, _, _ => Ok d
    end.
End Correction.
