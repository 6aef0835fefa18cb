(** Model of the correction of the polarisation by Jones matrices:
    nenupy/io/tf_utils.py 70-245 ([apply_dreambeam_corrections]) and
    nenupy/undysputed/dynspec.py 1367-1443 ([Dynspec._polarization_correction]).
    The matrices come from DreamBeam, which is not modelled: any times, frequencies and
    matrices, or an exception.  The data has the shape (time, frequency, 2, 2); the last
    two axes are one matrix here.  The time step asked is not negative.  Times, frequencies
    and matrices are exact; log messages are not modelled.  An array of another number of axes,
    which the callers never give, is an [EValueError] here. *)
From Coq Require Import List Arith ZArith QArith Qround Reals Bool.
From Verif Require Import Base M_Nd M_Polar.
Import ListNotations.
Open Scope nat_scope.

(** [np.linalg.inv]: LinAlgError, an [EException] here, for a singular matrix. *)
Definition csub (a b : cpx) : cpx := (re a - re b, im a - im b)%R.
Definition cinv (z : cpx) : cpx :=
  (re z / (re z * re z + im z * im z), - im z / (re z * re z + im z * im z))%R.
Definition det (a : mat) : cpx := csub (cmult (m00 a) (m11 a)) (cmult (m01 a) (m10 a)).
Definition cneg (z : cpx) : cpx := (- re z, - im z)%R.
Definition adjugate (a : mat) : mat := mkMat (m11 a) (cneg (m01 a)) (cneg (m10 a)) (m00 a).
Definition singular (a : mat) : bool :=
  if Req_EM_T (re (det a)) 0%R then if Req_EM_T (im (det a)) 0%R then true else false else false.
Definition minv (a : mat) : mat := mat_of (fun i j => cmult (cinv (det a)) (mget (adjugate a) i j)).
Definition id2 : mat := mkMat (1, 0)%R (0, 0)%R (0, 0)%R (1, 0)%R.

(** [np.argmax] of booleans: the first true one, 0 if there is none; an empty array is
    refused. *)
Fixpoint first_true (l : list bool) : option nat :=
  match l with [] => None | true :: _ => Some 0 | false :: r => option_map S (first_true r) end.
Definition argmax_bool (l : list bool) : res nat :=
  match l with [] => Err EValueError | _ => Ok (match first_true l with Some i => i | None => 0 end) end.
Definition at_least (v : Q) (l : list Q) : list bool := map (fun x => Qle_bool v x) l.
Definition under (v : Q) (l : list Q) : list bool := map (fun x => negb (Qle_bool v x)) l.
(** tf_utils.py 189-200, dynspec.py 1408-1414: the bounds of the solutions. *)
Definition window_start (grid : list Q) (first : Q) : res nat := argmax_bool (at_least first grid).
Definition window_stop (grid : list Q) (last : Q) : res nat :=
  bind (argmax_bool (under last (rev grid))) (fun r => Ok (length grid - r)).
(** Numbers of elements of the slice [a:b] of [n]. *)
Definition span (n a b : nat) : nat := Nat.min b n - a.
(** An axis of [have] matrices applied to [want] blocks: one element is used for all;
    another number either is refused or gives a shape refused afterwards. *)
Definition fits (have want : nat) : bool := (have =? want) || (have =? 1).
Definition spread (have i : nat) : nat := if have =? 1 then 0 else i.

Definition solutions : Type := (list Q * list Q * (nat -> nat -> mat))%type.
(** All the matrices of the slices [t0:t0+nt], [f0:f0+nf]. *)
Definition any_singular (j : nat -> nat -> mat) (t0 nt f0 nf : nat) : bool :=
  existsb (fun t => existsb (fun f => singular (j (t0 + t) (f0 + f))) (seq 0 nf)) (seq 0 nt).

Section Dream.
(** [compute_jones_matrices(start_time, time_step, duration, ...)], time first: astro/beam_correction.py 40-80. *)
Variable dream : Q -> Q -> Q -> res solutions.
Definition compute_jones (start step duration : Q) : res solutions :=
  if Qle_bool step 1 then Err EValueError else dream start step duration.

(** tf_utils.py 132-245 *)
Definition apply_dreambeam (time frequency : list Q) (data : nd mat) (dt step : Q) (n_channels : nat) : res (nd mat) :=
  let time_size := length time in
  let freq_size := length frequency in
  match sh data with
  | [dim0; dim1] =>
      if negb (time_size =? dim0) then Err EValueError                               (* 136-137 *)
      else if negb (freq_size =? dim1) then Err EValueError                          (* 138-139 *)
      else if n_channels =? 0 then Err EZeroDivisionError
      else if negb (freq_size mod n_channels =? 0) then Err EValueError
      else
        let n_subbands := freq_size / n_channels in
        let group := Z.to_nat (round_even (step / dt)%Q) in                          (* 143 *)
        if group =? 0 then Err EZeroDivisionError
        else if time_size =? 0 then Err EIndexError
        else
          let small := time_size / group =? 0 in                                     (* 149-156 *)
          let n_groups := if small then 1 else time_size / group in
          let size := if small then time_size else group in
          let leftover := if small then 0 else time_size mod group in
          let main := time_size - leftover in
          let tstart := nth 0 time 0%Q in
          bind (compute_jones tstart (inject_Z (Z.of_nat size) * dt)%Q (last time 0%Q - tstart)%Q) (fun sol =>
          let '(db_time, db_freq, jones) := sol in
          if freq_size =? 0 then Err EIndexError                                     (* 189 *)
          else
          bind (window_start db_freq (nth 0 frequency 0%Q)) (fun f0 =>               (* 189-192 *)
          bind (window_stop db_freq (nth ((n_subbands - 1) * n_channels) frequency 0%Q)) (fun f1 =>
          bind (window_start db_time tstart) (fun t0 =>                              (* 195-200 *)
          let ht := span (length db_time) t0 (t0 + n_groups) in                      (* 202-204 *)
          let hf := span (length db_freq) f0 (f1 + 1) in
          if any_singular jones t0 ht f0 hf then Err EException                      (* 212 *)
          else if negb (fits ht n_groups && fits hf n_subbands) then Err EValueError (* 228-245 *)
          else
          bind (reshape [n_groups; size; n_subbands; n_channels] (take_axis 0 main data)) (fun d =>
          bind (reshape [main; freq_size] (mkNd (sh d) (fun idx =>
             jones_apply (minv (jones (t0 + spread ht (nth 0 idx 0)) (f0 + spread hf (nth 2 idx 0)))) (get d idx)))) (fun head =>
          if leftover =? 0 then Ok head
          else
            let lt := length db_time - 1 in
            let bad := any_singular jones lt 1 f0 hf in                              (* 213-218 *)
            bind (reshape [leftover; n_subbands; n_channels]
                    (mkNd [leftover; dim1] (fun idx => get data ((hd 0 idx + main) :: tl idx)))) (fun dl =>
            bind (reshape [leftover; freq_size] (mkNd (sh dl) (fun idx =>
               jones_apply (if bad then id2 else minv (jones lt (f0 + spread hf (nth 1 idx 0)))) (get dl idx)))) (fun tail =>
            Ok (mkNd [time_size; freq_size] (fun idx =>
              if hd 0 idx <? main then get head idx
              else get tail ((hd 0 idx - main) :: tl idx)))))))))))
  | _ => Err EValueError
  end.
End Dream.

(** dynspec.py 1367-1443; [None]: no solutions.  [dt] is that of the first lane.  The times
    and frequencies have the sizes of the axes of the data, as [_get] and [_select_data]
    give them. *)
Definition lane_correction (sol : option solutions) (dt : Q) (data : nd mat) (time frequency : list Q) (n_chan : nat)
  : res (nd mat) :=
  match sol, sh data with
  | None, _ => Ok data                                                               (* 1372-1378 *)
  | Some (jt, jf, jones), [dim0; dim1] =>
      if any_singular jones 0 (length jt) 0 (length jf) then Err EException          (* 1381 *)
      else
        match jt with
        | j0 :: j1 :: _ =>
            let steps := Z.to_nat (round_even ((j1 - j0) / dt)%Q) in                 (* 1386 *)
            if steps =? 0 then Err EZeroDivisionError
            else if n_chan =? 0 then Err EZeroDivisionError
            else
              let remaining := dim0 mod steps in
              let main := dim0 - remaining in
              let blocks := main / steps in
              let subbands := dim1 / n_chan in
              (* 1389-1406: data[-0:] is everything and data[:-0] nothing *)
              let cut := if remaining =? 0 then 0 else main in
              bind (reshape [remaining; subbands; n_chan]
                      (mkNd [dim0 - cut; dim1] (fun idx => get data ((hd 0 idx + cut) :: tl idx)))) (fun dl =>
              bind (reshape [blocks; steps; subbands; n_chan] (take_axis 0 cut data)) (fun d =>
              if length frequency <? n_chan then Err EIndexError                      (* 1409 *)
              else
              bind (window_start jf (nth 0 frequency 0%Q)) (fun f0 =>
              bind (window_stop jf (nth ((length frequency / n_chan - 1) * n_chan) frequency 0%Q)) (fun f1 =>
              if blocks =? 0 then Err EIndexError                                     (* 1413 *)
              else
              bind (window_start jt (nth 0 time 0%Q)) (fun t0 =>
              bind (window_stop jt (nth ((blocks - 1) * steps) time 0%Q)) (fun t1 =>
              let ht := span (length jt) t0 (t1 + 1) in
              let hf := span (length jf) f0 (f1 + 1) in
              if negb (fits ht blocks && fits hf subbands) then Err EValueError
              else
              bind (reshape [main; dim1] (mkNd (sh d) (fun idx =>
                 jones_apply (minv (jones (t0 + spread ht (nth 0 idx 0)) (f0 + spread hf (nth 2 idx 0)))) (get d idx)))) (fun head =>
              bind (reshape [remaining; dim1] (mkNd (sh dl) (fun idx =>
                 jones_apply (minv (jones (length jt - 1) (f0 + spread hf (nth 1 idx 0)))) (get dl idx)))) (fun tail =>
              Ok (mkNd [dim0; dim1] (fun idx =>
                if hd 0 idx <? main then get head idx
                else get tail ((hd 0 idx - main) :: tl idx)))))))))))
        | _ => Err EIndexError
        end
  | _, _ => Err EValueError
  end.

(** ** The setting of the solutions, dynspec.py 908-932
    The inputs and the solutions are stored apart; [None] for inputs never stored. *)
Definition inputs (K : Type) : Type := (Q * K * bool)%type.
Record dream_state (K : Type) := mkDream { ds_inputs : option (inputs K); ds_values : option solutions }.
Arguments mkDream {K}. Arguments ds_inputs {K}. Arguments ds_values {K}.
Section Setting.
(** Coordinates; [compute_jones_matrices] of these, see [compute_jones]. *)
Variable K : Type.
Variable dream : K -> bool -> Q -> Q -> Q -> res solutions.
Definition dream_get (s : dream_state K) : res (inputs K) :=                          (* 908-913 *)
  match ds_inputs s with Some i => Ok i | None => Err EAttributeError end.
(** The state after the assignment and its outcome; [tmin], [tmax], [dt] of the lanes. *)
Definition dream_set (s : dream_state K) (new : option (inputs K)) (tmin tmax dt : Q) : dream_state K * res unit :=
  match new with
  | None => (mkDream (ds_inputs s) None, Ok tt)                                       (* 917-919 *)
  | Some (desired, coord, parallactic) =>
      let s1 := mkDream new (ds_values s) in                                          (* 921 *)
      let time_steps := Qround.Qfloor (desired / dt)%Q in                             (* 924 *)
      match compute_jones (dream coord parallactic) tmin (inject_Z time_steps * dt)%Q (tmax - tmin)%Q with
      | Ok v => (mkDream new (Some v), Ok tt)
      | Err e => (s1, Err e)
      end
  end.
End Setting.
(** [Dynspec.__init__]: the solutions are set to nothing. *)
Definition dream_init (K : Type) : dream_state K := mkDream None None.
