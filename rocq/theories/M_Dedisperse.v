(** Model of [de_disperse_array] (nenupy/io/tf_utils.py 936-1074) and of
    [dispersion_delay] (nenupy/astro/astro_tools.py 706-761).
    Frequencies (MHz), dispersion measures (pc/cm3) and times (s) are exact
    rationals.  Frequencies are not zero and the time step is not zero, for which
    numpy goes on with infinite delays. *)
From Coq Require Import List Arith ZArith QArith.
From Verif Require Import Base M_Nd M_Polar.
Import ListNotations.
Open Scope nat_scope.

(** astro_tools.py 755-760. *)
Definition dispersion_delay (frequency dm : Q) : Q := (4140 * dm / (frequency * frequency))%Q.

(** [frequencies.max()]: ValueError on an empty array. *)
Definition qmax_list (l : list Q) : res Q :=
  match l with
  | [] => Err EValueError
  | x :: r => Ok (fold_left (fun m y => if Qle_bool m y then y else m) r x)
  end.

(** Lines 1040-1048. *)
Definition cell_delays (frequencies : list Q) (dm step : Q) : res (list Z) :=
  bind (qmax_list frequencies) (fun fmax =>
  Ok (map (fun f => round_even ((dispersion_delay f dm - dispersion_delay fmax dm) / step)%Q) frequencies)).

(** [np.arange(n)], empty when [n] is not positive. *)
Definition arange (n : Z) : list Z := map Z.of_nat (seq 0 (Z.to_nat n)).

(** A Python index into an axis of [n] entries: negative indices count from the end. *)
Definition py_index (n : nat) (k : Z) : res nat :=
  if ((0 <=? k) && (k <? Z.of_nat n))%Z then Ok (Z.to_nat k)
  else if ((- Z.of_nat n <=? k) && (k <? 0))%Z then Ok (Z.to_nat (k + Z.of_nat n))
  else Err EIndexError.
Fixpoint py_indices (n : nat) (l : list Z) : res (list nat) :=
  match l with
  | [] => Ok []
  | k :: r => bind (py_index n k) (fun i => bind (py_indices n r) (fun is => Ok (i :: is)))
  end.

(** Line 1062. *)
Definition indices_to_keep (n_times : nat) (delays : list Z) : list Z :=
  concat (imap (fun i tt => map (fun j => tt + j + Z.of_nat (i * n_times))%Z (arange (Z.of_nat n_times - tt)))
               delays).

(** [a.reshape(s, order="F")]: the first index runs fastest. *)
Definition reshape_f {A} (s : list nat) (a : nd A) : res (nd A) :=
  if size s =? size (sh a)
  then Ok (mkNd s (fun idx => get a (rev (unravel (rev (sh a)) (ravel (rev s) (rev idx))))))
  else Err EValueError.

(** [a[rows, ...] = b], one row of [b] per entry of [rows]; of several equal
    entries the last one counts. *)
Fixpoint last_position (r k : nat) (rows : list nat) (found : option nat) : option nat :=
  match rows with
  | [] => found
  | x :: rest => last_position r (S k) rest (if x =? r then Some k else found)
  end.
Definition set_rows {A} (a : nd A) (rows : list nat) (b : nat -> list nat -> A) : nd A :=
  mkNd (sh a) (fun idx =>
    match last_position (hd 0 idx) 0 rows None with
    | Some k => b k (tl idx)
    | None => get a idx
    end).

(** Lines 1026-1074.  [real] is the cast of a sample to a float (1064, 1066: the
    output array is of floats, so that the imaginary part of a sample is lost) and
    [nan] the value of line 1065. *)
Definition de_disperse {A B} (real : A -> B) (nan : B) (data : nd A) (frequencies : list Q)
    (step dm : Q) : res (nd B) :=
  match sh data with
  | n_times :: nf :: pol =>
      if negb (nf =? length frequencies) then Err EValueError
      else
        bind (cell_delays frequencies dm step) (fun delays =>
        let keep := indices_to_keep n_times delays in
        (* 1063: cell_delays[indices_to_keep // n_times] *)
        bind (py_indices nf (map (fun k => Z.div k (Z.of_nat n_times)) keep)) (fun channels =>
        let news := map (fun kc => fst kc - nth (snd kc) delays 0)%Z (combine keep channels) in
        bind (reshape_f (n_times * nf :: pol) data) (fun flat =>
        bind (py_indices (n_times * nf) keep) (fun from =>
        bind (py_indices (n_times * nf) news) (fun to =>
        reshape_f (sh data)
          (set_rows (mkNd (n_times * nf :: pol) (fun _ => nan)) to
             (fun k p => real (get flat (nth k from 0 :: p)))))))))
  | _ => Err EException
  end.
