(** Model of the rebinning of data: nenupy/io/tf_utils.py 1955-2059
    ([rebin_along_dimension]) and nenupy/io/io_tools.py 636-727, 1199-1248
    ([ST_Slice.rebin]).  Samples are rationals or NaN ([None]); floating point
    rounding is not modelled. *)
From Coq Require Import List Arith ZArith QArith Qround Bool.
From Verif Require Import Base M_Slots M_Nd.
Import ListNotations.
Open Scope nat_scope.

Notation sample := (option Q).

(** The samples which are not NaN. *)
Definition known (l : list sample) : list Q :=
  flat_map (fun x => match x with Some q => [q] | None => [] end) l.
Definition qsum (l : list Q) : Q := fold_right Qplus 0%Q l.

(** [np.nanmean]: NaN when there is no valid sample. *)
Definition nanmean (l : list sample) : sample :=
  match known l with
  | [] => None
  | k => Some (qsum k / inject_Z (Z.of_nat (length k)))%Q
  end.

(** [np.nanmedian]: the middle value of the sorted valid samples, the mean of
    the two middle ones when their number is even. *)
Fixpoint insert_q (x : Q) (l : list Q) : list Q :=
  match l with
  | [] => [x]
  | y :: t => if Qle_bool x y then x :: l else y :: insert_q x t
  end.
Definition sort_q (l : list Q) : list Q := fold_right insert_q [] l.
Definition nanmedian (l : list sample) : sample :=
  match sort_q (known l) with
  | [] => None
  | k => Some ((nth ((length k - 1) / 2) k 0 + nth (length k / 2) k 0) / 2)%Q
  end.

(** ** tf_utils.py 1955-2059

    [axis] is a natural number: the two callers (tf.py 630-636 and 672-678) give
    0 and 1.  [axis_array] is a list: its test [ndim != 1] (2012) never fires.
    [dx = 0] is the division of a Python float by zero. *)
Definition rebin_along (data : nd sample) (axis_array : list sample) (axis : nat) (dx new_dx : Q)
  : res (list sample * nd sample) :=
  match nth_error (sh data) axis with
  | None => Err EIndexError                                             (* 2014 *)
  | Some n =>
    if negb (n =? length axis_array) then Err EValueError               (* 2014-2017 *)
    else if negb (Qle_bool dx new_dx) then Err EValueError              (* 2018-2019 *)
    else if Qeq_bool dx 0 then Err EZeroDivisionError                   (* 2022 *)
    else
      let bin_size := Qfloor (new_dx / dx) in                           (* 2022 *)
      if (bin_size =? 0)%Z then Err EZeroDivisionError                  (* 2023 *)
      else
        let final_size := (Z.of_nat n / bin_size)%Z in                  (* 2023 *)
        let '(final_size, bin_size) :=                                  (* 2026-2028 *)
          if (final_size =? 0)%Z then (1%Z, Z.of_nat n) else (final_size, bin_size) in
        if (final_size * bin_size =? 0)%Z then Err EZeroDivisionError   (* 2033 *)
        else
          let leftovers := (Z.of_nat n mod (final_size * bin_size))%Z in  (* 2033 *)
          if (final_size <? 0)%Z then Err EValueError                   (* 2044: negative dimension *)
          else
            let keep := Z.to_nat (Z.of_nat n - leftovers) in
            let m := Z.to_nat final_size in
            let w := keep / m in                                        (* 2046 *)
            bind (reshape (firstn axis (sh data) ++ m :: w :: skipn (S axis) (sh data))
                          (take_axis axis keep data)) (fun d =>         (* 2037-2048 *)
            bind (reshape [m; w] (of_list None (firstn keep axis_array))) (fun a =>  (* 2049-2051 *)
            let d' := reduce nanmean (S axis) d in                      (* 2054 *)
            let a' := reduce nanmean 1 a in                             (* 2055 *)
            Ok (map (fun i => get a' [i]) (seq 0 m), d')))
  end.

(** ** io_tools.py 1199-1221 and 1224-1248

    The rows of indices [np.arange(k)[None, :] + k*np.arange(size//k)[:, None]];
    [np.arange] of a negative number is empty. *)
Definition bin_rows (k : Z) (size : nat) : list (list nat) :=
  map (fun r => map (fun j => (Z.to_nat k * r + j)) (seq 0 (Z.to_nat k)))
      (seq 0 (Z.to_nat (Z.of_nat size / k))).

(** [np.unique(x).size == 1] for the differences of a list. *)
Fixpoint diffs (l : list Q) : list Q :=
  match l with
  | x :: ((y :: _) as t) => (y - x)%Q :: diffs t
  | _ => []
  end.
Definition one_value (l : list Q) : bool :=
  match l with [] => false | x :: t => forallb (Qeq_bool x) t end.

(** Common end of both functions: [step] is the width of a sample, [want] the
    requested width, [size] the length of the axis. *)
Definition rows_of (want step : Q) (size : nat) : res (option (list (list nat))) :=
  if Qeq_bool step 0
  then (if Qeq_bool want 0 then Err EValueError else Err EOverflowError)  (* int(nan), int(inf) *)
  else
    let k := Qfloor (want / step) in
    if (Z.of_nat size <? k)%Z then Ok (Some (bin_rows (Z.of_nat size) size))
    else if (k =? 0)%Z then Ok None
    else Ok (Some (bin_rows k size)).

Definition freq_rows (df : option Q) (freq : list Q) : res (option (list (list nat))) :=
  match df with
  | None => Ok None
  | Some df =>
      if negb (one_value (diffs freq)) then Err EException
      else rows_of df (nth 1 freq 0 - nth 0 freq 0)%Q (length freq)
  end.

Definition time_rows (dt : option Q) (time : list Q) : res (option (list (list nat))) :=
  match dt with
  | None => Ok None
  | Some dt =>
      match time with
      | t0 :: t1 :: _ => rows_of dt (t1 - t0)%Q (length time)
      | _ => Err EIndexError
      end
  end.

(** ** io_tools.py 636-727 *)

(** The value of a slice: a dynamic spectrum (rows in time), a spectrum or a
    light curve, a single number. *)
Inductive value := V2 (l : list (list sample)) | V1 (l : list sample) | V0 (x : sample).

(** [rebin_method]: lines 679-684. *)
Inductive method := MMean | MMedian | MOther.
Definition method_fun (m : method) : res (list sample -> sample) :=
  match m with MMean => Ok nanmean | MMedian => Ok nanmedian | MOther => Err EValueError end.

(** [f(x[rows], axis=1)] on a list. *)
Definition bin_list {A B} (d : A) (f : list A -> B) (rows : list (list nat)) (x : list A) : list B :=
  map (fun r => f (map (fun i => nth i x d) r)) rows.

(** [f(value[rows, :], axis=1)]: lines 690-693; [w] is the number of channels. *)
Definition bin_time (f : list sample -> sample) (rows : list (list nat)) (w : nat)
    (v : list (list sample)) : list (list sample) :=
  map (fun r => map (fun j => f (map (fun i => nth j (nth i v []) None) r)) (seq 0 w)) rows.

(** [f(value[:, rows], axis=2)]: lines 697-700. *)
Definition bin_freq (f : list sample -> sample) (rows : list (list nat)) (v : list (list sample))
  : list (list sample) :=
  map (bin_list None f rows) v.

(** [value.squeeze()]: line 702, for [t] rows and [w] columns. *)
Definition squeeze (t w : nat) (v : list (list sample)) : value :=
  match t, w with
  | 1, 1 => V0 (nth 0 (nth 0 v []) None)
  | 1, _ => V1 (nth 0 v [])
  | _, 1 => V1 (map (fun r => nth 0 r None) v)
  | _, _ => V2 v
  end.

(** [np.nanmean(time.jd[rows], axis=1)]: the axes hold no NaN. *)
Definition mean (l : list Q) : Q := (qsum l / inject_Z (Z.of_nat (length l)))%Q.
Definition bin_axis (rows : list (list nat)) (x : list Q) : list Q := bin_list 0%Q mean rows x.

(** The attributes used by the rebinning. *)
Record slice := mkSlice { sl_time : list Q; sl_freq : list Q; sl_value : value }.

Definition apply_rows {A} (rows : option (list (list nat))) (f : list (list nat) -> A) (d : A) : A :=
  match rows with None => d | Some r => f r end.

Definition rebin (dt df : option Q) (meth : method) (x : slice) : res slice :=
  bind (method_fun meth) (fun f =>
  let time := sl_time x in
  let freq := sl_freq x in
  match sl_value x with
  | V2 v =>                                                             (* 687-702 *)
      bind (time_rows dt time) (fun rt =>
      let v1 := apply_rows rt (fun r => bin_time f r (length freq) v) v in
      let time1 := apply_rows rt (fun r => bin_axis r time) time in
      bind (freq_rows df freq) (fun rf =>
      let v2 := apply_rows rf (fun r => bin_freq f r v1) v1 in
      let freq1 := apply_rows rf (fun r => bin_axis r freq) freq in
      Ok (mkSlice time1 freq1 (squeeze (length time1) (length freq1) v2))))
  | V1 l =>
      if length l =? length freq then                                   (* 705-709 *)
        bind (freq_rows df freq) (fun rf =>
        Ok (mkSlice time (apply_rows rf (fun r => bin_axis r freq) freq)
                    (V1 (apply_rows rf (fun r => bin_list None f r l) l))))
      else if length l =? length time then                              (* 712-716 *)
        bind (time_rows dt time) (fun rt =>
        Ok (mkSlice (apply_rows rt (fun r => bin_axis r time) time) freq
                    (V1 (apply_rows rt (fun r => bin_list None f r l) l))))
      else Err EValueError                                              (* 717-718 *)
  | V0 _ => Err EValueError
  end).
