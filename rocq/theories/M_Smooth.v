(** Model of the smoothing of a profile, nenupy/io/io_tools.py 1294-1321 ([ST_Slice._smooth_data]).
    Samples are rational numbers or NaN ([None]). Windows are natural numbers (a negative one is not
    modelled). The comparison with [median + sigma_clip * std] of 1308-1309 is exact: it is made
    between squares. The loop is given a number of passes it may run ([fuel]); [None] is a loop that
    has not stopped by then. *)
From Coq Require Import List Arith ZArith QArith Bool.
From Verif Require Import Base M_Rebin.
Import ListNotations.
Open Scope nat_scope.

(** 1302-1304: the samples of window [j] *)
Definition window (x : list sample) (w j : nat) : list sample := map (fun i => nth i x None) (seq j w).
Definition slides (x : list sample) (w : nat) : list nat := seq 0 (length x - w + 1).
(** 1305-1306 *)
Definition nanvar (l : list sample) : sample :=
  match nanmean l with
  | None => None
  | Some m => nanmean (map (option_map (fun v => ((v - m) * (v - m))%Q)) l)
  end.
Definition win_median (x : list sample) (w j : nat) : sample := nanmedian (window x w j).
(** 1307-1308: [v >= m + k * sqrt s] *)
Definition reaches (k s m v : Q) : bool :=
  let d := (v - m)%Q in
  if Qle_bool 0 k then Qle_bool 0 d && Qle_bool (k * k * s) (d * d)
  else Qle_bool 0 d || Qle_bool (d * d) (k * k * s).
Definition covers (w i j : nat) : bool := (j <=? i) && (i <? j + w).
(** 1308-1310: comparisons with NaN are false *)
Definition problem (k : Q) (x : list sample) (w i : nat) : bool :=
  existsb (fun j => covers w i j && match nth i x None, win_median x w j, nanvar (window x w j) with
    | Some v, Some m, Some s => reaches k s m v
    | _, _, _ => false
    end) (slides x w).
(** [np.median]: NaN as soon as one value is *)
Definition np_median (l : list sample) : sample :=
  if existsb (fun x => match x with None => true | Some _ => false end) l then None else nanmedian l.
(** 1302-1316: the medians of 1306 are those of the data before the pass *)
Definition smooth_once (k : Q) (w : nat) (x : list sample) : list sample :=
  map (fun i => if problem k x w i then np_median (map (win_median x w) (filter (covers w i) (slides x w))) else nth i x None) (seq 0 (length x)).
(** 1301-1319 *)
Fixpoint smooth_loop (fuel : nat) (k : Q) (it : Z) (w : nat) (x : list sample) : option (list sample) :=
  if (it =? 0)%Z then Some x
  else match fuel with
       | O => None
       | S f => smooth_loop f k (it - 1)%Z (w / 2) (smooth_once k w x)
       end.
(** 1296-1321 *)
Definition smooth_data (fuel : nat) (x : list sample) (w : nat) (k : Q) (it : Z) : option (res (list sample)) :=
  if length x <? w then Some (Err EIndexError) else option_map Ok (smooth_loop fuel k it w x).
