(** Model of the sub-sets of statistics data, nenupy/io/io_tools.py: joining in frequency
    and in time (245-318), selection of a part (321-336), arithmetic (339-356, 1251-1292),
    [clean_rfi] (798-813), [flatten_frequency] and [flatten_time] (979-986),
    [clear_pointing_switch] (1005-1076); and of the pointings of a beam, nenupy/io/bst.py
    98-175.
    Samples are rationals or NaN ([None]); a division by zero gives NaN here and an infinity
    in numpy when the numerator is not null.  Times are numbers (Julian days). *)
From Coq Require Import String List Arith ZArith QArith Qround Bool.
From Verif Require Import Base M_Slots M_Nd M_Rebin M_TFArray M_Polar.
Import ListNotations.
Open Scope nat_scope.
Open Scope list_scope.

(** An [ST_Slice].  [s_val] is (time, frequency), or a single axis when the other one has
    one element ([np.squeeze] of [get]). *)
Record st := mkSt {
  s_time : list Q; s_freq : list Q; s_val : nd sample; s_ana : list Q; s_dig : list Q; s_pol : string }.

(** [all(a == b)]: shapes are broadcast, and a ValueError is raised if they cannot be (for
    frequencies, numpy before 1.25 gives False and [all] a TypeError). *)
Definition all_equal (a b : list Q) : res bool :=
  if length a =? length b then Ok (forallb (fun p => Qeq_bool (fst p) (snd p)) (combine a b))
  else match a, b with
       | [x], _ => Ok (forallb (Qeq_bool x) b)
       | _, [y] => Ok (forallb (fun x => Qeq_bool x y) a)
       | _, _ => Err EValueError
       end.
(** [max] and [min] of an array: a ValueError if it is empty. *)
Definition q_max (l : list Q) : res Q :=
  match l with [] => Err EValueError | x :: r => Ok (fold_left (fun m y => if Qle_bool m y then y else m) r x) end.
Definition q_min (l : list Q) : res Q :=
  match l with [] => Err EValueError | x :: r => Ok (fold_left (fun m y => if Qle_bool y m then y else m) r x) end.
(** [np.hstack((a, b))]: along the first axis if there is only one, along the second one
    otherwise. *)
Definition hstack (a b : nd sample) : res (nd sample) :=
  let s1 := match sh a with [] => [1] | s => s end in
  let s2 := match sh b with [] => [1] | s => s end in
  match s1, s2 with
  | [n], [m] => Ok (mkNd [n + m] (fun idx => let i := hd 0 idx in
                  if i <? n then get a (match sh a with [] => [] | _ => [i] end)
                  else get b (match sh b with [] => [] | _ => [i - n] end)))
  | r1 :: n :: t1, r2 :: m :: t2 =>
      if (r1 =? r2) && (if list_eq_dec Nat.eq_dec t1 t2 then true else false)
      then Ok (mkNd (r1 :: n + m :: t1) (fun idx => match idx with
                 | i :: j :: p => if j <? n then get a (i :: j :: p) else get b (i :: (j - n) :: p)
                 | _ => None end))
      else Err EValueError
  | _, _ => Err EValueError
  end.

(** 245-278 *)
Definition st_and (a b : st) : res st :=
  bind (all_equal (s_time a) (s_time b)) (fun same =>
  if negb same then Err EValueError
  else
    bind (q_max (s_freq a)) (fun top =>
    bind (q_min (s_freq b)) (fun low =>
    let '(first, second) := if negb (Qle_bool low top) then (a, b) else (b, a) in
    bind (hstack (s_val first) (s_val second)) (fun v =>
    Ok (mkSt (s_time a) (s_freq first ++ s_freq second) v (s_ana a) (s_dig a) (s_pol a)))))).
(** 281-318 *)
Definition st_or (a b : st) : res st :=
  bind (all_equal (s_freq a) (s_freq b)) (fun same =>
  if negb same then Err EValueError
  else
    bind (q_max (s_time a)) (fun top =>
    bind (q_min (s_time b)) (fun low =>
    let '(first, second) := if negb (Qle_bool low top) then (a, b) else (b, a) in
    bind (hstack (s_val first) (s_val second)) (fun v =>
    Ok (mkSt (s_time first ++ s_time second) (s_freq a) v
             (s_ana first ++ s_ana second) (s_dig first ++ s_dig second) (s_pol a)))))).

(** ** Selection of a part *)
(** A Python slice: start, stop, step. *)
Definition pyslice : Type := (option Z * option Z * option Z)%type.
Definition clip (lo hi x : Z) : Z := Z.max lo (Z.min hi x).
(** [slice.indices(n)], then the positions it runs through. *)
Definition positions (n : nat) (s : pyslice) : res (list nat) :=
  let '(start, stop, step) := s in
  let k := match step with Some k => k | None => 1%Z end in
  let z := Z.of_nat n in
  let wrap i := if (i <? 0)%Z then (i + z)%Z else i in
  if (k =? 0)%Z then Err EValueError
  else if (0 <? k)%Z then
    let a := match start with Some i => clip 0 z (wrap i) | None => 0%Z end in
    let b := match stop with Some i => clip 0 z (wrap i) | None => z end in
    Ok (map (fun j => Z.to_nat (a + Z.of_nat j * k)) (seq 0 (Z.to_nat (cdiv (b - a) k))))
  else
    let a := match start with Some i => clip (-1) (z - 1) (wrap i) | None => (z - 1)%Z end in
    let b := match stop with Some i => clip (-1) (z - 1) (wrap i) | None => (-1)%Z end in
    Ok (map (fun j => Z.to_nat (a + Z.of_nat j * k)) (seq 0 (Z.to_nat (cdiv (a - b) (- k))))).
(** 321-336, for a tuple of two slices; other arguments raise IndexError. *)
Definition st_part (a : st) (ts fs : pyslice) : res st :=
  bind (positions (length (s_time a)) ts) (fun pt =>
  bind (positions (length (s_freq a)) fs) (fun pf =>
  match sh (s_val a) with
  | [n; m] =>
      bind (positions n ts) (fun vt =>
      bind (positions m fs) (fun vf =>
      Ok (mkSt (map (fun i => nth i (s_time a) 0%Q) pt) (map (fun j => nth j (s_freq a) 0%Q) pf)
            (mkNd [length vt; length vf] (fun idx => get (s_val a) [nth (nth 0 idx 0) vt 0; nth (nth 1 idx 0) vf 0]))
            (s_ana a) (s_dig a) (s_pol a))))
  | _ => Err EIndexError
  end)).

(** ** Arithmetic *)
(** Broadcasting, on reversed shapes. *)
Fixpoint join_rev (a b : list nat) : option (list nat) :=
  match a, b with
  | [], s => Some s
  | s, [] => Some s
  | x :: a', y :: b' =>
      match join_rev a' b' with
      | None => None
      | Some r => if x =? y then Some (x :: r) else if x =? 1 then Some (y :: r) else if y =? 1 then Some (x :: r) else None
      end
  end.
(** The index in an array of shape [s] for the index [idx] of the result. *)
Definition at_index (s idx : list nat) : list nat :=
  map (fun p => if fst p =? 1 then 0 else snd p) (combine s (skipn (length idx - length s) idx)).
Definition elementwise (f : sample -> sample -> sample) (a b : nd sample) : res (nd sample) :=
  match join_rev (rev (sh a)) (rev (sh b)) with
  | None => Err EValueError
  | Some r => Ok (mkNd (rev r) (fun idx => f (get a (at_index (sh a) idx)) (get b (at_index (sh b) idx))))
  end.
(** [np.argmax] of the two numbers of pointings: the first one if equal. *)
Definition longer (a b : list Q) : list Q := if length a <? length b then b else a.
(** 1251-1281: [other] is a slice. *)
Definition with_slice (f : sample -> sample -> sample) (a b : st) : res st :=
  if negb ((length (s_freq a) =? length (s_freq b)) && (length (s_time a) =? length (s_time b))) then Err EInconsistentShape
  else if negb (forallb (fun p => Qeq_bool (fst p) (snd p)) (combine (s_freq a) (s_freq b))
             && forallb (fun p => Qeq_bool (fst p) (snd p)) (combine (s_time a) (s_time b))) then Err EInconsistentShape
  else bind (elementwise f (s_val a) (s_val b)) (fun v =>
       Ok (mkSt (s_time a) (s_freq a) v (longer (s_ana a) (s_ana b)) (longer (s_dig a) (s_dig b)) (s_pol a))).
(** 1282-1292: [other] is an array, of no axis for a number. *)
Definition with_array (f : sample -> sample -> sample) (a : st) (b : nd sample) : res st :=
  bind (elementwise f (s_val a) b) (fun v => Ok (mkSt (s_time a) (s_freq a) v (s_ana a) (s_dig a) (s_pol a))).
Definition number (x : sample) : nd sample := mkNd [] (fun _ => x).

(** 979-981: a single axis leaves no axis to index. *)
Definition flatten_frequency (a : st) : res st :=
  match sh (s_val a) with
  | [_; m] => with_array sdiv a (mkNd [1; m] (fun idx => get (reduce nanmedian 0 (s_val a)) [nth 1 idx 0]))
  | _ => Err EIndexError
  end.
(** 984-986: [axis=1] of a single axis raises AxisError, a ValueError. *)
Definition flatten_time (a : st) : res st :=
  match sh (s_val a) with
  | [n; _] => with_array sdiv a (mkNd [n; 1] (fun idx => get (reduce nanmedian 1 (s_val a)) [nth 0 idx 0]))
  | _ => Err EValueError
  end.

(** 798-813; [std] is the deviation of all the values, [np.nanstd].  Comparisons with NaN
    are false. *)
Definition reaches (x level : sample) : bool :=
  match x, level with Some v, Some l => Qle_bool l v | _, _ => false end.
Definition clean_rfi (std : nd sample -> sample) (t_sigma f_sigma : Q) (a : st) : res st :=
  match sh (s_val a) with
  | [n; m] =>
      let v := s_val a in
      let s := std v in
      let fmed := reduce nanmedian 0 v in
      let tmed := reduce nanmedian 1 v in
      let c1 := mkNd [n; m] (fun idx =>
        if reaches (get v idx) (sop Qplus (get fmed [nth 1 idx 0]) (sop Qmult s (Some f_sigma))) then None else get v idx) in
      let c2 := mkNd [n; m] (fun idx =>
        if reaches (get c1 idx) (sop Qplus (get tmed [nth 0 idx 0]) (sop Qmult s (Some t_sigma))) then None else get c1 idx) in
      Ok (mkSt (s_time a) (s_freq a) c2 (s_ana a) (s_dig a) (s_pol a))
  | _ => Err EValueError
  end.

(** ** [clear_pointing_switch], 1005-1076.  Failures of the fitter are not modelled. *)
(** [np.unique] of positions: sorted, without repetition. *)
Fixpoint put (x : nat) (l : list nat) : list nat :=
  match l with [] => [x] | y :: r => if x <? y then x :: l else if x =? y then l else y :: put x r end.
Definition unique (l : list nat) : list nat := fold_right put [] l.
(** [np.max]: NaN if there is one. *)
Definition top_of (l : list sample) : sample :=
  match l with
  | [] => None
  | x :: r => fold_left (fun m y => match m, y with Some a, Some b => Some (if Qle_bool a b then b else a) | _, _ => None end) r x
  end.
Section Switch.
(** The indices given by [find_peaks] of the gradient of the profile, with the smallest distance allowed. *)
Variable peaks : list sample -> Z -> list nat.
(** The curve fitted to the profile of an interval, at the sample [k] of it. *)
Variable fit : list sample -> nat -> sample.
Definition switch_profile (flat : bool) (a : st) (n m : nat) : list sample :=          (* 1019-1029 *)
  let v := s_val a in
  let med := reduce nanmedian 0 v in
  let w := if flat then mkNd [n; m] (fun idx => sdiv (get v idx) (get med [nth 1 idx 0])) else v in
  let p := map (fun t => get (reduce nanmedian 1 w) [t]) (seq 0 n) in
  map (fun x => sdiv x (top_of p)) p.
Definition bounds (n : nat) (found : list nat) : list nat := unique (0 :: map S found ++ [n]).  (* 1047-1051 *)
(** 1060-1070: one interval after the other. *)
Fixpoint correction (profile : list sample) (b : list nat) (c : nat -> sample) : nat -> sample :=
  match b with
  | x :: ((y :: _) as rest) =>
      correction profile rest (fun t => if (x <=? t) && (t <? y)
        then sop Qmult (c t) (fit (firstn (y - x) (skipn x profile)) (t - x)) else c t)
  | _ => c
  end.
Definition clear_switch (flat : bool) (pointing_dt : Q) (peak_error : Z) (a : st) : res (st * (nat -> sample)) :=
  match sh (s_val a) with
  | [n; m] =>
      if n =? 0 then Err EValueError                                                   (* max of nothing *)
      else match s_time a with
      | t0 :: t1 :: _ =>
          if Qeq_bool t0 t1 then Err EOverflowError else                               (* int of an infinity *)
          let profile := switch_profile flat a n m in
          let distance := (round_even (pointing_dt / (t1 - t0))%Q - peak_error)%Z in   (* 1034-1038 *)
          if (distance <? 1)%Z then Err EValueError                                    (* find_peaks *)
          else
            let c := correction profile (bounds n (peaks profile distance)) (fun _ => Some 1%Q) in
            bind (with_array sdiv a (mkNd [length (s_time a); 1] (fun idx => c (nth 0 idx 0)))) (fun r => Ok (r, c))
      | _ => Err EIndexError
      end
  | _ => Err EIndexError
  end.
End Switch.

(** ** Pointings of a beam, bst.py 98-175 *)
Record tables := mkTables {
  b_ana_of : list nat;                    (* bea NoAnaBeam, by digital beam *)
  b_mas : list (nat * list Z);            (* ana nbMRUsed, MRList, by analog beam *)
  b_pan : list (nat * (Q * (Q * Q)));     (* pan noAnaBeam, timestamp, az, el *)
  b_pbe : list (nat * (Q * (Q * Q))) }.   (* pbe noBeam, timestamp, az, el *)
Definition analog_beam (t : tables) (beam : nat) : res nat :=
  match nth_error (b_ana_of t) beam with Some a => Ok a | None => Err EIndexError end.
Definition rows_of (k : nat) (l : list (nat * (Q * (Q * Q)))) : list (Q * (Q * Q)) := map snd (filter (fun r => fst r =? k) l).
Definition analog_pointing (t : tables) (beam : nat) : res (list (Q * (Q * Q))) :=
  bind (analog_beam t beam) (fun a => Ok (rows_of a (b_pan t))).
Definition digital_pointing (t : tables) (beam : nat) : list (Q * (Q * Q)) := rows_of beam (b_pbe t).
Definition mini_arrays (t : tables) (beam : nat) : res (list Z) :=
  bind (analog_beam t beam) (fun a =>
  match nth_error (b_mas t) a with Some (n, l) => Ok (firstn n l) | None => Err EIndexError end).
