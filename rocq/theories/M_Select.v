(** Model of the selection of recorded data: nenupy/io/tf.py 1487-1673
    ([Spectra.select_raw_data]), 1709-1758 ([_get_bad_data_mask],
    [_reconstruct_time]) and 1771-1780 (flagging in [_to_dask_tf]).
    Times and frequencies are exact numbers. *)
From Coq Require Import List Arith ZArith QArith Qround Bool.
From Verif Require Import Base M_Slots M_Nd M_Rebin M_TFArray M_Polar.
Import ListNotations.
Open Scope nat_scope.

(** [np.argmin]: the first smallest. *)
Fixpoint argmin_from (i : nat) (best : nat) (v : Z) (l : list Z) : nat :=
  match l with
  | [] => best
  | x :: r => if (x <? v)%Z then argmin_from (S i) i x r else argmin_from (S i) best v r
  end.
Definition argmin (l : list Z) : res nat :=
  match l with [] => Err EValueError | x :: r => Ok (argmin_from 1 0 x r) end.

(** [np.argmin(np.abs(np.ceil(starts - x)))] (1555-1560, 1649-1650). *)
Definition closest (starts : list Q) (x : Q) : res nat := argmin (map (fun s => Z.abs (Qceiling (s - x)%Q)) starts).

(** 1568-1582: index of a time within a block. *)
Definition index_in_block (n : nat) (dt start t : Q) : nat :=
  Z.to_nat (Z.max 0 (Z.min (Z.of_nat n - 1) (round_even ((t - start) / dt)%Q))).

(** [l[a:b]] for bounds which are not negative. *)
Definition slice {A} (a b : nat) (l : list A) : list A := firstn (b - a) (skipn a l).
(** [a[lo0:hi0, lo1:hi1, ...]], bounds not negative. *)
Definition slice_nd {A} (lo0 hi0 lo1 hi1 : nat) (a : nd A) : nd A :=
  match sh a with
  | n0 :: n1 :: rest =>
      mkNd (Nat.min hi0 n0 - lo0 :: Nat.min hi1 n1 - lo1 :: rest)
           (fun idx => match idx with i :: j :: p => get a (lo0 + i :: lo1 + j :: p) | _ => get a idx end)
  | _ => a
  end.

(** What is known of a file. *)
Record file (A : Type) := mkFile {
  f_starts : list Q;      (* _block_start_unix *)
  f_dt : Q; f_df : Q;
  f_nt : nat;             (* _n_time_per_block *)
  f_nc : nat;             (* n_channels *)
  f_subbands : list Q;    (* _subband_start_hz *)
  f_beams : list Z;       (* beam of each sub-band *)
  f_data : nd A }.
Arguments f_starts {A}. Arguments f_dt {A}. Arguments f_df {A}. Arguments f_nt {A}. Arguments f_nc {A}.
Arguments f_subbands {A}. Arguments f_beams {A}. Arguments f_data {A}.

Definition flat (a : nd Q) (n : nat) : list Q := map (fun k => get a [k]) (seq 0 n).

(** 1487-1673; [Ok None] for the tuple of [None]. *)
Definition select_raw_data {A} (f : file A) (tmin tmax fmin fmax : Q) (beam : Z)
  : res (option (list Q * list Q * nd A)) :=
  let n := f_nt f in
  bind (closest (f_starts f) tmin) (fun b0 =>                            (* 1555-1557 *)
  bind (closest (f_starts f) tmax) (fun b1 =>                            (* 1558-1560 *)
  let j0 := index_in_block n (f_dt f) (nth b0 (f_starts f) 0%Q) tmin in  (* 1568-1573 *)
  let i0 := b0 * n + j0 in                                               (* 1574 *)
  let j1 := index_in_block n (f_dt f) (nth b1 (f_starts f) 0%Q) tmax in  (* 1576-1581 *)
  let i1 := b1 * n + j1 in                                               (* 1582 *)
  if i0 =? i1 then                                                       (* 1586 *)
    if (0 <? i0) && (i0 <? length (f_starts f) * n - 1) then             (* 1587-1589 *)
      if Qle_bool (nth b0 (f_starts f) 0%Q) tmin && (length (f_starts f) <=? b0 + 1)
      then Err EIndexError                                               (* 1608-1609 *)
      else Ok None
    else Ok None                                                         (* 1614-1615 *)
  else
    let starts := slice b0 (b1 + 1) (f_starts f) in
    bind (spectra_time starts n (f_dt f)) (fun t =>                      (* 1618-1624 *)
    let size := length starts * n in
    let time := slice j0 (size - (n - j1) + 1) (flat t size) in          (* 1626-1630 *)
    match find (fun e => Z.eqb (fst e) beam) (beam_edges (f_beams f) (f_nc f)) with
    | None => Err EKeyError                                              (* 1635-1641 *)
    | Some (_, (start, stop)) =>
      let subbands := slice (start / f_nc f) ((stop + 1) / f_nc f) (f_subbands f) in  (* 1644-1648 *)
      bind (closest subbands fmin) (fun s0 =>                            (* 1649 *)
      bind (closest subbands fmax) (fun s1 =>                            (* 1650 *)
      let c0 := s0 * f_nc f in                                           (* 1657 *)
      let c1 := (s1 + 1) * f_nc f in                                     (* 1658 *)
      let chosen := slice s0 (s1 + 1) subbands in
      bind (spectra_frequencies chosen (f_nc f) (f_df f)) (fun fr =>     (* 1659-1663 *)
      let d := slice_nd 0 (length (f_starts f) * n) start (stop + 1) (f_data f) in
      let d := slice_nd i0 (i1 + 1) c0 c1 d in                           (* 1668-1670 *)
      Ok (Some (flat fr (length chosen * f_nc f), time, d)))))
    end))).

(** ** Bounds: 1240-1322 *)
Definition time_min {A} (f : file A) : res Q :=
  match f_starts f with [] => Err EIndexError | s :: _ => Ok s end.
Definition time_max {A} (f : file A) : res Q :=
  match f_starts f with
  | [] => Err EIndexError
  | s :: r => Ok (last (s :: r) 0 + qn (f_nt f) * f_dt f)%Q
  end.
Definition qmin_list (l : list Q) : res Q :=
  match l with [] => Err EValueError | x :: r => Ok (fold_left (fun a b => if Qle_bool a b then a else b) r x) end.
Definition qmax_list (l : list Q) : res Q :=
  match l with [] => Err EValueError | x :: r => Ok (fold_left (fun a b => if Qle_bool b a then a else b) r x) end.
(** 1279-1299 *)
Definition frequency_min {A} (f : file A) : res Q :=
  qmin_list (map (fun e => nth (fst (snd e) / f_nc f) (f_subbands f) 0%Q) (beam_edges (f_beams f) (f_nc f))).
(** 1301-1322; [width] is SUBBAND_WIDTH. *)
Definition frequency_max {A} (width : Q) (f : file A) : res Q :=
  bind (qmax_list (map (fun e => nth ((snd (snd e) + 1) / f_nc f - 1) (f_subbands f) 0%Q)
                       (beam_edges (f_beams f) (f_nc f)))) (fun m => Ok (m + width)%Q).

(** ** Missing data *)
Record block := mkBlock { b_timestamp : Q; b_idx : Z; b_nbchan : Z; b_seq : Z }.
(** 1709-1735; the first block is not tested on its index. *)
Definition bad_mask (l : list block) : list bool :=
  imap (fun i b => negb (Qle_bool (1 # 10) (b_timestamp b)) ||
                   (negb (i =? 0) && (b_idx b =? 0)%Z) || (b_nbchan b <? 0)%Z) l.

(** [np.interp(x, xp, fp)] at an integer position, [xp] increasing. *)
Fixpoint interp (x : nat) (prev : option (nat * Q)) (l : list (nat * Q)) : option Q :=
  match l with
  | [] => option_map snd prev
  | (k, v) :: r =>
      if x <? k then
        match prev with
        | None => Some v
        | Some (k', v') => Some (v' + (v - v') * (qn x - qn k') / (qn k - qn k'))%Q
        end
      else interp x (Some (k, v)) r
  end.
Definition good_points (starts : list Q) (mask : list bool) : list (nat * Q) :=
  flat_map (fun i => if nth i mask false then [] else [(i, nth i starts 0%Q)]) (seq 0 (length starts)).
(** 1737-1752: start of the blocks; [width] is the sub-band width in Hz. *)
Definition reconstruct_time (width : Q) (l : list block) : res (list Q) :=
  let mask := bad_mask l in
  let starts := map (fun b => b_timestamp b + inject_Z (b_seq b) / width)%Q l in
  match good_points starts mask with
  | [] => Err EValueError                                                (* np.interp of no point *)
  | good => Ok (imap (fun i s => if nth i mask false then match interp i None good with Some v => v | None => s end else s) starts)
  end.

(** 1771-1780: what is flagged.  [np.all(~mask)] holds when no block is bad. *)
Definition flag_bad {A} (nan : A) (mask : option (list bool)) (data : nd A) : nd A :=
  match mask with
  | None => data
  | Some m => if forallb negb m
              then mkNd (sh data) (fun idx => if nth (hd 0 idx) m false then nan else get data idx)
              else data
  end.
