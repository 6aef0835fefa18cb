(** Model of the extension of scheduled observations:
    nenupy/schedule/schedule.py, [Schedule.extend_scheduled_observations]
    (lines 1240-1366). *)
From Coq Require Import List Arith ZArith QArith Bool.
From Verif Require Import Base M_Slots M_Sched.
Import ListNotations.
Open Scope nat_scope.

(** Lines 1289 and 1292: the slots of the window of [w] slots around a block
    starting at [s] with [n] slots, clipped to the schedule. *)
Definition ext_window (size s n w : nat) : list nat :=
  map Z.to_nat
    (filter (fun z => (0 <=? z)%Z && (z <? Z.of_nat size)%Z)
       (map (fun k => (Z.of_nat k - Z.of_nat (w / 2) + Z.of_nat s + Z.of_nat (n / 2))%Z) (seq 0 w))).

(** Line 1288: the windows of [n + 1] to [n_slots] slots. *)
Definition ext_windows (size s n n_slots : nat) : list (list nat) :=
  map (ext_window size s n) (seq (n + 1) (n_slots - n)).

(** Lines 1303-1308, [treat]: [None] is the NaN given by the mean of an empty
    window.  The product of exact rationals is zero when one of them is. *)
Definition treat (data : list Q) : option Q :=
  if existsb (fun x => Qeq_bool x 0) data then Some 0%Q
  else match data with
       | [] => None
       | _ => Some (qsum data / inject_Z (Z.of_nat (length data)))%Q
       end.

(** Line 1314: comparisons with NaN are false. *)
Definition better (thr : Q) (first x : option Q) : bool :=
  match first, x with
  | Some f, Some v => Qltb (f * thr) v
  | _, _ => false
  end.

(** Lines 1314-1315: the windows kept; reading the first score of an empty
    list of windows is an IndexError. *)
Definition keep_better (thr : Q) (ev : list nat -> list Q) (ws : list (list nat))
  : res (list (list nat)) :=
  match ws with
  | [] => Err EIndexError
  | w0 :: _ => Ok (filter (fun w => better thr (treat (ev w0)) (treat (ev w))) ws)
  end.

(** Lines 1261-1315 for one block.  [ev] is the evaluation of the constraints
    of the block over a window (constraints.py 1450-1505), [ext] its maximal
    duration.  A block that is not booked is given no window: the code skips
    it and counts booked blocks only. *)
Definition ext_candidates (dt : Z) (size : nat) (thr : Q) (ev : list nat -> list Q)
    (ext : option Z) (b : blk) : res (list (list nat)) :=
  match bk_start b, ext with
  | None, _ => Ok []
  | Some _, None => Ok []
  | Some s, Some d =>
      let n_slots := Z.to_nat (cdiv d dt) in
      if bk_nslots b =? n_slots then Ok []
      else keep_better thr ev (ext_windows size s (bk_nslots b) n_slots)
  end.

Fixpoint collect {A} (l : list (res A)) : res (list A) :=
  match l with
  | [] => Ok []
  | r :: t => bind r (fun x => bind (collect t) (fun xs => Ok (x :: xs)))
  end.

(** [np.all(np.diff(l) == 1)]. *)
Fixpoint contiguous (l : list nat) : bool :=
  match l with
  | x :: ((y :: _) as t) => (y =? x + 1) && contiguous t
  | _ => true
  end.

Definition own_slot (b : blk) (k : nat) : bool :=
  match bk_start b with
  | Some s => in_range s (s + bk_nslots b) k
  | None => false
  end.

(** Lines 1339-1356: try to grow the [i]-th block to the given window. *)
Definition grow (st : sched) (i : nat) (w : list nat) : sched :=
  match nth_error (sc_blocks st) i with
  | None => st
  | Some b =>
      if existsb (fun k => nth k (sc_free st) false) w then
        let new := filter (fun k => nth k (sc_free st) false || own_slot b k) w in
        if contiguous new then
          let s := hd 0 new in
          let n := length new in
          let b' := mkBlk (bk_idx b) (Z.of_nat n * sc_dt st)%Z (bk_ndelay b) (bk_score b) n
                      (Some s) (Some (nth s (sc_starts st) 0%Z, nth (s + n - 1) (sc_stops st) 0%Z)) in
          set_blocks (set_free st (set_range s (s + n) false (sc_free st)))
            (upd i b' (sc_blocks st))
        else st
      else st
  end.

(** Lines 1328-1362: one iteration over the blocks; a block without window at
    this iteration is left alone ([IndexError] caught). *)
Definition grow_all (cands : list (list (list nat))) (st : sched) (it : nat) : sched :=
  fold_left (fun st i =>
    match nth_error (nth i cands []) it with
    | None => st
    | Some w => grow st i w
    end) (seq 0 (length (sc_blocks st))) st.

(** Lines 1240-1366.  [done] is [_obs_extension_done], [max_duration] the
    argument, [max_ext] the [max_extended_duration] of each block. *)
Definition extend (done : bool) (thr : Q) (max_duration : option Z) (max_ext : nat -> option Z)
    (ev : nat -> list nat -> list Q) (st : sched) : sched * bool * option err :=
  match done, max_duration with
  | true, None => (st, true, None)
  | _, _ =>
      let ext i := match max_duration with None => max_ext i | Some d => Some d end in
      match collect (imap (fun i b =>
              ext_candidates (sc_dt st) (sc_size st) thr (ev i) (ext i) b) (sc_blocks st)) with
      | Err e => (st, done, Some e)
      | Ok cands =>
          let max_it := fold_right Nat.max 0 (map (@length _) cands) in
          (fold_left (grow_all cands) (seq 0 max_it) st, true, None)
      end
  end.
