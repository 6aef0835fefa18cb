(** Model of the schedule state and of the heuristic booking:
    nenupy/schedule/schedule.py, [ScheduleBlock], [ScheduleBlocks], [Schedule].
    Scores are exact rationals instead of floats.  Logging is not modelled. *)
From Coq Require Import List Arith ZArith QArith Bool.
From Verif Require Import Base M_Slots.
Import ListNotations.
Open Scope nat_scope.

(** ** State *)

(** schedule.py 74-105: a block of the schedule.  [bk_score] is
    [constraints.score], one value per slot (constraints.py, evaluated once);
    [bk_time] is the pair [time_min], [time_max]. *)
Record blk := mkBlk {
  bk_idx : nat;
  bk_dur : Z;
  bk_ndelay : nat;
  bk_score : list Q;
  bk_nslots : nat;
  bk_start : option nat;
  bk_time : option (Z * Z);
}.

(** schedule.py 443-474 and 697-730.  [sc_hour] is [dt.sec / 3600].  The Sun
    positions and [_maxScores] are not part of the state. *)
Record sched := mkSched {
  sc_dt : Z;
  sc_hour : Q;
  sc_starts : list Z;
  sc_stops : list Z;
  sc_free : list bool;
  sc_proc : list Z;
  sc_day : list bool;
  sc_night : list bool;
  sc_blocks : list blk;
  sc_todo : list bool;
  sc_cnst : list (list Q);
}.

Definition sc_size (st : sched) : nat := length (sc_starts st).

Definition with_start (b : blk) (s : option nat) : blk :=
  mkBlk (bk_idx b) (bk_dur b) (bk_ndelay b) (bk_score b) (bk_nslots b) s (bk_time b).
Definition with_place (b : blk) (s : nat) (t : Z * Z) : blk :=
  mkBlk (bk_idx b) (bk_dur b) (bk_ndelay b) (bk_score b) (bk_nslots b) (Some s) (Some t).
Definition with_nslots (b : blk) (n : nat) : blk :=
  mkBlk (bk_idx b) (bk_dur b) (bk_ndelay b) (bk_score b) n (bk_start b) (bk_time b).

Definition set_free (st : sched) (f : list bool) : sched :=
  mkSched (sc_dt st) (sc_hour st) (sc_starts st) (sc_stops st) f (sc_proc st)
    (sc_day st) (sc_night st) (sc_blocks st) (sc_todo st) (sc_cnst st).
Definition set_proc (st : sched) (p : list Z) : sched :=
  mkSched (sc_dt st) (sc_hour st) (sc_starts st) (sc_stops st) (sc_free st) p
    (sc_day st) (sc_night st) (sc_blocks st) (sc_todo st) (sc_cnst st).
Definition set_blocks (st : sched) (b : list blk) : sched :=
  mkSched (sc_dt st) (sc_hour st) (sc_starts st) (sc_stops st) (sc_free st) (sc_proc st)
    (sc_day st) (sc_night st) b (sc_todo st) (sc_cnst st).
Definition set_todo (st : sched) (t : list bool) : sched :=
  mkSched (sc_dt st) (sc_hour st) (sc_starts st) (sc_stops st) (sc_free st) (sc_proc st)
    (sc_day st) (sc_night st) (sc_blocks st) t (sc_cnst st).
Definition set_cnst (st : sched) (c : list (list Q)) : sched :=
  mkSched (sc_dt st) (sc_hour st) (sc_starts st) (sc_stops st) (sc_free st) (sc_proc st)
    (sc_day st) (sc_night st) (sc_blocks st) (sc_todo st) c.

Definition is_booked (b : blk) : bool :=
  match bk_start b with Some _ => true | None => false end.

(** ** Construction and insertion *)

(** schedule.py 443-474: a new schedule; the day and night masks are given. *)
Definition new_sched (tmin tmax dt : Z) (hour : Q) (day night : list bool) : res sched :=
  bind (new_slots tmin tmax dt) (fun s =>
    Ok (mkSched dt hour (sl_starts s) (sl_stops s) (sl_free s)
          (repeat 0%Z (length (sl_starts s))) day night [] [] [])).

(** schedule.py 406-430: insertion of one observation block.  The arguments
    are the duration, the processing delay and the constraint score. *)
Definition new_blk (dt : Z) (idx : nat) (dur : Z) (delay : option Z) (score : list Q) : blk :=
  mkBlk idx dur
    (match delay with None => 0 | Some d => Z.to_nat (cdiv d dt) end)
    score (Z.to_nat (cdiv dur dt)) None None.

(** schedule.py 820-871, [insert] of observation blocks. *)
Definition insert_obs (st : sched) (l : list (Z * option Z * list Q)) : sched :=
  let blocks := fold_left (fun bs (x : Z * option Z * list Q) =>
      let '(dur, delay, score) := x in
      bs ++ [new_blk (sc_dt st) (length bs) dur delay score]) l (sc_blocks st) in
  set_todo (set_blocks st blocks) (repeat true (length blocks)).

(** schedule.py 820-871, [insert] of one reserved block. *)
Definition insert_res (st : sched) (a b : Z) : sched * option err :=
  match add_booking (mkSlots (sc_starts st) (sc_stops st) (sc_free st)) a b with
  | (s, None) => (set_todo (set_free st (sl_free s)) (repeat true (length (sc_blocks st))), None)
  | (_, Some e) => (st, Some e)
  end.

(** ** book(): reset *)

(** schedule.py 1797-1806, body of the loop of
    [_reset_observation_block_bookings]: the state is the pair of the free
    slots and the processing counters. *)
Definition reset_one (fp : list bool * list Z) (b : blk) : list bool * list Z :=
  match bk_start b with
  | None => fp
  | Some s =>
      let n := bk_nslots b in let d := bk_ndelay b in
      (set_range s (s + n) true (fst fp),
       if d =? 0 then snd fp
       else py_add_slice (Z.of_nat s - Z.of_nat d - 1) (Z.of_nat (s + n + d)) (-1) (snd fp))
  end.

Definition reset_bookings (st : sched) : sched :=
  let fp := fold_left reset_one (sc_blocks st) (sc_free st, sc_proc st) in
  set_blocks (set_proc (set_free st (fst fp)) (snd fp))
    (map (fun b => with_start b None) (sc_blocks st)).

(** ** book(): constraint scores *)

Definition qsum (l : list Q) : Q := fold_right Qplus 0%Q l.

(** [np.mean(score[s:s+n])]. *)
Definition window_mean (score : list Q) (s n : nat) : Q :=
  (qsum (map (fun j => nth (s + j) score 0%Q) (seq 0 n)) / inject_Z (Z.of_nat n))%Q.

(** schedule.py 1764-1775: a row of [_cnstScores]; zero from [size - nSlots]
    on, and where a slot of the window is not free. *)
Definition cnst_row (free : list bool) (score : list Q) (n : nat) : list Q :=
  imap (fun s _ =>
          if s + n <? length free then
            if forallb (fun j => nth (s + j) free false) (seq 0 n)
            then window_mean score s n else 0%Q
          else 0%Q) free.

Definition Qltb (a b : Q) : bool := negb (Qle_bool b a).

(** [np.max(row) == 0] for a non negative row: every value is zero. *)
Definition all_zero (l : list Q) : bool := forallb (fun x => Qeq_bool x 0) l.

(** schedule.py 1753-1784: one iteration.  [nSlots = 0] makes the assignment
    of line 1769 fail: ValueError, or IndexError at line 1775 when the
    schedule has a single slot.  The constraint score is assumed to have been
    evaluated on this schedule, hence to have one value per slot. *)
Fixpoint score_loop (dt : Z) (free : list bool) (blocks : list blk) (todo : list bool)
  : list blk * list bool * list (list Q) * option err :=
  match blocks, todo with
  | b :: bs, t :: ts =>
      let n := Z.to_nat (cdiv (bk_dur b) dt) in
      let b' := with_nslots b n in
      if n =? 0 then
        (b' :: bs, t :: ts, map (fun _ => repeat 0%Q (length free)) blocks,
         Some (if length free =? 1 then EIndexError else EValueError))
      else
        let row := cnst_row free (bk_score b) n in
        let t' := if all_zero row then false else t in
        match score_loop dt free bs ts with
        | (bs', ts', rows, e) => (b' :: bs', t' :: ts', row :: rows, e)
        end
  | _, _ => ([], [], [], None)
  end.

(** schedule.py 1732-1789, [_compute_block_constraint_scores]; an empty
    schedule fails at line 1749 ([_startsJD[-1]]). *)
Definition compute_scores (st : sched) : sched * option err :=
  if sc_size st =? 0 then (st, Some EIndexError)
  else
    match score_loop (sc_dt st) (sc_free st) (sc_blocks st) (sc_todo st) with
    | (bs, ts, rows, e) => (set_cnst (set_todo (set_blocks st bs) ts) rows, e)
    end.

(** ** book(): very_strict *)

(** schedule.py 1074: lengths of the groups of consecutive [True]. *)
Fixpoint true_runs (cur : nat) (l : list bool) : list nat :=
  match l with
  | [] => if cur =? 0 then [] else [cur]
  | true :: t => true_runs (S cur) t
  | false :: t => (if cur =? 0 then [] else [cur]) ++ true_runs 0 t
  end.

(** schedule.py 1069-1077. *)
Definition strict_ok (row : list Q) (n : nat) : bool :=
  existsb (fun r => n <=? r) (true_runs 0 (map (fun x => Qltb 0 x) row)).

Definition strict_filter (blocks : list blk) (rows : list (list Q)) (todo : list bool) : list bool :=
  imap (fun i t => t && strict_ok (nth i rows []) (bk_nslots (nth i blocks (mkBlk 0 0 0 [] 0 None None))))
       todo.

(** ** book(): heuristic *)

(** numpy [argmax]: first index of the maximum. *)
Fixpoint argmax_from (i best : nat) (bv : Q) (l : list Q) : nat :=
  match l with
  | [] => best
  | x :: t => if Qltb bv x then argmax_from (S i) i x t else argmax_from (S i) best bv t
  end.
Definition argmax (l : list Q) : nat :=
  match l with [] => 0 | x :: t => argmax_from 1 0 x t end.

Definition b2q (b : bool) : Q := if b then 1%Q else 0%Q.

(** schedule.py 1165-1168. *)
Definition slot_avail (d : nat) (free : list bool) (proc : list Z) : list bool :=
  if d =? 0 then free
  else imap (fun k x => x && (nth k proc 0%Z =? 0)%Z) free.

(** schedule.py 1173-1176: a start is masked when one of the [n] slots from
    it on is not available; slots beyond the end do not mask. *)
Definition startable (avail : list bool) (n : nat) : list bool :=
  imap (fun s x => x && forallb (fun j => nth (s + j) avail true) (seq 0 n)) avail.

(** schedule.py 1181-1190: day or night weight. *)
Definition budget_weight (hours used : Q) : Q :=
  if Qeq_bool hours 0 then 0%Q
  else (1 - (if Qle_bool 1 (used / hours) then 1 else used / hours))%Q.
Definition weigh (mask : list bool) (hours : option Q) (used : Q) (row : list Q) : list Q :=
  match hours with
  | None => row
  | Some h => imap (fun s x => if nth s mask false then (x * budget_weight h used)%Q else x) row
  end.

Record params := mkParams {
  bp_reset : bool;
  bp_min : Q;
  bp_day : option Q;
  bp_night : option Q;
  bp_strict : bool;
}.

(** Local state of the loop of lines 1159-1227. *)
Record gst := mkG {
  g_free : list bool;
  g_proc : list Z;
  g_blocks : list blk;
  g_dused : Q;
  g_nused : Q;
}.

Definition count_true (l : list bool) : nat := length (filter (fun x => x) l).
(** [sum(mask[s:s+n])]. *)
Definition mask_count (mask : list bool) (s n : nat) : nat :=
  count_true (firstn n (skipn s mask)).

(** schedule.py 1990-2013 after its guard, which cannot fail here because
    [start - d < start + n + d] when [n > 0]. *)
Definition freeze_proc (s n d : nat) (proc : list Z) : list Z :=
  add_range (s - d) (Nat.min (s + n + d) (length proc)) 1 proc.

(** schedule.py 1179-1191: the weighted and masked score of a block. *)
Definition place_score (p : params) (st : sched) (g : gst) (row : list Q) (b : blk) : list Q :=
  let fss := startable (slot_avail (bk_ndelay b) (g_free g) (g_proc g)) (bk_nslots b) in
  imap (fun s x => (x * b2q (nth s (g_free g) false) * b2q (nth s fss false))%Q)
    (weigh (sc_night st) (bp_night p) (g_nused g)
       (weigh (sc_day st) (bp_day p) (g_dused g) row)).

(** schedule.py 1208-1227: the block [i] is placed at [s]. *)
Definition place (st : sched) (p : params) (g : gst) (i : nat) (b : blk) (s : nat) : gst :=
  let n := bk_nslots b in
  mkG (set_range s (s + n) false (g_free g))
      (if bk_ndelay b =? 0 then g_proc g else freeze_proc s n (bk_ndelay b) (g_proc g))
      (upd i (with_place b s (nth s (sc_starts st) 0%Z, nth (s + n - 1) (sc_stops st) 0%Z)) (g_blocks g))
      (match bp_day p with
       | None => g_dused g
       | Some _ => (g_dused g + inject_Z (Z.of_nat (mask_count (sc_day st) s n)) * sc_hour st)%Q
       end)
      (match bp_night p with
       | None => g_nused g
       | Some _ => (g_nused g + inject_Z (Z.of_nat (mask_count (sc_night st) s n)) * sc_hour st)%Q
       end).

(** schedule.py 1159-1227: one iteration of the loop. *)
Definition greedy_step (p : params) (st : sched) (g : gst) (i : nat) : gst :=
  match nth_error (g_blocks g) i with
  | None => g
  | Some b =>
      if negb (nth i (sc_todo st) false) || is_booked b then g
      else
        let score := place_score p st g (nth i (sc_cnst st) []) b in
        if all_zero score then g
        else if negb (existsb (fun x => Qle_bool (bp_min p) x) score) then g
        else place st p g i b (argmax score)
  end.

Definition greedy (p : params) (st : sched) (order : list nat) : gst :=
  fold_left (greedy_step p st) order
    (mkG (sc_free st) (sc_proc st) (sc_blocks st) 0%Q 0%Q).

(** schedule.py 1138-1152: the visiting order.  [OSort l] stands for the three
    options based on [np.argsort]: [l] is the permutation it returns.
    [OIndices l] is [sort_by_indices] with an array of integers. *)
Inductive order := ONone | OSort (l : list nat) | OIndices (l : list Z).

Definition py_index (n : nat) (i : Z) : option nat :=
  if (0 <=? i)%Z then (if (i <? Z.of_nat n)%Z then Some (Z.to_nat i) else None)
  else if (- Z.of_nat n <=? i)%Z then Some (Z.to_nat (i + Z.of_nat n)) else None.

Fixpoint all_some {A} (l : list (option A)) : option (list A) :=
  match l with
  | [] => Some []
  | Some x :: t => option_map (cons x) (all_some t)
  | None :: _ => None
  end.

Definition visit (n : nat) (o : order) : res (list nat) :=
  match o with
  | ONone => Ok (seq 0 n)
  | OSort l => Ok l
  | OIndices l =>
      if length l =? n then
        match all_some (map (py_index n) l) with
        | Some l' => Ok l'
        | None => Err EIndexError
        end
      else Err EIndexError
  end.

(** ** book() *)

(** schedule.py 1048-1077: what precedes the placement.  The boolean tells
    whether the method goes on after line 1062. *)
Definition book_prepare (p : params) (st : sched) : sched * bool * option err :=
  let st1 := if bp_reset p then reset_bookings st else st in
  match compute_scores st1 with
  | (st2, Some e) => (st2, false, Some e)
  | (st2, None) =>
      if count_true (sc_todo st2) =? 0 then (st2, false, None)
      else
        (if bp_strict p
         then set_todo st2 (strict_filter (sc_blocks st2) (sc_cnst st2) (sc_todo st2))
         else st2, true, None)
  end.

(** schedule.py 974-1237 with [optimize=False]. *)
Definition book (p : params) (o : order) (st : sched) : sched * option err :=
  match book_prepare p st with
  | (st2, _, Some e) => (st2, Some e)
  | (st2, false, None) => (st2, None)
  | (st2, true, None) =>
      match visit (length (sc_blocks st2)) o with
      | Err e => (st2, Some e)
      | Ok l =>
          let g := greedy p st2 l in
          (set_blocks (set_proc (set_free st2 (g_free g)) (g_proc g)) (g_blocks g), None)
      end
  end.

(** ** Sessions *)

Inductive sop :=
| SInsert (l : list (Z * option Z * list Q))
| SReserve (a b : Z)
| SBook (p : params) (o : order).

Definition sstep (st : sched) (o : sop) : sched :=
  match o with
  | SInsert l => insert_obs st l
  | SReserve a b => fst (insert_res st a b)
  | SBook p o => fst (book p o st)
  end.
Definition srun (st : sched) (l : list sop) : sched := fold_left sstep l st.
