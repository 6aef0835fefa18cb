(** Model of the guarded slot operations and of the block shifts:
    nenupy/schedule/schedule.py lines 1962-2185. *)
From Coq Require Import List Arith ZArith QArith Bool.
From Verif Require Import Base M_Slots M_Sched.
Import ListNotations.
Open Scope nat_scope.

(** The values of [l[a:b]] for natural bounds. *)
Definition any_in {A} (f : A -> bool) (a b : nat) (l : list A) : bool :=
  existsb (fun x => x) (imap (fun k x => in_range a b k && f x) l).

Definition bad_range (size : nat) (a b : Z) : bool :=
  (a <? 0)%Z || (b <=? a)%Z || (Z.of_nat size <? b)%Z.

(** Lines 2015-2040, [_free_slots]. *)
Definition free_slots (st : sched) (a b : Z) : sched * option err :=
  if bad_range (sc_size st) a b then (st, Some EIndexError)
  else if any_in (fun x => x) (Z.to_nat a) (Z.to_nat b) (sc_free st) then (st, Some EValueError)
  else (set_free st (set_range (Z.to_nat a) (Z.to_nat b) true (sc_free st)), None).

(** Lines 2042-2067, [_freeze_slots]. *)
Definition freeze_slots (st : sched) (a b : Z) : sched * option err :=
  if bad_range (sc_size st) a b then (st, Some EIndexError)
  else if any_in negb (Z.to_nat a) (Z.to_nat b) (sc_free st) then (st, Some EValueError)
  else (set_free st (set_range (Z.to_nat a) (Z.to_nat b) false (sc_free st)), None).

(** Lines 1962-1988, [_free_processing_slots]. *)
Definition free_processing (st : sched) (a b : Z) : sched * option err :=
  if bad_range (sc_size st) a b then (st, Some EIndexError)
  else if any_in (fun x => x <? 1)%Z (Z.to_nat a) (Z.to_nat b) (sc_proc st) then (st, Some EValueError)
  else (set_proc st (add_range (Z.to_nat a) (Z.to_nat b) (-1) (sc_proc st)), None).

(** Lines 1990-2013, [_freeze_processing_slots].  After clipping, the stop may
    still be negative: numpy then counts it from the end. *)
Definition freeze_processing (st : sched) (a b : Z) : sched * option err :=
  if (b <=? a)%Z then (st, Some EIndexError)
  else
    let a' := if (a <? 0)%Z then 0%Z else a in
    let b' := if (Z.of_nat (sc_size st) <? b)%Z then Z.of_nat (sc_size st) else b in
    (set_proc st (py_add_slice a' b' 1 (sc_proc st)), None).

Definition andthen (r : sched * option err) (f : sched -> sched * option err) : sched * option err :=
  match r with
  | (st, None) => f st
  | _ => r
  end.

(** Lines 2098-2102: the requested start, clipped to the schedule. *)
Definition shifted_start (size s n : nat) (shift : Z) : Z :=
  let z := (Z.of_nat s + shift)%Z in
  if (z <=? 0)%Z then 0%Z
  else if (Z.of_nat size <=? z + Z.of_nat n)%Z then (Z.of_nat size - Z.of_nat n)%Z
  else z.

(** Lines 2069-2129, [_shift_obsblock] of the [i]-th block.  A block placed by
    book() has a row in [_cnstScores]; without one the read is an IndexError.
    [new] is not negative for a block inside the schedule, so that the reads
    of [freeSlots] and of the row are plain ones. *)
Definition shift_block (st : sched) (i : nat) (shift : Z) (minimal : Q) : sched * option err :=
  match nth_error (sc_blocks st) i with
  | None => (st, Some EIndexError)
  | Some b =>
    match bk_start b with
    | None => (st, None)
    | Some s =>
      match nth_error (sc_cnst st) (bk_idx b) with
      | None => (st, Some EIndexError)
      | Some row =>
        let n := bk_nslots b in
        let new := Z.to_nat (shifted_start (sc_size st) s n shift) in
        let last := new + n - 1 in
        if negb (nth new (sc_free st) false || nth last (sc_free st) false) then (st, None)
        else if Qltb (nth new row 0%Q) minimal then (st, None)
        else
          let b' := with_place b new (nth new (sc_starts st) 0%Z, nth last (sc_stops st) 0%Z) in
          let st1 := set_blocks st (upd i b' (sc_blocks st)) in
          andthen (free_slots st1 (Z.of_nat s) (Z.of_nat (s + n))) (fun st2 =>
          andthen (freeze_slots st2 (Z.of_nat new) (Z.of_nat (last + 1))) (fun st3 =>
          let d := Z.of_nat (bk_ndelay b) in
          if bk_ndelay b =? 0 then (st3, None)
          else
            andthen (free_processing st3 (Z.of_nat s - d) (Z.of_nat (s + n) + d)) (fun st4 =>
            freeze_processing st4 (Z.of_nat new - d) (Z.of_nat last + d + 1))))
      end
    end
  end.

(** Lines 2149-2152 and 2176-2179: the number of slots of the shift. *)
Definition later_slots (sdt : Z) (dt : option Z) : Z :=
  match dt with None => 1 | Some d => Z.abs d / sdt end%Z.
Definition earlier_slots (sdt : Z) (dt : option Z) : Z :=
  match dt with None => -1 | Some d => Z.abs d / sdt end%Z.

(** Lines 2131-2158 and 2160-2185. *)
Definition shift_later (st : sched) (i : nat) (dt : option Z) (minimal : Q) : sched * option err :=
  shift_block st i (later_slots (sc_dt st) dt) minimal.
Definition shift_earlier (st : sched) (i : nat) (dt : option Z) (minimal : Q) : sched * option err :=
  shift_block st i (earlier_slots (sc_dt st) dt) minimal.
