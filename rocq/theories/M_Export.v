(** Model of [Schedule.export]: nenupy/schedule/schedule.py 1463-1524.  The
    columns [name] and [program], functions of the block, are not modelled, nor
    is the rounding of the times to the millisecond by [isot]. *)
From Coq Require Import List Arith ZArith QArith Bool.
From Verif Require Import Base M_Slots M_Sched.
Import ListNotations.
Open Scope nat_scope.

(** A line of the table: obsid, start, stop, score. *)
Record line := mkLine { ln_id : nat; ln_start : Z; ln_stop : Z; ln_score : Q }.

(** Lines 1500-1512: the loop over the blocks; [score] is [blk.score], which
    may raise (lines 134-149), and [None.isot] is an AttributeError. *)
Fixpoint export_lines (score : blk -> res Q) (smin : Q) (bs : list blk) : res (list line) :=
  match bs with
  | [] => Ok []
  | b :: t =>
      if negb (is_booked b) then export_lines score smin t
      else
        bind (score b) (fun q =>
          if Qltb q smin then export_lines score smin t
          else
            match bk_time b with
            | None => Err EAttributeError
            | Some (a, z) => bind (export_lines score smin t) (fun l => Ok (mkLine (bk_idx b) a z q :: l))
            end)
  end.

(** Lines 1513-1522: the sort by start time. *)
Fixpoint insert_line (x : line) (l : list line) : list line :=
  match l with
  | [] => [x]
  | y :: t => if (ln_start x <=? ln_start y)%Z then x :: l else y :: insert_line x t
  end.
Definition sort_lines (l : list line) : list line := fold_right insert_line [] l.

(** Lines 1463-1524; a threshold that is not a number is [None]. *)
Definition export (score : blk -> res Q) (smin : option Q) (st : sched) : res (list line) :=
  match smin with
  | None => Err ETypeError
  | Some q =>
      if Qltb q 0 then Err EValueError
      else if Qltb 1 q then Err EValueError
      else bind (export_lines score q (sc_blocks st)) (fun l => Ok (sort_lines l))
  end.
