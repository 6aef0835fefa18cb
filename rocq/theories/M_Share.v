(** Model of the objects shared between schedules: [ScheduleBlocks.insert] gives the target and the
    constraints of a block to the new block without copy (nenupy/schedule/schedule.py 414-424), the
    target is cleared ([ObsBlock.target], nenupy/schedule/obsblocks.py 394-404), and booking
    evaluates what was not evaluated (schedule.py 170-192 and 1744-1763, at 1052 of [book]).
    Positions and scores are represented by the times they were computed for. *)
From Coq Require Import List Arith Bool.
From Verif Require Import Base.
Import ListNotations.
Open Scope nat_scope.
Open Scope list_scope.

Section Share.
Variable T : Type.
(** The times of a schedule *)
Variable times : nat -> T.

Record block := mkBlock { b_target : option nat; b_cnst : nat }.
(** [s_pos]: the times of the positions of a target ([_lst] and the others); [s_score]: the times of
    the score of constraints, with those of the positions used, if any; [s_blocks]: the blocks of
    a schedule. *)
Record state := mkState { s_pos : nat -> option T; s_score : nat -> option (option T * T); s_blocks : nat -> list block }.
Definition fresh : state := mkState (fun _ => None) (fun _ => None) (fun _ => []).
Definition put {V} (f : nat -> V) (k : nat) (v : V) : nat -> V := fun i => if Nat.eqb i k then v else f i.

(** schedule.py 414-426; obsblocks.py 394-404 *)
Definition insert (s : nat) (b : block) (st : state) : state :=
  mkState (match b_target b with None => s_pos st | Some t => put (s_pos st) t None end) (s_score st) (put (s_blocks st) s (s_blocks st s ++ [b])).
(** schedule.py 1756-1763 and 176-187 *)
Definition evaluate (s : nat) (b : block) (st : state) : state :=
  match s_score st (b_cnst b) with
  | Some _ => st
  | None =>
    let pos := match b_target b with
               | None => s_pos st
               | Some t => match s_pos st t with None => put (s_pos st) t (Some (times s)) | Some _ => s_pos st end
               end in
    mkState pos (put (s_score st) (b_cnst b) (Some (match b_target b with None => None | Some t => pos t end, times s))) (s_blocks st)
  end.
Definition book (s : nat) (st : state) : state := fold_left (fun st b => evaluate s b st) (s_blocks st s) st.
(** constraints.py 1456-1462, called at schedule.py 1294: the times of the positions used to extend
    a block; [None[...]] is TypeError. *)
Definition extended (b : block) (st : state) : res (option T) :=
  match b_target b with
  | None => Ok None
  | Some t => match s_pos st t with None => Err ETypeError | Some x => Ok (Some x) end
  end.
Inductive op := Insert (s : nat) (b : block) | Book (s : nat).
Definition step (st : state) (o : op) : state := match o with Insert s b => insert s b st | Book s => book s st end.
Definition run (ops : list op) : state := fold_left step ops fresh.
End Share.
