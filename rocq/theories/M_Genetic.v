(** Model of the booking with the genetic algorithm and of the fine tuning:
    nenupy/schedule/schedule.py, [Schedule.book(optimize=True)],
    [Schedule.fine_tune], [_bound_to_schedule], [_mutation], [_fitness]. *)
From Coq Require Import List Arith ZArith QArith Bool.
From Verif Require Import Base M_Slots M_Sched.
Import ListNotations.
Open Scope nat_scope.

(** ** Genomes *)

(** schedule.py 1809-1819, one gene; [n] is the number of slots of its block. *)
Definition bound1 (size n : nat) (x : Z) : Z :=
  let x0 := if (x <? 0)%Z then 0%Z else x in
  if (Z.of_nat size <=? x0 + Z.of_nat n)%Z
  then (Z.of_nat size - 1 - Z.of_nat n)%Z else x0.

(** The whole genome; [ns] are the numbers of slots of the blocks to
    schedule, in the same order. *)
Definition bound_genome (size : nat) (ns : list nat) (g : list Z) : list Z :=
  map (fun nx : nat * Z => bound1 size (fst nx) (snd nx)) (combine ns g).

(** schedule.py 1927-1938: the drawn position [k] and value [v] are arguments. *)
Definition mutate (size : nat) (ns : list nat) (k : nat) (v : Z) (g : list Z) : list Z :=
  bound_genome size ns (upd k v g).

(** ** Placement of the best genome *)

(** schedule.py 1104: [all(row[s:s+n] == 0)]. *)
Definition null_from (row : list Q) (s n : nat) : bool :=
  forallb (fun x => Qeq_bool x 0) (firstn n (skipn s row)).

(** schedule.py 1094-1113: the loop over the blocks.  [time_min] set just
    before the failing access of [stops] is not modelled. *)
Fixpoint ga_place (st : sched) (i : nat) (bs : list blk) (genome : list nat)
  : list blk * option err :=
  match bs with
  | [] => ([], None)
  | b :: t =>
      if negb (nth i (sc_todo st) false) then
        let r := ga_place st (S i) t genome in (b :: fst r, snd r)
      else
        match genome with
        | [] => (bs, Some EIndexError)
        | s :: gs =>
            if null_from (nth i (sc_cnst st) []) s (bk_nslots b) then
              let r := ga_place st (S i) t gs in (b :: fst r, snd r)
            else if s + bk_nslots b <=? sc_size st then
              let r := ga_place st (S i) t gs in
              (with_place b s (nth s (sc_starts st) 0%Z,
                               nth (s + bk_nslots b - 1) (sc_stops st) 0%Z) :: fst r, snd r)
            else (with_start b (Some s) :: t, Some EIndexError)
        end
  end.

(** ** Fine tuning *)

Definition no_blk : blk := mkBlk 0 0 0 [] 0 None None.
Definition start_of (b : blk) : nat := match bk_start b with Some s => s | None => 0 end.

(** What the method knows of a booked block: its position, start, number of
    slots and delay (lines 1380-1390). *)
Record ftb := mkFtb { ft_i : nat; ft_s : nat; ft_n : nat; ft_d : nat }.
Definition ftb0 : ftb := mkFtb 0 0 0 0.
Definition ft_of (bs : list blk) (i : nat) : ftb :=
  let b := nth i bs no_blk in mkFtb i (start_of b) (bk_nslots b) (bk_ndelay b).

(** schedule.py 1417-1420: cyclic predecessor and successor of [i] in the
    positions [l] of the blocks with a delay. *)
Fixpoint index_of (i : nat) (l : list nat) : nat :=
  match l with [] => 0 | x :: t => if x =? i then 0 else S (index_of i t) end.
Definition cyc_prev (i : nat) (l : list nat) : nat :=
  nth ((index_of i l + length l - 1) mod length l) l 0.
Definition cyc_next (i : nat) (l : list nat) : nat :=
  nth (S (index_of i l) mod length l) l 0.

Definition delayed (fs : list ftb) : list nat :=
  filter (fun j => negb (ft_d (nth j fs ftb0) =? 0)) (seq 0 (length fs)).

(** schedule.py 1402-1433: the two score differences of the [i]-th booked
    block; [fs] are the booked blocks sorted by start. *)
Definition ft_left (st : sched) (fs : list ftb) (i : nat) : Q :=
  let f := nth i fs ftb0 in
  let row := nth (ft_i f) (sc_cnst st) [] in
  let lo := if 1 <? i then ft_s (nth (i - 1) fs ftb0) + ft_n (nth (i - 1) fs ftb0) else 0 in
  let sc := if lo <? ft_s f then (nth (ft_s f - 1) row 0 - nth (ft_s f) row 0)%Q else (-1)%Q in
  if ft_d f =? 0 then sc
  else
    let p := cyc_prev i (delayed fs) in
    if i <? p then sc
    else if ft_s f <=? ft_s (nth p fs ftb0) + ft_n (nth p fs ftb0) + ft_d (nth p fs ftb0)
         then (-1)%Q else sc.

Definition ft_right (st : sched) (fs : list ftb) (i : nat) : Q :=
  let f := nth i fs ftb0 in
  let row := nth (ft_i f) (sc_cnst st) [] in
  let room := if S i <? length fs
              then ft_s f + ft_n f <? ft_s (nth (S i) fs ftb0)
              else ft_s f + 1 <? sc_size st - 1 in
  let sc := if room then (nth (ft_s f + 1) row 0 - nth (ft_s f) row 0)%Q else (-1)%Q in
  if ft_d f =? 0 then sc
  else
    let q := cyc_next i (delayed fs) in
    if q <? i then sc
    else if ft_s (nth q fs ftb0) <=? ft_s f + ft_n f + ft_d f
         then (-1)%Q else sc.

Definition ft_best (st : sched) (fs : list ftb) (i : nat) : Q :=
  if Qltb (ft_left st fs i) (ft_right st fs i) then ft_right st fs i else ft_left st fs i.
Definition ft_goes_right (st : sched) (fs : list ftb) (i : nat) : bool :=
  Qltb (ft_left st fs i) (ft_right st fs i).

(** schedule.py 1376-1446: one iteration on the blocks [bs].  [ord] is the
    result of [np.argsort] on the starts of the booked blocks, as positions.
    [FDone] is the break of line 1439. *)
Inductive ftres := FDone | FMove (bs : list blk) | FErr (bs : list blk) (e : err).

Definition ft_step (st : sched) (ord : list nat) (bs : list blk) : ftres :=
  let fs := map (ft_of bs) ord in
  match fs with
  | [] => FErr bs EValueError
  | _ =>
      let bests := map (ft_best st fs) (seq 0 (length fs)) in
      let m := argmax bests in
      if Qle_bool (nth m bests 0%Q) 0 then FDone
      else
        let i := ft_i (nth m fs ftb0) in
        let b := nth i bs no_blk in
        let s := if ft_goes_right st fs m then S (start_of b) else start_of b - 1 in
        if s + bk_nslots b <=? sc_size st
        then FMove (upd i (with_place b s (nth s (sc_starts st) 0%Z,
                                    nth (s + bk_nslots b - 1) (sc_stops st) 0%Z)) bs)
        else FErr (upd i (with_start b (Some s)) bs) EIndexError
  end.

(** schedule.py 1368-1460.  [sorter] stands for the calls of [np.argsort]. *)
Fixpoint fine_tune (st : sched) (sorter : list blk -> list nat) (max_it : nat) (bs : list blk)
  : list blk * option err :=
  match max_it with
  | 0 => (bs, None)
  | S m =>
      match ft_step st (sorter bs) bs with
      | FDone => (bs, None)
      | FErr bs' e => (bs', Some e)
      | FMove bs' => fine_tune st sorter m bs'
      end
  end.

(** ** Removal of the overlaps *)

(** [sorted(..., key=score)]: stable sort by increasing score. *)
Fixpoint insert_by (score : nat -> Q) (i : nat) (l : list nat) : list nat :=
  match l with
  | [] => [i]
  | x :: t => if Qltb (score i) (score x) then i :: l else x :: insert_by score i t
  end.
Definition sort_by (score : nat -> Q) (l : list nat) : list nat :=
  fold_left (fun acc i => insert_by score i acc) l [].

(** schedule.py 1119-1129: one block. *)
Definition clean_step (fb : list bool * list blk) (i : nat) : list bool * list blk :=
  let b := nth i (snd fb) no_blk in
  match bk_start b with
  | None => fb
  | Some s =>
      if forallb (fun x => x) (firstn (bk_nslots b) (skipn s (fst fb)))
      then (set_range s (s + bk_nslots b) false (fst fb), snd fb)
      else (fst fb, upd i (with_start b None) (snd fb))
  end.

(** schedule.py 1117-1129; [score] gives the score of each block. *)
Definition clean (score : nat -> Q) (free : list bool) (bs : list blk) : list bool * list blk :=
  fold_left clean_step (sort_by score (seq 0 (length bs))) (free, bs).

(** ** book(optimize=True) *)

(** schedule.py 974-1135.  The genome returned by the genetic algorithm, the
    results of [np.argsort] and the scores of the blocks ([ScheduleBlock.score],
    a function of the blocks after fine tuning) are arguments. *)
Definition ga_book (p : params) (genome : list nat) (sorter : list blk -> list nat)
    (max_it : nat) (score : list blk -> nat -> Q) (st : sched) : sched * option err :=
  match book_prepare p st with
  | (st2, _, Some e) => (st2, Some e)
  | (st2, false, None) => (st2, None)
  | (st2, true, None) =>
      match ga_place st2 0 (sc_blocks st2) genome with
      | (bs, Some e) => (set_blocks st2 bs, Some e)
      | (bs, None) =>
          match fine_tune st2 sorter max_it bs with
          | (bs', Some e) => (set_blocks st2 bs', Some e)
          | (bs', None) =>
              let fb := clean (score bs') (sc_free st2) bs' in
              (set_blocks (set_free st2 (fst fb)) (snd fb), None)
          end
      end
  end.

(** ** Fitness *)

(** A gene with the number of slots and the delay of its block. *)
Definition overlap_count (l : list (nat * nat)) : nat :=
  (fix go (l : list (nat * nat)) : nat :=
     match l with
     | (s, n) :: (((s', _) :: _) as t) => (if s' <? s + n then 1 else 0) + go t
     | _ => 0
     end) l.

(** schedule.py 1852-1924 for one individual.  [sorted] is the genome sorted
    by [np.argsort] with the number of slots of each block (line 1908-1920);
    [sorted_delay] is what lines 1891-1906 pair with the sorted starts of the
    delayed blocks; [norm] are the normalised scores. *)
Definition fitness (norm : list Q) (sorted sorted_delay : list (nat * nat)) : Q :=
  (qsum norm / inject_Z (Z.of_nat (length norm))
   / inject_Z (Z.of_nat (overlap_count sorted + overlap_count sorted_delay + 1)))%Q.

(** schedule.py 1893-1895: the extents used for the delayed blocks.
    [sel] is the [np.argsort] of the starts of the delayed blocks, that is
    positions among them; lines 1894 and 1895 use these positions to index all
    the blocks to schedule. *)
Definition delay_extents (starts_delayed : list nat) (sel : list nat)
    (delays ns : list nat) : list (nat * nat) :=
  map (fun j => (nth j starts_delayed 0, nth j delays 0 + nth j ns 0)) sel.
