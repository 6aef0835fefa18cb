(** Model of the observation blocks given to a schedule:
    nenupy/schedule/obsblocks.py, classes [Block], [ObsBlock], [ReservedBlock],
    and nenupy/schedule/schedule.py 820-871.
    Objects live in a heap, since blocks are numbered in place and a
    collection keeps references to its elements.  The target of a block, its
    maximal duration and the plotting methods are not modelled. *)
From Coq Require Import List Arith ZArith QArith Bool.
From Verif Require Import Base M_Slots M_Sched M_Cnst.
Import ListNotations.
Open Scope nat_scope.

(** ** Objects *)

(** obsblocks.py 345-366 and 930-941: the attributes of an ObsBlock and of a
    ReservedBlock; a collection made by [Block] has none. *)
Inductive payload :=
| PObs (name program : Z) (dur : Z) (delay : option Z) (cs : cset)
| PRes (tmin tmax : Z)
| PBlock.

(** [o_idx] is [blockIdx] (a collection has no such attribute unless it is
    itself an element), [o_refs] is the tuple [_blocks]. *)
Record obj := mkObj { o_data : payload; o_idx : option nat; o_refs : list nat }.

Definition heap := list obj.

(** Python values handled by the operators. *)
Inductive value := VRef (a : nat) | VInt (z : Z) | VOther.

Definition refs_of (h : heap) (a : nat) : list nat :=
  match nth_error h a with Some o => o_refs o | None => [] end.

(** Mutation of the attributes of the object at address [k]. *)
Definition modify (k : nat) (f : obj -> obj) (h : heap) : heap :=
  imap (fun i x => if i =? k then f x else x) h.

(** obsblocks.py 304-307, [_assign_indices]. *)
Definition assign (h : heap) (refs : list nat) : heap :=
  fold_left (fun h (p : nat * nat) =>
               modify (snd p) (fun o => mkObj (o_data o) (Some (fst p)) (o_refs o)) h)
            (combine (seq 0 (length refs)) refs) h.

(** obsblocks.py 345-366 and 930-941: a new ObsBlock or ReservedBlock is its
    only element and has number 0. *)
Definition new_one (h : heap) (d : payload) : heap * nat :=
  (assign (h ++ [mkObj d (Some 0) [length h]]) [length h], length h).

(** obsblocks.py 208-210, [Block(\*blocks)]. *)
Definition new_block (h : heap) (refs : list nat) : heap * nat :=
  (assign (h ++ [mkObj PBlock None refs]) refs, length h).

(** ** Operators *)

(** obsblocks.py 241-251, [a + v]. *)
Definition add (h : heap) (a : nat) (v : value) : heap * res value :=
  match v with
  | VRef b => let r := new_block h (refs_of h a ++ refs_of h b) in (fst r, Ok (VRef (snd r)))
  | _ => (h, Err ETypeError)
  end.

(** obsblocks.py 254-259, [v + a] when [v] is not a block. *)
Definition radd (h : heap) (a : nat) (v : value) : heap * res value :=
  match v with
  | VInt 0 => (h, Ok (VRef a))
  | _ => add h a v
  end.

(** Python [x + y] for these values: the method of the left operand, then the
    reflected one of the right operand. *)
Definition py_plus (h : heap) (x y : value) : heap * res value :=
  match x, y with
  | VRef a, _ => add h a y
  | _, VRef b => radd h b x
  | VInt m, VInt n => (h, Ok (VInt (m + n)))
  | _, _ => (h, Err ETypeError)
  end.

(** [sum(values)]. *)
Fixpoint sum_from (h : heap) (acc : value) (l : list value) : heap * res value :=
  match l with
  | [] => (h, Ok acc)
  | v :: t =>
      match py_plus h acc v with
      | (h', Ok x) => sum_from h' x t
      | (h', Err e) => (h', Err e)
      end
  end.
Definition py_sum (h : heap) (l : list value) : heap * res value := sum_from h (VInt 0) l.

(** [functools.reduce(lambda x, y: x+y, reserved)], obsblocks.py 999-1002. *)
Definition py_reduce (h : heap) (l : list value) : heap * res value :=
  match l with
  | [] => (h, Err ETypeError)
  | v :: t => sum_from h v t
  end.

(** obsblocks.py 219-238, [a * n]: [copy] is shallow, the copy keeps the tuple
    [_blocks] of the copied block.  Constraints and target are shared. *)
Definition mul (h : heap) (a : nat) (n : Z) : heap * nat :=
  let src := flat_map (fun r => repeat r (Z.to_nat n)) (refs_of h a) in
  let copies := flat_map (fun r => match nth_error h r with Some o => [o] | None => [] end) src in
  new_block (h ++ copies) (seq (length h) (length copies)).

(** obsblocks.py 262-265, [a[n]]. *)
Definition getitem (h : heap) (a : nat) (n : Z) : res nat :=
  let l := refs_of h a in
  let k := (if n <? 0 then n + Z.of_nat (length l) else n)%Z in
  if (k <? 0)%Z then Err EIndexError
  else match nth_error l (Z.to_nat k) with Some r => Ok r | None => Err EIndexError end.

(** obsblocks.py 278-291, [get]: [test] is [operation(getattr(blk, attr), value)],
    which may raise; the filter is applied as the elements are read, and the
    exception leaves the heap unchanged.  [n] is the number of keywords. *)
Fixpoint filter_res (test : nat -> res bool) (l : list nat) : res (list nat) :=
  match l with
  | [] => Ok []
  | r :: t => bind (test r) (fun b => bind (filter_res test t) (fun l' => Ok (if b then r :: l' else l')))
  end.
Definition get (h : heap) (a : nat) (n : nat) (test : obj -> res bool) : heap * res nat :=
  if negb (n =? 1) then (h, Err EValueError)
  else
    match filter_res (fun r => match nth_error h r with Some o => test o | None => Err EKeyError end)
                     (refs_of h a) with
    | Err e => (h, Err e)
    | Ok l => let r := new_block h l in (fst r, Ok (snd r))
    end.

(** ** Periodic observations *)

(** [int(np.ceil(span / period))], obsblocks.py 484: a null period gives an
    infinity, or NaN if the span is null. *)
Definition repetitions (span p : Z) (cap : option Z) : res Z :=
  if (p =? 0)%Z then (if (span =? 0)%Z then Err EValueError else Err EOverflowError)
  else
    let n := cdiv span p in
    Ok (match cap with Some m => if (m <? n)%Z then m else n | None => n end).

(** [deepcopy(h[a])]: the copy of every object of the heap, of which only the
    part reachable from [a] is ever used. *)
Definition deepcopy (h : heap) (a : nat) : heap * nat :=
  (h ++ map (fun o => mkObj (o_data o) (o_idx o) (map (Nat.add (length h)) (o_refs o))) h,
   length h + a).

Fixpoint deepcopies (h : heap) (a : nat) (n : nat) : heap * list nat :=
  match n with
  | 0 => (h, [])
  | S m =>
      let r := deepcopy h a in
      let x := deepcopies (fst r) a m in
      (fst x, snd r :: snd x)
  end.

Definition set_cs (h : heap) (a : nat) (cs : cset) : heap :=
  modify a (fun o => mkObj (match o_data o with
                         | PObs n p d dl _ => PObs n p d dl cs
                         | x => x
                         end) (o_idx o) (o_refs o)) h.

Definition cs_of (h : heap) (a : nat) : cset :=
  match nth_error h a with
  | Some o => match o_data o with PObs _ _ _ _ cs => cs | _ => mkCset [] false end
  | None => mkCset [] false
  end.

(** obsblocks.py 492-497, the loop over the copies; [cs0] is
    [self.constraints], deeply copied at each iteration. *)
Fixpoint add_ranges (h : heap) (cs0 : cset) (start p tol : Z) (i : nat) (l : list nat)
  : heap * option err :=
  match l with
  | [] => (h, None)
  | a :: t =>
      let c := (start + Z.of_nat i * p)%Z in
      match snd (cset_add cs0 (mkCnst (CTimeRange [(c - tol, c + tol)%Z]) 1)) with
      | Ok cs => add_ranges (set_cs h a cs) cs0 start p tol (S i) t
      | Err e => (h, Some e)
      end
  end.

(** obsblocks.py 434-500, [periodic_observation] of an ObsBlock. *)
Definition periodic (h : heap) (a : nat) (start stop p tol : Z) (cap : option Z) : heap * res value :=
  match repetitions (stop - start) p cap with
  | Err e => (h, Err e)
  | Ok n =>
      let r := deepcopies h a (Z.to_nat n) in
      match add_ranges (fst r) (cs_of h a) start p tol 0 (snd r) with
      | (h', Some e) => (h', Err e)
      | (h', None) => py_sum h' (map VRef (snd r))
      end
  end.

(** ** Overlap test *)

(** obsblocks.py 1005-1010 and schedule.py 194-199, [is_within]: sums and
    products of booleans. *)
Definition is_within (tmin tmax start stop : Z) : bool :=
  ((start <=? tmin) && (tmax <? stop)
   || (tmin <? start) && (start <? tmax) && (tmax <? stop)
   || (stop <? tmax) && (start <? tmin) && (tmin <? stop)
   || (tmin <? start) && (stop <? tmax))%Z.

(** ** Insertion in a schedule *)

(** The heap, the schedule and its attribute [reserved_blocks]. *)
Record world := mkWorld { w_heap : heap; w_sched : sched; w_res : option nat }.

Definition is_obs (h : heap) (r : nat) : bool :=
  match nth_error h r with Some o => match o_data o with PObs _ _ _ _ _ => true | _ => false end | None => false end.
Definition is_res (h : heap) (r : nat) : bool :=
  match nth_error h r with Some o => match o_data o with PRes _ _ => true | _ => false end | None => false end.

(** schedule.py 406-430, [ScheduleBlocks.insert]: the score of the constraints
    is given by [score]; [_idxCounter] is the number of blocks. *)
Definition push_obs (score : cset -> list Q) (h : heap) (st : sched) (refs : list nat) : sched :=
  set_blocks st
    (fold_left (fun bs r =>
       match nth_error h r with
       | Some o =>
           match o_data o with
           | PObs _ _ dur delay cs => bs ++ [new_blk (sc_dt st) (length bs) dur delay (score cs)]
           | _ => bs
           end
       | None => bs
       end) refs (sc_blocks st)).

(** schedule.py 858-859: the reservations of the elements, up to the first
    one that raises. *)
Definition span_of (h : heap) (r : nat) : Z * Z :=
  match nth_error h r with
  | Some o => match o_data o with PRes a b => (a, b) | _ => (0, 0)%Z end
  | None => (0, 0)%Z
  end.
Definition reserve (h : heap) (st : sched) (refs : list nat) : sched * option err :=
  let r := insert_reserved (mkSlots (sc_starts st) (sc_stops st) (sc_free st)) (map (span_of h) refs) in
  (set_free st (sl_free (fst r)), snd r).

(** schedule.py 850-868: one argument.  A number is not iterable. *)
Definition insert_one (score : cset -> list Q) (w : world) (v : value) : world * option err :=
  match v with
  | VRef a =>
      let h := w_heap w in
      let refs := refs_of h a in
      if forallb (is_obs h) refs then
        (mkWorld h (push_obs score h (w_sched w) refs) (w_res w), None)
      else if forallb (is_res h) refs then
        match reserve h (w_sched w) refs with
        | (st, Some e) => (mkWorld h st (w_res w), Some e)
        | (st, None) =>
            match w_res w with
            | None => (mkWorld h st (Some a), None)
            | Some r =>
                let x := new_block h (refs_of h r ++ refs) in
                (mkWorld (fst x) st (Some (snd x)), None)
            end
        end
      else (w, Some EException)
  | _ => (w, Some ETypeError)
  end.

Fixpoint insert_args (score : cset -> list Q) (w : world) (l : list value) : world * option err :=
  match l with
  | [] => (w, None)
  | v :: t =>
      match insert_one score w v with
      | (w', None) => insert_args score w' t
      | (w', Some e) => (w', Some e)
      end
  end.

(** schedule.py 820-871, [insert]: [_toSchedule] is only renewed at the end. *)
Definition insert (score : cset -> list Q) (w : world) (l : list value) : world * option err :=
  match insert_args score w l with
  | (w', None) =>
      (mkWorld (w_heap w') (set_todo (w_sched w') (repeat true (length (sc_blocks (w_sched w'))))) (w_res w'), None)
  | r => r
  end.
