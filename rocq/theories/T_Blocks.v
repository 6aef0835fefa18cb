(** Property theorems: observation blocks and their insertion (C21, C24, C25,
    C26). *)
From Coq Require Import List Arith ZArith QArith Bool.
From Verif Require Import Base M_Slots M_Sched M_Cnst M_Blocks P_Booking P_Book P_Cnst2 P_Cnst3 P_Session P_Blocks P_Blocks2 P_Insert.
Import ListNotations.
Open Scope nat_scope.

(** C24: the overlap test, with its two exceptions. *)
Theorem C24_overlap : forall tmin tmax start stop, (tmin < tmax)%Z -> (start < stop)%Z ->
  (is_within tmin tmax start stop = true <->
   (exists t, tmin <= t < tmax /\ start <= t < stop)%Z /\
   tmax <> stop /\ ~ (tmin = start /\ stop < tmax)%Z).
Proof. exact is_within_spec. Qed.
Print Assumptions C24_overlap.

Example C24_ex : is_within 2 5 0 10 = true /\ is_within 2 10 0 10 = false /\ is_within 0 12 0 10 = false /\
  is_within (-1) 12 0 10 = true /\ is_within 10 12 0 10 = false.
Proof. repeat split. Qed.

(** C25: an addition is a new collection of the same elements, in order, and
    numbers them when they are distinct.  Nothing else changes than these
    numbers. *)
Theorem C25_add : forall h a b la lb, breach h -> elements h a la -> elements h b lb ->
  exists h' c, py_plus h (VRef a) (VRef b) = (h', Ok (VRef c)) /\ breach h' /\
    ~ c < length h /\ elements h' c (la ++ lb) /\
    same_but (fun r => In r (la ++ lb)) h h' /\ (NoDup (la ++ lb) -> numbered h' (la ++ lb)).
Proof. exact add_law. Qed.
Print Assumptions C25_add.

(** C25: additions are associative, up to the collection objects. *)
Theorem C25_add_assoc : forall h a b c la lb lc, breach h -> elements h a la -> elements h b lb -> elements h c lc ->
  exists h1 x h2 y h3 z h4 t,
    py_plus h (VRef a) (VRef b) = (h1, Ok (VRef x)) /\ py_plus h1 (VRef x) (VRef c) = (h2, Ok (VRef y)) /\
    py_plus h (VRef b) (VRef c) = (h3, Ok (VRef z)) /\ py_plus h3 (VRef a) (VRef z) = (h4, Ok (VRef t)) /\
    elements h2 y (la ++ lb ++ lc) /\ elements h4 t (la ++ lb ++ lc) /\
    forall r, In r (la ++ lb ++ lc) -> exists o o', nth_error h2 r = Some o /\ nth_error h4 r = Some o' /\
      o_data o = o_data o' /\ o_refs o = o_refs o' /\ o_idx o = o_idx o'.
Proof. exact add_assoc_law. Qed.
Print Assumptions C25_add_assoc.

(** C25: other operands. *)
Theorem C25_add_errors : forall h a v, (forall b, v <> VRef b) ->
  py_plus h (VRef a) v = (h, Err ETypeError) /\
  (v = VInt 0 -> py_plus h v (VRef a) = (h, Ok (VRef a))) /\
  (v <> VInt 0 -> py_plus h v (VRef a) = (h, Err ETypeError)).
Proof. exact add_type_error. Qed.
Print Assumptions C25_add_errors.

(** C25: a product holds [n] copies of each element, consecutively; the copies
    are new objects, numbered in order, and the operand does not change. *)
Theorem C25_mul : forall h a l n, breach h -> elements h a l ->
  exists h' c l', mul h a n = (h', c) /\ breach h' /\ ~ c < length h /\
    elements h' c l' /\ length l' = length l * Z.to_nat n /\
    NoDup l' /\ (forall r, In r l' -> length h <= r) /\ numbered h' l' /\
    same_but (fun _ => False) h h' /\
    (forall i k, i < length l -> k < Z.to_nat n ->
       exists r o r' o', nth_error l i = Some r /\ nth_error h r = Some o /\
         nth_error l' (i * Z.to_nat n + k) = Some r' /\ nth_error h' r' = Some o' /\
         o_data o' = o_data o /\ o_refs o' = o_refs o).
Proof. exact mul_law. Qed.
Print Assumptions C25_mul.

(** C25: the sum of a list of blocks. *)
Theorem C25_sum : forall h a l ls, breach h -> Forall2 (elements h) (a :: l) ls ->
  exists h' c, py_sum h (map VRef (a :: l)) = (h', Ok (VRef c)) /\ breach h' /\
    elements h' c (concat ls) /\ same_but (fun r => In r (concat ls)) h h' /\
    (l <> [] -> ~ c < length h /\ (NoDup (concat ls) -> numbered h' (concat ls))) /\
    (l = [] -> h' = h /\ c = a).
Proof. exact sum_law. Qed.
Print Assumptions C25_sum.

(** C25: the sum of an empty list is the number 0; the reduction used to read
    bookings raises. *)
Theorem C25_sum_empty : forall h, py_sum h [] = (h, Ok (VInt 0)) /\ py_reduce h [] = (h, Err ETypeError).
Proof. exact sum_empty. Qed.
Print Assumptions C25_sum_empty.

(** C25: reading an element. *)
Theorem C25_getitem : forall h a l n, elements h a l ->
  (0 <= n < Z.of_nat (length l) -> exists r, nth_error l (Z.to_nat n) = Some r /\ getitem h a n = Ok r)%Z /\
  (- Z.of_nat (length l) <= n < 0 -> exists r, nth_error l (length l - Z.to_nat (- n)) = Some r /\ getitem h a n = Ok r)%Z /\
  (~ (- Z.of_nat (length l) <= n < Z.of_nat (length l)) -> getitem h a n = Err EIndexError)%Z.
Proof. exact getitem_law. Qed.
Print Assumptions C25_getitem.

(** C25: selecting elements. *)
Theorem C25_get : forall h a l test, breach h -> elements h a l ->
  (forall r o, In r l -> nth_error h r = Some o -> exists b, test o = Ok b) ->
  exists h' c l', get h a 1 test = (h', Ok c) /\ breach h' /\ ~ c < length h /\ elements h' c l' /\
    l' = filter (fun r => match nth_error h r with
                          | Some o => match test o with Ok b => b | Err _ => false end
                          | None => false end) l /\
    same_but (fun r => In r l') h h' /\ (NoDup l -> numbered h' l').
Proof. exact get_law. Qed.
Print Assumptions C25_get.

Theorem C25_get_keywords : forall h a n test, n <> 1 -> get h a n test = (h, Err EValueError).
Proof. exact get_keywords. Qed.
Print Assumptions C25_get_keywords.

Example C25_ex : breach h_two /\ elements h_two 0 [0] /\ elements h_two 1 [1] /\ NoDup ([0] ++ [1]) /\
  exists h1 x h2 y l, py_plus h_two (VRef 0) (VRef 1) = (h1, Ok (VRef x)) /\ mul h1 x 2 = (h2, y) /\
    elements h2 y l /\ map (fun r => option_map (fun o => (o_data o, o_idx o)) (nth_error h2 r)) l =
      [Some (obs0, Some 0); Some (obs0, Some 1); Some (obs1, Some 2); Some (obs1, Some 3)].
Proof.
  split; [apply h_two_reach|]. split; [eexists; split; reflexivity|]. split; [eexists; split; reflexivity|].
  split; [repeat constructor; cbn; intuition discriminate|].
  do 5 eexists. split; [vm_compute; reflexivity|]. split; [vm_compute; reflexivity|].
  split; [eexists; split; reflexivity|]. vm_compute. reflexivity.
Qed.

(** C25: the numbers are shared with the elements, hence not always 0..n-1: the
    same block twice... *)
Theorem C25_numbered_refuted : exists h' c, py_plus h_two (VRef 0) (VRef 0) = (h', Ok (VRef c)) /\
  elements h' c [0; 0] /\ (exists o, nth_error h' 0 = Some o /\ o_idx o = Some 1) /\ ~ numbered h' [0; 0].
Proof. exact add_twice. Qed.
Print Assumptions C25_numbered_refuted.

(** ... or a later addition. *)
Theorem C25_stays_numbered_refuted : exists h1 x h2 y,
  py_plus h_two (VRef 0) (VRef 1) = (h1, Ok (VRef x)) /\ elements h1 x [0; 1] /\ numbered h1 [0; 1] /\
  py_plus h1 (VRef 1) (VRef 0) = (h2, Ok (VRef y)) /\ elements h2 x [0; 1] /\ ~ numbered h2 [0; 1].
Proof. exact add_renumbers. Qed.
Print Assumptions C25_stays_numbered_refuted.

(** C25: an element of a product stands for the block it was copied from: adding
    it adds that block. *)
Theorem C25_copy_refuted : exists h1 x r h2 y,
  mul h_two 0 2 = (h1, x) /\ getitem h1 x 1 = Ok r /\ r <> 0 /\
  py_plus h1 (VRef r) (VRef 1) = (h2, Ok (VRef y)) /\ elements h2 y [0; 1].
Proof. exact copy_is_not_itself. Qed.
Print Assumptions C25_copy_refuted.

(** C26: the number of repetitions: one for each instant before the end, up to
    the maximum. *)
Theorem C26_count : forall start stop p cap, (0 < p)%Z ->
  exists n, repetitions (stop - start) p cap = Ok n /\
    forall i, (0 <= i)%Z -> ((i < n) <-> (start + i * p < stop) /\ match cap with Some m => i < m | None => True end)%Z.
Proof. exact repetitions_spec. Qed.
Print Assumptions C26_count.

Theorem C26_null_period : forall span cap,
  repetitions span 0 cap = Err (if (span =? 0)%Z then EValueError else EOverflowError).
Proof. exact repetitions_zero. Qed.
Print Assumptions C26_null_period.

(** C26: the blocks: as many new blocks, numbered in order, like the original
    one but for an additional window, its constraints being kept. *)
Theorem C26_blocks : forall h a o name prog dur dl cs start stop p tol cap n, breach h ->
  nth_error h a = Some o -> o_data o = PObs name prog dur dl cs -> o_refs o = [a] -> no_range cs ->
  repetitions (stop - start) p cap = Ok n -> (0 < n)%Z ->
  exists h' c l, periodic h a start stop p tol cap = (h', Ok (VRef c)) /\
    elements h' c l /\ length l = Z.to_nat n /\ NoDup l /\ (forall r, In r l -> length h <= r) /\
    same_but (fun _ => False) h h' /\ ((1 < n)%Z -> numbered h' l) /\ (n = 1%Z -> l = [c]) /\
    forall i r, nth_error l i = Some r -> exists cs',
      data_at h' r (PObs name prog dur dl cs') /\ In (window_cnst start p tol i) (cs_list cs') /\
      (forall d, In d (cs_list cs) -> In d (cs_list cs')) /\
      (forall d, In d (cs_list cs') -> d = window_cnst start p tol i \/ In d (cs_list cs) \/ d = default_el).
Proof. exact periodic_law. Qed.
Print Assumptions C26_blocks.

(** C26: the window accepts the slots starting within the tolerance of the
    nominal instant. *)
Theorem C26_window : forall start p tol i time k, k < length time - 1 ->
  exists rs, cn_kind (window_cnst start p tol i) = CTimeRange rs /\
    accepted (range_eval rs time) k (Z.abs (nth k time 0 - (start + Z.of_nat i * p)) <= tol)%Z.
Proof. exact window_slots. Qed.
Print Assumptions C26_window.

(** C26: and a block that has it scores zero everywhere else. *)
Theorem C26_elsewhere : forall cs start p tol i tg ck ns sun sun' rows score k,
  In (window_cnst start p tol i) cs ->
  evaluate cs tg ck ns sun = (sun', Ok (rows, score)) -> k < length score ->
  ~ (Z.abs (nth k (ck_time ck) 0 - (start + Z.of_nat i * p)) <= tol)%Z -> nth k score 0%Q = 0%Q.
Proof. exact window_score. Qed.
Print Assumptions C26_elsewhere.

(** C26: without any instant the result is the number 0; a block that has a
    time range is refused. *)
Theorem C26_none : forall h a start stop p tol cap n,
  repetitions (stop - start) p cap = Ok n -> (n <= 0)%Z ->
  periodic h a start stop p tol cap = (h, Ok (VInt 0)).
Proof. exact periodic_none. Qed.
Print Assumptions C26_none.

Theorem C26_refused : forall h a o name prog dur dl cs start stop p tol cap n, breach h ->
  nth_error h a = Some o -> o_data o = PObs name prog dur dl cs -> ~ no_range cs ->
  repetitions (stop - start) p cap = Ok n -> (0 < n)%Z ->
  snd (periodic h a start stop p tol cap) = Err EValueError.
Proof. exact periodic_refused. Qed.
Print Assumptions C26_refused.

Example C26_ex : breach h_two /\
  nth_error h_two 0 = Some (mkObj obs0 (Some 0) [0]) /\ no_range (mkCset [default_el] true) /\
  repetitions (25 - 0) 10 None = Ok 3%Z /\ repetitions (25 - 0) 10 (Some 2%Z) = Ok 2%Z /\
  repetitions (20 - 0) 10 None = Ok 2%Z /\ repetitions (0 - 5) 10 None = Ok 0%Z.
Proof.
  split; [apply h_two_reach|]. split; [reflexivity|]. split; [|repeat split].
  intros c [<-|[]] rs. discriminate.
Qed.

(** C26: an element of a product ([o_refs o] is not itself) loses the windows:
    the blocks returned are copies of the block it was copied from. *)
Theorem C26_copy_refuted : exists h1 x r h2 y l,
  mul h_two 0 2 = (h1, x) /\ getitem h1 x 0 = Ok r /\
  periodic h1 r 0 20 10 1 None = (h2, Ok (VRef y)) /\ elements h2 y l /\ length l = 2 /\
  forall q, In q l -> data_at h2 q obs0.
Proof. exact periodic_of_copy. Qed.
Print Assumptions C26_copy_refuted.

(** C21: after any insertions, successful or not, the blocks are numbered in
    order and the previous ones are the same. *)
Theorem C21_numbering : forall score w w', insertions score w w' -> numbered_blocks (w_sched w) ->
  numbered_blocks (w_sched w') /\
  (forall i b, nth_error (sc_blocks (w_sched w)) i = Some b -> nth_error (sc_blocks (w_sched w')) i = Some b).
Proof. exact numbering. Qed.
Print Assumptions C21_numbering.

(** C21: the blocks of an argument are appended in order. *)
Theorem C21_order : forall score w a refs l w' , breach (w_heap w) -> elements (w_heap w) a refs ->
  obs_of score (w_heap w) refs l -> insert score w [VRef a] = (w', None) ->
  exists new, sc_blocks (w_sched w') = sc_blocks (w_sched w) ++ new /\ length new = length l /\
    forall j dur dl s, nth_error l j = Some (dur, dl, s) -> exists b, nth_error new j = Some b /\
      bk_idx b = length (sc_blocks (w_sched w)) + j /\ bk_dur b = dur /\ bk_score b = s /\ bk_start b = None /\
      bk_nslots b = Z.to_nat (cdiv dur (sc_dt (w_sched w))).
Proof. exact insert_contents. Qed.
Print Assumptions C21_order.

(** C21: a successful call does the same as the elementary insertions and
    reservations of its arguments, one after the other; it is therefore a step
    of the sessions. *)
Theorem C21_refines : forall score w args w', breach (w_heap w) -> Forall (valid_value (w_heap w)) args ->
  (forall r, w_res w = Some r -> r < length (w_heap w)) -> insert score w args = (w', None) ->
  exists opss, Forall2 (arg_ops score (w_heap w)) args opss /\
    w_sched w' = srun (w_sched w) (concat opss ++ [SInsert []]).
Proof. exact insert_refines. Qed.
Print Assumptions C21_refines.

Theorem C21_session : forall score w args w', breach (w_heap w) -> Forall (valid_value (w_heap w)) args ->
  (forall r, w_res w = Some r -> r < length (w_heap w)) -> insert score w args = (w', None) ->
  (forall cs q, In q (score cs) -> (0 <= q)%Q) -> reach3 (w_sched w) -> reach3 (w_sched w').
Proof. exact insert_reach. Qed.
Print Assumptions C21_session.

(** C21: other collections are refused. *)
Theorem C21_mixed : forall score w a refs, elements (w_heap w) a refs ->
  (~ exists l, obs_of score (w_heap w) refs l) -> (~ exists l, spans_of (w_heap w) refs l) ->
  insert score w [VRef a] = (w, Some EException).
Proof. exact insert_mixed. Qed.
Print Assumptions C21_mixed.

(** C21: when an argument is refused the previous ones are inserted but the
    list of blocks to schedule is not renewed. *)
Theorem C21_atomic_refuted : exists st w',
  new_sched 0 10 1 1 [] [] = Ok st /\
  insert (fun _ => []) (mkWorld h_two st None) [VRef 0; VInt 1] = (w', Some ETypeError) /\
  length (sc_blocks (w_sched w')) = 1 /\ length (sc_todo (w_sched w')) = 0.
Proof. do 2 eexists. split; [vm_compute; reflexivity|]. split; [vm_compute; reflexivity|]. split; reflexivity. Qed.
Print Assumptions C21_atomic_refuted.

Example C21_ex : exists st w', new_sched 0 10 1 1 [] [] = Ok st /\ breach h_two /\
  Forall (valid_value h_two) [VRef 1; VRef 0; VRef 1] /\
  insert (fun _ => []) (mkWorld h_two st None) [VRef 1; VRef 0; VRef 1] = (w', None) /\
  map (fun b => (bk_idx b, bk_dur b)) (sc_blocks (w_sched w')) = [(0, 7200%Z); (1, 3600%Z); (2, 7200%Z)].
Proof.
  do 2 eexists. split; [vm_compute; reflexivity|]. split; [apply h_two_reach|].
  split; [repeat constructor|]. split; vm_compute; reflexivity.
Qed.
