(** Property theorems: heuristic booking (C06 to C12, C22, C57, C58).
    [reachable] covers every session of insertions, reservations and bookings
    on a new schedule. *)
From Coq Require Import List Arith ZArith QArith Bool.
From Verif Require Import Base M_Slots M_Sched P_Slots P_Booking P_Book P_Book2 P_Book3.
Import ListNotations.
Open Scope nat_scope.

(** A session used by the examples: ten slots, a reservation of slots 4 and 5,
    three blocks of two, three and one slots. *)
Definition demo_day := repeat false 10.
Definition demo_p := mkParams true (1#10) None None false.
Definition demo_ops : list sop :=
  [ SReserve 4 6;
    SInsert [ (2%Z, None, repeat (1#2)%Q 10);
              (3%Z, None, [0;0;0;0;0;0;1;1;1;1]%Q);
              (1%Z, None, [0;1;0;0;0;0;0;0;0;0]%Q) ];
    SBook demo_p ONone ].
Definition demo_run (ops : list sop) : sched :=
  match new_sched 0 10 1 1%Q demo_day demo_day with
  | Ok st => srun st ops
  | Err _ => mkSched 0 0%Q [] [] [] [] [] [] [] [] []
  end.

Lemma demo_reachable : forall ops, Forall op_nonneg ops -> reachable (demo_run ops).
Proof.
  intros ops F. exists 0%Z, 10%Z, 1%Z, 1%Q, demo_day, demo_day.
  unfold demo_run. destruct (new_sched 0 10 1 1%Q demo_day demo_day) as [st|e] eqn:E;
    [|vm_compute in E; discriminate].
  exists st, ops. repeat split; assumption.
Qed.

Lemma demo_nonneg : Forall op_nonneg demo_ops.
Proof.
  repeat constructor. intros x H q Q.
  repeat (destruct H as [<-|H]; [simpl in Q; repeat (destruct Q as [<-|Q]; [discriminate|]); destruct Q|]).
  destruct H.
Qed.

(** C06: booked blocks never share a slot. *)
Theorem C06_no_double_booking : forall st, reachable st -> no_overlap (sc_blocks st).
Proof. exact no_double_booking. Qed.
Print Assumptions C06_no_double_booking.

Example C06_ex : reachable (demo_run demo_ops) /\
  map bk_start (sc_blocks (demo_run demo_ops)) = [Some 0; Some 6; None].
Proof. split; [exact (demo_reachable _ demo_nonneg)|vm_compute; reflexivity]. Qed.

(** C07: in any reachable state a booked block occupies the number of slots
    required by its duration, inside the schedule, on slots no longer free. *)
Theorem C07_booked_inside : forall st, reachable st ->
  forall i b s, nth_error (sc_blocks st) i = Some b -> bk_start b = Some s ->
    0 < bk_nslots b /\ s + bk_nslots b <= sc_size st /\
    bk_nslots b = Z.to_nat (cdiv (bk_dur b) (sc_dt st)) /\
    forall k, s <= k < s + bk_nslots b -> ~ slot_free (sc_free st) k.
Proof. exact booked_inside. Qed.
Print Assumptions C07_booked_inside.

(** C07: a block booked by the call uses slots that were free before the call
    (or given back by its reset), and its times are those of its slots. *)
Theorem C07_booking_respects_reservations : forall p o st, reachable st ->
  forall i b s, nth_error (sc_blocks (fst (book p o st))) i = Some b -> bk_start b = Some s ->
    ~ kept_booking p st i ->
    s + bk_nslots b <= sc_size st /\ 0 < bk_nslots b /\
    (forall k, s <= k < s + bk_nslots b -> base_free p st k) /\
    bk_time b = Some (nth s (sc_starts st) 0%Z, nth (s + bk_nslots b - 1) (sc_stops st) 0%Z).
Proof. exact booking_respects. Qed.
Print Assumptions C07_booking_respects_reservations.

(** C07: without reset, blocks that are already booked are left as they are. *)
Theorem C07_booking_keeps_others : forall p o st, reachable st ->
  forall i, kept_booking p st i ->
  nth_error (sc_blocks (fst (book p o st))) i = nth_error (sc_blocks st) i.
Proof. exact booking_keeps. Qed.
Print Assumptions C07_booking_keeps_others.

Example C07_ex : let st := demo_run (firstn 2 demo_ops) in
  let p := mkParams false 0 None None false in
  snd (book p ONone st) = None /\
  map bk_start (sc_blocks (fst (book p ONone st))) = [Some 0; Some 6; None] /\
  map (fun k => nth k (sc_free st) false) [3; 4; 5; 6] = [true; false; false; true] /\
  kept_booking p (fst (book p ONone st)) 1.
Proof.
  cbv zeta. repeat split; try (vm_compute; reflexivity).
  eexists; split; [vm_compute; reflexivity|discriminate].
Qed.

(** C08: free after the call exactly when usable before and not covered by a
    block the call has booked. *)
Theorem C08_every_slot_accounted : forall p o st, reachable st -> forall k,
  slot_free (sc_free (fst (book p o st))) k <->
  base_free p st k /\
  forall i b, nth_error (sc_blocks (fst (book p o st))) i = Some b -> ~ kept_booking p st i -> ~ covers b k.
Proof. exact booking_accounts. Qed.
Print Assumptions C08_every_slot_accounted.

Example C08_ex : sc_free (demo_run demo_ops)
  = [false; false; true; true; false; false; false; false; false; true].
Proof. vm_compute; reflexivity. Qed.

(** C09: each iteration of the loop books its block at the earliest best
    admissible start, or there is none with a positive score reaching
    [minimal_score]. *)
Theorem C09_best_start : forall p o st st2 pre i post b, reachable st ->
  book_prepare p st = (st2, true, None) ->
  visit (length (sc_blocks st2)) o = Ok (pre ++ i :: post) ->
  let g := greedy p st2 pre in
  nth_error (g_blocks g) i = Some b -> nth i (sc_todo st2) false = true -> bk_start b = None ->
  (exists s c, nth_error (sc_blocks (fst (book p o st))) i = Some c /\ bk_start c = Some s /\
     same_block b c /\ bk_nslots c = bk_nslots b /\
     admissible st2 g b s /\
     (0 < weighted_score p st2 g b s)%Q /\ (bp_min p <= weighted_score p st2 g b s)%Q /\
     (forall s', admissible st2 g b s' ->
        (weighted_score p st2 g b s' <= weighted_score p st2 g b s)%Q) /\
     (forall s', s' < s -> admissible st2 g b s' ->
        (weighted_score p st2 g b s' < weighted_score p st2 g b s)%Q)) \/
  (greedy p st2 (pre ++ [i]) = g /\
   forall s, admissible st2 g b s -> (0 < weighted_score p st2 g b s)%Q ->
     (weighted_score p st2 g b s < bp_min p)%Q).
Proof. exact booking_choice. Qed.
Print Assumptions C09_best_start.

(** C09: a block dropped before the loop has a null score everywhere it would
    be admissible. *)
Theorem C09_rejected_has_no_start : forall p st st2 go i b,
  sizes_ok st -> nonneg_scores (sc_blocks st) -> book_prepare p st = (st2, go, None) ->
  bp_strict p = false ->
  nth_error (sc_blocks st2) i = Some b ->
  nth i (sc_todo st) false = true -> nth i (sc_todo st2) false = false ->
  forall s, s + bk_nslots b < sc_size st -> window_free (sc_free st2) s (bk_nslots b) ->
    (window_mean (bk_score b) s (bk_nslots b) == 0)%Q.
Proof. exact rejected_reason. Qed.
Print Assumptions C09_rejected_has_no_start.

Example C09_ex : let st := demo_run (firstn 2 demo_ops) in
  exists st2 b, book_prepare demo_p st = (st2, true, None) /\
    visit (length (sc_blocks st2)) ONone = Ok ([0] ++ 1 :: [2]) /\
    nth_error (g_blocks (greedy demo_p st2 [0])) 1 = Some b /\
    nth 1 (sc_todo st2) false = true /\ bk_start b = None.
Proof.
  cbv zeta. eexists _, _. split; [vm_compute; reflexivity|].
  split; [vm_compute; reflexivity|]. split; [vm_compute; reflexivity|]. now split.
Qed.

(** C10: two delayed blocks booked by the same call are separated by the delay
    of one of them... *)
Theorem C10_delays_keep_apart : forall p o st st2 l i j b c, reachable st ->
  book_prepare p st = (st2, true, None) -> visit (length (sc_blocks st2)) o = Ok l ->
  (forall k, (0 <= nth k (sc_proc st2) 0)%Z) ->
  i <> j -> ~ kept_booking p st i -> ~ kept_booking p st j ->
  nth_error (sc_blocks (fst (book p o st))) i = Some b ->
  nth_error (sc_blocks (fst (book p o st))) j = Some c ->
  is_booked b = true -> is_booked c = true -> bk_ndelay b <> 0 -> bk_ndelay c <> 0 ->
  apart b c (bk_ndelay b) \/ apart c b (bk_ndelay c).
Proof. exact booking_apart. Qed.
Print Assumptions C10_delays_keep_apart.

(** ... and it is the one that was booked first. *)
Theorem C10_first_booked_delay : forall p o st st2 pre post i j b c, reachable st ->
  book_prepare p st = (st2, true, None) ->
  visit (length (sc_blocks st2)) o = Ok (pre ++ post) ->
  (forall k, (0 <= nth k (sc_proc st2) 0)%Z) ->
  newly (sc_blocks st2) (g_blocks (greedy p st2 pre)) i b ->
  (forall c0, nth_error (g_blocks (greedy p st2 pre)) j = Some c0 -> bk_start c0 = None) ->
  newly (sc_blocks st2) (sc_blocks (fst (book p o st))) j c ->
  bk_ndelay b <> 0 -> bk_ndelay c <> 0 ->
  nth_error (sc_blocks (fst (book p o st))) i = Some b /\ apart b c (bk_ndelay b).
Proof. exact booking_apart_order. Qed.
Print Assumptions C10_first_booked_delay.

Definition delay_ops : list sop :=
  [ SInsert [ (2%Z, Some 2%Z, repeat 1%Q 10); (1%Z, Some 1%Z, repeat 1%Q 10) ] ].

Example C10_ex : let st := demo_run delay_ops in
  exists st2, book_prepare demo_p st = (st2, true, None) /\
    (forall k, (0 <= nth k (sc_proc st2) 0)%Z) /\
    map bk_start (sc_blocks (fst (book demo_p ONone st))) = [Some 0; Some 4].
Proof.
  cbv zeta. eexists. split; [vm_compute; reflexivity|]. split; [|vm_compute; reflexivity].
  intros k. do 10 (destruct k; [discriminate|]). destruct k; discriminate.
Qed.

(** C10 does not extend to a schedule that is booked again: the counters left
    by the reset can be negative, and a delayed block is then placed right
    beside another one. *)
Definition rebook_ops : list sop :=
  [ SInsert [ (1%Z, Some 1%Z, [1#2;0;1;0;0;0;0;0;0;0]%Q) ];
    SBook demo_p ONone;
    SInsert [ (1%Z, Some 1%Z, [0;1;0;0;0;0;0;0;0;0]%Q) ] ].

Theorem C10_after_reset_refuted : exists p o st b c,
  reachable st /\ bp_reset p = true /\ snd (book p o st) = None /\
  sc_blocks (fst (book p o st)) = [b; c] /\
  bk_ndelay b = 1 /\ bk_ndelay c = 1 /\
  bk_start b = Some 0 /\ bk_nslots b = 1 /\ bk_start c = Some 1.
Proof.
  exists demo_p, (OIndices [1; 0]%Z), (demo_run rebook_ops). eexists _, _.
  split.
  { apply demo_reachable. repeat constructor; intros x [<-|[]] q Q; simpl in Q;
      repeat (destruct Q as [<-|Q]; [discriminate|]); destruct Q. }
  split; [reflexivity|]. split; [vm_compute; reflexivity|]. split; [vm_compute; reflexivity|].
  repeat split.
Qed.
Print Assumptions C10_after_reset_refuted.

(** C11: after the reset made by book(), no block is booked and a slot is free
    exactly when no reservation of the session meets it, provided no
    reservation was put on a slot in use. *)
Theorem C11_reset_gives_back : forall tmin tmax dt hour day night st0 ops k,
  new_sched tmin tmax dt hour day night = Ok st0 ->
  Forall op_nonneg ops -> safe_session st0 ops -> k < sc_size st0 ->
  let st := srun st0 ops in
  (slot_free (sc_free (reset_bookings st)) k <->
   forall o, In o ops -> ~ res_meets st0 k o) /\
  (forall b, In b (sc_blocks (reset_bookings st)) -> bk_start b = None).
Proof. exact reset_session. Qed.
Print Assumptions C11_reset_gives_back.

Example C11_ex : exists st0, new_sched 0 10 1 1%Q demo_day demo_day = Ok st0 /\
  Forall op_nonneg demo_ops /\ safe_session st0 demo_ops /\
  ~ slot_free (sc_free (srun st0 demo_ops)) 7 /\
  slot_free (sc_free (reset_bookings (srun st0 demo_ops))) 7.
Proof.
  eexists. split; [vm_compute; reflexivity|]. split; [exact demo_nonneg|].
  split; [|split; [vm_compute; discriminate|vm_compute; reflexivity]].
  repeat split.
  - intros k b [].
  - intros k b [].
  - intros k b _ _ H. exact H.
Qed.

(** C11: a reservation inserted over a booked block is erased by the reset. *)
Theorem C11_reservation_over_booking_refuted : exists st a b k,
  reachable st /\ (a < nth k (sc_stops st) 0 /\ nth k (sc_starts st) 0 < b)%Z /\
  snd (insert_res st a b) = None /\
  ~ slot_free (sc_free (fst (insert_res st a b))) k /\
  slot_free (sc_free (reset_bookings (fst (insert_res st a b)))) k.
Proof.
  exists (demo_run demo_ops), 7%Z, 8%Z, 7. split; [exact (demo_reachable _ demo_nonneg)|].
  split; [split; vm_compute; reflexivity|]. split; [vm_compute; reflexivity|].
  split; [vm_compute; discriminate|vm_compute; reflexivity].
Qed.
Print Assumptions C11_reservation_over_booking_refuted.

(** C11: the processing counters are not restored by the reset. *)
Theorem C11_processing_not_restored_refuted : exists st st',
  reachable st /\ (forall k, nth k (sc_proc st) 0%Z = 0%Z) /\
  st' = fst (book demo_p ONone st) /\
  nth 0 (sc_proc (reset_bookings st')) 0%Z = (-1)%Z.
Proof.
  exists (demo_run [ SInsert [ (1%Z, Some 1%Z, [0;0;1;0;0;0;0;0;0;0]%Q) ] ]). eexists.
  split.
  { apply demo_reachable. repeat constructor; intros x [<-|[]] q Q; simpl in Q;
      repeat (destruct Q as [<-|Q]; [discriminate|]); destruct Q. }
  split; [|split; [reflexivity|vm_compute; reflexivity]].
  intros k. do 10 (destruct k; [reflexivity|]). destruct k; reflexivity.
Qed.
Print Assumptions C11_processing_not_restored_refuted.

(** C12: without delays, booking again changes nothing. *)
Theorem C12_rebook_idempotent : forall p o st st1, reachable st -> bp_reset p = true ->
  (forall b, In b (sc_blocks st) -> bk_ndelay b = 0) ->
  book p o st = (st1, None) -> book p o st1 = (st1, None).
Proof. exact rebook_session. Qed.
Print Assumptions C12_rebook_idempotent.

Example C12_ex : exists st1, book demo_p ONone (demo_run (firstn 2 demo_ops)) = (st1, None) /\
  bk_start (nth 1 (sc_blocks st1) (mkBlk 0 0 0 [] 0 None None)) = Some 6 /\
  forall b, In b (sc_blocks (demo_run (firstn 2 demo_ops))) -> bk_ndelay b = 0.
Proof.
  eexists. split; [vm_compute; reflexivity|]. split; [reflexivity|].
  vm_compute. intros b H. repeat (destruct H as [<-|H]; [reflexivity|]). destruct H.
Qed.

(** With a delay the second call may book differently. *)
Theorem C12_delays_refuted : exists p o st st1 st2,
  reachable st /\ bp_reset p = true /\ book p o st = (st1, None) /\ book p o st1 = (st2, None) /\
  map bk_start (sc_blocks st1) = [Some 0] /\ map bk_start (sc_blocks st2) = [Some 5].
Proof.
  exists demo_p, ONone, (demo_run [ SInsert [ (1%Z, Some 1%Z, [1;0;0;0;0;1#2;0;0;0;0]%Q) ] ]).
  eexists _, _. split.
  { apply demo_reachable. repeat constructor; intros x [<-|[]] q Q; simpl in Q;
      repeat (destruct Q as [<-|Q]; [discriminate|]); destruct Q. }
  split; [reflexivity|]. split; [vm_compute; reflexivity|]. split; [vm_compute; reflexivity|].
  now split.
Qed.
Print Assumptions C12_delays_refuted.

(** C22: the last possible start is never used. *)
Theorem C22_last_start_never_used : forall p o st, reachable st ->
  forall i b s, nth_error (sc_blocks (fst (book p o st))) i = Some b -> bk_start b = Some s ->
    s + bk_nslots b < sc_size st.
Proof. exact not_last. Qed.
Print Assumptions C22_last_start_never_used.

Theorem C22_full_length_never_booked : forall p o st, reachable st ->
  forall i b, nth_error (sc_blocks (fst (book p o st))) i = Some b ->
    sc_size st <= bk_nslots b -> bk_start b = None.
Proof. exact full_length_never. Qed.
Print Assumptions C22_full_length_never_booked.

Example C22_ex : let st := demo_run [ SInsert [ (10%Z, None, repeat 1%Q 10); (9%Z, None, repeat 1%Q 10) ] ] in
  map bk_start (sc_blocks (fst (book demo_p ONone st))) = [None; Some 0].
Proof. vm_compute; reflexivity. Qed.

(** C57: with [very_strict] a block is considered exactly when it has as many
    consecutive admissible starts of positive score as it has slots. *)
Theorem C57_very_strict_requires : forall p st st2 go, reachable st -> bp_strict p = true ->
  book_prepare p st = (st2, go, None) -> go = true ->
  forall i b, nth_error (sc_blocks st2) i = Some b -> nth i (sc_todo st2) false = true ->
  exists s, s + bk_nslots b <= sc_size st /\
    forall j, j < bk_nslots b ->
      s + j + bk_nslots b < sc_size st /\
      window_free (sc_free st2) (s + j) (bk_nslots b) /\
      (0 < window_mean (bk_score b) (s + j) (bk_nslots b))%Q.
Proof. exact strict_session. Qed.
Print Assumptions C57_very_strict_requires.

Theorem C57_very_strict_keeps : forall p st st2, reachable st ->
  book_prepare p st = (st2, true, None) ->
  forall i b s, nth_error (sc_blocks st2) i = Some b -> nth i (sc_todo st) false = true ->
  (forall j, j < bk_nslots b ->
      s + j + bk_nslots b < sc_size st /\
      window_free (sc_free st2) (s + j) (bk_nslots b) /\
      (0 < window_mean (bk_score b) (s + j) (bk_nslots b))%Q) ->
  nth i (sc_todo st2) false = true.
Proof. exact strict_keeps. Qed.
Print Assumptions C57_very_strict_keeps.

Example C57_ex : let p := mkParams true (1#10) None None true in
  let st := demo_run (firstn 2 demo_ops) in
  exists st2, book_prepare p st = (st2, true, None) /\ sc_todo st2 = [true; false; true].
Proof. eexists; split; vm_compute; reflexivity. Qed.

(** C58: a block once found unschedulable is not booked by later calls until
    an insertion. *)
Theorem C58_rejected_stays_rejected : forall p o st i, reachable st ->
  nth i (sc_todo st) false = false ->
  nth i (sc_todo (fst (book p o st))) false = false /\
  forall b, nth_error (sc_blocks (fst (book p o st))) i = Some b -> ~ kept_booking p st i ->
    bk_start b = None.
Proof. exact rejected_stay. Qed.
Print Assumptions C58_rejected_stays_rejected.

Theorem C58_insertion_reconsiders : forall st l i, i < length (sc_blocks (insert_obs st l)) ->
  nth i (sc_todo (insert_obs st l)) false = true.
Proof. exact insert_restores. Qed.
Print Assumptions C58_insertion_reconsiders.

(** A block rejected by a call with [very_strict] is not booked by the next
    call without it, although it would be in a new schedule. *)
Theorem C58_sticky_rejection_refuted : exists p q st st1 st2 st3,
  reachable st /\ bp_strict p = true /\ bp_strict q = false /\
  book p ONone st = (st1, None) /\ book q ONone st1 = (st2, None) /\ book q ONone st = (st3, None) /\
  map bk_start (sc_blocks st2) = [Some 0; None; None] /\
  map bk_start (sc_blocks st3) = [Some 0; Some 6; None].
Proof.
  exists (mkParams true (1#10) None None true), demo_p, (demo_run (firstn 2 demo_ops)).
  eexists _, _, _. split.
  { apply demo_reachable. pose proof demo_nonneg as H. inversion H; subst. inversion H3; subst.
    repeat constructor; assumption. }
  split; [reflexivity|]. split; [reflexivity|].
  split; [vm_compute; reflexivity|]. split; [vm_compute; reflexivity|].
  split; [vm_compute; reflexivity|]. now split.
Qed.
Print Assumptions C58_sticky_rejection_refuted.
