(** Property theorems: genetic booking and fine tuning (C13 to C15, C18, C59).
    [reach2] covers every session of insertions, reservations, heuristic
    bookings and successful genetic bookings on a new schedule. *)
From Coq Require Import List Arith ZArith QArith Bool Sorted.
From Verif Require Import Base M_Slots M_Sched M_Genetic P_Slots P_Booking P_Book P_Book2 P_Book3
  P_Genetic P_Genetic2 P_Genetic3 T_Booking P_GenEx.
Import ListNotations.
Open Scope nat_scope.

(** C13: whatever the genome, the sorting and the scores, after a genetic
    booking no two blocks share a slot, each booked block is inside the
    schedule, on slots that were free before the call or given back by its
    reset, and the free slots are those minus the booked ones. *)
Theorem C13_genetic_no_overlap : forall p g sorter m score st st',
  reach2 st -> sorter_in_range sorter ->
  ga_book p g sorter m score st = (st', None) ->
  no_overlap (sc_blocks st') /\
  placed_inside (sc_size st') (sc_blocks st') /\
  (forall i b, nth_error (sc_blocks st') i = Some b -> exists b0,
     nth_error (sc_blocks st) i = Some b0 /\ same_block b0 b /\ bk_nslots b = bk_nslots b0 /\
     forall s, bk_start b = Some s ->
       (kept_booking p st i /\ b = b0) \/
       ((forall k, s <= k < s + bk_nslots b -> base_free p st k) /\
        bk_time b = Some (times_at st s (bk_nslots b)))) /\
  (forall k, slot_free (sc_free st') k <->
     base_free p st k /\ forall b, In b (sc_blocks st') -> ~ covers b k).
Proof. exact genetic_no_overlap. Qed.
Print Assumptions C13_genetic_no_overlap.

(** C13: the guarantee extends to any session mixing both kinds of booking. *)
Theorem C13_mixed_sessions : forall st, reach2 st ->
  no_overlap (sc_blocks st) /\ placed_inside (sc_size st) (sc_blocks st) /\
  forall i b k, nth_error (sc_blocks st) i = Some b -> covers b k -> ~ slot_free (sc_free st) k.
Proof. exact mixed_sessions. Qed.
Print Assumptions C13_mixed_sessions.

(** Three blocks whose genes make the first two overlap: one is removed. *)
Example C13_ex : exists st',
  ga_book demo_p [1; 6; 1] start_order 5 demo_score demo_st = (st', None) /\
  map bk_start (sc_blocks st') = [Some 1; Some 6; None] /\
  sc_free st' = [true; false; false; true; false; false; false; false; false; true].
Proof. eexists. split; [vm_compute; reflexivity|]. split; vm_compute; reflexivity. Qed.

(** C13: an in-range genome fails only when no block can be placed, with a
    [ValueError] from fine tuning, and leaves no block booked. *)
Theorem C13_only_failure : forall p g sorter m score st st2 st' e,
  reach2 st -> book_prepare p st = (st2, true, None) ->
  genome_ok (sc_size st2) (todo_nslots st2) g ->
  (forall bs, tuned st2 (sc_blocks st2) bs -> valid_order bs (sorter bs)) ->
  ga_book p (map Z.to_nat g) sorter m score st = (st', Some e) ->
  e = EValueError /\ (forall b, In b (sc_blocks st') -> bk_start b = None).
Proof. exact genetic_failure. Qed.
Print Assumptions C13_only_failure.

(** The failure exists: every gene falls where the scores are null. *)
Example C13_failure_ex : snd (ga_book demo_p [4; 0; 3] start_order 5 demo_score demo_st) = Some EValueError /\
  genome_ok 10 [2; 3; 1] [4; 0; 3]%Z /\
  exists st2, book_prepare demo_p demo_st = (st2, true, None) /\ todo_nslots st2 = [2; 3; 1] /\
    sc_size st2 = 10.
Proof.
  split; [vm_compute; reflexivity|]. split.
  - repeat constructor; discriminate.
  - eexists. split; [vm_compute; reflexivity|]. split; vm_compute; reflexivity.
Qed.

(** C13: without reset, a block booked earlier is unbooked by the clean-up
    while its slots stay occupied by no block. *)
Theorem C13_kept_bookings_refuted : exists p g st st' i,
  reach2 st /\ bp_reset p = false /\
  ga_book p g start_order 5 demo_score st = (st', None) /\
  kept_booking p st i /\
  (exists b, nth_error (sc_blocks st') i = Some b /\ bk_start b = None) /\
  (exists k, ~ slot_free (sc_free st') k /\ (forall b, In b (sc_blocks st') -> ~ covers b k) /\
     slot_free (sc_free (reset_bookings st)) k).
Proof. exact kept_bookings_lost. Qed.
Print Assumptions C13_kept_bookings_refuted.

(** C14: a block is unbooked by the clean-up only for a conflict, with a
    reservation or with a block that is kept. *)
Theorem C14_removed_for_a_conflict : forall sc f0 bs0, placed_inside (length f0) bs0 ->
  let bs := snd (clean sc f0 bs0) in
  length bs = length bs0 /\
  forall i b, nth_error bs i = Some b ->
    exists b0, nth_error bs0 i = Some b0 /\
      (b = b0 \/
       (b = with_start b0 None /\ exists k, covers b0 k /\
          (~ slot_free f0 k \/ exists j c, j <> i /\ nth_error bs j = Some c /\ covers c k))).
Proof. exact clean_removed. Qed.
Print Assumptions C14_removed_for_a_conflict.

(** C14: of two blocks overlapping each other and nothing else, the one with
    the lower score is kept and the one with the higher score is unbooked. *)
Theorem C14_lower_score_kept : forall sc f0 bs0 i j bi bj k0, placed_inside (length f0) bs0 ->
  nth_error bs0 i = Some bi -> nth_error bs0 j = Some bj ->
  (sc i < sc j)%Q -> covers bi k0 -> covers bj k0 ->
  (forall k, covers bi k -> slot_free f0 k) ->
  (forall l c k, l <> i -> l <> j -> nth_error bs0 l = Some c -> covers bi k -> ~ covers c k) ->
  nth_error (snd (clean sc f0 bs0)) i = Some bi /\
  nth_error (snd (clean sc f0 bs0)) j = Some (with_start bj None).
Proof. exact clean_priority. Qed.
Print Assumptions C14_lower_score_kept.

Definition demo_two := [mkBlk 0 2 0 [] 2 (Some 0) None; mkBlk 1 2 0 [] 2 (Some 1) None].
Example C14_ex :
  map bk_start (snd (clean (fun i => if i =? 0 then 9#10 else 1#10)%Q (repeat true 5) demo_two))
  = [None; Some 1].
Proof. vm_compute. reflexivity. Qed.

(** C15: bounding a genome puts every gene in range, leaves genes already in
    range unchanged and is idempotent. *)
Theorem C15_bounded : forall size ns g, length g = length ns ->
  (forall n, In n ns -> n < size) ->
  genome_ok size ns (bound_genome size ns g) /\
  (genome_ok size ns g -> bound_genome size ns g = g) /\
  bound_genome size ns (bound_genome size ns g) = bound_genome size ns g.
Proof. exact bound_genome_ok. Qed.
Print Assumptions C15_bounded.

(** C15: a gene is moved to the nearest start in range. *)
Theorem C15_nearest : forall size n x y, n < size -> gene_ok size n y ->
  (Z.abs (bound1 size n x - x) <= Z.abs (y - x))%Z.
Proof. exact bound1_nearest. Qed.
Print Assumptions C15_nearest.

(** C15: the blocks to schedule are always shorter than the schedule. *)
Theorem C15_blocks_shorter : forall p st st2, reach2 st ->
  book_prepare p st = (st2, true, None) ->
  forall n, In n (todo_nslots st2) -> n < sc_size st2.
Proof. exact todo_shorter. Qed.
Print Assumptions C15_blocks_shorter.

(** C15: the hypothesis is needed, a block as long as the schedule gets a
    negative start. *)
Theorem C15_long_block_refuted : exists size n x, n <= size /\ (bound1 size n x < 0)%Z.
Proof. exists 5, 5, 0%Z. split; [apply le_n|reflexivity]. Qed.
Print Assumptions C15_long_block_refuted.

(** C15: a mutation gives a genome in range and changes no other gene. *)
Theorem C15_mutation : forall size ns k v g, length g = length ns ->
  (forall n, In n ns -> n < size) -> genome_ok size ns g ->
  genome_ok size ns (mutate size ns k v g) /\
  forall j, j < length ns -> j <> k -> nth j (mutate size ns k v g) 0%Z = nth j g 0%Z.
Proof. exact mutate_spec. Qed.
Print Assumptions C15_mutation.

Example C15_mutation_ex : genome_ok 10 [2; 3] [4; 6]%Z /\ mutate 10 [2; 3] 1 9 [4; 6]%Z = [4; 6]%Z /\
  mutate 10 [2; 3] 0 (-3) [4; 6]%Z = [0; 6]%Z.
Proof. split; [repeat constructor; discriminate|]. split; reflexivity. Qed.

(** C18: fine tuning is a sequence of at most [m] moves, each of one booked
    block by one slot to a strictly better start, inside the schedule and on
    slots free when the scores were computed; it fails only, and then changes
    nothing, when no block is booked. *)
Theorem C18_fine_tuning : forall st sorter, prepared st ->
  (forall bs, tuned st (sc_blocks st) bs -> valid_order bs (sorter bs)) ->
  forall m bs bs' e, tuned st (sc_blocks st) bs ->
  fine_tune st sorter m bs = (bs', e) ->
  exists n, n <= m /\ shifts st n bs bs' /\
    match e with
    | None => n < m -> ft_step st (sorter bs') bs' = FDone
    | Some x => x = EValueError /\ bs' = bs /\ forall b, In b bs -> bk_start b = None
    end.
Proof. exact fine_tune_path. Qed.
Print Assumptions C18_fine_tuning.

(** C18: the hypothesis holds for every genetic booking. *)
Theorem C18_prepared : forall p g st st2, reach2 st -> book_prepare p st = (st2, true, None) ->
  prepared st2 /\
  forall bs, ga_place st2 0 (sc_blocks st2) g = (bs, None) -> tuned st2 (sc_blocks st2) bs.
Proof. exact genetic_prepared. Qed.
Print Assumptions C18_prepared.

(** C18: where fine tuning stops before its limit, a block without delay has
    no better neighbouring start on slots no other block uses. *)
Theorem C18_local_optimum : forall st ord bs, prepared st -> tuned st (sc_blocks st) bs ->
  placed_inside (sc_size st) bs -> no_overlap bs -> valid_order bs ord ->
  ft_step st ord bs = FDone ->
  forall i b s s', nth_error bs i = Some b -> bk_start b = Some s -> bk_ndelay b = 0 ->
    (s' = S s \/ s = S s') ->
    (forall j c k, j <> i -> nth_error bs j = Some c -> s' <= k < s' + bk_nslots b -> ~ covers c k) ->
    (cnst_at st i s' <= cnst_at st i s)%Q.
Proof. exact ft_done_optimal. Qed.
Print Assumptions C18_local_optimum.

(** C18: fine tuning may create an overlap, the second block in time ignores
    the first one. *)
Theorem C18_overlap_refuted : exists st bs bs',
  prepared st /\ tuned st (sc_blocks st) bs /\ no_overlap bs /\
  fine_tune st start_order 10 bs = (bs', None) /\ ~ no_overlap bs'.
Proof. exact fine_tune_overlaps. Qed.
Print Assumptions C18_overlap_refuted.

(** C18: the only block with a delay can never be moved. *)
Theorem C18_lone_delay_fixed : forall st fs i, delayed fs = [i] ->
  (ft_left st fs i == -1)%Q /\ (ft_right st fs i == -1)%Q.
Proof. exact lone_delay_fixed. Qed.
Print Assumptions C18_lone_delay_fixed.

(** C59: the fitness is between 0 and 1, is the mean of the normalised scores
    without overlap, and at most half of it as soon as two blocks overlap. *)
Theorem C59_fitness : forall norm so sd, norm <> [] -> (forall x, In x norm -> (0 <= x <= 1)%Q) ->
  StronglySorted start_le so ->
  (0 <= fitness norm so sd <= 1)%Q /\
  (pairwise clear_of so -> overlap_count sd = 0 ->
     (fitness norm so sd == qsum norm / inject_Z (Z.of_nat (length norm)))%Q) /\
  (~ pairwise clear_of so ->
     (fitness norm so sd <= (1#2) * (qsum norm / inject_Z (Z.of_nat (length norm))))%Q).
Proof. exact fitness_spec. Qed.
Print Assumptions C59_fitness.

Example C59_ex : (fitness [1; 1#2] [(0, 2); (1, 2)]%nat [] == 3#8)%Q /\
  ~ pairwise clear_of [(0, 2); (1, 2)] /\ StronglySorted start_le [(0, 2); (1, 2)].
Proof.
  split; [vm_compute; reflexivity|]. split.
  - intros [X _]. inversion X as [|? ? Y _]; subst. vm_compute in Y. inversion Y as [|? Z]; inversion Z.
  - repeat constructor.
Qed.

(** C59: when every block to schedule has a delay, the delay penalty is null
    exactly when each block ends, with its delay, before the next ones. *)
Theorem C59_delay_penalty_all_delayed : forall starts sel delays ns,
  StronglySorted (fun i j => nth i starts 0 <= nth j starts 0) sel ->
  (overlap_count (delay_extents starts sel delays ns) = 0 <->
   ForallOrdPairs (fun i j => nth i starts 0 + nth i ns 0 + nth i delays 0 <= nth j starts 0) sel).
Proof. exact delay_extents_right. Qed.
Print Assumptions C59_delay_penalty_all_delayed.

Example C59_delay_ex : overlap_count (delay_extents [3; 0] [1; 0] [1; 2] [1; 1]) = 0 /\
  overlap_count (delay_extents [2; 0] [1; 0] [1; 2] [1; 1]) = 1.
Proof. split; reflexivity. Qed.

(** C59: the penalty for delays uses the delays and sizes of other blocks, so
    two delayed blocks that are too close may not be penalised. *)
Theorem C59_delay_penalty_refuted : exists starts sel delays ns,
  (* the delayed blocks are the second and third of three *)
  delays = [0; 5; 5] /\ ns = [1; 1; 1] /\ starts = [0; 3] /\ sel = [0; 1] /\
  overlap_count (delay_extents starts sel delays ns) = 0 /\
  nth 0 starts 0 + nth 1 ns 0 + nth 1 delays 0 > nth 1 starts 0.
Proof.
  exists [0; 3], [0; 1], [0; 5; 5], [1; 1; 1].
  repeat (split; [reflexivity|]). apply Nat.leb_le. reflexivity.
Qed.
Print Assumptions C59_delay_penalty_refuted.
