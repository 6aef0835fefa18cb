(** Property theorems: day and night budgets of the heuristic booking (C60). *)
From Coq Require Import List Arith ZArith QArith Bool.
From Verif Require Import Base M_Slots M_Sched P_Slots P_Booking P_Book P_Book2 P_Book3 P_Budget T_Booking.
Import ListNotations.
Open Scope nat_scope.

(** C60: the score maximised by the booking (C09) is the mean constraint score
    times one minus the fraction of the budget already taken by the call, for
    starts in the day or night; null once the budget is used up. *)
Theorem C60_weights : forall p st l b s, prepared st ->
  (0 <= sc_hour st)%Q ->
  (forall h, bp_day p = Some h -> (0 <= h)%Q) -> (forall h, bp_night p = Some h -> (0 <= h)%Q) ->
  let g := greedy p st l in
  (weighted_score p st g b s ==
   window_mean (bk_score b) s (bk_nslots b)
   * match bp_day p with
     | Some h => if nth s (sc_day st) false then linear_weight h (taken_hours st (sc_day st) (g_free g)) else 1
     | None => 1 end
   * match bp_night p with
     | Some h => if nth s (sc_night st) false then linear_weight h (taken_hours st (sc_night st) (g_free g)) else 1
     | None => 1 end)%Q.
Proof. exact weighted_score_spec. Qed.
Print Assumptions C60_weights.

(** C60: no block is booked at a start in the day once the budget is used up. *)
Theorem C60_day_exhausted : forall p st pre i b s h, prepared st -> (0 <= sc_hour st)%Q ->
  bp_day p = Some h -> (0 <= h)%Q ->
  let g := greedy p st pre in
  newly (g_blocks g) (g_blocks (greedy_step p st g i)) i b -> bk_start b = Some s ->
  (h <= taken_hours st (sc_day st) (g_free g))%Q ->
  nth s (sc_day st) false = false.
Proof. exact day_exhausted. Qed.
Print Assumptions C60_day_exhausted.

(** C60: likewise for the night. *)
Theorem C60_night_exhausted : forall p st pre i b s h, prepared st -> (0 <= sc_hour st)%Q ->
  bp_night p = Some h -> (0 <= h)%Q ->
  let g := greedy p st pre in
  newly (g_blocks g) (g_blocks (greedy_step p st g i)) i b -> bk_start b = Some s ->
  (h <= taken_hours st (sc_night st) (g_free g))%Q ->
  nth s (sc_night st) false = false.
Proof. exact night_exhausted. Qed.
Print Assumptions C60_night_exhausted.

(** Six slots, the first three at night, a night budget of one hour: the first
    block takes two night slots, the second one goes to the day. *)
Definition budget_mask := [true; true; true; false; false; false].
Definition budget_run (ops : list sop) : sched :=
  match new_sched 0 6 1 1%Q (map negb budget_mask) budget_mask with
  | Ok st => srun st ops
  | Err _ => mkSched 0 0%Q [] [] [] [] [] [] [] [] []
  end.
Definition budget_p := mkParams true 0 None (Some 1%Q) false.
Definition budget_ops := [ SInsert [ (2%Z, None, [1; 1; (1#2); (1#2); (1#2); (1#2)]%Q);
                                     (1%Z, None, [1; 1; 1; (1#2); 0; 0]%Q) ] ].
Example C60_ex :
  map bk_start (sc_blocks (fst (book budget_p ONone (budget_run budget_ops)))) = [Some 0; Some 3] /\
  map bk_start (sc_blocks (fst (book (mkParams true 0 None None false) ONone (budget_run budget_ops))))
    = [Some 0; Some 2].
Proof. split; vm_compute; reflexivity. Qed.

(** C60: only the start of a block is considered, a block may use day slots
    although the day budget is null. *)
Theorem C60_null_budget_refuted : exists p st,
  bp_day p = Some 0%Q /\ snd (book p ONone st) = None /\
  exists b s k, nth_error (sc_blocks (fst (book p ONone st))) 0 = Some b /\ bk_start b = Some s /\
    s <= k < s + bk_nslots b /\ nth k (sc_day st) false = true.
Proof.
  exists (mkParams true 0 (Some 0%Q) None false),
    (budget_run [ SInsert [ (2%Z, None, [0; 0; 1; 1; 0; 0]%Q) ] ]).
  split; [reflexivity|]. split; [vm_compute; reflexivity|].
  exists (mkBlk 0 2 0 [0; 0; 1; 1; 0; 0]%Q 2 (Some 2) (Some (2%Z, 4%Z))), 2, 3.
  split; [vm_compute; reflexivity|]. split; [reflexivity|]. split; [simpl; split; auto|].
  vm_compute; reflexivity.
Qed.
Print Assumptions C60_null_budget_refuted.
