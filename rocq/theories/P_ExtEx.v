(** Witnesses about extensions and shifts. *)
From Coq Require Import List Arith ZArith QArith Bool Lia.
From Verif Require Import Base M_Slots M_Sched M_Genetic M_Extend M_Shift P_Slots P_Booking P_Book P_Book2
  P_Book3 P_Genetic P_Genetic2 P_Genetic3 P_Extend P_Shift P_Session T_Booking P_GenEx.
Import ListNotations.
Open Scope nat_scope.

(** The evaluation of a window for constraints that score each slot on its
    own: all the slots of the window but the last (constraints.py 1474). *)
Definition slotwise (st : sched) (i : nat) (w : list nat) : list Q :=
  map (fun k => nth k (bk_score (nth i (sc_blocks st) no_blk)) 0%Q) (removelast w).

(** A block of one slot on the best slot of ten. *)
Definition low_st : sched :=
  demo_run [ SInsert [ (1%Z, None, [0;0;0;(1#10);1;0;0;0;0;0]%Q) ]; SBook demo_p ONone ].

Lemma demo_reach3 : forall ops, Forall op_nonneg ops -> reach3 (demo_run ops).
Proof. intros. now apply reach2_reach3, demo_reach2. Qed.

Ltac nonneg_list :=
  intros x H q Q;
  repeat (destruct H as [<-|H]; [simpl in Q; repeat (destruct Q as [<-|Q]; [discriminate|]); destruct Q|]);
  destruct H.

Lemma low_reach : reach3 low_st.
Proof. apply demo_reach3. repeat constructor. nonneg_list. Qed.

(** Two delayed blocks kept apart by the booking and brought together by the
    extension. *)
Definition ext_delay_st : sched :=
  demo_run [ SInsert [ (1%Z, Some 2%Z, [0;0;1;0;0;0;0;0;0;0]%Q); (1%Z, Some 2%Z, [0;0;0;0;0;0;1;0;0;0]%Q) ];
             SBook demo_p ONone ].
Definition ramp (i : nat) (w : list nat) : list Q := repeat (inject_Z (Z.of_nat (length w)))%Q (length w - 1).

Lemma ext_delay_reach : reach3 ext_delay_st.
Proof. apply demo_reach3. repeat constructor. nonneg_list. Qed.

Lemma extension_ignores_delays : exists st st' b c b' c',
  reach3 st /\ extend false 1 (Some 5%Z) (fun _ => None) ramp st = (st', true, None) /\
  sc_blocks st = [b; c] /\ sc_blocks st' = [b'; c'] /\
  bk_ndelay b = 2 /\ bk_ndelay c = 2 /\ apart b c 2 /\ ~ apart b' c' 1.
Proof.
  exists ext_delay_st, (fst (fst (extend false 1 (Some 5%Z) (fun _ => None) ramp ext_delay_st))).
  set (st := ext_delay_st).
  set (st' := fst (fst (extend false 1 (Some 5%Z) (fun _ => None) ramp ext_delay_st))).
  exists (nth 0 (sc_blocks st) no_blk), (nth 1 (sc_blocks st) no_blk),
         (nth 0 (sc_blocks st') no_blk), (nth 1 (sc_blocks st') no_blk).
  split; [apply ext_delay_reach|]. split; [vm_compute; reflexivity|].
  split; [vm_compute; reflexivity|]. split; [vm_compute; reflexivity|].
  split; [vm_compute; reflexivity|]. split; [vm_compute; reflexivity|].
  assert (E1 : bk_start (nth 0 (sc_blocks st) no_blk) = Some 2) by (vm_compute; reflexivity).
  assert (E2 : bk_start (nth 1 (sc_blocks st) no_blk) = Some 6) by (vm_compute; reflexivity).
  assert (N1 : bk_nslots (nth 0 (sc_blocks st) no_blk) = 1) by (vm_compute; reflexivity).
  assert (N2 : bk_nslots (nth 1 (sc_blocks st) no_blk) = 1) by (vm_compute; reflexivity).
  split.
  - intros s t S T. rewrite E1 in S. rewrite E2 in T. rewrite N1, N2.
    injection S; injection T; intros <- <-. lia.
  - assert (F1 : bk_start (nth 0 (sc_blocks st') no_blk) = Some 0) by (vm_compute; reflexivity).
    assert (F2 : bk_start (nth 1 (sc_blocks st') no_blk) = Some 4) by (vm_compute; reflexivity).
    assert (M1 : bk_nslots (nth 0 (sc_blocks st') no_blk) = 4) by (vm_compute; reflexivity).
    intros A. specialize (A 0 4 F1 F2). rewrite M1 in A. lia.
Qed.

(** The block is extended by two slots of lower score, one of score zero. *)
Lemma extension_lowers_score : exists st st' b b' k,
  reach3 st /\ extend false 1 (Some 3%Z) (fun _ => None) (slotwise st) st = (st', true, None) /\
  sc_blocks st = [b] /\ sc_blocks st' = [b'] /\
  (forall j, covers b j -> (nth j (bk_score b) 0 == 1)%Q) /\
  covers b' k /\ (nth k (bk_score b) 0 == 0)%Q.
Proof.
  exists low_st, (fst (fst (extend false 1 (Some 3%Z) (fun _ => None) (slotwise low_st) low_st))).
  set (st' := fst (fst (extend false 1 (Some 3%Z) (fun _ => None) (slotwise low_st) low_st))).
  exists (nth 0 (sc_blocks low_st) no_blk), (nth 0 (sc_blocks st') no_blk), 5.
  split; [exact low_reach|]. split; [vm_compute; reflexivity|].
  split; [vm_compute; reflexivity|]. split; [vm_compute; reflexivity|]. split.
  - intros j (s & S & J).
    assert (E : bk_start (nth 0 (sc_blocks low_st) no_blk) = Some 4) by (vm_compute; reflexivity).
    assert (N : bk_nslots (nth 0 (sc_blocks low_st) no_blk) = 1) by (vm_compute; reflexivity).
    rewrite E in S. injection S; intros <-. rewrite N in J. assert (j = 4) by lia. subst j.
    vm_compute. reflexivity.
  - split; [|vm_compute; reflexivity]. exists 3. split; [vm_compute; reflexivity|].
    assert (N : bk_nslots (nth 0 (sc_blocks st') no_blk) = 3) by (vm_compute; reflexivity). lia.
Qed.

(** Asking for a maximal duration shorter than a booked block stops the whole
    extension. *)
Lemma extension_shorter_limit : exists st b,
  reach3 st /\ sc_blocks st = [b] /\ bk_start b = Some 0 /\ bk_nslots b = 2 /\
  extend false 1 (Some 1%Z) (fun _ => None) (slotwise st) st = (st, false, Some EIndexError).
Proof.
  set (st := demo_run [ SInsert [ (2%Z, None, repeat 1%Q 10) ]; SBook demo_p ONone ]).
  exists st, (nth 0 (sc_blocks st) no_blk).
  split; [apply demo_reach3; repeat constructor; nonneg_list|].
  split; [vm_compute; reflexivity|]. split; [vm_compute; reflexivity|].
  split; [vm_compute; reflexivity|]. vm_compute; reflexivity.
Qed.

(** ** Shifts *)

(** Two blocks of three slots, one slot apart. *)
Definition shift_st : sched :=
  demo_run [ SInsert [ (3%Z, None, [1;0;0;0;0;0;0;0;0;0]%Q); (3%Z, None, [0;0;0;0;1;1;1;0;0;0]%Q) ];
             SBook demo_p ONone ].

Lemma shift_st_reach : reach3 shift_st.
Proof. apply demo_reach3. repeat constructor. nonneg_list. Qed.

(** One slot only of the new place is taken by another block: the call raises,
    the block has moved, its old slots are free. *)
Lemma shift_raises_after_moving : exists st st' b c b',
  reach3 st /\ shift_block st 0 3 0 = (st', Some EValueError) /\
  sc_blocks st = [b; c] /\ sc_blocks st' = [b'; c] /\
  bk_start b = Some 0 /\ bk_start b' = Some 3 /\ ~ no_overlap [b'; c] /\
  covers b' 3 /\ slot_free (sc_free st') 3.
Proof.
  exists shift_st, (fst (shift_block shift_st 0 3 0)).
  set (st' := fst (shift_block shift_st 0 3 0)).
  exists (nth 0 (sc_blocks shift_st) no_blk), (nth 1 (sc_blocks shift_st) no_blk), (nth 0 (sc_blocks st') no_blk).
  assert (E1 : bk_start (nth 1 (sc_blocks shift_st) no_blk) = Some 4) by (vm_compute; reflexivity).
  assert (E2 : bk_start (nth 0 (sc_blocks st') no_blk) = Some 3) by (vm_compute; reflexivity).
  assert (N1 : bk_nslots (nth 1 (sc_blocks shift_st) no_blk) = 3) by (vm_compute; reflexivity).
  assert (N2 : bk_nslots (nth 0 (sc_blocks st') no_blk) = 3) by (vm_compute; reflexivity).
  split; [exact shift_st_reach|]. split; [vm_compute; reflexivity|].
  split; [vm_compute; reflexivity|]. split; [vm_compute; reflexivity|].
  split; [vm_compute; reflexivity|]. split; [exact E2|]. split; [|split].
  - intros H. refine (H 0 1 _ _ 4 _ eq_refl eq_refl _ _); [discriminate| |].
    + exists 3. split; [exact E2|]. rewrite N2. lia.
    + exists 4. split; [exact E1|]. rewrite N1. lia.
  - exists 3. split; [exact E2|]. rewrite N2. lia.
  - vm_compute. reflexivity.
Qed.

(** A range wholly before the schedule is not ignored: the counters are
    incremented from the first slot on. *)
Lemma freeze_before_schedule : exists st st',
  reach3 st /\ freeze_processing st (-4) (-2) = (st', None) /\
  sc_size st = 10 /\ sc_proc st = repeat 0%Z 10 /\ sc_proc st' = repeat 1%Z 8 ++ repeat 0%Z 2.
Proof.
  exists shift_st, (fst (freeze_processing shift_st (-4) (-2))).
  split; [exact shift_st_reach|]. split; [vm_compute; reflexivity|].
  split; [vm_compute; reflexivity|]. split; vm_compute; reflexivity.
Qed.

(** A session: insertion, booking, extension, shift, second insertion and
    booking. *)
Definition sess1 : sched := fst (shift_block shift_st 1 2 0).
Definition sess2 : sched :=
  sstep (sstep sess1 (SInsert [ (2%Z, None, [0;0;0;0;1;0;0;0;0;0]%Q) ]))
    (SBook (mkParams false (1#10) None None false) ONone).

Lemma session_example : exists st, reach3 st /\
  map (fun b => (bk_start b, bk_nslots b)) (sc_blocks st) = [(Some 0, 3); (Some 6, 3); (Some 3, 2)].
Proof.
  exists sess2. split; [|vm_compute; reflexivity].
  assert (R : reach3 sess1).
  { apply r3_shift with (st := shift_st) (i := 1) (shift := 2%Z) (minimal := 0%Q) (e := None);
      [exact shift_st_reach|vm_compute; reflexivity|discriminate]. }
  apply r3_op; [|exact I].
  apply r3_op; [exact R|]. nonneg_list.
Qed.
