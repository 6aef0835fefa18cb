(** Witnesses of the refutations about the genetic booking. *)
From Coq Require Import List Arith ZArith QArith Bool Lia.
From Verif Require Import Base M_Slots M_Sched M_Genetic P_Slots P_Booking P_Book P_Book2 P_Book3
  P_Genetic P_Genetic2 P_Genetic3 T_Booking.
Import ListNotations.
Open Scope nat_scope.

Definition demo_st := demo_run (firstn 2 demo_ops).
Definition demo_score : list blk -> nat -> Q := fun _ i => inject_Z (Z.of_nat i).
Definition demo_ft : sched :=
  demo_run [ SInsert [ (2%Z, None, [1;1;1;1;1;1;1;1;1;1]%Q);
                       (2%Z, None, [0;1;(1#2);(1#3);(1#4);0;0;0;0;0]%Q) ] ].
Definition demo_ft2 : sched := fst (fst (book_prepare demo_p demo_ft)).
Definition demo_ft_bs : list blk := fst (ga_place demo_ft2 0 (sc_blocks demo_ft2) [0; 3]).

Lemma demo_reach2 : forall ops, Forall op_nonneg ops -> reach2 (demo_run ops).
Proof. intros. now apply reachable_reach2, demo_reachable. Qed.

Lemma demo_ft_reach : reach2 demo_ft.
Proof.
  apply demo_reach2. repeat constructor. intros x H q Q.
  repeat (destruct H as [<-|H]; [simpl in Q; repeat (destruct Q as [<-|Q]; [discriminate|]); destruct Q|]).
  destruct H.
Qed.

Lemma fine_tune_overlaps : exists st bs bs',
  prepared st /\ tuned st (sc_blocks st) bs /\ no_overlap bs /\
  fine_tune st start_order 10 bs = (bs', None) /\ ~ no_overlap bs'.
Proof.
  assert (PR : book_prepare demo_p demo_ft = (demo_ft2, true, None)) by (vm_compute; reflexivity).
  destruct (genetic_prepared demo_p [0; 3] demo_ft demo_ft2 demo_ft_reach PR) as [P T].
  assert (GP : ga_place demo_ft2 0 (sc_blocks demo_ft2) [0; 3] = (demo_ft_bs, None)) by (vm_compute; reflexivity).
  specialize (T _ GP).
  exists demo_ft2, demo_ft_bs, (fst (fine_tune demo_ft2 start_order 10 demo_ft_bs)).
  split; [assumption|]. split; [assumption|]. split; [|split].
  - apply no_overlapb_sound with (size := 10); [|vm_compute; reflexivity].
    assert (EB : map bk_start demo_ft_bs = [Some 0; Some 3]) by (vm_compute; reflexivity).
    assert (EN : map bk_nslots demo_ft_bs = [2; 2]) by (vm_compute; reflexivity).
    intros i b s H E.
    assert (X : nth_error (map bk_start demo_ft_bs) i = Some (Some s)) by (rewrite nth_error_map, H; simpl; now rewrite E).
    assert (Y : nth_error (map bk_nslots demo_ft_bs) i = Some (bk_nslots b)) by (rewrite nth_error_map, H; reflexivity).
    rewrite EB in X. rewrite EN in Y.
    destruct i as [|[|i]]; simpl in X, Y; [| |destruct i; discriminate];
      injection X; intros <-; injection Y; intros <-; lia.
  - vm_compute; reflexivity.
  - set (bs' := fst (fine_tune demo_ft2 start_order 10 demo_ft_bs)).
    assert (EB : map bk_start bs' = [Some 0; Some 1]) by (vm_compute; reflexivity).
    assert (EN : map bk_nslots bs' = [2; 2]) by (vm_compute; reflexivity).
    destruct bs' as [|b [|c [|d t]]]; try discriminate.
    injection EB; intros E2 E1. injection EN; intros N2 N1. intros NO.
    apply (NO 0 1 b c 1); [lia|reflexivity|reflexivity| |].
    + exists 0. rewrite N1. split; [assumption|lia].
    + exists 1. rewrite N2. split; [assumption|lia].
Qed.

Lemma kept_bookings_lost : exists p g st st' i,
  reach2 st /\ bp_reset p = false /\
  ga_book p g start_order 5 demo_score st = (st', None) /\
  kept_booking p st i /\
  (exists b, nth_error (sc_blocks st') i = Some b /\ bk_start b = None) /\
  (exists k, ~ slot_free (sc_free st') k /\ (forall b, In b (sc_blocks st') -> ~ covers b k) /\
     slot_free (sc_free (reset_bookings st)) k).
Proof.
  set (p := mkParams false (1#10) None None false).
  set (g := [2; 7; 3]).
  set (st := demo_run demo_ops).
  exists p, g, st, (fst (ga_book p g start_order 5 demo_score st)), 1.
  split; [apply demo_reach2, demo_nonneg|]. split; [reflexivity|].
  split; [vm_compute; reflexivity|]. split.
  - split; [reflexivity|]. eexists. split; [vm_compute; reflexivity|discriminate].
  - split.
    { exists (nth 1 (sc_blocks (fst (ga_book p g start_order 5 demo_score st))) no_blk).
      split; [|vm_compute; reflexivity]. apply nth_error_nth_blk.
      assert (L : length (sc_blocks (fst (ga_book p g start_order 5 demo_score st))) = 3)
        by (vm_compute; reflexivity). rewrite L. lia. }
    exists 6. split.
    { assert (X : nth 6 (sc_free (fst (ga_book p g start_order 5 demo_score st))) false = false)
        by (vm_compute; reflexivity). unfold slot_free. rewrite X. discriminate. }
    split; [|vm_compute; reflexivity].
    intros b B C. apply coversb_spec in C.
    assert (X : existsb (fun b => coversb b 6) (sc_blocks (fst (ga_book p g start_order 5 demo_score st))) = false)
      by (vm_compute; reflexivity).
    rewrite <- not_true_iff_false in X. apply X. apply existsb_exists. exists b. exact (conj B C).
Qed.
