(** Properties of targets and constraints shared between schedules (C236 to C238). *)
From Coq Require Import List Arith Bool Lia.
From Verif Require Import Base M_Share P_Share.
Import ListNotations.
Open Scope nat_scope.
Open Scope list_scope.

(** ** C236: one schedule *)
Theorem C236_one_schedule : forall T times ops s, Forall (only s) ops ->
  (forall c pos t, s_score T (run T times ops) c = Some (pos, t) -> t = times s /\ forall x, pos = Some x -> x = times s) /\
  (forall b x, extended T b (run T times ops) = Ok (Some x) -> x = times s).
Proof. exact one_schedule. Qed.
Print Assumptions C236_one_schedule.
Theorem C236_booked : forall T times ops s b, In (Insert s b) ops -> s_score T (run T times (ops ++ [Book s])) (b_cnst b) <> None.
Proof. exact booked. Qed.
Print Assumptions C236_booked.
Theorem C236_again_refuted : forall T times ops s b t books_after, b_target b = Some t -> In (Insert s b) ops -> (forall s' b', In (Insert s' b') ops -> b_target b' = Some t -> b_cnst b' = b_cnst b) ->
  extended T b (run T times (ops ++ [Book s; Insert s b] ++ map Book books_after)) = Err ETypeError.
Proof. exact again_refuted. Qed.
Print Assumptions C236_again_refuted.
Theorem C236_no_target : forall T times ops b, b_target b = None -> extended T b (run T times ops) = Ok None.
Proof. exact no_target. Qed.
Print Assumptions C236_no_target.
(** The times of a schedule are here its number plus 10. *)
Definition demo_run := run nat (fun s => s + 10).
Definition ba := mkBlock (Some 0) 0. Definition bb := mkBlock (Some 0) 1. Definition bc := mkBlock None 2.
Example C236_ex : Forall (only 7) [Insert 7 ba; Book 7; Insert 7 bb; Insert 7 bc; Book 7]
  /\ map (s_score nat (demo_run [Insert 7 ba; Book 7; Insert 7 bb; Insert 7 bc; Book 7])) [0; 1; 2; 3] = [Some (Some 17, 17); Some (Some 17, 17); Some (None, 17); None]
  /\ extended nat ba (demo_run [Insert 7 ba; Book 7; Insert 7 bb]) = Err ETypeError
  /\ extended nat ba (demo_run ([Insert 7 ba] ++ [Book 7; Insert 7 ba] ++ map Book [7; 7])) = Err ETypeError
  /\ extended nat bc (demo_run [Insert 7 bc]) = Ok None.
Proof. split; [repeat constructor|repeat split]. Qed.

(** ** C237: shared constraints *)
Theorem C237_none : forall T times ops c, unbooked c ops -> s_score T (run T times ops) c = None.
Proof. exact score_none. Qed.
Print Assumptions C237_none.
Theorem C237_first : forall T times pre s post c, unbooked c pre -> holds_cnst s c pre -> exists pos, s_score T (run T times (pre ++ Book s :: post)) c = Some (pos, times s).
Proof. exact score_first. Qed.
Print Assumptions C237_first.
Theorem C237_stale_refuted : forall T times pre s1 mid s2 post b, unbooked (b_cnst b) pre -> In (Insert s1 b) pre -> In (Insert s2 b) (pre ++ Book s1 :: mid) -> times s1 <> times s2 ->
  exists pos, s_score T (run T times (pre ++ Book s1 :: mid ++ Book s2 :: post)) (b_cnst b) = Some (pos, times s1).
Proof. exact score_stale_refuted. Qed.
Print Assumptions C237_stale_refuted.
Lemma no_book : forall c l, Forall (fun o => match o with Insert _ _ => True | Book _ => False end) l -> unbooked c l.
Proof. intros c l F p s q E _. rewrite E, Forall_app in F. destruct F as (_ & F). inversion F. contradiction. Qed.
Example C237_ex : unbooked 0 [Insert 1 ba; Insert 2 ba] /\ holds_cnst 1 0 [Insert 1 ba; Insert 2 ba]
  /\ s_score nat (demo_run ([Insert 1 ba; Insert 2 ba] ++ Book 1 :: [] ++ Book 2 :: [])) 0 = Some (Some 11, 11).
Proof. split; [apply no_book; repeat constructor|]. split; [exists ba; split; [now left|reflexivity]|reflexivity]. Qed.

(** ** C238: shared targets *)
Theorem C238_stale_refuted : forall T times s1 s2 t c1 c2, s1 <> s2 -> c1 <> c2 ->
  let b1 := mkBlock (Some t) c1 in let b2 := mkBlock (Some t) c2 in
  s_score T (run T times [Insert s1 b1; Insert s2 b2; Book s1; Book s2]) c2 = Some (Some (times s1), times s2).
Proof. exact target_stale_refuted. Qed.
Print Assumptions C238_stale_refuted.
Theorem C238_cleared_refuted : forall T times ops s b b', b_target b' <> None -> b_target b = b_target b' -> extended T b (run T times (ops ++ [Insert s b'])) = Err ETypeError.
Proof. exact cleared_refuted. Qed.
Print Assumptions C238_cleared_refuted.
Theorem C238_moved_refuted : forall T times s1 s2 t c1 c2, s1 <> s2 -> c1 <> c2 ->
  let b1 := mkBlock (Some t) c1 in let b2 := mkBlock (Some t) c2 in
  let st := run T times [Insert s1 b1; Book s1; Insert s2 b2; Book s2] in
  s_score T st c1 = Some (Some (times s1), times s1) /\ s_score T st c2 = Some (Some (times s2), times s2) /\ extended T b1 st = Ok (Some (times s2)).
Proof. exact moved_refuted. Qed.
Print Assumptions C238_moved_refuted.
Example C238_ex : s_score nat (demo_run [Insert 1 ba; Insert 2 bb; Book 1; Book 2]) 1 = Some (Some 11, 12)
  /\ extended nat ba (demo_run [Insert 1 ba; Book 1; Insert 2 bb]) = Err ETypeError /\ extended nat ba (demo_run [Insert 1 ba; Book 1; Insert 2 bb; Book 2]) = Ok (Some 12).
Proof. repeat split. Qed.
