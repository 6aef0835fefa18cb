(** Objects shared between schedules. *)
From Coq Require Import List Arith Bool Lia.
From Verif Require Import Base M_Share.
Import ListNotations.
Open Scope nat_scope.
Open Scope list_scope.

Section Share.
Variable T : Type.
Variable times : nat -> T.
Notation run := (run T times). Notation step := (step T times). Notation evaluate := (evaluate T times). Notation book := (book T times).

Lemma put_same : forall V (f : nat -> V) k v, put f k v k = v.
Proof. intros. unfold put. now rewrite Nat.eqb_refl. Qed.
Lemma put_other : forall V (f : nat -> V) k v i, i <> k -> put f k v i = f i.
Proof. intros. unfold put. destruct (Nat.eqb_spec i k); [contradiction|reflexivity]. Qed.
Lemma run_app : forall a b, run (a ++ b) = fold_left step b (run a).
Proof. intros. unfold M_Share.run. apply fold_left_app. Qed.

(** ** Scores once computed *)
Definition books (s : nat) (st : state T) (l : list block) : state T := fold_left (fun st b => evaluate s b st) l st.
Lemma eval_blocks : forall s b st, s_blocks T (evaluate s b st) = s_blocks T st.
Proof. intros. unfold M_Share.evaluate. destruct (s_score T st (b_cnst b)); reflexivity. Qed.
Lemma eval_score : forall s b st c x, s_score T st c = Some x -> s_score T (evaluate s b st) c = Some x.
Proof. intros s b st c x H. unfold M_Share.evaluate. destruct (s_score T st (b_cnst b)) eqn:E; [exact H|]. cbn. rewrite put_other; [exact H|congruence]. Qed.
Lemma eval_new : forall s b st c, s_score T st c = None -> (c <> b_cnst b /\ s_score T (evaluate s b st) c = None) \/ (c = b_cnst b /\ exists pos, s_score T (evaluate s b st) c = Some (pos, times s)).
Proof.
  intros s b st c H. unfold M_Share.evaluate. destruct (Nat.eq_dec c (b_cnst b)) as [->|N].
  - right. split; [reflexivity|]. rewrite H. cbn. rewrite put_same. eexists. reflexivity.
  - left. split; [exact N|]. destruct (s_score T st (b_cnst b)); [exact H|]. cbn. now rewrite put_other.
Qed.
Lemma books_blocks : forall s l st, s_blocks T (books s st l) = s_blocks T st.
Proof. intros s l. induction l as [|b l IH]; intro st; [reflexivity|]. cbn [books fold_left]. fold (books s (evaluate s b st) l). rewrite IH. apply eval_blocks. Qed.
Lemma books_score : forall s l st c x, s_score T st c = Some x -> s_score T (books s st l) c = Some x.
Proof. intros s l. induction l as [|b l IH]; intros st c x H; [exact H|]. cbn [books fold_left]. fold (books s (evaluate s b st) l). apply IH. now apply eval_score. Qed.
Lemma books_new : forall s l st c, s_score T st c = None -> (~ In c (map b_cnst l) /\ s_score T (books s st l) c = None) \/ (In c (map b_cnst l) /\ exists pos, s_score T (books s st l) c = Some (pos, times s)).
Proof.
  intros s l. induction l as [|b l IH]; intros st c H; [left; split; [intros []|exact H]|]. cbn [books fold_left map]. fold (books s (evaluate s b st) l). destruct (eval_new s b st c H) as [(N & E)|(-> & pos & E)].
  - destruct (IH _ c E) as [(N2 & E2)|(I & E2)]; [left; split; [|exact E2]|right; split; [now right|exact E2]]. intros [X|X]; [congruence|contradiction].
  - right. split; [now left|]. exists pos. now apply books_score.
Qed.
Lemma run_blocks : forall ops s b, In b (s_blocks T (run ops) s) <-> In (Insert s b) ops.
Proof.
  intros ops. induction ops as [|o ops IH] using rev_ind; intros s b; [split; intros []|]. rewrite run_app. cbn [fold_left]. rewrite in_app_iff. cbn [In]. rewrite <- IH. destruct o as [s' b'|s']; cbn [M_Share.step].
  - cbn. unfold put. destruct (Nat.eqb_spec s s') as [->|N].
    + rewrite in_app_iff. cbn [In]. split; [intros [H|[<-|[]]]; [now left|right; now left]|intros [H|[H|[]]]; [now left|injection H as <-; right; now left]].
    + split; [tauto|]. intros [H|[H|[]]]; [exact H|]. injection H as <- _. contradiction.
  - unfold M_Share.book. fold (books s' (run ops) (s_blocks T (run ops) s')). rewrite books_blocks. split; [tauto|]. intros [H|[H|[]]]; [exact H|discriminate].
Qed.
Definition holds_cnst (s c : nat) (ops : list op) : Prop := exists b, In (Insert s b) ops /\ b_cnst b = c.
Lemma blocks_cnst : forall ops s c, In c (map b_cnst (s_blocks T (run ops) s)) <-> holds_cnst s c ops.
Proof. intros. rewrite in_map_iff. unfold holds_cnst. split; intros (b & H); exists b; rewrite run_blocks in *; tauto. Qed.
Lemma score_kept : forall post st c x, s_score T st c = Some x -> s_score T (fold_left step post st) c = Some x.
Proof.
  intros post. induction post as [|o post IH]; intros st c x H; [exact H|]. cbn [fold_left]. apply IH. destruct o as [s b|s]; [exact H|]. cbn [M_Share.step]. now apply (books_score s (s_blocks T st s)).
Qed.
(** No schedule with these constraints was booked. *)
Definition unbooked (c : nat) (ops : list op) : Prop := forall p s q, ops = p ++ Book s :: q -> ~ holds_cnst s c p.
Lemma unbooked_app : forall c ops o, unbooked c (ops ++ [o]) -> unbooked c ops.
Proof. intros c ops o H p s q E. apply (H p s (q ++ [o])). rewrite E, <- app_assoc. reflexivity. Qed.
Theorem score_none : forall ops c, unbooked c ops -> s_score T (run ops) c = None.
Proof.
  intros ops. induction ops as [|o ops IH] using rev_ind; intros c U; [reflexivity|]. rewrite run_app. cbn [fold_left]. pose proof (IH c (unbooked_app _ _ _ U)) as N. destruct o as [s b|s]; [exact N|]. cbn [M_Share.step].
  destruct (books_new s (s_blocks T (run ops) s) (run ops) c N) as [(_ & E)|(I & _)]; [exact E|]. exfalso. apply blocks_cnst in I. exact (U ops s [] eq_refl I).
Qed.
Theorem score_first : forall pre s post c, unbooked c pre -> holds_cnst s c pre -> exists pos, s_score T (run (pre ++ Book s :: post)) c = Some (pos, times s).
Proof.
  intros pre s post c U I. change (Book s :: post) with ([Book s] ++ post). rewrite app_assoc, run_app. pose proof (score_none pre c U) as N.
  assert (E : exists pos, s_score T (run (pre ++ [Book s])) c = Some (pos, times s)).
  { rewrite run_app. cbn [fold_left M_Share.step]. destruct (books_new s (s_blocks T (run pre) s) (run pre) c N) as [(X & _)|(_ & E)]; [exfalso; apply X; now apply blocks_cnst|exact E]. }
  destruct E as (pos & E). exists pos. now apply score_kept.
Qed.
Theorem score_stale_refuted : forall pre s1 mid s2 post b, unbooked (b_cnst b) pre -> In (Insert s1 b) pre -> In (Insert s2 b) (pre ++ Book s1 :: mid) -> times s1 <> times s2 ->
  exists pos, s_score T (run (pre ++ Book s1 :: mid ++ Book s2 :: post)) (b_cnst b) = Some (pos, times s1).
Proof. intros pre s1 mid s2 post b U I _ _. apply score_first; [exact U|now exists b]. Qed.

(** ** One schedule *)
Definition only (s : nat) (o : op) : Prop := match o with Insert s' _ => s' = s | Book s' => s' = s end.
Definition right_times (s : nat) (st : state T) : Prop :=
  (forall t x, s_pos T st t = Some x -> x = times s) /\ forall c pos t, s_score T st c = Some (pos, t) -> t = times s /\ forall x, pos = Some x -> x = times s.
Lemma eval_right : forall s b st, right_times s st -> right_times s (evaluate s b st).
Proof.
  intros s b st (P & Q). unfold M_Share.evaluate. destruct (s_score T st (b_cnst b)); [now split|].
  set (pos := match b_target b with None => s_pos T st | Some t => match s_pos T st t with None => put (s_pos T st) t (Some (times s)) | Some _ => s_pos T st end end).
  assert (P' : forall t x, pos t = Some x -> x = times s).
  { intros t x H. unfold pos in H. destruct (b_target b) as [t'|]; [|exact (P t x H)]. destruct (s_pos T st t') eqn:E; [exact (P t x H)|]. unfold put in H. destruct (Nat.eqb t t'); [now injection H|exact (P t x H)]. }
  split; [exact P'|]. intros c p t H. cbn in H. unfold put in H. destruct (Nat.eqb c (b_cnst b)); [|exact (Q c p t H)]. injection H as <- <-. split; [reflexivity|]. intros x X. destruct (b_target b) as [t'|]; [exact (P' t' x X)|discriminate].
Qed.
Theorem one_schedule : forall ops s, Forall (only s) ops ->
  (forall c pos t, s_score T (run ops) c = Some (pos, t) -> t = times s /\ forall x, pos = Some x -> x = times s) /\
  (forall b x, extended T b (run ops) = Ok (Some x) -> x = times s).
Proof.
  intros ops s F. assert (R : right_times s (run ops)).
  { unfold M_Share.run. assert (G : forall st, right_times s st -> right_times s (fold_left step ops st)); [|apply G; split; intros; discriminate].
    induction F as [|o ops O F IH]; intros st H; [exact H|]. cbn [fold_left]. apply IH. destruct o as [s' b|s']; cbn in O; subst s'; cbn [M_Share.step].
    - destruct H as (P & Q). split; [|exact Q]. cbn. intros t x X. destruct (b_target b) as [t'|]; [|exact (P t x X)]. unfold put in X. destruct (Nat.eqb t t'); [discriminate|exact (P t x X)].
    - unfold M_Share.book. generalize (s_blocks T st s). intro l. revert st H. induction l as [|b l IHl]; intros st H; [exact H|]. cbn [fold_left]. apply IHl. now apply eval_right. }
  destruct R as (P & Q). split; [exact Q|]. intros b x X. unfold extended in X. destruct (b_target b) as [t|]; [|discriminate]. destruct (s_pos T (run ops) t) eqn:E; [|discriminate]. injection X as <-. exact (P t _ E).
Qed.
Theorem booked : forall ops s b, In (Insert s b) ops -> s_score T (run (ops ++ [Book s])) (b_cnst b) <> None.
Proof.
  intros ops s b I. rewrite run_app. cbn [fold_left M_Share.step]. unfold M_Share.book. fold (books s (run ops) (s_blocks T (run ops) s)). destruct (s_score T (run ops) (b_cnst b)) as [x|] eqn:E; [rewrite (books_score _ _ _ _ _ E); discriminate|].
  destruct (books_new s (s_blocks T (run ops) s) (run ops) _ E) as [(N & _)|(_ & p & H)]; [|congruence]. exfalso. apply N. apply in_map. now apply run_blocks.
Qed.
(** ** A block inserted again after a booking: its score is kept, so its positions are never computed again. *)
Lemma eval_pos_none : forall s b st t, s_pos T st t = None -> (b_target b = Some t -> s_score T st (b_cnst b) <> None) -> s_pos T (evaluate s b st) t = None.
Proof.
  intros s b st t N H. unfold M_Share.evaluate. destruct (s_score T st (b_cnst b)) eqn:E; [exact N|]. cbn. destruct (b_target b) as [t'|]; [|exact N]. destruct (s_pos T st t'); [exact N|]. rewrite put_other; [exact N|]. intro X. subst t'. now apply H.
Qed.
Lemma books_pos_none : forall s t l st, s_pos T st t = None -> (forall b, In b l -> b_target b = Some t -> s_score T st (b_cnst b) <> None) -> s_pos T (books s st l) t = None.
Proof.
  intros s t l. induction l as [|b l IH]; intros st N H; [exact N|]. cbn [books fold_left]. fold (books s (evaluate s b st) l). apply IH; [apply eval_pos_none; [exact N|]; apply H; now left|].
  intros b' I B. specialize (H b' (or_intror I) B). destruct (s_score T st (b_cnst b')) eqn:E; [|contradiction]. rewrite (eval_score s b st _ _ E). discriminate.
Qed.
Theorem again_refuted : forall ops s b t books_after, b_target b = Some t -> In (Insert s b) ops -> (forall s' b', In (Insert s' b') ops -> b_target b' = Some t -> b_cnst b' = b_cnst b) ->
  extended T b (run (ops ++ [Book s; Insert s b] ++ map Book books_after)) = Err ETypeError.
Proof.
  intros ops s b t after B I U. set (pre := ops ++ [Book s; Insert s b]).
  assert (SC : s_score T (run pre) (b_cnst b) <> None).
  { unfold pre. change [Book s; Insert s b] with ([Book s] ++ [Insert s b]). rewrite app_assoc, run_app. cbn [fold_left M_Share.step]. exact (booked ops s b I). }
  assert (U' : forall s' b', In (Insert s' b') pre -> b_target b' = Some t -> b_cnst b' = b_cnst b).
  { intros s' b' X Y. unfold pre in X. apply in_app_or in X as [X|[X|[X|[]]]]; [now apply (U s')|discriminate|]. injection X as _ <-. reflexivity. }
  assert (N0 : s_pos T (run pre) t = None).
  { unfold pre. change [Book s; Insert s b] with ([Book s] ++ [Insert s b]). rewrite app_assoc, run_app. cbn [fold_left M_Share.step]. unfold M_Share.insert. rewrite B. cbn. apply put_same. }
  assert (N : s_pos T (run (pre ++ map Book after)) t = None).
  { induction after as [|s' after IH] using rev_ind; [now rewrite app_nil_r|]. rewrite map_app, app_assoc, run_app. cbn [map fold_left M_Share.step]. unfold M_Share.book. fold (books s' (run (pre ++ map Book after)) (s_blocks T (run (pre ++ map Book after)) s')).
    apply books_pos_none; [exact IH|]. intros b' X Y. apply run_blocks in X. apply in_app_or in X as [X|X]; [|apply in_map_iff in X as (? & X & _); discriminate]. rewrite (U' s' b' X Y), run_app. destruct (s_score T (run pre) (b_cnst b)) eqn:E; [|contradiction]. rewrite (score_kept (map Book after) (run pre) _ _ E). discriminate. }
  rewrite app_assoc. fold pre. unfold extended. now rewrite B, N.
Qed.
(** ** A shared target *)
Theorem target_stale_refuted : forall s1 s2 t c1 c2, s1 <> s2 -> c1 <> c2 ->
  let b1 := mkBlock (Some t) c1 in let b2 := mkBlock (Some t) c2 in
  s_score T (run [Insert s1 b1; Insert s2 b2; Book s1; Book s2]) c2 = Some (Some (times s1), times s2).
Proof.
  intros s1 s2 t c1 c2 S C b1 b2. unfold M_Share.run, M_Share.step, M_Share.book, M_Share.insert, M_Share.evaluate, fresh, put, b1, b2. cbn.
  repeat (rewrite ?Nat.eqb_refl, ?(proj2 (Nat.eqb_neq s1 s2) S), ?(proj2 (Nat.eqb_neq s2 s1) (not_eq_sym S)), ?(proj2 (Nat.eqb_neq c1 c2) C), ?(proj2 (Nat.eqb_neq c2 c1) (not_eq_sym C)); cbn). reflexivity.
Qed.
Theorem cleared_refuted : forall ops s b b', b_target b' <> None -> b_target b = b_target b' -> extended T b (run (ops ++ [Insert s b'])) = Err ETypeError.
Proof.
  intros ops s b b' N E. rewrite run_app. cbn [fold_left M_Share.step]. unfold extended. rewrite E. destruct (b_target b') as [t|] eqn:X; [|contradiction]. unfold M_Share.insert. cbn. rewrite X. now rewrite put_same.
Qed.
Theorem moved_refuted : forall s1 s2 t c1 c2, s1 <> s2 -> c1 <> c2 ->
  let b1 := mkBlock (Some t) c1 in let b2 := mkBlock (Some t) c2 in
  let st := run [Insert s1 b1; Book s1; Insert s2 b2; Book s2] in
  s_score T st c1 = Some (Some (times s1), times s1) /\ s_score T st c2 = Some (Some (times s2), times s2) /\ extended T b1 st = Ok (Some (times s2)).
Proof.
  intros s1 s2 t c1 c2 S C b1 b2 st. unfold st, extended, M_Share.run, M_Share.step, M_Share.book, M_Share.insert, M_Share.evaluate, fresh, put, b1, b2. cbn.
  repeat (rewrite ?Nat.eqb_refl, ?(proj2 (Nat.eqb_neq s1 s2) S), ?(proj2 (Nat.eqb_neq s2 s1) (not_eq_sym S)), ?(proj2 (Nat.eqb_neq c1 c2) C), ?(proj2 (Nat.eqb_neq c2 c1) (not_eq_sym C)); cbn). now repeat split.
Qed.
End Share.
Theorem no_target : forall T times ops b, b_target b = None -> extended T b (run T times ops) = Ok None.
Proof. intros T times ops b H. unfold extended. now rewrite H. Qed.
