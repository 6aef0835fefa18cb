(** Specification and proofs: insertion of blocks in a schedule. *)
From Coq Require Import List Arith ZArith QArith Bool Lia.
From Verif Require Import Base M_Slots M_Sched M_Cnst M_Blocks P_Slots P_Booking P_Book P_Book2 P_Session P_Blocks P_Blocks2.
Import ListNotations.
Open Scope nat_scope.

(** ** Specification *)

(** The observations among the elements of the arguments, in order. *)
Inductive obs_of (score : cset -> list Q) (h : heap) : list nat -> list (Z * option Z * list Q) -> Prop :=
| oo_nil : obs_of score h [] []
| oo_cons r t name prog dur dl cs l : data_at h r (PObs name prog dur dl cs) -> obs_of score h t l ->
    obs_of score h (r :: t) ((dur, dl, score cs) :: l).

Inductive spans_of (h : heap) : list nat -> list (Z * Z) -> Prop :=
| so_nil : spans_of h [] []
| so_cons r t a b l : data_at h r (PRes a b) -> spans_of h t l -> spans_of h (r :: t) ((a, b) :: l).

(** What one argument amounts to: the insertion of observations or a series of
    reservations. *)
Inductive arg_ops (score : cset -> list Q) (h : heap) : value -> list sop -> Prop :=
| ao_obs a refs l : elements h a refs -> obs_of score h refs l -> arg_ops score h (VRef a) [SInsert l]
| ao_res a refs l : elements h a refs -> refs <> [] -> spans_of h refs l ->
    arg_ops score h (VRef a) (map (fun p => SReserve (fst p) (snd p)) l).

(** The blocks of a schedule are numbered in order. *)
Definition numbered_blocks (st : sched) : Prop :=
  forall i b, nth_error (sc_blocks st) i = Some b -> bk_idx b = i.

(** Any number of calls to [insert], failed or not, on a heap that may change
    in between. *)
Inductive insertions (score : cset -> list Q) : world -> world -> Prop :=
| in_none w : insertions score w w
| in_heap w w' h : insertions score w w' -> insertions score w (mkWorld h (w_sched w') (w_res w'))
| in_call w w' args w'' e : insertions score w w' -> insert score w' args = (w'', e) -> insertions score w w''.

(** ** Proofs *)

Lemma is_obs_iff : forall h r, is_obs h r = true <-> exists n p d dl cs, data_at h r (PObs n p d dl cs).
Proof.
  intros. unfold is_obs, data_at. destruct (nth_error h r) as [o|].
  - destruct (o_data o) eqn:D; split; intros H; try discriminate; try reflexivity.
    + do 5 eexists. exists o. split; [reflexivity|exact D].
    + destruct H as (? & ? & ? & ? & ? & o' & E & X). injection E; intros <-. congruence.
    + destruct H as (? & ? & ? & ? & ? & o' & E & X). injection E; intros <-. congruence.
  - split; [discriminate|]. intros (? & ? & ? & ? & ? & o & E & _). discriminate.
Qed.

Lemma is_res_iff : forall h r, is_res h r = true <-> exists a b, data_at h r (PRes a b).
Proof.
  intros. unfold is_res, data_at. destruct (nth_error h r) as [o|].
  - destruct (o_data o) eqn:D; split; intros H; try discriminate; try reflexivity.
    + destruct H as (? & ? & o' & E & X). injection E; intros <-. congruence.
    + do 2 eexists. exists o. split; [reflexivity|exact D].
    + destruct H as (? & ? & o' & E & X). injection E; intros <-. congruence.
  - split; [discriminate|]. intros (? & ? & o & E & _). discriminate.
Qed.

Lemma all_obs : forall score h refs, forallb (is_obs h) refs = true <-> exists l, obs_of score h refs l.
Proof.
  intros score h. induction refs as [|r t IH]; cbn.
  - split; [exists []; constructor|reflexivity].
  - rewrite andb_true_iff, IH, is_obs_iff. split.
    + intros ((n & p & d & dl & cs & D) & (l & L)). eexists. econstructor; eassumption.
    + intros (l & L). inversion L; subst. split; [do 5 eexists; eassumption|eexists; eassumption].
Qed.

Lemma all_res : forall h refs, forallb (is_res h) refs = true <-> exists l, spans_of h refs l.
Proof.
  intros h. induction refs as [|r t IH]; cbn.
  - split; [exists []; constructor|reflexivity].
  - rewrite andb_true_iff, IH, is_res_iff. split.
    + intros ((a & b & D) & (l & L)). eexists. econstructor; eassumption.
    + intros (l & L). inversion L; subst. split; [do 2 eexists; eassumption|eexists; eassumption].
Qed.

Lemma push_obs_eq : forall score h st refs l, obs_of score h refs l ->
  sc_blocks (push_obs score h st refs) = sc_blocks (insert_obs st l).
Proof.
  intros score h st refs l O. unfold push_obs, insert_obs. cbn.
  generalize (sc_blocks st). induction O as [|r t name prog dur dl cs l (o & E & D) O IH]; intros bs; [reflexivity|].
  cbn [fold_left]. rewrite E, D. apply IH.
Qed.

Lemma span_map : forall h refs l, spans_of h refs l -> map (span_of h) refs = l.
Proof.
  intros h refs l S. induction S as [|r t a b l (o & E & D) S IH]; [reflexivity|]. cbn. unfold span_of at 1. now rewrite E, D, IH.
Qed.

(** Schedules that only differ by [_toSchedule]. *)
Definition same_but_todo (a b : sched) : Prop := set_todo a [] = set_todo b [].

Lemma sbt_step : forall a b o, same_but_todo a b -> (forall p v, o <> SBook p v) ->
  same_but_todo (sstep a o) (sstep b o).
Proof.
  intros a b [l|x y|p v] E N; [| |now destruct (N p v)]; unfold same_but_todo in *; cbn [sstep]; destruct a, b; unfold set_todo in E; cbn in E;
    injection E; intros; subst.
  - reflexivity.
  - unfold insert_res. cbn. destruct (add_booking _ x y) as [s [e|]]; reflexivity.
Qed.

Lemma reserve_ops : forall l st s', insert_reserved (mkSlots (sc_starts st) (sc_stops st) (sc_free st)) l = (s', None) ->
  same_but_todo (set_free st (sl_free s')) (srun st (map (fun p => SReserve (fst p) (snd p)) l)) /\
  sl_starts s' = sc_starts st /\ sl_stops s' = sc_stops st.
Proof.
  induction l as [|[a b] t IH]; intros st s' H.
  - cbn in H. injection H; intros <-. cbn. destruct st. now repeat split.
  - cbn [insert_reserved fst snd] in H.
    destruct (add_booking (mkSlots (sc_starts st) (sc_stops st) (sc_free st)) a b) as [s1 [e|]] eqn:E; [discriminate|].
    assert (S1 : s1 = mkSlots (sc_starts st) (sc_stops st) (sl_free s1)).
    { unfold add_booking in E. destruct (time2idx2 _ a b); [|discriminate]. injection E; intros <-. reflexivity. }
    set (st1 := fst (insert_res st a b)).
    assert (Q : st1 = set_todo (set_free st (sl_free s1)) (repeat true (length (sc_blocks st)))).
    { unfold st1, insert_res. now rewrite E. }
    rewrite S1 in H. destruct (IH st1 s') as (A & B & C). { rewrite Q. exact H. }
    rewrite Q in B, C. cbn in B, C. split; [|now split].
    cbn [map]. change (srun st (SReserve (fst (a, b)) (snd (a, b)) :: map (fun p => SReserve (fst p) (snd p)) t))
      with (srun st1 (map (fun p => SReserve (fst p) (snd p)) t)).
    unfold same_but_todo in *. rewrite <- A, Q. reflexivity.
Qed.

Lemma srun_app : forall a b st, srun st (a ++ b) = srun (srun st a) b.
Proof. intros. unfold srun. apply fold_left_app. Qed.

Lemma sbt_run : forall ops a b, same_but_todo a b -> (forall o, In o ops -> forall p v, o <> SBook p v) ->
  same_but_todo (srun a ops) (srun b ops).
Proof.
  induction ops as [|o t IH]; intros a b E N; [assumption|].
  change (same_but_todo (srun (sstep a o) t) (srun (sstep b o) t)). apply IH; [|intros o' I; apply N; now right].
  apply sbt_step; [assumption|]. intros p v. now apply N; left.
Qed.

(** A heap in which only numbers change and objects appear. *)
Definition grows (h h' : heap) : Prop := same_but (fun _ => True) h h'.

Lemma grows_data : forall h h' r d, grows h h' -> data_at h r d -> data_at h' r d.
Proof. intros h h' r d G (o & E & D). destruct (G r o E) as (o' & E' & D' & _). exists o'. split; [assumption|congruence]. Qed.

Lemma grows_elements : forall h h' a l, grows h h' -> elements h a l -> elements h' a l.
Proof. intros h h' a l G (o & E & D). destruct (G a o E) as (o' & E' & _ & D' & _). exists o'. split; [assumption|congruence]. Qed.

Lemma insert_one_spec : forall score w v w', wf (w_heap w) -> valid_value (w_heap w) v ->
  (forall r, w_res w = Some r -> r < length (w_heap w)) -> insert_one score w v = (w', None) ->
  exists ops, arg_ops score (w_heap w) v ops /\ same_but_todo (w_sched w') (srun (w_sched w) ops) /\
    wf (w_heap w') /\ grows (w_heap w) (w_heap w') /\ (forall r, w_res w' = Some r -> r < length (w_heap w')).
Proof.
  intros score w v w' W V RES H. destruct v as [a|z|]; try discriminate. apply valid_ref in V. cbn [insert_one] in H.
  assert (EL : elements (w_heap w) a (refs_of (w_heap w) a)) by (apply elements_iff; now split).
  destruct (forallb (is_obs (w_heap w)) (refs_of (w_heap w) a)) eqn:O.
  - apply (proj1 (all_obs score _ _)) in O. destruct O as (l & O). injection H; intros <-. cbn [w_heap w_sched w_res].
    exists [SInsert l]. split; [econstructor; eassumption|]. split.
    + pose proof (push_obs_eq score (w_heap w) (w_sched w) _ l O) as P. unfold same_but_todo.
      change (srun (w_sched w) [SInsert l]) with (insert_obs (w_sched w) l).
      unfold push_obs, insert_obs in *. cbn in *. now rewrite P.
    + split; [assumption|]. split; [apply same_but_refl|assumption].
  - destruct (forallb (is_res (w_heap w)) (refs_of (w_heap w) a)) eqn:R; [|discriminate].
    apply all_res in R. destruct R as (l & R).
    assert (NE : refs_of (w_heap w) a <> []) by (intros X; rewrite X in O; discriminate).
    unfold reserve in H. rewrite (span_map _ _ _ R) in H.
    destruct (insert_reserved _ l) as [s [e|]] eqn:E; cbn [fst snd] in H; [discriminate|].
    apply reserve_ops in E. destruct E as (E & _).
    exists (map (fun p => SReserve (fst p) (snd p)) l). split; [econstructor; eassumption|].
    destruct (w_res w) as [r|] eqn:WR.
    + assert (F : Forall (fun r => r < length (w_heap w)) (refs_of (w_heap w) r ++ refs_of (w_heap w) a))
        by (apply Forall_app; split; now apply wf_refs).
      destruct (new_block_spec (w_heap w) _ F) as (X0 & X1 & _ & _ & X4 & _).
      injection H; intros <-. cbn [w_heap w_sched w_res]. split; [assumption|]. split; [now apply wf_new_block|].
      split; [eapply same_but_weaken; [|exact X4]; auto|]. intros q Q. injection Q; intros <-.
      change (snd (new_block (w_heap w) (refs_of (w_heap w) r ++ refs_of (w_heap w) a)) < length (fst (new_block (w_heap w) (refs_of (w_heap w) r ++ refs_of (w_heap w) a)))).
      rewrite X0, X1. lia.
    + injection H; intros <-. cbn [w_heap w_sched w_res]. split; [assumption|]. split; [assumption|].
      split; [apply same_but_refl|]. intros q Q. injection Q; intros <-. assumption.
Qed.

Lemma obs_of_shrink : forall score h h' refs l, grows h h' -> Forall (fun r => r < length h) refs ->
  obs_of score h' refs l -> obs_of score h refs l.
Proof.
  intros score h h' refs l G F O. induction O as [|r t name prog dur dl cs l (o & E & D) O IH]; [constructor|].
  inversion F; subst. econstructor; [|now apply IH].
  destruct (nth_error h r) as [o0|] eqn:E0; [|apply nth_error_None in E0; lia].
  destruct (G r o0 E0) as (o' & E' & D' & _). rewrite E in E'. injection E'; intros <-. exists o0. split; [assumption|]. rewrite <- D'. exact D.
Qed.

Lemma spans_of_shrink : forall h h' refs l, grows h h' -> Forall (fun r => r < length h) refs ->
  spans_of h' refs l -> spans_of h refs l.
Proof.
  intros h h' refs l G F O. induction O as [|r t a b l (o & E & D) O IH]; [constructor|].
  inversion F; subst. constructor; [|now apply IH].
  destruct (nth_error h r) as [o0|] eqn:E0; [|apply nth_error_None in E0; lia].
  destruct (G r o0 E0) as (o' & E' & D' & _). rewrite E in E'. injection E'; intros <-. exists o0. split; [assumption|]. rewrite <- D'. exact D.
Qed.

Lemma arg_ops_shrink : forall score h h' v ops, wf h -> grows h h' -> valid_value h v ->
  arg_ops score h' v ops -> arg_ops score h v ops.
Proof.
  intros score h h' v ops W G V A.
  assert (EL : forall a refs, a < length h -> elements h' a refs -> elements h a refs).
  { intros a refs L E. apply elements_iff in E. apply elements_iff. split; [assumption|].
    destruct E as [_ <-]. symmetry. now apply (refs_of_same _ _ _ _ G). }
  inversion A; subst; apply valid_ref in V.
  - apply ao_obs with (refs := refs); [now apply EL|]. apply (obs_of_shrink score h h'); try assumption.
    pose proof (EL _ _ V H) as X. apply elements_iff in X. destruct X as [_ <-]. now apply wf_refs.
  - apply ao_res with (refs := refs); [now apply EL|assumption|]. apply (spans_of_shrink h h'); try assumption.
    pose proof (EL _ _ V H) as X. apply elements_iff in X. destruct X as [_ <-]. now apply wf_refs.
Qed.

Lemma arg_ops_nobook : forall score h v ops o, arg_ops score h v ops -> In o ops -> forall p u, o <> SBook p u.
Proof.
  intros score h v ops o A I p u E. subst o. inversion A; subst.
  - destruct I as [I|[]]; discriminate.
  - apply in_map_iff in I. destruct I as (q & I & _). discriminate.
Qed.

Lemma insert_args_spec : forall score args w w', wf (w_heap w) -> Forall (valid_value (w_heap w)) args ->
  (forall r, w_res w = Some r -> r < length (w_heap w)) -> insert_args score w args = (w', None) ->
  exists opss, Forall2 (arg_ops score (w_heap w)) args opss /\ same_but_todo (w_sched w') (srun (w_sched w) (concat opss)) /\
    wf (w_heap w') /\ grows (w_heap w) (w_heap w') /\ (forall r, w_res w' = Some r -> r < length (w_heap w')).
Proof.
  intros score. induction args as [|v t IH]; intros w w' W F RES H; cbn [insert_args] in H.
  - injection H; intros <-. exists []. split; [constructor|]. split; [reflexivity|]. split; [assumption|]. split; [apply same_but_refl|assumption].
  - inversion F; subst. destruct (insert_one score w v) as [w1 [e|]] eqn:E; [discriminate|].
    destruct (insert_one_spec score w v w1 W H2 RES E) as (ops & A & S & W1 & G & R1).
    destruct (IH w1 w' W1) as (opss & B & S2 & W2 & G2 & R2); [|assumption|assumption|].
    { eapply Forall_impl; [|exact H3]. intros u. apply valid_mono. exact (same_but_length _ _ _ G). }
    exists (ops :: opss). split.
    + constructor; [assumption|].
      clear - B W G H3. revert H3. induction B as [|x y l m XY B IH]; intros F; [constructor|]. inversion F; subst.
      constructor; [now apply (arg_ops_shrink score _ (w_heap w1))|now apply IH].
    + cbn [concat]. rewrite srun_app. split; [|split; [assumption|split; [|assumption]]].
      * unfold same_but_todo. rewrite S2. apply sbt_run; [assumption|]. intros o I p u.
        apply in_concat in I. destruct I as (l & I1 & I2). clear -B I1 I2.
        induction B as [|x y xs ys XY B IH]; [destruct I1|]. destruct I1 as [->|I1]; [eapply arg_ops_nobook; eassumption|now apply IH].
      * eapply same_but_weaken; [|exact (same_but_trans _ _ _ _ _ G G2)]. auto.
Qed.

(** A successful insertion is the one of its arguments one after the other. *)
Lemma insert_refines : forall score w args w', breach (w_heap w) -> Forall (valid_value (w_heap w)) args ->
  (forall r, w_res w = Some r -> r < length (w_heap w)) -> insert score w args = (w', None) ->
  exists opss, Forall2 (arg_ops score (w_heap w)) args opss /\
    w_sched w' = srun (w_sched w) (concat opss ++ [SInsert []]).
Proof.
  intros score w args w' B F RES H. unfold insert in H.
  destruct (insert_args score w args) as [w1 [e|]] eqn:E; [discriminate|].
  destruct (insert_args_spec score args w w1 (breach_wf _ B) F RES E) as (opss & A & S & _).
  injection H; intros <-. cbn [w_sched]. exists opss. split; [assumption|]. rewrite srun_app.
  set (st := srun (w_sched w) (concat opss)) in *.
  change (srun st [SInsert []]) with (set_todo (set_blocks st (sc_blocks st)) (repeat true (length (sc_blocks st)))).
  unfold same_but_todo in S. unfold set_todo, set_blocks in *. injection S; intros S1 S2 S3 S4 S5 S6 S7 S8 S9 S10. cbn.
  now rewrite S1, S2, S3, S4, S5, S6, S7, S8, S9, S10.
Qed.

Lemma obs_scores : forall score h refs l, (forall cs q, In q (score cs) -> (0 <= q)%Q) -> obs_of score h refs l ->
  forall x, In x l -> forall q, In q (snd x) -> (0 <= q)%Q.
Proof.
  intros score h refs l SC O. induction O as [|r t name prog dur dl cs l D O IH]; intros x I q Q; [destruct I|].
  destruct I as [<-|I]; [exact (SC cs q Q)|exact (IH x I q Q)].
Qed.

Lemma insert_reach : forall score w args w', breach (w_heap w) -> Forall (valid_value (w_heap w)) args ->
  (forall r, w_res w = Some r -> r < length (w_heap w)) -> insert score w args = (w', None) ->
  (forall cs q, In q (score cs) -> (0 <= q)%Q) -> reach3 (w_sched w) -> reach3 (w_sched w').
Proof.
  intros score w args w' B F RES H SC R.
  destruct (insert_refines score w args w' B F RES H) as (opss & A & ->).
  assert (OK : Forall op_nonneg (concat opss ++ [SInsert []])).
  { apply Forall_app. split; [|constructor; [intros x []|constructor]].
    apply Forall_forall. intros o I. apply in_concat in I. destruct I as (l & I1 & I2).
    clear -A I1 I2 SC. induction A as [|v ops vs ls X A IH]; [destruct I1|]. destruct I1 as [->|I1]; [|now apply IH].
    inversion X; subst.
    - destruct I2 as [<-|[]]. cbn. intros x I q Q.
      match goal with K : obs_of _ _ _ _ |- _ => exact (obs_scores score _ _ _ SC K x I q Q) end.
    - apply in_map_iff in I2. destruct I2 as (p & <- & _). exact Logic.I. }
  clear -R OK. revert R. generalize (w_sched w). induction OK as [|o t O OK IH]; intros st R; [exact R|].
  change (reach3 (srun (sstep st o) t)). apply IH. now apply r3_op.
Qed.

(** ** Numbering *)

Lemma push_obs_blocks : forall score h st refs, exists new,
  sc_blocks (push_obs score h st refs) = sc_blocks st ++ new /\
  forall j b, nth_error new j = Some b -> bk_idx b = length (sc_blocks st) + j /\ bk_start b = None.
Proof.
  intros score h st refs. unfold push_obs. cbn. generalize (sc_blocks st). induction refs as [|r t IH]; intros bs.
  - exists []. split; [now rewrite app_nil_r|]. intros [|j]; discriminate.
  - cbn [fold_left].
    destruct (nth_error h r) as [o|]; [|apply IH]. destruct (o_data o) as [n p d dl cs| |]; [|apply IH|apply IH].
    destruct (IH (bs ++ [new_blk (sc_dt st) (length bs) d dl (score cs)])) as (new & E & N).
    exists (new_blk (sc_dt st) (length bs) d dl (score cs) :: new). split; [rewrite E, <- app_assoc; reflexivity|].
    intros [|j] b J.
    + cbn in J. injection J; intros <-. cbn. split; [lia|reflexivity].
    + cbn in J. destruct (N j b J) as [N1 N2]. rewrite app_length in N1. cbn in N1. split; [lia|assumption].
Qed.

Definition appended (st st' : sched) : Prop :=
  exists new, sc_blocks st' = sc_blocks st ++ new /\
    forall j b, nth_error new j = Some b -> bk_idx b = length (sc_blocks st) + j /\ bk_start b = None.

Lemma appended_refl : forall st st', sc_blocks st' = sc_blocks st -> appended st st'.
Proof. intros st st' E. exists []. split; [now rewrite app_nil_r|]. intros [|j]; discriminate. Qed.

Lemma appended_trans : forall a b c, appended a b -> appended b c -> appended a c.
Proof.
  intros a b c (n1 & E1 & F1) (n2 & E2 & F2). exists (n1 ++ n2). split; [rewrite E2, E1; now rewrite app_assoc|].
  intros j x J. destruct (le_lt_dec (length n1) j) as [G|G].
  - rewrite nth_error_app2 in J by assumption. destruct (F2 _ x J) as [A B]. rewrite E1, app_length in A. split; [lia|assumption].
  - rewrite nth_error_app1 in J by assumption. now apply F1.
Qed.

Lemma insert_one_appended : forall score w v w' e, insert_one score w v = (w', e) -> appended (w_sched w) (w_sched w').
Proof.
  intros score w [a|z|] w' e H; cbn [insert_one] in H; try (injection H; intros; subst; now apply appended_refl).
  destruct (forallb (is_obs (w_heap w)) _).
  - injection H; intros; subst. apply push_obs_blocks.
  - destruct (forallb (is_res (w_heap w)) _); [|injection H; intros; subst; now apply appended_refl].
    unfold reserve in H. destruct (insert_reserved _ _) as [s [e0|]]; cbn [fst snd] in H.
    + injection H; intros; subst. now apply appended_refl.
    + destruct (w_res w); injection H; intros; subst; now apply appended_refl.
Qed.

Lemma insert_appended : forall score w args w' e, insert score w args = (w', e) -> appended (w_sched w) (w_sched w').
Proof.
  intros score w args w' e H. unfold insert in H.
  assert (A : forall args w w' e, insert_args score w args = (w', e) -> appended (w_sched w) (w_sched w')).
  { clear. induction args as [|v t IH]; intros w w' e H; cbn [insert_args] in H; [injection H; intros; subst; now apply appended_refl|].
    destruct (insert_one score w v) as [w1 [e1|]] eqn:E; apply insert_one_appended in E.
    - injection H; intros; subst. exact E.
    - apply IH in H. eapply appended_trans; eassumption. }
  destruct (insert_args score w args) as [w1 e1] eqn:E. apply A in E. destruct e1; injection H; intros; subst; [exact E|].
  eapply appended_trans; [exact E|]. now apply appended_refl.
Qed.

Lemma numbering : forall score w w', insertions score w w' -> numbered_blocks (w_sched w) ->
  numbered_blocks (w_sched w') /\
  (forall i b, nth_error (sc_blocks (w_sched w)) i = Some b -> nth_error (sc_blocks (w_sched w')) i = Some b).
Proof.
  intros score w w' I N.
  assert (A : appended (w_sched w) (w_sched w')).
  { induction I as [w|w w' h I IH|w w' args w'' e I IH E]; [now apply appended_refl|now apply IH|].
    eapply appended_trans; [now apply IH|]. eapply insert_appended; eassumption. }
  destruct A as (new & E & F). split.
  - intros i b H. rewrite E in H. destruct (le_lt_dec (length (sc_blocks (w_sched w))) i) as [G|G].
    + rewrite nth_error_app2 in H by assumption. apply F in H. destruct H as [H _]. lia.
    + rewrite nth_error_app1 in H by assumption. now apply N.
  - intros i b H. rewrite E, nth_error_app1; [assumption|]. apply nth_error_Some. congruence.
Qed.

(** The order and the contents. *)
Lemma insert_contents : forall score w a refs l w' , breach (w_heap w) -> elements (w_heap w) a refs ->
  obs_of score (w_heap w) refs l -> insert score w [VRef a] = (w', None) ->
  exists new, sc_blocks (w_sched w') = sc_blocks (w_sched w) ++ new /\ length new = length l /\
    forall j dur dl s, nth_error l j = Some (dur, dl, s) -> exists b, nth_error new j = Some b /\
      bk_idx b = length (sc_blocks (w_sched w)) + j /\ bk_dur b = dur /\ bk_score b = s /\ bk_start b = None /\
      bk_nslots b = Z.to_nat (cdiv dur (sc_dt (w_sched w))).
Proof.
  intros score w a refs l w' B E O H. apply elements_iff in E. destruct E as [L R].
  unfold insert in H. cbn [insert_args insert_one] in H. rewrite R in H.
  rewrite (proj2 (all_obs score _ _) (ex_intro _ l O)) in H. injection H; intros <-. cbn [w_sched].
  change (sc_blocks (set_todo ?x ?y)) with (sc_blocks x). cbn [w_sched]. 
  destruct (insert_obs_facts (w_sched w) l) as (new & E1 & E2 & E3 & _).
  exists new. split; [cbn; rewrite <- E1; now rewrite <- (push_obs_eq score (w_heap w) (w_sched w) refs l O)|].
  split; [assumption|]. intros j dur dl s J.
  destruct (nth_error new j) as [b|] eqn:NB.
  - exists b. split; [reflexivity|]. destruct (E3 j b NB) as (d' & dl' & s' & J' & ->). rewrite J in J'. injection J'; intros; subst.
    cbn. now repeat split.
  - apply nth_error_None in NB. assert (j < length l) by (apply nth_error_Some; congruence). lia.
Qed.

(** ** Failures *)

(** A collection that mixes observations and reservations, or holds another
    collection, is refused. *)
Lemma insert_mixed : forall score w a refs, elements (w_heap w) a refs ->
  (~ exists l, obs_of score (w_heap w) refs l) -> (~ exists l, spans_of (w_heap w) refs l) ->
  insert score w [VRef a] = (w, Some EException).
Proof.
  intros score w a refs E O S. apply elements_iff in E. destruct E as [_ R].
  unfold insert. cbn [insert_args insert_one]. rewrite R.
  destruct (forallb (is_obs (w_heap w)) refs) eqn:X; [apply (proj1 (all_obs score _ _)) in X; contradiction|].
  destruct (forallb (is_res (w_heap w)) refs) eqn:Y; [apply all_res in Y; contradiction|]. reflexivity.
Qed.
