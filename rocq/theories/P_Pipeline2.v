(** Tasks, pipeline edits and [Spectra.get]: specification and proofs. *)
From Coq Require Import Ascii String List Arith ZArith QArith Bool Lia Permutation.
From Verif Require Import Base M_Pipeline P_Pipeline.
Import ListNotations.
Open Scope nat_scope.

Section Tasks.
Context {T F D : Type}.
Notation task := (task T F D).
Notation call := (call T F D).

(** ** Running a pipeline *)
(** The keyword arguments of a task, read in the parameters. *)
Definition reads (ps : params) (t : task) (kw : list (string * option pyval)) : Prop :=
  Forall2 (fun k a => fst a = k /\ exists v, get_item ps k = Ok v /\ snd a = Some v) (targs t) kw.
(** The effect of an embedded function: what it does not take is left as is. *)
Definition effect (c : call) (kw : list (string * option pyval)) (x y : T * F * D) : Prop :=
  match c with
  | CData g => fst (fst y) = fst (fst x) /\ snd (fst y) = snd (fst x) /\ g kw (snd x) = Ok (snd y)
  | CFreq g => fst (fst y) = fst (fst x) /\ g kw (snd (fst x)) (snd x) = Ok (snd (fst y), snd y)
  | CTime g => snd (fst y) = snd (fst x) /\ g kw (fst (fst x)) (snd x) = Ok (fst (fst y), snd y)
  | CAll g => g kw (fst (fst x)) (snd (fst x)) (snd x) = Ok y
  end.
Definition fails (c : call) (kw : list (string * option pyval)) (x : T * F * D) (e : err) : Prop :=
  match c with
  | CData g => g kw (snd x) = Err e
  | CFreq g => g kw (snd (fst x)) (snd x) = Err e
  | CTime g => g kw (fst (fst x)) (snd x) = Err e
  | CAll g => g kw (fst (fst x)) (snd (fst x)) (snd x) = Err e
  end.
(** The tasks one after the other, in the order of the list. *)
Inductive applies (ps : params) : list task -> T * F * D -> T * F * D -> Prop :=
| applies_nil : forall x, applies ps [] x x
| applies_cons : forall t r kw x y z, reads ps t kw -> effect (tcall t) kw x y -> applies ps r y z ->
    applies ps (t :: r) x z.

Lemma dict_get_set : forall k v l k', dict_get k' (dict_set k v l) = if String.eqb k' k then Some v else dict_get k' l.
Proof.
  intros k v. induction l as [|[a b] l IH]; intro k'; cbn [dict_set dict_get].
  - reflexivity.
  - destruct (String.eqb_spec k a) as [->|N]; cbn [dict_get].
    + destruct (String.eqb k' a); reflexivity.
    + rewrite IH. destruct (String.eqb_spec k' a) as [->|M]; [|reflexivity].
      destruct (String.eqb_spec a k) as [->|]; [contradiction|reflexivity].
Qed.

Lemma update_args_ok : forall ps keys x x', update_args ps keys x = (x', None) ->
  (forall k, In k keys -> exists v, get_item ps k = Ok v /\ dict_get k x' = Some v) /\
  (forall k, ~ In k keys -> dict_get k x' = dict_get k x).
Proof.
  intros ps. induction keys as [|k keys IH]; intros x x' H; cbn [update_args] in H.
  - injection H as <-. split; [intros k []|reflexivity].
  - destruct (get_item ps k) as [v|e] eqn:G; [|discriminate]. apply IH in H. destruct H as [A B]. split.
    + intros k' [<-|I]; [|apply A; exact I]. destruct (in_dec string_dec k keys) as [I|I]; [apply A; exact I|].
      exists v. split; [exact G|]. rewrite (B _ I), dict_get_set, String.eqb_refl. reflexivity.
    + intros k' N. rewrite B by (intro C; apply N; right; exact C). rewrite dict_get_set.
      destruct (String.eqb_spec k' k) as [->|]; [exfalso; apply N; left; reflexivity|reflexivity].
Qed.
Lemma update_args_err : forall ps keys x x' e, update_args ps keys x = (x', Some e) ->
  e = EKeyError /\ exists k, In k keys /\ unknown (now ps) k.
Proof.
  intros ps. induction keys as [|k keys IH]; intros x x' e H; cbn [update_args] in H; [discriminate|].
  destruct (get_item ps k) as [v|e'] eqn:G.
  - apply IH in H. destruct H as (-> & k' & I & U). split; [reflexivity|]. exists k'. split; [right; exact I|exact U].
  - injection H as <- <-. apply get_item_err in G. destruct G as [U ->]. split; [reflexivity|]. exists k. split; [left; reflexivity|exact U].
Qed.

Lemma update_same : forall ps (t : task), tname (fst (update ps t)) = tname t /\ trepeat (fst (update ps t)) = trepeat t /\
  targs (fst (update ps t)) = targs t /\ tcall (fst (update ps t)) = tcall t.
Proof. intros ps t. unfold update. destruct (update_args ps (targs t) (textra t)) as [x [e|]]; cbn; auto. Qed.

Lemma update_reads : forall ps (t t' : task), update ps t = (t', None) -> reads ps t (keywords_of t').
Proof.
  intros ps t t' H. unfold update in H. destruct (update_args ps (targs t) (textra t)) as [x [e|]] eqn:E; [discriminate|].
  injection H as <-. apply update_args_ok in E. destruct E as [A _]. unfold reads, keywords_of. cbn [targs textra].
  assert (G : forall l, incl l (targs t) ->
    Forall2 (fun k a => fst a = k /\ (exists v, get_item ps k = Ok v /\ snd a = Some v)) l (map (fun k => (k, dict_get k x)) l)).
  { induction l as [|k l IH]; intro I; cbn [map]; constructor.
    - cbn. split; [reflexivity|]. destruct (A k (I k (or_introl eq_refl))) as (v & G & X). exists v. auto.
    - apply IH. intros a B. apply I. right. exact B. }
  apply G. apply incl_refl.
Qed.
Lemma reads_det : forall ps (t : task) kw kw', reads ps t kw -> reads ps t kw' -> kw = kw'.
Proof.
  intros ps t kw kw' A. unfold reads in *. revert kw'. induction A as [|k [a b] l m (Ha & v & G & Hb) _ IH]; intros kw' B; inversion B as [|k' [a' b'] l' m' (Ha' & v' & G' & Hb') R]; subst.
  - reflexivity.
  - cbn in *. f_equal; [congruence|]. apply IH. exact R.
Qed.
Lemma update_err : forall ps (t t' : task) e, update ps t = (t', Some e) -> e = EKeyError /\ exists k, In k (targs t) /\ unknown (now ps) k.
Proof.
  intros ps t t' e H. unfold update in H. destruct (update_args ps (targs t) (textra t)) as [x [e'|]] eqn:E; [|discriminate].
  injection H as <- <-. eapply update_args_err. exact E.
Qed.
Lemma reads_known : forall ps (t : task) kw k, reads ps t kw -> In k (targs t) -> ~ unknown (now ps) k.
Proof.
  intros ps t kw k R. unfold reads in R. induction R as [|k' a l m (_ & v & G & _) _ IH]; [intros []|].
  intros [<-|I]; [|apply IH; exact I]. intro U.
  assert (C : get_item ps k' = Err EKeyError) by (apply get_item_err; auto). congruence.
Qed.
Lemma update_defined : forall ps (t : task) kw, reads ps t kw -> exists t', update ps t = (t', None) /\ keywords_of t' = kw.
Proof.
  intros ps t kw R. destruct (update ps t) as [t' [e|]] eqn:U.
  - apply update_err in U. destruct U as (_ & k & I & X). exfalso. eapply reads_known; eassumption.
  - exists t'. split; [reflexivity|]. apply update_reads in U. eapply reads_det; eassumption.
Qed.

Lemma call_effect : forall (t : task) x y, call_task t x = Ok y <-> effect (tcall t) (keywords_of t) x y.
Proof.
  intros t [[tm fr] d] [[tm' fr'] d']. unfold call_task, effect. destruct (tcall t) as [g|g|g|g]; cbn [fst snd].
  - destruct (g (keywords_of t) d) as [z|e]; cbn [bind]; split.
    + intro H. injection H as <- <- <-. auto.
    + intros (-> & -> & H). congruence.
    + discriminate.
    + intros (_ & _ & H). discriminate.
  - destruct (g (keywords_of t) fr d) as [[z w]|e]; cbn [bind fst snd]; split.
    + intro H. injection H as <- <- <-. auto.
    + intros (-> & H). congruence.
    + discriminate.
    + intros (_ & H). discriminate.
  - destruct (g (keywords_of t) tm d) as [[z w]|e]; cbn [bind fst snd]; split.
    + intro H. injection H as <- <- <-. auto.
    + intros (-> & H). congruence.
    + discriminate.
    + intros (_ & H). discriminate.
  - reflexivity.
Qed.
Lemma call_fails : forall (t : task) x e, call_task t x = Err e <-> fails (tcall t) (keywords_of t) x e.
Proof.
  intros t [[tm fr] d] e. unfold call_task, fails. destruct (tcall t) as [g|g|g|g]; cbn [fst snd];
    [destruct (g (keywords_of t) d)|destruct (g (keywords_of t) fr d)|destruct (g (keywords_of t) tm d)|reflexivity];
    cbn [bind]; (split; [congruence|congruence]).
Qed.

Theorem run_applies : forall ps (ts : list task) x y, snd (run ps ts x) = Ok y <-> applies ps ts x y.
Proof.
  intros ps. induction ts as [|t r IH]; intros x y; cbn [run].
  - cbn. split; [intro H; injection H as <-; constructor|intro H; inversion H; reflexivity].
  - destruct (update ps t) as [t' [e|]] eqn:U.
    + cbn. split; [discriminate|]. intro A. inversion A as [|t0 r0 kw x0 y0 z0 R E A']; subst.
      apply update_defined in R. destruct R as (t'' & U' & _). congruence.
    + pose proof (update_reads _ _ _ U) as R. pose proof (update_same ps t) as (_ & _ & _ & C). rewrite U in C. cbn in C.
      destruct (call_task t' x) as [z|e] eqn:K.
      * destruct (run ps r z) as [r' w] eqn:Rn. cbn [snd]. specialize (IH z y). rewrite Rn in IH. cbn in IH. rewrite IH.
        apply call_effect in K. rewrite C in K. split.
        -- intro A. eapply applies_cons; eassumption.
        -- intro A. inversion A as [|t0 r0 kw x0 y0 z0 R0 E0 A']; subst.
           rewrite (reads_det _ _ _ _ R0 R) in E0.
           assert (Q : call_task t' x = Ok y0) by (apply call_effect; rewrite C; exact E0).
           assert (Q' : call_task t' x = Ok z) by (apply call_effect; rewrite C; exact K). congruence.
      * cbn. split; [discriminate|]. intro A. inversion A as [|t0 r0 kw x0 y0 z0 R0 E0 A']; subst.
        rewrite (reads_det _ _ _ _ R0 R) in E0.
        assert (Q : call_task t' x = Ok y0) by (apply call_effect; rewrite C; exact E0). congruence.
Qed.

Theorem run_fails : forall ps (ts : list task) x e, snd (run ps ts x) = Err e <->
  exists before t after y, ts = before ++ t :: after /\ applies ps before x y /\
    ((exists k, In k (targs t) /\ unknown (now ps) k) /\ e = EKeyError \/
     (exists kw, reads ps t kw /\ fails (tcall t) kw y e)).
Proof.
  intros ps. induction ts as [|t r IH]; intros x e; cbn [run].
  - cbn. split; [discriminate|]. intros (b & t & a & y & H & _). destruct b; discriminate.
  - destruct (update ps t) as [t' [e'|]] eqn:U.
    + assert (U' := U). apply update_err in U'. destruct U' as (-> & k & I & X). cbn. split.
      * intro H. injection H as <-. exists [], t, r, x. split; [reflexivity|]. split; [constructor|]. left. split; [exists k; auto|reflexivity].
      * intros (b & t0 & a & y & H & A & P). destruct b as [|b0 b].
        -- injection H as -> ->. destruct P as [[_ ->]|(kw & R & _)]; [reflexivity|].
           exfalso. eapply reads_known; eassumption.
        -- injection H as -> ->. inversion A as [|t1 r1 kw x1 y1 z1 R E A']; subst. exfalso. eapply reads_known; eassumption.
    + pose proof (update_reads _ _ _ U) as R. pose proof (update_same ps t) as (_ & _ & Ta & C). rewrite U in C, Ta. cbn in C, Ta.
      destruct (call_task t' x) as [z|e'] eqn:K.
      * destruct (run ps r z) as [r' w] eqn:Rn. cbn [snd]. specialize (IH z e). rewrite Rn in IH. cbn in IH. rewrite IH.
        pose proof (proj1 (call_effect _ _ _) K) as KE. rewrite C in KE. split.
        -- intros (b & t0 & a & y & -> & A & P). exists (t :: b), t0, a, y. split; [reflexivity|]. split; [|exact P].
           eapply applies_cons; eassumption.
        -- intros (b & t0 & a & y & H & A & P). destruct b as [|b0 b].
           ++ injection H as -> ->. inversion A; subst. destruct P as [[(k & I & X) _]|(kw & R0 & Fl)].
              ** exfalso. eapply reads_known; eassumption.
              ** rewrite (reads_det _ _ _ _ R0 R), <- C in Fl. apply call_fails in Fl. congruence.
           ++ injection H as -> ->. inversion A as [|t1 r1 kw x1 y1 z1 R1 E1 A']; subst.
              rewrite (reads_det _ _ _ _ R1 R) in E1.
              assert (Q : call_task t' x = Ok y1) by (apply call_effect; rewrite C; exact E1).
              assert (y1 = z) by congruence. subst y1. exists b, t0, a, y. auto.
      * pose proof (proj1 (call_fails _ _ _) K) as KE. rewrite C in KE. cbn. split.
        -- intro H. injection H as <-. exists [], t, r, x. split; [reflexivity|]. split; [constructor|]. right. exists (keywords_of t'). auto.
        -- intros (b & t0 & a & y & H & A & P). destruct b as [|b0 b].
           ++ injection H as -> ->. inversion A; subst. destruct P as [[(k & I & X) _]|(kw & R0 & Fl)].
              ** exfalso. eapply reads_known; eassumption.
              ** rewrite (reads_det _ _ _ _ R0 R), <- C in Fl. apply call_fails in Fl. congruence.
           ++ injection H as -> ->. inversion A as [|t1 r1 kw x1 y1 z1 R1 E1 A']; subst.
              rewrite (reads_det _ _ _ _ R1 R) in E1.
              assert (Q : call_task t' x = Ok y1) by (apply call_effect; rewrite C; exact E1). congruence.
Qed.

(** The tasks are left as they were, up to their flag and the values read. *)
Definition same_task (t u : task) : Prop :=
  tname t = tname u /\ trepeat t = trepeat u /\ targs t = targs u /\ tcall t = tcall u.
Theorem run_tasks : forall ps (ts : list task) x, Forall2 same_task (fst (run ps ts x)) ts.
Proof.
  assert (Rf : forall l : list task, Forall2 same_task l l) by (induction l; constructor; [repeat split|assumption]).
  intros ps. induction ts as [|t r IH]; intro x; cbn [run]; [constructor|].
  pose proof (update_same ps t) as U. destruct (update ps t) as [t' [e|]]; cbn in U.
  - cbn. constructor; [exact U|apply Rf].
  - destruct (call_task t' x) as [z|e].
    + specialize (IH z). destruct (run ps r z) as [r' w]. cbn in *. constructor; [exact U|exact IH].
    + cbn. constructor; [exact U|apply Rf].
Qed.

(** ** Activity *)
(** Tasks obtained from a new task by updates. *)
Inductive reached : task -> Prop :=
| reached_new : forall n c a r, reached (make_task n c a r)
| reached_update : forall ps t, reached t -> reached (fst (update ps t)).
Definition all_given (ps : params) (t : task) : Prop :=
  forall k v, In k (targs t) -> get_item ps k = Ok v -> v <> VNone.

Lemma dict_set_keys : forall k v l a, In a (map fst (dict_set k v l)) -> a = k \/ In a (map fst l).
Proof.
  intros k v. induction l as [|[k' v'] l IH]; intros a; cbn [dict_set map].
  - cbn. intros [<-|[]]. left. reflexivity.
  - destruct (String.eqb_spec k k') as [->|N]; cbn.
    + intros [<-|I]; auto.
    + intros [<-|I]; [auto|]. apply IH in I. tauto.
Qed.
Lemma dict_set_nodup : forall k v l, NoDup (map fst l) -> NoDup (map fst (dict_set k v l)).
Proof.
  intros k v. induction l as [|[k' v'] l IH]; intro H; cbn [dict_set map].
  - constructor; [intros []|constructor].
  - inversion H as [|a b N ND]; subst. destruct (String.eqb_spec k k') as [->|M]; cbn [map fst].
    + constructor; assumption.
    + constructor; [|apply IH; exact ND]. intro C. apply dict_set_keys in C. destruct C as [->|C]; [apply M; reflexivity|contradiction].
Qed.
Lemma update_args_keys : forall ps keys x, let x' := fst (update_args ps keys x) in
  (forall a, In a (map fst x') -> In a keys \/ In a (map fst x)) /\ (NoDup (map fst x) -> NoDup (map fst x')).
Proof.
  intros ps. induction keys as [|k keys IH]; intro x; cbn [update_args].
  - cbn. auto.
  - destruct (get_item ps k) as [v|e]; cbn [fst]; [|split; auto].
    destruct (IH (dict_set k v x)) as [A B]. split.
    + intros a I. apply A in I. destruct I as [I|I]; [left; right; exact I|]. apply dict_set_keys in I.
      destruct I as [->|I]; [left; left; reflexivity|right; exact I].
    + intro N. apply B. apply dict_set_nodup. exact N.
Qed.
Lemma reached_keys : forall t : task, reached t -> (forall a, In a (map fst (textra t)) -> In a (targs t)) /\ NoDup (map fst (textra t)).
Proof.
  intros t H. induction H as [n c a r|ps t H [A N]].
  - cbn. split; [intros a0 []|constructor].
  - pose proof (update_args_keys ps (targs t) (textra t)) as [B M]. unfold update.
    destruct (update_args ps (targs t) (textra t)) as [x [e|]]; cbn in *;
      (split; [intros a I; destruct (B a I) as [|I']; [assumption|apply A; exact I']|apply M; exact N]).
Qed.
Lemma dict_get_in : forall l k v, NoDup (map fst l) -> In (k, v) l -> dict_get k l = Some v.
Proof.
  induction l as [|[k' v'] l IH]; intros k v N I; [destruct I|]. cbn in N. inversion N as [|a b X ND]; subst. cbn [dict_get].
  destruct I as [E|I].
  - injection E as -> ->. rewrite String.eqb_refl. reflexivity.
  - destruct (String.eqb_spec k k') as [->|M]; [|apply IH; assumption].
    exfalso. apply X. apply in_map_iff. exists (k', v). auto.
Qed.
Lemma in_dict_get : forall l k v, dict_get k l = Some v -> In (k, v) l.
Proof.
  induction l as [|[k' v'] l IH]; intros k v H; cbn in H; [discriminate|].
  destruct (String.eqb_spec k k') as [->|M]; [injection H as ->; left; reflexivity|right; apply IH; exact H].
Qed.

Theorem update_active : forall ps (t t' : task), reached t -> update ps t = (t', None) ->
  (tactive t' = true <-> tactive t = true \/ all_given ps t).
Proof.
  intros ps t t' R U. assert (R' : reached t') by (assert (E : t' = fst (update ps t)) by (rewrite U; reflexivity); rewrite E; constructor; exact R).
  destruct (reached_keys _ R') as [K N]. pose proof (update_same ps t) as (_ & _ & Ta & _). rewrite U in Ta. cbn in Ta.
  unfold update in U. destruct (update_args ps (targs t) (textra t)) as [x [e|]] eqn:E; [discriminate|].
  injection U as <-. cbn [tactive targs textra] in *. apply update_args_ok in E. destruct E as [A _].
  destruct (existsb (fun kv => is_none (snd kv)) x) eqn:X.
  - apply existsb_exists in X. destruct X as ([k v] & I & V). cbn in V. destruct v; try discriminate.
    split; [auto|]. intros [H|G]; [exact H|]. exfalso.
    assert (Ik : In k (targs t)) by (apply K; apply in_map_iff; exists (k, VNone); auto).
    destruct (A k Ik) as (w & Gw & Dw). assert (w = VNone).
    { apply dict_get_in in I; [|exact N]. congruence. }
    subst w. apply (G k VNone Ik Gw). reflexivity.
  - split; [intros _; right|reflexivity]. intros k v I G ->.
    destruct (A k I) as (w & Gw & Dw). assert (w = VNone) by congruence. subst w. apply in_dict_get in Dw.
    assert (C : existsb (fun kv => is_none (snd kv)) x = true) by (apply existsb_exists; exists (k, VNone); auto). congruence.
Qed.

Theorem info_shows : forall ps (ts ts' : list task) l, (forall t, In t ts -> reached t) -> info ps ts = (ts', Ok l) ->
  length l = length ts /\
  forall i t, nth_error ts i = Some t -> exists b, nth_error l i = Some (tname t, b) /\
    (b = true <-> tactive t = true \/ all_given ps t).
Proof.
  intros ps. induction ts as [|t r IH]; intros ts' l R H; cbn [info] in H.
  - injection H as <- <-. split; [reflexivity|]. intros [|i] t H; discriminate.
  - destruct (update ps t) as [t' [e|]] eqn:U; [discriminate|]. destruct (info ps r) as [r' z] eqn:I.
    destruct z as [l'|e]; cbn [bind] in H; [|discriminate]. injection H as <- <-.
    destruct (IH _ _ (fun t I => R t (or_intror I)) eq_refl) as [L P]. split; [cbn; congruence|].
    intros [|i] u N; cbn [nth_error] in *.
    + injection N as <-. pose proof (update_same ps t) as (Tn & _). rewrite U in Tn. cbn in Tn. rewrite Tn.
      eexists. split; [reflexivity|]. apply update_active; [apply R; left; reflexivity|exact U].
    + apply P. exact N.
Qed.

(** ** Editing *)
(** No two tasks which are not repeatable have the same name. *)
Definition once (ts : list task) : Prop :=
  forall i j a b, i < j -> nth_error ts i = Some a -> nth_error ts j = Some b ->
    trepeat a = false -> trepeat b = false -> tname a <> tname b.
Definition singles (ts : list task) : list string := map tname (filter (fun t => negb (trepeat t)) ts).

Lemma once_singles : forall ts, once ts <-> NoDup (singles ts).
Proof.
  unfold singles. induction ts as [|t r IH]; cbn [filter map].
  - split; [constructor|]. intros _ i j a b _ H. destruct i; discriminate.
  - split.
    + intro O. assert (O' : once r) by (intros i j a b L A B; apply (O (S i) (S j)); [lia|assumption..]).
      apply IH in O'. destruct (trepeat t) eqn:Rt; cbn [negb map]; [exact O'|]. constructor; [|exact O'].
      intro C. apply in_map_iff in C. destruct C as (u & N & I). apply filter_In in I. destruct I as [I Ru].
      apply In_nth_error in I. destruct I as (j & J). apply negb_true_iff in Ru.
      apply (O 0 (S j) t u); [lia|reflexivity|exact J|exact Rt|exact Ru|congruence].
    + intros N i j a b L A B Ra Rb. destruct j as [|j]; [lia|]. cbn in B.
      assert (Ib : In (tname b) (map tname (filter (fun t => negb (trepeat t)) r))).
      { apply in_map. apply filter_In. split; [eapply nth_error_In; exact B|]. rewrite Rb. reflexivity. }
      destruct i as [|i].
      * cbn in A. injection A as ->. rewrite Ra in N. cbn in N. inversion N as [|x l X ND]; subst. intro E. apply X. rewrite E. exact Ib.
      * cbn in A. assert (O : once r).
        { apply IH. destruct (trepeat t); cbn in N; [exact N|]. inversion N. assumption. }
        apply (O i j a b); [lia|assumption..].
Qed.

Lemma singles_app : forall l m, singles (l ++ m) = singles l ++ singles m.
Proof. intros l m. unfold singles. rewrite filter_app, map_app. reflexivity. Qed.
Lemma contains_in : forall name (ts : list task), contains name ts = true <-> exists t, In t ts /\ tname t = name.
Proof.
  intros name ts. unfold contains. rewrite existsb_exists. split; intros (t & I & E); exists t; split; auto; apply String.eqb_eq; exact E.
Qed.
Lemma once_insert : forall (l m : list task) t, once (l ++ m) -> (contains (tname t) (l ++ m) = false \/ trepeat t = true) ->
  once (l ++ t :: m).
Proof.
  intros l m t O H. apply once_singles in O. apply once_singles. rewrite singles_app in *.
  destruct (trepeat t) eqn:Rt.
  - unfold singles at 2. cbn [filter]. rewrite Rt. cbn [negb]. exact O.
  - destruct H as [H|H]; [|discriminate].
    assert (E : singles (t :: m) = tname t :: singles m) by (unfold singles; cbn [filter]; rewrite Rt; reflexivity).
    rewrite E. eapply Permutation_NoDup; [apply Permutation_middle|]. constructor; [|exact O].
    intro C. rewrite <- singles_app in C. unfold singles in C. apply in_map_iff in C. destruct C as (u & N & I).
    apply filter_In in I. destruct I as [I _].
    assert (K : contains (tname t) (l ++ m) = true) by (apply contains_in; exists u; auto). congruence.
Qed.
Lemma once_remove : forall (l m : list task) t, once (l ++ t :: m) -> once (l ++ m).
Proof.
  intros l m t O. apply once_singles in O. apply once_singles. rewrite singles_app in *.
  unfold singles in O at 2. cbn [filter] in O. destruct (negb (trepeat t)); [|exact O].
  cbn [map] in O. eapply NoDup_remove_1. exact O.
Qed.

(** Position given to [insert]. *)
Definition insert_place (i : Z) (n k : nat) : Prop :=
  ((0 <= i <= Z.of_nat n)%Z /\ Z.of_nat k = i) \/ ((Z.of_nat n < i)%Z /\ k = n) \/
  ((- Z.of_nat n <= i < 0)%Z /\ Z.of_nat k = (i + Z.of_nat n)%Z) \/ ((i < - Z.of_nat n)%Z /\ k = 0).
Lemma insert_at_place : forall {A} i (x : A) l, exists k, insert_place i (length l) k /\ insert_at i x l = firstn k l ++ x :: skipn k l.
Proof.
  intros A i x l. unfold insert_at.
  exists (Z.to_nat (if (i <? 0)%Z then Z.max 0 (i + Z.of_nat (length l)) else Z.min i (Z.of_nat (length l)))).
  split; [|reflexivity]. unfold insert_place. destruct (Z.ltb_spec i 0); lia.
Qed.
Theorem insert_effect : forall (ts : list task) t i ts' o, insert ts (OTask t) i = (ts', o) ->
  o = None /\
  ((exists u, In u ts /\ tname u = tname t) -> trepeat t = false -> ts' = ts) /\
  (((forall u, In u ts -> tname u <> tname t) \/ trepeat t = true) ->
   exists k l m, insert_place i (length ts) k /\ ts = l ++ m /\ length l = k /\ ts' = l ++ t :: m).
Proof.
  intros ts t i ts' o H. unfold insert in H. destruct (contains (tname t) ts) eqn:C; destruct (trepeat t) eqn:R; cbn in H; injection H as <- <-.
  1,3,4: split; [reflexivity|]; split.
  - intros _ X. discriminate.
  - intros _. destruct (insert_at_place i t ts) as (k & P & E). exists k, (firstn k ts), (skipn k ts). split; [exact P|].
    split; [symmetry; apply firstn_skipn|]. split; [|exact E]. apply firstn_length_le. unfold insert_place in P. lia.
  - intros _ X. discriminate.
  - intros _. destruct (insert_at_place i t ts) as (k & P & E). exists k, (firstn k ts), (skipn k ts). split; [exact P|].
    split; [symmetry; apply firstn_skipn|]. split; [|exact E]. apply firstn_length_le. unfold insert_place in P. lia.
  - intros (u & I & E) _. assert (K : contains (tname t) ts = true) by (apply contains_in; exists u; auto). congruence.
  - intros _. destruct (insert_at_place i t ts) as (k & P & E). exists k, (firstn k ts), (skipn k ts). split; [exact P|].
    split; [symmetry; apply firstn_skipn|]. split; [|exact E]. apply firstn_length_le. unfold insert_place in P. lia.
  - split; [reflexivity|]. split; [reflexivity|]. intros [N|X]; [|discriminate].
    apply contains_in in C. destruct C as (u & I & E). exfalso. apply (N u I E).
Qed.
Theorem append_effect : forall (ts : list task) t ts' o, append ts (OTask t) = (ts', o) ->
  o = None /\
  ((exists u, In u ts /\ tname u = tname t) -> trepeat t = false -> ts' = ts) /\
  (((forall u, In u ts -> tname u <> tname t) \/ trepeat t = true) -> ts' = ts ++ [t]).
Proof.
  intros ts t ts' o H. unfold append in H. destruct (contains (tname t) ts) eqn:C; destruct (trepeat t) eqn:R; cbn in H; injection H as <- <-;
    (split; [reflexivity|]; split); auto; try discriminate.
  - intros [N|X]; [|discriminate]. apply contains_in in C. destruct C as (u & I & E). exfalso. apply (N u I E).
  - intros (u & I & E) _. assert (K : contains (tname t) ts = true) by (apply contains_in; exists u; auto). congruence.
Qed.
Theorem not_a_task : forall (ts : list task) i, insert ts OOther i = (ts, Some ETypeError) /\ append ts OOther = (ts, Some ETypeError).
Proof. intros. split; reflexivity. Qed.

(** The position an index of [del] refers to. *)
Definition index_place (i : Z) (n k : nat) : Prop :=
  k < n /\ (Z.of_nat k = i \/ (i < 0)%Z /\ Z.of_nat k = (i + Z.of_nat n)%Z).
Lemma delete_at_spec : forall {A} i (l : list A),
  (forall l1 x l2, l = l1 ++ x :: l2 -> index_place i (length l) (length l1) -> delete_at i l = Ok (l1 ++ l2)) /\
  ((forall k, ~ index_place i (length l) k) -> delete_at i l = Err EIndexError).
Proof.
  intros A i l. unfold delete_at. split.
  - intros l1 x l2 -> [L P]. rewrite app_length in *. cbn [length] in *.
    set (j := if (i <? 0)%Z then (i + Z.of_nat (length l1 + S (length l2)))%Z else i).
    assert (J : j = Z.of_nat (length l1)) by (unfold j; destruct (Z.ltb_spec i 0); lia).
    rewrite J, Nat2Z.id. replace ((0 <=? Z.of_nat (length l1))%Z && (Z.of_nat (length l1) <? Z.of_nat (length l1 + S (length l2)))%Z) with true
      by (symmetry; apply andb_true_iff; split; [apply Z.leb_le|apply Z.ltb_lt]; lia).
    rewrite firstn_app, Nat.sub_diag, firstn_all, app_nil_r. f_equal. f_equal.
    rewrite skipn_app. rewrite skipn_all2 by lia. replace (S (length l1) - length l1) with 1 by lia. reflexivity.
  - intro N. set (j := if (i <? 0)%Z then (i + Z.of_nat (length l))%Z else i).
    destruct ((0 <=? j)%Z && (j <? Z.of_nat (length l))%Z) eqn:E; [|reflexivity]. exfalso.
    apply andb_true_iff in E. destruct E as [E1 E2]. apply Z.leb_le in E1. apply Z.ltb_lt in E2.
    apply (N (Z.to_nat j)). unfold index_place. unfold j in *. destruct (Z.ltb_spec i 0); lia.
Qed.
Lemma split_nth : forall {A} (l : list A) k x, nth_error l k = Some x -> exists l1 l2, l = l1 ++ x :: l2 /\ length l1 = k.
Proof. intros A l k x H. apply nth_error_split in H. exact H. Qed.
Lemma delete_at_cases : forall {A} i (l : list A),
  (exists l1 x l2, l = l1 ++ x :: l2 /\ index_place i (length l) (length l1) /\ delete_at i l = Ok (l1 ++ l2)) \/
  ((forall k, ~ index_place i (length l) k) /\ delete_at i l = Err EIndexError).
Proof.
  intros A i l. destruct (delete_at_spec i l) as [P N].
  set (j := if (i <? 0)%Z then (i + Z.of_nat (length l))%Z else i).
  destruct (Z_le_dec 0 j) as [A1|A1]; [destruct (Z_lt_dec j (Z.of_nat (length l))) as [A2|A2]|].
  - left. destruct (nth_error l (Z.to_nat j)) as [x|] eqn:E; [|apply nth_error_None in E; lia].
    apply split_nth in E. destruct E as (l1 & l2 & E & L). exists l1, x, l2. split; [exact E|].
    assert (IP : index_place i (length l) (length l1)) by (unfold index_place; rewrite L; unfold j in *; destruct (Z.ltb_spec i 0); lia).
    split; [exact IP|]. eapply P; eassumption.
  - right. assert (Q : forall k, ~ index_place i (length l) k) by (unfold index_place, j in *; intro k; destruct (Z.ltb_spec i 0); lia).
    split; [exact Q|]. apply N. exact Q.
  - right. assert (Q : forall k, ~ index_place i (length l) k) by (unfold index_place, j in *; intro k; destruct (Z.ltb_spec i 0); lia).
    split; [exact Q|]. apply N. exact Q.
Qed.

(** One argument of [remove]. *)
Inductive removes (ts : list task) : rarg -> list task -> option err -> Prop :=
| removes_name : forall s l1 t l2, ts = l1 ++ t :: l2 -> tname t = s -> (forall u, In u l1 -> tname u <> s) ->
    removes ts (RName s) (l1 ++ l2) None
| removes_absent : forall s, (forall u, In u ts -> tname u <> s) -> removes ts (RName s) ts None
| removes_index : forall i l1 t l2, ts = l1 ++ t :: l2 -> index_place i (length ts) (length l1) ->
    removes ts (RIndex i) (l1 ++ l2) None
| removes_outside : forall i, (forall k, ~ index_place i (length ts) k) -> removes ts (RIndex i) ts (Some EIndexError)
| removes_other : removes ts ROther ts (Some ETypeError).
(** Several arguments: one after the other, stopping at the first exception. *)
Inductive removes_all : list task -> list rarg -> list task -> option err -> Prop :=
| removes_nil : forall ts, removes_all ts [] ts None
| removes_stop : forall ts a r ts' e, removes ts a ts' (Some e) -> removes_all ts (a :: r) ts' (Some e)
| removes_next : forall ts a r ts' ts'' o, removes ts a ts' None -> removes_all ts' r ts'' o -> removes_all ts (a :: r) ts'' o.

Lemma position_delete : forall s (ts : list task) i, position (fun t => String.eqb (tname t) s) ts = Some i ->
  exists l1 t l2, ts = l1 ++ t :: l2 /\ tname t = s /\ (forall u, In u l1 -> tname u <> s) /\ delete_at (Z.of_nat i) ts = Ok (l1 ++ l2).
Proof.
  intros s ts i H. apply position_some in H. destruct H as (t & N & E & B). apply split_nth in N.
  destruct N as (l1 & l2 & -> & L). exists l1, t, l2. split; [reflexivity|]. split; [apply String.eqb_eq; exact E|]. split.
  - intros u I. apply In_nth_error in I. destruct I as (j & J). apply String.eqb_neq. apply (B j).
    + rewrite <- L. apply nth_error_Some. congruence.
    + rewrite nth_error_app1; [exact J|]. apply nth_error_Some. congruence.
  - eapply (proj1 (delete_at_spec _ _)); [reflexivity|]. unfold index_place. rewrite app_length. cbn. lia.
Qed.
Theorem remove_effect : forall args (ts : list task), removes_all ts args (fst (remove ts args)) (snd (remove ts args)).
Proof.
  induction args as [|a r IH]; intro ts; cbn [remove].
  - constructor.
  - destruct a as [s|i|].
    + destruct (position (fun t => String.eqb (tname t) s) ts) as [i|] eqn:P.
      * apply position_delete in P. destruct P as (l1 & t & l2 & E & N & B & ->).
        eapply removes_next; [|apply IH]. eapply removes_name; eassumption.
      * eapply removes_next; [|apply IH]. apply removes_absent. intros u I. apply String.eqb_neq.
        rewrite position_none in P. apply P. exact I.
    + destruct (delete_at_cases i ts) as [(l1 & t & l2 & E & IP & ->)|[N ->]].
      * eapply removes_next; [|apply IH]. eapply removes_index; eassumption.
      * cbn. apply removes_stop. apply removes_outside. exact N.
    + cbn. apply removes_stop. apply removes_other.
Qed.
(** The relation determines the result. *)
Lemma app_first : forall (l1 l1' : list task) t t' l2 l2' (s : string), l1 ++ t :: l2 = l1' ++ t' :: l2' ->
  tname t = s -> tname t' = s -> (forall u, In u l1 -> tname u <> s) -> (forall u, In u l1' -> tname u <> s) -> l1 ++ l2 = l1' ++ l2'.
Proof.
  induction l1 as [|a l1 IH]; intros [|a' l1'] t t' l2 l2' s E N N' B B'; cbn in E.
  - injection E as _ ->. reflexivity.
  - injection E as -> _. exfalso. apply (B' a'); [left; reflexivity|exact N].
  - injection E as -> _. exfalso. apply (B t'); [left; reflexivity|exact N'].
  - injection E as -> E. cbn. f_equal. eapply IH; try eassumption; intros u I; [apply B|apply B']; right; exact I.
Qed.
Lemma removes_det : forall (ts : list task) a r o r' o', removes ts a r o -> removes ts a r' o' -> r = r' /\ o = o'.
Proof.
  intros ts a r o r' o' A B.
  destruct A as [s l1 t l2 E N F0|s N|i l1 t l2 E P|i N|]; inversion B as [s' l1' t' l2' E' N' F'|s' N'|i' l1' t' l2' E' P'|i' N'|]; subst.
  - split; [|reflexivity]. eapply app_first; try eassumption. reflexivity.
  - exfalso. apply (N' t); [apply in_or_app; right; left; reflexivity|reflexivity].
  - exfalso. apply (N t'); [apply in_or_app; right; left; reflexivity|reflexivity].
  - split; reflexivity.
  - split; [|reflexivity]. assert (L : length l1 = length l1').
    { unfold index_place in P, P'. rewrite E' in *. lia. }
    clear - E' L. revert l1' L E'. induction l1 as [|a l1 IH]; intros [|a' l1'] L E; cbn in *; try lia.
    + injection E as _ ->. reflexivity.
    + injection E as -> E. f_equal. apply IH; [lia|exact E].
  - exfalso. apply (N' (length l1)). exact P.
  - exfalso. apply (N (length l1')). exact P'.
  - split; reflexivity.
  - split; reflexivity.
Qed.
Theorem removes_all_det : forall args (ts : list task) r o, removes_all ts args r o -> remove ts args = (r, o).
Proof.
  intros args ts r o H. pose proof (remove_effect args ts) as E. destruct (remove ts args) as [r' o']. cbn in E.
  revert r' o' E. induction H as [ts|ts a q ts' e R|ts a q ts' ts'' o R RA IH]; intros r' o' E; inversion E as [|ts0 a0 q0 ts0' e0 R0|ts0 a0 q0 ts0' ts0'' o0 R0 RA0]; subst.
  - reflexivity.
  - destruct (removes_det _ _ _ _ _ _ R R0) as [-> X]. congruence.
  - destruct (removes_det _ _ _ _ _ _ R R0) as [_ X]. congruence.
  - destruct (removes_det _ _ _ _ _ _ R R0) as [_ X]. congruence.
  - destruct (removes_det _ _ _ _ _ _ R R0) as [-> _]. apply IH. exact RA0.
Qed.

Lemma once_removes : forall (ts : list task) a r o, removes ts a r o -> once ts -> once r.
Proof.
  intros ts a r o H O. destruct H; subst; try exact O; eapply once_remove; exact O.
Qed.
Lemma once_edit : forall (ts : list task) e, once ts -> once (fst (apply_edit ts e)).
Proof.
  intros ts [o i|o|args] O; cbn [apply_edit].
  - destruct o as [t|]; [|exact O]. cbn [insert]. destruct (contains (tname t) ts && negb (trepeat t)) eqn:C; cbn [fst]; [exact O|].
    unfold insert_at. apply once_insert; rewrite firstn_skipn; [exact O|].
    apply andb_false_iff in C. destruct C as [C|C]; [left; exact C|right; apply negb_false_iff; exact C].
  - destruct o as [t|]; [|exact O]. cbn [append]. destruct (contains (tname t) ts && negb (trepeat t)) eqn:C; cbn [fst]; [exact O|].
    apply (once_insert ts [] t); rewrite app_nil_r; [exact O|].
    apply andb_false_iff in C. destruct C as [C|C]; [left; exact C|right; apply negb_false_iff; exact C].
  - pose proof (remove_effect args ts) as R. revert O. induction R as [ts|ts a q ts' e R|ts a q ts' ts'' o R RA IH]; intro O; [exact O| |].
    + eapply once_removes; eassumption.
    + apply IH. eapply once_removes; eassumption.
Qed.
Theorem once_edits : forall l (ts : list task), once ts -> once (edits ts l).
Proof.
  unfold edits. induction l as [|e l IH]; intros ts O; cbn [fold_left]; [exact O|]. apply IH. apply once_edit. exact O.
Qed.
Theorem default_once : forall b c rt rf s, once (default_tasks b c rt rf s : list task).
Proof.
  intros b c rt rf s. apply once_singles. cbn.
  repeat (constructor; [cbn; intros H; repeat (destruct H as [H|H]; [discriminate|]); exact H|]). constructor.
Qed.
End Tasks.

(** ** [Spectra.get] *)
Definition valid (s : spectra) : Prop := cur s < length (heap s).
(** A reference to the object number [r]. *)
Definition seen (s : spectra) (r : nat) : params := nth r (heap s) no_params.

(** Overrides accepted one after the other. *)
Inductive overridden : params -> list (string * pyval) -> params -> Prop :=
| overridden_nil : forall ps, overridden ps [] ps
| overridden_cons : forall ps ps' ps'' k v r, set_item ps k v = (ps', None) -> overridden ps' r ps'' ->
    overridden ps ((k, v) :: r) ps''.

Lemma override_ok : forall kw ps ps', override ps kw = (ps', None) <-> overridden ps kw ps'.
Proof.
  induction kw as [|[k v] r IH]; intros ps ps'; cbn [override].
  - split; [intro H; injection H as <-; constructor|intro H; inversion H; reflexivity].
  - destruct (set_item ps k v) as [ps1 [e|]] eqn:E.
    + split; [discriminate|]. intro H. inversion H; subst. congruence.
    + rewrite IH. split; [intro H; econstructor; eassumption|]. intro H. inversion H; subst.
      match goal with H : set_item ps k v = (?p, None) |- _ => assert (p = ps1) by congruence end. subst. assumption.
Qed.
Lemma override_err : forall kw ps ps' e, override ps kw = (ps', Some e) <->
  exists done k v rest, kw = done ++ (k, v) :: rest /\ overridden ps done ps' /\ snd (set_item ps' k v) = Some e.
Proof.
  induction kw as [|[k v] r IH]; intros ps ps' e; cbn [override].
  - split; [discriminate|]. intros (d & k & v & t & H & _). destruct d; discriminate.
  - destruct (set_item ps k v) as [ps1 [e1|]] eqn:E.
    + pose proof (set_item_refused _ _ _ _ _ E). subst ps1. split.
      * intro H. injection H as <- <-. exists [], k, v, r. split; [reflexivity|]. split; [constructor|]. rewrite E. reflexivity.
      * intros (d & k' & v' & t & H & O & S). destruct d as [|[k0 v0] d].
        -- injection H as -> -> ->. inversion O; subst. rewrite E in S. cbn in S. congruence.
        -- injection H as -> -> ->. inversion O; subst. congruence.
    + rewrite IH. split.
      * intros (d & k' & v' & t & -> & O & S). exists ((k, v) :: d), k', v', t. split; [reflexivity|]. split; [econstructor; eassumption|exact S].
      * intros (d & k' & v' & t & H & O & S). destruct d as [|[k0 v0] d].
        -- injection H as -> -> ->. inversion O; subst. rewrite E in S. discriminate.
        -- injection H as -> -> ->. inversion O; subst.
           match goal with H : set_item ps k0 v0 = (?p, None) |- _ => assert (p = ps1) by congruence end. subst.
           exists d, k', v', t. auto.
Qed.

Section Get.
Context {R : Type}.
Lemma upd_app_l : forall {A} i (x : A) l m, i < length l -> upd i x (l ++ m) = upd i x l ++ m.
Proof.
  intros A i x l m L. apply list_ext_error. intro k. rewrite nth_error_upd.
  destruct (Nat.lt_ge_cases k (length l)) as [K|K].
  - rewrite !nth_error_app1 by (try rewrite upd_length; exact K). rewrite nth_error_upd. reflexivity.
  - rewrite !nth_error_app2 by (try rewrite upd_length; exact K). rewrite upd_length.
    destruct (Nat.eqb_spec k i); [lia|reflexivity].
Qed.
Lemma seen_old : forall s ps c, valid s -> seen (mkSp (upd (cur s) ps (heap s ++ [parameters_of s])) c) (cur s) = ps.
Proof.
  intros s ps c V. unfold seen. cbn [heap]. apply nth_error_nth. rewrite nth_error_upd, Nat.eqb_refl, nth_error_app1 by exact V.
  destruct (nth_error (heap s) (cur s)) eqn:E; [reflexivity|]. apply nth_error_None in E. unfold valid in V. lia.
Qed.
Lemma seen_copy : forall s ps c, valid s -> seen (mkSp (upd (cur s) ps (heap s ++ [parameters_of s])) c) (length (heap s)) = parameters_of s.
Proof.
  intros s ps c V. unfold seen. cbn [heap]. apply nth_error_nth. rewrite nth_error_upd. unfold valid in V.
  destruct (Nat.eqb_spec (length (heap s)) (cur s)); [lia|]. rewrite nth_error_app2 by lia. rewrite Nat.sub_diag. reflexivity.
Qed.
Lemma seen_other : forall s ps c r, valid s -> r < length (heap s) -> r <> cur s ->
  seen (mkSp (upd (cur s) ps (heap s ++ [parameters_of s])) c) r = seen s r.
Proof.
  intros s ps c r V L N. unfold seen. cbn [heap]. unfold valid in V.
  destruct (nth_error (heap s) r) as [p|] eqn:E; [|apply nth_error_None in E; lia].
  rewrite (nth_error_nth _ _ _ E). apply nth_error_nth. rewrite nth_error_upd.
  destruct (Nat.eqb_spec r (cur s)); [contradiction|]. rewrite nth_error_app1 by exact L. exact E.
Qed.

(** The call is undone when the body returns a result, writes a file or raises. *)
Definition clean (o : outcome R) : Prop := match o with OTooLarge | OInterrupted => False | _ => True end.
Theorem get_undone : forall (body : params -> outcome R) s kw ps, valid s -> overridden (parameters_of s) kw ps -> clean (body ps) ->
  let s' := fst (get_data body s kw) in
  valid s' /\ parameters_of s' = parameters_of s /\
  (cur s' <> cur s /\ seen s' (cur s) = ps) /\ (forall r, r < length (heap s) -> r <> cur s -> seen s' r = seen s r).
Proof.
  intros body s kw ps V O C. apply override_ok in O.
  assert (E : fst (get_data body s kw) = mkSp (upd (cur s) ps (heap s ++ [parameters_of s])) (length (heap s))).
  { unfold get_data. rewrite O. destruct (body ps); cbn in C; try contradiction; reflexivity. }
  rewrite E. cbv zeta. split; [|split; [|split; [split|]]].
  - unfold valid. cbn. rewrite upd_length, app_length. cbn. lia.
  - exact (seen_copy s ps (length (heap s)) V).
  - cbn. unfold valid in V. lia.
  - apply seen_old. exact V.
  - intros r L N. apply seen_other; assumption.
Qed.
Theorem get_answer : forall (body : params -> outcome R) s kw ps, overridden (parameters_of s) kw ps ->
  snd (get_data body s kw) = match body ps with
                             | OResult r => AResult r | OTooLarge | OStored => ANone
                             | OFails e => ARaise e | OInterrupted => AInterrupted
                             end.
Proof.
  intros body s kw ps O. apply override_ok in O. unfold get_data. rewrite O. destruct (body ps); reflexivity.
Qed.
Theorem get_left : forall (body : params -> outcome R) s kw ps, valid s -> overridden (parameters_of s) kw ps -> ~ clean (body ps) ->
  let s' := fst (get_data body s kw) in valid s' /\ parameters_of s' = ps /\ cur s' = cur s.
Proof.
  intros body s kw ps V O C. apply override_ok in O.
  assert (E : fst (get_data body s kw) = mkSp (upd (cur s) ps (heap s ++ [parameters_of s])) (cur s)).
  { unfold get_data. rewrite O. destruct (body ps); cbn in C; try tauto; reflexivity. }
  rewrite E. cbv zeta. split; [|split; [|reflexivity]].
  - unfold valid in *. cbn. rewrite upd_length, app_length. cbn. lia.
  - exact (seen_old s ps (cur s) V).
Qed.
Theorem get_refused : forall (body : params -> outcome R) s done k v rest ps e, valid s ->
  overridden (parameters_of s) done ps -> snd (set_item ps k v) = Some e ->
  let r := get_data body s (done ++ (k, v) :: rest) in
  valid (fst r) /\ parameters_of (fst r) = ps /\ cur (fst r) = cur s /\ snd r = ARaise e.
Proof.
  intros body s done k v rest ps e V O S.
  assert (E : override (parameters_of s) (done ++ (k, v) :: rest) = (ps, Some e)).
  { apply override_err. exists done, k, v, rest. auto. }
  unfold get_data. rewrite E. cbn [fst snd]. split; [|split; [|split; reflexivity]].
  - unfold valid in *. cbn. rewrite upd_length, app_length. cbn. lia.
  - exact (seen_old s ps (cur s) V).
Qed.

(** Calls one after the other, all of them undone. *)
Inductive clean_calls : spectra -> list ((params -> outcome R) * list (string * pyval)) -> spectra -> Prop :=
| clean_nil : forall s, clean_calls s [] s
| clean_cons : forall s body kw ps r s'', overridden (parameters_of s) kw ps -> clean (body ps) ->
    clean_calls (fst (get_data body s kw)) r s'' -> clean_calls s ((body, kw) :: r) s''.
Theorem gets_undone : forall s l s', valid s -> clean_calls s l s' -> parameters_of s' = parameters_of s.
Proof.
  intros s l s' V H. induction H as [s|s body kw ps r s'' O C H IH]; [reflexivity|].
  destruct (get_undone body s kw ps V O C) as (V' & P & _). rewrite IH by exact V'. exact P.
Qed.
End Get.
