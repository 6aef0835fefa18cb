(** Optional tasks of the pipeline, and its result. *)
From Coq Require Import String List Arith ZArith QArith Bool Lia.
From Verif Require Import Base M_Pipeline M_Corrtasks P_Pipeline P_Pipeline2.
Import ListNotations.
Open Scope nat_scope.
Open Scope list_scope.

(** ** Specification *)
(** Two tasks with the same function and arguments, whatever was run earlier. *)
Definition like {T F D} (t t' : task T F D) : Prop := tname t = tname t' /\ targs t = targs t' /\ tcall t = tcall t'.
(** The result of a pipeline does not depend on this task. *)
Definition idle {T F D} (ps : params) (t : task T F D) : Prop := forall earlier later x, snd (run ps (earlier ++ t :: later) x) = snd (run ps (earlier ++ later) x).
(** At this task, the data become those of [g]; times and frequencies stay. *)
Definition acts {T F D} (ps : params) (t : task T F D) (g : T -> F -> D -> res D) : Prop := forall later tm fr d,
  match g tm fr d with
  | Ok d' => snd (run ps (t :: later) (tm, fr, d)) = snd (run ps later (tm, fr, d'))
  | Err e => snd (run ps (t :: later) (tm, fr, d)) = Err e
  end.
Definition knows (ps : params) (l : list string) : Prop := forall k, In k l -> exists v, get_item ps k = Ok v.

(** ** Running *)
Section Run.
  Context {T F D : Type}.
  Implicit Types t : task T F D.
  Lemma knows_reads ps t : knows ps (targs t) -> exists kw, reads ps t kw.
  Proof.
    unfold reads, knows. induction (targs t) as [|k l IH]; intro H; [exists []; constructor|].
    destruct (H k) as (v & V); [now left|]. destruct IH as (kw & R); [intros; apply H; now right|]. exists ((k, Some v) :: kw). constructor; [cbn; eauto|exact R].
  Qed.
  Lemma reads_keyword ps t kw k v : reads ps t kw -> In k (targs t) -> get_item ps k = Ok v -> keyword k kw = Some v.
  Proof.
    unfold reads. induction 1 as [|k' [n o] l m (E & w & G & X) R IH]; intros I H; [destruct I|]. cbn [fst snd] in *. subst n o. cbn [keyword].
    destruct (String.eqb_spec k k') as [->|N]; [congruence|]. apply IH; [|exact H]. destruct I as [I|I]; [congruence|exact I].
  Qed.
  Lemma run_app ps (a b : list (task T F D)) x : snd (run ps (a ++ b) x) = bind (snd (run ps a x)) (fun y => snd (run ps b y)).
  Proof.
    revert x. induction a as [|t a IH]; intro x; [reflexivity|]. cbn [app run]. destruct (update ps t) as [t' [e|]]; [reflexivity|]. destruct (call_task t' x) as [y|e]; [|reflexivity].
    specialize (IH y). destruct (run ps (a ++ b) y) as [r z]. destruct (run ps a y) as [r' z']. cbn [snd] in *. exact IH.
  Qed.
  Lemma run_one ps t kw x : reads ps t kw -> exists t', keywords_of t' = kw /\ tcall t' = tcall t /\ forall later,
    snd (run ps (t :: later) x) = bind (call_task t' x) (fun y => snd (run ps later y)).
  Proof.
    intro R. destruct (update_defined ps t kw R) as (t' & U & K). exists t'. split; [exact K|]. split; [pose proof (update_same ps t) as S; rewrite U in S; cbn in S; tauto|].
    intro later. cbn [run]. rewrite U. destruct (call_task t' x) as [y|e]; [|reflexivity]. cbn [bind]. destruct (run ps later y). reflexivity.
  Qed.
  Lemma acts_idle ps t : acts ps t (fun _ _ d => Ok d) -> idle ps t.
  Proof.
    intros A earlier later x. rewrite !run_app. destruct (snd (run ps earlier x)) as [[[tm fr] d]|e]; [|reflexivity]. cbn [bind]. exact (A later tm fr d).
  Qed.
  Lemma acts_all ps t c g : tcall t = CAll c -> knows ps (targs t) ->
    (forall kw tm fr d, (forall k v, get_item ps k = Ok v -> In k (targs t) -> keyword k kw = Some v) -> c kw tm fr d = bind (g tm fr d) (fun d' => Ok (tm, fr, d'))) -> acts ps t g.
  Proof.
    intros C K H later tm fr d. destruct (knows_reads ps t K) as (kw & R). destruct (run_one ps t kw (tm, fr, d) R) as (t' & W & C' & E).
    rewrite E. unfold call_task. rewrite C', C, W. rewrite (H kw tm fr d); [|intros k v G I; eapply reads_keyword; eauto]. destruct (g tm fr d); reflexivity.
  Qed.
  Lemma acts_freq ps t c g : tcall t = CFreq c -> knows ps (targs t) ->
    (forall kw fr d, (forall k v, get_item ps k = Ok v -> In k (targs t) -> keyword k kw = Some v) -> c kw fr d = bind (g fr d) (fun d' => Ok (fr, d'))) -> acts ps t (fun _ => g).
  Proof.
    intros C K H later tm fr d. destruct (knows_reads ps t K) as (kw & R). destruct (run_one ps t kw (tm, fr, d) R) as (t' & W & C' & E).
    rewrite E. unfold call_task. rewrite C', C, W. rewrite (H kw fr d); [|intros k v G I; eapply reads_keyword; eauto]. destruct (g fr d); reflexivity.
  Qed.
  Lemma acts_data ps t c g : tcall t = CData c -> knows ps (targs t) -> (forall kw d, c kw d = g d) -> acts ps t (fun _ _ => g).
  Proof.
    intros C K H later tm fr d. destruct (knows_reads ps t K) as (kw & R). destruct (run_one ps t kw (tm, fr, d) R) as (t' & W & C' & E).
    rewrite E. unfold call_task. rewrite C', C, W, H. destruct (g d); reflexivity.
  Qed.
End Run.

(** ** The tasks *)
Section Wrappers.
  Context {T F D : Type}.
  Variable dreambeam : pyval -> pyval -> pyval -> pyval -> pyval -> T -> F -> D -> res D.
  Variable parallactic : pyval -> pyval -> pyval -> pyval -> T -> F -> D -> res D.
  Variable faraday : pyval -> F -> D -> res D.
  Variable disperse : pyval -> pyval -> F -> D -> res D.
  Variable mitigate : nat -> D -> res D.
  Variable too_large : D -> bool.
  Implicit Types t : task T F D.
  Lemma is_none_iff v : is_none v = true <-> v = VNone.
  Proof. destruct v; cbn; split; congruence. Qed.
  Lemma is_none_not v : is_none v = false <-> v <> VNone.
  Proof. destruct v; cbn; split; congruence. Qed.
  Ltac known H l := intros k I; cbn in I; repeat (destruct I as [<-|I]; [eauto|]); contradiction.
  Theorem polarization_off : forall ps t ch dt sky step par, like t (correct_polarization dreambeam) ->
    get_item ps "channels" = Ok ch -> get_item ps "dt" = Ok dt -> get_item ps "skycoord" = Ok sky -> get_item ps "calib_dt" = Ok step -> get_item ps "dreambeam_parallactic" = Ok par ->
    sky = VNone \/ step = VNone \/ par = VNone -> idle ps t.
  Proof.
    intros ps t ch dt sky step par (_ & A & C) H1 H2 H3 H4 H5 N. cbn [targs tcall correct_polarization make_task] in A, C. apply acts_idle. eapply acts_all; [exact C|rewrite A; known H1 H2|].
    intros kw tm fr d K. rewrite A in K. unfold polarization_step. rewrite (K _ _ H1 ltac:(cbn; auto 8)), (K _ _ H2 ltac:(cbn; auto 8)), (K _ _ H3 ltac:(cbn; auto 8)), (K _ _ H4 ltac:(cbn; auto 8)), (K _ _ H5 ltac:(cbn; auto 8)).
    replace (is_none step || is_none sky || is_none par) with true; [reflexivity|]. destruct N as [ -> | [ -> | -> ] ]; cbn; rewrite ?orb_true_r; reflexivity.
  Qed.
  Theorem polarization_on : forall ps t ch dt sky step par, like t (correct_polarization dreambeam) ->
    get_item ps "channels" = Ok ch -> get_item ps "dt" = Ok dt -> get_item ps "skycoord" = Ok sky -> get_item ps "calib_dt" = Ok step -> get_item ps "dreambeam_parallactic" = Ok par ->
    sky <> VNone -> step <> VNone -> par <> VNone -> acts ps t (dreambeam ch dt step sky par).
  Proof.
    intros ps t ch dt sky step par (_ & A & C) H1 H2 H3 H4 H5 N1 N2 N3. cbn [targs tcall correct_polarization make_task] in A, C. eapply acts_all; [exact C|rewrite A; known H1 H2|].
    intros kw tm fr d K. rewrite A in K. unfold polarization_step. rewrite (K _ _ H1 ltac:(cbn; auto 8)), (K _ _ H2 ltac:(cbn; auto 8)), (K _ _ H3 ltac:(cbn; auto 8)), (K _ _ H4 ltac:(cbn; auto 8)), (K _ _ H5 ltac:(cbn; auto 8)).
    apply is_none_not in N1, N2, N3. now rewrite N1, N2, N3.
  Qed.
  Theorem parallactic_off : forall ps t ch dt sky step, like t (correct_parallactic parallactic) ->
    get_item ps "channels" = Ok ch -> get_item ps "dt" = Ok dt -> get_item ps "skycoord" = Ok sky -> get_item ps "calib_dt" = Ok step -> sky = VNone \/ step = VNone -> idle ps t.
  Proof.
    intros ps t ch dt sky step (_ & A & C) H1 H2 H3 H4 N. cbn [targs tcall correct_parallactic make_task] in A, C. apply acts_idle. eapply acts_all; [exact C|rewrite A; known H1 H2|].
    intros kw tm fr d K. rewrite A in K. unfold parallactic_step. rewrite (K _ _ H1 ltac:(cbn; auto 8)), (K _ _ H2 ltac:(cbn; auto 8)), (K _ _ H3 ltac:(cbn; auto 8)), (K _ _ H4 ltac:(cbn; auto 8)).
    replace (is_none step || is_none sky) with true; [reflexivity|]. destruct N as [ -> | -> ]; cbn; rewrite ?orb_true_r; reflexivity.
  Qed.
  Theorem parallactic_on : forall ps t ch dt sky step, like t (correct_parallactic parallactic) ->
    get_item ps "channels" = Ok ch -> get_item ps "dt" = Ok dt -> get_item ps "skycoord" = Ok sky -> get_item ps "calib_dt" = Ok step -> sky <> VNone -> step <> VNone -> acts ps t (parallactic ch dt step sky).
  Proof.
    intros ps t ch dt sky step (_ & A & C) H1 H2 H3 H4 N1 N2. cbn [targs tcall correct_parallactic make_task] in A, C. eapply acts_all; [exact C|rewrite A; known H1 H2|].
    intros kw tm fr d K. rewrite A in K. unfold parallactic_step. rewrite (K _ _ H1 ltac:(cbn; auto 8)), (K _ _ H2 ltac:(cbn; auto 8)), (K _ _ H3 ltac:(cbn; auto 8)), (K _ _ H4 ltac:(cbn; auto 8)).
    apply is_none_not in N1, N2. now rewrite N1, N2.
  Qed.
  Theorem faraday_off : forall ps t, like t (correct_faraday faraday) -> get_item ps "rotation_measure" = Ok VNone -> idle ps t.
  Proof.
    intros ps t (_ & A & C) H1. cbn [targs tcall correct_faraday make_task] in A, C. apply acts_idle. apply (acts_freq ps t _ (fun _ d => Ok d) C); [rewrite A; known H1 H1|].
    intros kw fr d K. rewrite A in K. unfold faraday_step. now rewrite (K _ _ H1 ltac:(cbn; auto 8)).
  Qed.
  Theorem faraday_on : forall ps t rm, like t (correct_faraday faraday) -> get_item ps "rotation_measure" = Ok rm -> rm <> VNone -> acts ps t (fun _ => faraday rm).
  Proof.
    intros ps t rm (_ & A & C) H1 N. cbn [targs tcall correct_faraday make_task] in A, C. apply (acts_freq ps t _ (faraday rm) C); [rewrite A; known H1 H1|].
    intros kw fr d K. rewrite A in K. unfold faraday_step. rewrite (K _ _ H1 ltac:(cbn; auto 8)). apply is_none_not in N. now rewrite N.
  Qed.
  Theorem disperse_off : forall ps t dt ig, like t (de_disperse disperse too_large) -> get_item ps "dt" = Ok dt -> get_item ps "dispersion_measure" = Ok VNone -> get_item ps "ignore_volume_warning" = Ok ig -> idle ps t.
  Proof.
    intros ps t dt ig (_ & A & C) H1 H2 H3. cbn [targs tcall de_disperse make_task] in A, C. apply acts_idle. apply (acts_freq ps t _ (fun _ d => Ok d) C); [rewrite A; known H1 H1|].
    intros kw fr d K. rewrite A in K. unfold disperse_step. now rewrite (K _ _ H1 ltac:(cbn; auto 8)), (K _ _ H2 ltac:(cbn; auto 8)), (K _ _ H3 ltac:(cbn; auto 8)).
  Qed.
  (** Data above the threshold are not de-dispersed, and the pipeline goes on. *)
  Theorem disperse_on : forall ps t dt dm ig, like t (de_disperse disperse too_large) -> get_item ps "dt" = Ok dt -> get_item ps "dispersion_measure" = Ok dm -> dm <> VNone ->
    get_item ps "ignore_volume_warning" = Ok (VBool ig) -> acts ps t (fun _ fr d => if too_large d && negb ig then Ok d else disperse dt dm fr d).
  Proof.
    intros ps t dt dm ig (_ & A & C) H1 H2 N H3. cbn [targs tcall de_disperse make_task] in A, C. apply (acts_freq ps t _ (fun fr d => if too_large d && negb ig then Ok d else disperse dt dm fr d) C); [rewrite A; known H1 H1|].
    intros kw fr d K. rewrite A in K. unfold disperse_step. rewrite (K _ _ H1 ltac:(cbn; auto 8)), (K _ _ H2 ltac:(cbn; auto 8)), (K _ _ H3 ltac:(cbn; auto 8)). apply is_none_not in N. rewrite N. cbn [truthy]. destruct (too_large d && negb ig); reflexivity.
  Qed.
  Theorem disperse_unset : forall ps t dt dm, like t (de_disperse disperse too_large) -> get_item ps "dt" = Ok dt -> get_item ps "dispersion_measure" = Ok dm -> dm <> VNone ->
    get_item ps "ignore_volume_warning" = Ok VNone -> acts ps t (fun _ fr d => if too_large d then Ok d else disperse dt dm fr d).
  Proof.
    intros ps t dt dm (_ & A & C) H1 H2 N H3. cbn [targs tcall de_disperse make_task] in A, C. apply (acts_freq ps t _ (fun fr d => if too_large d then Ok d else disperse dt dm fr d) C); [rewrite A; known H1 H1|].
    intros kw fr d K. rewrite A in K. unfold disperse_step. rewrite (K _ _ H1 ltac:(cbn; auto 8)), (K _ _ H2 ltac:(cbn; auto 8)), (K _ _ H3 ltac:(cbn; auto 8)). apply is_none_not in N. rewrite N. cbn [truthy negb]. rewrite andb_true_r. destruct (too_large d); reflexivity.
  Qed.
  Theorem disperse_large_refuted : forall ps t dt dm, like t (de_disperse disperse too_large) -> get_item ps "dt" = Ok dt -> get_item ps "dispersion_measure" = Ok dm -> dm <> VNone ->
    get_item ps "ignore_volume_warning" = Ok (VBool false) -> forall later tm fr d, too_large d = true -> snd (run ps (t :: later) (tm, fr, d)) = snd (run ps later (tm, fr, d)).
  Proof.
    intros ps t dt dm L H1 H2 N H3 later tm fr d B. pose proof (disperse_on ps t dt dm false L H1 H2 N H3 later tm fr d) as X. cbn beta in X. rewrite B in X. exact X.
  Qed.
  Theorem mitigate_on : forall ps s t, (like t (mitigate_frequency mitigate s) -> acts ps t (fun _ _ => mitigate 0)) /\ (like t (mitigate_time mitigate s) -> acts ps t (fun _ _ => mitigate 1)).
  Proof.
    intros ps s t. split; intros (_ & A & C); cbn [targs tcall mitigate_frequency mitigate_time make_task] in A, C; (eapply acts_data; [exact C|rewrite A; intros k []|reflexivity]).
  Qed.
End Wrappers.
Lemma acts_refused {T F D} ps (t : task T F D) k x : In k (targs t) -> unknown (now ps) k -> forall later, snd (run ps (t :: later) x) = Err EKeyError.
Proof.
  intros I U later. cbn [run]. destruct (update ps t) as [t' [e|]] eqn:E; [apply update_err in E; destruct E as [-> _]; reflexivity|].
  apply update_reads in E. exfalso. eapply reads_known; eauto.
Qed.

(** ** The result *)
Lemma contains_named {T F D} (ts : list (task T F D)) n : contains n ts = true <-> exists t, In t ts /\ tname t = n.
Proof.
  unfold contains. rewrite existsb_exists. split; intros (t & I & E); exists t; (split; [exact I|]); [now apply String.eqb_eq|now apply String.eqb_eq in E || (apply String.eqb_eq; exact E)].
Qed.
Theorem result_jones : forall {T F D V} (ts : list (task T F D)) ps nt nf (a : array V), (forall t, In t ts -> tname t <> stokes_task) -> a_shape a = [nt; nf; 2; 2] -> 0 < nt -> 0 < nf ->
  exists b, to_sdata ts ps nt nf a = Ok (b, [VStr "XX"; VStr "XY"; VStr "YX"; VStr "YY"]%string) /\ a_shape b = [nt; nf; 4] /\
    forall t f i j, i < 2 -> j < 2 -> a_at b [t; f; 2 * i + j] = a_at a [t; f; i; j].
Proof.
  intros T F D V ts ps nt nf a N S P Q. unfold to_sdata. assert (C : contains stokes_task ts = false).
  { apply not_true_iff_false. rewrite contains_named. intros (t & I & E). now elim (N t I). }
  rewrite C. unfold merge. rewrite S. destruct (Nat.eqb_spec (nt * nf) 0) as [Z0|Z0]; [apply Nat.eq_mul_0 in Z0; lia|]. cbn [bind product fold_right Nat.mul Nat.add].
  unfold make_sdata. cbn [polars bind a_shape length]. rewrite !Nat.eqb_refl. cbn [andb]. eexists. split; [reflexivity|]. split; [reflexivity|].
  intros t f i j I J. cbn [a_at]. assert (i = 0 \/ i = 1) as [ -> | -> ] by lia; assert (j = 0 \/ j = 1) as [ -> | -> ] by lia; reflexivity.
Qed.
Theorem result_size : forall {T F D V} (ts : list (task T F D)) ps nt nf rest (a : array V), (forall t, In t ts -> tname t <> stokes_task) -> a_shape a = nt :: nf :: rest -> 0 < nt -> 0 < nf ->
  (fold_right Nat.mul 1 rest = 4 -> exists b, to_sdata ts ps nt nf a = Ok (b, [VStr "XX"; VStr "XY"; VStr "YX"; VStr "YY"]%string)) /\
  (fold_right Nat.mul 1 rest <> 4 -> to_sdata ts ps nt nf a = Err EAssertionError).
Proof.
  intros T F D V ts ps nt nf rest a N S P Q. unfold to_sdata. assert (C : contains stokes_task ts = false).
  { apply not_true_iff_false. rewrite contains_named. intros (t & I & E). now elim (N t I). }
  rewrite C. unfold merge. rewrite S. destruct (Nat.eqb_spec (nt * nf) 0) as [Z0|Z0]; [apply Nat.eq_mul_0 in Z0; lia|]. cbn [bind].
  unfold make_sdata. cbn [polars bind a_shape]. rewrite !Nat.eqb_refl. cbn [andb]. unfold product. change (length [VStr "XX"%string; VStr "XY"%string; VStr "YX"%string; VStr "YY"%string]) with 4.
  split; intro H; [rewrite H; eexists; reflexivity|]. destruct (Nat.eqb_spec 4 (fold_right Nat.mul 1 rest)) as [X|X]; [elim H; symmetry; exact X|reflexivity].
Qed.
Theorem result_stokes : forall {T F D V} (ts : list (task T F D)) ps nt nf l (a : array V), (exists t, In t ts /\ tname t = stokes_task) -> get_item ps "stokes" = Ok (VList l) -> a_shape a = [nt; nf; length l] -> to_sdata ts ps nt nf a = Ok (a, l).
Proof.
  intros T F D V ts ps nt nf l a C G S. apply contains_named in C. unfold to_sdata. rewrite C, G. cbn [bind]. unfold make_sdata. cbn [polars bind]. rewrite S, !Nat.eqb_refl. reflexivity.
Qed.
Theorem result_stokes_one : forall {T F D V} (ts : list (task T F D)) ps nt nf s (a : array V), (exists t, In t ts /\ tname t = stokes_task) -> get_item ps "stokes" = Ok (VStr s) -> a_shape a = [nt; nf; 1] -> to_sdata ts ps nt nf a = Ok (a, [VStr s]).
Proof.
  intros T F D V ts ps nt nf l a C G S. apply contains_named in C. unfold to_sdata. rewrite C, G. cbn [bind]. unfold make_sdata. cbn [polars bind]. rewrite S. cbn [length]. rewrite !Nat.eqb_refl. reflexivity.
Qed.
(** The Stokes task without Stokes parameters leaves the Jones matrices, which no [SData] holds. *)
Theorem result_no_stokes_refuted : forall {T F D V} (ts : list (task T F D)) ps nt nf (a : array V), (exists t, In t ts /\ tname t = stokes_task) -> a_shape a = [nt; nf; 2; 2] ->
  (get_item ps "stokes" = Ok VNone -> to_sdata ts ps nt nf a = Err ETypeError) /\ (get_item ps "stokes" = Ok (VList []) -> to_sdata ts ps nt nf a = Err EValueError).
Proof.
  intros T F D V ts ps nt nf a C S. apply contains_named in C. unfold to_sdata. rewrite C. split; intro G; rewrite G; cbn [bind]; unfold make_sdata; cbn [polars bind]; [reflexivity|]. now rewrite S.
Qed.
(** RFI mitigation may be repeated, the other tasks are kept once *)
Theorem added : forall T F D (mitigate : nat -> D -> res D) dreambeam parallactic faraday disperse too_large s (ts : list (task T F D)),
  fst (M_Pipeline.append ts (OTask (mitigate_frequency mitigate s))) = ts ++ [mitigate_frequency mitigate s] /\
  fst (M_Pipeline.append ts (OTask (mitigate_time mitigate s))) = ts ++ [mitigate_time mitigate s] /\
  forall t, In t [correct_polarization dreambeam; correct_parallactic parallactic; correct_faraday faraday; de_disperse disperse too_large] ->
    (In (tname t) (map tname ts) -> fst (M_Pipeline.append ts (OTask t)) = ts) /\ (~ In (tname t) (map tname ts) -> fst (M_Pipeline.append ts (OTask t)) = ts ++ [t]).
Proof.
  intros T F D mitigate dreambeam parallactic faraday disperse too_large s ts. split; [cbn; now rewrite andb_false_r|]. split; [cbn; now rewrite andb_false_r|].
  intros t I. assert (R : trepeat t = false) by (cbn in I; repeat (destruct I as [<-|I]; [reflexivity|]); contradiction).
  assert (C : contains (tname t) ts = true <-> In (tname t) (map tname ts)).
  { unfold contains. rewrite existsb_exists, in_map_iff. split; intros (x & A & B); exists x; [apply String.eqb_eq in B; split; auto|split; [exact B|apply String.eqb_eq; auto]]. }
  cbn [M_Pipeline.append]. rewrite R, andb_true_r. split; intro H; destruct (contains (tname t) ts) eqn:E; try reflexivity; [apply C in H; congruence|now elim H; apply C].
Qed.
(** The result has the size of its axes *)
Theorem result_axes : forall T F D V (ts : list (task T F D)) ps times freqs (a b : array V) p, to_sdata ts ps times freqs a = Ok (b, p) -> a_shape b = [times; freqs; length p].
Proof.
  intros T F D V ts ps times freqs a b p. assert (M : forall v (x : array V), make_sdata times freqs v x = Ok (b, p) -> a_shape b = [times; freqs; length p]).
  { intros v x. unfold make_sdata. destruct (polars v) as [q|e]; cbn [bind]; [|discriminate]. destruct (a_shape x) as [|n1 [|n2 [|n3 [|]]]] eqn:E; try discriminate.
    destruct (Nat.eqb times n1) eqn:E1; [|discriminate]. destruct (Nat.eqb freqs n2) eqn:E2; [|discriminate]. destruct (Nat.eqb (length q) n3) eqn:E3; [|discriminate]. apply Nat.eqb_eq in E1, E2, E3. intro H. injection H as <- <-. now subst. }
  unfold to_sdata. destruct (contains stokes_task ts).
  - destruct (get_item ps "stokes"); cbn [bind]; [apply M|discriminate].
  - destruct (merge a); cbn [bind]; [apply M|discriminate].
Qed.
