(** The processing of lanes, the spectra joined and the files written. *)
From Coq Require Import ZArith QArith Qabs Lqa String Bool List Arith Lia.
From Verif Require Import Base M_Nd P_Nd M_Rebin M_TFArray M_Select M_SData P_SData M_Lane M_Dynspec M_Dynproc.
Import ListNotations.
Open Scope nat_scope.
Open Scope list_scope.

Section Get.
Variable bandpass : nat -> res (list Q).
Variable background : nd M_Rebin.sample -> nd M_Rebin.sample.
Variable nanstd : nd M_Rebin.sample -> M_Rebin.sample.
Variable jump_index : nd M_Rebin.sample -> nat.
Variable time_profile : nd M_Rebin.sample -> list M_Rebin.sample.
Variable fit : list M_Rebin.sample -> list M_Rebin.sample.
Context {A U : Type} (U0 : units U).
Variable stokes : lane A -> list Q -> list Q -> nd A -> res (nd M_Rebin.sample).
Variable polar : list U.
Notation proc := (process bandpass background nanstd jump_index time_profile fit stokes polar).
Notation gets := (get_lanes bandpass background nanstd jump_index time_profile fit U0 stokes polar).
Notation get_all := (dynspec_get bandpass background nanstd jump_index time_profile fit U0 stokes polar).

(** Whatever is asked, the shape agrees with the coordinates. *)
Theorem process_valid : forall d l s, proc d l = Ok (Some s) -> valid s /\ s_polar s = polar.
Proof.
  intros d l s. unfold process. destruct (select_data d l) as [[[[f t] raw]|]|]; cbn [bind]; try discriminate.
  destruct (stokes l f t raw) as [x|]; cbn [bind]; try discriminate.
  destruct (bp_correct _ _ _ x) as [x1|]; cbn [bind]; try discriminate.
  destruct (obs_nchan _) as [c|]; cbn [bind]; try discriminate.
  destruct (remove_edges _ _ x1) as [x2|]; cbn [bind]; try discriminate.
  destruct (dedisperse _ _ _ _) as [x3|]; cbn [bind]; try discriminate.
  destruct (rebin_axis 0 _ _ _ _) as [[x4 t4]|]; cbn [bind]; try discriminate.
  destruct (rebin_axis 1 _ _ _ _) as [[x5 f5]|]; cbn [bind]; try discriminate.
  cbn [fst snd]. destruct (sdata_new t4 f5 polar x5) as [r|] eqn:E; cbn [bind]; try discriminate.
  intros H. injection H as <-. apply new_spec in E. destruct E as (-> & E). split; [exact E|reflexivity].
Qed.
(** Without any correction the Stokes parameters come out as they are. *)
Definition no_processing (d : dynspec A) : Prop :=
  d_bp d = "none"%string /\ d_edge d = 0%Z /\ (d_rfi d == 0)%Q /\ d_jump d = false /\ d_dm d = None /\
  d_rebin_dt d = None /\ d_rebin_df d = None.
Theorem process_plain : forall d l f t raw x, no_processing d -> d_lanes d <> [] ->
  select_data d l = Ok (Some (f, t, raw)) -> stokes l f t raw = Ok x ->
  (sh x = [length t; length f; length polar] -> proc d l = Ok (Some (mkS t f polar x))) /\
  (length (sh x) = 3 -> sh x <> [length t; length f; length polar] -> proc d l = Err EAssertionError).
Proof.
  intros d l f t raw x (B & E & R & J & D & RT & RF) NE S X. unfold process. rewrite S. cbn [bind]. rewrite X. cbn [bind].
  rewrite B, E, J, RT, RF. unfold bp_correct.
  change (String.eqb "none" "standard") with false. change (String.eqb "none" "median") with false. change (String.eqb "none" "adjusted") with false.
  cbn iota. cbn [bind]. destruct (d_lanes d) as [|l0 ls] eqn:L; [contradiction|]. cbn [obs_nchan bind]. unfold remove_edges. cbn [Z.ltb Z.compare bind].
  unfold clean. rewrite (proj2 (Qle_bool_iff (d_rfi d) 0)) by lra. cbn [negb correct_jumps]. unfold dedisperse. rewrite D. cbn [bind rebin_axis fst snd].
  destruct (new_valid M_Rebin.sample U t f polar x) as (V1 & V2 & _). split.
  - intros H. now rewrite (V1 H).
  - intros L3 H. now rewrite (V2 L3 H).
Qed.
Theorem process_skipped : forall d l, select_data d l = Ok None -> proc d l = Ok None.
Proof. intros d l E. unfold process. now rewrite E. Qed.

(** The spectra of the lanes which have some. *)
Inductive gathered (d : dynspec A) : list (lane A) -> list (sdata M_Rebin.sample U) -> Prop :=
| g_nil : gathered d [] []
| g_skip : forall l ls ps, proc d l = Ok None -> gathered d ls ps -> gathered d (l :: ls) ps
| g_take : forall l ls p ps, proc d l = Ok (Some p) -> gathered d ls ps -> gathered d (l :: ls) (p :: ps).
(** Joined one after the other. *)
Fixpoint join (s : sdata M_Rebin.sample U) (ps : list (sdata M_Rebin.sample U)) : res (sdata M_Rebin.sample U) :=
  match ps with
  | [] => Ok s
  | p :: r => bind (s_and U0 s (OSData p)) (fun u => join u r)
  end.
Lemma gets_join : forall d ls ps, gathered d ls ps -> forall s,
  gets d ls (Some s) = bind (join s ps) (fun r => Ok (Some r)).
Proof.
  intros d ls ps G. induction G as [|l ls ps P G IH|l ls p ps P G IH]; intros s; cbn [get_lanes join]; [reflexivity| |].
  - rewrite P. cbn [bind]. apply IH.
  - rewrite P. cbn [bind]. destruct (s_and U0 s (OSData p)) as [u|]; cbn [bind]; [apply IH|reflexivity].
Qed.
Theorem get_join : forall d ps, gathered d (d_lanes d) ps ->
  get_all d = match ps with [] => Ok None | p :: r => bind (join p r) (fun s => Ok (Some s)) end.
Proof.
  intros d ps G. unfold dynspec_get. induction G as [|l ls ps P G IH|l ls p ps P G IH]; cbn [get_lanes]; [reflexivity| |].
  - rewrite P. exact IH.
  - rewrite P. cbn [bind]. now apply gets_join.
Qed.
(** Nothing is lost: an answer means that every lane was read. *)
Theorem get_gathered : forall d r, get_all d = Ok r -> exists ps, gathered d (d_lanes d) ps.
Proof.
  intros d r. unfold dynspec_get. generalize (@None (sdata M_Rebin.sample U)). induction (d_lanes d) as [|l ls IH]; intros o E.
  - exists []. constructor.
  - cbn [get_lanes] in E. destruct (proc d l) as [[p|]|] eqn:P; cbn [bind] in E; [| |discriminate].
    + destruct o as [t|].
      * destruct (s_and U0 t (OSData p)) as [u|]; cbn [bind] in E; [|discriminate].
        destruct (IH _ E) as (ps & G). exists (p :: ps). now constructor.
      * destruct (IH _ E) as (ps & G). exists (p :: ps). now constructor.
    + destruct (IH _ E) as (ps & G). exists ps. now constructor.
Qed.
Lemma gathered_valid : forall d ls ps, gathered d ls ps -> Forall (fun p => valid p /\ s_polar p = polar) ps.
Proof.
  intros d ls ps G. induction G; auto. constructor; auto. eapply process_valid; eauto.
Qed.

(** Column [j] of [r] is a column of [p], with its frequency. *)
Definition column_of (r p : sdata M_Rebin.sample U) (j j' : nat) : Prop :=
  (exists f, nth_error (s_freq r) j = Some f /\ nth_error (s_freq p) j' = Some f) /\
  forall i k, get (s_data r) [i; j; k] = get (s_data p) [i; j'; k].
Lemma joined_columns : forall (x y r : sdata M_Rebin.sample U), joined_freq x y r ->
  (forall j, j < length (s_freq x) -> column_of r x j j) /\
  (forall j, j < length (s_freq y) -> column_of r y (length (s_freq x) + j) j) /\
  length (s_freq r) = length (s_freq x) + length (s_freq y).
Proof.
  intros x y r (F & G). rewrite F, app_length. split; [|split; [|reflexivity]].
  - intros j J. split.
    + destruct (nth_error (s_freq x) j) as [f|] eqn:E; [|apply nth_error_None in E; lia]. exists f. split; [|reflexivity]. rewrite F, nth_error_app1 by exact J. exact E.
    + intros i k. apply (G i j k). exact J.
  - intros j J. split.
    + destruct (nth_error (s_freq y) j) as [f|] eqn:E; [|apply nth_error_None in E; lia]. exists f. split; [|reflexivity].
      rewrite F, nth_error_app2 by lia. now replace (length (s_freq x) + j - length (s_freq x)) with j by lia.
    + intros i k. apply (G i j k).
Qed.
Lemma and_inv : forall (a b r : sdata M_Rebin.sample U), valid a -> valid b -> s_and U0 a (OSData b) = Ok r ->
  and_accepts U0 a b /\ valid r /\ s_time r = s_time a /\ s_polar r = s_polar a /\ (joined_freq a b r \/ joined_freq b a r) /\
  (below (s_freq a) (s_freq b) -> joined_freq a b r).
Proof.
  intros a b r VA VB E.
  assert (AC : and_accepts U0 a b).
  { unfold s_and in E. destruct (same_polar U0 (s_polar a) (s_polar b)) eqn:SP; [|discriminate]. cbn [negb] in E. apply same_polar_spec in SP.
    destruct (s_time a) as [|t0 [|t1 rt]] eqn:ET; [discriminate..|].
    destruct (all_close _ _ _) as [c|e] eqn:C; [|discriminate]. cbn [bind] in E. destruct c; [|discriminate]. cbn [negb] in E.
    destruct (s_freq a) as [|fa ra] eqn:FA; [discriminate|]. cbn [qmax_list bind] in E.
    destruct (s_freq b) as [|fb rb] eqn:FB; [discriminate|]. cbn [qmin_list bind] in E.
    split; [exact SP|]. split; [|split; [rewrite FA|rewrite FB]; discriminate].
    assert (LEN : length (s_time b) = length (s_time a)).
    { unfold valid in VA, VB.
      assert (HH : exists d, hstack (s_data a) (s_data b) = Ok d \/ hstack (s_data b) (s_data a) = Ok d).
      { destruct (qlt _ _); [destruct (hstack (s_data a) (s_data b)) as [d|] eqn:H|destruct (hstack (s_data b) (s_data a)) as [d|] eqn:H]; try discriminate; exists d; auto. }
      destruct HH as (d & [H|H]); unfold hstack in H; rewrite VA, VB in H;
        match type of H with (if (?x =? ?y) && _ then _ else _) = _ => destruct (Nat.eqb_spec x y); [congruence|discriminate] end. }
    rewrite ET in LEN. destruct (close_spec (t0 :: t1 :: rt) (s_time b) t0 t1 rt eq_refl LEN) as (c' & C' & TM). rewrite C in C'. injection C' as <-.
    rewrite ET. now apply TM. }
  split; [exact AC|]. destruct (and_accepted _ _ _ _ _ VA VB AC) as (r0 & E0 & V & T & P & J1 & J2). rewrite E0 in E. injection E as <-.
  split; [exact V|]. split; [exact T|]. split; [exact P|]. split; [|exact J1].
  destruct (qmax_total (s_freq a)) as (m & M); [apply AC|]. destruct (qmin_total (s_freq b)) as (m' & M'); [apply AC|].
  destruct (qlt m m') eqn:Q.
  - left. apply J1. now apply (below_maxmin _ _ _ _ M M').
  - right. apply J2. intros X. apply (below_maxmin _ _ _ _ M M') in X. congruence.
Qed.
Lemma column_trans : forall a b c i j k, column_of a b i j -> column_of b c j k -> column_of a c i k.
Proof.
  intros a b c i j k ((f & F1 & F2) & G) ((g & H1 & H2) & H). split.
  - exists f. split; [exact F1|]. rewrite F2 in H1. injection H1 as ->. exact H2.
  - intros. now rewrite G, H.
Qed.
Definition total_freqs (ps : list (sdata M_Rebin.sample U)) : nat := fold_right (fun p n => length (s_freq p) + n) 0 ps.
Lemma join_spec : forall ps s r, valid s -> Forall valid ps -> join s ps = Ok r ->
  valid r /\ s_time r = s_time s /\ s_polar r = s_polar s /\
  length (s_freq r) = length (s_freq s) + total_freqs ps /\
  (forall p, In p ps -> times_match (s_time s) (s_time p)) /\
  (forall p j', In p (s :: ps) -> j' < length (s_freq p) -> exists j, j < length (s_freq r) /\ column_of r p j j') /\
  (forall j, j < length (s_freq r) -> exists p j', In p (s :: ps) /\ j' < length (s_freq p) /\ column_of r p j j').
Proof.
  induction ps as [|p ps IH]; intros s r V F E; cbn [join] in E.
  - injection E as <-. 
    assert (ID : forall j, j < length (s_freq s) -> column_of s s j j).
    { intros j J. split; [|reflexivity]. destruct (nth_error (s_freq s) j) as [f|] eqn:X; [exists f; auto|apply nth_error_None in X; lia]. }
    cbn [total_freqs fold_right In]. repeat (split; auto).
    + intros q [].
    + intros q j' [<-|[]] J. exists j'. split; [exact J|now apply ID].
    + intros j J. exists s, j. split; [now left|]. split; [exact J|now apply ID].
  - destruct (s_and U0 s (OSData p)) as [u|] eqn:A1; [|discriminate]. cbn [bind] in E.
    inversion F as [|? ? VP FP]; subst. destruct (and_inv s p u V VP A1) as (AC & VU & T & P & J & _).
    destruct (IH u r VU FP E) as (VR & TR & PR & LR & TM & C1 & C2).
    assert (CC : (forall j', j' < length (s_freq s) -> exists j, j < length (s_freq u) /\ column_of u s j j') /\
                 (forall j', j' < length (s_freq p) -> exists j, j < length (s_freq u) /\ column_of u p j j') /\
                 (forall j, j < length (s_freq u) -> exists q j', In q [s; p] /\ j' < length (s_freq q) /\ column_of u q j j') /\
                 length (s_freq u) = length (s_freq s) + length (s_freq p)).
    { destruct J as [J|J]; destruct (joined_columns _ _ _ J) as (X & Y & L).
      - split; [|split; [|split]]; [intros j' J'; exists j'; split; [lia|now apply X]|intros j' J'; exists (length (s_freq s) + j'); split; [lia|now apply Y]| |exact L].
        intros j J'. destruct (Nat.lt_ge_cases j (length (s_freq s))).
        + exists s, j. split; [now left|]. split; [assumption|now apply X].
        + exists p, (j - length (s_freq s)). split; [right; now left|]. split; [lia|]. replace j with (length (s_freq s) + (j - length (s_freq s))) at 1 by lia. apply Y. lia.
      - split; [|split; [|split]]; [intros j' J'; exists (length (s_freq p) + j'); split; [lia|now apply Y]|intros j' J'; exists j'; split; [lia|now apply X]| |lia].
        intros j J'. destruct (Nat.lt_ge_cases j (length (s_freq p))).
        + exists p, j. split; [right; now left|]. split; [assumption|now apply X].
        + exists s, (j - length (s_freq p)). split; [now left|]. split; [lia|]. replace j with (length (s_freq p) + (j - length (s_freq p))) at 1 by lia. apply Y. lia. }
    destruct CC as (CS & CP & CU & LU).
    split; [exact VR|]. split; [now rewrite TR|]. split; [now rewrite PR|]. split; [rewrite LR, LU; cbn [total_freqs fold_right]; fold (total_freqs ps); lia|].
    split; [|split].
    + intros q [<-|I]; [apply AC|]. rewrite <- T. now apply TM.
    + intros q j' I J'.
      assert (UU : forall j0, j0 < length (s_freq u) -> column_of u q j0 j' -> exists j, j < length (s_freq r) /\ column_of r q j j').
      { intros j0 J0 C0. destruct (C1 u j0 (or_introl eq_refl) J0) as (j & J1 & C3). exists j. split; [exact J1|]. eapply column_trans; eauto. }
      destruct I as [<-|[<-|I]].
      * destruct (CS j' J') as (j0 & J0 & C0). eauto.
      * destruct (CP j' J') as (j0 & J0 & C0). eauto.
      * apply C1; [now right|exact J'].
    + intros j J'. destruct (C2 j J') as (q & j' & [<-|I] & J2 & C3).
      * destruct (CU j' J2) as (q & j2 & I & J3 & C4). exists q, j2. split; [destruct I as [<-|[<-|[]]]; [now left|right; now left]|]. split; [exact J3|]. eapply column_trans; eauto.
      * exists q, j'. split; [right; now right|]. auto.
Qed.

(** What [get] gives. *)
Theorem get_spec : forall d r, get_all d = Ok r ->
  (r = None /\ gathered d (d_lanes d) []) \/
  exists p ps s, gathered d (d_lanes d) (p :: ps) /\ r = Some s /\ valid s /\ s_time s = s_time p /\ s_polar s = polar /\
    length (s_freq s) = total_freqs (p :: ps) /\
    (forall q, In q ps -> times_match (s_time p) (s_time q)) /\
    (forall q j', In q (p :: ps) -> j' < length (s_freq q) -> exists j, j < length (s_freq s) /\ column_of s q j j') /\
    (forall j, j < length (s_freq s) -> exists q j', In q (p :: ps) /\ j' < length (s_freq q) /\ column_of s q j j').
Proof.
  intros d r E. destruct (get_gathered d r E) as (ps & G). rewrite (get_join d ps G) in E. pose proof (gathered_valid _ _ _ G) as V.
  destruct ps as [|p ps]; [left; injection E as <-; auto|]. right.
  destruct (join p ps) as [s|] eqn:J; [|discriminate]. cbn [bind] in E. injection E as <-.
  inversion V as [|? ? (VP & PP) VS]; subst.
  destruct (join_spec ps p s VP) as (V1 & T & P & L & TM & C1 & C2); [eapply Forall_impl; [|exact VS]; now intros a (Ha & _)|exact J|].
  exists p, ps, s. rewrite P, PP. repeat (split; [solve [auto]|]). auto.
Qed.
(** Lanes of increasing frequencies give increasing frequencies. *)
Fixpoint stacked (ps : list (sdata M_Rebin.sample U)) : Prop :=
  match ps with
  | [] => True
  | p :: r => increasing (s_freq p) /\ (forall q, In q r -> below (s_freq p) (s_freq q)) /\ stacked r
  end.
Lemma join_stacked : forall ps s r, valid s -> Forall valid ps -> stacked (s :: ps) -> join s ps = Ok r ->
  s_freq r = s_freq s ++ concat (map s_freq ps) /\ increasing (s_freq r).
Proof.
  induction ps as [|p ps IH]; intros s r V F (I & B & S) E; cbn [join] in E.
  - injection E as <-. cbn. rewrite app_nil_r. auto.
  - destruct (s_and U0 s (OSData p)) as [u|] eqn:A1; [|discriminate]. cbn [bind] in E. inversion F as [|? ? VP FP]; subst.
    destruct (and_inv s p u V VP A1) as (_ & VU & _ & _ & _ & J). destruct (J (B p (or_introl eq_refl))) as (FQ & _).
    destruct S as (I2 & B2 & S2). destruct (IH u r VU FP) as (FR & IR); [|exact E|].
    + split; [|split; [|exact S2]].
      * rewrite FQ. apply increasing_app; auto. apply B. now left.
      * intros q Q x y X Y. rewrite FQ in X. apply in_app_or in X. destruct X as [X|X]; [apply (B q (or_intror Q) x y X Y)|apply (B2 q Q x y X Y)].
    + split; [|exact IR]. rewrite FR, FQ. cbn [map concat]. now rewrite app_assoc.
Qed.
Theorem get_increasing : forall d p ps s, gathered d (d_lanes d) (p :: ps) -> stacked (p :: ps) ->
  get_all d = Ok (Some s) -> s_freq s = concat (map s_freq (p :: ps)) /\ increasing (s_freq s).
Proof.
  intros d p ps s G S E. rewrite (get_join d _ G) in E. destruct (join p ps) as [r|] eqn:J; [|discriminate]. cbn [bind] in E. injection E as <-.
  pose proof (gathered_valid _ _ _ G) as V. inversion V as [|? ? (VP & PP) VS]; subst. cbn [map concat].
  apply (join_stacked ps p r VP); auto. eapply Forall_impl; [|exact VS]. now intros a (Ha & _).
Qed.
End Get.

(** ** Files *)
Lemma forall2_impl : forall X Y (P Q : X -> Y -> Prop) l m, (forall x y, P x y -> Q x y) -> Forall2 P l m -> Forall2 Q l m.
Proof. intros X Y P Q l m H F. induction F; constructor; auto. Qed.
Lemma nodup_end : forall X (l : list X) x, NoDup l -> ~ In x l -> NoDup (l ++ [x]).
Proof.
  intros X l x N I. induction l as [|a l IH]; cbn; [constructor; [intros []|constructor]|].
  inversion N; subst. constructor.
  - intros K. apply in_app_or in K. destruct K as [K|[<-|[]]]; [contradiction|]. apply I. now left.
  - apply IH; auto. intros K. apply I. now right.
Qed.
Section Files.
Context {A U : Type}.
Variable upper : string -> string.
Variable run : dynspec A -> string -> res (option (sdata M_Rebin.sample U)).

(** The dataset of Stokes parameter [n] of the beam [b], the first one being [s0]:
    time by frequency, with the labels "frequency" and "time". *)
Definition written (s0 : sdata M_Rebin.sample U) (n : string) (s : sdata M_Rebin.sample U) (x : dataset) : Prop :=
  ds_name x = String.append "STOKES_" (upper n) /\
  (forall nt nf np, sh (s_data s) = [nt; nf; np] -> sh (ds_data x) = [nt; nf]) /\
  (forall t f, get (ds_data x) [t; f] = get (s_data s) [t; f; 0]) /\
  ds_first x = ("frequency"%string, s_freq s0) /\ ds_second x = ("time"%string, s_time s0).
Lemma write_stokes_spec : forall d names c done r, write_stokes upper run d names c done = Ok r ->
  exists ss sets, Forall2 (fun n s => run d n = Ok (Some s)) names ss /\
    Forall2 (fun ns x => forall s0, (match c with Some (f, t) => s_freq s0 = f /\ s_time s0 = t | None => exists q, ss = s0 :: q end) ->
      written s0 (fst ns) (snd ns) x) (combine names ss) sets /\
    r = (match c with Some _ => c | None => match ss with [] => None | s :: _ => Some (s_freq s, s_time s) end end, done ++ sets).
Proof.
  intros d. induction names as [|n names IH]; intros c done r E; cbn [write_stokes] in E.
  - injection E as <-. exists [], []. split; [constructor|]. split; [constructor|]. rewrite app_nil_r. destruct c; reflexivity.
  - destruct (run d n) as [[s|]|] eqn:R; cbn [bind] in E; try discriminate.
    destruct (existsb _ done); [discriminate|].
    apply IH in E. destruct E as (ss & sets & F1 & F2 & ->). exists (s :: ss).
    set (c' := match c with Some c => c | None => (s_freq s, s_time s) end) in *.
    exists (mkSet (String.append "STOKES_" (upper n)) (first_polar s) ("frequency"%string, fst c') ("time"%string, snd c') :: sets).
    split; [constructor; auto|]. split.
    + cbn [combine]. constructor.
      * cbn [fst snd]. intros s0 H. split; [reflexivity|]. split; [intros nt nf np EQ; unfold first_polar; cbn [ds_data sh]; now rewrite EQ|]. split; [reflexivity|].
        cbn [ds_first ds_second]. unfold c'. destruct c as [(f, t)|]; cbn [fst snd].
        -- destruct H as (<- & <-). auto.
        -- destruct H as (q & H). injection H as <- <-. auto.
      * eapply forall2_impl; [|exact F2]. intros [a b] x H s0 H0. cbn [fst snd] in *. apply H. unfold c'.
        destruct c as [(f, t)|]; cbn [fst snd]; [exact H0|]. destruct H0 as (q & H0). injection H0 as <- <-. auto.
    + rewrite <- app_assoc. cbn [app]. unfold c'. destruct c as [(f, t)|]; reflexivity.
Qed.

(** The group of a beam. *)
Definition group_of (d : dynspec A) (names : list string) (b : Z) (g : beam_group) : Prop :=
  g_beam g = b /\ In b (obs_beams (d_lanes d)) /\
  exists s0 ss, Forall2 (fun n s => run (with_beam d b) n = Ok (Some s)) names (s0 :: ss) /\
    Forall2 (fun ns x => written s0 (fst ns) (snd ns) x) (combine names (s0 :: ss)) (g_sets g) /\
    g_start g = hd 0%Q (s_time s0) /\ g_end g = last (s_time s0) 0%Q /\
    qmin_list (s_freq s0) = Ok (g_fmin g) /\ M_Dedisperse.qmax_list (s_freq s0) = Ok (g_fmax g).
Lemma with_beam_twice : forall (d : dynspec A) a b, with_beam (with_beam d a) b = with_beam d b.
Proof. reflexivity. Qed.
Lemma write_beams_spec : forall names, names <> [] -> forall beams d done d' gs, write_beams upper run d beams names done = Ok (d', gs) ->
  exists gs', gs = done ++ gs' /\ Forall2 (group_of d names) beams gs' /\
    d' = match beams with [] => d | _ => with_beam d (last beams 0%Z) end /\
    (NoDup (map g_beam done) -> NoDup (map g_beam gs)).
Proof.
  intros names NE. induction beams as [|b beams IH]; intros d done d' gs E; cbn [write_beams] in E.
  - injection E as <- <-. exists []. rewrite app_nil_r. repeat split; auto.
  - destruct (existsb (Z.eqb b) (obs_beams (d_lanes d))) eqn:IB; [|discriminate]. cbn [negb] in E.
    destruct (existsb (fun g => (g_beam g =? b)%Z) done) eqn:DU; [discriminate|].
    destruct (write_stokes upper run (with_beam d b) names None []) as [[c sets]|] eqn:W; [|discriminate]. cbn [bind] in E.
    apply write_stokes_spec in W. destruct W as (ss & sets' & F1 & F2 & W). injection W as -> <-. 
    destruct ss as [|s0 ss]; [inversion F1; subst; contradiction|].
    destruct (M_Dedisperse.qmax_list (s_freq s0)) as [fmax|] eqn:QX; [|discriminate]. cbn [bind] in E.
    destruct (qmin_list (s_freq s0)) as [fmin|] eqn:QN; [|discriminate]. cbn [bind] in E.
    apply IH in E. destruct E as (gs' & -> & G & D' & ND). eexists (_ :: gs'). rewrite <- app_assoc. cbn [app]. split; [reflexivity|]. split; [|split].
    + constructor.
      * split; [reflexivity|]. split. { apply existsb_exists in IB. destruct IB as (y & Y & Z). apply Z.eqb_eq in Z. now subst. }
        exists s0, ss. split; [exact F1|]. split; [|cbn; auto]. cbn [g_sets]. eapply forall2_impl; [|exact F2]. intros ns x H. apply H. now exists ss.
      * exact G.
    + rewrite D'. destruct beams as [|b' beams']; [reflexivity|]. rewrite with_beam_twice. reflexivity.
    + intros N. rewrite <- app_assoc in ND. cbn [app] in ND. apply ND. rewrite map_app. cbn [map g_beam]. apply nodup_end; [exact N|].
      intros I. apply in_map_iff in I. destruct I as (g & GB & GI). assert (X : existsb (fun g => (g_beam g =? b)%Z) done = true).
      { apply existsb_exists. exists g. split; [exact GI|]. now apply Z.eqb_eq. } congruence.
Qed.
Theorem write_spec : forall d names beams d' gs, names <> [] -> write_hdf5 upper run d names beams = Ok (d', gs) ->
  Forall2 (group_of d names) beams gs /\ NoDup beams /\
  d' = match beams with [] => d | _ => with_beam d (last beams 0%Z) end.
Proof.
  intros d names beams d' gs NE E. destruct (write_beams_spec names NE beams d [] d' gs E) as (gs' & -> & G & D & ND). cbn [app] in *.
  split; [exact G|]. split; [|exact D]. specialize (ND (NoDup_nil _)).
  assert (M : map g_beam gs' = beams). { clear - G. induction G as [|b g bs gs (GB & _) G IH]; cbn; congruence. }
  now rewrite <- M.
Qed.
Theorem write_refused : forall d names beams,
  (forall b r, beams = b :: r -> ~ In b (obs_beams (d_lanes d)) -> write_hdf5 upper run d names beams = Err EIndexError) /\
  (forall b r n ns, beams = b :: r -> In b (obs_beams (d_lanes d)) -> names = n :: ns -> run (with_beam d b) n = Ok None ->
     write_hdf5 upper run d names beams = Err EAttributeError).
Proof.
  intros d names beams. split.
  - intros b r -> N. cbn [write_hdf5 write_beams]. unfold write_hdf5. cbn [write_beams].
    destruct (existsb (Z.eqb b) (obs_beams (d_lanes d))) eqn:E; [|reflexivity]. exfalso. apply N. apply existsb_exists in E.
    destruct E as (y & Y & Z). apply Z.eqb_eq in Z. now subst.
  - intros b r n ns -> I -> R. unfold write_hdf5. cbn [write_beams].
    assert (E : existsb (Z.eqb b) (obs_beams (d_lanes d)) = true). { apply existsb_exists. exists b. split; [exact I|apply Z.eqb_refl]. }
    rewrite E. cbn [negb existsb write_stokes]. now rewrite R.
Qed.
End Files.
