(** Lanes, settings and selection of the reader of UnDySPuTeD data. *)
From Coq Require Import ZArith QArith Qabs Lqa String Bool List Arith Lia Sorted.
From Verif Require Import Base M_Nd P_Nd M_Pipeline M_TFArray P_TFArray P_TFArray2 M_Select P_Select3 M_Lane M_Dynspec.
Import ListNotations.
Open Scope nat_scope.
Open Scope list_scope.

(** ** The observation *)
Lemma all_ok_spec : forall X Y (f : X -> res Y) l r, all_ok (map f l) = Ok r <-> Forall2 (fun x y => f x = Ok y) l r.
Proof.
  intros X Y f. induction l as [|x l IH]; intros r; cbn [map all_ok].
  - split; [intros H; injection H as <-; constructor|]. intros H. inversion H. reflexivity.
  - split.
    + destruct (f x) as [a|] eqn:E; [|discriminate]. cbn [bind]. destruct (all_ok (map f l)) as [t|]; [|discriminate].
      cbn [bind]. intros H. injection H as <-. constructor; [exact E|]. now apply IH.
    + intros H. inversion H as [|? ? ? ? E F]; subst. rewrite E. cbn [bind]. rewrite (proj2 (IH _) F). reflexivity.
Qed.
Lemma forall2_in : forall X Y (R : X -> Y -> Prop) l r y, Forall2 R l r -> In y r -> exists x, In x l /\ R x y.
Proof.
  intros X Y R l r y H. induction H as [|a b l r E F IH]; intros I; [contradiction|].
  destruct I as [<-|I]; [exists a; split; [now left|exact E]|]. destruct (IH I) as (x & J & K). exists x. split; [now right|exact K].
Qed.
Lemma forall2_in' : forall X Y (R : X -> Y -> Prop) l r x, Forall2 R l r -> In x l -> exists y, In y r /\ R x y.
Proof.
  intros X Y R l r y H. induction H as [|a b l r E F IH]; intros I; [contradiction|].
  destruct I as [<-|I]; [exists b; split; [now left|exact E]|]. destruct (IH I) as (x & J & K). exists x. split; [now right|exact K].
Qed.

(** The earliest start and latest last time over the lanes; the same for the frequencies. *)
Theorem obs_times : forall A (lanes : list (lane A)),
  (forall a, obs_tmin lanes = Ok a -> (exists l, In l lanes /\ tmin l = Ok a) /\
     forall l, In l lanes -> exists t, tmin l = Ok t /\ (a <= t)%Q) /\
  (forall a, obs_tmax lanes = Ok a -> (exists l, In l lanes /\ tmax l = Ok a) /\
     forall l, In l lanes -> exists t, tmax l = Ok t /\ (t <= a)%Q).
Proof.
  intros A lanes. split; intros a H.
  - unfold obs_tmin in H. destruct (all_ok (map tmin lanes)) as [r|] eqn:E; [|discriminate]. cbn [bind] in H.
    apply all_ok_spec in E. apply qmin_spec in H. destruct H as (I & M). split.
    + destruct (forall2_in _ _ _ _ _ _ E I) as (l & J & K). eauto.
    + intros l J. destruct (forall2_in' _ _ _ _ _ _ E J) as (t & T & K). exists t. split; [exact K|now apply M].
  - unfold obs_tmax in H. destruct (all_ok (map tmax lanes)) as [r|] eqn:E; [|discriminate]. cbn [bind] in H.
    apply all_ok_spec in E. apply qmax_spec in H. destruct H as (I & M). split.
    + destruct (forall2_in _ _ _ _ _ _ E I) as (l & J & K). eauto.
    + intros l J. destruct (forall2_in' _ _ _ _ _ _ E J) as (t & T & K). exists t. split; [exact K|now apply M].
Qed.
Theorem obs_frequencies : forall A (lanes : list (lane A)), lanes <> [] -> exists a b,
  obs_fmin lanes = Ok a /\ obs_fmax lanes = Ok b /\
  (exists l, In l lanes /\ l_fmin l = a) /\ (exists l, In l lanes /\ l_fmax l = b) /\
  forall l, In l lanes -> (a <= l_fmin l)%Q /\ (l_fmax l <= b)%Q.
Proof.
  intros A lanes N. unfold obs_fmin, obs_fmax.
  destruct (qmin_list (map l_fmin lanes)) as [a|] eqn:EA; [|destruct lanes; [congruence|discriminate]].
  destruct (qmax_list (map l_fmax lanes)) as [b|] eqn:EB; [|destruct lanes; [congruence|discriminate]].
  apply qmin_spec in EA. apply qmax_spec in EB. destruct EA as (IA & MA), EB as (IB & MB).
  exists a, b. split; [reflexivity|]. split; [reflexivity|].
  apply in_map_iff in IA, IB. destruct IA as (la & LA & IA), IB as (lb & LB & IB).
  split; [eauto|]. split; [eauto|]. intros l I. split; [apply MA|apply MB]; now apply in_map.
Qed.
Theorem obs_beams_spec : forall A (lanes : list (lane A)), StronglySorted Z.lt (obs_beams lanes) /\
  forall b, In b (obs_beams lanes) <-> exists l, In l lanes /\ In b (map fst (l_beams l)).
Proof.
  intros A lanes. split; [apply unique_sorted|]. intros b. unfold obs_beams. rewrite unique_in, in_concat. split.
  - intros (x & I & J). apply in_map_iff in I. destruct I as (l & <- & K). eauto.
  - intros (l & I & J). exists (map fst (l_beams l)). split; [now apply (in_map (fun l => map fst (l_beams l)))|exact J].
Qed.

(** ** Settings *)
(** What holds of a reader whatever was assigned to it. *)
Definition sound {A} (d : dynspec A) : Prop :=
  (exists l0 rest, d_lanes d = l0 :: rest /\ (0 <= d_edge d)%Z /\ (2 * d_edge d <= Z.of_nat (l_nchan l0))%Z) /\
  (exists l, In l (d_lanes d) /\ In (d_beam d) (map fst (l_beams l))) /\
  (forall a b, d_time_range d = Some (a, b) -> (a < b)%Q) /\
  (forall a b, d_freq_range d = Some (a, b) -> (a < b)%Q) /\
  In (d_bp d) ["standard"; "median"; "none"; "adjusted"]%string.

Lemma add_lanes_app : forall A (read : string -> res (lane A)) names ls r e, add_lanes read ls names = (r, e) ->
  exists extra, r = ls ++ extra.
Proof.
  intros A read. induction names as [|n names IH]; intros ls r e H; cbn [add_lanes] in H.
  - injection H as <- <-. exists []. now rewrite app_nil_r.
  - destruct (read n) as [l|].
    + destruct (IH _ _ _ H) as (x & ->). exists (l :: x). now rewrite <- app_assoc.
    + injection H as <- <-. exists []. now rewrite app_nil_r.
Qed.
Lemma add_lanes_all : forall A (read : string -> res (lane A)) names ls, 
  (forall r, add_lanes read ls names = (r, None) <-> exists new, Forall2 (fun n l => read n = Ok l) names new /\ r = ls ++ new).
Proof.
  intros A read. induction names as [|n names IH]; intros ls r; cbn [add_lanes].
  - split.
    + intros H. injection H as <-. exists []. split; [constructor|]. now rewrite app_nil_r.
    + intros (new & F & ->). inversion F. now rewrite app_nil_r.
  - destruct (read n) as [l|e] eqn:E.
    + rewrite IH. split.
      * intros (new & F & ->). exists (l :: new). split; [now constructor|]. now rewrite <- app_assoc.
      * intros (new & F & ->). inversion F as [|? x ? r' E' F']; subst. rewrite E in E'. injection E' as <-.
        exists r'. split; [exact F'|]. now rewrite <- app_assoc.
    + split; [discriminate|]. intros (new & F & _). inversion F; congruence.
Qed.

Lemma sound_more : forall A (d : dynspec A) extra files, sound d ->
  sound (mkDs (d_lanes d ++ extra) files (d_time_range d) (d_freq_range d) (d_beam d) (d_dm d) (d_rebin_dt d)
           (d_rebin_df d) (d_jump d) (d_bp d) (d_edge d) (d_rfi d)).
Proof.
  intros A d extra files ((l0 & rest & E & E0 & E1) & (l & I & J) & T & F & B).
  split; [|split; [|auto]].
  - exists l0, (rest ++ extra). cbn [d_lanes d_edge]. rewrite E. auto.
  - exists l. cbn [d_lanes d_beam]. split; [apply in_or_app; now left|exact J].
Qed.
Lemma new_beam_in : forall A (lanes : list (lane A)) a b, new_beam lanes a = Ok b ->
  exists l, In l lanes /\ In b (map fst (l_beams l)).
Proof.
  intros A lanes a b H. apply (proj2 (obs_beams_spec A lanes)). destruct a; try discriminate. cbn [new_beam] in H.
  destruct (existsb (Z.eqb z) (obs_beams lanes)) eqn:E.
  - injection H as <-. apply existsb_exists in E. destruct E as (x & I & E). apply Z.eqb_eq in E. now subst.
  - destruct (obs_beams lanes) as [|x r]; [discriminate|]. injection H as <-. now left.
Qed.
Lemma qge_false : forall a b, qge a b = false <-> (a < b)%Q.
Proof.
  intros a b. unfold qge. split.
  - intros H. apply Qnot_le_lt. intros K. apply Qle_bool_iff in K. congruence.
  - intros H. apply Bool.not_true_iff_false. intros K. apply Qle_bool_iff in K. lra.
Qed.
Lemma new_time_lt : forall A (lanes : list (lane A)) a x, new_time_range lanes a = Ok x -> (fst x < snd x)%Q.
Proof.
  intros A lanes a x H. destruct a as [| | | | | | |l|]; try discriminate.
  destruct l as [|u [|v [|]]]; try discriminate. cbn [new_time_range] in H.
  destruct (as_time u) as [t0|]; [|discriminate]. destruct (as_time v) as [t1|]; [|discriminate]. cbn [bind] in H.
  destruct (qge t0 t1) eqn:G; [discriminate|]. apply qge_false in G.
  destruct (obs_tmin lanes); [|discriminate]. cbn [bind] in H. destruct (negb _); [injection H as <-; exact G|].
  destruct (obs_tmax lanes); [|discriminate]. injection H as <-. exact G.
Qed.
Lemma new_freq_lt : forall a x, new_freq_range a = Ok x -> (fst x < snd x)%Q.
Proof.
  intros a x H. destruct a as [| | | | | | |l|]; try discriminate.
  destruct l as [|u [|v [|]]]; try discriminate. cbn [new_freq_range] in H.
  match type of H with bind ?b _ = _ => destruct b as [fg|] end; [|discriminate]. cbn [bind] in H.
  destruct (qge (fst fg) (snd fg)) eqn:G; [discriminate|]. injection H as <-. now apply qge_false.
Qed.
Lemma new_bp_in : forall a b, new_bp a = Ok b -> In b ["standard"; "median"; "none"; "adjusted"]%string.
Proof.
  intros a b H. destruct a; try discriminate. cbn [new_bp] in H.
  destruct (existsb _ corrections) eqn:E; [|discriminate]. injection H as <-.
  apply existsb_exists in E. destruct E as (x & I & E). apply String.eqb_eq in E. subst. exact I.
Qed.
Lemma new_edge_spec : forall A (l0 : lane A) rest a, exists n, new_edge (l0 :: rest) a = Ok n /\
  (0 <= n)%Z /\ (2 * n <= Z.of_nat (l_nchan l0))%Z.
Proof.
  intros A l0 rest a. assert (Z0 : exists n, Ok 0%Z = Ok n /\ (0 <= n)%Z /\ (2 * n <= Z.of_nat (l_nchan l0))%Z) by (exists 0%Z; split; [reflexivity|lia]).
  assert (G : forall n, exists m, bind (obs_nchan (l0 :: rest)) (fun c => if (Z.of_nat c <? n * 2)%Z then Ok 0%Z else if (n <? 0)%Z then Ok 0%Z else Ok n) = Ok m /\ (0 <= m)%Z /\ (2 * m <= Z.of_nat (l_nchan l0))%Z).
  { intros n. cbn [obs_nchan bind]. destruct (Z.ltb_spec (Z.of_nat (l_nchan l0)) (n * 2)); [exact Z0|].
    destruct (Z.ltb_spec n 0); [exact Z0|]. exists n. split; [reflexivity|lia]. }
  destruct a; try exact Z0; cbn [new_edge]; apply G.
Qed.

Lemma sound_assign : forall A (read : string -> res (lane A)) d sa, sound d -> sound (fst (assign read d sa)).
Proof.
  intros A read d [s a] H. pose proof H as ((l0 & rest & E & E0 & E1) & B & T & F & P).
  destruct s; cbn [assign].
  - destruct (names_of a) as [names|]; [|exact H]. unfold set_files.
    destruct (add_lanes read (d_lanes d) names) as (ls, [e|]) eqn:L; destruct (add_lanes_app _ _ _ _ _ _ L) as (x & ->); cbn [fst]; now apply sound_more.
  - destruct (new_time_range (d_lanes d) a) as [x|] eqn:N; [|exact H]. apply new_time_lt in N. cbn [put fst].
    split; [eauto|]. split; [exact B|]. cbn [with_time d_time_range d_freq_range d_bp]. split; [|auto].
    intros u v X. injection X as ->. exact N.
  - destruct (new_freq_range a) as [x|] eqn:N; [|exact H]. apply new_freq_lt in N. cbn [put fst].
    split; [eauto|]. split; [exact B|]. cbn [with_freq d_time_range d_freq_range d_bp]. split; [exact T|]. split; [|exact P].
    intros u v X. injection X as ->. exact N.
  - destruct (new_beam (d_lanes d) a) as [x|] eqn:N; [|exact H]. apply new_beam_in in N. cbn [put fst].
    split; [eauto|]. split; [exact N|]. auto.
  - destruct (optional 1 a); [|exact H]. exact H.
  - destruct (optional 1 a); [|exact H]. exact H.
  - destruct (optional 1000000 a); [|exact H]. exact H.
  - destruct (new_jump a); [|exact H]. exact H.
  - destruct (new_bp a) as [x|] eqn:N; [|exact H]. apply new_bp_in in N. cbn [put fst].
    split; [eauto|]. split; [exact B|]. auto.
  - destruct (new_edge_spec A l0 rest a) as (n & N & N0 & N1). rewrite E. rewrite N. cbn [put fst].
    split; [|split; [exact B|auto]]. exists l0, rest. auto.
  - destruct (new_rfi a); [|exact H]. exact H.
Qed.
Lemma sound_new : forall A (read : string -> res (lane A)) names d, dynspec_new read names = Ok d -> sound d.
Proof.
  intros A read names d H. unfold dynspec_new in H. destruct (add_lanes read [] names) as (ls, [e|]) eqn:L; [discriminate|].
  destruct (obs_tmin ls) as [a|] eqn:TM; [|discriminate]. destruct (obs_tmax ls); [|discriminate]. cbn [bind] in H.
  destruct (new_beam ls (AInt 0)) as [b|] eqn:B; [|discriminate]. injection H as <-.
  assert (N : ls <> []) by (intros ->; discriminate). destruct ls as [|l0 rest]; [congruence|].
  split; [exists l0, rest; cbn; split; [reflexivity|lia]|]. split; [now apply new_beam_in in B|].
  split; [discriminate|]. split; [discriminate|]. cbn. auto.
Qed.
Theorem settings_sound : forall A (read : string -> res (lane A)) names d l,
  dynspec_new read names = Ok d -> sound (assigns read d l).
Proof.
  intros A read names d l H. apply sound_new in H. revert d H. induction l as [|sa l IH]; intros d H; [exact H|].
  cbn. apply IH. now apply sound_assign.
Qed.

(** A refused assignment changes nothing, except for the files. *)
Theorem settings_refused : forall A (read : string -> res (lane A)) d s a d' e,
  assign read d (s, a) = (d', Some e) -> s <> SFiles -> d' = d.
Proof.
  intros A read d s a d' e H N. destruct s; [congruence|..]; cbn [assign] in H; unfold put in H;
  match type of H with (match ?x with _ => _ end = _) => destruct x end; injection H as <-; congruence.
Qed.
(** Each setting as a value, to say that the others do not change. *)
Inductive value (A : Type) := VLanes (l : list (lane A)) (f : list string) | VRange (r : option (Q * Q)) | VZ (z : Z) | VQ (q : option Q) | VB (b : bool) | VS (s : string) | VN (q : Q).
Arguments VLanes {A}. Arguments VRange {A}. Arguments VZ {A}. Arguments VQ {A}. Arguments VB {A}. Arguments VS {A}. Arguments VN {A}.
Definition view {A} (s : setting) (d : dynspec A) : value A :=
  match s with
  | SFiles => VLanes (d_lanes d) (d_files d) | STimeRange => VRange (d_time_range d) | SFreqRange => VRange (d_freq_range d)
  | SBeam => VZ (d_beam d) | SDm => VQ (d_dm d) | SRebinDt => VQ (d_rebin_dt d) | SRebinDf => VQ (d_rebin_df d)
  | SJump => VB (d_jump d) | SBp => VS (d_bp d) | SEdge => VZ (d_edge d) | SRfi => VN (d_rfi d)
  end.
Theorem settings_apart : forall A (read : string -> res (lane A)) d s a s', s' <> s ->
  view s' (fst (assign read d (s, a))) = view s' d.
Proof.
  intros A read d s a s' N. destruct s; cbn [assign]; unfold put, set_files;
  repeat match goal with |- context [match ?x with _ => _ end] => destruct x end; destruct s'; try congruence; reflexivity.
Qed.

(** Numbers are in the unit of the setting, quantities have their own, None resets. *)
Definition number_given (a : arg) (q : Q) : Prop := (exists b : bool, a = ABool b /\ q = if b then 1%Q else 0%Q) \/ (exists z, a = AInt z /\ q = inject_Z z) \/ a = AFloat q.
Definition standing (unit : Q) (a : arg) (v : option Q) : Prop :=
  a = ANone /\ v = None \/ (exists q, a = AQuantity q /\ v = Some q) \/ (exists q w, number_given a q /\ v = Some w /\ (w == q * unit)%Q).
Lemma optional_standing : forall u a, match optional u a with Ok v => standing u a v | Err e => e = ETypeError /\ forall v, ~ standing u a v end.
Proof.
  intros u a. destruct a as [|b|z|q|s t|q|t|l|]; cbn; unfold standing, number_given;
    try (left; split; reflexivity); try (right; left; eexists; split; reflexivity); try (right; right; do 2 eexists; split; [|split; reflexivity]; eauto; fail);
    (split; [reflexivity|]); intros v [[H _]|[(x & H & _)|(x & w & [(b & H & _)|[(y & H & _)|H]] & _)]]; discriminate H.
Qed.
Definition unit_of (s : setting) : option Q := match s with SDm | SRebinDt => Some 1%Q | SRebinDf => Some 1000000%Q | _ => None end.
Theorem settings_optional : forall A (read : string -> res (lane A)) d s a u, unit_of s = Some u ->
  match assign read d (s, a) with
  | (d', None) => exists v, view s d' = VQ v /\ standing u a v
  | (d', Some e) => d' = d /\ e = ETypeError /\ forall v, ~ standing u a v
  end.
Proof.
  intros A read d s a u H. destruct s; try discriminate H; injection H as <-; cbn [assign]; unfold put;
    [pose proof (optional_standing 1 a) as O; destruct (optional 1 a)|pose proof (optional_standing 1 a) as O; destruct (optional 1 a)|pose proof (optional_standing 1000000 a) as O; destruct (optional 1000000 a)];
    try (eexists; split; [reflexivity|exact O]); split; auto.
Qed.
Theorem settings_switches : forall A (read : string -> res (lane A)) d a,
  (forall b, a = ABool b -> snd (assign read d (SJump, a)) = None /\ d_jump (fst (assign read d (SJump, a))) = b) /\
  ((forall b, a <> ABool b) -> assign read d (SJump, a) = (d, Some ETypeError)) /\
  (forall q, number_given a q -> snd (assign read d (SRfi, a)) = None /\ d_rfi (fst (assign read d (SRfi, a))) = q) /\
  ((forall q, ~ number_given a q) -> assign read d (SRfi, a) = (d, Some ETypeError)).
Proof.
  intros A read d a. split; [intros b ->; split; reflexivity|]. split; [|split].
  - intro N. destruct a; try reflexivity. exfalso. now apply (N b).
  - intros q [(b & -> & ->)|[(z & -> & ->)| ->]]; [|split; reflexivity|split; reflexivity]. destruct b; split; reflexivity.
  - intro N. destruct a as [|b|z|q|s t|q|t|l|]; try reflexivity; exfalso.
    + apply (N (if b then 1 else 0)%Q). left. eauto.
    + apply (N (inject_Z z)). right; left. eauto.
    + apply (N q). right; right. reflexivity.
Qed.
(** The others hold what the checks give. *)
Theorem settings_held : forall A (read : string -> res (lane A)) d a,
  (forall r, new_time_range (d_lanes d) a = Ok r -> d_time_range (fst (assign read d (STimeRange, a))) = Some r) /\
  (forall r, new_freq_range a = Ok r -> d_freq_range (fst (assign read d (SFreqRange, a))) = Some r) /\
  (forall b, new_beam (d_lanes d) a = Ok b -> d_beam (fst (assign read d (SBeam, a))) = b) /\
  (forall s, new_bp a = Ok s -> d_bp (fst (assign read d (SBp, a))) = s) /\
  (forall n, new_edge (d_lanes d) a = Ok n -> d_edge (fst (assign read d (SEdge, a))) = n).
Proof. intros A read d a. repeat split; intros r H; cbn [assign]; unfold put; rewrite H; reflexivity. Qed.

(** What each assignment accepts, and what it then holds. *)
Definition time_of (a : arg) (t : Q) : Prop := a = ATime t \/ exists s, a = AText s (Some t).
Lemma as_time_iff : forall a t, as_time a = Ok t <-> time_of a t.
Proof.
  intros a t. unfold time_of. split.
  - destruct a as [| | | |s [u|]| | | |]; try discriminate; cbn; intros H; injection H as ->; [right; eauto|now left].
  - intros [-> | (s & ->)]; reflexivity.
Qed.
Theorem time_range_accepted : forall A (lanes : list (lane A)) a t0 t1 u v,
  obs_tmin lanes = Ok u -> obs_tmax lanes = Ok v ->
  (new_time_range lanes a = Ok (t0, t1) <->
   exists x y, a = AList [x; y] /\ time_of x t0 /\ time_of y t1 /\ (t0 < t1)%Q).
Proof.
  intros A lanes a t0 t1 u v U V. split.
  - intros H. pose proof (new_time_lt _ _ _ _ H) as L. cbn [fst snd] in L.
    destruct a as [| | | | | | |l|]; try discriminate. destruct l as [|x [|y [|]]]; try discriminate.
    exists x, y. split; [reflexivity|]. cbn [new_time_range] in H.
    destruct (as_time x) as [a|] eqn:X; [|discriminate]. destruct (as_time y) as [b|] eqn:Y; [|discriminate]. cbn [bind] in H.
    destruct (qge a b); [discriminate|]. rewrite U in H. cbn [bind] in H. apply as_time_iff in X, Y.
    destruct (negb _); [injection H as -> ->; auto|]. rewrite V in H. injection H as -> ->. auto.
  - intros (x & y & -> & X & Y & L). apply as_time_iff in X, Y. cbn [new_time_range]. rewrite X, Y. cbn [bind].
    apply qge_false in L. rewrite L, U. cbn [bind]. destruct (negb _); [reflexivity|]. now rewrite V.
Qed.
Definition two_hertz (x y : arg) (f g : Q) : Prop :=
  (x = AQuantity f /\ y = AQuantity g) \/
  exists u v, number x = Some u /\ number y = Some v /\ f = (u * 1000000)%Q /\ g = (v * 1000000)%Q.
Theorem freq_range_accepted : forall a f g, new_freq_range a = Ok (f, g) <->
  exists x y, a = AList [x; y] /\ two_hertz x y f g /\ (f < g)%Q.
Proof.
  intros a f g. split.
  - intros H. pose proof (new_freq_lt _ _ H) as L. cbn [fst snd] in L.
    destruct a as [| | | | | | |l|]; try discriminate. destruct l as [|x [|y [|]]]; try discriminate.
    exists x, y. split; [reflexivity|]. split; [|exact L]. cbn [new_freq_range] in H.
    assert (G : forall p, bind p (fun fg : Q * Q => if qge (fst fg) (snd fg) then Err EValueError else Ok fg) = Ok (f, g) -> p = Ok (f, g)).
    { intros [fg|] K; [|discriminate]. cbn [bind] in K. destruct (qge _ _); [discriminate|exact K]. }
    apply G in H. unfold two_hertz.
    destruct x, y; try (cbn in H; discriminate H); cbn [number] in H;
      try (right; injection H as <- <-; eexists; eexists; cbn; repeat split; reflexivity).
    left. injection H as -> ->. auto.
  - intros (x & y & -> & W & L). cbn [new_freq_range]. apply qge_false in L.
    destruct W as [(-> & ->)|(u & v & U & V & -> & ->)].
    + cbn [bind fst snd]. now rewrite L.
    + assert (K : match x, y with AQuantity f, AQuantity g => Ok (f, g) | _, _ => match number x, number y with Some f, Some g => Ok (f * 1000000, g * 1000000)%Q | _, _ => Err ETypeError end end = Ok (u * 1000000, v * 1000000)%Q).
      { rewrite U, V. destruct x; try reflexivity; destruct y; try reflexivity; discriminate. }
      rewrite K. cbn [bind fst snd]. now rewrite L.
Qed.
Theorem beam_accepted : forall A (lanes : list (lane A)) z b, In b (obs_beams lanes) ->
  exists m, hd_error (obs_beams lanes) = Some m /\
    new_beam lanes (AInt z) = Ok (if in_dec Z.eq_dec z (obs_beams lanes) then z else m).
Proof.
  intros A lanes z b I. destruct (obs_beams lanes) as [|m r] eqn:E; [contradiction|]. exists m. split; [reflexivity|].
  cbn [new_beam]. rewrite E. destruct (in_dec Z.eq_dec z (m :: r)) as [J|J].
  - assert (X : existsb (Z.eqb z) (m :: r) = true) by (apply existsb_exists; exists z; split; [exact J|apply Z.eqb_refl]). now rewrite X.
  - assert (X : existsb (Z.eqb z) (m :: r) = false).
    { apply Bool.not_true_iff_false. intros K. apply existsb_exists in K. destruct K as (y & K & Q). apply Z.eqb_eq in Q. subst. contradiction. }
    now rewrite X.
Qed.
Theorem edge_accepted : forall A (l0 : lane A) rest n,
  new_edge (l0 :: rest) (AInt n) = Ok (if (0 <=? n)%Z && (2 * n <=? Z.of_nat (l_nchan l0))%Z then n else 0%Z).
Proof.
  intros A l0 rest n. cbn [new_edge obs_nchan bind].
  destruct (Z.ltb_spec (Z.of_nat (l_nchan l0)) (n * 2)), (Z.leb_spec (2 * n) (Z.of_nat (l_nchan l0))), (Z.ltb_spec n 0), (Z.leb_spec 0 n); try lia; reflexivity.
Qed.
Theorem bp_accepted : forall s t b, new_bp (AText s t) = Ok b <->
  b = lower s /\ In (lower s) ["standard"; "median"; "none"; "adjusted"]%string.
Proof.
  intros s t b. split.
  - intros H. split; [|apply new_bp_in in H as K; cbn [new_bp] in H; destruct (existsb _ _); [injection H as <-; exact K|discriminate]].
    cbn [new_bp] in H. destruct (existsb _ _); [now injection H as <-|discriminate].
  - intros (-> & I). cbn [new_bp]. assert (X : existsb (String.eqb (lower s)) corrections = true).
    { apply existsb_exists. exists (lower s). split; [exact I|apply String.eqb_refl]. }
    now rewrite X.
Qed.

(** ** The files *)
Theorem files_accumulate : forall A (read : string -> res (lane A)) d a names new,
  names_of a = Ok names -> Forall2 (fun n l => read n = Ok l) names new ->
  exists d', assign read d (SFiles, a) = (d', None) /\ d_lanes d' = d_lanes d ++ new /\ d_files d' = names.
Proof.
  intros A read d a names new N F. cbn [assign]. rewrite N. unfold set_files.
  rewrite (proj2 (add_lanes_all A read names (d_lanes d) _) (ex_intro _ new (conj F eq_refl))).
  eexists. split; [reflexivity|]. split; reflexivity.
Qed.
Theorem files_refused : forall A (read : string -> res (lane A)) d a names good new bad rest e,
  names_of a = Ok names -> names = good ++ bad :: rest -> Forall2 (fun n l => read n = Ok l) good new -> read bad = Err e ->
  exists d', assign read d (SFiles, a) = (d', Some e) /\ d_lanes d' = d_lanes d ++ new /\ d_files d' = d_files d.
Proof.
  intros A read d a names good new bad rest e N E F B. cbn [assign]. rewrite N. unfold set_files. subst names.
  assert (X : forall ls, add_lanes read ls (good ++ bad :: rest) = (ls ++ new, Some e)).
  { clear - F B. induction F as [|g l good new G F IH]; intros ls; cbn [app add_lanes].
    - rewrite B. now rewrite app_nil_r.
    - rewrite G, IH. now rewrite <- app_assoc. }
  rewrite X. eexists. split; [reflexivity|]. split; reflexivity.
Qed.
