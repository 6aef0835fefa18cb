(** Digital beams of a parset. *)
From Coq Require Import Ascii String List Arith ZArith QArith Qround Qabs Bool Lia Lqa.
From Verif Require Import Base M_Polar M_Dedisperse M_Pipeline M_PText M_POptions M_Parset P_PText M_Config P_Config P_Config2 P_Config3 P_Config4.
Import ListNotations.
Open Scope list_scope.

(** ** Specification *)
Definition has_text {ck} (db : property ck) (k s : string) : Prop := dict_get String.eqb k db = Some (PStr ck s).
(** "3600s" *)
Definition lasts {ck} (db : property ck) (n : Z) : Prop := exists s, has_text db "duration" s /\ py_int (drop_char "s" s) = Some n.
Definition elements {ck} (db : property ck) (k : string) (n : Z) : Prop :=
  (exists l, dict_get String.eqb k db = Some (PList ck l) /\ n = Z.of_nat (length l)) \/ (exists s, has_text db k s /\ n = Z.of_nat (String.length s)).
(** What the beam is for. *)
Definition purpose (b : backend) : string := match b with Tf => "dynamicspectrum" | Raw => "waveform" | _ => "pulsar" end.
Definition recorder (b : backend) : string := match b with Tf => "tf" | Fold => "fold" | Wave => "waveolaf" | _ => "single" end.
Definition sub_band_range (b : backend) : range := match b with Tf => ints 1 768 768 | _ => ints 1 192 192 end.
Definition computer (b : backend) : Prop := b <> Bst /\ b <> Nickel.

Lemma bind_ok {A B} (x : res A) (f : A -> res B) y : bind x f = Ok y -> exists a, x = Ok a /\ f a = Ok y.
Proof. destruct x; [|discriminate]. cbn. eauto. Qed.
Lemma item_get_ok {ck} k (db : property ck) v : item_get ck k db = Ok v <-> dict_get String.eqb k db = Some v.
Proof. unfold item_get. destruct (dict_get String.eqb k db); split; intro H; congruence. Qed.
Lemma duration_ok {ck} (db : property ck) n : beam_duration ck db = Ok n <-> lasts db n.
Proof.
  unfold beam_duration, lasts, has_text. split.
  - intro H. apply bind_ok in H. destruct H as (v & G & H). apply item_get_ok in G. unfold int_of_duration in H. destruct v as [i|s|bb|t|a|l]; try discriminate. exists s. split; [exact G|]. destruct (py_int _); [|discriminate]. now injection H as ->.
  - intros (s & G & H). apply item_get_ok in G. rewrite G. cbn. now rewrite H.
Qed.
Lemma elements_ok {ck} (db : property ck) k n : bind (item_get ck k db) (len_of ck) = Ok n <-> elements db k n.
Proof.
  unfold elements, has_text. split.
  - intro H. apply bind_ok in H. destruct H as (v & G & H). apply item_get_ok in G. unfold len_of in H. destruct v as [i|s|bb|t|a|l]; try discriminate; injection H as <-; [right|left]; eauto.
  - intros [(l & G & ->)|(s & G & ->)]; apply item_get_ok in G; rewrite G; reflexivity.
Qed.
Lemma init_valid public b k s c : init public b k s = Ok c -> valid c.
Proof. intro H. exact (proj2 (always_valid public b k s c [] H)). Qed.

(** ** Beams kept and passed over *)
Lemma kept_int b k s c n r : init false b k s = Ok c -> In (NSubBands, r) (props b) -> kw "nSubBands" k = Some (AInt n) -> kept r (inject_Z n) (value c NSubBands).
Proof.
  intros H I K. destruct (init_spec _ _ _ _ _ H) as (_ & _ & _ & G & _). destruct (G _ _ I) as (w & W & Gw). unfold given in Gw. cbn [attr_name] in Gw. rewrite K in Gw. destruct Gw as (v & S & _ & Kp).
  rewrite (value_get _ _ _ W). inversion S; subst; [exact Kp|..]; cbn in *; intuition discriminate.
Qed.
Lemma init_duration b k s c n : init false b k s = Ok c -> kw "durationSec" k = Some (AInt n) -> c_duration c = inject_Z n.
Proof. intros H K. destruct (init_spec _ _ _ _ _ H) as (_ & D & _). unfold asked_duration in D. rewrite K in D. cbn in D. now injection D as <-. Qed.
Theorem beam_kept : forall ck pf b (db : property ck) c, computer b -> beam_from ck pf b db = Ok (Some c) ->
  c_backend c = b /\ valid c /\ (exists n, lasts db n /\ c_duration c = inject_Z n) /\ (exists n, elements db "subbandList" n /\ kept (sub_band_range b) (inject_Z n) (value c NSubBands)) /\
  (exists t, has_text db "toDo" t /\ lower t = purpose b) /\
  (b <> Raw -> exists s, has_text db "parameters" s /\ fst (parse_parameters s (match b with Tf => false | _ => true end)) = recorder b).
Proof.
  intros ck pf b db c [NB NN] H. unfold beam_from in H. apply bind_ok in H. destruct H as (todo & T & H).
  assert (TD : exists t, has_text db "toDo" t /\ lower t = todo). { apply bind_ok in T. destruct T as (v & G & L). apply item_get_ok in G. destruct v as [i|s|bb|t|a|l]; try discriminate. injection L as <-. exists s. split; [exact G|reflexivity]. }
  assert (SB : In (NSubBands, sub_band_range b) (props b)) by (destruct b; cbn; auto 8; congruence).
  assert (C : match b with Tf => "dynamicspectrum" | Raw => "waveform" | _ => "pulsar" end%string = purpose b) by reflexivity. rewrite C in H. clear C.
  destruct (String.eqb todo (purpose b)) eqn:E; cbn [negb] in H; [|discriminate]. apply String.eqb_eq in E. subst todo.
  assert (FIN : forall k, init false b k None = Ok c -> (exists d, kw "durationSec" k = Some (AInt d) /\ lasts db d) -> (exists n, kw "nSubBands" k = Some (AInt n) /\ elements db "subbandList" n) ->
    c_backend c = b /\ valid c /\ (exists n, lasts db n /\ c_duration c = inject_Z n) /\ (exists n, elements db "subbandList" n /\ kept (sub_band_range b) (inject_Z n) (value c NSubBands))).
  { intros k I (d & K & L) (n & K' & L'). split; [exact (proj1 (init_spec _ _ _ _ _ I))|]. split; [exact (init_valid _ _ _ _ _ I)|]. split; [exists d; split; [exact L|exact (init_duration _ _ _ _ _ I K)]|]. exists n. split; [exact L'|exact (kept_int _ _ _ _ _ _ I SB K')]. }
  assert (PAR : b = Raw \/ (b <> Raw /\ exists s, has_text db "parameters" s)).
  { destruct b; try (now left); right; (split; [discriminate|]); destruct (dict_get String.eqb "parameters"%string db) as [[i|s|bb|t|a|l]|] eqn:G; try discriminate H; exists s; exact G. }
  assert (GOAL : (c_backend c = b /\ valid c /\ (exists n, lasts db n /\ c_duration c = inject_Z n) /\ (exists n, elements db "subbandList" n /\ kept (sub_band_range b) (inject_Z n) (value c NSubBands))) /\
    (b <> Raw -> exists s, has_text db "parameters" s /\ fst (parse_parameters s (match b with Tf => false | _ => true end)) = recorder b)).
  2:{ destruct GOAL as [(G1 & G2 & G3 & G4) G5]. auto 8. }
  destruct PAR as [->|[NR (s & P)]].
  - apply bind_ok in H. destruct H as (d & D & H). apply bind_ok in H. destruct H as (n & N & H). apply bind_ok in H. destruct H as (c' & I & H). injection H as ->. apply duration_ok in D. apply elements_ok in N. split; [|congruence]. apply (FIN _ I); [exists d; split; [reflexivity|exact D]|exists n; split; [reflexivity|exact N]].
  - assert (H' : (let '(mode, par) := parse_parameters s (match b with Tf => false | _ => true end) in mode = recorder b /\ exists k, init false b k None = Ok c /\ (exists d, kw "durationSec" k = Some (AInt d) /\ lasts db d) /\ (exists n, kw "nSubBands" k = Some (AInt n) /\ elements db "subbandList" n))).
    { unfold has_text in P. destruct b; try congruence; rewrite P in H; cbn [bind] in H; destruct (parse_parameters s _) as [mode par]; cbn [recorder];
        match type of H with (if negb (String.eqb mode ?x) then _ else _) = _ => destruct (String.eqb mode x) eqn:M; cbn [negb] in H; [apply String.eqb_eq in M|discriminate] end; (split; [exact M|]); apply bind_ok in H; destruct H as (k & K & H); apply bind_ok in H; destruct H as (c' & I & H); injection H as ->; exists k; (split; [exact I|]).
      - apply bind_ok in K. destruct K as (dt & _ & K). apply bind_ok in K. destruct K as (df & _ & K). destruct (effective _ _) as [edt edf]. apply bind_ok in K. destruct K as (d & D & K). apply bind_ok in K. destruct K as (n & N & K). injection K as <-. apply duration_ok in D. apply elements_ok in N. split; [exists d|exists n]; (split; [reflexivity|assumption]).
      - apply bind_ok in K. destruct K as (n & N & K). apply bind_ok in K. destruct K as (dt & _ & K). apply bind_ok in K. destruct K as (d & D & K). apply bind_ok in K. destruct K as (nb & _ & K). injection K as <-. apply duration_ok in D. apply elements_ok in N. split; [exists d|exists n]; (split; [reflexivity|assumption]).
      - apply bind_ok in K. destruct K as (n & N & K). apply bind_ok in K. destruct K as (d & D & K). injection K as <-. apply duration_ok in D. apply elements_ok in N. split; [exists d|exists n]; (split; [reflexivity|assumption]).
      - apply bind_ok in K. destruct K as (n & N & K). apply bind_ok in K. destruct K as (ds & _ & K). apply bind_ok in K. destruct K as (d & D & K). apply bind_ok in K. destruct K as (nb & _ & K). injection K as <-. apply duration_ok in D. apply elements_ok in N. split; [exists d|exists n]; (split; [reflexivity|assumption]). }
    destruct (parse_parameters s _) as [mode par] eqn:PP. destruct H' as (-> & k & I & D & N). split; [exact (FIN k I D N)|]. intros _. exists s. split; [exact P|]. now rewrite PP.
Qed.
Theorem beam_passed : forall ck pf b (db : property ck) t, computer b -> has_text db "toDo" t ->
  (lower t <> purpose b \/ (b <> Raw /\ dict_get String.eqb "parameters"%string db = None) \/
   (b <> Raw /\ exists s, has_text db "parameters" s /\ fst (parse_parameters s (match b with Tf => false | _ => true end)) <> recorder b)) ->
  beam_from ck pf b db = Ok None.
Proof.
  intros ck pf b db t [NB NN] T H. unfold beam_from, item_get. rewrite T. cbn [bind lower_of].
  assert (C : match b with Tf => "dynamicspectrum" | Raw => "waveform" | _ => "pulsar" end%string = purpose b) by reflexivity. rewrite C. clear C.
  destruct (String.eqb (lower t) (purpose b)) eqn:E; [apply String.eqb_eq in E|reflexivity]. cbn [negb]. destruct H as [H|[[R P]|(R & s & P & M)]]; [contradiction| |].
  - destruct b; try congruence; now rewrite P.
  - unfold has_text in P. destruct b; try congruence; rewrite P; cbn [bind]; destruct (parse_parameters s _) as [mode par]; cbn [fst recorder] in M;
      match goal with |- context [String.eqb mode ?x] => destruct (String.eqb mode x) eqn:Q; [apply String.eqb_eq in Q; contradiction|reflexivity] end.
Qed.
(** ** Dynamic spectra *)
Lemma kw_names : forall (l : list (string * arg)) x, kw x l <> None <-> In x (map fst l).
Proof.
  induction l as [|[k v] l IH]; intro x; cbn; [tauto|]. destruct (String.eqb x k) eqn:E; [apply String.eqb_eq in E; subst; split; [auto|discriminate]|]. rewrite IH. apply String.eqb_neq in E. split; [auto|intros [->|H]; [congruence|exact H]].
Qed.
Lemma not_refused public n : In n common_dir -> ~ refused public n.
Proof.
  intro I. rewrite <- refused_spec. unfold name_refused. assert (S : starts_with "_" n = false) by (cbn in I; repeat destruct I as [<-|I]; try reflexivity; destruct I). rewrite S. cbn [orb]. unfold directory. rewrite existsb_app.
  replace (existsb (String.eqb n) common_dir) with true; [rewrite orb_true_r; discriminate|]. symmetry. apply existsb_exists. exists n. split; [exact I|apply String.eqb_refl].
Qed.
Lemma init_false_made b k s d : asked_duration k = Ok d -> (forall n, In n (map fst k) -> In n common_dir) ->
  (forall a r x, In (a, r) (props b) -> kw (attr_name a) k = Some x -> exists v, stands a x v /\ (binary a -> power_of_two v)) -> exists c, init false b k s = Ok c.
Proof. intros D N W. apply (init_made false b k s d D); [|exact W]. intros n I. apply not_refused. now apply N. Qed.
(** "TF: DT=10 DF=3.05": milliseconds and kilohertz. *)
Theorem tf_beam : forall ck pf (db : property ck) t text l x y dt df n m, has_text db "toDo" t -> lower t = "dynamicspectrum"%string -> has_text db "parameters" text ->
  lower text = tf_text "tf" l -> Forall (fun p => plain (fst p) /\ plain (snd p)) l -> last_given "dt" l x -> last_given "df" l y -> pf x = Some dt -> pf y = Some df ->
  lasts db n -> elements db "subbandList" m ->
  exists c, beam_from ck pf Tf db = Ok (Some c) /\ c_duration c = inject_Z n /\ kept (ints 1 768 768) (inject_Z m) (value c NSubBands) /\ value c NPolars = 4 /\
    (tf_time (dt / 1000) -> value c TimeRes = fst (effective (dt / 1000) (df * 1000)) /\ value c FreqRes = snd (effective (dt / 1000) (df * 1000))).
Proof.
  intros ck pf db t text l x y dt df n m T TL P TX F LX LY X Y D E. destruct (tf_parameters text "tf" l TX ltac:(cbn; repeat split; discriminate) F) as [PM PG].
  assert (GX := proj2 (PG "dt"%string ltac:(cbn; repeat split; discriminate) (DText x)) (ex_intro _ x (conj eq_refl LX))). assert (GY := proj2 (PG "df"%string ltac:(cbn; repeat split; discriminate) (DText y)) (ex_intro _ y (conj eq_refl LY))).
  assert (BF : forall c, init false Tf [("timeRes", AFloat (fst (effective (dt / 1000) (df * 1000)))); ("freqRes", AFloat (snd (effective (dt / 1000) (df * 1000)))); ("durationSec", AInt n); ("nSubBands", AInt m)]%string None = Ok c -> beam_from ck pf Tf db = Ok (Some c)).
  { intros c I. unfold beam_from, item_get. rewrite T. cbn [bind lower_of]. rewrite TL. cbn [String.eqb]. change (negb (String.eqb "dynamicspectrum" "dynamicspectrum")) with false. cbn iota. rewrite P. cbn [bind]. destruct (parse_parameters text false) as [mode par]. cbn [fst snd] in *. subst mode. change (negb (String.eqb "tf" "tf")) with false. cbn iota.
    unfold param. rewrite GX, GY. cbn [bind float_of]. rewrite X, Y. cbn [bind]. destruct (effective _ _) as [edt edf]. cbn [fst snd] in I. apply duration_ok in D. rewrite D. cbn [bind]. apply elements_ok in E. unfold sub_bands. rewrite E. cbn [bind]. rewrite I. reflexivity. }
  destruct (effective (dt / 1000) (df * 1000)) as [edt edf] eqn:EE. cbn [fst snd] in *.
  destruct (init_false_made Tf [("timeRes", AFloat edt); ("freqRes", AFloat edf); ("durationSec", AInt n); ("nSubBands", AInt m)]%string None (inject_Z n)) as (c & I); [reflexivity| | |].
  - intros k K. cbn in K. cbn. repeat destruct K as [<-|K]; try destruct K; auto 20.
  - intros a r v Ia K. cbn [props In] in Ia. repeat match type of Ia with _ \/ _ => destruct Ia as [Ia|Ia] | False => destruct Ia end; injection Ia as <- <-; cbn in K; try discriminate K; injection K as <-; eexists; (split; [first [apply stands_int|apply stands_float; cbn; auto]|intros [B|B]; discriminate]).
  - exists c. split; [exact (BF c I)|]. destruct (init_spec _ _ _ _ _ I) as (_ & _ & _ & G & _). split; [exact (init_duration _ _ _ _ _ I eq_refl)|]. split; [apply (kept_int _ _ _ _ _ _ I); [cbn; auto 8|reflexivity]|]. split.
    { destruct (G NPolars (ints 1 4 4) ltac:(cbn; auto)) as (w & W & Gw). cbn in Gw. subst w. exact (value_get _ _ _ W). }
    intro TT. destruct (effective_bounds _ (df * 1000) TT) as [B1 B2]. rewrite EE in B1, B2. cbn [fst snd] in B1, B2. split.
    + destruct (G TimeRes tf_time_range ltac:(cbn; auto)) as (w & W & Gw). rewrite (value_get _ _ _ W). cbn in Gw. destruct Gw as (v & S & _ & K). inversion S; subst. destruct K as [[_ ->]|[K _]]; [reflexivity|]. unfold tf_time in B1. cbn [tf_time_range r_min r_max] in K. exfalso. destruct B1, K; lra.
    + destruct (G FreqRes tf_freq_range ltac:(cbn; auto)) as (w & W & Gw). rewrite (value_get _ _ _ W). cbn in Gw. destruct Gw as (v & S & _ & K). inversion S; subst. destruct K as [[_ ->]|[K _]]; [reflexivity|]. unfold tf_freq in B2. cbn [tf_freq_range r_min r_max] in K. exfalso. destruct B2, K; lra.
Qed.
(** Without one of them the whole parset is refused. *)
Theorem tf_missing : forall ck pf (db : property ck) t text l, has_text db "toDo" t -> lower t = "dynamicspectrum"%string -> has_text db "parameters" text ->
  lower text = tf_text "tf" l -> Forall (fun p => plain (fst p) /\ plain (snd p)) l ->
  (~ In "dt"%string (map fst l) \/ (exists x dt, last_given "dt" l x /\ pf x = Some dt) /\ ~ In "df"%string (map fst l)) -> beam_from ck pf Tf db = Err EKeyError.
Proof.
  intros ck pf db t text l T TL P TX F H. destruct (tf_parameters text "tf" l TX ltac:(cbn; repeat split; discriminate) F) as [PM PG].
  unfold beam_from, item_get. rewrite T. cbn [bind lower_of]. rewrite TL. change (negb (String.eqb "dynamicspectrum" "dynamicspectrum")) with false. cbn iota. rewrite P. cbn [bind]. destruct (parse_parameters text false) as [mode par]. cbn [fst snd] in *. subst mode. change (negb (String.eqb "tf" "tf")) with false. cbn iota.
  assert (NO : forall k, plain k -> ~ In k (map fst l) -> dict_get String.eqb k par = None). { intros k K N. destruct (dict_get String.eqb k par) as [v|] eqn:G; [|reflexivity]. apply (PG k K v) in G. destruct G as (s & _ & L). elim N. apply in_map_iff. eexists. split; [|exact (last_in _ _ _ L)]. reflexivity. }
  unfold param. destruct H as [H|[(x & dt & L & X) H]].
  - rewrite (NO "dt"%string) by (try exact H; cbn; repeat split; discriminate). reflexivity.
  - rewrite (proj2 (PG "dt"%string ltac:(cbn; repeat split; discriminate) (DText x)) (ex_intro _ x (conj eq_refl L))). cbn [bind float_of]. rewrite X. cbn [bind]. rewrite (NO "df"%string) by (try exact H; cbn; repeat split; discriminate). reflexivity.
Qed.
(** ** Folded pulsars *)
Lemma stands_int_inv a n v : stands a (AInt n) v -> v = inject_Z n. Proof. intro H. inversion H; reflexivity. Qed.
Lemma stands_float_inv a q v : stands a (AFloat q) v -> v = q. Proof. intro H. inversion H; reflexivity. Qed.
Lemma option_dec (a b : string * option string) : {a = b} + {a <> b}.
Proof. destruct a as [k o], b as [k' o']. destruct (string_dec k k') as [->|N]; [|right; congruence]. destruct o as [v|], o' as [v'|]; try (right; congruence); [|now left]. destruct (string_dec v v') as [->|N]; [now left|right; congruence]. Qed.
Definition fold_range : range := mkRange (536870912 # 100000000) (2147483648 # 100000000) (1073741824 # 100000000).
Theorem fold_beam : forall ck pf (db : property ck) t text l n m, has_text db "toDo" t -> lower t = "pulsar"%string -> has_text db "parameters" text ->
  lower text = pulsar_text "fold" l -> Forall plain_option l -> Forall (fun o => fst o <> EmptyString) l ->
  (forall v, last_given "tfold" (valued l) v -> pf (v ++ " ")%string <> None) -> (forall v, last_given "nbin" (valued l) v -> py_int (v ++ " ")%string <> None) ->
  ~ In ("tfold"%string, None) l -> ~ In ("nbin"%string, None) l -> lasts db n -> elements db "subbandList" m ->
  exists c, beam_from ck pf Fold db = Ok (Some c) /\ c_duration c = inject_Z n /\ kept (ints 1 192 192) (inject_Z m) (value c NSubBands) /\
    (In "onlyi"%string (map fst l) -> value c NPolars = 1) /\ (~ In "onlyi"%string (map fst l) -> value c NPolars = 4) /\
    (forall v x, last_given "tfold" (valued l) v -> pf (v ++ " ")%string = Some x -> kept fold_range x (value c TFold)) /\ (~ In "tfold"%string (map fst (valued l)) -> value c TFold = (1073741824 # 100000000)) /\
    (forall v x, last_given "nbin" (valued l) v -> py_int (v ++ " ")%string = Some x -> kept (ints 16 8096 2048) (inject_Z x) (value c NBins)) /\ (~ In "nbin"%string (map fst (valued l)) -> value c NBins = 2048).
Proof.
  intros ck pf db t text l n m T TL P TX F NE VT VN NT NN D E. destruct (pulsar_parameters text "fold" l TX ltac:(cbn; repeat split; discriminate) F NE) as [PM PG].
  assert (PT := PG "tfold"%string ltac:(cbn; repeat split; discriminate)). assert (PN := PG "nbin"%string ltac:(cbn; repeat split; discriminate)). assert (PO := PG "onlyi"%string ltac:(cbn; repeat split; discriminate)).
  set (par := snd (parse_parameters text true)) in *.
  (* the value read for an option that is never a flag *)
  assert (RD : forall A (f : dval -> res A) k d, (dict_get String.eqb k par = Some DTrue <-> In (k, None) l) /\ (forall s, dict_get String.eqb k par = Some (DText s) <-> ~ In (k, None) l /\ (exists v, s = (v ++ " ")%string /\ last_given k (valued l) v)) -> ~ In (k, None) l ->
    (exists v, last_given k (valued l) v /\ optional f k par d = f (DText (v ++ " ")%string)) \/ (~ In k (map fst (valued l)) /\ optional f k par d = Ok d)).
  { intros A f k d [G1 G2] N. unfold optional. destruct (last_or k (valued l)) as [(v & L)|L].
    - left. exists v. split; [exact L|]. rewrite (proj2 (G2 _) (conj N (ex_intro _ v (conj eq_refl L)))). reflexivity.
    - right. split; [exact L|]. destruct (dict_get String.eqb k par) as [[s|]|] eqn:G; [|elim N; now apply G1|reflexivity]. destruct (proj1 (G2 s) eq_refl) as (_ & v & _ & X). elim L. apply in_map_iff. eexists. split; [|exact (last_in _ _ _ X)]. reflexivity. }
  assert (tf : exists tf, optional (float_of pf) "tfold" par (1073741824 # 100000000) = Ok tf /\ (forall v x, last_given "tfold" (valued l) v -> pf (v ++ " ")%string = Some x -> tf = x) /\ (~ In "tfold"%string (map fst (valued l)) -> tf = (1073741824 # 100000000))).
  { destruct (RD _ (float_of pf) "tfold"%string (1073741824 # 100000000) PT NT) as [(v & L & ->)|[L ->]].
    - cbn [float_of]. specialize (VT v L). destruct (pf (v ++ " ")%string) as [x|] eqn:X; [|congruence]. exists x. split; [reflexivity|]. split; [intros v' x' L' X'; rewrite (last_unique _ _ _ _ L L') in X; congruence|]. intro N. elim N. apply in_map_iff. eexists. split; [|exact (last_in _ _ _ L)]. reflexivity.
    - eexists. split; [reflexivity|]. split; [|auto]. intros v x L'. elim L. apply in_map_iff. eexists. split; [|exact (last_in _ _ _ L')]. reflexivity. }
  assert (nb : exists nb, optional int_of "nbin" par 2048%Z = Ok nb /\ (forall v x, last_given "nbin" (valued l) v -> py_int (v ++ " ")%string = Some x -> nb = x) /\ (~ In "nbin"%string (map fst (valued l)) -> nb = 2048%Z)).
  { destruct (RD _ int_of "nbin"%string 2048%Z PN NN) as [(v & L & ->)|[L ->]].
    - cbn [int_of]. specialize (VN v L). destruct (py_int (v ++ " ")%string) as [x|] eqn:X; [|congruence]. exists x. split; [reflexivity|]. split; [intros v' x' L' X'; rewrite (last_unique _ _ _ _ L L') in X; congruence|]. intro N. elim N. apply in_map_iff. eexists. split; [|exact (last_in _ _ _ L)]. reflexivity.
    - eexists. split; [reflexivity|]. split; [|auto]. intros v x L'. elim L. apply in_map_iff. eexists. split; [|exact (last_in _ _ _ L')]. reflexivity. }
  destruct tf as (tf & ET & T1 & T2). destruct nb as (nb & EN & N1 & N2).
  assert (PL : (In "onlyi"%string (map fst l) -> polars par = 1%Z) /\ (~ In "onlyi"%string (map fst l) -> polars par = 4%Z)).
  { unfold polars. destruct PO as [O1 O2]. split; intro H.
    - destruct (dict_get String.eqb "onlyi"%string par) as [v|] eqn:G; [reflexivity|]. exfalso. apply in_map_iff in H. destruct H as ([k o] & Ek & I). cbn in Ek. subst k. destruct o as [v|].
      + destruct (last_or "onlyi" (valued l)) as [(w & L)|L]; [|elim L; apply in_map_iff; exists ("onlyi"%string, v); split; [reflexivity|]; unfold valued; apply in_flat_map; exists ("onlyi"%string, Some v); split; [exact I|now left]].
        destruct (in_dec option_dec ("onlyi"%string, None) l) as [J|J]; [discriminate (proj2 O1 J)|]. discriminate (proj2 (O2 _) (conj J (ex_intro _ w (conj eq_refl L)))).
      + discriminate (proj2 O1 I).
    - destruct (dict_get String.eqb "onlyi"%string par) as [[s|]|] eqn:G; [|elim H; apply in_map_iff; exists ("onlyi"%string, None); split; [reflexivity|now apply O1]|reflexivity].
      destruct (proj1 (O2 s) eq_refl) as (_ & v & _ & L). apply last_in in L. unfold valued in L. apply in_flat_map in L. destruct L as ([k [w|]] & I & J); [|destruct J]. destruct J as [J|[]]. injection J as -> ->. elim H. apply in_map_iff. exists ("onlyi"%string, Some v). auto. }
  set (k := [("nSubBands", AInt m); ("nPolars", AInt (polars par)); ("tFold", AFloat tf); ("durationSec", AInt n); ("nBins", AInt nb)]%string).
  assert (BF : forall c, init false Fold k None = Ok c -> beam_from ck pf Fold db = Ok (Some c)).
  { intros c I. unfold beam_from, item_get. rewrite T. cbn [bind lower_of]. rewrite TL. change (negb (String.eqb "pulsar" "pulsar")) with false. cbn iota. rewrite P. cbn [bind]. subst par. destruct (parse_parameters text true) as [mode par]. cbn [fst snd] in *. subst mode. change (negb (String.eqb "fold" "fold")) with false. cbn iota.
    apply elements_ok in E. unfold sub_bands. rewrite E. cbn [bind]. rewrite ET. cbn [bind]. apply duration_ok in D. rewrite D. cbn [bind]. rewrite EN. cbn [bind]. unfold k in I. rewrite I. reflexivity. }
  destruct (init_false_made Fold k None (inject_Z n)) as (c & I); [reflexivity| | |].
  - intros x K. cbn in K. cbn. repeat destruct K as [<-|K]; try destruct K; auto 20.
  - intros a r v Ia K. cbn [props In] in Ia. repeat match type of Ia with _ \/ _ => destruct Ia as [Ia|Ia] | False => destruct Ia end; injection Ia as <- <-; cbn in K; try discriminate K; injection K as <-; eexists; (split; [first [apply stands_int|apply stands_float; cbn; auto]|intros [B|B]; discriminate]).
  - exists c. split; [exact (BF c I)|]. destruct (init_spec _ _ _ _ _ I) as (_ & _ & _ & G & _). split; [exact (init_duration _ _ _ _ _ I eq_refl)|]. split; [apply (kept_int _ _ _ _ _ _ I); [cbn; auto 8|reflexivity]|].
    destruct (G NPolars (ints 1 4 4) ltac:(cbn; auto)) as (wp & WP & GP). destruct (G TFold fold_range ltac:(cbn; auto)) as (wt & WT & GT). destruct (G NBins (ints 16 8096 2048) ltac:(cbn; auto)) as (wn & WN & GN). rewrite (value_get _ _ _ WP), (value_get _ _ _ WT), (value_get _ _ _ WN).
    change (exists v, stands NPolars (AInt (polars par)) v /\ (binary NPolars -> power_of_two v) /\ kept (ints 1 4 4) v wp) in GP. change (exists v, stands TFold (AFloat tf) v /\ (binary TFold -> power_of_two v) /\ kept fold_range v wt) in GT. change (exists v, stands NBins (AInt nb) v /\ (binary NBins -> power_of_two v) /\ kept (ints 16 8096 2048) v wn) in GN.
    destruct GP as (vp & SP & _ & KP). destruct GT as (vt & ST & _ & KT). destruct GN as (vn & SN & _ & KN). apply stands_int_inv in SP. apply stands_float_inv in ST. apply stands_int_inv in SN. subst vp vt vn.
    split; [|split; [|split; [|split; [|split]]]].
    + intro O. rewrite (proj1 PL O) in KP. destruct KP as [[_ ->]|[[X|X] _]]; [reflexivity|cbn in X; discriminate..].
    + intro O. rewrite (proj2 PL O) in KP. destruct KP as [[_ ->]|[[X|X] _]]; [reflexivity|cbn in X; discriminate..].
    + intros v x L X. rewrite (T1 v x L X) in KT. exact KT.
    + intro O. rewrite (T2 O) in KT. destruct KT as [[_ ->]|[[X|X] _]]; [reflexivity|cbn in X; discriminate..].
    + intros v x L X. rewrite (N1 v x L X) in KN. exact KN.
    + intro O. rewrite (N2 O) in KN. destruct KN as [[_ ->]|[[X|X] _]]; [reflexivity|cbn in X; discriminate..].
Qed.
