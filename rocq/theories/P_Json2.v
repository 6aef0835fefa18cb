(** Dates and receivers of the description of a parset. *)
From Coq Require Import Ascii String List Arith ZArith QArith Qabs Qround Lqa Bool Lia.
From Verif Require Import Base M_Polar P_Polar2 M_Pipeline M_Subbands M_PText P_PText M_Parset M_Config P_Config4 M_Json P_Json.
Import ListNotations.
Open Scope nat_scope.
Open Scope list_scope.

(** ** Vocabulary *)
(** What is to be done with a beam, whatever its case. *)
Definition does {ck} (p : property ck) (k : string) : Prop := exists s, holds p "toDo" (PStr ck s) /\ lower s = k.
(** The bands of a list of subbands. *)
Definition bands {ck} (p : property ck) (k : string) (f : list (Q * Q)) : Prop :=
  exists n, holds p k (PList ck (map (IInt ck) n)) /\ frequency_ranges n = Ok f.
(** The options of a pulsar beam. *)
Definition options_of {ck} (p : property ck) (mode : string) (l : list (string * option string)) : Prop :=
  exists text, holds p "parameters" (PStr ck text) /\ lower text = pulsar_text mode l /\ plain mode /\ Forall plain_option l /\ Forall (fun o => fst o <> EmptyString) l.
Definition given_once (k : string) (l : list (string * option string)) (v : string) : Prop := last_given k (valued l) v /\ ~ In (k, None) l.
Definition polarisations (l : list (string * option string)) (n : Z) : Prop := (In "onlyi"%string (map fst l) /\ n = 1%Z) \/ (~ In "onlyi"%string (map fst l) /\ n = 4%Z).
(** The pairs of the parameters of a dynamic spectrum. *)
Definition pairs_of {ck} (p : property ck) (mode : string) (l : list (string * string)) : Prop :=
  exists text, holds p "parameters" (PStr ck text) /\ lower text = tf_text mode l /\ plain mode /\ Forall (fun o => plain (fst o) /\ plain (snd o)) l.
Definition kinds : list string := ["none"; "pulsar"; "waveform"; "dynamicspectrum"; "tbd"; "nickel"]%string.
(** Before version 1.0. *)
Definition before_1 (v : list Z) : Prop := match v with [] => True | x :: r => (x < 1)%Z \/ x = 1%Z /\ match r with [] => True | y :: _ => (y < 0)%Z end end.

Lemma old_spec : forall v, old_version v = true <-> before_1 v.
Proof.
  intros [|x r]; [cbn; tauto|]. unfold old_version, before_1. cbn [tuple_lt]. destruct (Z.ltb_spec x 1); [intuition lia|]. destruct (Z.eqb_spec x 1) as [->|N]; [|split; [discriminate|intuition lia]].
  destruct r as [|y r]; cbn [tuple_lt]; [intuition lia|]. destruct (Z.ltb_spec y 0); [intuition lia|]. destruct (y =? 0)%Z; [destruct r|]; (split; [discriminate|intuition lia]).
Qed.

Section Receivers.
Context {ck : clock}.
Variable W : world ck.
Notation property := (M_Parset.property ck).

(** ** Dates *)
Theorem time_spec : forall p t d, lasting W p t d ->
  exists s, time_of W p = Ok s /\ t_start s = t /\ t_stop s = w_add ck W t d /\ (Qabs (t_duration s - d) <= 1 # 2000)%Q /\ exists n, (t_duration s * 1000 == inject_Z n)%Q.
Proof.
  intros p t d L. unfold time_of. rewrite (times_lasting W _ _ _ L). cbn [bind]. eexists. split; [reflexivity|]. cbn [t_start t_stop t_duration]. split; [reflexivity|]. split; [reflexivity|].
  unfold round3. assert (N : (Qabs (d * 1000 - inject_Z (round_even (d * 1000))) <= 1 # 2)%Q) by (destruct (round_even_nearest (d * 1000)) as [N|[N _]]; lra). set (z := inject_Z (round_even (d * 1000))) in *. split.
  - apply Qabs_Qle_condition in N. apply Qabs_Qle_condition. assert (z / 1000 * 1000 == z)%Q by field. lra.
  - exists (round_even (d * 1000)). fold z. field.
Qed.

(** ** Receivers *)
Lemma all_ints_map : forall n, all_ints (map (IInt ck) n) = Some n.
Proof. induction n as [|x n IH]; [reflexivity|]. cbn [map all_ints]. now rewrite IH. Qed.
Lemma freqs_ok : forall (p : property) k f, bands p k f -> freqs_of p k = Ok f.
Proof. intros p k f (n & H & E). unfold freqs_of, item_get. unfold holds in H. rewrite H. cbn [bind]. now rewrite all_ints_map. Qed.
Lemma does_kind : forall p k o v, does p k -> setting_of W p o v =
  if String.eqb k "none" then default_setting p
  else if String.eqb k "pulsar" then pulsar_setting p
  else if String.eqb k "waveform" then waveform_setting p
  else if String.eqb k "dynamicspectrum" then dynspec_setting W p
  else if String.eqb k "tbd" then tbd_setting p o v
  else if String.eqb k "nickel" then nickel_setting p o v
  else Err EKeyError.
Proof. intros p k o v (s & H & E). unfold setting_of. unfold holds in H. rewrite H. cbn [bind lower_of]. now rewrite E. Qed.

Theorem setting_default : forall p o v f, lacks p "toDo" \/ does p "none" -> bands p "subbandList" f -> setting_of W p o v = Ok (SDefault f).
Proof.
  intros p o v f D B. assert (E : setting_of W p o v = default_setting p). { destruct D as [D|D]; [unfold setting_of; now rewrite D|]. rewrite (does_kind p _ o v D). reflexivity. }
  rewrite E. unfold default_setting. now rewrite (freqs_ok _ _ _ B).
Qed.
Theorem setting_waveform : forall p o v f, does p "waveform" -> bands p "subbandList" f -> setting_of W p o v = Ok (SWaveform f).
Proof. intros p o v f D B. rewrite (does_kind p _ o v D). cbn. unfold waveform_setting. now rewrite (freqs_ok _ _ _ B). Qed.
Theorem setting_unknown : forall p o v k, does p k -> ~ In k kinds -> setting_of W p o v = Err EKeyError.
Proof.
  intros p o v k D N. rewrite (does_kind p _ o v D). assert (E : forall x, In x kinds -> String.eqb k x = false) by (intros x I; apply String.eqb_neq; intros ->; contradiction).
  rewrite !(E "none"%string), !(E "pulsar"%string), !(E "waveform"%string), !(E "dynamicspectrum"%string), !(E "tbd"%string), !(E "nickel"%string) by (cbn; tauto). reflexivity.
Qed.

(** Pulsars. *)
Lemma rstrip_plain : forall s, plain s -> rstrip_sp (s ++ " ") = s.
Proof. intros s P. rewrite rstrip_space. destruct s as [|c s]; [reflexivity|]. apply rstrip_word; [exact P|discriminate]. Qed.
Lemma valued_plain : forall l k v, Forall plain_option l -> last_given k (valued l) v -> plain v.
Proof.
  intros l k v F L. apply last_in in L. apply in_flat_map in L as ([n o] & I & J). rewrite Forall_forall in F. destruct (F _ I) as (_ & P). cbn in J. destruct o as [w|]; [|destruct J].
  destruct J as [J|[]]. injection J as _ <-. now apply P.
Qed.
Lemma valued_keys : forall k l, In k (map fst (valued l)) <-> exists v, In (k, Some v) l.
Proof.
  intros k l. unfold valued. rewrite in_map_iff. split.
  - intros ([a b] & <- & I). apply in_flat_map in I as ([n o] & I & J). cbn in J. destruct o; [|destruct J]. destruct J as [J|[]]. injection J as <- <-. eauto.
  - intros (v & I). exists (k, v). split; [reflexivity|]. apply in_flat_map. exists (k, Some v). split; [exact I|now left].
Qed.
Lemma keys_split : forall k (l : list (string * option string)), In k (map fst l) <-> In (k, None) l \/ exists v, In (k, Some v) l.
Proof.
  intros k l. rewrite in_map_iff. split; [intros ([a [v|]] & <- & I); cbn; eauto|]. intros [I|(v & I)]; eexists; (split; [|exact I]); reflexivity.
Qed.
Lemma pulsar_source : forall text mode l s, lower text = pulsar_text mode l -> plain mode -> Forall plain_option l -> Forall (fun o => fst o <> EmptyString) l ->
  given_once "src" l s -> source_of (snd (parse_parameters text true)) = Ok s.
Proof.
  intros text mode l s E M F NE (L & N). destruct (pulsar_parameters text mode l E M F NE) as (_ & G). destruct (G "src"%string) as (_ & G2); [cbn; repeat split; discriminate|].
  unfold source_of, param. rewrite (proj2 (G2 (s ++ " ")%string)); [|split; [exact N|eauto]]. cbn [bind]. now rewrite (rstrip_plain s (valued_plain _ _ _ F L)).
Qed.
Lemma pulsar_polars : forall text mode l n, lower text = pulsar_text mode l -> plain mode -> Forall plain_option l -> Forall (fun o => fst o <> EmptyString) l ->
  polarisations l n -> npolars (snd (parse_parameters text true)) = n.
Proof.
  intros text mode l n E M F NE P. destruct (pulsar_parameters text mode l E M F NE) as (_ & G). destruct (G "onlyi"%string) as (G1 & G2); [cbn; repeat split; discriminate|].
  unfold npolars, truthy. destruct P as [(I & ->)|(I & ->)].
  - destruct (in_dec (fun a b : string * option string => ltac:(repeat decide equality)) ("onlyi"%string, None) l) as [Y|Y]; [now rewrite (proj2 G1 Y)|].
    destruct (last_or "onlyi"%string (valued l)) as [(v & L)|N].
    + rewrite (proj2 (G2 (v ++ " ")%string)); [|split; [exact Y|eauto]]. destruct v; reflexivity.
    + apply keys_split in I as [I|I]; [contradiction|]. apply valued_keys in I. contradiction.
  - destruct (dict_get String.eqb "onlyi"%string _) as [[s|]|] eqn:D; [|elim I; apply keys_split; left; now apply G1|reflexivity].
    destruct (proj1 (G2 s) eq_refl) as (_ & v & _ & L). elim I. apply keys_split. right. apply valued_keys. apply in_map_iff. exists ("onlyi"%string, v). split; [reflexivity|now apply last_in].
Qed.
Theorem setting_pulsar : forall p o v mode l, does p "pulsar" -> options_of p mode l ->
  (forall s f n, given_once "src" l s -> bands p "subbandList" f -> polarisations l n ->
     (mode = "fold"%string -> setting_of W p o v = Ok (SFold s n f)) /\
     (mode = "waveolaf"%string -> setting_of W p o v = Ok (SWaveolaf s f)) /\
     (mode = "wave"%string -> setting_of W p o v = Ok (SWave s f)) /\
     (forall x d, mode = "single"%string -> given_once "dstime" l x -> py_int (x ++ " ") = Some d -> setting_of W p o v = Ok (SSingle s d n f))) /\
  (In mode ["fold"; "single"; "waveolaf"; "wave"]%string -> ~ In "src"%string (map fst l) -> setting_of W p o v = Err EKeyError) /\
  (~ In mode ["fold"; "single"; "waveolaf"; "wave"]%string -> setting_of W p o v = Ok SEmpty).
Proof.
  intros p o v mode l D (text & T & E & M & F & NE).
  assert (S0 : setting_of W p o v = pulsar_setting p) by (rewrite (does_kind p _ o v D); reflexivity). rewrite S0. unfold pulsar_setting, parameters_of. unfold holds in T. rewrite T. cbn [bind].
  destruct (pulsar_parameters text mode l E M F NE) as (M1 & G). destruct (parse_parameters text true) as [m c] eqn:PP. cbn [fst snd] in M1, G. subst m. split; [|split].
  - intros s f n S B P. assert (SO := pulsar_source text mode l s E M F NE S). assert (PO := pulsar_polars text mode l n E M F NE P). rewrite PP in SO, PO. cbn [snd] in SO, PO.
    rewrite SO, (freqs_ok _ _ _ B), PO. cbn [bind]. repeat split; try (intros ->; reflexivity).
    intros x d -> (L & N) I. change (String.eqb "single" "fold") with false. change (String.eqb "single" "single") with true. cbn iota. destruct (G "dstime"%string) as (_ & G2); [cbn; repeat split; discriminate|].
    unfold param. rewrite (proj2 (G2 (x ++ " ")%string)); [|split; [exact N|eauto]]. cbn [bind int_of]. rewrite I. reflexivity.
  - intros I N. assert (SO : source_of c = Err EKeyError).
    { unfold source_of, param. destruct (G "src"%string) as (G1 & G2); [cbn; repeat split; discriminate|]. destruct (dict_get String.eqb "src"%string c) as [[s|]|] eqn:X; [| |reflexivity].
      - destruct (proj1 (G2 s) eq_refl) as (_ & w & _ & L). elim N. apply keys_split. right. apply valued_keys. apply in_map_iff. exists ("src"%string, w). split; [reflexivity|now apply last_in].
      - elim N. apply keys_split. left. now apply G1. }
    rewrite SO. cbn [bind]. destruct I as [<-|[<-|[<-|[<-|[]]]]]; reflexivity.
  - intro N. assert (Z : forall x, In x ["fold"; "single"; "waveolaf"; "wave"]%string -> String.eqb mode x = false) by (intros x I; apply String.eqb_neq; intros ->; contradiction).
    rewrite !(Z "fold"%string), !(Z "single"%string), !(Z "waveolaf"%string), !(Z "wave"%string) by (cbn; tauto). reflexivity.
Qed.
Theorem setting_pulsar_bare : forall p o v, does p "pulsar" -> lacks p "parameters" ->
  (forall b, holds p "noBeam" b -> setting_of W p o v = Ok SEmpty) /\ (lacks p "noBeam" -> setting_of W p o v = Err EKeyError).
Proof.
  intros p o v D L. rewrite (does_kind p _ o v D). change (String.eqb "pulsar" "none") with false. change (String.eqb "pulsar" "pulsar") with true. cbn iota.
  unfold pulsar_setting, parameters_of, item_get. unfold holds, lacks in *. rewrite L. cbn [bind]. split; [intros b ->|intros ->]; reflexivity.
Qed.

(** Dynamic spectra. *)
Lemma tf_keys : forall text mode l k v, lower text = tf_text mode l -> plain mode -> Forall (fun p => plain (fst p) /\ plain (snd p)) l -> l <> [] ->
  dict_get String.eqb k (snd (parse_parameters text false)) = Some v -> In k (map fst l).
Proof.
  intros text mode l k v E M F NE. unfold parse_parameters. rewrite E. cbn [snd].
  assert (WD : words (tf_text mode l) = (mode ++ ":")%string :: map (fun p => (fst p ++ "=" ++ snd p)%string) l).
  { unfold words, tf_text. rewrite (words_plain mode) by exact M. change ((":" ++ concat_text (map (fun p => " " ++ fst p ++ "=" ++ snd p) l))%string) with ((String ":" "") ++ concat_text (map (fun p => " " ++ fst p ++ "=" ++ snd p) l))%string.
    rewrite (no_space_char ":") by reflexivity. cbn [String.append]. apply words_pairs; [exact F|]. destruct mode; discriminate. }
  rewrite WD. cbn [filter]. assert (H0 : has_char "=" (mode ++ ":")%string = false) by (apply without_app; [apply plain_without; auto|reflexivity]). rewrite H0.
  rewrite (filter_all (has_char "=")) by (intros s S; apply in_map_iff in S; destruct S as (p & <- & _); apply has_pair). rewrite put_pairs by exact F.
  assert (D : split_dashes (tf_text mode l) = [tf_text mode l]).
  { apply dashes_none. unfold tf_text. apply without_app; [apply plain_without; auto|]. apply without_app; [reflexivity|]. apply concat_without. intros s S. apply in_map_iff in S. destruct S as (p & <- & I). rewrite Forall_forall in F. destruct (F p I) as [A B].
    apply without_app; [reflexivity|]. apply without_app; [apply plain_without; auto|]. apply without_app; [reflexivity|apply plain_without; auto]. }
  rewrite D. cbn [filter]. destruct l as [|q l]; [congruence|]. rewrite tf_equal. cbn [negb fold_left]. intro G.
  assert (S := fold_sets k (map (fun p => (fst p, DText (snd p))) (q :: l)) []). rewrite G in S. destruct S as [S|[_ S]]; [|discriminate]. apply last_in in S. apply in_map_iff in S as (x & Y & I). injection Y as <- <-. apply in_map_iff. now exists x.
Qed.
Lemma tf_not_raw : forall text mode l, lower text = tf_text mode l -> plain mode -> Forall (fun p => plain (fst p) /\ plain (snd p)) l -> l <> [] ->
  truthy "tf: rawrt" (snd (parse_parameters text false)) = false.
Proof.
  intros text mode l E M F NE. unfold truthy. destruct (dict_get _ _ _) as [v|] eqn:D; [|reflexivity]. apply (tf_keys text mode l) in D; try assumption.
  apply in_map_iff in D as (p & X & I). rewrite Forall_forall in F. destruct (F p I) as (P & _). rewrite X in P. cbn in P. destruct P as (_ & _ & ((_ & _ & C & _) & _)). congruence.
Qed.
Definition number_of (l : list (string * string)) (k : string) (q : Q) : Prop := exists s, last_given k l s /\ w_float ck W s = Some q.
Lemma tf_number : forall text mode l k, lower text = tf_text mode l -> plain mode -> Forall (fun p => plain (fst p) /\ plain (snd p)) l -> plain k ->
  (forall q, number_of l k q -> bind (param k (snd (parse_parameters text false))) (float_of (w_float ck W)) = Ok q) /\
  (~ In k (map fst l) -> bind (param k (snd (parse_parameters text false))) (float_of (w_float ck W)) = Err EKeyError).
Proof.
  intros text mode l k E M F K. destruct (tf_parameters text mode l E M F) as (_ & G). specialize (G k K). unfold param. split.
  - intros q (s & L & X). rewrite (proj2 (G (DText s))) by eauto. cbn [bind float_of]. now rewrite X.
  - intro N. destruct (dict_get String.eqb k _) as [v|] eqn:D; [|reflexivity]. destruct (proj1 (G v) eq_refl) as (s & _ & L). elim N. apply in_map_iff. exists (k, s). split; [reflexivity|now apply last_in].
Qed.
Theorem setting_dynspec : forall p o v mode l, does p "dynamicspectrum" -> pairs_of p mode l -> l <> [] ->
  (forall dt df f, number_of l "dt" dt -> number_of l "df" df -> bands p "subbandList" f -> setting_of W p o v = Ok (STf dt df f)) /\
  (~ In "dt"%string (map fst l) -> setting_of W p o v = Ok SEmpty) /\
  (forall dt, number_of l "dt" dt -> ~ In "df"%string (map fst l) -> setting_of W p o v = Ok SEmpty) /\
  (forall dt df, number_of l "dt" dt -> number_of l "df" df -> lacks p "subbandList" -> setting_of W p o v = Ok SEmpty).
Proof.
  intros p o v mode l D (text & T & E & M & F) NE. assert (D' := D). destruct D' as (td & TD & _).
  assert (S0 : setting_of W p o v = dynspec_setting W p) by (rewrite (does_kind p _ o v D); reflexivity). rewrite S0. unfold dynspec_setting, parameters_of. unfold holds in T. rewrite T. cbn [bind].
  assert (R := tf_not_raw text mode l E M F NE). destruct (tf_number text mode l "dt"%string E M F) as (T1 & T2); [cbn; repeat split; discriminate|]. destruct (tf_number text mode l "df"%string E M F) as (F1 & F2); [cbn; repeat split; discriminate|].
  destruct (parse_parameters text false) as [m c]. cbn [snd] in *. cbn [bind]. rewrite R. unfold item_get, holds, lacks in *. rewrite TD. cbn [bind]. split; [|split; [|split]].
  - intros dt df f A B C. rewrite (T1 dt A). cbn [bind]. rewrite (F1 df B). cbn [bind]. now rewrite (freqs_ok _ _ _ C).
  - intros N. now rewrite (T2 N).
  - intros dt A N. rewrite (T1 dt A). cbn [bind]. now rewrite (F2 N).
  - intros dt df A B L. rewrite (T1 dt A). cbn [bind]. rewrite (F1 df B). cbn [bind]. unfold freqs_of, item_get. now rewrite L.
Qed.
Theorem setting_dynspec_bare : forall p o v f, does p "dynamicspectrum" -> lacks p "parameters" -> bands p "subbandList" f ->
  (forall b, holds p "noBeam" b -> setting_of W p o v = Ok (STf 5 (61 # 10) f)) /\ (lacks p "noBeam" -> setting_of W p o v = Err EKeyError).
Proof.
  intros p o v f D L B. assert (S0 : setting_of W p o v = dynspec_setting W p) by (rewrite (does_kind p _ o v D); reflexivity). rewrite S0. unfold dynspec_setting, parameters_of, item_get. rewrite (freqs_ok _ _ _ B).
  unfold holds, lacks in *. rewrite L. cbn [bind]. split; [intros b ->|intros ->]; reflexivity.
Qed.
Theorem setting_rawrt : forall p o v text f, does p "dynamicspectrum" -> holds p "parameters" (PStr ck text) -> lower text = "tf: rawrt"%string -> bands p "subbandList" f ->
  setting_of W p o v = Ok (SWaveform f).
Proof.
  intros p o v text f D T E B. assert (S0 : setting_of W p o v = dynspec_setting W p) by (rewrite (does_kind p _ o v D); reflexivity). rewrite S0. unfold dynspec_setting, parameters_of. unfold holds in T. rewrite T. cbn [bind].
  assert (P : parse_parameters text false = parse_parameters "tf: rawrt" false) by (unfold parse_parameters; rewrite E; reflexivity). rewrite P. cbn [bind]. vm_compute (parse_parameters "tf: rawrt" false). cbn [truthy dict_get]. 
  change (truthy "tf: rawrt" [("tf: rawrt"%string, DTrue)]) with true. cbn iota. unfold waveform_setting. now rewrite (freqs_ok _ _ _ B).
Qed.

(** NICKEL. *)
Theorem setting_nickel : forall p o v ch dump, does p "nickel" -> holds o "nri_channelization" ch -> holds o "nri_dumpTime" dump ->
  (before_1 v -> forall f, bands o "nri_subbandList" f -> setting_of W p o v = Ok (SNickel ch dump f)) /\
  (~ before_1 v -> forall f b, bands p "subbandList" f -> holds p "noBeam" b -> (lacks p "parameters" \/ exists s, holds p "parameters" (PStr ck s)) -> setting_of W p o v = Ok (SNickel ch dump f)).
Proof.
  intros p o v ch dump D C T. assert (S0 : setting_of W p o v = nickel_setting p o v) by (rewrite (does_kind p _ o v D); reflexivity). rewrite S0. unfold nickel_setting, item_get. unfold holds, lacks in *. rewrite C, T. cbn [bind]. split.
  - intros O f B. rewrite (proj2 (old_spec v) O). now rewrite (freqs_ok _ _ _ B).
  - intros O f b B N P. destruct (old_version v) eqn:OV; [apply old_spec in OV; contradiction|]. rewrite (freqs_ok _ _ _ B). unfold parameters_of. destruct P as [P|(s & P)]; rewrite P; cbn [bind]; [now rewrite N|reflexivity].
Qed.
(** A beam still to be defined. *)
Definition nickel_named (o : property) : Prop := exists v, holds o "nri_receivers" v /\ contains_text ck "nickel" v = Ok true.
Theorem setting_tbd : forall p o v, does p "tbd" ->
  (before_1 v -> nickel_named o -> forall ch dump f, holds o "nri_channelization" ch -> holds o "nri_dumpTime" dump -> bands o "nri_subbandList" f -> setting_of W p o v = Ok (SNickel ch dump f)) /\
  (forall f, lacks o "nri_receivers" \/ (~ before_1 v /\ nickel_named o) -> bands p "subbandList" f -> setting_of W p o v = Ok (SDefault f)).
Proof.
  intros p o v D. assert (S0 : setting_of W p o v = tbd_setting p o v) by (rewrite (does_kind p _ o v D); reflexivity). rewrite S0. unfold tbd_setting, nickel_used. unfold nickel_named, holds, lacks. split.
  - intros O (x & H & C) ch dump f CH DU B. rewrite H, C. cbn [bind andb]. rewrite (proj2 (old_spec v) O). unfold nickel_setting, item_get. rewrite CH, DU. cbn [bind]. rewrite (proj2 (old_spec v) O). now rewrite (freqs_ok _ _ _ B).
  - intros f H B. assert (E : default_setting p = Ok (SDefault f)) by (unfold default_setting; now rewrite (freqs_ok _ _ _ B)). destruct H as [H|(O & x & H & C)]; rewrite H; [exact E|]. rewrite C. cbn [bind andb].
    destruct (old_version v) eqn:OV; [apply old_spec in OV; contradiction|exact E].
Qed.
End Receivers.
