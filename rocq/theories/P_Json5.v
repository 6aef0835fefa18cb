(** The description of a parset read from a file. *)
From Coq Require Import Ascii String List Arith ZArith QArith Bool Lia.
From Verif Require Import Base M_Polar M_Pipeline M_Subbands M_PText P_PText M_Parset M_Config P_Config4 M_Json P_Json P_Json2 P_Json3 P_Json4.
Import ListNotations.
Open Scope nat_scope.
Open Scope list_scope.

Section Read.
Context {ck : clock}.
Variable W : world ck.
Notation property := (M_Parset.property ck).

(** Every value comes from a text. *)
Definition read_from (p : property) : Prop := forall k v, holds p k v -> exists text, read_value ck k text = Ok v.
Definition all_read (l : list (Z * property)) : Prop := Forall (fun b => read_from (snd b)) l /\ NoDup (map fst l).
Definition parset_read (p : parset ck) : Prop :=
  read_from (p_observation ck p) /\ read_from (p_output ck p) /\ all_read (p_anabeams ck p) /\ all_read (p_digibeams ck p) /\ all_read (p_centers ck p).

Lemma dict_get_set_str : forall (d : property) k j v, dict_get String.eqb j (dict_set String.eqb k v d) = if String.eqb j k then Some v else dict_get String.eqb j d.
Proof.
  induction d as [|(x, w) d IH]; intros k j v; cbn [dict_set dict_get].
  - reflexivity.
  - destruct (String.eqb_spec k x) as [->|N]; cbn [dict_get]; [now destruct (String.eqb j x)|]. rewrite IH. destruct (String.eqb_spec j x) as [->|M]; [|reflexivity]. destruct (String.eqb_spec x k) as [->|]; [contradiction|reflexivity].
Qed.
Lemma set_read : forall p key text q, read_from p -> set_property ck p key text = Ok q -> read_from q.
Proof.
  intros p key text q R H. unfold set_property in H. apply bind_ok in H as (v & V & H). injection H as <-. intros k w K. unfold holds in K. rewrite dict_get_set_str in K. destruct (String.eqb_spec k key) as [->|N]; [injection K as <-; now exists text|now apply R].
Qed.
Lemma keys_set : forall (d : list (Z * property)) k v j, In j (map fst (dict_set Z.eqb k v d)) -> j = k \/ In j (map fst d).
Proof. induction d as [|(x, w) d IH]; intros k v j H; cbn [dict_set map fst] in H; [destruct H as [<-|[]]; now left|]. destruct (Z.eqb_spec k x) as [->|N]; cbn [map fst] in H; [right; exact H|]. destruct H as [<-|H]; [right; now left|]. destruct (IH k v j H) as [->|I]; [now left|right; now right]. Qed.
Lemma all_read_set : forall l i b, all_read l -> read_from b -> all_read (dict_set Z.eqb i b l).
Proof.
  intros l i b (F & N) R. split.
  - clear N. induction l as [|(x, w) l IH]; cbn [dict_set]; [now repeat constructor|]. inversion F; subst. destruct (Z.eqb i x); constructor; auto.
  - clear F. induction l as [|(x, w) l IH]; cbn [dict_set]; [repeat constructor; intros []|]. cbn [map fst] in N. inversion N as [|? ? NX NL]; subst. destruct (Z.eqb_spec i x) as [->|E]; cbn [map fst]; [exact N|]. constructor; [|now apply IH]. intro I. apply keys_set in I as [->|I]; [now apply E|contradiction].
Qed.
Lemma get_read : forall l i b, all_read l -> dict_get Z.eqb i l = Some b -> read_from b.
Proof. intros l i b (F & _). induction l as [|(x, w) l IH]; cbn [dict_get]; [discriminate|]. inversion F; subst. destruct (i =? x)%Z; [intro H; injection H as <-; assumption|auto]. Qed.
Lemma set_beam_read : forall label l name key text r, all_read l -> set_beam ck label l name key text = Ok r -> all_read r.
Proof.
  intros label l name key text r A H. unfold set_beam in H. destruct (search_bracket name) as [d|]; [|discriminate]. destruct (py_int d) as [i|]; [|discriminate]. apply bind_ok in H as (b & B & H). apply bind_ok in H as (b' & B' & H). injection H as <-.
  apply all_read_set; [exact A|]. apply (set_read b key text); [|exact B']. destruct (dict_get Z.eqb i l) as [c|] eqn:G; [injection B as <-; now apply (get_read l i)|]. apply (set_read [] label (show_int i)); [|exact B]. intros k v K. discriminate.
Qed.
Lemma line_read : forall st line st', parset_read (snd st) -> read_line ck st line = Ok st' -> parset_read (snd st').
Proof.
  intros (mem, p) line st' (R1 & R2 & R3 & R4 & R5) H. cbn [snd] in *. unfold read_line in H. destruct (match split_once "." line with Some x => Some x | None => mem end) as [(name, content)|]; [|discriminate]. destruct (split_once "=" content) as [(key, value)|]; [|discriminate].
  apply bind_ok in H as (p' & P & H). injection H as <-. cbn [snd]. destruct (String.prefix "Observation" line); [apply bind_ok in P as (o & O & P); injection P as <-; apply (set_read _ _ _ _ R1) in O; unfold parset_read; cbn; tauto|].
  destruct (String.prefix "Output" line); [apply bind_ok in P as (o & O & P); injection P as <-; apply (set_read _ _ _ _ R2) in O; unfold parset_read; cbn; tauto|].
  destruct (String.prefix "anabeam" (lower line)); [apply bind_ok in P as (o & O & P); injection P as <-; apply (set_beam_read _ _ _ _ _ _ R3) in O; unfold parset_read; cbn; tauto|].
  destruct (String.prefix "beam" (lower line)); [apply bind_ok in P as (o & O & P); injection P as <-; apply (set_beam_read _ _ _ _ _ _ R4) in O; unfold parset_read; cbn; tauto|].
  destruct (String.prefix "phasecenter" (lower line)); [apply bind_ok in P as (o & O & P); injection P as <-; apply (set_beam_read _ _ _ _ _ _ R5) in O; unfold parset_read; cbn; tauto|].
  injection P as <-. unfold parset_read; tauto.
Qed.
Lemma decode_read : forall text p, decode ck text = Ok p -> parset_read p.
Proof.
  intros text p H. unfold decode in H. assert (E : parset_read (snd (None (A := string * string), empty_parset ck))).
  { unfold parset_read, all_read, read_from, holds. cbn. repeat split; try discriminate; constructor. }
  revert H E. generalize (None (A := string * string), empty_parset ck). generalize (lines text). induction l as [|x l IH]; intros st H E; cbn [read_lines] in H; [injection H as <-; exact E|]. apply bind_ok in H as (st' & S & H). apply (IH st' H). now apply (line_read st x).
Qed.

(** ** Texts of fields that are neither angles nor durations *)
Lemma plain_text : forall key text s, has_sub "angle" (lower key) = false -> has_sub "duration" (lower key) = false -> read_value ck key text = Ok (PStr ck s) -> has_char ":" s = true \/ exists t, s = lower t.
Proof.
  intros key text s A D H. unfold read_value in H. rewrite A, D in H. cbv zeta in H. set (t := drop_char quote (drop_char newline text)) in *.
  destruct (starts_with "[" t && ends_with "]" t); [apply bind_ok in H as (? & _ & H); discriminate|]. destruct (String.eqb (lower t) "true"); [discriminate|]. destruct (String.eqb (lower t) "false"); [discriminate|]. destruct (isdigit t); [discriminate|].
  destruct (has_char ":" t) eqn:C; [destruct (read_time ck (strip t)); [discriminate|]; injection H as <-; now left|]. injection H as <-. right. now exists t.
Qed.
Lemma low_not_upper : forall c, is_upper (low_char c) = false.
Proof. intros [[] [] [] [] [] [] [] []]; reflexivity. Qed.
Lemma code_upper : forall s, topic_code s -> exists a r, s = String a r /\ is_upper a = true.
Proof. intros s [(d & -> & _)|[(d & -> & _)|[(d & u & -> & _)|[->| ->]]]]; cbn [append]; eexists; eexists; (split; [reflexivity|reflexivity]). Qed.

(** A topic read from a file is never recognised. *)
Theorem topic_read_refuted : forall text p m fovs, decode ck text = Ok p -> to_json W p = Ok (m, fovs) -> m_topic m = ("LT00", "DEBUG")%string.
Proof.
  intros text p m fovs D H. destruct (decode_read text p D) as (R & _). destruct (to_json_spec W p m fovs H) as (v & beams & centers & xst & extra & _ & ME & _). unfold metadata_of in ME.
  apply bind_ok in ME as (a & _ & ME). apply bind_ok in ME as (b & _ & ME). apply bind_ok in ME as (s & S & ME). injection ME as <-. cbn [m_topic]. destruct (match_topic s) as [t|] eqn:M; [|reflexivity].
  destruct (dict_get String.eqb "topic"%string (p_observation ck p)) as [[n|s'|bo|u|an|l]|] eqn:G; try discriminate.
  - exfalso. apply topic_spec in M. destruct M as (E & C & _ & P). injection S as ->. destruct (R _ _ G) as (tx & T). apply plain_text in T; [|reflexivity|reflexivity]. destruct T as [T|(t' & T)].
    + rewrite E, has_char_app in T. apply orb_true_iff in T as [T|T].
      * assert (X := word_without ":" (fst t) eq_refl (code_word _ C)). unfold without in X. congruence.
      * cbn [append has_char] in T. apply orb_true_iff in T as [T|T]; [discriminate|]. change (has_char ":" (snd t) = true) in T. assert (X := word_without ":" (snd t) eq_refl (proj2 (all_word_spec _) P)). unfold without in X. congruence.
    + destruct (code_upper _ C) as (c & r & E' & U). rewrite E' in E. rewrite E in T. destruct t' as [|c' t']; [discriminate|]. cbn [append lower] in T. injection T as T _. rewrite T, low_not_upper in U. discriminate.
  - injection S as <-. vm_compute in M. injection M as <-. reflexivity.
Qed.

(** ** NICKEL *)
Lemma no_tbd : forall text p, decode ck text = Ok p -> ~ Exists says_tbd (p_digibeams ck p).
Proof.
  intros text p D H. destruct (decode_read text p D) as (_ & _ & _ & (R & _) & _). apply Exists_exists in H as (b & I & T). rewrite Forall_forall in R. destruct (R b I _ _ T) as (tx & X). apply plain_text in X; [|reflexivity|reflexivity]. destruct X as [X|(t & X)]; [discriminate|].
  destruct t as [|a t]; [discriminate|]. cbn [lower] in X. injection X as X _. assert (U := low_not_upper a). rewrite <- X in U. discriminate.
Qed.
(** Before version 1, a file using NICKEL always gives an extra pointing, of the analog beam 0 but in the first field of view. *)
Theorem nickel_read : forall text p m fovs v, decode ck text = Ok p -> to_json W p = Ok (m, fovs) -> version_of (p_observation ck p) = Ok v -> before_1 v -> nickel_named (p_output ck p) ->
  exists a g f, dict_get Z.eqb 0%Z (p_anabeams ck p) = Some a /\ nth_error fovs 0 = Some f /\ nickel_made W a (p_output ck p) (length (all_pointings fovs) - 1) (0, g) /\
    (exists l, f_pointings f = l ++ [g]) /\ g_receiver g = None.
Proof.
  intros text p m fovs v D H V B N. destruct (to_json_spec W p m fovs H) as (v' & beams & centers & xst & extra & V' & _ & DE). assert (v' = v) by congruence. subst v'. assert (PE := every_once W _ _ _ _ _ _ _ DE). destruct DE as (_ & _ & _ & _ & _ & _ & _ & E2 & L & F).
  destruct (E2 B N (no_tbd text p D)) as (a & (k0, g) & A & -> & NM). assert (K0 : k0 = 0) by exact (proj1 NM). subst k0. exists a, g. apply Permutation.Permutation_length in PE. rewrite map_length, !app_length in PE. cbn [length] in PE.
  destruct fovs as [|f fovs]; [destruct (p_anabeams ck p); discriminate|]. exists f. split; [exact A|]. split; [reflexivity|]. split; [|split].
  - replace (length (all_pointings (f :: fovs)) - 1) with (length (beams ++ centers ++ xst)) by (rewrite PE, !app_length; lia). exact NM.
  - destruct (F 0 f eq_refl) as (b & _ & _ & ->). exists (of_fov 0 (beams ++ centers ++ xst)). unfold of_fov. rewrite filter_app, map_app. reflexivity.
  - now destruct NM as (_ & _ & _ & X & _).
Qed.
(** A numerical beam without "toDo", or no analog beam of index 0, and nothing is described. *)
Theorem nickel_refused : forall p v, version_of (p_observation ck p) = Ok v -> before_1 v -> nickel_named (p_output ck p) ->
  (exists b, In b (p_digibeams ck p) /\ lacks (snd b) "toDo") \/ (dict_get Z.eqb 0%Z (p_anabeams ck p) = None /\ ~ Exists says_tbd (p_digibeams ck p)) -> forall r, to_json W p <> Ok r.
Proof.
  intros p v V B N C (m, fovs) H. destruct C as [(b & I & L)|(A & T)].
  - unfold to_json in H. apply bind_ok in H as (e & E & _). unfold to_entry in E. apply bind_ok in E as (v' & V' & E). assert (v' = v) by congruence. subst v'. do 5 (apply bind_ok in E as (? & _ & E)). apply bind_ok in E as (extra & EX & _).
    apply old_spec in B. rewrite B in EX. cbn [negb] in EX. apply nickel_used_inv in N. rewrite N in EX. cbn [bind negb] in EX. apply bind_ok in EX as (todos & TO & _). apply map_res_ok in TO. apply In_nth_error in I as (k & I). destruct (forall2_nth' _ _ _ _ _ TO k b I) as (t & _ & X). apply get_holds in X. unfold holds, lacks in *. congruence.
  - destruct (to_json_spec W p m fovs H) as (v' & beams & centers & xst & extra & V' & _ & DE). assert (v' = v) by congruence. subst v'. destruct DE as (_ & _ & _ & _ & _ & _ & _ & E2 & _). destruct (E2 B N T) as (a & _ & A' & _). congruence.
Qed.

(** ** Durations *)
Lemma duration_read : forall text p s, read_from p -> holds p "duration" (PStr ck s) -> read_value ck "duration" text = Ok (PStr ck s) -> exists q, s = (q ++ "s")%string.
Proof.
  intros text p s _ _ H. unfold read_value in H. cbv zeta in H. set (t := drop_char quote (drop_char newline text)) in *. destruct (starts_with "[" t && ends_with "]" t); [apply bind_ok in H as (? & _ & H); discriminate|].
  destruct (String.eqb (lower t) "true"); [discriminate|]. destruct (String.eqb (lower t) "false"); [discriminate|]. change (has_sub "angle" (lower "duration")) with false in H. change (has_sub "duration" (lower "duration")) with true in H. cbn iota in H. injection H as <-. now eexists.
Qed.
(** Where a time difference cannot be read from a text ending in "s", no file with a duration given as a number of seconds is described. *)
Theorem duration_read_refuted : forall text p b s, (forall q, exists e, w_delta ck W (PStr ck (q ++ "s")) = Err e) -> decode ck text = Ok p -> In b (p_anabeams ck p ++ p_digibeams ck p) ->
  holds (snd b) "duration" (PStr ck s) -> forall r, to_json W p <> Ok r.
Proof.
  intros text p b s NO D I S (m, fovs) H. destruct (decode_read text p D) as (_ & _ & (RA & _) & (RD & _) & _).
  assert (R : read_from (snd b)) by (apply in_app_or in I as [I|I]; [rewrite Forall_forall in RA; now apply RA|rewrite Forall_forall in RD; now apply RD]).
  destruct (R _ _ S) as (tx & X). destruct (duration_read tx _ s R S X) as (q & ->).
  assert (T : forall t, time_of W (snd b) <> Ok t).
  { intros t T. unfold time_of, times_of in T. apply bind_ok in T as (? & T & _). apply get_holds in S. rewrite S in T. cbn [bind] in T. destruct (NO q) as (e & E). rewrite E in T. discriminate. }
  destruct (to_json_spec W p m fovs H) as (v & beams & centers & xst & extra & _ & _ & DE). destruct DE as (B & _ & _ & _ & _ & _ & _ & _ & L & F). apply in_app_or in I as [I|I]; apply In_nth_error in I as (k & I).
  - destruct (nth_error fovs k) as [f|] eqn:E; [|apply nth_error_None in E; assert (k < length (p_anabeams ck p)) by (apply nth_error_Some; congruence); lia]. destruct (F k f E) as (b' & I' & M & _). assert (b' = b) by congruence. subst b'. destruct M as (_ & _ & _ & M & _). now apply (T _ M).
  - destruct (forall2_nth' _ _ _ _ _ B k b I) as (kg & _ & M). destruct M as (_ & _ & _ & M & _). now apply (T _ M).
Qed.
(** In a file the analog beam of a numerical beam is the only one of that index. *)
Theorem parents_read : forall text p, decode ck text = Ok p -> NoDup (map fst (p_anabeams ck p)) /\ NoDup (map fst (p_digibeams ck p)) /\ NoDup (map fst (p_centers ck p)).
Proof. intros text p D. destruct (decode_read text p D) as (_ & _ & (_ & A) & (_ & B) & (_ & C)). now repeat split. Qed.
End Read.
