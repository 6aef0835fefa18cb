(** Validation of a user parset, and histories that break the numbering. *)
From Coq Require Import Ascii String List Arith ZArith QArith Bool Lia Sorted.
From Verif Require Import Base M_Polar M_Dedisperse M_Pipeline M_PText M_POptions M_Parset P_PText P_PValue P_Parset P_Parset2 P_Parset3 P_PFile P_PLoad P_PLoad2.
Import ListNotations.
Open Scope nat_scope.

Section WithClock.
Variable ck : clock.
Variable matches : string -> string -> res bool.

(** A field is checked when it was given and has a syntax. *)
Definition checked (b : block) (p t : string) : Prop :=
  exists e, In e b /\ e_modified e = true /\ e_syntax e = Some p /\ t = show_sval (e_value e).
Definition block_of (u : puser) (b : block) : Prop :=
  b = u_observation u \/ b = u_output u
  \/ (exists a, In a (u_anabeams u) /\ (b = a_conf a
        \/ exists x, (In x (a_nums a) \/ In x (a_pcs a)) /\ b = b_conf x)).

Lemma check_keys_true : forall b, check_keys matches b = Ok true <-> (forall p t, checked b p t -> matches p t = Ok true).
Proof.
  induction b as [|e r IH]; cbn [check_keys].
  - split; [intros _ p t [e [[] _]]|reflexivity].
  - assert (C : forall p t, checked (e :: r) p t <-> (e_modified e = true /\ e_syntax e = Some p /\ t = show_sval (e_value e)) \/ checked r p t).
    { intros p t. split.
      - intros [x [[<-|Hx] H]]; [now left|right; exists x; now split].
      - intros [H|[x [Hx H]]]; [exists e; split; [now left|exact H]|exists x; split; [now right|exact H]]. }
    destruct (e_syntax e) as [p|] eqn:Sy.
    + destruct (e_modified e) eqn:M; cbn [negb].
      * split.
        -- intros H p' t'. rewrite C. intros [[_ [E ->]]|H'].
           ++ injection E as <-. destruct (matches p (show_sval (e_value e))) as [m|]; [|discriminate]. cbn [bind] in H.
              destruct (check_keys matches r) as [k|]; [|discriminate]. cbn [bind] in H. injection H as H.
              apply andb_prop in H. now destruct H as [-> _].
           ++ apply IH; [|exact H']. destruct (matches p (show_sval (e_value e))) as [m|]; [|discriminate]. cbn [bind] in H.
              destruct (check_keys matches r) as [k|]; [|discriminate]. cbn [bind] in H. injection H as H.
              apply andb_prop in H. now destruct H as [_ ->].
        -- intro H. rewrite (H p (show_sval (e_value e))) by (apply C; left; repeat split).
           cbn [bind]. rewrite (proj2 IH); [reflexivity|]. intros p' t' H'. apply H, C. now right.
      * rewrite IH. split; intros H p' t' H'; [apply C in H'; destruct H' as [[E _]|H']; [discriminate|now apply H]|].
        apply H, C. now right.
    + rewrite IH. split; intros H p' t' H'; [apply C in H'; destruct H' as [[_ [E _]]|H']; [discriminate|now apply H]|].
      apply H, C. now right.
Qed.
Lemma check_keys_ok : forall b, (exists r, check_keys matches b = Ok r) <-> (forall p t, checked b p t -> exists r, matches p t = Ok r).
Proof.
  induction b as [|e r IH]; cbn [check_keys].
  - split; [intros _ p t [e [[] _]]|eauto].
  - assert (C : forall p t, checked (e :: r) p t <-> (e_modified e = true /\ e_syntax e = Some p /\ t = show_sval (e_value e)) \/ checked r p t).
    { intros p t. split.
      - intros [x [[<-|Hx] H]]; [now left|right; exists x; now split].
      - intros [H|[x [Hx H]]]; [exists e; split; [now left|exact H]|exists x; split; [now right|exact H]]. }
    destruct (e_syntax e) as [p|] eqn:Sy.
    + destruct (e_modified e) eqn:M; cbn [negb].
      * split.
        -- intros [x H] p' t'. destruct (matches p (show_sval (e_value e))) as [m|] eqn:E; [|discriminate]. cbn [bind] in H.
           destruct (check_keys matches r) as [k|] eqn:E'; [|discriminate]. rewrite C. intros [[_ [F ->]]|H'].
           ++ injection F as <-. rewrite E. eauto.
           ++ apply IH; [eauto|exact H'].
        -- intro H. destruct (H p (show_sval (e_value e))) as [m ->]; [apply C; left; repeat split|].
           cbn [bind]. destruct (proj2 IH) as [k ->]; [|cbn; eauto]. intros p' t' H'. apply H, C. now right.
      * rewrite IH. split; intros H p' t' H'; [apply C in H'; destruct H' as [[E _]|H']; [discriminate|now apply H]|].
        apply H, C. now right.
    + rewrite IH. split; intros H p' t' H'; [apply C in H'; destruct H' as [[_ [E _]]|H']; [discriminate|now apply H]|].
      apply H, C. now right.
Qed.
Lemma check_all_true : forall l, check_all matches l = Ok true <-> (forall b, In b l -> check_keys matches b = Ok true).
Proof.
  induction l as [|b r IH]; cbn [check_all].
  - split; [intros _ b []|reflexivity].
  - split.
    + intros H c [<-|Hc]; (destruct (check_keys matches b) as [x|] eqn:E; [|discriminate]); cbn [bind] in H;
        (destruct (check_all matches r) as [y|] eqn:E'; [|discriminate]); cbn [bind] in H; injection H as H; apply andb_prop in H; destruct H as [-> ->].
      * reflexivity.
      * now apply IH.
    + intro H. rewrite (H b (or_introl eq_refl)). cbn [bind]. rewrite (proj2 IH); [reflexivity|]. intros c Hc. apply H. now right.
Qed.
Lemma check_all_ok : forall l, (exists r, check_all matches l = Ok r) <-> (forall b, In b l -> exists r, check_keys matches b = Ok r).
Proof.
  induction l as [|b r IH]; cbn [check_all].
  - split; [intros _ b []|eauto].
  - split.
    + intros [z H] c [<-|Hc]; (destruct (check_keys matches b) as [x|] eqn:E; [|discriminate]); cbn [bind] in H;
        (destruct (check_all matches r) as [y|] eqn:E'; [|discriminate]).
      * eauto.
      * apply IH; eauto.
    + intro H. destruct (H b (or_introl eq_refl)) as [x ->]. cbn [bind]. destruct (proj2 IH) as [y ->]; [|cbn; eauto]. intros c Hc. apply H. now right.
Qed.
Lemma all_blocks_of : forall u b, In b (all_blocks u) <-> block_of u b.
Proof.
  intros u b. unfold all_blocks, block_of. cbn [In]. rewrite in_flat_map. split.
  - intros [<-|[<-|[a [Ha H]]]]; [now left|right; now left|]. right. right. exists a. split; [exact Ha|].
    destruct H as [<-|H]; [now left|]. right. apply in_app_or in H. destruct H as [H|H]; apply in_map_iff in H; destruct H as [x [<- Hx]]; exists x; tauto.
  - intros [->|[->|[a [Ha [->|[x [[Hx|Hx] ->]]]]]]]; [tauto|tauto| | |]; right; right; exists a; (split; [exact Ha|]); [now left| |];
      right; apply in_or_app; [left|right]; now apply in_map.
Qed.
(** [validate] is true exactly when every field given matches its syntax; it raises
    exactly when a pattern tried is not a regular expression. *)
Theorem validate_spec : forall u,
  let u' := fst (validate ck matches u) in let r := snd (validate ck matches u) in
  u' = fst (to_text ck u)
  /\ (r = Ok true <-> forall b p t, block_of u' b -> checked b p t -> matches p t = Ok true)
  /\ ((exists x, r = Ok x) <-> forall b p t, block_of u' b -> checked b p t -> exists x, matches p t = Ok x).
Proof.
  intros u u' r. split; [reflexivity|]. unfold r, validate. cbn [snd]. change (update_beam_numbers ck u) with u'. split.
  - rewrite check_all_true. split.
    + intros H b p t Hb Hc. apply all_blocks_of in Hb. exact (proj1 (check_keys_true b) (H b Hb) p t Hc).
    + intros H b Hb. apply check_keys_true. intros p t Hc. apply (H b p t); [now apply all_blocks_of|exact Hc].
  - rewrite check_all_ok. split.
    + intros H b p t Hb Hc. apply all_blocks_of in Hb. exact (proj1 (check_keys_ok b) (H b Hb) p t Hc).
    + intros H b Hb. apply check_keys_ok. intros p t Hc. apply (H b p t); [now apply all_blocks_of|exact Hc].
Qed.

(** ** Syntaxes that are not regular expressions *)
(** Depth of the groups left open, outside classes and escapes; None when a group is
    closed that was not open. *)
Fixpoint depth (in_class : bool) (d : nat) (s : string) : option nat :=
  match s with
  | EmptyString => Some d
  | String c r =>
      if Ascii.eqb c "\" then match r with String _ r' => depth in_class d r' | EmptyString => None end
      else if in_class then depth (negb (Ascii.eqb c "]")) d r
      else if Ascii.eqb c "[" then depth true d r
      else if Ascii.eqb c "(" then depth false (S d) r
      else if Ascii.eqb c ")" then match d with 0 => None | S d' => depth false d' r end
      else depth false d r
  end.
Definition closed_groups (s : string) : bool := match depth false 0 s with Some 0 => true | _ => false end.
Definition open_syntaxes (o : list option_entry) : list (string * string) :=
  flat_map (fun oe => match o_syntax oe with Some p => if closed_groups p then [] else [(o_key oe, p)] | None => [] end) o.
(** Of all the syntaxes, that of nri_dumpTime leaves a group open. *)
Theorem dump_time_refuted :
  map open_syntaxes [observation_options; output_options; anabeam_options; beam_options; phasecenter_options]
  = [[]; [("nri_dumpTime"%string, "^((0.5)|(1)|(2)$"%string)]; []; []; []].
Proof. vm_compute. reflexivity. Qed.
(** Whatever value it is given, validating then raises. *)
Theorem dump_time_raises : forall ops kw v,
  (forall t, matches "^((0.5)|(1)|(2)$" t = Err EException) ->
  given kw "nri_dumpTime" = Some v ->
  exists e, snd (validate ck matches (set_output_config ck kw (history ck ops))) = Err e.
Proof.
  intros ops kw v Hm Hg. set (u := set_output_config ck kw (history ck ops)).
  destruct (snd (validate ck matches u)) as [x|e] eqn:E; [|now exists e]. exfalso.
  destruct (validate_spec u) as [_ [_ H]]. assert (H' := proj1 H (ex_intro _ x E)). clear H. rename H' into H.
  assert (HO : block_ok output_options (u_output (history ck ops))) by apply history_ok.
  assert (F : exists oe, In oe output_options /\ o_key oe = "nri_dumpTime"%string /\ o_syntax oe = Some "^((0.5)|(1)|(2)$"%string).
  { exists (mkOpt "nri_dumpTime" false (match find (fun oe => String.eqb (o_key oe) "nri_dumpTime") output_options with Some oe => o_value oe | None => ""%string end) (Some "^((0.5)|(1)|(2)$"%string)).
    split; [|split; reflexivity]. cbn. tauto. }
  destruct F as [oe [Ho [Hk Hs]]].
  assert (G : exists y, field (u_output (history ck ops)) "nri_dumpTime" = Some y /\ e_syntax y = Some "^((0.5)|(1)|(2)$"%string).
  { destruct (field (u_output (history ck ops)) "nri_dumpTime") as [y|] eqn:Fy.
    - exists y. split; [reflexivity|]. destruct (field_key _ _ _ Fy) as [Ky Iy].
      assert (Ex : exists oy, In oy output_options /\ fits oy y).
      { clear - HO Iy. induction HO as [|oz z o b Hz HO IH]; [destruct Iy|]. destruct Iy as [->|Iy].
        - exists oz. split; [now left|exact Hz].
        - destruct (IH Iy) as [oy [H1 H2]]. exists oy. split; [now right|exact H2]. }
      destruct Ex as [oy [Hoy [F1 [_ [F3 _]]]]]. rewrite F3.
      assert (oy = oe); [|now subst].
      assert (Kq : o_key oy = o_key oe) by congruence. pose proof out_distinct as ND. clear - ND Hoy Ho Kq.
      revert ND Hoy Ho. generalize output_options. intro L. induction L as [|z r IH]; intros ND H1 H2; [destruct H1|].
      cbn in ND. apply NoDup_cons_iff in ND. destruct ND as [N1 N2].
      destruct H1 as [->|H1], H2 as [->|H2]; [reflexivity| | |now apply IH].
      + exfalso. apply N1. rewrite Kq. now apply in_map.
      + exfalso. apply N1. rewrite <- Kq. now apply in_map.
    - exfalso. eapply field_in_keys; [|exact Fy]. rewrite (block_keys _ _ HO), <- Hk. now apply in_map. }
  destruct G as [y [Fy Sy]].
  assert (Fu : field (u_output u) "nri_dumpTime" = Some (mkEntry (e_key y) (e_required y) (store ck v) true (e_syntax y))).
  { unfold u, set_output_config. cbn [u_output]. rewrite field_modify, Hg, Fy. reflexivity. }
  destruct (field_key _ _ _ Fu) as [_ Iu].
  destruct (H (u_output u) "^((0.5)|(1)|(2)$"%string (show_sval (store ck v))) as [z Z].
  - right. left. reflexivity.
  - eexists. split; [exact Iu|]. cbn. rewrite Sy. repeat split.
  - rewrite Hm in Z. discriminate.
Qed.

(** ** Histories that break the numbering *)
(** Removing an analog beam does not number the phase centers again: their numbers
    then disagree with their count. *)
Theorem center_number_refuted :
  let u := history ck [AddAna ck []; AddAna ck []; AddPc ck 0 []; AddPc ck 1 []; RemAna ck 0] in
  map b_index (centers u) = [1]
  /\ value (u_observation (fst (to_text ck u))) "nrPhaseCenters" = Some (SStr "1").
Proof. split; vm_compute; reflexivity. Qed.
(** The number of the parent given by hand is kept until the next numbering. *)
Theorem parent_by_hand_refuted :
  let u := history ck [AddAna ck []; AddNum ck 0 []; ModNum ck 0 [("noBeam"%string, UInt ck 7)]] in
  ~ parents_ok u
  /\ parents_ok (add_analog_beam ck [] u)
  /\ bind (decode ck (snd (to_text ck u))) (load_from_parset ck) = Err EIndexError.
Proof.
  cbv zeta. split; [|split].
  - intro H. specialize (H 0 _ (mkBeam 0 (modify_properties ck [("noBeam"%string, UInt ck 7)] (modify_properties ck [("noBeam"%string, UInt ck 0)] (new_block beam_options)))) eq_refl).
    assert (E : parent_of (mkBeam 0 (modify_properties ck [("noBeam"%string, UInt ck 7)] (modify_properties ck [("noBeam"%string, UInt ck 0)] (new_block beam_options)))) = Some (SInt (Z.of_nat 0))).
    { apply H. left. reflexivity. }
    vm_compute in E. discriminate.
  - apply parents_restored.
  - clear matches. destruct ck as [d a rt si st ra sa]. vm_compute. now destruct (rt _).
Qed.

(** ** Texts that do not come back *)
(** A file that begins with a blank line, or with a line without a dot, cannot be
    read; a line with a dot and without an equal sign raises as well. *)
Theorem first_line_refuted : forall l rest, without "." l -> without newline l -> decode ck (l ++ nl ++ rest)%string = Err EUnboundLocalError.
Proof.
  intros l rest Hd Hn. unfold decode. rewrite lines_app by exact Hn. cbn [read_lines].
  unfold read_line. rewrite split_once_none; [reflexivity|]. apply without_app; [exact Hd|reflexivity].
Qed.
Theorem no_equal_refuted : forall name rest, without "." name -> without newline name -> without "=" rest -> without newline rest ->
  decode ck (name ++ String "." rest)%string = Err EValueError.
Proof.
  intros name rest H1 H2 H3 H4. unfold decode. rewrite lines_last.
  - cbn [read_lines]. unfold read_line. rewrite (split_once_app "." name rest H1). cbv beta iota zeta. now rewrite split_once_none.
  - apply without_app; [exact H2|]. apply without_cons. split; [discriminate|exact H4].
  - destruct name; discriminate.
Qed.
(** Capital letters are lost by a load. *)
Theorem lower_case_refuted : forall s, tidy s -> starts_with "[" s = false -> has_char ":" s = false -> isdigit s = false ->
  lower s <> "true"%string -> lower s <> "false"%string ->
  exists v, load_text ck (snd (to_text ck (history ck [SetObs ck [("contactName"%string, UStr ck s)]]))) = Ok v
  /\ value (u_observation v) "contactName" = Some (SStr (lower s)).
Proof.
  intros s Ht Hb Hc Hd H1 H2. set (ops := [SetObs ck [("contactName"%string, UStr ck s)]]).
  assert (R : forall key, has_sub "angle" (lower key) = false -> has_sub "duration" (lower key) = false -> read_value ck key s = Ok (PStr ck (lower s))).
  { intros key A D. unfold read_value. rewrite tidy_clean by exact Ht. cbv zeta. rewrite Hb. cbn [andb].
    rewrite (proj2 (String.eqb_neq _ _) H1), (proj2 (String.eqb_neq _ _) H2), A, D, Hd, Hc. reflexivity. }
  assert (OB : u_observation (fst (to_text ck (history ck ops))) =
    mkEntry "contactName" true (SStr s) true (Some "^\S+$"%string) :: tl (u_observation (fst (to_text ck (history ck []))))) by reflexivity.
  destruct (written_loads ck ops) as [v [E [[V1 _] _]]].
  - intros o [<-|[]]. reflexivity.
  - split; [|split; [|split]].
    + rewrite OB. intros e He _. destruct He as [<-|He].
      * split; [exact (proj1 Ht)|]. cbn [e_key e_value show_sval]. eexists. now apply R.
      * cbn -[read_value] in He. repeat (destruct He as [<-|He]); try (destruct He); (split; [reflexivity|]); eexists; vm_compute; reflexivity.
    + intros e He W. exfalso. change (u_output (fst (to_text ck (history ck ops)))) with (new_block output_options) in He.
      assert (N : forallb (fun e => negb (written e)) (new_block output_options) = true) by reflexivity.
      rewrite forallb_forall in N. specialize (N e He). rewrite W in N. discriminate.
    + intros a [].
    + intros b [[]|[]].
  - exists v. split; [exact E|]. rewrite V1. fold ops. rewrite OB. cbn [map value]. unfold value, field. cbn [map find].
    assert (RR : reread ck (mkEntry "contactName" true (SStr s) true (Some "^\S+$"%string))
                 = mkEntry "contactName" true (SStr (lower s)) true (Some "^\S+$"%string)).
    { unfold reread, parsed. cbn [written e_modified e_required orb e_key e_value show_sval e_syntax].
      rewrite R by reflexivity. reflexivity. }
    rewrite RR. reflexivity.
Qed.
End WithClock.
