(** C51, C52 and C85 to C87: user parsets. *)
From Coq Require Import Ascii String List Arith ZArith QArith Bool Lia Sorted.
From Verif Require Import Base M_Polar M_Dedisperse M_Pipeline M_PText M_POptions M_Parset P_PText P_PValue P_Parset P_Parset2 P_Parset3 P_PFile P_PLoad P_PLoad2 P_PLoad3 P_PValid.
Import ListNotations.
Open Scope nat_scope.

(** Dates for the examples: any text with a [T], without its final [Z]. *)
Definition demo_clock : clock :=
  mkClock string string (fun s => if has_char "T" s then Some (rstrip "Z" s) else None) (fun t => t) (fun t => t) Some (fun a => a).
Definition demo_ops : list (uop demo_clock) :=
  [AddAna demo_clock [("target"%string, UStr demo_clock "CasA")]; AddAna demo_clock [];
   AddNum demo_clock 1 [("subbandList"%string, UList demo_clock [IInt demo_clock 12; IInt demo_clock 13])];
   AddNum demo_clock 0 [("duration"%string, UDelta demo_clock (7 # 2))]; AddPc demo_clock (-1) [];
   ModNum demo_clock 0 [("target"%string, UStr demo_clock "VirA")];
   SetObs demo_clock [("name"%string, UStr demo_clock "run1")]].

(** * C51: numbering *)
Theorem C51_numbering : forall (ck : clock) ops,
  let u := history ck ops in
  counted (map a_index (u_anabeams u)) /\ counted (map b_index (nums u))
  /\ StronglySorted lt (map b_index (centers u)).
Proof. exact numbering. Qed.
Print Assumptions C51_numbering.
Theorem C51_parents : forall (ck : clock) ops,
  (forall o, In o ops -> sets_parent ck o = false) -> parents_ok (history ck ops).
Proof. exact parents. Qed.
Print Assumptions C51_parents.
Theorem C51_parents_restored : forall (ck : clock) ops,
  (forall kw, parents_ok (add_analog_beam ck kw (history ck ops)))
  /\ (forall k u', remove_analog_beam ck k (history ck ops) = Ok u' -> parents_ok u').
Proof. exact parents_restored. Qed.
Print Assumptions C51_parents_restored.
Theorem C51_centers : forall (ck : clock) ops,
  (forall o, In o ops -> removes_ana ck o = false) -> counted (map b_index (centers (history ck ops))).
Proof. exact centers_counted. Qed.
Print Assumptions C51_centers.
Theorem C51_centers_restored : forall (ck : clock) ops k,
  (forall kw u', add_phase_center ck k kw (history ck ops) = Ok u' -> counted (map b_index (centers u')))
  /\ counted (map b_index (centers (remove_phase_center k (history ck ops)))).
Proof. exact centers_restored. Qed.
Print Assumptions C51_centers_restored.
Theorem C51_counts : forall (ck : clock) ops,
  let u := fst (to_text ck (history ck ops)) in
  value (u_observation u) "nrAnabeams" = Some (SStr (show_int (Z.of_nat (length (u_anabeams u)))))
  /\ value (u_observation u) "nrBeams" = Some (SStr (show_int (Z.of_nat (length (nums u)))))
  /\ value (u_observation u) "nrPhaseCenters" = Some (SStr (show_int (Z.of_nat (length (centers u)))))
  /\ (forall key, key <> "nrAnabeams"%string -> key <> "nrBeams"%string -> key <> "nrPhaseCenters"%string ->
      field (u_observation u) key = field (u_observation (history ck ops)) key)
  /\ u_output u = u_output (history ck ops) /\ u_anabeams u = u_anabeams (history ck ops).
Proof. exact declared_counts. Qed.
Print Assumptions C51_counts.
Theorem C51_add_analog : forall (ck : clock) u kw,
  contents (add_analog_beam ck kw u)
  = contents u ++ [(modify_properties ck kw (new_block anabeam_options), [], [])].
Proof. exact add_analog_effect. Qed.
Print Assumptions C51_add_analog.
Theorem C51_modify_analog : forall (ck : clock) u k kw,
  match modify_analog_beam ck k kw u with
  | Ok u' => exists pre c ns ps post,
      contents u = pre ++ (c, ns, ps) :: post /\ place (length (contents u)) k (length pre)
      /\ contents u' = pre ++ (modify_properties ck kw c, ns, ps) :: post
  | Err e => e = EIndexError /\ forall i, ~ place (length (contents u)) k i
  end.
Proof. exact modify_analog_effect. Qed.
Print Assumptions C51_modify_analog.
Theorem C51_remove_analog : forall (ck : clock) u k,
  match remove_analog_beam ck k u with
  | Ok u' => exists pre c post,
      contents u = pre ++ c :: post /\ place (length (contents u)) k (length pre) /\ contents u' = pre ++ post
  | Err e => e = EIndexError /\ forall i, ~ place (length (contents u)) k i
  end.
Proof. exact remove_analog_effect. Qed.
Print Assumptions C51_remove_analog.
Theorem C51_add_numerical : forall (ck : clock) u k kw,
  match add_numerical_beam ck k kw u with
  | Ok u' => exists pre c ns ps post,
      contents u = pre ++ (c, ns, ps) :: post /\ place (length (contents u)) k (length pre)
      /\ contents u' = pre ++ (c, ns ++ [plain (modify_properties ck kw (new_block beam_options))], ps) :: post
  | Err e => e = EIndexError /\ forall i, ~ place (length (contents u)) k i
  end.
Proof. exact add_numerical_effect. Qed.
Print Assumptions C51_add_numerical.
Theorem C51_modify_numerical : forall (ck : clock) u k kw,
  let u' := modify_numerical_beam ck k kw u in
  ((k < 0 \/ Z.of_nat (length (flat_map num_blocks (contents u))) <= k)%Z /\ contents u' = contents u)
  \/ exists pre c before b after ps post,
      contents u = pre ++ (c, before ++ b :: after, ps) :: post /\ kth num_blocks pre (length before) k
      /\ contents u' = pre ++ (c, before ++ modify_properties ck kw b :: after, ps) :: post.
Proof. exact modify_numerical_effect. Qed.
Print Assumptions C51_modify_numerical.
Theorem C51_remove_numerical : forall u k,
  let u' := remove_numerical_beam k u in
  ((k < 0 \/ Z.of_nat (length (flat_map num_blocks (contents u))) <= k)%Z /\ contents u' = contents u)
  \/ exists pre c before b after ps post,
      contents u = pre ++ (c, before ++ b :: after, ps) :: post /\ kth num_blocks pre (length before) k
      /\ contents u' = pre ++ (c, before ++ after, ps) :: post.
Proof. exact remove_numerical_effect. Qed.
Print Assumptions C51_remove_numerical.
Theorem C51_add_center : forall (ck : clock) u k kw,
  match add_phase_center ck k kw u with
  | Ok u' => exists pre c ns ps post,
      contents u = pre ++ (c, ns, ps) :: post /\ place (length (contents u)) k (length pre)
      /\ contents u' = pre ++ (c, ns, ps ++ [plain (modify_properties ck kw (new_block phasecenter_options))]) :: post
  | Err e => e = EIndexError /\ forall i, ~ place (length (contents u)) k i
  end.
Proof. exact add_center_effect. Qed.
Print Assumptions C51_add_center.
Theorem C51_modify_center : forall (ck : clock) u k kw,
  let u' := modify_phase_center ck k kw u in
  ((k < 0 \/ Z.of_nat (length (flat_map pc_blocks (contents u))) <= k)%Z /\ contents u' = contents u)
  \/ exists pre c ns before b after post,
      contents u = pre ++ (c, ns, before ++ b :: after) :: post /\ kth pc_blocks pre (length before) k
      /\ contents u' = pre ++ (c, ns, before ++ modify_properties ck kw b :: after) :: post.
Proof. exact modify_center_effect. Qed.
Print Assumptions C51_modify_center.
Theorem C51_remove_center : forall u k,
  let u' := remove_phase_center k u in
  ((k < 0 \/ Z.of_nat (length (flat_map pc_blocks (contents u))) <= k)%Z /\ contents u' = contents u)
  \/ exists pre c ns before b after post,
      contents u = pre ++ (c, ns, before ++ b :: after) :: post /\ kth pc_blocks pre (length before) k
      /\ contents u' = pre ++ (c, ns, before ++ after) :: post.
Proof. exact remove_center_effect. Qed.
Print Assumptions C51_remove_center.
Theorem C51_fields : forall (ck : clock) kw b key,
  field (modify_properties ck kw b) key =
  match given kw key with
  | Some v => option_map (fun e => mkEntry (e_key e) (e_required e) (store ck v) true (e_syntax e)) (field b key)
  | None => field b key
  end.
Proof. exact fields_set. Qed.
Print Assumptions C51_fields.
Theorem C51_center_number_refuted : forall (ck : clock),
  let u := history ck [AddAna ck []; AddAna ck []; AddPc ck 0 []; AddPc ck 1 []; RemAna ck 0] in
  map b_index (centers u) = [1]
  /\ value (u_observation (fst (to_text ck u))) "nrPhaseCenters" = Some (SStr "1").
Proof. exact center_number_refuted. Qed.
Print Assumptions C51_center_number_refuted.
Theorem C51_parent_by_hand_refuted : forall (ck : clock),
  let u := history ck [AddAna ck []; AddNum ck 0 []; ModNum ck 0 [("noBeam"%string, UInt ck 7)]] in
  ~ parents_ok u
  /\ parents_ok (add_analog_beam ck [] u)
  /\ bind (decode ck (snd (to_text ck u))) (load_from_parset ck) = Err EIndexError.
Proof. exact parent_by_hand_refuted. Qed.
Print Assumptions C51_parent_by_hand_refuted.

Example C51_ex : let u := history demo_clock demo_ops in
  (forall o, In o demo_ops -> sets_parent demo_clock o = false /\ removes_ana demo_clock o = false) /\
  map b_index (nums u) = [0; 1] /\ map parent_of (nums u) = [Some (SInt 0); Some (SInt 1)] /\
  map parent_of (centers u) = [Some (SInt 1)] /\
  map (fun b => value (b_conf b) "target") (nums u) = [Some (SStr "VirA"); Some (SStr "numerical_beam_name")] /\
  map (fun b => value (b_conf b) "duration") (firstn 1 (nums u)) = [Some (SStr "4s")] /\
  value (u_observation (fst (to_text demo_clock u))) "nrBeams" = Some (SStr "2").
Proof.
  cbv zeta. split.
  - intros o H. repeat (destruct H as [<-|H]; [split; reflexivity|]). destruct H.
  - repeat split; vm_compute; reflexivity.
Qed.
Example C51_ex_places : place 2 (-1) 1 /\ ~ place 2 2 0 /\ kth num_blocks [([], [[]; []], [])] 1 3.
Proof. unfold place, kth. cbn. lia. Qed.

(** * C52: lists of integers *)
Theorem C52_segments : forall (ck : clock) key segs ls,
  segs <> [] -> Forall seg_ok segs -> Forall2 denotes segs ls ->
  read_value ck key (list_text segs) = Ok (PList ck (map (IInt ck) (concat ls))).
Proof. exact segments_read. Qed.
Print Assumptions C52_segments.
Theorem C52_ints : forall (ck : clock) key l,
  l <> [] -> Forall (fun n => (0 <= n)%Z) l ->
  read_value ck key (show_sval (store ck (UList ck (map (IInt ck) l)))) = Ok (PList ck (map (IInt ck) l)).
Proof. exact ints_round_trip. Qed.
Print Assumptions C52_ints.
Theorem C52_empty_refuted : forall (ck : clock) key,
  read_value ck key (show_sval (store ck (UList ck []))) = Ok (PList ck [IStr ck ""]).
Proof. exact empty_list_refuted. Qed.
Print Assumptions C52_empty_refuted.
Theorem C52_negative_refuted : forall (ck : clock) key n, (n < 0)%Z ->
  read_value ck key (show_sval (store ck (UList ck [IInt ck n]))) = Ok (PList ck [IStr ck (show_int n)]).
Proof. exact negative_refuted. Qed.
Print Assumptions C52_negative_refuted.
Theorem C52_value_again : forall (ck : clock) key text v,
  read_value ck key text = Ok v -> has_sub "angle" (lower key) = false -> kept ck v ->
  read_value ck key (show_sval (store ck (uval_of ck v))) = Ok v.
Proof. exact value_again. Qed.
Print Assumptions C52_value_again.

Example C52_ex :
  read_value demo_clock "subbandList" (list_text [One 3; Range 10 12; Range 7 6; One 0])
  = Ok (PList demo_clock (map (IInt demo_clock) [3; 10; 11; 12; 0]%Z)) /\
  Forall seg_ok [One 3; Range 10 12; Range 7 6; One 0] /\
  list_text [One 3; Range 10 12] = "[3,10..12]"%string.
Proof. split; [vm_compute; reflexivity|split; [repeat constructor; cbn; lia|reflexivity]]. Qed.
Example C52_ex_again : exists v,
  read_value demo_clock "startTime" " 2024-01-01T10:00:00" = Ok v /\ kept demo_clock v /\
  show_sval (store demo_clock (uval_of demo_clock v)) = "2024-01-01T10:00:00Z"%string.
Proof.
  eexists. split; [vm_compute; reflexivity|]. split; [|reflexivity]. vm_compute. repeat split.
Qed.

(** * C85: a file written is read *)
Theorem C85_file : forall (ck : clock) ops,
  let u := fst (to_text ck (history ck ops)) in
  readable ck u -> decode ck (snd (to_text ck (history ck ops))) = Ok (file_of ck u).
Proof. exact file_reads_back. Qed.
Print Assumptions C85_file.
Theorem C85_first_line_refuted : forall (ck : clock) l rest, without "." l -> without newline l -> decode ck (l ++ nl ++ rest)%string = Err EUnboundLocalError.
Proof. exact first_line_refuted. Qed.
Print Assumptions C85_first_line_refuted.
Theorem C85_no_equal_refuted : forall (ck : clock) name rest, without "." name -> without newline name -> without "=" rest -> without newline rest ->
  decode ck (name ++ String "." rest)%string = Err EValueError.
Proof. exact no_equal_refuted. Qed.
Print Assumptions C85_no_equal_refuted.

Definition demo_ok (b : block) : bool :=
  forallb (fun e => negb (written e) || (negb (has_char newline (show_sval (e_value e)))
     && match read_value demo_clock (e_key e) (show_sval (e_value e)) with
        | Ok (PTime _ t) => String.eqb t "2021-01-01T00:00:00"
        | Ok (PList _ l) => negb (length l =? 0) && forallb (fun x => match x with IInt _ n => (0 <=? n)%Z | IStr _ _ => true | ITime _ _ => false end) l
        | Ok (PAngle _ _) => false
        | Ok _ => true
        | Err _ => false
        end)) b.
Lemma demo_fine : forall b, demo_ok b = true ->
  block_fine demo_clock b /\ block_kept demo_clock b.
Proof.
  intros b H. unfold demo_ok in H. rewrite forallb_forall in H.
  assert (G : forall e, In e b -> written e = true -> entry_fine demo_clock e /\ kept demo_clock (parsed demo_clock e)).
  { intros e He W. specialize (H e He). rewrite W in H. cbn [negb orb] in H. apply andb_prop in H. destruct H as [H1 H2].
    apply negb_true_iff in H1. unfold entry_fine, parsed.
    destruct (read_value demo_clock (e_key e) (show_sval (e_value e))) as [v|] eqn:E; [|discriminate].
    split; [split; [exact H1|eauto]|]. destruct v as [| | |t|a|l]; cbn [kept]; try exact Logic.I; try discriminate.
    - apply String.eqb_eq in H2. rewrite H2. vm_compute. repeat split.
    - apply andb_prop in H2. destruct H2 as [H2 H3]. split; [intros ->; discriminate|].
      apply Forall_forall. intros x Hx. rewrite forallb_forall in H3. specialize (H3 x Hx).
      destruct x; cbn; [apply Z.leb_le; exact H3|exact Logic.I|discriminate]. }
  split; intros e He W; now apply G.
Qed.
Lemma demo_readable : readable demo_clock (fst (to_text demo_clock (history demo_clock demo_ops)))
  /\ all_kept demo_clock (fst (to_text demo_clock (history demo_clock demo_ops))).
Proof.
  set (u := fst (to_text demo_clock (history demo_clock demo_ops))).
  assert (A : forall a, In a (u_anabeams u) -> block_fine demo_clock (a_conf a) /\ block_kept demo_clock (a_conf a)).
  { assert (F : forallb (fun a => demo_ok (a_conf a)) (u_anabeams u) = true) by (vm_compute; reflexivity).
    rewrite forallb_forall in F. intros a H. exact (demo_fine _ (F a H)). }
  assert (N : forall b, In b (nums u) \/ In b (centers u) -> block_fine demo_clock (b_conf b) /\ block_kept demo_clock (b_conf b)).
  { assert (F : forallb (fun b => demo_ok (b_conf b)) (nums u ++ centers u) = true) by (vm_compute; reflexivity).
    rewrite forallb_forall in F. intros b H. exact (demo_fine _ (F b (in_or_app _ _ _ H))). }
  assert (O : block_fine demo_clock (u_observation u) /\ block_kept demo_clock (u_observation u)).
  { apply demo_fine. vm_compute. reflexivity. }
  assert (P : block_fine demo_clock (u_output u) /\ block_kept demo_clock (u_output u)).
  { apply demo_fine. vm_compute. reflexivity. }
  clearbody u. split; (split; [apply O|split; [apply P|split]]).
  - intros a Ha. exact (proj1 (A a Ha)).
  - intros b Hb. exact (proj1 (N b Hb)).
  - intros a Ha. exact (proj2 (A a Ha)).
  - intros b Hb. exact (proj2 (N b Hb)).
Qed.
Example C85_ex : readable demo_clock (fst (to_text demo_clock (history demo_clock demo_ops))) /\
  match decode demo_clock (snd (to_text demo_clock (history demo_clock demo_ops))) with
  | Ok p => map fst (p_digibeams demo_clock p) = [0; 1]%Z /\
      dict_get String.eqb "name"%string (p_observation demo_clock p) = Some (PStr demo_clock "run1")
  | Err _ => False
  end.
Proof. split; [exact (proj1 demo_readable)|]. vm_compute. repeat split. Qed.

(** * C86: loading a user parset *)
Theorem C86_load : forall (ck : clock) ops,
  let u := fst (to_text ck (history ck ops)) in
  (forall o, In o ops -> sets_parent ck o = false) -> readable ck u ->
  exists v, load_text ck (snd (to_text ck (history ck ops))) = Ok v /\ rereads ck u v /\ numbered v.
Proof. exact written_loads. Qed.
Print Assumptions C86_load.
Theorem C86_stable : forall (ck : clock) ops,
  let u := fst (to_text ck (history ck ops)) in
  (forall o, In o ops -> sets_parent ck o = false) -> readable ck u -> all_kept ck u ->
  exists s, reload ck 1 (snd (to_text ck (history ck ops))) = Ok s /\ forall n, reload ck n s = Ok s.
Proof. exact reload_stable. Qed.
Print Assumptions C86_stable.
Theorem C86_lower_case_refuted : forall (ck : clock) s, tidy s -> starts_with "[" s = false -> has_char ":" s = false -> isdigit s = false ->
  lower s <> "true"%string -> lower s <> "false"%string ->
  exists v, load_text ck (snd (to_text ck (history ck [SetObs ck [("contactName"%string, UStr ck s)]]))) = Ok v
  /\ value (u_observation v) "contactName" = Some (SStr (lower s)).
Proof. exact lower_case_refuted. Qed.
Print Assumptions C86_lower_case_refuted.

Theorem C86_no_parent : forall (ck : clock) (p : parset ck) n, length (p_anabeams ck p) = S n ->
  Forall (fun x => orphan ck (snd x)) (p_digibeams ck p) -> Forall (fun x => orphan ck (snd x)) (p_centers ck p) ->
  exists u, load_from_parset ck p = Ok u /\
    nums_of u = length (p_digibeams ck p) :: repeat 0 n /\ pcs_of u = length (p_centers ck p) :: repeat 0 n.
Proof. exact load_orphans. Qed.
Print Assumptions C86_no_parent.
Theorem C86_no_parent_refused : forall (ck : clock) (p : parset ck), p_anabeams ck p = [] -> Forall (fun x => orphan ck (snd x)) (p_digibeams ck p) ->
  p_digibeams ck p <> [] -> load_from_parset ck p = Err EIndexError.
Proof. exact load_orphan_refused. Qed.
Print Assumptions C86_no_parent_refused.
Example C86_no_parent_ex : exists u, load_from_parset demo_clock (mkParset demo_clock [] [] [(0%Z, []); (1%Z, [])] [(0%Z, []); (1%Z, [])] [(0%Z, [])]) = Ok u /\
  nums_of u = [2; 0] /\ pcs_of u = [1; 0].
Proof. apply (C86_no_parent demo_clock (mkParset demo_clock [] [] [(0%Z, []); (1%Z, [])] [(0%Z, []); (1%Z, [])] [(0%Z, [])]) 1); [reflexivity| |]; repeat constructor. Qed.

Example C86_ex : readable demo_clock (fst (to_text demo_clock (history demo_clock demo_ops))) /\
  all_kept demo_clock (fst (to_text demo_clock (history demo_clock demo_ops))) /\
  match load_text demo_clock (snd (to_text demo_clock (history demo_clock demo_ops))) with
  | Ok v => map (fun a => value (a_conf a) "target") (u_anabeams v) = [Some (SStr "casa"); Some (SStr "analog_beam_name")] /\
      map (fun b => value (b_conf b) "subbandList") (nums v) = [Some (SStr "[41..451]"); Some (SStr "[12,13]")]
  | Err _ => False
  end.
Proof. split; [exact (proj1 demo_readable)|]. split; [exact (proj2 demo_readable)|]. vm_compute. split; reflexivity. Qed.

(** * C87: validation *)
Theorem C87_validate : forall (ck : clock) (matches : string -> string -> res bool) u,
  let u' := fst (validate ck matches u) in let r := snd (validate ck matches u) in
  u' = fst (to_text ck u)
  /\ (r = Ok true <-> forall b p t, block_of u' b -> checked b p t -> matches p t = Ok true)
  /\ ((exists x, r = Ok x) <-> forall b p t, block_of u' b -> checked b p t -> exists x, matches p t = Ok x).
Proof. exact validate_spec. Qed.
Print Assumptions C87_validate.
Theorem C87_dump_time_refuted : map open_syntaxes [observation_options; output_options; anabeam_options; beam_options; phasecenter_options]
  = [[]; [("nri_dumpTime"%string, "^((0.5)|(1)|(2)$"%string)]; []; []; []].
Proof. exact dump_time_refuted. Qed.
Print Assumptions C87_dump_time_refuted.
Theorem C87_dump_time_raises : forall (ck : clock) (matches : string -> string -> res bool) ops kw v,
  (forall t, matches "^((0.5)|(1)|(2)$"%string t = Err EException) ->
  given kw "nri_dumpTime" = Some v ->
  exists e, snd (validate ck matches (set_output_config ck kw (history ck ops))) = Err e.
Proof. exact dump_time_raises. Qed.
Print Assumptions C87_dump_time_raises.

Example C87_ex : let m := fun (p t : string) => if String.eqb p "^((0.5)|(1)|(2)$"%string then Err EException else Ok (negb (String.eqb t "bad")) in
  snd (validate demo_clock m (history demo_clock demo_ops)) = Ok true /\
  snd (validate demo_clock m (history demo_clock (demo_ops ++ [ModPc demo_clock 0 [("target"%string, UStr demo_clock "bad")]]))) = Ok false /\
  given [("nri_dumpTime"%string, UInt demo_clock 1)] "nri_dumpTime" = Some (UInt demo_clock 1) /\
  snd (validate demo_clock m (set_output_config demo_clock [("nri_dumpTime"%string, UInt demo_clock 1)] (history demo_clock demo_ops))) = Err EException.
Proof. vm_compute. repeat split. Qed.
