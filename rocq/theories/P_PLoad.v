(** Loading a user parset from the file it was written in. *)
From Coq Require Import Ascii String List Arith ZArith QArith Bool Lia Sorted.
From Verif Require Import Base M_Polar M_Dedisperse M_Pipeline M_PText M_POptions M_Parset P_PText P_PValue P_Parset P_Parset2 P_Parset3 P_PFile.
Import ListNotations.
Open Scope nat_scope.

Section WithClock.
Variable ck : clock.

Lemma to_text_history : forall ops, fst (to_text ck (history ck ops)) = history ck (ops ++ [Text ck]).
Proof. intro ops. rewrite history_snoc. reflexivity. Qed.
(** The file of a user parset says, for each block, the fields written and the value
    their text reads as. *)
Theorem file_reads_back : forall ops,
  let u := fst (to_text ck (history ck ops)) in
  readable ck u -> decode ck (snd (to_text ck (history ck ops))) = Ok (file_of ck u).
Proof.
  intros ops u H. apply (decode_ok ck u); [|exact H]. unfold u. rewrite to_text_history. apply history_ok.
Qed.

(** ** Fields after a load *)
(** The field is kept as its text is read; a field not written has its default. *)
Definition reread (e : entry) : entry :=
  if written e
  then mkEntry (e_key e) (e_required e) (store ck (uval_of ck (parsed ck e))) true (e_syntax e)
  else e.

Definition apply_kw (kw : list (string * uval ck)) (e : entry) : entry :=
  fold_left (fun e kv => if String.eqb (e_key e) (fst kv)
                         then mkEntry (e_key e) (e_required e) (store ck (snd kv)) true (e_syntax e) else e) kw e.
Lemma modify_map : forall kw b, modify_properties ck kw b = map (apply_kw kw) b.
Proof.
  unfold modify_properties, apply_kw. induction kw as [|kv r IH]; intro b; cbn [fold_left].
  - induction b as [|e b IHb]; cbn; [reflexivity|]. now rewrite <- IHb.
  - rewrite IH. unfold set_entry. rewrite map_map. reflexivity.
Qed.
Lemma apply_key : forall kw e, e_key (apply_kw kw e) = e_key e.
Proof.
  unfold apply_kw. induction kw as [|kv r IH]; intro e; cbn [fold_left]; [reflexivity|].
  rewrite IH. now destruct (String.eqb (e_key e) (fst kv)).
Qed.
Lemma apply_other : forall kw e, ~ In (e_key e) (map fst kw) -> apply_kw kw e = e.
Proof.
  unfold apply_kw. induction kw as [|kv r IH]; intros e H; cbn [fold_left]; [reflexivity|].
  destruct (String.eqb (e_key e) (fst kv)) eqn:E.
  - exfalso. apply H. left. apply String.eqb_eq in E. now symmetry.
  - apply IH. intro F. apply H. now right.
Qed.
Lemma apply_once : forall kw e v, NoDup (map fst kw) -> In (e_key e, v) kw ->
  apply_kw kw e = mkEntry (e_key e) (e_required e) (store ck v) true (e_syntax e).
Proof.
  induction kw as [|[k w] r IH]; intros e v Hd Hi; [destruct Hi|].
  cbn in Hd. apply NoDup_cons_iff in Hd. destruct Hd as [Hk Hd]. unfold apply_kw. cbn [fold_left fst snd].
  destruct Hi as [E|Hi].
  - injection E as -> ->. rewrite String.eqb_refl. fold (apply_kw r). rewrite apply_other; [reflexivity|exact Hk].
  - destruct (String.eqb (e_key e) k) eqn:E.
    + exfalso. apply Hk. apply String.eqb_eq in E. rewrite <- E. apply in_map_iff. now exists (e_key e, v).
    + fold (apply_kw r). now apply IH.
Qed.
Lemma filter_all : forall A (f : A -> bool) l, (forall x, In x l -> f x = true) -> filter f l = l.
Proof.
  induction l as [|x r IH]; intro H; cbn; [reflexivity|]. rewrite H by now left. f_equal. apply IH. intros y Hy. apply H. now right.
Qed.
Lemma copy_pairs : forall o b, block_ok o b ->
  copy_fields ck (pairs ck b) o = map (fun e => (e_key e, uval_of ck (parsed ck e))) (filter written b).
Proof.
  intros o b Hb. unfold copy_fields. rewrite filter_all.
  - unfold pairs. now rewrite map_map.
  - intros kv H. apply in_map_iff in H. destruct H as [e [<- He]]. apply filter_In in He. cbn.
    apply existsb_exists. exists (e_key e). split; [|apply String.eqb_refl].
    rewrite <- (block_keys _ _ Hb). now apply in_map.
Qed.
Lemma copy_label : forall o label v b, block_ok o b -> ~ In label (map o_key o) ->
  copy_fields ck ((label, v) :: pairs ck b) o = copy_fields ck (pairs ck b) o.
Proof.
  intros o label v b Hb H. unfold copy_fields. cbn [filter fst].
  destruct (existsb (String.eqb label) (map o_key o)) eqn:E; [|reflexivity].
  exfalso. apply H. apply existsb_exists in E. destruct E as [k [Hk E]]. apply String.eqb_eq in E. now subst.
Qed.
Lemma copy_block : forall o b, block_ok o b -> NoDup (map o_key o) ->
  modify_properties ck (copy_fields ck (pairs ck b) o) (new_block o) = map reread b.
Proof.
  intros o b Hb Hd. rewrite (copy_pairs o b Hb), modify_map.
  set (kw := map (fun e => (e_key e, uval_of ck (parsed ck e))) (filter written b)).
  assert (NK : NoDup (map e_key b)) by now rewrite (block_keys _ _ Hb).
  assert (KW : map fst kw = map e_key (filter written b)) by (unfold kw; rewrite map_map; reflexivity).
  assert (NW : NoDup (map fst kw)).
  { rewrite KW. pose proof (NoDup_filter_keys b "") as F.
    clear - NK. induction b as [|e r IH]; [constructor|]. cbn in *. apply NoDup_cons_iff in NK. destruct NK as [H1 H2].
    destruct (written e); [|now apply IH]. cbn. apply NoDup_cons_iff. split; [|now apply IH].
    intro F. apply H1. apply in_map_iff in F. destruct F as [x [E F]]. apply filter_In in F. apply in_map_iff. exists x. tauto. }
  assert (G : forall e, In e b -> forall oe, fits oe e ->
    apply_kw kw (mkEntry (o_key oe) (o_required oe) (SStr (o_value oe)) false (o_syntax oe)) = reread e).
  { intros e He oe [F1 [F2 [F3 F4]]]. unfold reread. destruct (written e) eqn:W.
    - rewrite (apply_once kw _ (uval_of ck (parsed ck e)) NW).
      + cbn. now rewrite F1, F2, F3.
      + cbn [e_key]. rewrite <- F1. unfold kw. apply in_map_iff. exists e. split; [reflexivity|]. now apply filter_In.
    - rewrite apply_other.
      + apply orb_false_elim in W. destruct W as [W1 W2]. rewrite <- F1, <- F2, <- F3, <- (F4 W1), <- W1.
        now destruct e.
      + cbn [e_key]. rewrite KW, <- F1. intro I0. apply in_map_iff in I0. destruct I0 as [e' [E I0]].
        apply filter_In in I0. destruct I0 as [I1 I2].
        assert (e' = e); [|congruence].
        clear - NK He I1 E. induction b as [|x r IH]; [destruct He|]. cbn in NK. apply NoDup_cons_iff in NK. destruct NK as [N1 N2].
        destruct He as [->|He], I1 as [->|I1]; [reflexivity| | |now apply IH].
        * exfalso. apply N1. rewrite <- E. now apply in_map.
        * exfalso. apply N1. rewrite E. now apply in_map. }
  clearbody kw. clear NK KW NW Hd. unfold new_block. induction Hb as [|oe e o b Hf Hb IH]; cbn; [reflexivity|].
  rewrite (G e (or_introl eq_refl) oe Hf). f_equal. apply IH. intros e' He'. apply G. now right.
Qed.
Lemma copy_beam : forall o label v b, options_fine o label -> block_ok o b ->
  modify_properties ck (copy_fields ck ((label, v) :: pairs ck b) o) (new_block o) = map reread b.
Proof.
  intros o label v b [Hd _] Hb. apply NoDup_cons_iff in Hd. destruct Hd as [H1 H2].
  rewrite copy_label by assumption. now apply copy_block.
Qed.

(** ** Analog beams *)
Lemma load_anas : forall (l : list (nat * block)) u0,
  u_anabeams u0 = [] ->
  u_anabeams (fold_left (fun u b => add_analog_beam ck (copy_fields ck (snd b) anabeam_options) u)
                (map (fun x => beam_entry ck "anaIdx" (fst x) (snd x)) l) u0)
  = imap (fun i x => mkAna i (modify_properties ck (copy_fields ck (snd (beam_entry ck "anaIdx" (fst x) (snd x))) anabeam_options) (new_block anabeam_options)) [] []) l.
Proof.
  induction l as [|x l IH] using rev_ind; intros u0 H0; [exact H0|].
  rewrite map_app, fold_left_app. cbn [map fold_left]. unfold add_analog_beam at 1. cbn [with_anas u_anabeams].
  rewrite (IH u0 H0). unfold number_anas.
  set (f := fun (i : nat) (y : nat * block) => mkAna i (modify_properties ck (copy_fields ck (snd (beam_entry ck "anaIdx" (fst y) (snd y))) anabeam_options) (new_block anabeam_options)) [] []).
  assert (E : imap (fun i a => propagate ck (mkAna i (a_conf a) (a_nums a) (a_pcs a)))
                (imap f l ++ [new_ana ck (copy_fields ck (snd (beam_entry ck "anaIdx" (fst x) (snd x))) anabeam_options)])
              = imap f (l ++ [x])).
  { apply list_ext_error. intro j. rewrite !nth_error_imap.
    destruct (Nat.lt_ge_cases j (length l)) as [Hj|Hj].
    - rewrite nth_error_app1 by now rewrite imap_length. rewrite nth_error_app1 by exact Hj.
      rewrite nth_error_imap. destruct (nth_error l j); reflexivity.
    - rewrite nth_error_app2 by now rewrite imap_length. rewrite nth_error_app2 by exact Hj. rewrite imap_length.
      destruct (j - length l) as [|m]; [reflexivity|]. cbn. destruct m; reflexivity. }
  rewrite E.
  assert (N : forall L k, (forall a, In a L -> a_nums a = []) -> number_nums k L = L).
  { induction L as [|a r IHL]; intros k H; cbn; [reflexivity|]. rewrite (H a (or_introl eq_refl)). cbn.
    rewrite IHL by (intros b Hb; apply H; now right). pose proof (H a (or_introl eq_refl)) as Ha. destruct a; cbn in *. now subst. }
  apply N. intros a Ha. apply In_nth_error in Ha. destruct Ha as [j Hj]. rewrite nth_error_imap in Hj.
  destruct (nth_error (l ++ [x]) j); [|discriminate]. cbn in Hj. injection Hj as <-. reflexivity.
Qed.

(** ** Beams of the analog beams *)
Notation sk := (nat * block * list block * list block)%type.
Definition sk_index (s : sk) : nat := fst (fst (fst s)).
Definition add_num_sk (i : nat) (blk : block) (l : list sk) : list sk :=
  imap (fun j s => if j =? i
    then let '(x, c, ns, ps) := s in (x, c, map (s_parent ck x) (ns ++ [blk]), map (s_parent ck x) ps) else s) l.
Definition add_pc_sk (i : nat) (blk : block) (l : list sk) : list sk :=
  imap (fun j s => if j =? i
    then let '(x, c, ns, ps) := s in (x, c, map (s_parent ck x) ns, map (s_parent ck x) (ps ++ [blk])) else s) l.
Lemma py_index_nat : forall n i, i < n -> py_index n (Z.of_nat i) = Ok i.
Proof.
  intros n i H. unfold py_index.
  replace (Z.of_nat i <? 0)%Z with false by (symmetry; apply Z.ltb_ge; lia).
  replace ((0 <=? Z.of_nat i) && (Z.of_nat i <? Z.of_nat n))%Z with true
    by (symmetry; apply andb_true_intro; split; [apply Z.leb_le|apply Z.ltb_lt]; lia).
  now rewrite Nat2Z.id.
Qed.
Lemma add_num_skel : forall u i kw, i < length (u_anabeams u) ->
  exists u', add_numerical_beam ck (Z.of_nat i) kw u = Ok u'
  /\ map skel (u_anabeams u') = add_num_sk i (modify_properties ck kw (new_block beam_options)) (map skel (u_anabeams u))
  /\ u_observation u' = u_observation u /\ u_output u' = u_output u.
Proof.
  intros u i kw H. unfold add_numerical_beam, attach.
  replace (Z.of_nat i >=? Z.of_nat (length (u_anabeams u)))%Z with false by (symmetry; rewrite Z.geb_leb; apply Z.leb_gt; lia).
  rewrite (py_index_nat _ _ H). cbn [bind]. eexists. split; [reflexivity|]. split; [|split; reflexivity].
  cbn [with_anas u_anabeams]. rewrite number_nums_skel, imap_map. unfold add_num_sk.
  apply list_ext_error. intro j. rewrite !nth_error_imap, nth_error_map. destruct (nth_error (u_anabeams u) j) as [a|]; [|reflexivity].
  cbn [option_map]. destruct (j =? i); [|reflexivity]. f_equal. rewrite skel_propagate. unfold skel. cbn [a_index a_conf a_nums a_pcs].
  now rewrite map_app.
Qed.
Lemma add_pc_skel : forall u i kw, i < length (u_anabeams u) ->
  exists u', add_phase_center ck (Z.of_nat i) kw u = Ok u'
  /\ map skel (u_anabeams u') = add_pc_sk i (modify_properties ck kw (new_block phasecenter_options)) (map skel (u_anabeams u))
  /\ u_observation u' = u_observation u /\ u_output u' = u_output u.
Proof.
  intros u i kw H. unfold add_phase_center, attach.
  replace (Z.of_nat i >=? Z.of_nat (length (u_anabeams u)))%Z with false by (symmetry; rewrite Z.geb_leb; apply Z.leb_gt; lia).
  rewrite (py_index_nat _ _ H). cbn [bind]. eexists. split; [reflexivity|]. split; [|split; reflexivity].
  cbn [with_anas u_anabeams]. rewrite number_pcs_skel, imap_map. unfold add_pc_sk.
  apply list_ext_error. intro j. rewrite !nth_error_imap, nth_error_map. destruct (nth_error (u_anabeams u) j) as [a|]; [|reflexivity].
  cbn [option_map]. destruct (j =? i); [|reflexivity]. f_equal. rewrite skel_propagate. unfold skel. cbn [a_index a_conf a_nums a_pcs].
  now rewrite map_app.
Qed.
(** Blocks under an analog beam whose number they carry. *)
Definition settled (i : nat) (b : block) : Prop := s_parent ck i b = b.
Definition all_settled (s : sk) : Prop :=
  let '(i, _, ns, ps) := s in Forall (settled i) ns /\ Forall (settled i) ps.
Lemma settled_map : forall i l, Forall (settled i) l -> map (s_parent ck i) l = l.
Proof. induction 1 as [|b r H F IH]; cbn; [reflexivity|]. now rewrite H, IH. Qed.
Definition mine {A} (i : nat) (l : list (nat * A)) : list A := map snd (filter (fun x => fst x =? i) l).

Lemma load_nums : forall (bs : list (nat * (Z * property ck))) u L,
  map skel (u_anabeams u) = L -> map sk_index L = seq 0 (length L) -> Forall all_settled L ->
  (forall k x, In (k, x) bs -> k < length L /\ parent_index ck (snd x) = Ok (Z.of_nat k)
     /\ settled k (modify_properties ck (copy_fields ck (snd x) beam_options) (new_block beam_options))) ->
  exists u', load_beams ck (add_numerical_beam ck) beam_options (map snd bs) u = Ok u'
  /\ map skel (u_anabeams u') = imap (fun i s => let '(x, c, ns, ps) := s in
       (x, c, ns ++ mine i (map (fun kx => (fst kx, modify_properties ck (copy_fields ck (snd (snd kx)) beam_options) (new_block beam_options))) bs), ps)) L
  /\ u_observation u' = u_observation u /\ u_output u' = u_output u.
Proof.
  induction bs as [|[k x] r IH]; intros u L HL Hi Hs Hb.
  - exists u. split; [reflexivity|]. split; [|split; reflexivity]. rewrite HL. apply list_ext_error. intro j.
    rewrite nth_error_imap. destruct (nth_error L j) as [[[[a c] ns] ps]|]; cbn; [|reflexivity]. unfold mine. cbn. now rewrite app_nil_r.
  - destruct (Hb k x (or_introl eq_refl)) as [H1 [H2 H3]].
    set (blk := modify_properties ck (copy_fields ck (snd x) beam_options) (new_block beam_options)) in *.
    assert (LU : length (u_anabeams u) = length L) by (rewrite <- HL; now rewrite map_length).
    destruct (add_num_skel u k (copy_fields ck (snd x) beam_options)) as [u1 [E1 [E2 [E3 E4]]]]; [lia|].
    fold blk in E2. rewrite HL in E2.
    assert (IX : forall j s, nth_error L j = Some s -> sk_index s = j).
    { intros j s E. assert (F : nth_error (map sk_index L) j = Some (sk_index s)) by now rewrite nth_error_map, E.
      rewrite Hi in F. assert (j < length L) by (apply nth_error_Some; congruence).
      rewrite (nth_error_nth' _ 0) in F by now rewrite seq_length. rewrite seq_nth in F by assumption. injection F as <-. reflexivity. }
    assert (A : add_num_sk k blk L = imap (fun j s => let '(y, c, ns, ps) := s in (y, c, ns ++ mine j [(k, blk)], ps)) L).
    { unfold add_num_sk. apply list_ext_error. intro j. rewrite !nth_error_imap. destruct (nth_error L j) as [[[[y c] ns] ps]|] eqn:E; [|reflexivity].
      cbn [option_map]. unfold mine. cbn [filter fst]. rewrite (Nat.eqb_sym k j). destruct (j =? k) eqn:J; cbn [map snd].
      - apply Nat.eqb_eq in J. pose proof (IX _ _ E) as Y. cbn in Y. subst y j.
        rewrite Forall_forall in Hs. destruct (Hs _ (nth_error_In _ _ E)) as [S1 S2].
        rewrite map_app, (settled_map _ _ S1), (settled_map _ _ S2). cbn [map]. now rewrite H3.
      - now rewrite app_nil_r. }
    rewrite A in E2.
    set (L1 := imap (fun j s => let '(y, c, ns, ps) := s in (y, c, ns ++ mine j [(k, blk)], ps)) L) in *.
    assert (LL : length L1 = length L) by (unfold L1; apply imap_length).
    destruct (IH u1 L1 E2) as [u2 [F1 [F2 [F3 F4]]]].
    + rewrite LL, <- Hi. unfold L1. rewrite imap_map. apply list_ext_error. intro j.
      rewrite nth_error_imap, nth_error_map. destruct (nth_error L j) as [[[[y c] ns] ps]|]; reflexivity.
    + apply Forall_forall. intros s Hin. apply In_nth_error in Hin. destruct Hin as [j Hj]. unfold L1 in Hj. rewrite nth_error_imap in Hj.
      destruct (nth_error L j) as [[[[y c] ns] ps]|] eqn:E; [|discriminate]. cbn in Hj. injection Hj as <-.
      rewrite Forall_forall in Hs. destruct (Hs _ (nth_error_In _ _ E)) as [S1 S2]. pose proof (IX _ _ E) as Y. cbn in Y. subst y.
      split; [|exact S2]. apply Forall_app. split; [exact S1|]. unfold mine. cbn [filter fst].
      destruct (k =? j) eqn:J; [|constructor]. apply Nat.eqb_eq in J. subst j. cbn. constructor; [exact H3|constructor].
    + intros k' x' Hx'. rewrite LL. apply Hb. now right.
    + exists u2. cbn [map snd load_beams]. destruct x as [z p]. cbn [snd] in *. rewrite H2. cbn [bind]. rewrite E1. cbn [bind].
      split; [exact F1|]. split; [|split; congruence]. rewrite F2. unfold L1. apply list_ext_error. intro j. rewrite !nth_error_imap.
      destruct (nth_error L j) as [[[[y c] ns] ps]|]; cbn [option_map]; [|reflexivity]. unfold mine. cbn [map fst snd filter].
      fold blk. destruct (k =? j); cbn [map snd filter]; [now rewrite <- app_assoc|now rewrite app_nil_r].
Qed.
Lemma load_pcs : forall (bs : list (nat * (Z * property ck))) u L,
  map skel (u_anabeams u) = L -> map sk_index L = seq 0 (length L) -> Forall all_settled L ->
  (forall k x, In (k, x) bs -> k < length L /\ parent_index ck (snd x) = Ok (Z.of_nat k)
     /\ settled k (modify_properties ck (copy_fields ck (snd x) phasecenter_options) (new_block phasecenter_options))) ->
  exists u', load_beams ck (add_phase_center ck) phasecenter_options (map snd bs) u = Ok u'
  /\ map skel (u_anabeams u') = imap (fun i s => let '(x, c, ns, ps) := s in
       (x, c, ns, ps ++ mine i (map (fun kx => (fst kx, modify_properties ck (copy_fields ck (snd (snd kx)) phasecenter_options) (new_block phasecenter_options))) bs))) L
  /\ u_observation u' = u_observation u /\ u_output u' = u_output u.
Proof.
  induction bs as [|[k x] r IH]; intros u L HL Hi Hs Hb.
  - exists u. split; [reflexivity|]. split; [|split; reflexivity]. rewrite HL. apply list_ext_error. intro j.
    rewrite nth_error_imap. destruct (nth_error L j) as [[[[a c] ns] ps]|]; cbn; [|reflexivity]. unfold mine. cbn. now rewrite app_nil_r.
  - destruct (Hb k x (or_introl eq_refl)) as [H1 [H2 H3]].
    set (blk := modify_properties ck (copy_fields ck (snd x) phasecenter_options) (new_block phasecenter_options)) in *.
    assert (LU : length (u_anabeams u) = length L) by (rewrite <- HL; now rewrite map_length).
    destruct (add_pc_skel u k (copy_fields ck (snd x) phasecenter_options)) as [u1 [E1 [E2 [E3 E4]]]]; [lia|].
    fold blk in E2. rewrite HL in E2.
    assert (IX : forall j s, nth_error L j = Some s -> sk_index s = j).
    { intros j s E. assert (F : nth_error (map sk_index L) j = Some (sk_index s)) by now rewrite nth_error_map, E.
      rewrite Hi in F. assert (j < length L) by (apply nth_error_Some; congruence).
      rewrite (nth_error_nth' _ 0) in F by now rewrite seq_length. rewrite seq_nth in F by assumption. injection F as <-. reflexivity. }
    assert (A : add_pc_sk k blk L = imap (fun j s => let '(y, c, ns, ps) := s in (y, c, ns, ps ++ mine j [(k, blk)])) L).
    { unfold add_pc_sk. apply list_ext_error. intro j. rewrite !nth_error_imap. destruct (nth_error L j) as [[[[y c] ns] ps]|] eqn:E; [|reflexivity].
      cbn [option_map]. unfold mine. cbn [filter fst]. rewrite (Nat.eqb_sym k j). destruct (j =? k) eqn:J; cbn [map snd].
      - apply Nat.eqb_eq in J. pose proof (IX _ _ E) as Y. cbn in Y. subst y j.
        rewrite Forall_forall in Hs. destruct (Hs _ (nth_error_In _ _ E)) as [S1 S2].
        rewrite map_app, (settled_map _ _ S1), (settled_map _ _ S2). cbn [map]. now rewrite H3.
      - now rewrite app_nil_r. }
    rewrite A in E2.
    set (L1 := imap (fun j s => let '(y, c, ns, ps) := s in (y, c, ns, ps ++ mine j [(k, blk)])) L) in *.
    assert (LL : length L1 = length L) by (unfold L1; apply imap_length).
    destruct (IH u1 L1 E2) as [u2 [F1 [F2 [F3 F4]]]].
    + rewrite LL, <- Hi. unfold L1. rewrite imap_map. apply list_ext_error. intro j.
      rewrite nth_error_imap, nth_error_map. destruct (nth_error L j) as [[[[y c] ns] ps]|]; reflexivity.
    + apply Forall_forall. intros s Hin. apply In_nth_error in Hin. destruct Hin as [j Hj]. unfold L1 in Hj. rewrite nth_error_imap in Hj.
      destruct (nth_error L j) as [[[[y c] ns] ps]|] eqn:E; [|discriminate]. cbn in Hj. injection Hj as <-.
      rewrite Forall_forall in Hs. destruct (Hs _ (nth_error_In _ _ E)) as [S1 S2]. pose proof (IX _ _ E) as Y. cbn in Y. subst y.
      split; [exact S1|]. apply Forall_app. split; [exact S2|]. unfold mine. cbn [filter fst].
      destruct (k =? j) eqn:J; [|constructor]. apply Nat.eqb_eq in J. subst j. cbn. constructor; [exact H3|constructor].
    + intros k' x' Hx'. rewrite LL. apply Hb. now right.
    + exists u2. cbn [map snd load_beams]. destruct x as [z p]. cbn [snd] in *. rewrite H2. cbn [bind]. rewrite E1. cbn [bind].
      split; [exact F1|]. split; [|split; congruence]. rewrite F2. unfold L1. apply list_ext_error. intro j. rewrite !nth_error_imap.
      destruct (nth_error L j) as [[[[y c] ns] ps]|]; cbn [option_map]; [|reflexivity]. unfold mine. cbn [map fst snd filter].
      fold blk. destruct (k =? j); cbn [map snd filter]; [now rewrite <- app_assoc|now rewrite app_nil_r].
Qed.

(** ** The number of the analog beam *)
Lemma read_count : forall key n, (0 <= n)%Z -> has_sub "angle" (lower key) = false -> has_sub "duration" (lower key) = false ->
  read_value ck key (show_int n) = Ok (PInt ck n).
Proof.
  intros key n Hn Ha Hd. unfold read_value. destruct (show_nonneg n) as [D V]; [lia|].
  rewrite tidy_clean by apply show_int_tidy. cbv zeta. rewrite (starts_digit _ D). cbn [andb].
  now rewrite (digits_not_word _ "true" D eq_refl), (digits_not_word _ "false" D eq_refl), Ha, Hd, D, V.
Qed.
Lemma field_key : forall b key e, field b key = Some e -> e_key e = key /\ In e b.
Proof.
  intros b key e H. unfold field in H. apply find_some in H. destruct H as [H1 H2]. apply String.eqb_eq in H2. now split.
Qed.
Lemma field_pairs : forall b key e, field b key = Some e -> written e = true ->
  dict_get String.eqb key (pairs ck b) = Some (parsed ck e).
Proof.
  unfold field, pairs. induction b as [|x r IH]; intros key e H W; cbn in H; [discriminate|].
  destruct (String.eqb (e_key x) key) eqn:E.
  - injection H as ->. cbn [filter]. rewrite W. cbn [map dict_get]. rewrite String.eqb_sym, E. reflexivity.
  - cbn [filter]. destruct (written x); cbn [map dict_get]; [|now apply IH].
    rewrite String.eqb_sym, E. now apply IH.
Qed.
Lemma parent_entry : forall o b i, block_ok o b -> parent b = Some (SInt (Z.of_nat i)) ->
  exists e, field b "noBeam" = Some e /\ In e b /\ e_key e = "noBeam"%string /\ e_value e = SInt (Z.of_nat i)
  /\ e_modified e = true /\ parsed ck e = PInt ck (Z.of_nat i).
Proof.
  intros o b i Hb Hp. unfold parent in Hp. destruct (field b "noBeam") as [e|] eqn:E; [|discriminate].
  cbn in Hp. injection Hp as Hv. destruct (field_key _ _ _ E) as [Hk Hi]. exists e. repeat split; try assumption.
  - destruct (e_modified e) eqn:M; [reflexivity|]. exfalso.
    clear - Hb Hi Hv M. induction Hb as [|oe x o b [_ [_ [_ F]]] Hb IH]; [destruct Hi|].
    destruct Hi as [->|Hi]; [|now apply IH]. rewrite (F M) in Hv. discriminate.
  - unfold parsed. rewrite Hk, Hv. cbn [show_sval]. rewrite read_count by (lia || reflexivity). reflexivity.
Qed.
Lemma parent_read : forall o label b i v, block_ok o b -> String.eqb "noBeam" label = false ->
  parent b = Some (SInt (Z.of_nat i)) -> parent_index ck ((label, v) :: pairs ck b) = Ok (Z.of_nat i).
Proof.
  intros o label b i v Hb Hl Hp. destruct (parent_entry o b i Hb Hp) as [e [E [_ [_ [_ [M P]]]]]].
  unfold parent_index. cbn [dict_get]. rewrite Hl.
  rewrite (field_pairs b _ e E) by (unfold written; now rewrite M). now rewrite P.
Qed.
Lemma reread_key : forall e, e_key (reread e) = e_key e.
Proof. intro e. unfold reread. now destruct (written e). Qed.
Lemma nodup_same : forall (b : block) e e', NoDup (map e_key b) -> In e b -> In e' b -> e_key e' = e_key e -> e' = e.
Proof.
  induction b as [|x r IH]; intros e e' N H H' E; [destruct H|]. cbn in N. apply NoDup_cons_iff in N. destruct N as [N1 N2].
  destruct H as [->|H], H' as [->|H']; [reflexivity| | |now apply (IH e e')].
  - exfalso. apply N1. rewrite <- E. now apply in_map.
  - exfalso. apply N1. rewrite E. now apply in_map.
Qed.
Lemma reread_settled : forall o b i, block_ok o b -> NoDup (map o_key o) -> parent b = Some (SInt (Z.of_nat i)) ->
  settled i (map reread b).
Proof.
  intros o b i Hb Hd Hp. destruct (parent_entry o b i Hb Hp) as [e [E [Hi [K [V [M P]]]]]].
  rewrite <- (block_keys _ _ Hb) in Hd. unfold settled, s_parent. rewrite modify_map, map_map. apply map_ext_in. intros e' He'.
  unfold apply_kw. cbn [fold_left fst snd]. rewrite reread_key.
  destruct (String.eqb (e_key e') "noBeam") eqn:B; [|reflexivity]. apply String.eqb_eq in B.
  assert (e' = e) as -> by (apply (nodup_same b); congruence). unfold reread, written. rewrite M. cbn [orb e_key e_required e_syntax].
  now rewrite P.
Qed.

(** ** The whole object *)
Definition reread_ana (a : anabeam) : sk :=
  (a_index a, map reread (a_conf a), map (fun b => map reread (b_conf b)) (a_nums a),
   map (fun b => map reread (b_conf b)) (a_pcs a)).
Definition tag {A B} (f : A -> B) (sel : anabeam -> list A) (l : list anabeam) : list (nat * B) :=
  flat_map (fun a => map (fun b => (a_index a, f b)) (sel a)) l.
Lemma tag_snd : forall A B (f : A -> B) sel l, map snd (tag f sel l) = map f (flat_map sel l).
Proof.
  intros A B f sel l. unfold tag. induction l as [|a r IH]; cbn; [reflexivity|].
  rewrite !map_app, IH, map_map. reflexivity.
Qed.
Lemma mine_app : forall A i (l l' : list (nat * A)), mine i (l ++ l') = mine i l ++ mine i l'.
Proof. intros. unfold mine. now rewrite filter_app, map_app. Qed.
Lemma mine_tag : forall A B (f : A -> B) sel l k, map a_index l = seq k (length l) ->
  forall i a, nth_error l i = Some a -> mine (k + i) (tag f sel l) = map f (sel a).
Proof.
  assert (O : forall A B (f : A -> B) sel l k i, map a_index l = seq k (length l) -> i < k -> mine i (tag f sel l) = []).
  { intros A B f sel. induction l as [|a r IH]; intros k i H Hi; [reflexivity|]. cbn in H. injection H as H1 H2.
    unfold tag. cbn [flat_map]. rewrite mine_app. fold (tag f sel r). rewrite (IH (S k) i H2) by lia. rewrite app_nil_r.
    unfold mine. rewrite H1. clear - Hi. induction (sel a) as [|b s IHs]; cbn; [reflexivity|].
    replace (k =? i) with false by (symmetry; apply Nat.eqb_neq; lia). exact IHs. }
  intros A B f sel. induction l as [|a r IH]; intros k H i x E; [now destruct i|]. cbn in H. injection H as H1 H2.
  unfold tag. cbn [flat_map]. rewrite mine_app. fold (tag f sel r). destruct i as [|i]; cbn in E.
  - injection E as <-. rewrite (O A B f sel r (S k) (k + 0) H2) by lia. rewrite app_nil_r. unfold mine. rewrite H1.
    replace (k + 0) with k by lia. induction (sel a) as [|b s IHs]; cbn; [reflexivity|]. rewrite Nat.eqb_refl. cbn. now rewrite IHs.
  - replace (k + S i) with (S k + i) by lia. rewrite (IH (S k) H2 i x E).
    replace (mine (S k + i) (map (fun b => (a_index a, f b)) (sel a))) with (@nil B); [reflexivity|]. unfold mine. rewrite H1.
    clear. induction (sel a) as [|b s IHs]; cbn; [reflexivity|].
    replace (k =? S (k + i)) with false by (symmetry; apply Nat.eqb_neq; lia). exact IHs.
Qed.
Lemma tag_map : forall A B C (f : A -> B) (g : B -> C) sel l,
  map (fun kx => (fst kx, g (snd kx))) (tag f sel l) = tag (fun b => g (f b)) sel l.
Proof.
  intros. unfold tag. induction l as [|a r IH]; cbn; [reflexivity|]. now rewrite map_app, IH, map_map.
Qed.
Lemma tag_ext : forall A B (f g : A -> B) sel l, (forall a b, In a l -> In b (sel a) -> f b = g b) -> tag f sel l = tag g sel l.
Proof.
  intros A B f g sel l H. unfold tag. induction l as [|a r IH]; cbn; [reflexivity|].
  rewrite IH by (intros; eapply H; [right|]; eassumption). f_equal. apply map_ext_in. intros b Hb. f_equal. eapply H; [left; reflexivity|exact Hb].
Qed.
Lemma in_tag : forall A B (f : A -> B) sel l k x, In (k, x) (tag f sel l) -> exists a b, In a l /\ In b (sel a) /\ k = a_index a /\ x = f b.
Proof.
  intros A B f sel l k x H. apply in_flat_map in H. destruct H as [a [Ha H]]. apply in_map_iff in H. destruct H as [b [E Hb]].
  injection E as <- <-. exists a, b. repeat split; assumption.
Qed.

Lemma fold_ana_fields : forall L u0,
  let u := fold_left (fun u (b : Z * property ck) => add_analog_beam ck (copy_fields ck (snd b) anabeam_options) u) L u0 in
  u_observation u = u_observation u0 /\ u_output u = u_output u0.
Proof.
  induction L as [|x r IH]; intros u0; cbn [fold_left]; [split; reflexivity|].
  destruct (IH (add_analog_beam ck (copy_fields ck (snd x) anabeam_options) u0)) as [H1 H2]. split; assumption.
Qed.

Theorem load_file : forall u, user_ok u -> parents_ok u ->
  exists v, load_from_parset ck (file_of ck u) = Ok v
  /\ u_observation v = map reread (u_observation u) /\ u_output v = map reread (u_output u)
  /\ map skel (u_anabeams v) = map reread_ana (u_anabeams u).
Proof.
  intros u [B1 [B2 [[B3 B4] _]]] HP.
  set (l := u_anabeams u) in *. rewrite Forall_map, Forall_forall in B4.
  assert (AI : forall i a, nth_error l i = Some a -> a_index a = i).
  { intros i a E. assert (F : nth_error (map a_index l) i = Some (a_index a)) by now rewrite nth_error_map, E.
    rewrite B3 in F. assert (i < length l) by (apply nth_error_Some; congruence).
    rewrite (nth_error_nth' _ 0) in F by now rewrite seq_length. rewrite seq_nth in F by assumption. injection F as <-. reflexivity. }
  assert (PN : forall a b, In a l -> In b (a_nums a ++ a_pcs a) -> parent (b_conf b) = Some (SInt (Z.of_nat (a_index a)))).
  { intros a b Ha Hb. apply In_nth_error in Ha. destruct Ha as [i E]. rewrite (AI i a E). exact (HP i a b E Hb). }
  assert (BN : forall a b, In a l -> In b (a_nums a) -> block_ok beam_options (b_conf b)).
  { intros a b Ha Hb. destruct (B4 a Ha) as [_ [H _]]. rewrite Forall_map, Forall_forall in H. now apply H. }
  assert (BC : forall a b, In a l -> In b (a_pcs a) -> block_ok phasecenter_options (b_conf b)).
  { intros a b Ha Hb. destruct (B4 a Ha) as [_ [_ H]]. rewrite Forall_map, Forall_forall in H. now apply H. }
  assert (IL : forall a, In a l -> a_index a < length l).
  { intros a Ha. apply In_nth_error in Ha. destruct Ha as [i E]. rewrite (AI i a E). apply nth_error_Some. congruence. }
  unfold load_from_parset. cbn [file_of p_observation p_output p_anabeams p_digibeams p_centers]. fold l.
  set (u0 := set_observation_config ck _ (new_user)).
  set (u1 := fold_left _ (map _ l) u0).
  assert (E1 : u_anabeams u1 = map (fun a => mkAna (a_index a) (map reread (a_conf a)) [] []) l).
  { unfold u1. rewrite <- (map_map (fun a => (a_index a, a_conf a)) (fun x => beam_entry ck "anaIdx" (fst x) (snd x))).
    rewrite load_anas by reflexivity. apply list_ext_error. intro j. rewrite nth_error_imap, !nth_error_map.
    destruct (nth_error l j) as [a|] eqn:E; [|reflexivity]. cbn [option_map fst snd beam_entry].
    rewrite (copy_beam anabeam_options "anaIdx" _ (a_conf a) ana_fine); [now rewrite (AI j a E)|].
    apply (B4 a). eapply nth_error_In; eauto. }
  destruct (fold_ana_fields (map (fun a => beam_entry ck "anaIdx" (a_index a) (a_conf a)) l) u0) as [O1 O2]. fold u1 in O1, O2.
  assert (S1 : map skel (u_anabeams u1) = map (fun a => (a_index a, map reread (a_conf a), @nil block, @nil block)) l).
  { rewrite E1, map_map. reflexivity. }
  assert (X1 : forall (f : anabeam -> sk), (forall a, sk_index (f a) = a_index a) -> map sk_index (map f l) = seq 0 (length (map f l))).
  { intros f Hf. rewrite map_map, map_length, <- B3. now apply map_ext. }
  (* numerical beams *)
  set (T := tag (fun b => beam_entry ck "digiIdx" (b_index b) (b_conf b)) a_nums l).
  destruct (load_nums T u1 _ S1) as [u2 [F1 [F2 [F3 F4]]]].
  { apply X1. reflexivity. }
  { apply Forall_forall. intros s Hs. apply in_map_iff in Hs. destruct Hs as [a [<- _]]. split; constructor. }
  { intros k x Hx. apply in_tag in Hx. destruct Hx as [a [b [Ha [Hb [-> ->]]]]]. rewrite map_length. split; [now apply IL|].
    cbn [beam_entry snd]. pose proof (PN a b Ha (in_or_app _ _ _ (or_introl Hb))) as P0. split.
    - eapply parent_read; [exact (BN a b Ha Hb)|reflexivity|exact P0].
    - rewrite (copy_beam beam_options "digiIdx" _ _ num_fine (BN a b Ha Hb)).
      apply (reread_settled beam_options); [exact (BN a b Ha Hb)| |exact P0]. pose proof num_fine as [N _]. now inversion N. }
  unfold T in F1. rewrite tag_snd in F1. fold (nums u) in F1. unfold nums in F1. fold l in F1.
  unfold nums. fold l. rewrite F1. cbn [bind].
  assert (S2 : map skel (u_anabeams u2) = map (fun a => (a_index a, map reread (a_conf a), map (fun b => map reread (b_conf b)) (a_nums a), @nil block)) l).
  { rewrite F2. unfold T. rewrite (tag_map _ _ _ _ (fun x => modify_properties ck (copy_fields ck (snd x) beam_options) (new_block beam_options))).
    rewrite (tag_ext _ _ _ (fun b => map reread (b_conf b))).
    2: { intros a b Ha Hb. cbn [beam_entry snd]. apply (copy_beam beam_options "digiIdx" _ _ num_fine (BN a b Ha Hb)). }
    apply list_ext_error. intro j. rewrite nth_error_imap, !nth_error_map.
    destruct (nth_error l j) as [a|] eqn:E; [|reflexivity]. cbn [option_map app].
    now rewrite (mine_tag _ _ _ a_nums l 0 B3 j a E). }
  (* phase centers *)
  set (T' := tag (fun b => beam_entry ck "pcIdx" (b_index b) (b_conf b)) a_pcs l).
  destruct (load_pcs T' u2 _ S2) as [u3 [G1 [G2 [G3 G4]]]].
  { apply X1. reflexivity. }
  { apply Forall_forall. intros s Hs. apply in_map_iff in Hs. destruct Hs as [a [<- Ha]]. split; [|constructor].
    apply Forall_map, Forall_forall. intros b Hb. pose proof (PN a b Ha (in_or_app _ _ _ (or_introl Hb))) as P0.
    apply (reread_settled beam_options); [exact (BN a b Ha Hb)| |exact P0]. pose proof num_fine as [N _]. now inversion N. }
  { intros k x Hx. apply in_tag in Hx. destruct Hx as [a [b [Ha [Hb [-> ->]]]]]. rewrite map_length. split; [now apply IL|].
    cbn [beam_entry snd]. pose proof (PN a b Ha (in_or_app _ _ _ (or_intror Hb))) as P0. split.
    - eapply parent_read; [exact (BC a b Ha Hb)|reflexivity|exact P0].
    - rewrite (copy_beam phasecenter_options "pcIdx" _ _ pc_fine (BC a b Ha Hb)).
      apply (reread_settled phasecenter_options); [exact (BC a b Ha Hb)| |exact P0]. pose proof pc_fine as [N _]. now inversion N. }
  unfold T' in G1. rewrite tag_snd in G1. unfold centers. fold l. rewrite G1. cbn [bind].
  eexists. split; [reflexivity|]. cbn [set_output_config u_observation u_output u_anabeams]. split; [|split].
  - rewrite G3, F3, O1. unfold u0, set_observation_config. cbn [u_observation new_user].
    apply copy_block; [exact B1|]. pose proof obs_fine as [N _]. now inversion N.
  - rewrite G4, F4, O2. unfold u0, set_observation_config. cbn [u_output new_user].
    apply copy_block; [exact B2|exact out_distinct].
  - rewrite G2. unfold T'. rewrite (tag_map _ _ _ _ (fun x => modify_properties ck (copy_fields ck (snd x) phasecenter_options) (new_block phasecenter_options))).
    rewrite (tag_ext _ _ _ (fun b => map reread (b_conf b))).
    2: { intros a b Ha Hb. cbn [beam_entry snd]. apply (copy_beam phasecenter_options "pcIdx" _ _ pc_fine (BC a b Ha Hb)). }
    apply list_ext_error. intro j. rewrite nth_error_imap, !nth_error_map.
    destruct (nth_error l j) as [a|] eqn:E; [|reflexivity]. cbn [option_map app].
    rewrite (mine_tag _ _ _ a_pcs l 0 B3 j a E). reflexivity.
Qed.

End WithClock.
