(** A user parset loaded, written and loaded again. *)
From Coq Require Import Ascii String List Arith ZArith QArith Bool Lia Sorted.
From Verif Require Import Base M_Polar M_Dedisperse M_Pipeline M_PText M_POptions M_Parset P_PText P_PValue P_Parset P_Parset2 P_Parset3 P_PFile P_PLoad.
Import ListNotations.
Open Scope nat_scope.

Section WithClock.
Variable ck : clock.

(** ** A load is a sequence of operations *)
Lemma load_beams_history : forall (add : Z -> list (string * uval ck) -> puser -> res puser)
    (mk : Z -> list (string * uval ck) -> uop ck) o,
  (forall k kw u, step ck u (mk k kw) = keep u (add k kw u)) -> (forall k kw, removes_ana ck (mk k kw) = false) ->
  (forall k kw, sets_parent ck (mk k kw) = false) ->
  forall l u u', load_beams ck add o l u = Ok u' ->
  exists ops, u' = fold_left (step ck) ops u
  /\ (forall x, In x ops -> removes_ana ck x = false /\ sets_parent ck x = false).
Proof.
  intros add mk o Hs Hr Hp. induction l as [|[z p] r IH]; intros u u' H; cbn [load_beams] in H.
  - injection H as <-. exists []. split; [reflexivity|intros x []].
  - destruct (parent_index ck p) as [k|]; [|discriminate]. cbn [bind] in H.
    destruct (add k (copy_fields ck p o) u) as [u1|] eqn:E; [|discriminate]. cbn [bind] in H.
    destruct (IH u1 u' H) as [ops [-> Ho]]. exists (mk k (copy_fields ck p o) :: ops). split.
    + cbn [fold_left]. now rewrite Hs, E.
    + intros x [<-|Hx]; [split; [apply Hr|apply Hp]|now apply Ho].
Qed.
Lemma fold_anas : forall (l : list (Z * property ck)) w,
  fold_left (fun u b => add_analog_beam ck (copy_fields ck (snd b) anabeam_options) u) l w
  = fold_left (step ck) (map (fun b => AddAna ck (copy_fields ck (snd b) anabeam_options)) l) w.
Proof. induction l as [|x r IH]; intro w; cbn [map fold_left]; [reflexivity|]. apply IH. Qed.
Theorem load_history : forall p v, load_from_parset ck p = Ok v ->
  exists ops, v = history ck ops /\ (forall x, In x ops -> removes_ana ck x = false /\ sets_parent ck x = false).
Proof.
  intros p v H. unfold load_from_parset in H.
  set (u1 := fold_left _ (p_anabeams ck p) _) in H.
  destruct (load_beams ck (add_numerical_beam ck) beam_options (p_digibeams ck p) u1) as [u2|] eqn:E2; [|discriminate]. cbn [bind] in H.
  destruct (load_beams ck (add_phase_center ck) phasecenter_options (p_centers ck p) u2) as [u3|] eqn:E3; [|discriminate]. cbn [bind] in H.
  injection H as <-.
  destruct (load_beams_history (add_numerical_beam ck) (AddNum ck) beam_options (fun _ _ _ => eq_refl) (fun _ _ => eq_refl) (fun _ _ => eq_refl) _ _ _ E2) as [o2 [H2 R2]].
  destruct (load_beams_history (add_phase_center ck) (AddPc ck) phasecenter_options (fun _ _ _ => eq_refl) (fun _ _ => eq_refl) (fun _ _ => eq_refl) _ _ _ E3) as [o3 [H3 R3]].
  set (o1 := SetObs ck (copy_fields ck (p_observation ck p) observation_options)
             :: map (fun b => AddAna ck (copy_fields ck (snd b) anabeam_options)) (p_anabeams ck p)).
  exists (o1 ++ o2 ++ o3 ++ [SetOut ck (copy_fields ck (p_output ck p) output_options)]).
  assert (H1 : u1 = history ck o1).
  { unfold u1, history, o1. cbn [fold_left step]. apply fold_anas. }
  split.
  - unfold history in *. rewrite !fold_left_app. rewrite <- H1, <- H2, <- H3. reflexivity.
  - intros x Hx. apply in_app_or in Hx. destruct Hx as [[<-|Hx]|Hx].
    + split; reflexivity.
    + apply in_map_iff in Hx. destruct Hx as [b [<- _]]. split; reflexivity.
    + apply in_app_or in Hx. destruct Hx as [Hx|Hx]; [now apply R2|]. apply in_app_or in Hx.
      destruct Hx as [Hx|[<-|[]]]; [now apply R3|split; reflexivity].
Qed.

(** ** What a load makes of a user parset *)
Definition load_text (s : string) : res puser := bind (decode ck s) (load_from_parset ck).
(** The same beams under the same parents, each field written being as it is read. *)
Definition rereads (u v : puser) : Prop :=
  u_observation v = map (reread ck) (u_observation u) /\ u_output v = map (reread ck) (u_output u)
  /\ map a_conf (u_anabeams v) = map (fun a => map (reread ck) (a_conf a)) (u_anabeams u)
  /\ map (fun a => map b_conf (a_nums a)) (u_anabeams v)
     = map (fun a => map (fun b => map (reread ck) (b_conf b)) (a_nums a)) (u_anabeams u)
  /\ map (fun a => map b_conf (a_pcs a)) (u_anabeams v)
     = map (fun a => map (fun b => map (reread ck) (b_conf b)) (a_pcs a)) (u_anabeams u).
Lemma rereads_of : forall u v,
  u_observation v = map (reread ck) (u_observation u) -> u_output v = map (reread ck) (u_output u) ->
  map skel (u_anabeams v) = map (reread_ana ck) (u_anabeams u) -> rereads u v.
Proof.
  intros u v H1 H2 H3. split; [exact H1|]. split; [exact H2|].
  assert (G : forall B (f : nat * block * list block * list block -> B),
    map (fun a => f (skel a)) (u_anabeams v) = map (fun a => f (reread_ana ck a)) (u_anabeams u)).
  { intros B f. rewrite <- (map_map skel f), <- (map_map (reread_ana ck) f). now rewrite H3. }
  split; [|split].
  - exact (G _ (fun s => snd (fst (fst s)))).
  - exact (G _ (fun s => snd (fst s))).
  - exact (G _ snd).
Qed.
Definition numbered (v : puser) : Prop :=
  counted (map a_index (u_anabeams v)) /\ counted (map b_index (nums v)) /\ counted (map b_index (centers v)) /\ parents_ok v.
Lemma load_numbered : forall p v, load_from_parset ck p = Ok v -> numbered v /\ user_ok v.
Proof.
  intros p v H. destruct (load_history p v H) as [ops [-> Ho]].
  destruct (numbering ck ops) as [N1 [N2 _]]. split; [|apply history_ok]. split; [exact N1|]. split; [exact N2|]. split.
  - apply centers_counted. intros o Hx. now apply Ho.
  - apply parents. intros o Hx. now apply Ho.
Qed.
Lemma text_parents : forall ops, (forall o, In o ops -> sets_parent ck o = false) ->
  parents_ok (fst (to_text ck (history ck ops))).
Proof.
  intros ops H. rewrite to_text_history. apply parents. intros o Ho. apply in_app_or in Ho.
  destruct Ho as [Ho|[<-|[]]]; [now apply H|reflexivity].
Qed.
Theorem written_loads : forall ops,
  let u := fst (to_text ck (history ck ops)) in
  (forall o, In o ops -> sets_parent ck o = false) -> readable ck u ->
  exists v, load_text (snd (to_text ck (history ck ops))) = Ok v /\ rereads u v /\ numbered v.
Proof.
  intros ops u Hp Hr. unfold load_text. rewrite (file_reads_back ck ops Hr). cbn [bind]. fold u.
  destruct (load_file ck u) as [v [E [H1 [H2 H3]]]].
  - unfold u. rewrite to_text_history. apply history_ok.
  - now apply text_parents.
  - exists v. split; [exact E|]. split; [now apply rereads_of|]. now apply (load_numbered _ _ E).
Qed.

(** ** A second load *)
Definition block_kept (b : block) : Prop := forall e, In e b -> written e = true -> kept ck (parsed ck e).
Definition all_kept (u : puser) : Prop :=
  block_kept (u_observation u) /\ block_kept (u_output u)
  /\ (forall a, In a (u_anabeams u) -> block_kept (a_conf a))
  /\ (forall b, In b (nums u) \/ In b (centers u) -> block_kept (b_conf b)).

(** No field of a user parset is an angle. *)
Definition no_angle (b : block) : Prop := forall e, In e b -> has_sub "angle" (lower (e_key e)) = false.
Definition anglefree (o : list option_entry) : bool := forallb (fun oe => negb (has_sub "angle" (lower (o_key oe)))) o.
Lemma options_anglefree : anglefree observation_options = true /\ anglefree output_options = true
  /\ anglefree anabeam_options = true /\ anglefree beam_options = true /\ anglefree phasecenter_options = true.
Proof. vm_compute. repeat split. Qed.
Lemma block_no_angle : forall o b, anglefree o = true -> block_ok o b -> no_angle b.
Proof.
  intros o b Ho Hb e He. unfold anglefree in Ho. rewrite forallb_forall in Ho.
  assert (K : In (e_key e) (map o_key o)) by (rewrite <- (block_keys _ _ Hb); now apply in_map).
  apply in_map_iff in K. destruct K as [oe [<- Hoe]]. specialize (Ho oe Hoe). now apply negb_true_iff in Ho.
Qed.
Lemma written_reread : forall e, written (reread ck e) = written e.
Proof. intro e. unfold reread. destruct (written e) eqn:W; [reflexivity|exact W]. Qed.
Lemma parsed_ok : forall e, entry_fine ck e -> read_value ck (e_key e) (show_sval (e_value e)) = Ok (parsed ck e).
Proof. intros e [_ [v E]]. unfold parsed. now rewrite E. Qed.
Lemma parsed_reread : forall e, entry_fine ck e -> kept ck (parsed ck e) -> has_sub "angle" (lower (e_key e)) = false ->
  parsed ck (reread ck e) = parsed ck e.
Proof.
  intros e Hf Hk Ha. pose proof (value_again ck _ _ _ (parsed_ok e Hf) Ha Hk) as V.
  unfold reread. destruct (written e) eqn:W; [|reflexivity]. unfold parsed at 1. cbn [e_key e_value]. now rewrite V.
Qed.
Lemma reread_twice : forall e, (written e = true -> entry_fine ck e /\ kept ck (parsed ck e)) ->
  has_sub "angle" (lower (e_key e)) = false -> reread ck (reread ck e) = reread ck e.
Proof.
  intros e H Ha. destruct (written e) eqn:W.
  - destruct (H eq_refl) as [Hf Hk]. pose proof (parsed_reread e Hf Hk Ha) as P.
    unfold reread at 1. rewrite written_reread, W, P. unfold reread. rewrite W. reflexivity.
  - unfold reread. rewrite W. now rewrite W.
Qed.
(** The text of a value read holds no newline. *)
Lemma value_text_tidy : forall key text v, read_value ck key text = Ok v -> has_sub "angle" (lower key) = false -> kept ck v ->
  tidy (show_sval (store ck (uval_of ck v))).
Proof.
  intros key text v H Ha Hk. unfold read_value in H.
  set (s := drop_char quote (drop_char newline text)) in *. pose proof (clean_tidy text) as Ts. fold s in Ts.
  cbv zeta in H. destruct (starts_with "[" s && ends_with "]" s) eqn:L.
  - destruct (read_items ck (split_char "," (inner s))) as [l|] eqn:R; [|discriminate]. cbn in H. injection H as <-.
    destruct Hk as [Hn Hk]. cbn [uval_of store show_sval]. pose proof (read_items_source ck _ _ R) as Hs.
    assert (G : Forall (fun x => tidy (show_item ck x)) l).
    { rewrite Forall_forall in *. intros x Hx. destruct (Hs x Hx) as [t [Ht Hi]].
      apply (read_item_again ck t x (Hk x Hx) Hi).
      - pose proof (split_char_without "," (inner s)) as F. rewrite Forall_forall in F. now apply F.
      - split.
        + pose proof (split_char_keeps newline "," (inner s) (inner_keeps _ _ (proj1 Ts))) as F. rewrite Forall_forall in F. now apply F.
        + pose proof (split_char_keeps quote "," (inner s) (inner_keeps _ _ (proj2 Ts))) as F. rewrite Forall_forall in F. now apply F. }
    apply (tidy_app "["); [split; reflexivity|]. apply tidy_app; [|split; reflexivity]. apply tidy_join. now apply Forall_map.
  - destruct (String.eqb (lower s) "true"); [injection H as <-; split; reflexivity|].
    destruct (String.eqb (lower s) "false"); [injection H as <-; split; reflexivity|].
    rewrite Ha in H. destruct (has_sub "duration" (lower key)).
    + injection H as <-. cbn [uval_of store show_sval]. apply tidy_app; [|split; reflexivity].
      destruct (ends_with "s" s); [split; apply rstrip_keeps; apply Ts|exact Ts].
    + destruct (isdigit s); [injection H as <-; apply show_int_tidy|].
      destruct (has_char ":" s).
      * destruct (read_time ck (strip s)); injection H as <-; [apply Hk|exact Ts].
      * injection H as <-. cbn [uval_of store show_sval]. destruct Ts as [T1 T2]. unfold tidy, without in *.
        now rewrite !has_char_lower by reflexivity.
Qed.
Lemma reread_fine : forall b, no_angle b -> block_fine ck b -> block_kept b -> block_fine ck (map (reread ck) b) /\ block_kept (map (reread ck) b).
Proof.
  intros b Ha Hf Hk.
  assert (G : forall e, In e b -> written e = true -> entry_fine ck (reread ck e) /\ kept ck (parsed ck (reread ck e))).
  { intros e He W. pose proof (Hf e He W) as F. pose proof (Hk e He W) as K. pose proof (Ha e He) as A.
    rewrite (parsed_reread e F K A). split; [|exact K]. pose proof (parsed_ok e F) as P.
    unfold reread. rewrite W. unfold entry_fine. cbn [e_key e_value]. split.
    - exact (proj1 (value_text_tidy _ _ _ P A K)).
    - exists (parsed ck e). exact (value_again ck _ _ _ P A K). }
  split; intros e' He' W'; apply in_map_iff in He'; destruct He' as [e [<- He]]; rewrite written_reread in W'; now apply G.
Qed.
Lemma reread_block_twice : forall b, no_angle b -> block_fine ck b -> block_kept b ->
  map (reread ck) (map (reread ck) b) = map (reread ck) b.
Proof.
  intros b Ha Hf Hk. rewrite map_map. apply map_ext_in. intros e He. apply reread_twice; [|now apply Ha].
  intro W. split; [now apply Hf|now apply Hk].
Qed.

(** *** The counts of beams *)
Definition count_kw (u : puser) : list (string * uval ck) :=
  let l := u_anabeams u in
  [("nrAnabeams"%string, UStr ck (show_int (Z.of_nat (length l))));
   ("nrBeams"%string, UStr ck (show_int (Z.of_nat (sum_list (map (fun a => length (a_nums a)) l)))));
   ("nrPhaseCenters"%string, UStr ck (show_int (Z.of_nat (sum_list (map (fun a => length (a_pcs a)) l)))))].
Lemma update_kw : forall u, update_beam_numbers ck u = mkUser (modify_properties ck (count_kw u) (u_observation u)) (u_output u) (u_anabeams u).
Proof. reflexivity. Qed.
Lemma counts_of : forall u v, map (fun a => map b_conf (a_nums a)) (u_anabeams v) = map (fun a => map (fun b => map (reread ck) (b_conf b)) (a_nums a)) (u_anabeams u) ->
  map (fun a => map b_conf (a_pcs a)) (u_anabeams v) = map (fun a => map (fun b => map (reread ck) (b_conf b)) (a_pcs a)) (u_anabeams u) ->
  count_kw v = count_kw u.
Proof.
  intros u v H1 H2. unfold count_kw.
  assert (L : length (u_anabeams v) = length (u_anabeams u)).
  { rewrite <- (map_length (fun a => map b_conf (a_nums a)) (u_anabeams v)), H1. now rewrite map_length. }
  assert (N : map (fun a => length (a_nums a)) (u_anabeams v) = map (fun a => length (a_nums a)) (u_anabeams u)).
  { assert (E := f_equal (map (@length block)) H1). rewrite !map_map in E.
    erewrite map_ext in E; [|intro a; apply map_length]. rewrite E. apply map_ext. intro a. apply map_length. }
  assert (P : map (fun a => length (a_pcs a)) (u_anabeams v) = map (fun a => length (a_pcs a)) (u_anabeams u)).
  { assert (E := f_equal (map (@length block)) H2). rewrite !map_map in E.
    erewrite map_ext in E; [|intro a; apply map_length]. rewrite E. apply map_ext. intro a. apply map_length. }
  now rewrite L, N, P.
Qed.
Lemma count_keys : forall u, NoDup (map fst (count_kw u)).
Proof. intro u. cbn. repeat constructor; cbn; intuition discriminate. Qed.
(** A count written is read, kept as an integer and written again as it was. *)
Lemma count_again : forall u e, apply_kw ck (count_kw u) (reread ck (apply_kw ck (count_kw u) e))
  = if existsb (fun kv => String.eqb (fst kv) (e_key e)) (count_kw u) then apply_kw ck (count_kw u) e else reread ck e.
Proof.
  intros u e. destruct (existsb (fun kv => String.eqb (fst kv) (e_key e)) (count_kw u)) eqn:E.
  - apply existsb_exists in E. destruct E as [[k v] [Hi Hk]]. apply String.eqb_eq in Hk. cbn in Hk. subst k.
    rewrite (apply_once ck _ e v (count_keys u) Hi).
    set (x := mkEntry (e_key e) (e_required e) (store ck v) true (e_syntax e)).
    rewrite (apply_once ck _ (reread ck x) v (count_keys u)) by (rewrite reread_key; exact Hi).
    reflexivity.
  - assert (N : forall x, e_key x = e_key e -> apply_kw ck (count_kw u) x = x).
    { intros x Hx. apply apply_other. rewrite Hx. intro F. apply in_map_iff in F. destruct F as [[k v] [Ek F]]. cbn in Ek. subst k.
      assert (T : existsb (fun kv => String.eqb (fst kv) (e_key e)) (count_kw u) = true); [|congruence].
      apply existsb_exists. exists (e_key e, v). split; [exact F|apply String.eqb_refl]. }
    rewrite (N e eq_refl). apply N. apply reread_key.
Qed.
Lemma count_fine : forall u b, no_angle b -> block_fine ck b -> block_kept b ->
  block_fine ck (map (apply_kw ck (count_kw u)) b) /\ block_kept (map (apply_kw ck (count_kw u)) b).
Proof.
  intros u b Ha Hf Hk.
  assert (G : forall e, In e b -> written (apply_kw ck (count_kw u) e) = true ->
    entry_fine ck (apply_kw ck (count_kw u) e) /\ kept ck (parsed ck (apply_kw ck (count_kw u) e))).
  { intros e He. destruct (existsb (fun kv => String.eqb (fst kv) (e_key e)) (count_kw u)) eqn:E.
    - apply existsb_exists in E. destruct E as [[k v] [Hi Hkk]]. apply String.eqb_eq in Hkk. cbn in Hkk. subst k.
      rewrite (apply_once ck _ e v (count_keys u) Hi). intros _.
      assert (V : exists n, (0 <= n)%Z /\ v = UStr ck (show_int n) /\ has_sub "angle" (lower (e_key e)) = false /\ has_sub "duration" (lower (e_key e)) = false).
      { destruct Hi as [E|[E|[E|[]]]]; injection E as E1 E2; rewrite <- E1; eexists; (split; [|split; [symmetry; exact E2|split; reflexivity]]); lia. }
      destruct V as [n [Hn [-> [A1 A2]]]]. pose proof (read_count ck (e_key e) n Hn A1 A2) as R.
      unfold entry_fine, parsed. cbn [store show_sval e_key e_value]. rewrite R. split; [|exact Logic.I].
      split; [apply show_int_tidy|]. now exists (PInt ck n).
    - rewrite apply_other; [|intro F; apply in_map_iff in F; destruct F as [[k v] [Ek F]]; cbn in Ek; subst k;
        assert (T : existsb (fun kv => String.eqb (fst kv) (e_key e)) (count_kw u) = true); [|congruence];
        apply existsb_exists; exists (e_key e, v); split; [exact F|apply String.eqb_refl]].
      intro W. split; [now apply Hf|now apply Hk]. }
  split; intros e' He' W; apply in_map_iff in He'; destruct He' as [e [<- He]]; now apply G.
Qed.

(** *** Equal objects *)
Lemma anas_equal : forall l l', map skel l = map skel l' ->
  map b_index (flat_map a_nums l) = map b_index (flat_map a_nums l') ->
  map b_index (flat_map a_pcs l) = map b_index (flat_map a_pcs l') -> l = l'.
Proof.
  assert (B : forall (x y : list beam), map b_conf x = map b_conf y -> map b_index x = map b_index y -> x = y).
  { induction x as [|b r IH]; intros [|c s] H1 H2; try discriminate; [reflexivity|]. cbn in *. injection H1 as H1 H1'. injection H2 as H2 H2'.
    f_equal; [destruct b, c; cbn in *; congruence|now apply IH]. }
  assert (C : forall A (x y x' y' : list A), length x = length x' -> x ++ y = x' ++ y' -> x = x' /\ y = y').
  { induction x as [|a r IH]; intros y [|a' r'] y' HL H; try discriminate; [split; [reflexivity|exact H]|].
    cbn in *. injection H as -> H. destruct (IH y r' y') as [-> ->]; [lia|exact H|]. split; reflexivity. }
  induction l as [|a r IH]; intros [|a' r'] H1 H2 H3; try discriminate; [reflexivity|].
  cbn [map flat_map] in *. injection H1 as E1 E2 E3 E4 ER. rewrite !map_app in *.
  assert (N : length (map b_index (a_nums a)) = length (map b_index (a_nums a'))).
  { rewrite !map_length. rewrite <- (map_length b_conf (a_nums a)), E3. now rewrite map_length. }
  assert (P : length (map b_index (a_pcs a)) = length (map b_index (a_pcs a'))).
  { rewrite !map_length. rewrite <- (map_length b_conf (a_pcs a)), E4. now rewrite map_length. }
  destruct (C _ _ _ _ _ N H2) as [N1 N2]. destruct (C _ _ _ _ _ P H3) as [P1 P2].
  f_equal; [|now apply IH]. destruct a, a'. cbn in *. f_equal; [exact E1|exact E2|now apply B|now apply B].
Qed.

(** The text written after a load is written again after every further load. *)
Lemma load_again : forall u, user_ok u -> parents_ok u -> readable ck u -> all_kept u ->
  forall v, load_from_parset ck (file_of ck u) = Ok v -> u = update_beam_numbers ck u ->
  let w := fst (to_text ck v) in
  user_ok w /\ parents_ok w /\ readable ck w /\ all_kept w
  /\ exists v', load_text (snd (to_text ck v)) = Ok v' /\ to_text ck v' = to_text ck v.
Proof.
  intros u HO HPa HR HK v Ev Hu w.
  destruct (load_file ck u HO HPa) as [v0 [E0 [L1 [L2 L3]]]]. rewrite Ev in E0. injection E0 as <-.
  destruct (load_history _ _ Ev) as [ops [Hv Hops]].
  assert (OW : user_ok w) by (unfold w; rewrite Hv, to_text_history; apply history_ok).
  assert (PW : parents_ok w) by (unfold w; rewrite Hv; apply text_parents; intros o Ho; now apply Hops).
  destruct (rereads_of u v L1 L2 L3) as [_ [_ [L4 [L5 L6]]]].
  pose proof (counts_of u v L5 L6) as CK.
  destruct HO as [B1 [B2 [[B3 B4] [B5 B6]]]]. destruct HR as [R1 [R2 [R3 R4]]]. destruct HK as [K1 [K2 [K3 K4]]].
  destruct options_anglefree as [A1 [A2 [A3 [A4 A5]]]].
  pose proof (block_no_angle _ _ A1 B1) as NA1. pose proof (block_no_angle _ _ A2 B2) as NA2.
  rewrite Forall_map, Forall_forall in B4.
  assert (NA3 : forall a, In a (u_anabeams u) -> no_angle (a_conf a)).
  { intros a Ha. apply (block_no_angle anabeam_options); [exact A3|]. now destruct (B4 a Ha). }
  assert (NA4 : forall a b, In a (u_anabeams u) -> In b (a_nums a) -> no_angle (b_conf b)).
  { intros a b Ha Hb. apply (block_no_angle beam_options); [exact A4|]. destruct (B4 a Ha) as [_ [H _]].
    rewrite Forall_map, Forall_forall in H. now apply H. }
  assert (NA5 : forall a b, In a (u_anabeams u) -> In b (a_pcs a) -> no_angle (b_conf b)).
  { intros a b Ha Hb. apply (block_no_angle phasecenter_options); [exact A5|]. destruct (B4 a Ha) as [_ [_ H]].
    rewrite Forall_map, Forall_forall in H. now apply H. }
  assert (IN : forall a b, In a (u_anabeams u) -> In b (a_nums a) -> In b (nums u)).
  { intros a b Ha Hb. apply in_flat_map. exists a. now split. }
  assert (IC : forall a b, In a (u_anabeams u) -> In b (a_pcs a) -> In b (centers u)).
  { intros a b Ha Hb. apply in_flat_map. exists a. now split. }
  assert (W1 : w = mkUser (map (apply_kw ck (count_kw u)) (map (reread ck) (u_observation u))) (map (reread ck) (u_output u)) (u_anabeams v)).
  { unfold w, to_text. cbn [fst]. rewrite update_kw, CK, L1, L2, modify_map. reflexivity. }
  assert (OU : map (apply_kw ck (count_kw u)) (u_observation u) = u_observation u).
  { assert (E := f_equal u_observation Hu). rewrite update_kw in E. cbn [u_observation] in E. rewrite modify_map in E. now symmetry. }
  assert (AV : forall a', In a' (u_anabeams v) -> exists a, In a (u_anabeams u) /\ skel a' = reread_ana ck a).
  { intros a' Ha'. assert (F : In (skel a') (map (reread_ana ck) (u_anabeams u))) by (rewrite <- L3; now apply in_map).
    apply in_map_iff in F. destruct F as [a [E Ha]]. exists a. now split. }
  assert (FB : forall b, In b (nums v) \/ In b (centers v) -> block_fine ck (b_conf b) /\ block_kept (b_conf b)).
  { intros b [Hb|Hb]; apply in_flat_map in Hb; destruct Hb as [a' [Ha' Hb]]; destruct (AV a' Ha') as [a [Ha E]];
      unfold skel, reread_ana in E; injection E as _ _ E3 E4.
    - assert (F : In (b_conf b) (map (fun b => map (reread ck) (b_conf b)) (a_nums a))) by (rewrite <- E3; now apply in_map).
      apply in_map_iff in F. destruct F as [b0 [<- Hb0]]. pose proof (IN a b0 Ha Hb0) as I0.
      apply reread_fine; [exact (NA4 a b0 Ha Hb0)|apply R4; now left|apply K4; now left].
    - assert (F : In (b_conf b) (map (fun b => map (reread ck) (b_conf b)) (a_pcs a))) by (rewrite <- E4; now apply in_map).
      apply in_map_iff in F. destruct F as [b0 [<- Hb0]]. pose proof (IC a b0 Ha Hb0) as I0.
      apply reread_fine; [exact (NA5 a b0 Ha Hb0)|apply R4; now right|apply K4; now right]. }
  assert (FA : forall a', In a' (u_anabeams v) -> block_fine ck (a_conf a') /\ block_kept (a_conf a')).
  { intros a' Ha'. destruct (AV a' Ha') as [a [Ha E]]. unfold skel, reread_ana in E. injection E as _ E2 _ _. rewrite E2.
    apply reread_fine; [now apply NA3|now apply R3|now apply K3]. }
  assert (NR : no_angle (map (reread ck) (u_observation u))).
  { intros e He. apply in_map_iff in He. destruct He as [e0 [<- He0]]. rewrite reread_key. now apply NA1. }
  destruct (reread_fine _ NA1 R1 K1) as [F1 F1']. destruct (count_fine u _ NR F1 F1') as [G1 G1'].
  destruct (reread_fine _ NA2 R2 K2) as [F2 F2'].
  assert (RW : readable ck w).
  { rewrite W1. split; [exact G1|]. split; [exact F2|]. split; [intros a Ha; now apply FA|intros b Hb; now apply FB]. }
  assert (KW : all_kept w).
  { rewrite W1. split; [exact G1'|]. split; [exact F2'|]. split; [intros a Ha; now apply FA|intros b Hb; now apply FB]. }
  split; [exact OW|]. split; [exact PW|]. split; [exact RW|]. split; [exact KW|].
  destruct (load_file ck w OW PW) as [v' [E' [M1 [M2 M3]]]].
  exists v'. split.
  - assert (D : decode ck (snd (to_text ck v)) = Ok (file_of ck w)) by exact (decode_ok ck w OW RW).
    unfold load_text. rewrite D. exact E'.
  - pose proof (load_numbered _ _ Ev) as [[_ [NV [CV _]]] _]. pose proof (load_numbered _ _ E') as [[_ [NV' [CV' _]]] _].
    assert (AE : u_anabeams v' = u_anabeams v).
    { assert (SE : map skel (u_anabeams v') = map skel (u_anabeams v)).
      { rewrite M3, W1. cbn [u_anabeams]. apply map_ext_in. intros a' Ha'. destruct (AV a' Ha') as [a [Ha E]].
        unfold skel, reread_ana in *. injection E as E1 E2 E3 E4. rewrite E1, E2.
        rewrite (reread_block_twice _ (NA3 a Ha) (R3 a Ha) (K3 a Ha)).
        rewrite <- (map_map b_conf (map (reread ck)) (a_nums a')), <- (map_map b_conf (map (reread ck)) (a_pcs a')), E3, E4, !map_map.
        f_equal; [f_equal|].
        - apply map_ext_in. intros b Hb. apply reread_block_twice; [exact (NA4 a b Ha Hb)|apply R4; left; eauto|apply K4; left; eauto].
        - apply map_ext_in. intros b Hb. apply reread_block_twice; [exact (NA5 a b Ha Hb)|apply R4; right; eauto|apply K4; right; eauto]. }
      apply anas_equal; [exact SE| |].
      - fold (nums v') (nums v). red in NV, NV'. rewrite NV, NV', !map_length. f_equal.
        apply flat_map_len. rewrite !map_skel_len_nums. now rewrite SE.
      - fold (centers v') (centers v). red in CV, CV'. rewrite CV, CV', !map_length. f_equal.
        apply flat_map_len. rewrite !map_skel_len_pcs. now rewrite SE. }
    assert (UE : update_beam_numbers ck v' = update_beam_numbers ck v).
    { assert (CV2 : count_kw v' = count_kw u) by (rewrite <- CK; unfold count_kw; now rewrite AE).
      rewrite !update_kw, CV2, CK, AE, M1, M2, W1, L1, L2. cbn [u_observation u_output]. f_equal.
      - rewrite !modify_map, !map_map. apply map_ext_in. intros e He. rewrite count_again, reread_key.
        destruct (existsb (fun kv => String.eqb (fst kv) (e_key e)) (count_kw u)) eqn:E; [reflexivity|].
        rewrite reread_twice; [|intro W; split; [now apply R1|now apply K1]|now apply NA1].
        symmetry. apply apply_other. rewrite reread_key. intro F. apply in_map_iff in F. destruct F as [[k x] [Ek F]]. cbn in Ek. subst k.
        assert (T : existsb (fun kv => String.eqb (fst kv) (e_key e)) (count_kw u) = true); [|congruence].
        apply existsb_exists. exists (e_key e, x). split; [exact F|apply String.eqb_refl].
      - apply reread_block_twice; assumption. }
    unfold to_text. now rewrite UE.
Qed.
(** Loading what was written, over and over. *)
Fixpoint reload (n : nat) (s : string) : res string :=
  match n with
  | 0 => Ok s
  | S m => bind (load_text s) (fun v => reload m (snd (to_text ck v)))
  end.
Lemma update_twice : forall u, update_beam_numbers ck u = update_beam_numbers ck (update_beam_numbers ck u).
Proof.
  intro u. rewrite !update_kw. change (count_kw (mkUser (modify_properties ck (count_kw u) (u_observation u)) (u_output u) (u_anabeams u))) with (count_kw u).
  cbn [u_observation u_output u_anabeams]. f_equal. rewrite !modify_map, map_map. apply map_ext. intro e.
  destruct (existsb (fun kv => String.eqb (fst kv) (e_key e)) (count_kw u)) eqn:E.
  - apply existsb_exists in E. destruct E as [[k v] [Hi Hk]]. apply String.eqb_eq in Hk. cbn in Hk. subst k.
    rewrite (apply_once ck _ e v (count_keys u) Hi). symmetry.
    rewrite (apply_once ck (count_kw u) (mkEntry (e_key e) (e_required e) (store ck v) true (e_syntax e)) v (count_keys u)); [reflexivity|exact Hi].
  - rewrite (apply_other ck _ (apply_kw ck (count_kw u) e)); [reflexivity|]. rewrite apply_key. intro F. apply in_map_iff in F.
    destruct F as [[k x] [Ek F]]. cbn in Ek. subst k.
    assert (T : existsb (fun kv => String.eqb (fst kv) (e_key e)) (count_kw u) = true); [|congruence].
    apply existsb_exists. exists (e_key e, x). split; [exact F|apply String.eqb_refl].
Qed.
Theorem reload_stable : forall ops,
  let u := fst (to_text ck (history ck ops)) in
  (forall o, In o ops -> sets_parent ck o = false) -> readable ck u -> all_kept u ->
  exists s, reload 1 (snd (to_text ck (history ck ops))) = Ok s /\ forall n, reload n s = Ok s.
Proof.
  intros ops u Hp HR HK.
  assert (HO : user_ok u) by (unfold u; rewrite to_text_history; apply history_ok).
  assert (HPa : parents_ok u) by now apply text_parents.
  destruct (load_file ck u HO HPa) as [v [Ev _]].
  assert (Hu : u = update_beam_numbers ck u) by apply update_twice.
  assert (E : load_text (snd (to_text ck (history ck ops))) = Ok v).
  { unfold load_text. rewrite (file_reads_back ck ops HR). exact Ev. }
  exists (snd (to_text ck v)). split; [cbn [reload]; now rewrite E|].
  destruct (load_again u HO HPa HR HK v Ev Hu) as [_ [_ [_ [_ [v' [E' T']]]]]].
  induction n as [|n IH]; cbn [reload]; [reflexivity|]. rewrite E'. cbn [bind]. rewrite T'. exact IH.
Qed.
End WithClock.
