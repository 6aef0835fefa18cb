(** User parsets, continued: the numbering is kept by every operation; proofs of
    C51. *)
From Coq Require Import Ascii String List Arith ZArith QArith Bool Lia Sorted.
From Verif Require Import Base M_Polar M_Dedisperse M_Pipeline M_PText M_POptions M_Parset P_Parset.
Import ListNotations.
Open Scope nat_scope.

Lemma seq_sorted : forall n k, StronglySorted lt (seq k n).
Proof.
  induction n as [|n IH]; intro k; cbn; constructor; [apply IH|].
  apply Forall_forall. intros x Hx. apply in_seq in Hx. lia.
Qed.
Lemma sorted_drop : forall l1 l2 l3 : list nat,
  StronglySorted lt (l1 ++ l2 ++ l3) -> StronglySorted lt (l1 ++ l3).
Proof.
  induction l1 as [|x r IH]; intros l2 l3 H; cbn in *.
  - induction l2 as [|y t IH2]; [exact H|]. cbn in H. apply StronglySorted_inv in H. apply IH2. tauto.
  - apply StronglySorted_inv in H. destruct H as [H1 H2]. constructor; [eapply IH; eauto|].
    rewrite !Forall_app in H2. apply Forall_app. tauto.
Qed.
Lemma split_at : forall A i (l : list A) x, nth_error l i = Some x -> l = firstn i l ++ x :: skipn (S i) l.
Proof.
  induction i as [|i IH]; intros [|y l] x E; cbn in *; try discriminate.
  - now injection E as ->.
  - f_equal. now apply IH.
Qed.
Lemma nth_error_lt : forall A i (l : list A), i < length l -> exists x, nth_error l i = Some x.
Proof.
  intros A i l H. destruct (nth_error l i) eqn:E; [eauto|]. apply nth_error_None in E. lia.
Qed.

Section WithClock.
Variable ck : clock.

Lemma new_ana_ok : forall kw, skel_ok (skel (new_ana ck kw)).
Proof.
  intro kw. cbn. split; [apply modify_ok; apply new_block_ok|]. split; constructor.
Qed.
Lemma new_beam_ok : forall o kw, block_ok o (b_conf (new_beam ck o kw)).
Proof. intros o kw. cbn. apply modify_ok. apply new_block_ok. Qed.

Lemma replace_ok : forall pre a a' post,
  skels_ok (pre ++ a :: post) -> a_index a' = a_index a -> skel_ok (skel a') -> skels_ok (pre ++ a' :: post).
Proof.
  intros pre a a' post [H1 H2] Hi Hk. split.
  - rewrite map_app in *. cbn in *. rewrite Hi, H1. f_equal. rewrite !app_length. reflexivity.
  - rewrite map_app in *. cbn in *. apply Forall_app in H2. destruct H2 as [H2 H3].
    apply Forall_app. split; [exact H2|]. inversion H3. now constructor.
Qed.
Lemma replace_get : forall pre a post, skels_ok (pre ++ a :: post) -> skel_ok (skel a).
Proof.
  intros pre a post [_ H]. rewrite map_app in H. apply Forall_app in H. destruct H as [_ H]. now inversion H.
Qed.
Lemma change_at_index : forall kw i l, map b_index (change_at ck kw i l) = map b_index l.
Proof.
  intros kw i l. unfold change_at. rewrite imap_map. rewrite <- (imap_const _ _ b_index l).
  apply imap_ext. intros j b _. now destruct (j =? i).
Qed.
Lemma change_at_conf : forall kw i l,
  map b_conf (change_at ck kw i l) = imap (fun j b => if j =? i then modify_properties ck kw b else b) (map b_conf l).
Proof.
  intros kw i l. unfold change_at. rewrite imap_map. apply list_ext_error. intro j.
  rewrite !nth_error_imap, nth_error_map. destruct (nth_error l j); cbn; [|reflexivity]. now destruct (j =? i).
Qed.
Lemma Forall_imap : forall A B (P : B -> Prop) (f : nat -> A -> B) l,
  (forall i x, nth_error l i = Some x -> P (f i x)) -> Forall P (imap f l).
Proof.
  intros A B P f l H. apply Forall_forall. intros y Hy. apply In_nth_error in Hy. destruct Hy as [i Hi].
  rewrite nth_error_imap in Hi. destruct (nth_error l i) eqn:E; [|discriminate]. injection Hi as <-. eauto.
Qed.
Lemma change_at_ok : forall o kw i l, Forall (block_ok o) (map b_conf l) ->
  Forall (block_ok o) (map b_conf (change_at ck kw i l)).
Proof.
  intros o kw i l H. rewrite change_at_conf. apply Forall_imap. intros j b E.
  rewrite Forall_forall in H. pose proof (H b (nth_error_In _ _ E)) as Hb.
  destruct (j =? i); [now apply modify_ok|exact Hb].
Qed.
Lemma del_nth_Forall : forall A (P : A -> Prop) i l, Forall P l -> Forall P (del_nth i l).
Proof.
  intros A P i l H. unfold del_nth. rewrite Forall_forall in *. intros x Hx. apply H.
  apply in_app_or in Hx. destruct Hx as [Hx|Hx].
  - rewrite <- (firstn_skipn i l). apply in_or_app. now left.
  - rewrite <- (firstn_skipn (S i) l). apply in_or_app. now right.
Qed.
Lemma del_nth_map : forall A B (f : A -> B) i l, map f (del_nth i l) = del_nth i (map f l).
Proof. intros. unfold del_nth. now rewrite map_app, firstn_map, skipn_map. Qed.

(** *** Every operation keeps the invariant *)
Definition part_ok (l : list anabeam) : Prop :=
  skels_ok l /\ counted (map b_index (flat_map a_nums l)) /\ StronglySorted lt (map b_index (flat_map a_pcs l)).

Lemma add_ana_ok : forall kw l, part_ok l -> part_ok (number_anas ck (l ++ [new_ana ck kw])).
Proof.
  intros kw l [[H1 H2] [H3 H4]]. split; [|split].
  - apply number_anas_ok. rewrite map_app. apply Forall_app. split; [exact H2|].
    constructor; [apply new_ana_ok|constructor].
  - apply number_anas_nums.
  - rewrite number_anas_pcs, flat_map_app. cbn. now rewrite app_nil_r.
Qed.
Lemma rem_ana_ok : forall i l, i < length l -> part_ok l -> part_ok (number_anas ck (del_nth i l)).
Proof.
  intros i l Hi [[H1 H2] [H3 H4]]. split; [|split].
  - apply number_anas_ok. rewrite del_nth_map. now apply del_nth_Forall.
  - apply number_anas_nums.
  - rewrite number_anas_pcs. destruct (nth_error_lt _ _ _ Hi) as [a E].
    rewrite (split_at _ _ _ _ E) in H4. unfold del_nth.
    rewrite flat_map_app in *. cbn [flat_map] in H4. rewrite !map_app in *. eapply sorted_drop; eauto.
Qed.
Lemma part_by : forall l l', map skel l = map skel l' -> map b_index (flat_map a_nums l) = map b_index (flat_map a_nums l') ->
  map b_index (flat_map a_pcs l) = map b_index (flat_map a_pcs l') -> part_ok l' -> part_ok l.
Proof.
  intros l l' H1 H2 H3 [P1 [P2 P3]]. split; [|split].
  - eapply skels_ok_by; eauto.
  - now rewrite H2.
  - now rewrite H3.
Qed.
Lemma index_replace : forall (sel : anabeam -> list beam) pre a a' post,
  map b_index (sel a') = map b_index (sel a) ->
  map b_index (flat_map sel (pre ++ a' :: post)) = map b_index (flat_map sel (pre ++ a :: post)).
Proof. intros sel pre a a' post H. rewrite !flat_map_app. cbn. now rewrite !map_app, H. Qed.
Lemma propagate_nums : forall a, map b_index (a_nums (propagate ck a)) = map b_index (a_nums a).
Proof. intro a. cbn. rewrite map_map. now apply map_ext. Qed.
Lemma propagate_pcs : forall a, map b_index (a_pcs (propagate ck a)) = map b_index (a_pcs a).
Proof. intro a. cbn. rewrite map_map. now apply map_ext. Qed.
Lemma counted_number_nums : forall l, counted (map b_index (flat_map a_nums (number_nums 0 l))).
Proof. intro l. unfold counted. rewrite number_nums_index. now rewrite seq_length. Qed.
Lemma counted_number_pcs : forall l, counted (map b_index (flat_map a_pcs (number_pcs 0 l))).
Proof. intro l. unfold counted. rewrite number_pcs_index. now rewrite seq_length. Qed.

Lemma attach_inv : forall k f u l, attach ck k f u = Ok l ->
  exists pre a post, u_anabeams u = pre ++ a :: post /\ l = pre ++ propagate ck (f a) :: post
    /\ (k < Z.of_nat (length (u_anabeams u)))%Z /\ py_index (length (u_anabeams u)) k = Ok (length pre).
Proof.
  intros k f u l H. unfold attach in H.
  destruct (k >=? Z.of_nat (length (u_anabeams u)))%Z eqn:E; [discriminate|].
  destruct (py_index (length (u_anabeams u)) k) as [i|] eqn:P; [|discriminate]. cbn in H. injection H as <-.
  pose proof (py_index_lt _ _ _ P) as Hi.
  destruct (nth_error_lt _ _ _ Hi) as [a Ea].
  exists (firstn i (u_anabeams u)), a, (skipn (S i) (u_anabeams u)).
  split; [now apply split_at|]. split; [exact (imap_split _ (fun y => propagate ck (f y)) _ _ _ Ea)|].
  split; [lia|]. rewrite firstn_length. f_equal. lia.
Qed.

Lemma step_parts : forall u o, user_ok u -> user_ok (step ck u o).
Proof.
  intros u o [Ho [Hu [Hs [Hn Hc]]]].
  assert (HP : part_ok (u_anabeams u)) by (split; [exact Hs|split; assumption]).
  assert (W : forall l, part_ok l -> user_ok (with_anas u l)).
  { intros l [P1 [P2 P3]]. repeat (split; [assumption|]). assumption. }
  assert (Hid : user_ok u) by (repeat (split; [assumption|]); assumption).
  destruct o as [kw|k kw|k|k kw|k kw|k|k kw|k kw|k|kw|kw|]; cbn [step keep].
  - apply W. now apply add_ana_ok.
  - unfold modify_analog_beam. destruct (py_index _ k) as [i|] eqn:P; [|exact Hid]. cbn. apply W.
    destruct (nth_error_lt _ _ _ (py_index_lt _ _ _ P)) as [a Ea].
    rewrite (imap_split _ (fun a => mkAna (a_index a) (modify_properties ck kw (a_conf a)) (a_nums a) (a_pcs a)) _ _ _ Ea).
    rewrite (split_at _ _ _ _ Ea) in HP. destruct HP as [P1 [P2 P3]]. split; [|split].
    + eapply replace_ok; [exact P1|reflexivity|]. apply replace_get in P1. destruct P1 as [Q1 Q2].
      split; [now apply modify_ok|exact Q2].
    + erewrite index_replace; [exact P2|reflexivity].
    + erewrite index_replace; [exact P3|reflexivity].
  - unfold remove_analog_beam. destruct (py_index _ k) as [i|] eqn:P; [|exact Hid]. cbn. apply W.
    apply rem_ana_ok; [eapply py_index_lt; eauto|exact HP].
  - unfold add_numerical_beam. destruct (attach ck k _ u) as [l|] eqn:A; [|exact Hid]. cbn. apply W.
    apply attach_inv in A. destruct A as [pre [a [post [E [-> _]]]]]. rewrite E in HP.
    destruct HP as [P1 [P2 P3]]. split; [|split].
    + apply (skels_ok_by _ _ (number_nums_skel _ _)). eapply replace_ok; [exact P1|reflexivity|].
      apply skel_ok_propagate. apply replace_get in P1. destruct P1 as [Q1 [Q2 Q3]].
      split; [exact Q1|]. split; [|exact Q3]. cbn. rewrite map_app. apply Forall_app. split; [exact Q2|].
      constructor; [apply new_beam_ok|constructor].
    + apply counted_number_nums.
    + rewrite (flat_map_by _ _ a_pcs _ _ (number_nums_pcs _ _)).
      erewrite index_replace; [exact P3|]. now rewrite propagate_pcs.
  - unfold modify_numerical_beam. apply W.
    destruct (at_counter_spec a_nums put_nums (change_at ck kw) k (u_anabeams u) 0) as [[_ E]|[pre [a [post [i [E1 [Hi [Hk E2]]]]]]]].
    + rewrite E. exact HP.
    + rewrite E2. rewrite E1 in HP. destruct HP as [P1 [P2 P3]]. split; [|split].
      * eapply replace_ok; [exact P1|reflexivity|]. apply replace_get in P1. destruct P1 as [Q1 [Q2 Q3]].
        split; [exact Q1|]. split; [|exact Q3]. cbn. now apply change_at_ok.
      * erewrite index_replace; [exact P2|]. cbn. apply change_at_index.
      * erewrite index_replace; [exact P3|reflexivity].
  - unfold remove_numerical_beam. apply W.
    destruct (at_counter_spec a_nums put_nums (@del_nth beam) k (u_anabeams u) 0) as [[_ E]|[pre [a [post [i [E1 [Hi [Hk E2]]]]]]]].
    + rewrite E. destruct HP as [P1 [P2 P3]]. split; [|split].
      * now apply (skels_ok_by _ _ (number_nums_skel _ _)).
      * apply counted_number_nums.
      * now rewrite (flat_map_by _ _ a_pcs _ _ (number_nums_pcs _ _)).
    + rewrite E2. rewrite E1 in HP. destruct HP as [P1 [P2 P3]]. split; [|split].
      * apply (skels_ok_by _ _ (number_nums_skel _ _)). eapply replace_ok; [exact P1|reflexivity|].
        apply replace_get in P1. destruct P1 as [Q1 [Q2 Q3]]. split; [exact Q1|]. split; [|exact Q3].
        cbn. rewrite del_nth_map. now apply del_nth_Forall.
      * apply counted_number_nums.
      * rewrite (flat_map_by _ _ a_pcs _ _ (number_nums_pcs _ _)). erewrite index_replace; [exact P3|reflexivity].
  - unfold add_phase_center. destruct (attach ck k _ u) as [l|] eqn:A; [|exact Hid]. cbn. apply W.
    apply attach_inv in A. destruct A as [pre [a [post [E [-> _]]]]]. rewrite E in HP.
    destruct HP as [P1 [P2 P3]]. split; [|split].
    + apply (skels_ok_by _ _ (number_pcs_skel _ _)). eapply replace_ok; [exact P1|reflexivity|].
      apply skel_ok_propagate. apply replace_get in P1. destruct P1 as [Q1 [Q2 Q3]].
      split; [exact Q1|]. split; [exact Q2|]. cbn. rewrite map_app. apply Forall_app. split; [exact Q3|].
      constructor; [apply new_beam_ok|constructor].
    + rewrite (flat_map_by _ _ a_nums _ _ (number_pcs_nums _ _)).
      erewrite index_replace; [exact P2|]. now rewrite propagate_nums.
    + rewrite number_pcs_index. apply seq_sorted.
  - unfold modify_phase_center. apply W.
    destruct (at_counter_spec a_pcs put_pcs (change_at ck kw) k (u_anabeams u) 0) as [[_ E]|[pre [a [post [i [E1 [Hi [Hk E2]]]]]]]].
    + rewrite E. exact HP.
    + rewrite E2. rewrite E1 in HP. destruct HP as [P1 [P2 P3]]. split; [|split].
      * eapply replace_ok; [exact P1|reflexivity|]. apply replace_get in P1. destruct P1 as [Q1 [Q2 Q3]].
        split; [exact Q1|]. split; [exact Q2|]. cbn. now apply change_at_ok.
      * erewrite index_replace; [exact P2|reflexivity].
      * erewrite index_replace; [exact P3|]. cbn. apply change_at_index.
  - unfold remove_phase_center. apply W.
    destruct (at_counter_spec a_pcs put_pcs (@del_nth beam) k (u_anabeams u) 0) as [[_ E]|[pre [a [post [i [E1 [Hi [Hk E2]]]]]]]].
    + rewrite E. destruct HP as [P1 [P2 P3]]. split; [|split].
      * now apply (skels_ok_by _ _ (number_pcs_skel _ _)).
      * now rewrite (flat_map_by _ _ a_nums _ _ (number_pcs_nums _ _)).
      * rewrite number_pcs_index. apply seq_sorted.
    + rewrite E2. rewrite E1 in HP. destruct HP as [P1 [P2 P3]]. split; [|split].
      * apply (skels_ok_by _ _ (number_pcs_skel _ _)). eapply replace_ok; [exact P1|reflexivity|].
        apply replace_get in P1. destruct P1 as [Q1 [Q2 Q3]]. split; [exact Q1|]. split; [exact Q2|].
        cbn. rewrite del_nth_map. now apply del_nth_Forall.
      * rewrite (flat_map_by _ _ a_nums _ _ (number_pcs_nums _ _)). erewrite index_replace; [exact P2|reflexivity].
      * rewrite number_pcs_index. apply seq_sorted.
  - split; [now apply modify_ok|]. split; [exact Hu|]. split; [exact Hs|]. split; assumption.
  - split; [exact Ho|]. split; [now apply modify_ok|]. split; [exact Hs|]. split; assumption.
  - split; [unfold to_text, update_beam_numbers; cbn [fst u_observation]; repeat apply modify_ok; exact Ho|]. split; [exact Hu|]. split; [exact Hs|]. split; assumption.
Qed.
Lemma new_user_ok : user_ok new_user.
Proof.
  split; [apply new_block_ok|]. split; [apply new_block_ok|]. split; [split; [reflexivity|constructor]|].
  split; [reflexivity|constructor].
Qed.
Lemma history_snoc : forall ops o, history ck (ops ++ [o]) = step ck (history ck ops) o.
Proof. intros. unfold history. now rewrite fold_left_app. Qed.
Theorem history_ok : forall ops, user_ok (history ck ops).
Proof.
  intro ops. induction ops as [|o r IH] using rev_ind; [exact new_user_ok|].
  rewrite history_snoc. now apply step_parts.
Qed.

(** *** Beams carry the number of their analog beam *)
Definition kept_parent (b b' : block) : Prop := parent b' = parent b.
Lemma modify_parent : forall kw b, existsb (fun kv : string * uval ck => String.eqb (fst kv) "noBeam") kw = false ->
  parent (modify_properties ck kw b) = parent b.
Proof.
  intros kw b H. unfold parent. rewrite field_modify.
  replace (given kw "noBeam") with (@None (uval ck)); [reflexivity|].
  unfold given. destruct (find _ (rev kw)) as [p|] eqn:E; [|reflexivity]. exfalso.
  apply find_some in E. destruct E as [E1 E2]. apply in_rev in E1.
  assert (existsb (fun kv : string * uval ck => String.eqb (fst kv) "noBeam") kw = true)
    by (apply existsb_exists; eauto). congruence.
Qed.
Lemma parent_replace : forall pre a a' post,
  Forall skel_parent (map skel (pre ++ a :: post)) -> skel_parent (skel a') ->
  Forall skel_parent (map skel (pre ++ a' :: post)).
Proof.
  intros pre a a' post H1 H2. rewrite map_app in *. apply Forall_app in H1. destruct H1 as [H1 H3].
  apply Forall_app. split; [exact H1|]. cbn in *. inversion H3. now constructor.
Qed.
Lemma parent_get : forall pre a post, Forall skel_parent (map skel (pre ++ a :: post)) -> skel_parent (skel a).
Proof.
  intros pre a post H. rewrite map_app in H. apply Forall_app in H. destruct H as [_ H]. now inversion H.
Qed.
Lemma change_at_parent : forall i kw j l,
  existsb (fun kv : string * uval ck => String.eqb (fst kv) "noBeam") kw = false ->
  Forall (fun b => parent b = Some (SInt (Z.of_nat i))) (map b_conf l) ->
  Forall (fun b => parent b = Some (SInt (Z.of_nat i))) (map b_conf (change_at ck kw j l)).
Proof.
  intros i kw j l Hk H. rewrite change_at_conf. apply Forall_imap. intros n b E.
  rewrite Forall_forall in H. pose proof (H b (nth_error_In _ _ E)) as Hb.
  destruct (n =? j); [rewrite (modify_parent kw b Hk)|]; exact Hb.
Qed.

Lemma step_parents : forall u o, user_ok u -> sets_parent ck o = false ->
  Forall skel_parent (map skel (u_anabeams u)) -> Forall skel_parent (map skel (u_anabeams (step ck u o))).
Proof.
  intros u o [Ho [Hu [[Hi Hs] [Hn Hc]]]] Hp HF.
  assert (HS : skels_ok (u_anabeams u)) by (split; assumption).
  destruct o as [kw|k kw|k|k kw|k kw|k|k kw|k kw|k|kw|kw|]; cbn [step keep]; try exact HF.
  - cbn. apply number_anas_parent. rewrite map_app. apply Forall_app. split; [exact Hs|].
    constructor; [apply new_ana_ok|constructor].
  - unfold modify_analog_beam. destruct (py_index _ k) as [i|] eqn:P; [|exact HF]. cbn.
    destruct (nth_error_lt _ _ _ (py_index_lt _ _ _ P)) as [a Ea].
    rewrite (imap_split _ (fun a => mkAna (a_index a) (modify_properties ck kw (a_conf a)) (a_nums a) (a_pcs a)) _ _ _ Ea).
    rewrite (split_at _ _ _ _ Ea) in HF. eapply parent_replace; [exact HF|].
    exact (parent_get _ _ _ HF).
  - unfold remove_analog_beam. destruct (py_index _ k) as [i|] eqn:P; [|exact HF]. cbn.
    apply number_anas_parent. rewrite del_nth_map. now apply del_nth_Forall.
  - unfold add_numerical_beam. destruct (attach ck k _ u) as [l|] eqn:A; [|exact HF]. cbn.
    apply attach_inv in A. destruct A as [pre [a [post [E [-> _]]]]]. rewrite E in HF, HS.
    rewrite number_nums_skel. eapply parent_replace; [exact HF|]. apply skel_parent_propagate.
    apply replace_get in HS. destruct HS as [Q1 [Q2 Q3]].
    split; [exact Q1|]. split; [|exact Q3]. cbn. rewrite map_app. apply Forall_app. split; [exact Q2|].
    constructor; [apply new_beam_ok|constructor].
  - cbn in Hp. cbn [modify_numerical_beam with_anas u_anabeams].
    destruct (at_counter_spec a_nums put_nums (change_at ck kw) k (u_anabeams u) 0) as [[_ E]|[pre [a [post [i [E1 [_ [_ E2]]]]]]]].
    + rewrite E. exact HF.
    + rewrite E2. rewrite E1 in HF. eapply parent_replace; [exact HF|]. apply parent_get in HF.
      cbn in *. apply Forall_app in HF. apply Forall_app. split; [|tauto]. apply change_at_parent; tauto.
  - cbn. rewrite number_nums_skel.
    destruct (at_counter_spec a_nums put_nums (@del_nth beam) k (u_anabeams u) 0) as [[_ E]|[pre [a [post [i [E1 [_ [_ E2]]]]]]]].
    + rewrite E. exact HF.
    + rewrite E2. rewrite E1 in HF. eapply parent_replace; [exact HF|]. apply parent_get in HF.
      cbn in *. apply Forall_app in HF. apply Forall_app. split; [|tauto].
      rewrite del_nth_map. apply del_nth_Forall. tauto.
  - unfold add_phase_center. destruct (attach ck k _ u) as [l|] eqn:A; [|exact HF]. cbn.
    apply attach_inv in A. destruct A as [pre [a [post [E [-> _]]]]]. rewrite E in HF, HS.
    rewrite number_pcs_skel. eapply parent_replace; [exact HF|]. apply skel_parent_propagate.
    apply replace_get in HS. destruct HS as [Q1 [Q2 Q3]].
    split; [exact Q1|]. split; [exact Q2|]. cbn. rewrite map_app. apply Forall_app. split; [exact Q3|].
    constructor; [apply new_beam_ok|constructor].
  - cbn in Hp. cbn [modify_phase_center with_anas u_anabeams].
    destruct (at_counter_spec a_pcs put_pcs (change_at ck kw) k (u_anabeams u) 0) as [[_ E]|[pre [a [post [i [E1 [_ [_ E2]]]]]]]].
    + rewrite E. exact HF.
    + rewrite E2. rewrite E1 in HF. eapply parent_replace; [exact HF|]. apply parent_get in HF.
      cbn in *. apply Forall_app in HF. apply Forall_app. split; [tauto|]. apply change_at_parent; tauto.
  - cbn. rewrite number_pcs_skel.
    destruct (at_counter_spec a_pcs put_pcs (@del_nth beam) k (u_anabeams u) 0) as [[_ E]|[pre [a [post [i [E1 [_ [_ E2]]]]]]]].
    + rewrite E. exact HF.
    + rewrite E2. rewrite E1 in HF. eapply parent_replace; [exact HF|]. apply parent_get in HF.
      cbn in *. apply Forall_app in HF. apply Forall_app. split; [tauto|].
      rewrite del_nth_map. apply del_nth_Forall. tauto.
Qed.

Lemma history_parents : forall ops, (forall o, In o ops -> sets_parent ck o = false) ->
  Forall skel_parent (map skel (u_anabeams (history ck ops))).
Proof.
  intro ops. induction ops as [|o r IH] using rev_ind; intro H; [constructor|].
  rewrite history_snoc. apply step_parents.
  - apply history_ok.
  - apply H. apply in_or_app. right. now left.
  - apply IH. intros o' Ho'. apply H. apply in_or_app. now left.
Qed.

(** ** C51 *)
Lemma seq_nth' : forall n k i x, nth_error (seq k n) i = Some x -> x = k + i.
Proof.
  induction n as [|n IH]; intros k [|i] x H; cbn in H; try discriminate.
  - injection H as <-. lia.
  - apply IH in H. lia.
Qed.
Lemma index_place : forall l i a, skels_ok l -> nth_error l i = Some a -> a_index a = i.
Proof.
  intros l i a [H _] E. pose proof (map_nth_error a_index _ _ E) as M. rewrite H in M.
  apply seq_nth' in M. lia.
Qed.

Theorem numbering : forall ops,
  let u := history ck ops in
  counted (map a_index (u_anabeams u)) /\ counted (map b_index (nums u))
  /\ StronglySorted lt (map b_index (centers u)).
Proof.
  intros ops u. destruct (history_ok ops) as [_ [_ [[H1 _] [H2 H3]]]]. split; [|split; assumption].
  unfold counted. rewrite map_length. exact H1.
Qed.
Theorem parents : forall ops,
  (forall o, In o ops -> sets_parent ck o = false) -> parents_ok (history ck ops).
Proof.
  intros ops H i a b E Hb. pose proof (history_parents ops H) as F.
  destruct (history_ok ops) as [_ [_ [HS _]]].
  rewrite Forall_map, Forall_forall in F. pose proof (F a (nth_error_In _ _ E)) as Fa.
  cbn in Fa. rewrite (index_place _ _ _ HS E) in Fa. rewrite <- map_app in Fa.
  rewrite Forall_map, Forall_forall in Fa. exact (Fa b Hb).
Qed.

(** Setting the number by hand is undone as soon as analog beams are added or
    removed. *)
Theorem parents_restored : forall ops,
  (forall kw, parents_ok (add_analog_beam ck kw (history ck ops)))
  /\ (forall k u', remove_analog_beam ck k (history ck ops) = Ok u' -> parents_ok u').
Proof.
  intro ops. pose proof (history_ok ops) as HO. pose proof HO as HO'.
  destruct HO as [_ [_ [[Hi Hs] _]]].
  assert (G : forall u, Forall skel_parent (map skel (u_anabeams u)) -> skels_ok (u_anabeams u) -> parents_ok u).
  { intros u F HS i a b E Hb. rewrite Forall_map, Forall_forall in F. pose proof (F a (nth_error_In _ _ E)) as Fa.
    cbn in Fa. rewrite (index_place _ _ _ HS E) in Fa. rewrite <- map_app in Fa.
    rewrite Forall_map, Forall_forall in Fa. exact (Fa b Hb). }
  split.
  - intro kw. apply G; [|apply (step_parts _ (AddAna ck kw) HO')].
    cbn. apply number_anas_parent. rewrite map_app. apply Forall_app. split; [exact Hs|].
    constructor; [apply new_ana_ok|constructor].
  - intros k u' H. pose proof (step_parts _ (RemAna ck k) HO') as S'. cbn [step] in S'. rewrite H in S'. cbn [keep] in S'.
    apply G; [|apply S'].
    unfold remove_analog_beam in H. destruct (py_index _ k) as [n|] eqn:P; [|discriminate].
    cbn in H. injection H as <-. cbn. apply number_anas_parent. rewrite del_nth_map. now apply del_nth_Forall.
Qed.

(** *** Phase centers *)
Definition removes_ana (o : uop ck) : bool := match o with RemAna _ _ => true | _ => false end.
Lemma step_centers : forall u o, removes_ana o = false ->
  counted (map b_index (centers u)) -> counted (map b_index (centers (step ck u o))).
Proof.
  intros u o Hr Hc. unfold centers in *.
  destruct o as [kw|k kw|k|k kw|k kw|k|k kw|k kw|k|kw|kw|]; cbn [step keep]; try discriminate; try exact Hc.
  - cbn. rewrite number_anas_pcs, flat_map_app. cbn. now rewrite app_nil_r.
  - unfold modify_analog_beam. destruct (py_index _ k) as [i|] eqn:P; [|exact Hc]. cbn.
    destruct (nth_error_lt _ _ _ (py_index_lt _ _ _ P)) as [a Ea].
    rewrite (imap_split _ (fun a => mkAna (a_index a) (modify_properties ck kw (a_conf a)) (a_nums a) (a_pcs a)) _ _ _ Ea).
    rewrite (split_at _ _ _ _ Ea) in Hc. erewrite index_replace; [exact Hc|reflexivity].
  - unfold add_numerical_beam. destruct (attach ck k _ u) as [l|] eqn:A; [|exact Hc]. cbn.
    apply attach_inv in A. destruct A as [pre [a [post [E [-> _]]]]]. rewrite E in Hc.
    rewrite (flat_map_by _ _ a_pcs _ _ (number_nums_pcs _ _)).
    erewrite index_replace; [exact Hc|]. now rewrite propagate_pcs.
  - cbn [modify_numerical_beam with_anas u_anabeams].
    destruct (at_counter_spec a_nums put_nums (change_at ck kw) k (u_anabeams u) 0) as [[_ E]|[pre [a [post [i [E1 [_ [_ E2]]]]]]]].
    + rewrite E. exact Hc.
    + rewrite E2. rewrite E1 in Hc. erewrite index_replace; [exact Hc|reflexivity].
  - cbn. rewrite (flat_map_by _ _ a_pcs _ _ (number_nums_pcs _ _)).
    destruct (at_counter_spec a_nums put_nums (@del_nth beam) k (u_anabeams u) 0) as [[_ E]|[pre [a [post [i [E1 [_ [_ E2]]]]]]]].
    + rewrite E. exact Hc.
    + rewrite E2. rewrite E1 in Hc. erewrite index_replace; [exact Hc|reflexivity].
  - unfold add_phase_center. destruct (attach ck k _ u) as [l|] eqn:A; [|exact Hc]. cbn.
    apply counted_number_pcs.
  - cbn [modify_phase_center with_anas u_anabeams].
    destruct (at_counter_spec a_pcs put_pcs (change_at ck kw) k (u_anabeams u) 0) as [[_ E]|[pre [a [post [i [E1 [_ [_ E2]]]]]]]].
    + rewrite E. exact Hc.
    + rewrite E2. rewrite E1 in Hc. erewrite index_replace; [exact Hc|]. cbn. apply change_at_index.
  - cbn. apply counted_number_pcs.
Qed.
(** Phase centers are numbered 0, 1, 2, ... until an analog beam is removed. *)
Theorem centers_counted : forall ops,
  (forall o, In o ops -> removes_ana o = false) -> counted (map b_index (centers (history ck ops))).
Proof.
  intro ops. induction ops as [|o r IH] using rev_ind; intro H; [reflexivity|].
  rewrite history_snoc. apply step_centers.
  - apply H. apply in_or_app. right. now left.
  - apply IH. intros o' Ho'. apply H. apply in_or_app. now left.
Qed.
(** Adding or removing a phase center numbers them again. *)
Theorem centers_restored : forall ops k,
  (forall kw u', add_phase_center ck k kw (history ck ops) = Ok u' -> counted (map b_index (centers u')))
  /\ counted (map b_index (centers (remove_phase_center k (history ck ops)))).
Proof.
  intros ops k. split; [|apply counted_number_pcs]. intros kw u' H.
  unfold add_phase_center in H. destruct (attach ck k _ _) as [l|]; [|discriminate].
  cbn in H. injection H as <-. apply counted_number_pcs.
Qed.

End WithClock.
