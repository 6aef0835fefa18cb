(** User parsets, end of C51: what each operation changes. *)
From Coq Require Import Ascii String List Arith ZArith QArith Bool Lia Sorted.
From Verif Require Import Base M_Polar M_Dedisperse M_Pipeline M_PText M_POptions M_Parset P_Parset P_Parset2.
Import ListNotations.
Open Scope nat_scope.

(** The configuration of the beams, without numbers: what the user has set. *)
Definition plain (b : block) : block := filter (fun e => negb (String.eqb (e_key e) "noBeam")) b.
Definition beam_set := (block * list block * list block)%type.
Definition content (a : anabeam) : beam_set :=
  (a_conf a, map (fun b => plain (b_conf b)) (a_nums a), map (fun b => plain (b_conf b)) (a_pcs a)).
Definition contents (u : puser) : list beam_set := map content (u_anabeams u).
Definition num_blocks (c : beam_set) : list block := snd (fst c).
Definition pc_blocks (c : beam_set) : list block := snd c.
(** Place [i] of an element in a list of [n], given as a Python index. *)
Definition place (n : nat) (k : Z) (i : nat) : Prop :=
  i < n /\ (k = Z.of_nat i \/ k = Z.of_nat i - Z.of_nat n)%Z.

Lemma place_ok : forall n k i, py_index n k = Ok i <-> place n k i.
Proof.
  intros n k i. unfold py_index, place. split.
  - destruct ((0 <=? k) && (k <? Z.of_nat n))%Z eqn:E; [intro H; injection H as <-; lia|].
    destruct ((- Z.of_nat n <=? k) && (k <? 0))%Z eqn:F; [intro H; injection H as <-; lia|discriminate].
  - intros [H1 H2]. destruct ((0 <=? k) && (k <? Z.of_nat n))%Z eqn:E; [f_equal; lia|].
    destruct ((- Z.of_nat n <=? k) && (k <? 0))%Z eqn:F; [f_equal; lia|lia].
Qed.
Lemma place_err : forall n k e, py_index n k = Err e -> e = EIndexError /\ forall i, ~ place n k i.
Proof.
  intros n k e H. split.
  - unfold py_index in H. destruct ((0 <=? k) && (k <? Z.of_nat n))%Z; [discriminate|].
    destruct ((- Z.of_nat n <=? k) && (k <? 0))%Z; [discriminate|]. now injection H as <-.
  - intros i Hi. apply place_ok in Hi. congruence.
Qed.

Section WithClock.
Variable ck : clock.

Lemma plain_set_parent : forall v b, plain (set_entry "noBeam" v b) = plain b.
Proof.
  intros v b. unfold plain, set_entry. induction b as [|e r IH]; [reflexivity|]. cbn [map filter].
  destruct (String.eqb (e_key e) "noBeam") eqn:E; cbn [e_key]; rewrite E; cbn [negb]; [exact IH|].
  now rewrite IH.
Qed.
Lemma content_propagate : forall a, content (propagate ck a) = content a.
Proof.
  intro a. unfold content, propagate; cbn [a_conf a_nums a_pcs]. rewrite !map_map.
  assert (G : forall l, map (fun b => plain (b_conf (set_parent ck (a_index a) b))) l = map (fun b => plain (b_conf b)) l).
  { intro l. apply map_ext. intro b. cbn [b_conf set_parent modify_properties fold_left fst snd]. apply plain_set_parent. }
  now rewrite !G.
Qed.
Definition strip_skel (s : nat * block * list block * list block) : beam_set :=
  (snd (fst (fst s)), map plain (snd (fst s)), map plain (snd s)).
Lemma content_strip : forall l, map content l = map strip_skel (map skel l).
Proof.
  intro l. rewrite map_map. apply map_ext. intro a. unfold content, strip_skel, skel; cbn. now rewrite !map_map.
Qed.
Lemma content_skel : forall l l', map skel l = map skel l' -> map content l = map content l'.
Proof. intros l l' H. now rewrite !content_strip, H. Qed.
Lemma content_nums : forall l k, map content (number_nums k l) = map content l.
Proof. intros. apply content_skel. apply number_nums_skel. Qed.
Lemma content_pcs : forall l k, map content (number_pcs k l) = map content l.
Proof. intros. apply content_skel. apply number_pcs_skel. Qed.
Lemma content_anas : forall l, map content (number_anas ck l) = map content l.
Proof.
  intro l. unfold number_anas. rewrite content_nums, imap_map. rewrite <- (imap_const _ _ content l).
  apply imap_ext. intros i a _. rewrite content_propagate. reflexivity.
Qed.

(** *** Analog beams *)
Theorem add_analog_effect : forall u kw,
  contents (add_analog_beam ck kw u)
  = contents u ++ [(modify_properties ck kw (new_block anabeam_options), [], [])].
Proof.
  intros u kw. unfold contents, add_analog_beam. cbn [with_anas u_anabeams].
  rewrite content_anas, map_app. reflexivity.
Qed.
Theorem modify_analog_effect : forall u k kw,
  match modify_analog_beam ck k kw u with
  | Ok u' => exists pre c ns ps post,
      contents u = pre ++ (c, ns, ps) :: post /\ place (length (contents u)) k (length pre)
      /\ contents u' = pre ++ (modify_properties ck kw c, ns, ps) :: post
  | Err e => e = EIndexError /\ forall i, ~ place (length (contents u)) k i
  end.
Proof.
  intros u k kw. unfold modify_analog_beam. assert (L : length (contents u) = length (u_anabeams u)) by apply map_length. rewrite L.
  destruct (py_index (length (u_anabeams u)) k) as [i|e] eqn:P; cbn [bind].
  2: { now apply place_err. }
  pose proof (py_index_lt _ _ _ P) as Hi. destruct (nth_error_lt _ _ _ Hi) as [a Ea].
  unfold contents. cbn [with_anas u_anabeams].
  rewrite (imap_split _ (fun a => mkAna (a_index a) (modify_properties ck kw (a_conf a)) (a_nums a) (a_pcs a)) _ _ _ Ea).
  exists (map content (firstn i (u_anabeams u))), (a_conf a), (num_blocks (content a)), (pc_blocks (content a)),
    (map content (skipn (S i) (u_anabeams u))).
  split; [|split].
  - rewrite (split_at _ _ _ _ Ea) at 1. now rewrite map_app.
  - rewrite map_length, firstn_length. apply place_ok. rewrite Nat.min_l by lia. exact P.
  - now rewrite map_app.
Qed.
Theorem remove_analog_effect : forall u k,
  match remove_analog_beam ck k u with
  | Ok u' => exists pre c post,
      contents u = pre ++ c :: post /\ place (length (contents u)) k (length pre) /\ contents u' = pre ++ post
  | Err e => e = EIndexError /\ forall i, ~ place (length (contents u)) k i
  end.
Proof.
  intros u k. unfold remove_analog_beam. assert (L : length (contents u) = length (u_anabeams u)) by apply map_length. rewrite L.
  destruct (py_index (length (u_anabeams u)) k) as [i|e] eqn:P; cbn [bind].
  2: { now apply place_err. }
  pose proof (py_index_lt _ _ _ P) as Hi. destruct (nth_error_lt _ _ _ Hi) as [a Ea].
  unfold contents. cbn [with_anas u_anabeams]. rewrite content_anas.
  exists (map content (firstn i (u_anabeams u))), (content a), (map content (skipn (S i) (u_anabeams u))).
  split; [|split].
  - rewrite (split_at _ _ _ _ Ea) at 1. now rewrite map_app.
  - rewrite map_length, firstn_length. apply place_ok. rewrite Nat.min_l by lia. exact P.
  - unfold del_nth. now rewrite map_app.
Qed.

(** *** Numerical beams and phase centers *)
Theorem add_numerical_effect : forall u k kw,
  match add_numerical_beam ck k kw u with
  | Ok u' => exists pre c ns ps post,
      contents u = pre ++ (c, ns, ps) :: post /\ place (length (contents u)) k (length pre)
      /\ contents u' = pre ++ (c, ns ++ [plain (modify_properties ck kw (new_block beam_options))], ps) :: post
  | Err e => e = EIndexError /\ forall i, ~ place (length (contents u)) k i
  end.
Proof.
  intros u k kw. unfold add_numerical_beam.
  destruct (attach ck k _ u) as [l|e] eqn:A; cbn [bind].
  - apply attach_inv in A. destruct A as [pre [a [post [E [-> [Hk P]]]]]].
    exists (map content pre), (a_conf a), (num_blocks (content a)), (pc_blocks (content a)), (map content post).
    unfold contents. cbn [with_anas u_anabeams]. rewrite content_nums. split; [|split].
    + rewrite E, map_app. reflexivity.
    + rewrite !map_length. now apply place_ok.
    + rewrite map_app. cbn [map]. rewrite content_propagate. unfold content at 2, num_blocks, pc_blocks, content at 2 3. cbn.
      now rewrite map_app.
  - unfold contents. rewrite map_length. unfold attach in A.
    destruct (k >=? Z.of_nat (length (u_anabeams u)))%Z eqn:G.
    + injection A as <-. split; [reflexivity|]. intros i [H1 H2]. lia.
    + destruct (py_index _ k) as [i|e'] eqn:P; [discriminate|]. cbn in A. injection A as <-. now apply place_err.
Qed.
Theorem add_center_effect : forall u k kw,
  match add_phase_center ck k kw u with
  | Ok u' => exists pre c ns ps post,
      contents u = pre ++ (c, ns, ps) :: post /\ place (length (contents u)) k (length pre)
      /\ contents u' = pre ++ (c, ns, ps ++ [plain (modify_properties ck kw (new_block phasecenter_options))]) :: post
  | Err e => e = EIndexError /\ forall i, ~ place (length (contents u)) k i
  end.
Proof.
  intros u k kw. unfold add_phase_center.
  destruct (attach ck k _ u) as [l|e] eqn:A; cbn [bind].
  - apply attach_inv in A. destruct A as [pre [a [post [E [-> [Hk P]]]]]].
    exists (map content pre), (a_conf a), (num_blocks (content a)), (pc_blocks (content a)), (map content post).
    unfold contents. cbn [with_anas u_anabeams]. rewrite content_pcs. split; [|split].
    + rewrite E, map_app. reflexivity.
    + rewrite !map_length. now apply place_ok.
    + rewrite map_app. cbn [map]. rewrite content_propagate. unfold content at 2, num_blocks, pc_blocks, content at 2 3. cbn.
      now rewrite map_app.
  - unfold contents. rewrite map_length. unfold attach in A.
    destruct (k >=? Z.of_nat (length (u_anabeams u)))%Z eqn:G.
    + injection A as <-. split; [reflexivity|]. intros i [H1 H2]. lia.
    + destruct (py_index _ k) as [i|e'] eqn:P; [discriminate|]. cbn in A. injection A as <-. now apply place_err.
Qed.

(** [nth_block]: the [k]-th beam in the order of the file is the [i]-th of the
    analog beam that follows [pre]. *)
Definition kth (sel : beam_set -> list block) (pre : list beam_set) (i : nat) (k : Z) : Prop :=
  k = Z.of_nat (length (flat_map sel pre) + i).
Lemma flat_len_nums : forall l, length (flat_map num_blocks (map content l)) = length (flat_map a_nums l).
Proof.
  induction l as [|a r IH]; [reflexivity|]. cbn. rewrite !app_length, IH. f_equal.
  unfold num_blocks, content; cbn. apply map_length.
Qed.
Lemma flat_len_pcs : forall l, length (flat_map pc_blocks (map content l)) = length (flat_map a_pcs l).
Proof.
  induction l as [|a r IH]; [reflexivity|]. cbn. rewrite !app_length, IH. f_equal.
  unfold pc_blocks, content; cbn. apply map_length.
Qed.
Lemma set_parent_comm : forall key v b, key <> "noBeam"%string -> plain (set_entry key v b) = set_entry key v (plain b).
Proof.
  intros key v b Hk. unfold plain, set_entry. induction b as [|e r IH]; [reflexivity|]. cbn [map filter].
  destruct (String.eqb (e_key e) key) eqn:E; cbn [e_key].
  - apply String.eqb_eq in E. destruct (String.eqb (e_key e) "noBeam") eqn:F; cbn [negb].
    + apply String.eqb_eq in F. congruence.
    + cbn [map]. rewrite IH. destruct (String.eqb (e_key e) key) eqn:G; [reflexivity|].
      apply String.eqb_neq in G. congruence.
  - destruct (String.eqb (e_key e) "noBeam"); cbn [negb]; [exact IH|]. cbn [map]. now rewrite E, IH.
Qed.
Lemma plain_modify : forall kw b,
  plain (modify_properties ck kw b) = modify_properties ck kw (plain b).
Proof.
  unfold modify_properties. induction kw as [|[k v] r IH]; intro b; cbn [fold_left fst snd]; [reflexivity|].
  rewrite IH. destruct (String.eqb k "noBeam") eqn:E.
  - apply String.eqb_eq in E. subst k. f_equal. rewrite plain_set_parent.
    unfold set_entry, plain. symmetry. rewrite <- (map_id (filter _ b)) at 2.
    apply map_ext_in. intros e He. apply filter_In in He. destruct He as [_ He].
    now destruct (String.eqb (e_key e) "noBeam").
  - apply String.eqb_neq in E. f_equal. now apply set_parent_comm.
Qed.
Lemma change_at_split : forall kw i l, i < length l ->
  map (fun b => plain (b_conf b)) (change_at ck kw i l)
  = firstn i (map (fun b => plain (b_conf b)) l)
    ++ modify_properties ck kw (nth i (map (fun b => plain (b_conf b)) l) [])
    :: skipn (S i) (map (fun b => plain (b_conf b)) l).
Proof.
  intros kw i l H. destruct (nth_error_lt _ _ _ H) as [b E]. unfold change_at.
  rewrite (imap_split _ (fun b => mkBeam (b_index b) (modify_properties ck kw (b_conf b))) _ _ _ E).
  rewrite map_app. cbn [map b_conf]. rewrite plain_modify, firstn_map, skipn_map. do 3 f_equal.
  symmetry. apply nth_error_nth. now rewrite (map_nth_error _ _ _ E).
Qed.

Theorem modify_numerical_effect : forall u k kw,
  let u' := modify_numerical_beam ck k kw u in
  ((k < 0 \/ Z.of_nat (length (flat_map num_blocks (contents u))) <= k)%Z /\ contents u' = contents u)
  \/ exists pre c before b after ps post,
      contents u = pre ++ (c, before ++ b :: after, ps) :: post /\ kth num_blocks pre (length before) k
      /\ contents u' = pre ++ (c, before ++ modify_properties ck kw b :: after, ps) :: post.
Proof.
  intros u k kw u'. unfold u', modify_numerical_beam, contents. cbn [with_anas u_anabeams].
  rewrite flat_len_nums.
  destruct (at_counter_spec a_nums put_nums (change_at ck kw) k (u_anabeams u) 0) as [[H E]|[pre [a [post [i [E1 [Hi [Hk E2]]]]]]]].
  - left. split; [lia|]. now rewrite E.
  - right. rewrite E2, E1, !map_app. set (ns := map (fun b => plain (b_conf b)) (a_nums a)).
    exists (map content pre), (a_conf a), (firstn i ns), (nth i ns []), (skipn (S i) ns), (pc_blocks (content a)), (map content post).
    assert (Hn : i < length ns) by (unfold ns; now rewrite map_length).
    split; [|split].
    + cbn [map]. f_equal. f_equal. unfold content at 1, pc_blocks, content; cbn [snd]. f_equal. f_equal. fold ns.
      apply split_at. now apply nth_error_nth'.
    + unfold kth. rewrite flat_len_nums, firstn_length. rewrite Nat.min_l by lia. lia.
    + cbn [map]. f_equal. f_equal. unfold content at 1, put_nums, pc_blocks, content; cbn [snd a_conf a_nums a_pcs]. f_equal. f_equal.
      now apply change_at_split.
Qed.
Theorem remove_numerical_effect : forall u k,
  let u' := remove_numerical_beam k u in
  ((k < 0 \/ Z.of_nat (length (flat_map num_blocks (contents u))) <= k)%Z /\ contents u' = contents u)
  \/ exists pre c before b after ps post,
      contents u = pre ++ (c, before ++ b :: after, ps) :: post /\ kth num_blocks pre (length before) k
      /\ contents u' = pre ++ (c, before ++ after, ps) :: post.
Proof.
  intros u k u'. unfold u', remove_numerical_beam, contents. cbn [with_anas u_anabeams].
  rewrite flat_len_nums, content_nums.
  destruct (at_counter_spec a_nums put_nums (@del_nth beam) k (u_anabeams u) 0) as [[H E]|[pre [a [post [i [E1 [Hi [Hk E2]]]]]]]].
  - left. split; [lia|]. now rewrite E.
  - right. rewrite E2, E1, !map_app. set (ns := map (fun b => plain (b_conf b)) (a_nums a)).
    exists (map content pre), (a_conf a), (firstn i ns), (nth i ns []), (skipn (S i) ns), (pc_blocks (content a)), (map content post).
    assert (Hn : i < length ns) by (unfold ns; now rewrite map_length).
    split; [|split].
    + cbn [map]. f_equal. f_equal. unfold content at 1, pc_blocks, content; cbn [snd]. f_equal. f_equal. fold ns.
      apply split_at. now apply nth_error_nth'.
    + unfold kth. rewrite flat_len_nums, firstn_length. rewrite Nat.min_l by lia. lia.
    + cbn [map]. f_equal. f_equal. unfold content at 1, put_nums, pc_blocks, content; cbn [snd a_conf a_nums a_pcs]. f_equal. f_equal.
      apply del_nth_map.
Qed.
Theorem modify_center_effect : forall u k kw,
  let u' := modify_phase_center ck k kw u in
  ((k < 0 \/ Z.of_nat (length (flat_map pc_blocks (contents u))) <= k)%Z /\ contents u' = contents u)
  \/ exists pre c ns before b after post,
      contents u = pre ++ (c, ns, before ++ b :: after) :: post /\ kth pc_blocks pre (length before) k
      /\ contents u' = pre ++ (c, ns, before ++ modify_properties ck kw b :: after) :: post.
Proof.
  intros u k kw u'. unfold u', modify_phase_center, contents. cbn [with_anas u_anabeams].
  rewrite flat_len_pcs.
  destruct (at_counter_spec a_pcs put_pcs (change_at ck kw) k (u_anabeams u) 0) as [[H E]|[pre [a [post [i [E1 [Hi [Hk E2]]]]]]]].
  - left. split; [lia|]. now rewrite E.
  - right. rewrite E2, E1, !map_app. set (ns := map (fun b => plain (b_conf b)) (a_pcs a)).
    exists (map content pre), (a_conf a), (num_blocks (content a)), (firstn i ns), (nth i ns []), (skipn (S i) ns), (map content post).
    assert (Hn : i < length ns) by (unfold ns; now rewrite map_length).
    split; [|split].
    + cbn [map]. f_equal. f_equal. unfold content at 1, num_blocks, content; cbn [snd fst]. f_equal. fold ns.
      apply split_at. now apply nth_error_nth'.
    + unfold kth. rewrite flat_len_pcs, firstn_length. rewrite Nat.min_l by lia. lia.
    + cbn [map]. f_equal. f_equal. unfold content at 1, put_pcs, num_blocks, content; cbn [snd fst a_conf a_nums a_pcs]. f_equal.
      now apply change_at_split.
Qed.
Theorem remove_center_effect : forall u k,
  let u' := remove_phase_center k u in
  ((k < 0 \/ Z.of_nat (length (flat_map pc_blocks (contents u))) <= k)%Z /\ contents u' = contents u)
  \/ exists pre c ns before b after post,
      contents u = pre ++ (c, ns, before ++ b :: after) :: post /\ kth pc_blocks pre (length before) k
      /\ contents u' = pre ++ (c, ns, before ++ after) :: post.
Proof.
  intros u k u'. unfold u', remove_phase_center, contents. cbn [with_anas u_anabeams].
  rewrite flat_len_pcs, content_pcs.
  destruct (at_counter_spec a_pcs put_pcs (@del_nth beam) k (u_anabeams u) 0) as [[H E]|[pre [a [post [i [E1 [Hi [Hk E2]]]]]]]].
  - left. split; [lia|]. now rewrite E.
  - right. rewrite E2, E1, !map_app. set (ns := map (fun b => plain (b_conf b)) (a_pcs a)).
    exists (map content pre), (a_conf a), (num_blocks (content a)), (firstn i ns), (nth i ns []), (skipn (S i) ns), (map content post).
    assert (Hn : i < length ns) by (unfold ns; now rewrite map_length).
    split; [|split].
    + cbn [map]. f_equal. f_equal. unfold content at 1, num_blocks, content; cbn [snd fst]. f_equal. fold ns.
      apply split_at. now apply nth_error_nth'.
    + unfold kth. rewrite flat_len_pcs, firstn_length. rewrite Nat.min_l by lia. lia.
    + cbn [map]. f_equal. f_equal. unfold content at 1, put_pcs, num_blocks, content; cbn [snd fst a_conf a_nums a_pcs]. f_equal.
      apply del_nth_map.
Qed.

(** *** Fields of the blocks, declared counts *)
Theorem fields_set : forall kw b key,
  field (modify_properties ck kw b) key =
  match given kw key with
  | Some v => option_map (fun e => mkEntry (e_key e) (e_required e) (store ck v) true (e_syntax e)) (field b key)
  | None => field b key
  end.
Proof. apply field_modify. Qed.

Definition value (b : block) (key : string) : option sval := option_map e_value (field b key).
Theorem declared_counts : forall ops,
  let u := fst (to_text ck (history ck ops)) in
  value (u_observation u) "nrAnabeams" = Some (SStr (show_int (Z.of_nat (length (u_anabeams u)))))
  /\ value (u_observation u) "nrBeams" = Some (SStr (show_int (Z.of_nat (length (nums u)))))
  /\ value (u_observation u) "nrPhaseCenters" = Some (SStr (show_int (Z.of_nat (length (centers u)))))
  /\ (forall key, key <> "nrAnabeams"%string -> key <> "nrBeams"%string -> key <> "nrPhaseCenters"%string ->
      field (u_observation u) key = field (u_observation (history ck ops)) key)
  /\ u_output u = u_output (history ck ops) /\ u_anabeams u = u_anabeams (history ck ops).
Proof.
  intro ops. cbv zeta. destruct (history_ok ck ops) as [Ho _]. set (h := history ck ops) in *.
  unfold to_text, update_beam_numbers. cbn [fst u_observation u_output u_anabeams]. unfold value, nums, centers.
  cbn [u_anabeams]. rewrite !sum_list_length. cbn [modify_properties fold_left fst snd store].
  rewrite !field_set.
  assert (G : forall key, In key (map o_key observation_options) -> exists e, field (u_observation h) key = Some e).
  { intros key Hk. destruct (field (u_observation h) key) eqn:E; [eauto|]. exfalso.
    eapply field_in_keys; [|exact E]. rewrite (block_keys _ _ Ho). exact Hk. }
  destruct (G "nrAnabeams"%string) as [e1 E1]; [cbn; tauto|].
  destruct (G "nrBeams"%string) as [e2 E2]; [cbn; tauto|].
  destruct (G "nrPhaseCenters"%string) as [e3 E3]; [cbn; tauto|].
  rewrite E1, E2, E3. split; [reflexivity|]. split; [reflexivity|]. split; [reflexivity|]. split; [|split; reflexivity].
  intros key K1 K2 K3. rewrite !field_set.
  apply not_eq_sym in K1. apply not_eq_sym in K2. apply not_eq_sym in K3.
  apply String.eqb_neq in K1. apply String.eqb_neq in K2. apply String.eqb_neq in K3. now rewrite K1, K2, K3.
Qed.

End WithClock.
