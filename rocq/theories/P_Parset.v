(** User parsets: specification of the numbering of beams and of the effect of the
    editing operations, proofs of C51. *)
From Coq Require Import Ascii String List Arith ZArith QArith Bool Lia Sorted.
From Verif Require Import Base M_Polar M_Dedisperse M_Pipeline M_PText M_POptions M_Parset.
Import ListNotations.
Open Scope nat_scope.

(** ** Lists *)
Lemma imap_from_map : forall A B C (g : B -> C) (f : nat -> A -> B) l k,
  map g (imap_from f k l) = imap_from (fun i x => g (f i x)) k l.
Proof. induction l as [|x r IH]; intro k; cbn; [reflexivity|]. now rewrite IH. Qed.
Lemma imap_map : forall A B C (g : B -> C) (f : nat -> A -> B) l,
  map g (imap f l) = imap (fun i x => g (f i x)) l.
Proof. intros. apply imap_from_map. Qed.
Lemma imap_ext : forall A B (f g : nat -> A -> B) l,
  (forall i x, nth_error l i = Some x -> f i x = g i x) -> imap f l = imap g l.
Proof.
  intros A B f g l H. apply list_ext_error. intro i. rewrite !nth_error_imap. destruct (nth_error l i) eqn:E; cbn; [|reflexivity].
  now rewrite (H _ _ E).
Qed.
Lemma imap_const : forall A B (f : A -> B) l, imap (fun _ x => f x) l = map f l.
Proof.
  intros. apply list_ext_error. intro i. rewrite nth_error_imap, nth_error_map. reflexivity.
Qed.
Lemma nth_error_skip : forall A n (l : list A) d, nth_error l (n + d) = nth_error (skipn n l) d.
Proof.
  induction n as [|n IH]; intros [|y l] d; cbn; try reflexivity; [now destruct d|]. apply IH.
Qed.
Lemma imap_split : forall A (f : A -> A) i (l : list A) x,
  nth_error l i = Some x ->
  imap (fun j y => if j =? i then f y else y) l = firstn i l ++ f x :: skipn (S i) l.
Proof.
  intros A f i l x E. apply list_ext_error.
  - intro j. rewrite nth_error_imap.
    assert (Hi : i < length l) by (apply nth_error_Some; congruence).
    assert (Lf : length (firstn i l) = i) by (rewrite firstn_length; lia).
    destruct (j =? i) eqn:C.
    + apply Nat.eqb_eq in C. subst j. rewrite E. cbn.
      rewrite nth_error_app2 by lia. now rewrite Lf, Nat.sub_diag.
    + apply Nat.eqb_neq in C. replace (option_map (fun y : A => y) (nth_error l j)) with (nth_error l j)
        by (destruct (nth_error l j); reflexivity).
      destruct (Nat.lt_ge_cases j i).
      * rewrite nth_error_app1 by lia. clear - H. revert i H l.
        induction j as [|j IH]; intros [|i] H [|y l]; cbn; try lia; try reflexivity. apply IH. lia.
      * rewrite nth_error_app2 by lia. rewrite Lf. destruct (j - i) as [|d] eqn:D; [lia|]. cbn [nth_error].
        rewrite <- (nth_error_skip _ (S i) l d). f_equal. lia.
Qed.
Lemma sum_list_length : forall A B (f : A -> list B) l,
  sum_list (map (fun a => length (f a)) l) = length (flat_map f l).
Proof.
  intros A B f l. unfold sum_list.
  assert (G : forall k, fold_left Nat.add (map (fun a => length (f a)) l) k = k + length (flat_map f l)).
  { induction l as [|a r IH]; intro k; cbn; [lia|]. rewrite IH, app_length. lia. }
  apply G.
Qed.

(** ** Fields of a block *)
(** The entry of a field. *)
Definition field (b : block) (key : string) : option entry :=
  find (fun e => String.eqb (e_key e) key) b.
(** The value given last to a key. *)
Definition given {V} (kwargs : list (string * V)) (key : string) : option V :=
  option_map snd (find (fun kv => String.eqb (fst kv) key) (rev kwargs)).

Lemma set_entry_keys : forall k v b, map e_key (set_entry k v b) = map e_key b.
Proof.
  intros. unfold set_entry. rewrite map_map. apply map_ext. intro e. now destruct (String.eqb _ _).
Qed.
Lemma modify_keys : forall ck (kw : list (string * uval ck)) b,
  map e_key (modify_properties ck kw b) = map e_key b.
Proof.
  intros ck kw. unfold modify_properties. induction kw as [|[k v] r IH]; intro b; cbn; [reflexivity|].
  now rewrite IH, set_entry_keys.
Qed.
Lemma field_set : forall k v b key,
  field (set_entry k v b) key =
  if String.eqb k key then option_map (fun e => mkEntry (e_key e) (e_required e) v true (e_syntax e)) (field b key)
  else field b key.
Proof.
  intros k v b key. unfold field, set_entry. induction b as [|e r IH]; cbn.
  - now destruct (String.eqb k key).
  - destruct (String.eqb (e_key e) k) eqn:E; cbn.
    + apply String.eqb_eq in E. rewrite E. destruct (String.eqb k key) eqn:F; cbn.
      * unfold option_map. rewrite <- E. reflexivity.
      * apply IH.
    + destruct (String.eqb (e_key e) key) eqn:F; cbn.
      * apply String.eqb_eq in F. destruct (String.eqb k key) eqn:G; [|reflexivity].
        apply String.eqb_eq in G. subst. rewrite String.eqb_refl in E. discriminate.
      * apply IH.
Qed.
Lemma find_app : forall A (f : A -> bool) l1 l2,
  find f (l1 ++ l2) = match find f l1 with Some x => Some x | None => find f l2 end.
Proof. induction l1 as [|x r IH]; intro l2; cbn; [reflexivity|]. now destruct (f x). Qed.
(** A field takes the last value given to it, and is then marked as modified. *)
Lemma field_modify : forall ck (kw : list (string * uval ck)) b key,
  field (modify_properties ck kw b) key =
  match given kw key with
  | Some v => option_map (fun e => mkEntry (e_key e) (e_required e) (store ck v) true (e_syntax e)) (field b key)
  | None => field b key
  end.
Proof.
  intros ck kw. unfold modify_properties. induction kw as [|[k v] r IH]; intros b key; cbn [fold_left].
  - reflexivity.
  - rewrite IH. unfold given. cbn [rev]. rewrite find_app. cbn [find fst snd].
    rewrite field_set. destruct (find _ (rev r)) as [[k' v']|] eqn:E; cbn [option_map snd].
    + destruct (String.eqb k key); [|reflexivity]. now destruct (field b key).
    + destruct (String.eqb k key); reflexivity.
Qed.
Lemma field_in_keys : forall b key, In key (map e_key b) -> field b key <> None.
Proof.
  intros b key H N. unfold field in N. apply in_map_iff in H. destruct H as [e [<- He]].
  pose proof (find_none _ _ N _ He) as C. cbn in C. rewrite String.eqb_refl in C. discriminate.
Qed.

Section WithClock.
Variable ck : clock.
Let kwargs := list (string * uval ck).

(** ** Operations *)
Inductive uop :=
| AddAna (kw : kwargs) | ModAna (k : Z) (kw : kwargs) | RemAna (k : Z)
| AddNum (k : Z) (kw : kwargs) | ModNum (k : Z) (kw : kwargs) | RemNum (k : Z)
| AddPc (k : Z) (kw : kwargs) | ModPc (k : Z) (kw : kwargs) | RemPc (k : Z)
| SetObs (kw : kwargs) | SetOut (kw : kwargs) | Text.
Definition keep (u : puser) (r : res puser) : puser := match r with Ok v => v | Err _ => u end.
(** An operation that raises leaves the object as it was. *)
Definition step (u : puser) (o : uop) : puser :=
  match o with
  | AddAna kw => add_analog_beam ck kw u
  | ModAna k kw => keep u (modify_analog_beam ck k kw u)
  | RemAna k => keep u (remove_analog_beam ck k u)
  | AddNum k kw => keep u (add_numerical_beam ck k kw u)
  | ModNum k kw => modify_numerical_beam ck k kw u
  | RemNum k => remove_numerical_beam k u
  | AddPc k kw => keep u (add_phase_center ck k kw u)
  | ModPc k kw => modify_phase_center ck k kw u
  | RemPc k => remove_phase_center k u
  | SetObs kw => set_observation_config ck kw u
  | SetOut kw => set_output_config ck kw u
  | Text => fst (to_text ck u)
  end.
Definition history (ops : list uop) : puser := fold_left step ops new_user.
(** The operation does not set the number of the analog beam by hand. *)
Definition sets_parent (o : uop) : bool :=
  match o with
  | ModNum _ kw | ModPc _ kw => existsb (fun kv => String.eqb (fst kv) "noBeam") kw
  | _ => false
  end.

(** ** Specification of the numbering *)
Definition nums (u : puser) : list beam := flat_map a_nums (u_anabeams u).
Definition centers (u : puser) : list beam := flat_map a_pcs (u_anabeams u).
Definition parent_of (b : beam) : option sval := option_map e_value (field (b_conf b) "noBeam").
(** Numbers run 0, 1, 2, ... *)
Definition counted (l : list nat) : Prop := l = seq 0 (length l).
Definition parents_ok (u : puser) : Prop :=
  forall i a b, nth_error (u_anabeams u) i = Some a -> In b (a_nums a ++ a_pcs a) ->
    parent_of b = Some (SInt (Z.of_nat i)).

(** ** Renumbering changes numbers only *)
Definition skel (a : anabeam) := (a_index a, a_conf a, map b_conf (a_nums a), map b_conf (a_pcs a)).
Lemma number_beams_conf : forall l k, map b_conf (number_beams k l) = map b_conf l.
Proof. induction l as [|b r IH]; intro k; cbn; [reflexivity|]. now rewrite IH. Qed.
Lemma number_beams_index : forall l k, map b_index (number_beams k l) = seq k (length l).
Proof. induction l as [|b r IH]; intro k; cbn; [reflexivity|]. now rewrite IH. Qed.
Lemma number_nums_skel : forall l k, map skel (number_nums k l) = map skel l.
Proof.
  induction l as [|a r IH]; intro k; cbn; [reflexivity|]. rewrite IH. unfold skel at 1 3; cbn.
  now rewrite number_beams_conf.
Qed.
Lemma number_pcs_skel : forall l k, map skel (number_pcs k l) = map skel l.
Proof.
  induction l as [|a r IH]; intro k; cbn; [reflexivity|]. rewrite IH. unfold skel at 1 3; cbn.
  now rewrite number_beams_conf.
Qed.
Lemma number_nums_pcs : forall l k, map a_pcs (number_nums k l) = map a_pcs l.
Proof. induction l as [|a r IH]; intro k; cbn; [reflexivity|]. now rewrite IH. Qed.
Lemma number_pcs_nums : forall l k, map a_nums (number_pcs k l) = map a_nums l.
Proof. induction l as [|a r IH]; intro k; cbn; [reflexivity|]. now rewrite IH. Qed.
Lemma number_nums_index : forall l k,
  map b_index (flat_map a_nums (number_nums k l)) = seq k (length (flat_map a_nums l)).
Proof.
  induction l as [|a r IH]; intro k; cbn; [reflexivity|].
  rewrite map_app, IH, number_beams_index, app_length, seq_app. reflexivity.
Qed.
Lemma number_pcs_index : forall l k,
  map b_index (flat_map a_pcs (number_pcs k l)) = seq k (length (flat_map a_pcs l)).
Proof.
  induction l as [|a r IH]; intro k; cbn; [reflexivity|].
  rewrite map_app, IH, number_beams_index, app_length, seq_app. reflexivity.
Qed.
Lemma flat_map_by : forall A B (f : A -> list B) l l', map f l = map f l' -> flat_map f l = flat_map f l'.
Proof.
  intros A B f l l' H. rewrite !flat_map_concat_map. now rewrite H.
Qed.
Lemma flat_map_len : forall A B (f : A -> list B) l l',
  map (fun a => length (f a)) l = map (fun a => length (f a)) l' -> length (flat_map f l) = length (flat_map f l').
Proof. intros A B f l l' H. rewrite <- !sum_list_length. now rewrite H. Qed.

(** ** The invariant *)
(** Analog beams are numbered in order and their beams carry the fields of the
    options. *)
Definition fits (oe : option_entry) (e : entry) : Prop :=
  e_key e = o_key oe /\ e_required e = o_required oe /\ e_syntax e = o_syntax oe
  /\ (e_modified e = false -> e_value e = SStr (o_value oe)).
Definition block_ok (o : list option_entry) (b : block) : Prop := Forall2 fits o b.
Lemma block_keys : forall o b, block_ok o b -> map e_key b = map o_key o.
Proof. intros o b H. induction H as [|x y o b [H _] HF IH]; cbn; [reflexivity|]. now rewrite IH, H. Qed.
Definition skel_ok (s : nat * block * list block * list block) : Prop :=
  let '(_, c, ns, ps) := s in
  block_ok anabeam_options c /\ Forall (block_ok beam_options) ns /\ Forall (block_ok phasecenter_options) ps.
Definition skels_ok (l : list anabeam) : Prop :=
  map a_index l = seq 0 (length l) /\ Forall skel_ok (map skel l).
Definition user_ok (u : puser) : Prop :=
  block_ok observation_options (u_observation u) /\ block_ok output_options (u_output u)
  /\ skels_ok (u_anabeams u) /\ counted (map b_index (nums u))
  /\ StronglySorted lt (map b_index (centers u)).
Definition parent (b : block) : option sval := option_map e_value (field b "noBeam").
Definition skel_parent (s : nat * block * list block * list block) : Prop :=
  let '(i, _, ns, ps) := s in Forall (fun b => parent b = Some (SInt (Z.of_nat i))) (ns ++ ps).

Lemma new_block_ok : forall o, block_ok o (new_block o).
Proof.
  intro o. unfold block_ok, new_block. induction o as [|x r IH]; cbn; constructor; [|exact IH].
  repeat split.
Qed.
Lemma modify_ok : forall o kw b, block_ok o b -> block_ok o (modify_properties ck kw b).
Proof.
  intros o kw. unfold modify_properties. induction kw as [|[k v] r IH]; intros b H; cbn [fold_left]; [exact H|].
  apply IH. clear IH. unfold set_entry. induction H as [|x y o b Hxy H IHF]; cbn [map]; constructor; [|exact IHF].
  destruct (String.eqb (e_key y) (fst (k, v))); [|exact Hxy]. destruct Hxy as [H1 [H2 [H3 _]]].
  repeat split; try assumption. cbn. discriminate.
Qed.

Definition s_parent (i : nat) (b : block) := modify_properties ck [("noBeam"%string, UInt ck (Z.of_nat i))] b.
Lemma skel_propagate : forall a, skel (propagate ck a) =
  (a_index a, a_conf a, map (s_parent (a_index a)) (map b_conf (a_nums a)),
   map (s_parent (a_index a)) (map b_conf (a_pcs a))).
Proof. intro a. unfold skel, propagate; cbn. now rewrite !map_map. Qed.
Lemma s_parent_parent : forall o i b, In "noBeam"%string (map o_key o) -> block_ok o b ->
  parent (s_parent i b) = Some (SInt (Z.of_nat i)).
Proof.
  intros o i b Ho Hb. unfold parent, s_parent. rewrite field_modify. cbn.
  destruct (field b "noBeam") eqn:E; [reflexivity|].
  exfalso. eapply field_in_keys; [|exact E]. rewrite (block_keys _ _ Hb). exact Ho.
Qed.
Lemma beam_parent : In "noBeam"%string (map o_key beam_options).
Proof. cbn. tauto. Qed.
Lemma pc_parent : In "noBeam"%string (map o_key phasecenter_options).
Proof. cbn. tauto. Qed.

Lemma skel_ok_propagate : forall a, skel_ok (skel a) -> skel_ok (skel (propagate ck a)).
Proof.
  intros a [H1 [H2 H3]]. rewrite skel_propagate. split; [exact H1|].
  split; apply Forall_map; (eapply Forall_impl; [|eassumption]); intros b Hb; now apply modify_ok.
Qed.
Lemma skel_parent_propagate : forall a, skel_ok (skel a) -> skel_parent (skel (propagate ck a)).
Proof.
  intros a [_ [H2 H3]]. rewrite skel_propagate. cbn. apply Forall_app.
  split; apply Forall_map; (eapply Forall_impl; [|eassumption]); intros b Hb; eapply s_parent_parent; eauto.
  - exact beam_parent.
  - exact pc_parent.
Qed.

Lemma imap_index : forall l, map a_index (imap (fun i a => propagate ck (mkAna i (a_conf a) (a_nums a) (a_pcs a))) l)
  = seq 0 (length l).
Proof.
  intro l. rewrite imap_map. unfold imap. cbn [a_index propagate].
  assert (G : forall A (l : list A) k, imap_from (fun i (_ : A) => i) k l = seq k (length l)).
  { clear. induction l as [|x r IH]; intro k; cbn; [reflexivity|]. now rewrite IH. }
  apply G.
Qed.
Lemma map_skel_index : forall l, map a_index l = map (fun s => fst (fst (fst s))) (map skel l).
Proof. intro l. rewrite map_map. now apply map_ext. Qed.
Lemma map_skel_len_nums : forall l, map (fun a => length (a_nums a)) l = map (fun s => length (snd (fst s))) (map skel l).
Proof. intro l. rewrite map_map. apply map_ext. intro a. cbn. now rewrite map_length. Qed.
Lemma map_skel_len_pcs : forall l, map (fun a => length (a_pcs a)) l = map (fun s => length (snd s)) (map skel l).
Proof. intro l. rewrite map_map. apply map_ext. intro a. cbn. now rewrite map_length. Qed.
Lemma skels_ok_by : forall l l', map skel l = map skel l' -> skels_ok l' -> skels_ok l.
Proof.
  intros l l' H [H1 H2]. split.
  - rewrite map_skel_index, H, <- map_skel_index, H1.
    f_equal. rewrite <- (map_length skel l), H. now rewrite map_length.
  - now rewrite H.
Qed.

Lemma number_anas_ok : forall l, Forall skel_ok (map skel l) -> skels_ok (number_anas ck l).
Proof.
  intros l H. unfold number_anas. apply (skels_ok_by _ _ (number_nums_skel _ _)). split.
  - rewrite imap_index. now rewrite imap_length.
  - rewrite imap_map. apply Forall_forall. intros s Hs. apply In_nth_error in Hs. destruct Hs as [i Hi].
    rewrite nth_error_imap in Hi. destruct (nth_error l i) as [a|] eqn:E; [|discriminate]. cbn in Hi.
    injection Hi as <-. apply skel_ok_propagate. rewrite Forall_map, Forall_forall in H.
    exact (H a (nth_error_In _ _ E)).
Qed.
Lemma number_anas_parent : forall l, Forall skel_ok (map skel l) ->
  Forall skel_parent (map skel (number_anas ck l)).
Proof.
  intros l H. unfold number_anas. rewrite number_nums_skel, imap_map.
  apply Forall_forall. intros s Hs. apply In_nth_error in Hs. destruct Hs as [i Hi].
  rewrite nth_error_imap in Hi. destruct (nth_error l i) as [a|] eqn:E; [|discriminate]. cbn in Hi.
  injection Hi as <-. apply skel_parent_propagate. rewrite Forall_map, Forall_forall in H.
  exact (H a (nth_error_In _ _ E)).
Qed.
Lemma number_anas_nums : forall l, counted (map b_index (flat_map a_nums (number_anas ck l))).
Proof.
  intro l. unfold number_anas, counted. rewrite number_nums_index. now rewrite seq_length.
Qed.
(** Phase centers keep their numbers. *)
Lemma number_anas_pcs : forall l,
  map b_index (flat_map a_pcs (number_anas ck l)) = map b_index (flat_map a_pcs l).
Proof.
  intro l. unfold number_anas. rewrite (flat_map_by _ _ a_pcs _ _ (number_nums_pcs _ _)).
  unfold imap. generalize 0 as k. induction l as [|a r IH]; intro k; cbn; [reflexivity|].
  rewrite !map_app, IH. f_equal. rewrite map_map. now apply map_ext.
Qed.

(** ** Lists of analog beams changed in one place *)
Lemma py_index_lt : forall n k i, py_index n k = Ok i -> i < n.
Proof.
  intros n k i H. unfold py_index in H.
  destruct ((0 <=? k) && (k <? Z.of_nat n))%Z eqn:E.
  - injection H as <-. lia.
  - destruct ((- Z.of_nat n <=? k) && (k <? 0))%Z eqn:F; [|discriminate]. injection H as <-. lia.
Qed.

Lemma at_counter_spec : forall sel put f k l c,
  let n := Z.of_nat (length (flat_map sel l)) in
  (((k < c)%Z \/ (c + n <= k)%Z) /\ at_counter sel put f k c l = l) \/
  exists pre a post i,
    l = pre ++ a :: post /\ i < length (sel a)
    /\ k = (c + Z.of_nat (length (flat_map sel pre) + i))%Z
    /\ at_counter sel put f k c l = pre ++ put a (f i (sel a)) :: post.
Proof.
  intros sel put f k. induction l as [|a r IH]; intro c; cbn [flat_map at_counter].
  - left. split; [cbn; lia|reflexivity].
  - cbv zeta. destruct ((c <=? k) && (k <? c + Z.of_nat (length (sel a))))%Z eqn:E.
    + right. exists [], a, r, (Z.to_nat (k - c)). cbn. split; [reflexivity|].
      split; [lia|]. split; [lia|reflexivity].
    + destruct (IH (c + Z.of_nat (length (sel a)))%Z) as [[H1 H2]|[pre [a' [post [i [H1 [H2 [H3 H4]]]]]]]].
      * left. rewrite H2, app_length. split; [|reflexivity]. apply andb_false_iff in E. lia.
      * right. exists (a :: pre), a', post, i. rewrite H4, H1. cbn. split; [reflexivity|].
        split; [exact H2|]. split; [|reflexivity]. rewrite app_length. lia.
Qed.

End WithClock.
