(** Specification and proofs for pointings (C92 to C95). *)
From Coq Require Import ZArith QArith Qround Lqa Bool List Arith Lia Sorting.Sorted.
From Verif Require Import Base M_Analog P_Analog2 M_Pointing.
Import ListNotations.
Open Scope nat_scope.
Open Scope list_scope.

(** * Specification *)
Section Spec.
Context {C H : Type}.
(** Interval [i] of the pointing contains [t]. *)
Definition covers (p : pt C H) (t : Q) (i : nat) : Prop :=
  exists s d, nth_error (pt_times p) i = Some s /\ nth_error (durations p) i = Some d /\ (s <= t)%Q /\ (t < s + d)%Q.
(** The last interval that contains [t], if any. *)
Definition shown (p : pt C H) (t : Q) (o : option nat) : Prop :=
  match o with
  | Some i => covers p t i /\ forall j, i < j -> ~ covers p t j
  | None => forall j, ~ covers p t j
  end.
(** What is pointed at in interval [i]. *)
Definition coord_at (p : pt C H) (i : nat) : option C :=
  match pt_coords p with One c => if i <? length (pt_times p) then Some c else None | Many l => nth_error l i end.
Definition custom_at (p : pt C H) (i : nat) : option (option H) :=
  match pt_custom p with None => Some None | Some [h] => Some (Some h) | Some hs => option_map Some (nth_error hs i) end.
(** One coordinate per time, one duration or one per time, one custom coordinate or one
    per time. *)
Definition sized (p : pt C H) : Prop :=
  (length (pt_durs p) = 1 \/ length (pt_durs p) = length (pt_times p)) /\
  (match pt_coords p with One _ => True | Many l => length l = length (pt_times p) end) /\
  (match pt_custom p with None => True | Some hs => length hs = 1 \/ length hs = length (pt_times p) end).
End Spec.

Lemma durations_length : forall C H (p : pt C H), length (pt_durs p) = 1 \/ length (pt_durs p) = length (pt_times p) ->
  length (durations p) = length (pt_times p).
Proof. intros C H p E. unfold durations. destruct (pt_durs p) as [|a [|b l]]; cbn in *; [lia|apply repeat_length|lia]. Qed.
Lemma durations_each : forall C H (p : pt C H), length (pt_durs p) = length (pt_times p) -> durations p = pt_durs p.
Proof. intros C H p E. unfold durations. destruct (pt_durs p) as [|a [|b l]]; cbn in *; [reflexivity| |reflexivity]. rewrite <- E. reflexivity. Qed.
Lemma Qltb_lt : forall a b, Qltb a b = true <-> (a < b)%Q.
Proof.
  intros a b. unfold Qltb. rewrite negb_true_iff. split.
  - intro E. apply Qnot_le_lt. intro L. apply Qle_bool_iff in L. congruence.
  - intro L. destruct (Qle_bool b a) eqn:E; [|reflexivity]. apply Qle_bool_iff in E. lra.
Qed.
Lemma nth_combine : forall A B (l : list A) (m : list B) i,
  nth_error (combine l m) i = match nth_error l i, nth_error m i with Some x, Some y => Some (x, y) | _, _ => None end.
Proof.
  intros A B. induction l as [|x l IH]; intros [|y m] [|i]; cbn; try reflexivity.
  - destruct (nth_error l i); reflexivity.
  - apply IH.
Qed.
Lemma mask_true : forall C H (p : pt C H) t i, nth_error (mask p t) i = Some true <-> covers p t i.
Proof.
  intros C H p t i. unfold mask, covers. rewrite nth_error_map, nth_combine. split.
  - destruct (nth_error (pt_times p) i) as [s|]; [|discriminate]. destruct (nth_error (durations p) i) as [d|]; [|discriminate]. cbn. intro E. injection E as E.
    apply andb_true_iff in E. rewrite Qle_bool_iff, Qltb_lt in E. exists s, d. tauto.
  - intros (s & d & -> & -> & A & B). cbn. f_equal. apply andb_true_iff. rewrite Qle_bool_iff, Qltb_lt. auto.
Qed.
Lemma mask_length : forall C H (p : pt C H) t, length (durations p) = length (pt_times p) -> length (mask p t) = length (pt_times p).
Proof. intros C H p t E. unfold mask. rewrite map_length, combine_length. lia. Qed.

Lemma last_true_none : forall A m (l : list A), last_true m l = None -> forall j, nth_error m j = Some true -> nth_error l j = None.
Proof.
  intros A. induction m as [|b m IH]; intros [|y l] E [|j] T; try discriminate; try reflexivity; cbn in *.
  - injection T as ->. destruct (last_true m l); discriminate.
  - destruct (last_true m l) as [z|] eqn:L; [discriminate|]. exact (IH l L j T).
Qed.
Lemma last_true_some : forall A m (l : list A) x, last_true m l = Some x ->
  exists i, nth_error m i = Some true /\ nth_error l i = Some x /\ forall j, i < j -> nth_error m j = Some true -> nth_error l j = None.
Proof.
  intros A. induction m as [|b m IH]; intros [|y l] x E; try discriminate. cbn in E. destruct (last_true m l) as [z|] eqn:L.
  - injection E as <-. destruct (IH l z L) as (i & A1 & A2 & A3). exists (S i). split; [exact A1|]. split; [exact A2|]. intros [|j] Hj; [lia|]. apply A3. lia.
  - destruct b; [|discriminate]. injection E as <-. exists 0. split; [reflexivity|]. split; [reflexivity|]. intros [|j] Hj T; [lia|]. exact (last_true_none A m l L j T).
Qed.
Lemma last_true_spec : forall A m (l : list A) x, last_true m l = Some x <->
  exists i, nth_error m i = Some true /\ nth_error l i = Some x /\ forall j, i < j -> nth_error m j = Some true -> nth_error l j = None.
Proof.
  intros A m l x. split; [apply last_true_some|]. intros (i & A1 & A2 & A3). destruct (last_true m l) as [z|] eqn:L.
  - destruct (last_true_some A m l z L) as (k & B1 & B2 & B3). destruct (Nat.lt_trichotomy i k) as [Lt|[Eq|Lt]].
    + specialize (A3 k Lt B1). congruence.
    + congruence.
    + specialize (B3 i Lt A1). congruence.
  - rewrite (last_true_none A m l L i A1) in A2. discriminate.
Qed.
Lemma pick_last_ok : forall A m (l : list A) i x, length l = length m -> nth_error m i = Some true -> (forall j, i < j -> nth_error m j <> Some true) ->
  nth_error l i = Some x -> pick_last m l = Ok x.
Proof.
  intros A m l i x E M N X. unfold pick_last. rewrite E, Nat.eqb_refl.
  rewrite (proj2 (last_true_spec A m l x)); [reflexivity|]. exists i. split; [exact M|]. split; [exact X|]. intros j Hj T. exfalso. exact (N j Hj T).
Qed.

(** * Selection at a time *)
Theorem shown_exists : forall C H (p : pt C H) t, length (pt_durs p) = 1 \/ length (pt_durs p) = length (pt_times p) ->
  exists o, shown p t o /\ forall o', shown p t o' -> o' = o.
Proof.
  intros C H p t E.
  assert (X : forall m : list bool, (exists i, nth_error m i = Some true /\ forall j, i < j -> nth_error m j <> Some true) \/ forall j, nth_error m j <> Some true).
  { induction m as [|b m IH]; [right; intros [|j]; discriminate|]. destruct IH as [[i [A B]]|N].
    - left. exists (S i). split; [exact A|]. intros [|j] Hj; [lia|]. apply B. lia.
    - destruct b; [left; exists 0; split; [reflexivity|]; intros [|j] Hj; [lia|]; apply N|right; intros [|j]; [discriminate|apply N]]. }
  destruct (X (mask p t)) as [[i [A B]]|N].
  - exists (Some i). split; [split; [apply mask_true; exact A|]; intros j Hj Cv; apply mask_true in Cv; exact (B j Hj Cv)|].
    intros [k|]; cbn.
    + intros [Cv M]. apply mask_true in Cv. f_equal. destruct (Nat.lt_trichotomy k i) as [L|[L|L]]; [|exact L|].
      * exfalso. apply (M i L). apply mask_true. exact A.
      * exfalso. exact (B k L Cv).
    + intro N. exfalso. apply (N i). apply mask_true. exact A.
  - exists None. split; [intros j Cv; apply mask_true in Cv; exact (N j Cv)|]. intros [k|]; [|reflexivity]. intros [Cv _]. apply mask_true in Cv. exfalso. exact (N k Cv).
Qed.
Lemma forallb_mask : forall C H (p : pt C H) t, (forallb negb (mask p t) = true <-> shown p t None).
Proof.
  intros C H p t. rewrite forallb_forall. split.
  - intros A j Cv. apply mask_true in Cv. apply nth_error_In in Cv. apply A in Cv. discriminate.
  - intros A b I. apply In_nth_error in I. destruct I as [j E]. destruct b; [|reflexivity]. exfalso. apply mask_true in E. exact (A j E).
Qed.
Theorem at_zenith : forall C H (zen : Q -> C) (up : H) p t, shown p t None -> at_time zen up p t = Ok (zen t, option_map (fun _ => up) (pt_custom p)).
Proof. intros C H zen up p t N. unfold at_time. rewrite (proj2 (forallb_mask C H p t) N). reflexivity. Qed.
Theorem at_interval : forall C H (zen : Q -> C) (up : H) p t i, sized p -> shown p t (Some i) ->
  exists c h, coord_at p i = Some c /\ custom_at p i = Some h /\ at_time zen up p t = Ok (c, h).
Proof.
  intros C H zen up p t i (Sd & Sc & Sh) [Cv M]. unfold at_time.
  assert (L : length (mask p t) = length (pt_times p)) by (apply mask_length, durations_length, Sd).
  destruct (forallb negb (mask p t)) eqn:F; [apply forallb_mask in F; exfalso; exact (F i Cv)|].
  apply mask_true in Cv. assert (M' : forall j, i < j -> nth_error (mask p t) j <> Some true) by (intros j Hj E; apply mask_true in E; exact (M j Hj E)).
  assert (Hi : i < length (pt_times p)) by (rewrite <- L; apply nth_error_Some; congruence).
  set (cs := match pt_coords p with One c => repeat c (length (pt_times p)) | Many l => l end).
  assert (Lc : length cs = length (pt_times p)) by (unfold cs; destruct (pt_coords p); [apply repeat_length|exact Sc]).
  assert (X : exists c, nth_error cs i = Some c /\ coord_at p i = Some c).
  { unfold cs, coord_at in *. destruct (pt_coords p) as [c|l].
    - exists c. apply Nat.ltb_lt in Hi. rewrite Hi. split; [|reflexivity]. apply Nat.ltb_lt in Hi. rewrite (nth_error_nth' _ c) by (rewrite repeat_length; exact Hi). f_equal. apply nth_repeat.
    - destruct (nth_error l i) as [c|] eqn:N; [exists c; auto|]. apply nth_error_None in N. lia. }
  destruct X as [c [X1 X2]]. rewrite (pick_last_ok C (mask p t) cs i c) by (try exact X1; try exact Cv; try exact M'; lia). cbn [bind].
  destruct (pt_custom p) as [hs|] eqn:Hc.
  - destruct hs as [|h [|h' hs]].
    + destruct Sh as [Sh|Sh]; cbn in Sh; lia.
    + exists c, (Some h). unfold custom_at. rewrite Hc. auto.
    + destruct Sh as [Sh|Sh]; [cbn in Sh; lia|].
      destruct (nth_error (h :: h' :: hs) i) as [x|] eqn:N; [|apply nth_error_None in N; lia].
      exists c, (Some x). split; [exact X2|]. split; [unfold custom_at; rewrite Hc, N; reflexivity|].
      rewrite (pick_last_ok H (mask p t) (h :: h' :: hs) i x) by (try exact N; try exact Cv; try exact M'; lia). reflexivity.
  - exists c, None. unfold custom_at. rewrite Hc. auto.
Qed.
(** A time in an interval cannot be read when there are not as many coordinates as times. *)
Theorem at_mismatch : forall C H (zen : Q -> C) (up : H) p t i l, length (pt_durs p) = 1 \/ length (pt_durs p) = length (pt_times p) ->
  pt_coords p = Many l -> length l <> length (pt_times p) -> covers p t i -> at_time zen up p t = Err EIndexError.
Proof.
  intros C H zen up p t i l Sd E N Cv. unfold at_time. destruct (forallb negb (mask p t)) eqn:F; [apply forallb_mask in F; exfalso; exact (F i Cv)|].
  rewrite E. unfold pick_last. rewrite mask_length by (apply durations_length; exact Sd). apply Nat.eqb_neq in N. rewrite N. reflexivity.
Qed.

Lemma all_times_spec : forall A (f : Q -> res A) ts l, all_times f ts = Ok l <-> Forall2 (fun t x => f t = Ok x) ts l.
Proof.
  intros A f. induction ts as [|t ts IH]; intro l; cbn.
  - split; [intro E; injection E as <-; constructor|intro F; inversion F; reflexivity].
  - destruct (f t) as [x|e] eqn:E; cbn.
    + destruct (all_times f ts) as [m|e'] eqn:E'; cbn.
      * split; [intro K; injection K as <-; constructor; [exact E|apply IH; reflexivity]|].
        intro F. inversion F as [|? ? ? ? Fx Fr]; subst. apply IH in Fr. congruence.
      * split; [discriminate|]. intro F. inversion F as [|? ? ? ? Fx Fr]; subst. apply IH in Fr. congruence.
    + split; [discriminate|]. intro F. inversion F; subst. congruence.
Qed.
Lemma custom_some : forall C H (p : pt C H) i h, custom_at p i = Some h -> pt_custom p <> None -> h <> None.
Proof.
  intros C H p i h E N. unfold custom_at in E. destruct (pt_custom p) as [hs|]; [|congruence]. destruct hs as [|a [|b r]]; [destruct i; discriminate|congruence|].
  destruct (nth_error (a :: b :: r) i); cbn in E; congruence.
Qed.
Theorem getitem_ok : forall C H (zen : Q -> C) (up : H) p ts, sized p -> exists q l, getitem zen up p ts = Ok q /\
  pt_times q = ts /\ pt_durs q = [1%Q] /\ pt_coords q = Many (map fst l) /\
  (pt_custom p = None -> pt_custom q = None) /\ (pt_custom p <> None -> exists hs, pt_custom q = Some hs /\ map Some hs = map snd l) /\
  Forall2 (fun t x => forall o, shown p t o ->
    match o with
    | Some i => coord_at p i = Some (fst x) /\ custom_at p i = Some (snd x)
    | None => fst x = zen t /\ snd x = option_map (fun _ => up) (pt_custom p)
    end) ts l.
Proof.
  intros C H zen up p ts S.
  assert (X : exists l, Forall2 (fun t x => at_time zen up p t = Ok x /\ (pt_custom p <> None -> snd x <> None) /\ (forall o, shown p t o ->
    match o with Some i => coord_at p i = Some (fst x) /\ custom_at p i = Some (snd x) | None => fst x = zen t /\ snd x = option_map (fun _ => up) (pt_custom p) end)) ts l).
  { induction ts as [|t ts [l IH]]; [exists []; constructor|].
    destruct (shown_exists C H p t (proj1 S)) as [o [So Uo]]. destruct o as [i|].
    - destruct (at_interval C H zen up p t i S So) as (c & h & X1 & X2 & X3). exists ((c, h) :: l). constructor; [|exact IH]. split; [exact X3|]. split.
      + intro N. exact (custom_some C H p i h X2 N).
      + intros o' So'. rewrite (Uo o' So'). auto.
    - exists ((zen t, option_map (fun _ => up) (pt_custom p)) :: l). constructor; [|exact IH]. split; [apply at_zenith; exact So|]. split.
      + intro N. cbn. destruct (pt_custom p); [discriminate|congruence].
      + intros o' So'. rewrite (Uo o' So'). auto. }
  destruct X as [l F]. unfold getitem.
  rewrite (proj2 (all_times_spec _ (at_time zen up p) ts l)); [|clear - F; induction F; constructor; tauto]. cbn [bind new_pointing].
  eexists. exists l. split; [reflexivity|]. cbn [pt_times pt_durs pt_coords pt_custom]. split; [reflexivity|]. split; [reflexivity|]. split; [reflexivity|].
  split; [intros ->; reflexivity|]. split.
  - intro N. destruct (pt_custom p) as [hs|] eqn:E; [|congruence]. eexists. split; [reflexivity|]. clear - F.
    induction F as [|t x ts l (A & B & D) F IH]; [reflexivity|]. cbn. assert (K : snd x <> None) by (apply B; discriminate).
    destruct (snd x) as [h|] eqn:Eh; [|congruence]. cbn. f_equal. exact IH.
  - clear - F. induction F; constructor; tauto.
Qed.
(** Every interval asked again at the same increasing times gives the same. *)
Theorem getitem_twice : forall C H (zen : Q -> C) (up : H) p ts q, sized p -> StronglySorted Qlt ts -> getitem zen up p ts = Ok q ->
  exists q', getitem zen up q ts = Ok q' /\ pt_coords q' = pt_coords q /\ pt_custom q' = pt_custom q.
Proof.
  intros C H zen up p ts q S So E. destruct (getitem_ok C H zen up p ts S) as (q0 & l & E0 & Ht & Hd & Hc & N0 & N1 & F).
  rewrite E in E0. injection E0 as <-.
  assert (Ll : length l = length ts) by (clear - F; induction F; cbn; congruence).
  assert (Sq : sized q).
  { split; [left; rewrite Hd; reflexivity|]. split; [rewrite Hc, Ht, map_length; exact Ll|]. destruct (pt_custom p) as [hs|] eqn:Ep.
    - destruct N1 as [hs' [-> M]]; [discriminate|]. right. rewrite Ht, <- Ll. assert (L : length (map Some hs') = length (map snd l)) by congruence. rewrite !map_length in L. exact L.
    - rewrite N0 by reflexivity. exact I. }
  destruct (getitem_ok C H zen up q ts Sq) as (q' & l' & E' & Ht' & Hd' & Hc' & N0' & N1' & F').
  exists q'. split; [exact E'|].
  assert (Ll' : length l' = length ts) by (clear - F'; induction F'; cbn; congruence).
  assert (Sh : forall i t, nth_error ts i = Some t -> shown q t (Some i)).
  { intros i t Hi. assert (Hn : i < length ts) by (apply nth_error_Some; congruence). split.
    - exists t, 1%Q. rewrite Ht. split; [exact Hi|]. split; [unfold durations; rewrite Hd; rewrite (nth_error_nth' _ 1%Q) by (rewrite repeat_length, Ht; exact Hn); f_equal; apply nth_repeat|]. lra.
    - intros j Hj (s & d & A & _ & B & _). rewrite Ht in A.
      assert (t < s)%Q; [|lra]. clear - So Hi A Hj. revert i j Hi A Hj. induction So as [|x r So IH Fx]; intros [|i] [|j] Hi A Hj; try lia; try discriminate; cbn in *.
      + injection Hi as <-. rewrite Forall_forall in Fx. apply Fx. eapply nth_error_In. exact A.
      + apply (IH i j Hi A). lia. }
  assert (Eq : forall i, nth_error (map fst l') i = nth_error (map fst l) i /\ (pt_custom p <> None -> nth_error (map snd l') i = nth_error (map snd l) i)).
  { intro i. destruct (nth_error ts i) as [t|] eqn:Ti.
    - assert (X : exists x, nth_error l' i = Some x). { destruct (nth_error l' i) eqn:Z; [eauto|]. apply nth_error_None in Z. assert (i < length ts) by (apply nth_error_Some; congruence). lia. }
      destruct X as [x Hx]. pose proof (Sh i t Ti) as Hs.
      assert (K : coord_at q i = Some (fst x) /\ custom_at q i = Some (snd x)).
      { clear - F' Ti Hx Hs. revert i Ti Hx Hs. revert F'. generalize q. intros p0 F'. induction F' as [|a b r r' R F' IH]; intros [|i] Ti Hx Hs; try discriminate; cbn in *.
        - injection Ti as ->. injection Hx as ->. exact (R (Some 0) Hs).
        - assert (G : forall r r' i t x k, Forall2 (fun t x => forall o, shown p0 t o -> match o with Some i => coord_at p0 i = Some (fst x) /\ custom_at p0 i = Some (snd x) | None => fst x = zen t /\ snd x = option_map (fun _ => up) (pt_custom p0) end) r r' ->
            nth_error r i = Some t -> nth_error r' i = Some x -> shown p0 t (Some k) -> coord_at p0 k = Some (fst x) /\ custom_at p0 k = Some (snd x)).
          { clear. induction r as [|a r IH]; intros r' i t x k F Ti Hx Hs; [destruct i; discriminate|]. inversion F; subst. destruct i; cbn in *.
            - injection Ti as ->. injection Hx as ->. exact (H2 (Some k) Hs).
            - eapply IH; eassumption. }
          exact (G r r' i t x (S i) F' Ti Hx Hs). }
      destruct K as [K1 K2]. unfold coord_at in K1. rewrite Hc in K1. rewrite !nth_error_map, Hx. rewrite nth_error_map in K1. split; [symmetry; exact K1|].
      intro N. destruct (N1 N) as [hs [Eh Mh]]. unfold custom_at in K2. rewrite Eh in K2.
      assert (Z : nth_error (map Some hs) i = Some (snd x)).
      { rewrite nth_error_map. destruct hs as [|h [|h' hs]]; [destruct i; discriminate| |exact K2].
        assert (length l = 1) by (assert (L : length (map Some [h]) = length (map snd l)) by congruence; rewrite !map_length in L; cbn in L; lia).
        assert (i = 0) by (assert (i < length ts) by (apply nth_error_Some; congruence); lia). subst i. exact K2. }
      rewrite Mh, nth_error_map in Z. cbn. destruct (nth_error l i); cbn in *; congruence.
    - apply nth_error_None in Ti. split; [|intros _]; rewrite !(proj2 (nth_error_None _ _)); try reflexivity; rewrite map_length; lia. }
  split.
  - rewrite Hc, Hc'. f_equal. apply list_ext_error. intro i. apply Eq.
  - destruct (pt_custom p) as [hp|] eqn:Ep.
    + destruct (N1 ltac:(discriminate)) as [hs [Eh Mh]]. destruct N1' as [hs' [Eh' Mh']]; [rewrite Eh; discriminate|]. rewrite Eh, Eh'. f_equal.
      assert (Z : map Some hs' = map Some hs). { rewrite Mh, Mh'. apply list_ext_error. intro i. apply Eq. discriminate. }
      clear - Z. revert hs Z. induction hs' as [|a r IH]; intros [|b s] Z; try discriminate; [reflexivity|]. cbn in Z. injection Z as -> Z. f_equal. apply IH. exact Z.
    + rewrite (N0 eq_refl) in *. rewrite N0' by reflexivity. reflexivity.
Qed.
Theorem getitem_unsorted_refuted : exists (p : pt nat nat) ts q, sized p /\ getitem (fun _ => 99) 99 p ts = Ok q /\
  exists q', getitem (fun _ => 99) 99 q ts = Ok q' /\ pt_coords q' <> pt_coords q.
Proof.
  exists (mkPt (Many [1; 2]) [10; 21 # 2]%Q [1 # 2]%Q None), [21 # 2; 10]%Q. eexists.
  split; [split; [left; reflexivity|split; [reflexivity|exact I]]|]. split; [vm_compute; reflexivity|]. eexists. split; [vm_compute; reflexivity|]. vm_compute. discriminate.
Qed.
