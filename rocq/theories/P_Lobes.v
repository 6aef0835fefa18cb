(** Lemmas on rotations, grating lobes and masks of contamination (M_Lobes). *)
From Coq Require Import QArith Qround ZArith Bool List Lia Lqa Sorted.
From Verif Require Import Base M_Lobes.
Import ListNotations.
Open Scope Z_scope.
Open Scope list_scope.

(** * Rotations *)
(** Rotations of a Mini-Array that look the same: modulo 60 degrees. *)
Definition looks_like (x y : Z) : Prop := exists k, x = y + 60 * k.
Definition increasing (l : list Z) : Prop := StronglySorted Z.lt l.
Lemma uinsert_in x y l : In y (uinsert x l) <-> y = x \/ In y l.
Proof.
  induction l as [|z l IH]; cbn [uinsert]; [cbn; intuition|]. destruct (Z.ltb_spec x z); [cbn; intuition|]. destruct (Z.eqb_spec x z) as [->|]; [cbn; intuition|]. cbn [In]. rewrite IH. intuition.
Qed.
Lemma uinsert_sorted x l : increasing l -> increasing (uinsert x l).
Proof.
  intro H. induction H as [|z l H IH F]; cbn [uinsert]; [repeat constructor|]. destruct (Z.ltb_spec x z).
  - constructor; [constructor; assumption|]. constructor; [assumption|]. eapply Forall_impl; [|exact F]. cbn. lia.
  - destruct (Z.eqb_spec x z) as [->|]; [now constructor|]. constructor; [exact IH|]. apply Forall_forall. intros y Y. apply uinsert_in in Y. destruct Y as [->|Y]; [lia|]. rewrite Forall_forall in F. auto.
Qed.
Lemma unique_spec l : increasing (unique l) /\ forall y, In y (unique l) <-> In y l.
Proof.
  unfold unique. induction l as [|x l [A B]]; cbn [fold_right]; [split; [constructor|tauto]|]. split; [now apply uinsert_sorted|]. intro y. rewrite uinsert_in, B. cbn. intuition.
Qed.
Lemma multiple_iff l : forallb (fun rot => rot mod 10 =? 0) l = true <-> forall x, In x l -> (10 | x).
Proof.
  rewrite forallb_forall. split; intros H x I; specialize (H x I).
  - apply Z.eqb_eq in H. apply Z.mod_divide in H; [exact H|discriminate].
  - apply Z.eqb_eq. apply Z.mod_divide; [discriminate|exact H].
Qed.
Theorem rotations_right : forall l, (forall x, In x l -> (10 | x)) -> exists r, rotations (Some l) = Ok r /\ increasing r /\
  forall y, In y r <-> 0 <= y < 60 /\ exists x, In x l /\ looks_like x y.
Proof.
  intros l H. unfold rotations. rewrite (proj2 (multiple_iff l) H). destruct (unique_spec (map (fun rot => rot mod 60) l)) as [A B]. eexists. split; [reflexivity|]. split; [exact A|]. intro y. rewrite B, in_map_iff. split.
  - intros (x & <- & I). assert (M := Z.mod_pos_bound x 60 ltac:(lia)). split; [lia|]. exists x. split; [exact I|]. exists (x / 60). assert (D := Z.div_mod x 60 ltac:(lia)). lia.
  - intros (Y & x & I & k & ->). exists (y + 60 * k). split; [|exact I]. rewrite Z.mul_comm, Z.mod_add by lia. apply Z.mod_small. lia.
Qed.
Theorem rotations_refused : forall l, rotations (Some l) = Err EValueError <-> exists x, In x l /\ ~ (10 | x).
Proof.
  intro l. unfold rotations. destruct (forallb _ l) eqn:E.
  - split; [discriminate|]. intros (x & I & N). elim N. apply (proj1 (multiple_iff l) E x I).
  - split; [|reflexivity]. intros _. clear -E. induction l as [|x l IH]; [discriminate|]. cbn [forallb] in E. apply andb_false_iff in E. destruct E as [E|E].
    + exists x. split; [now left|]. intro D. apply Z.eqb_neq in E. apply E. now apply Z.mod_divide.
    + destruct (IH E) as (y & I & N). exists y. split; [now right|exact N].
Qed.
Theorem rotations_all : rotations None = rotations (Some [0; 10; 20; 30; 40; 50]).
Proof. reflexivity. Qed.
(** The rotation of each of the Mini-Arrays of the table (nenufar_array.json, in degrees). *)
Definition actual (m r : Z) : Prop := In (m, r) [(0, 0); (1, 30); (3, 200); (7, 230); (11, 310); (13, 40)].
Lemma increasing_in a b : increasing a -> increasing b -> (forall y, In y a <-> In y b) -> a = b.
Proof.
  intro A. revert b. induction A as [|x a A IH F]; intros b B H.
  - destruct b as [|y b]; [reflexivity|]. destruct (proj2 (H y) (or_introl eq_refl)).
  - destruct B as [|y b B G]; [destruct (proj1 (H x) (or_introl eq_refl))|]. rewrite Forall_forall in F, G.
    assert (x = y) as <-. { destruct (proj1 (H x) (or_introl eq_refl)) as [->|X]; [reflexivity|]. destruct (proj2 (H y) (or_introl eq_refl)) as [->|Y]; [reflexivity|]. assert (P := F _ Y). assert (Q := G _ X). lia. }
    f_equal. apply IH; [exact B|]. intro z. split; intro I.
    + destruct (proj1 (H z) (or_intror I)) as [<-|J]; [|exact J]. assert (P := F _ I). lia.
    + destruct (proj2 (H z) (or_intror I)) as [<-|J]; [|exact J]. assert (P := G _ I). lia.
Qed.
Theorem selected_right : forall l r m, rotations (Some l) = Ok r -> (In m (selected r) <-> exists a x, actual m a /\ In x l /\ looks_like x a).
Proof.
  intros l r m R. assert (H : forall x, In x l -> (10 | x)). { unfold rotations in R. destruct (forallb _ l) eqn:E; [|discriminate]. now apply multiple_iff. }
  destruct (rotations_right l H) as (r' & R' & S & I). rewrite R in R'. injection R' as <-. unfold selected. rewrite in_map_iff. split.
  - intros ((m' & t) & <- & J). apply filter_In in J. destruct J as [J E]. cbn [fst snd] in *. apply existsb_exists in E. destruct E as (y & Y & E). apply Z.eqb_eq in E. subst y. apply I in Y. destruct Y as (B & x & X & k & L).
    cbn in J. destruct J as [J|[J|[J|[J|[J|[J|[]]]]]]]; injection J as <- <-; (eexists; exists x; split; [unfold actual; cbn; tauto|]; split; [exact X|]);
      [exists k|exists k|exists (k - 3)|exists (k - 3)|exists (k - 5)|exists k]; lia.
  - intros (a & x & A & X & k & L). unfold actual in A. cbn in A. exists (m, a mod 60). split; [reflexivity|]. apply filter_In. split.
    + destruct A as [A|[A|[A|[A|[A|[A|[]]]]]]]; injection A as <- <-; cbn; tauto.
    + apply existsb_exists. exists (a mod 60). split; [|apply Z.eqb_refl]. apply I. assert (M := Z.mod_pos_bound a 60 ltac:(lia)). split; [lia|]. exists x. split; [exact X|]. exists (k + a / 60). assert (D := Z.div_mod a 60 ltac:(lia)). lia.
Qed.
Theorem selected_none : forall l r, rotations (Some l) = Ok r -> (selected r = [] <-> l = []).
Proof.
  intros l r R. split; intro E.
  - destruct l as [|x l]; [reflexivity|]. exfalso. assert (H : forall x', In x' (x :: l) -> (10 | x')). { unfold rotations in R. destruct (forallb _ (x :: l)) eqn:F; [|discriminate]. now apply multiple_iff. }
    assert (D := H x (or_introl eq_refl)). destruct D as [k Hk]. assert (M := Z.mod_pos_bound k 6 ltac:(lia)). assert (V := Z.div_mod k 6 ltac:(lia)).
    assert (exists m a, actual m a /\ looks_like x a) as (m & a & A & L).
    { assert (C : k mod 6 = 0 \/ k mod 6 = 1 \/ k mod 6 = 2 \/ k mod 6 = 3 \/ k mod 6 = 4 \/ k mod 6 = 5) by lia. unfold actual. cbn.
      destruct C as [C|[C|[C|[C|[C|C]]]]]; [exists 0, 0|exists 11, 310|exists 3, 200|exists 1, 30|exists 13, 40|exists 7, 230]; (split; [tauto|]); [exists (k / 6)|exists (k / 6 - 5)|exists (k / 6 - 3)|exists (k / 6)|exists (k / 6)|exists (k / 6 - 3)]; lia. }
    assert (I : In m (selected r)) by (apply (selected_right _ _ _ R); exists a, x; split; [exact A|]; split; [now left|exact L]). rewrite E in I. destruct I.
  - subst l. injection R as <-. reflexivity.
Qed.
Theorem summed_refused : forall factor gain use l r, rotations (Some l) = Ok r -> (l = [] <-> exists e, summed factor gain use r = Err e).
Proof.
  intros factor gain use l r R. rewrite <- (selected_none l r R). unfold summed. destruct (selected r); split.
  - intros _. destruct use; eexists; reflexivity.
  - reflexivity.
  - discriminate.
  - intros (e & E). discriminate.
Qed.
(** Total of a family over a list *)
Inductive totals {A} (f : A -> Q) : list A -> Q -> Prop :=
| totals_nil : totals f [] 0%Q
| totals_cons : forall x l s, totals f l s -> totals f (x :: l) (f x + s)%Q.
Theorem summed_right : forall factor gain use l r, rotations (Some l) = Ok r -> l <> [] -> exists af, summed factor gain use r = Ok af /\
  forall t f c, exists s, totals (fun m => factor m t f c) (selected r) s /\ (af t f c == if use then gain t f c * s else s)%Q.
Proof.
  intros factor gain use l r R N. assert (S : selected r <> []) by (intro E; apply N, (selected_none l r R), E). unfold summed.
  assert (T : forall t f c ms, totals (fun m => factor m t f c) ms (qsum (map (fun m => factor m t f c) ms))) by (intros t f c; induction ms as [|m ms IH]; cbn; constructor; exact IH).
  destruct (selected r) as [|m ms] eqn:E; [contradiction|]. eexists; split; [reflexivity|]. intros t f c. eexists; split; [apply T|].
  cbv zeta beta. destruct use; [apply Qmult_comm|apply Qeq_refl].
Qed.

(** * Grating lobes *)
Open Scope Q_scope.
(** A maximum over finite sets. *)
Lemma qmax_spec a b : (a <= qmax a b /\ b <= qmax a b) /\ (qmax a b = a \/ qmax a b = b).
Proof. unfold qmax. destruct (Qle_bool a b) eqn:E; [apply Qle_bool_iff in E; repeat split; try assumption; try apply Qle_refl; now right|]. assert (~ a <= b) by (rewrite <- Qle_bool_iff; congruence). repeat split; [apply Qle_refl|lra|now left]. Qed.
Lemma qmaximum_spec : forall l, l <> [] -> exists m, qmaximum l = Some m /\ In m l /\ forall x, In x l -> x <= m.
Proof.
  induction l as [|x l IH]; intro H; [contradiction|]. destruct l as [|y l].
  - exists x. split; [reflexivity|]. split; [now left|]. intros z [<-|[]]. apply Qle_refl.
  - destruct IH as (m & M & I & B); [discriminate|]. change (qmaximum (x :: y :: l)) with (option_map (qmax x) (qmaximum (y :: l))). rewrite M. cbn [option_map]. exists (qmax x m). split; [reflexivity|]. destruct (qmax_spec x m) as [[X Y] Z]. split.
    + destruct Z as [->| ->]; [now left|now right].
    + intros z [<-|J]; [exact X|]. eapply Qle_trans; [apply B, J|exact Y].
Qed.
Lemma all_some_spec {A} (l : list (option A)) : (forall x, In x l -> x <> None) -> exists v, all_some l = Some v /\ l = map Some v.
Proof.
  induction l as [|x l IH]; intro H; [exists []; auto|]. destruct IH as (v & V & E); [intros; apply H; now right|]. destruct x as [x|]; [|elim (H None (or_introl eq_refl)); reflexivity].
  exists (x :: v). cbn. rewrite V, E. auto.
Qed.
Lemma all_some_none {A} (l : list (option A)) : In None l -> all_some l = None.
Proof. induction l as [|x l IH]; intro H; [destruct H|]. destruct x as [x|]; [|reflexivity]. destruct H as [H|H]; [discriminate|]. cbn. now rewrite IH. Qed.
Lemma nan_max_spec l : l <> [] -> (forall x, In x l -> x <> None) -> exists m, nan_max l = Some m /\ In (Some m) l /\ forall x, In (Some x) l -> x <= m.
Proof.
  intros N H. destruct (all_some_spec l H) as (v & V & ->). unfold nan_max. rewrite V. destruct (qmaximum_spec v) as (m & M & I & B); [destruct v; [contradiction|discriminate]|]. exists m. split; [exact M|]. split; [now apply in_map|].
  intros x X. apply in_map_iff in X. destruct X as (y & E & Y). injection E as ->. auto.
Qed.
(** The values that matter for a frequency: of all times and cells. *)
Definition sampled (b : lobes) (f : nat) (x : option Q) : Prop := exists t c, (t < n_times b)%nat /\ (c < n_cells b)%nat /\ value b t f c = x.
Lemma sampled_in b f x : In x (flat_map (fun t => map (value b t f) (seq 0 (n_cells b))) (seq 0 (n_times b))) <-> sampled b f x.
Proof.
  rewrite in_flat_map. split.
  - intros (t & T & I). apply in_map_iff in I. destruct I as (c & E & C). apply in_seq in T, C. exists t, c. repeat split; [lia|lia|exact E].
  - intros (t & c & T & C & E). exists t. split; [apply in_seq; lia|]. apply in_map_iff. exists c. split; [exact E|apply in_seq; lia].
Qed.
(** The source of cell [x] is in the lobes: its cell has a part above the horizon where the
    value reaches [ratio] times any other one. *)
Definition in_lobe (b : lobes) (ratio : Q) (f t : nat) (x : Z) : Prop :=
  exists c v, (c < n_cells b)%nat /\ pixel b c = x /\ 0 <= altitude b t c /\ value b t f c = Some v /\ forall w, sampled b f (Some w) -> w * ratio <= v.
Definition finite (b : lobes) (f : nat) : Prop := ~ sampled b f None.
Lemma maximum_spec b f : finite b f -> (0 < n_times b)%nat -> (0 < n_cells b)%nat -> exists m, maximum b f = Some m /\ sampled b f (Some m) /\ forall w, sampled b f (Some w) -> w <= m.
Proof.
  intros F T C. destruct (nan_max_spec (flat_map (fun t => map (value b t f) (seq 0 (n_cells b))) (seq 0 (n_times b)))) as (m & M & I & B).
  - intro E. assert (X : In (value b 0 f 0) []) by (rewrite <- E; apply sampled_in; exists 0%nat, 0%nat; auto). destruct X.
  - intros x X E. subst x. apply F. now apply sampled_in.
  - exists m. split; [exact M|]. split; [now apply sampled_in|]. intros w W. apply B. now apply sampled_in.
Qed.
Lemma above_iff b ratio f t c : finite b f -> (0 < n_times b)%nat -> (c < n_cells b)%nat -> 0 <= ratio ->
  (above b ratio f t c = true <-> 0 <= altitude b t c /\ exists v, value b t f c = Some v /\ forall w, sampled b f (Some w) -> w * ratio <= v).
Proof.
  intros F T C R. destruct (maximum_spec b f F T ltac:(lia)) as (m & M & I & B). unfold above. rewrite M. split.
  - destruct (value b t f c) as [v|]; [|discriminate]. rewrite andb_true_iff, !Qle_bool_iff. intros [X Y]. split; [exact Y|]. exists v. split; [reflexivity|]. intros w W. eapply Qle_trans; [|exact X]. apply Qmult_le_compat_r; auto.
  - intros (A & v & -> & V). rewrite andb_true_iff, !Qle_bool_iff. split; [apply V, I|exact A].
Qed.
Lemma holds_iff l x : holds l x = true <-> In x l.
Proof. unfold holds. rewrite existsb_exists. split; [intros (y & I & E); apply Z.eqb_eq in E; now subst|]. intro I. exists x. split; [exact I|apply Z.eqb_refl]. Qed.
Lemma cells_iff b ratio f t x : finite b f -> (0 < n_times b)%nat -> 0 <= ratio -> (holds (cells_in_lobes b ratio f t) x = true <-> in_lobe b ratio f t x).
Proof.
  intros F T R. rewrite holds_iff. unfold cells_in_lobes. rewrite in_map_iff. split.
  - intros (c & <- & I). apply filter_In in I. destruct I as [I A]. apply in_seq in I. apply above_iff in A; try assumption; [|lia]. destruct A as (H & v & V & W). exists c, v. repeat split; auto; lia.
  - intros (c & v & C & <- & H & V & W). exists c. split; [reflexivity|]. apply filter_In. split; [apply in_seq; lia|]. apply above_iff; eauto.
Qed.
(** A table of values by frequency and time, and a count. *)
Definition entry {A} (l : list (list A)) (f t : nat) (x : A) : Prop := exists r, nth_error l f = Some r /\ nth_error r t = Some x.
Lemma nth_map_seq {A} (g : nat -> A) n i : nth_error (map g (seq 0 n)) i = if (i <? n)%nat then Some (g i) else None.
Proof.
  destruct (Nat.ltb_spec i n).
  - rewrite (nth_error_nth' _ (g 0%nat)) by (rewrite map_length, seq_length; lia). f_equal. rewrite map_nth. now rewrite seq_nth.
  - apply nth_error_None. rewrite map_length, seq_length. lia.
Qed.
Lemma table_entry {A} b (v : nat -> nat -> A) f t x : entry (table b v) f t x <-> (f < n_freqs b)%nat /\ (t < n_times b)%nat /\ x = v f t.
Proof.
  unfold entry, table. split.
  - intros (r & R & X). rewrite nth_map_seq in R. destruct (Nat.ltb_spec f (n_freqs b)); [|discriminate]. injection R as <-. rewrite nth_map_seq in X. destruct (Nat.ltb_spec t (n_times b)); [|discriminate]. injection X as <-. auto.
  - intros (F & T & ->). eexists. rewrite nth_map_seq. rewrite (proj2 (Nat.ltb_lt _ _) F). split; [reflexivity|]. rewrite nth_map_seq. now rewrite (proj2 (Nat.ltb_lt _ _) T).
Qed.
Inductive counts {A} (P : A -> Prop) : list A -> nat -> Prop :=
| counts_nil : counts P [] 0
| counts_yes : forall x l n, P x -> counts P l n -> counts P (x :: l) (S n)
| counts_no : forall x l n, ~ P x -> counts P l n -> counts P (x :: l) n.
Lemma counts_filter {A} (P : A -> Prop) p l : (forall x, In x l -> (p x = true <-> P x)) -> counts P l (length (filter p l)).
Proof.
  induction l as [|x l IH]; intro H; [constructor|]. cbn [filter]. assert (I := IH (fun y Y => H y (or_intror Y))). destruct (p x) eqn:E; cbn [length].
  - constructor; [|exact I]. apply H; [now left|exact E].
  - constructor; [|exact I]. intro X. apply H in X; [congruence|now left].
Qed.
Theorem sources_right : forall b ratio n src, (0 < n_times b)%nat -> (forall f, (f < n_freqs b)%nat -> finite b f) -> 0 <= ratio -> exists v, sources_in_lobes (compute_moc b ratio) n src = Ok v /\
  length v = n_freqs b /\ Forall (fun r => length r = n_times b) v /\ forall f t k, entry v f t k -> counts (fun s => in_lobe b ratio f t (src s t)) (seq 0 n) k /\ (k <= n)%nat.
Proof.
  intros b ratio n src T F R. eexists. split; [reflexivity|]. split; [unfold table; cbn; now rewrite map_length, seq_length|]. split.
  { apply Forall_forall. intros r I. apply in_map_iff in I. destruct I as (f & <- & _). cbn. now rewrite map_length, seq_length. }
  intros f t k E. apply table_entry in E. cbn [n_freqs n_times with_moc compute_moc] in E. destruct E as (Ff & Tt & ->). split.
  - apply counts_filter. intros s _. apply cells_iff; auto.
  - rewrite <- (seq_length n 0) at 2. generalize (seq 0 n) as l. intro l. induction l as [|x l IH]; cbn [filter length]; [lia|]. destruct (holds _ _); cbn [length]; lia.
Qed.
(** A lower threshold, wider lobes. *)
Theorem lobes_monotone : forall b ratio ratio' f t x, 0 <= ratio -> ratio <= ratio' -> (forall w, sampled b f (Some w) -> 0 <= w) -> in_lobe b ratio' f t x -> in_lobe b ratio f t x.
Proof.
  intros b ratio ratio' f t x R L P (c & v & C & X & H & V & W). exists c, v. repeat split; try assumption. intros w S. eapply Qle_trans; [|apply (W w S)]. rewrite !(Qmult_comm w). apply Qmult_le_compat_r; auto.
Qed.
(** One NaN, and no lobe at any time. *)
Theorem nan_refuted : forall b ratio n src f t k v, sampled b f None -> sources_in_lobes (compute_moc b ratio) n src = Ok v -> entry v f t k -> k = 0%nat.
Proof.
  intros b ratio n src f t k v S E I. injection E as <-. apply table_entry in I. destruct I as (_ & _ & ->). cbn [the_moc compute_moc with_moc].
  assert (M : maximum b f = None). { unfold maximum, nan_max. rewrite all_some_none; [reflexivity|]. now apply sampled_in. }
  assert (Z : cells_in_lobes b ratio f t = []). { unfold cells_in_lobes. assert (N : forall l, filter (above b ratio f t) l = []). { induction l as [|c l IH]; [reflexivity|]. cbn [filter]. unfold above at 1. rewrite M. exact IH. } now rewrite N. }
  rewrite Z. clear. generalize (seq 0 n) as l. induction l as [|x l IH]; [reflexivity|exact IH].
Qed.
(** ** Normalized factors *)
Definition above_horizon (alt : nat -> Q) (t : nat) : Prop := 0 < alt t.
Definition peak (n : nat) (af : nat -> Q) (m : Q) : Prop := (exists c, (c < n)%nat /\ af c = m) /\ forall c, (c < n)%nat -> af c <= m.
Lemma peak_ex n af : (0 < n)%nat -> exists m, peak n af m.
Proof.
  intro N. destruct (qmaximum_spec (map af (seq 0 n))) as (m & _ & I & B); [destruct n; [lia|discriminate]|]. exists m. apply in_map_iff in I. destruct I as (c & C & I). apply in_seq in I. split; [exists c; split; [lia|exact C]|].
  intros c' C'. apply B. apply in_map. apply in_seq. lia.
Qed.
Theorem normalized_right : forall n alt af t f c m, above_horizon alt t -> peak n (af t f) m -> ~ m == 0 -> (c < n)%nat -> exists v, normalized n alt af t f c = Some v /\ v == af t f c / m.
Proof.
  intros n alt af t f c m A [P B] M C. unfold normalized. assert (H : Qle_bool (alt t) 0 = false). { destruct (Qle_bool (alt t) 0) eqn:E; [|reflexivity]. apply Qle_bool_iff in E. unfold above_horizon in A. lra. }
  rewrite H. destruct (nan_max_spec (map (fun c => Some (af t f c)) (seq 0 n))) as (m' & -> & I & B').
  - destruct n; [lia|discriminate].
  - intros x X. apply in_map_iff in X. destruct X as (y & <- & _). discriminate.
  - assert (E : m' == m). { apply in_map_iff in I. destruct I as (c' & E & I). injection E as <-. apply in_seq in I. apply Qle_antisym; [apply B; lia|]. destruct P as (q & Q1 & <-). apply B'. apply in_map_iff. exists q. split; [reflexivity|apply in_seq; lia]. }
    destruct (Qeq_bool m' 0) eqn:Z; [apply Qeq_bool_iff in Z; elim M; lra|]. eexists. split; [reflexivity|]. now rewrite E.
Qed.
Theorem normalized_below : forall n alt af t f c, ~ above_horizon alt t -> normalized n alt af t f c = None.
Proof.
  intros n alt af t f c A. unfold normalized. assert (H : Qle_bool (alt t) 0 = true) by (apply Qle_bool_iff; unfold above_horizon in A; lra). rewrite H. destruct (nan_max _); reflexivity.
Qed.
(** The lobes are relative to the maximum of each time. *)
Theorem lobes_relative : forall b alt af ratio f t x, 0 <= ratio -> (t < n_times b)%nat -> (forall t f c, value b t f c = normalized (n_cells b) alt af t f c) ->
  (forall t, (t < n_times b)%nat -> above_horizon alt t /\ exists m, 0 < m /\ peak (n_cells b) (af t f) m) ->
  (in_lobe b ratio f t x <-> exists c m, (c < n_cells b)%nat /\ pixel b c = x /\ 0 <= altitude b t c /\ peak (n_cells b) (af t f) m /\ m * ratio <= af t f c).
Proof.
  intros b alt af ratio f t x R T V H. destruct (H t T) as (A & m & M & P). assert (N : forall c, (c < n_cells b)%nat -> exists v, value b t f c = Some v /\ v == af t f c / m).
  { intros c C. rewrite V. apply normalized_right; auto. lra. }
  assert (One : forall w, sampled b f (Some w) -> w <= 1).
  { intros w (t' & c' & T' & C' & W). destruct (H t' T') as (A' & m' & M' & P'). rewrite V in W. destruct (normalized_right (n_cells b) alt af t' f c' m' A' P' ltac:(lra) C') as (v & E & Q). rewrite W in E. injection E as ->. rewrite Q. apply Qle_shift_div_r; [exact M'|]. rewrite Qmult_1_l. now apply P'. }
  split.
  - intros (c & v & C & X & Al & Vc & W). exists c, m. repeat split; try assumption; [apply P|apply P|]. destruct (N c C) as (v' & E & Q). rewrite Vc in E. injection E as <-. destruct P as [(q & Qn & Qm) _].
    destruct (N q Qn) as (w & Ew & Qw). specialize (W w (ex_intro _ t (ex_intro _ q (conj T (conj Qn Ew))))). rewrite Qw, Qm, Q in W. assert (U : m / m == 1) by (field; lra). rewrite U, Qmult_1_l in W.
    apply (Qmult_le_compat_r _ _ m) in W; [|lra]. assert (Z : af t f c / m * m == af t f c) by (field; lra). rewrite Z in W. now rewrite Qmult_comm.
  - intros (c & m' & C & X & Al & P' & L). destruct (N c C) as (v & Vc & Q). exists c, v. repeat split; try assumption. intros w W. apply One in W.
    assert (E : m == m'). { destruct P as [(q & Q1 & <-) B], P' as [(q' & Q1' & <-) B']. apply Qle_antisym; auto. }
    apply Qle_trans with ratio; [rewrite <- (Qmult_1_l ratio) at 2; now apply Qmult_le_compat_r|]. rewrite Q. apply Qle_shift_div_l; [exact M|]. rewrite Qmult_comm, E. exact L.
Qed.
Theorem below_refuted : forall b alt af ratio n src f t t' k v, (0 < n_cells b)%nat -> (forall t f c, value b t f c = normalized (n_cells b) alt af t f c) -> (t' < n_times b)%nat -> ~ above_horizon alt t' ->
  sources_in_lobes (compute_moc b ratio) n src = Ok v -> entry v f t k -> k = 0%nat.
Proof.
  intros b alt af ratio n src f t t' k v C V T A. apply nan_refuted. exists t', 0%nat. repeat split; [exact T|exact C|]. rewrite V. now apply normalized_below.
Qed.
(** ** The sky model *)
Theorem gsm_right : forall b ratio ng gsm gp threshold, (0 < n_times b)%nat -> (forall f, (f < n_freqs b)%nat -> finite b f) -> 0 <= ratio -> exists v, gsm_in_lobes (compute_moc b ratio) ng gsm gp threshold = Ok v /\
  forall f t k, entry v f t k -> (k = 1%nat \/ k = 0%nat) /\ (k = 1%nat <-> exists c, (c < ng)%nat /\ threshold <= gsm f c /\ in_lobe b ratio f t (gp c)).
Proof.
  intros b ratio ng gsm gp threshold T F R. eexists. split; [reflexivity|]. intros f t k E. apply table_entry in E. cbn [n_freqs n_times with_moc compute_moc] in E. destruct E as (Ff & Tt & ->).
  cbv zeta. set (g := map gp _). assert (Q : existsb (holds g) (cells_in_lobes b ratio f t) = true <-> exists c, (c < ng)%nat /\ threshold <= gsm f c /\ in_lobe b ratio f t (gp c)).
  { rewrite existsb_exists. split.
    - intros (x & X & G). apply holds_iff in G. apply in_map_iff in G. destruct G as (c & <- & G). apply filter_In in G. destruct G as [G1 G2]. apply in_seq in G1. apply Qle_bool_iff in G2. exists c. split; [lia|]. split; [exact G2|]. apply (cells_iff b ratio f t); auto. now apply holds_iff.
    - intros (c & C & L & I). exists (gp c). split; [apply holds_iff; apply cells_iff; auto|]. apply holds_iff. apply in_map. apply filter_In. split; [apply in_seq; lia|]. now apply Qle_bool_iff. }
  destruct (existsb _ _); split; auto.
  - split; [intros _; now apply Q|reflexivity].
  - split; [discriminate|]. intro X. apply Q in X. discriminate.
Qed.
(** ** Weights *)
Theorem weight_right : forall b n src thresholds, (0 < n_times b)%nat -> (forall f, (f < n_freqs b)%nat -> finite b f) -> Forall (fun r => 0 <= r) thresholds -> thresholds <> [] ->
  forall f t w, entry (snd (compute_weight_moc b n src thresholds)) f t w -> exists k q, w = Some q /\ counts (fun r => exists s, (s < n)%nat /\ in_lobe b r f t (src s t)) thresholds k /\
    q * inject_Z (Z.of_nat (length thresholds)) == inject_Z (Z.of_nat k) /\ 0 <= q <= 1.
Proof.
  intros b n src ths T F P N f t w E. cbn [compute_weight_moc snd] in E. apply table_entry in E. destruct E as (Ff & Tt & ->). set (k := length (filter (fun r => reached b n src r f t) ths)).
  assert (K : (k <= length ths)%nat). { unfold k. clear. induction ths as [|x l IH]; cbn [filter length]; [lia|]. destruct (reached _ _ _ _ _ _); cbn [length]; lia. }
  assert (L : (0 < length ths)%nat) by (destruct ths; [contradiction|cbn; lia]).
  assert (LQ : 0 < inject_Z (Z.of_nat (length ths))) by (unfold Qlt; cbn; lia).
  exists k, (inject_Z (Z.of_nat k) / inject_Z (Z.of_nat (length ths))). split; [unfold weight; destruct ths; [contradiction|reflexivity]|]. split.
  - apply counts_filter. intros r I. unfold reached. rewrite existsb_exists. rewrite Forall_forall in P. split.
    + intros (s & S & H). apply in_seq in S. exists s. split; [lia|]. apply cells_iff in H; auto.
    + intros (s & S & H). exists s. split; [apply in_seq; lia|]. apply cells_iff; auto.
  - split; [field; lra|]. split.
    + apply Qle_shift_div_l; [exact LQ|]. rewrite Qmult_0_l. unfold Qle. cbn. lia.
    + apply Qle_shift_div_r; [exact LQ|]. rewrite Qmult_1_l. unfold Qle. cbn. lia.
Qed.
Theorem weight_state : forall b n n' src src' thresholds ratio, let after := fst (compute_weight_moc b n src thresholds) in
  sources_in_lobes after n' src' = Err EAttributeError /\ sources_in_lobes (compute_moc after ratio) n' src' = sources_in_lobes (compute_moc b ratio) n' src'.
Proof. intros. split; reflexivity. Qed.
Theorem moc_first : forall b n src, the_moc b = NoMoc -> sources_in_lobes b n src = Err EAttributeError /\ forall ng g gp th, gsm_in_lobes b ng g gp th = Err EAttributeError.
Proof. intros b n src H. unfold sources_in_lobes, gsm_in_lobes. rewrite H. auto. Qed.
(** ** The sample drawn *)
Theorem first_right : forall l x, (first_at 0 x l = -1)%Z /\ (forall y, In y l -> y < x) \/ exists i y, first_at 0 x l = Z.of_nat i /\ nth_error l i = Some y /\ x <= y /\ forall j z, (j < i)%nat -> nth_error l j = Some z -> z < x.
Proof.
  intros l x. assert (G : forall k, (first_at k x l = -1)%Z /\ (forall y, In y l -> y < x) \/ exists i y, first_at k x l = Z.of_nat (k + i) /\ nth_error l i = Some y /\ x <= y /\ forall j z, (j < i)%nat -> nth_error l j = Some z -> z < x).
  { induction l as [|y l IH]; intro k; cbn [first_at]; [left; split; [reflexivity|intros y []]|]. destruct (Qle_bool x y) eqn:E.
    - right. exists 0%nat, y. split; [f_equal; lia|]. split; [reflexivity|]. split; [now apply Qle_bool_iff|]. intros j z J. lia.
    - assert (Y : y < x) by (apply Qnot_le_lt; rewrite <- Qle_bool_iff; congruence). destruct (IH (S k)) as [[A B]|(i & z & A & B & C & D)].
      + left. split; [exact A|]. intros z [<-|I]; auto.
      + right. exists (S i), z. split; [rewrite A; f_equal; lia|]. split; [exact B|]. split; [exact C|]. intros [|j] u J U; [cbn in U; injection U as <-; exact Y|]. apply (D j); [lia|exact U]. }
  exact (G 0%nat).
Qed.
