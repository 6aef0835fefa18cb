(** Specifications and lemmas for M_Antenna: reference dipoles. *)
From Coq Require Import Ascii String List Arith ZArith QArith Bool Permutation Sorting.Sorted Lia.
From Verif Require Import Base M_Antenna.
Import ListNotations.
Open Scope nat_scope.
Open Scope list_scope.

(** * Sorted lists *)
Lemma insert_perm : forall x l, Permutation (x :: l) (insert x l).
Proof.
  intros x l; induction l as [|y l IH]; cbn; [apply Permutation_refl|]. destruct (x <=? y)%Z; [apply Permutation_refl|].
  eapply perm_trans; [apply perm_swap|]. now constructor.
Qed.
Lemma sort_perm : forall l, Permutation l (sort l).
Proof. induction l as [|x l IH]; cbn; [constructor|]. eapply perm_trans; [apply perm_skip, IH|apply insert_perm]. Qed.
Lemma insert_sorted : forall x l, StronglySorted Z.le l -> StronglySorted Z.le (insert x l).
Proof.
  intros x l H; induction H as [|y l H IH F]; cbn; [repeat constructor|]. destruct (Z.leb_spec x y).
  - constructor; [now constructor|]. constructor; [assumption|]. eapply Forall_impl; [|exact F]. intros; lia.
  - constructor; [exact IH|]. eapply Permutation_Forall; [apply insert_perm|]. constructor; [lia|exact F].
Qed.
Lemma sort_sorted : forall l, StronglySorted Z.le (sort l).
Proof. induction l as [|x l IH]; cbn; [constructor|now apply insert_sorted]. Qed.
Lemma sorted_unique : forall l m, StronglySorted Z.le l -> StronglySorted Z.le m -> Permutation l m -> l = m.
Proof.
  induction l as [|x l IH]; intros m L M P; [apply Permutation_nil in P; now subst|].
  destruct m as [|y m]; [apply Permutation_sym, Permutation_nil in P; discriminate|].
  inversion L as [|? ? L1 L2]; inversion M as [|? ? M1 M2]; subst. rewrite Forall_forall in L2, M2.
  assert (x = y) as ->.
  { assert (A : In x (y :: m)) by (eapply Permutation_in; [exact P|now left]).
    assert (B : In y (x :: l)) by (eapply Permutation_in; [apply Permutation_sym; exact P|now left]).
    destruct A as [A|A]; [now symmetry|]. destruct B as [B|B]; [assumption|]. specialize (L2 _ B). specialize (M2 _ A). lia. }
  f_equal. apply IH; [assumption|assumption|]. now apply Permutation_cons_inv in P.
Qed.
Lemma sort_same : forall l m, Permutation l m -> sort l = sort m.
Proof.
  intros l m P. apply sorted_unique; [apply sort_sorted|apply sort_sorted|].
  eapply perm_trans; [apply Permutation_sym, sort_perm|]. eapply perm_trans; [exact P|apply sort_perm].
Qed.
Lemma sorted_rev_opp : forall l, StronglySorted Z.le l -> StronglySorted Z.le (rev (map Z.opp l)).
Proof.
  intros l H; induction H as [|x l H IH F]; cbn; [constructor|].
  assert (G : forall a b, StronglySorted Z.le a -> Forall (fun y => y <= b)%Z a -> StronglySorted Z.le (a ++ [b])).
  { intros a b A; induction A as [|y a A IA FA]; intros B; cbn; [repeat constructor|]. inversion B; subst. constructor; [now apply IA|]. apply Forall_app. split; [assumption|now repeat constructor]. }
  apply G; [exact IH|]. apply Forall_rev. apply Forall_forall. intros y Y. apply in_map_iff in Y. destruct Y as (z & <- & Z0).
  rewrite Forall_forall in F. specialize (F _ Z0). lia.
Qed.
Lemma sort_opp : forall l, sort (map Z.opp l) = rev (map Z.opp (sort l)).
Proof.
  intros l. apply sorted_unique; [apply sort_sorted|apply sorted_rev_opp, sort_sorted|].
  eapply perm_trans; [apply Permutation_sym, sort_perm|]. eapply perm_trans; [|apply Permutation_rev]. apply Permutation_map, sort_perm.
Qed.
Lemma sort_length : forall l, length (sort l) = length l.
Proof. intros. symmetry. apply Permutation_length, sort_perm. Qed.

(** * Closeness *)
Section Close.
Variable tol : Z.
Hypothesis tol_pos : (0 <= tol)%Z.
Lemma isclose_refl : forall a, isclose tol a a = true.
Proof. intros a. unfold isclose. apply Z.leb_le. lia. Qed.
Lemma isclose_opp : forall a b, isclose tol (- a) (- b) = isclose tol a b.
Proof. intros a b. unfold isclose. replace (- a - - b)%Z with (- (a - b))%Z by lia. now rewrite !Z.abs_opp. Qed.
Lemma all_close_refl : forall l, all_close tol l l = true.
Proof. intros l. unfold all_close. apply forallb_forall. intros (a, b) I. assert (a = b) as -> by (clear tol_pos; induction l as [|x l IH]; [inversion I|destruct I as [E|I]; [injection E as -> ->; reflexivity|now apply IH]]). apply isclose_refl. Qed.
End Close.
Lemma combine_app : forall A B (a c : list A) (b d : list B), length a = length b -> combine (a ++ c) (b ++ d) = combine a b ++ combine c d.
Proof. induction a as [|x a IH]; intros c [|y b] d L; cbn in *; try discriminate; [reflexivity|]. now rewrite IH by lia. Qed.
Lemma combine_rev : forall A B (a : list A) (b : list B), length a = length b -> combine (rev a) (rev b) = rev (combine a b).
Proof.
  induction a as [|x a IH]; intros [|y b] L; cbn in *; try discriminate; [reflexivity|]. rewrite combine_app by (rewrite !rev_length; lia). now rewrite IH by lia.
Qed.
Lemma forallb_rev : forall A (f : A -> bool) l, forallb f (rev l) = forallb f l.
Proof. intros A f l; induction l as [|x l IH]; [reflexivity|]. cbn. rewrite forallb_app, IH. cbn. now rewrite andb_true_r, andb_comm. Qed.
Lemma all_close_rev_opp : forall tol a b, length a = length b -> all_close tol (rev (map Z.opp a)) (rev (map Z.opp b)) = all_close tol a b.
Proof.
  intros tol a b L. unfold all_close. rewrite combine_rev by (now rewrite !map_length). rewrite forallb_rev.
  clear L; revert b; induction a as [|x a IH]; intros [|y b]; cbn; try reflexivity. now rewrite isclose_opp, IH.
Qed.
Lemma opp_opp : forall l, map Z.opp (map Z.opp l) = l.
Proof. intros l. rewrite map_map. rewrite <- (map_id l) at 2. apply map_ext. intros; lia. Qed.
Lemma close_opp : forall tol d r, length d = length r ->
  all_close tol (sort (map Z.opp d)) (sort r) = all_close tol (sort d) (sort (map Z.opp r)).
Proof.
  intros tol d r L. rewrite (sort_opp d). rewrite <- (opp_opp r) at 1. rewrite (sort_opp (map Z.opp r)).
  apply all_close_rev_opp. now rewrite !sort_length, map_length.
Qed.
Lemma equivalent_opp : forall tol d r, length d = length r -> equivalent tol (map Z.opp d) r = equivalent tol d r.
Proof.
  intros tol d r L. unfold equivalent. rewrite (close_opp tol d r L).
  rewrite (close_opp tol d (map Z.opp r)) by (now rewrite map_length). rewrite opp_opp. apply orb_comm.
Qed.
Lemma equivalent_perm : forall tol d e r, Permutation d e -> equivalent tol d r = equivalent tol e r.
Proof. intros tol d e r P. unfold equivalent. now rewrite (sort_same d e P). Qed.

(** * Names *)
Lemma index_of_some : forall s l k, index_of s l = Some k -> nth_error l k = Some s.
Proof.
  intros s l; induction l as [|x l IH]; cbn; intros k H; [discriminate|]. destruct (String.eqb_spec x s) as [->|N].
  - injection H as <-. reflexivity.
  - destruct (index_of s l); [|discriminate]. injection H as <-. now apply IH.
Qed.
Lemma index_of_none : forall s l, index_of s l = None <-> ~ In s l.
Proof.
  intros s l; induction l as [|x l IH]; cbn; [tauto|]. destruct (String.eqb_spec x s) as [->|N].
  - split; [discriminate|]. intros H; exfalso; apply H; now left.
  - destruct (index_of s l); cbn; split; try discriminate; [intros H; exfalso; apply H; right; destruct (in_dec string_dec s l) as [I|I]; [exact I|exfalso; apply IH in I; discriminate]| |reflexivity].
    intros _ [E|I]; [now apply N|]. now apply IH.
Qed.

Lemma ok_inj : forall A (x y : A), Ok x = Ok y -> x = y.
Proof. intros A x y H. now injection H. Qed.
Lemma ok_eq : forall A (x y : A), x = y -> Ok x = Ok y.
Proof. now intros A x y ->. Qed.

Section References.
Variable known : Z -> bool.
Variable pos : Z -> list (Z * Z).
Variable tol : Z.
Notation to_ref := (ant_pol_to_ref known pos tol).

Theorem ref_errors : forall ma antenna polarization,
  (polarization <> "NW"%string -> polarization <> "NE"%string -> to_ref ma antenna polarization = Err EValueError) /\
  (polarization = "NW"%string \/ polarization = "NE"%string ->
     (known ma = false -> to_ref ma antenna polarization = Err EKeyError) /\
     (known ma = true -> ~ In antenna antenna_names -> to_ref ma antenna polarization = Err EValueError) /\
     (known ma = true -> In antenna antenna_names -> exists l, to_ref ma antenna polarization = Ok l)).
Proof.
  intros ma antenna pol. unfold ant_pol_to_ref. split.
  - intros A B. unfold polar_of. destruct (String.eqb_spec pol "NW"); [contradiction|]. destruct (String.eqb_spec pol "NE"); [contradiction|]. reflexivity.
  - intros H. assert (E : exists p, polar_of pol = Some p) by (destruct H; subst; cbn; eauto). destruct E as (p & ->).
    split; [now intros ->|]. split; intros ->; cbn [negb]; intros I.
    + apply index_of_none in I. now rewrite I.
    + destruct (index_of antenna antenna_names) eqn:E; [eauto|]. apply index_of_none in E. contradiction.
Qed.
(** The dipoles of the campaign: Mini-Array, polarization and antenna, in the order of the table *)
Definition measured : list (Z * list string) :=
  [(88, ["Ant01"; "Ant02"; "Ant03"; "Ant05"]); (91, ["Ant02"; "Ant08"; "Ant09"]); (93, ["Ant01"; "Ant02"; "Ant05"; "Ant10"]);
   (94, ["Ant02"; "Ant06"]); (95, ["Ant01"; "Ant02"; "Ant05"; "Ant10"])]%string%Z.
Definition is_measured (d : dipole) : Prop := exists l, In (p_ma d, l) measured /\ In (p_antenna d) l.
Inductive sublist {A} : list A -> list A -> Prop :=
| sub_nil : forall l, sublist [] l
| sub_keep : forall x l m, sublist l m -> sublist (x :: l) (x :: m)
| sub_skip : forall x l m, sublist l m -> sublist l (x :: m).
Lemma filter_sublist : forall A (f : A -> bool) l, sublist (filter f l) l.
Proof. intros A f l; induction l as [|x l IH]; cbn; [constructor|]. destruct (f x); constructor; exact IH. Qed.
Lemma candidates_spec : forall d, In d candidates <-> is_measured d.
Proof.
  intros d. unfold candidates, is_measured. rewrite in_flat_map. split.
  - intros ((m, l) & I & H). apply in_flat_map in H. destruct H as (p & _ & H). apply in_map_iff in H. destruct H as (a & <- & Ia). exists l. now split.
  - intros (l & I & H). exists (p_ma d, l). split; [exact I|]. apply in_flat_map. exists (p_polar d). split; [destruct (p_polar d); cbn; auto|].
    apply in_map_iff. exists (p_antenna d). split; [now destruct d|exact H].
Qed.
Definition before (a b : dipole) : Prop := exists i j, i < j /\ nth_error candidates i = Some a /\ nth_error candidates j = Some b.
Lemma dipole_dec : forall a b : dipole, {a = b} + {a <> b}.
Proof. decide equality; [apply string_dec|decide equality|apply Z.eq_dec]. Defined.
Lemma candidates_NoDup : NoDup candidates.
Proof. assert (E : nodup dipole_dec candidates = candidates) by reflexivity; rewrite <- E; apply NoDup_nodup. Qed.
Theorem ref_sublist : forall ma antenna pol l, to_ref ma antenna pol = Ok l ->
  sublist l candidates /\ NoDup l /\ forall d, In d l -> is_measured d.
Proof.
  intros ma antenna pol l H. unfold ant_pol_to_ref in H. destruct (polar_of pol); [|discriminate]. destruct (negb (known ma)); [discriminate|].
  destruct (index_of antenna antenna_names); [|discriminate]. apply ok_inj in H. subst l. split; [apply filter_sublist|]. split; [apply NoDup_filter, candidates_NoDup|].
  intros d I. apply filter_In in I. now apply candidates_spec.
Qed.
Definition polar_name (p : polar) : string := match p with NW => "NW"%string | NE => "NE"%string end.
Lemma polar_name_of : forall p, polar_of (polar_name p) = Some p.
Proof. now intros []. Qed.
(** Exactly the measured dipoles whose products, sorted, are close one by one *)
Definition sorted_of (l u : list Z) : Prop := Permutation l u /\ StronglySorted Z.le u.
Definition close_to (l m : list Z) : Prop := exists u w, sorted_of l u /\ sorted_of m w /\ Forall2 (fun a b => 100000 * Z.abs (a - b) <= tol + Z.abs b)%Z u w.
Definition seen (ma : Z) (p : polar) (i : nat) : list Z :=
  let o := nth i (pos ma) (0, 0)%Z in
  map (fun v => match p with NW => (snd v - snd o) - (fst v - fst o) | NE => (fst v - fst o) + (snd v - snd o) end)%Z (pos ma).
Lemma scalars_seen : forall ma p i, scalars pos ma p i = seen ma p i.
Proof. intros ma p i. unfold scalars, seen. cbn zeta. apply map_ext. intros (x, y). destruct p; cbn; lia. Qed.
Lemma all_close_iff : forall a b, length a = length b -> (all_close tol a b = true <-> Forall2 (fun a b => 100000 * Z.abs (a - b) <= tol + Z.abs b)%Z a b).
Proof.
  unfold all_close. induction a as [|x a IH]; intros [|y b] L; try discriminate; [split; [constructor|reflexivity]|]. cbn [combine forallb fst snd].
  rewrite andb_true_iff, (IH b) by (cbn in L; lia). unfold isclose at 1. rewrite Z.leb_le. split; [now intros []; constructor|]. intros H; inversion H; now split.
Qed.
Lemma close_to_iff : forall l m, length l = length m -> (all_close tol (sort l) (sort m) = true <-> close_to l m).
Proof.
  intros l m L. rewrite all_close_iff by (now rewrite !sort_length). split.
  - intros H. exists (sort l), (sort m). repeat split; try assumption; try apply sort_perm; apply sort_sorted.
  - intros (u & w & (P & S) & (Q & T) & H). assert (A : sort l = u) by (apply sorted_unique; [apply sort_sorted|exact S|eapply perm_trans; [apply Permutation_sym, sort_perm|exact P]]).
    assert (B : sort m = w) by (apply sorted_unique; [apply sort_sorted|exact T|eapply perm_trans; [apply Permutation_sym, sort_perm|exact Q]]). now subst u w.
Qed.
Lemma names_index : forall i a, nth_error antenna_names i = Some a -> index_of a antenna_names = Some i.
Proof.
  intros k b B. assert (D : NoDup antenna_names) by (assert (X : nodup string_dec antenna_names = antenna_names) by reflexivity; rewrite <- X; apply NoDup_nodup).
  destruct (index_of b antenna_names) as [k'|] eqn:E; [|exfalso; apply index_of_none in E; apply E; now apply nth_error_In in B].
  assert (k' = k); [|congruence]. apply index_of_some in E. rewrite NoDup_nth_error in D. apply D; [apply nth_error_Some; congruence|congruence].
Qed.
Theorem ref_exact : forall ma antenna pol i l p d, (forall m, length (pos m) = length antenna_names) ->
  (pol = "NW" /\ p = NW \/ pol = "NE" /\ p = NE)%string -> nth_error antenna_names i = Some antenna -> to_ref ma antenna pol = Ok l ->
  (In d l <-> is_measured d /\ exists k, nth_error antenna_names k = Some (p_antenna d) /\
     (close_to (seen ma p i) (seen (p_ma d) (p_polar d) k) \/ close_to (seen ma p i) (map Z.opp (seen (p_ma d) (p_polar d) k)))).
Proof.
  intros ma antenna pol i l p d L P A H. unfold ant_pol_to_ref in H. assert (PE : polar_of pol = Some p) by (destruct P as [(-> & ->)|(-> & ->)]; reflexivity). rewrite PE in H.
  destruct (negb (known ma)); [discriminate|]. rewrite (names_index _ _ A) in H. apply ok_inj in H. subst l. rewrite filter_In, candidates_spec.
  assert (E : forall k, equivalent tol (scalars pos ma p i) (scalars pos (p_ma d) (p_polar d) k) = true <->
    close_to (seen ma p i) (seen (p_ma d) (p_polar d) k) \/ close_to (seen ma p i) (map Z.opp (seen (p_ma d) (p_polar d) k))).
  { intros k. unfold equivalent. rewrite !scalars_seen, orb_true_iff. rewrite !close_to_iff; [reflexivity| |]; unfold seen; now rewrite !map_length, !L. }
  split; intros (M & X); (split; [exact M|]).
  - destruct (index_of (p_antenna d) antenna_names) as [k|] eqn:K; [|discriminate]. exists k. split; [now apply index_of_some|]. now apply E.
  - destruct X as (k & K & X). rewrite (names_index _ _ K). now apply E.
Qed.
(** A measured dipole is its own reference. *)
Theorem ref_reflexive : forall d, (0 <= tol)%Z -> is_measured d -> known (p_ma d) = true ->
  exists l, to_ref (p_ma d) (p_antenna d) (polar_name (p_polar d)) = Ok l /\ In d l.
Proof.
  intros d T M K. unfold ant_pol_to_ref. rewrite polar_name_of, K. cbn [negb].
  assert (I : In (p_antenna d) antenna_names).
  { assert (A : forall l a, In l (map snd measured) -> In a l -> In a antenna_names).
    { assert (B : forallb (fun l => forallb (fun a => existsb (String.eqb a) antenna_names) l) (map snd measured) = true) by reflexivity.
      intros l a L A. rewrite forallb_forall in B. specialize (B _ L). rewrite forallb_forall in B. specialize (B _ A).
      apply existsb_exists in B. destruct B as (x & X & E). apply String.eqb_eq in E. now subst. }
    destruct M as (l & L & A'). eapply A; [|exact A']. now apply (in_map snd) in L. }
  destruct (index_of (p_antenna d) antenna_names) as [k|] eqn:E; [|apply index_of_none in E; contradiction].
  eexists; split; [reflexivity|]. apply filter_In. split; [now apply candidates_spec|]. rewrite E. unfold equivalent. now rewrite all_close_refl.
Qed.
(** Only the scalar products matter, in any order and up to a common sign. *)
Theorem ref_depends : forall ma ma' p p' i i' a a', known ma = true -> known ma' = true ->
  nth_error antenna_names i = Some a -> nth_error antenna_names i' = Some a' ->
  (forall m, length (pos m) = length antenna_names) ->
  Permutation (seen ma p i) (seen ma' p' i') \/ Permutation (seen ma p i) (map Z.opp (seen ma' p' i')) ->
  to_ref ma a (polar_name p) = to_ref ma' a' (polar_name p').
Proof.
  intros ma ma' p p' i i' a a' K K' A A' L H. unfold ant_pol_to_ref. rewrite !polar_name_of, K, K'. cbn [negb].
  assert (N : forall i a, nth_error antenna_names i = Some a -> index_of a antenna_names = Some i).
  { intros k b B. assert (D : NoDup antenna_names) by (assert (X : nodup string_dec antenna_names = antenna_names) by reflexivity; rewrite <- X; apply NoDup_nodup).
    destruct (index_of b antenna_names) as [k'|] eqn:E; [|exfalso; apply index_of_none in E; apply E; now apply nth_error_In in B].
    f_equal. apply index_of_some in E. rewrite NoDup_nth_error in D. apply D; [apply nth_error_Some; congruence|congruence]. }
  rewrite (N _ _ A), (N _ _ A'). apply ok_eq, filter_ext. intros d. destruct (index_of (p_antenna d) antenna_names) as [k|]; [|reflexivity].
  rewrite !scalars_seen. destruct H as [H|H].
  - now apply equivalent_perm.
  - rewrite (equivalent_perm _ _ _ _ H). apply equivalent_opp. unfold seen. rewrite !map_length, !L. reflexivity.
Qed.
(** Same positions, moved, rotated by a quarter turn or by a half turn *)
Theorem ref_moved : forall ma ma' a p (u : Z * Z), known ma = true -> known ma' = true -> In a antenna_names -> (forall m, length (pos m) = length antenna_names) ->
  pos ma' = map (fun v => (fst v + fst u, snd v + snd u)%Z) (pos ma) -> to_ref ma' a (polar_name p) = to_ref ma a (polar_name p).
Proof.
  intros ma ma' a p u K K' I L E. destruct (In_nth_error _ _ I) as (i & A). eapply ref_depends; try eassumption. left.
  assert (B : i < length (pos ma)) by (rewrite L; apply nth_error_Some; congruence).
  unfold seen. rewrite E. rewrite map_map. rewrite nth_indep with (l := map _ _) (d' := (0 + fst u, 0 + snd u)%Z) by (now rewrite map_length).
  rewrite (map_nth (fun v => (fst v + fst u, snd v + snd u)%Z) (pos ma) (0, 0)%Z).
  match goal with |- Permutation ?x ?y => assert (X : x = y); [apply map_ext; intros (x', y'); destruct p; cbn; lia|rewrite X; apply Permutation_refl] end.
Qed.
Theorem ref_half_turn : forall ma ma' a p, known ma = true -> known ma' = true -> In a antenna_names -> (forall m, length (pos m) = length antenna_names) ->
  pos ma' = map (fun v => (- fst v, - snd v)%Z) (pos ma) -> to_ref ma' a (polar_name p) = to_ref ma a (polar_name p).
Proof.
  intros ma ma' a p K K' I L E. destruct (In_nth_error _ _ I) as (i & A). eapply ref_depends; try eassumption. right.
  assert (B : i < length (pos ma)) by (rewrite L; apply nth_error_Some; congruence).
  unfold seen. rewrite E. rewrite !map_map. rewrite nth_indep with (l := map _ _) (d' := (- 0, - 0)%Z) by (now rewrite map_length).
  rewrite (map_nth (fun v => (- fst v, - snd v)%Z) (pos ma) (0, 0)%Z).
  match goal with |- Permutation ?x ?y => assert (X : x = y); [apply map_ext; intros (x', y'); destruct p; cbn; lia|rewrite X; apply Permutation_refl] end.
Qed.
Definition other (p : polar) : polar := match p with NW => NE | NE => NW end.
Theorem ref_quarter_turn : forall ma ma' a p, known ma = true -> known ma' = true -> In a antenna_names -> (forall m, length (pos m) = length antenna_names) ->
  pos ma' = map (fun v => (- snd v, fst v)%Z) (pos ma) -> to_ref ma' a (polar_name (other p)) = to_ref ma a (polar_name p).
Proof.
  intros ma ma' a p K K' I L E. destruct (In_nth_error _ _ I) as (i & A). eapply ref_depends; try eassumption.
  assert (B : i < length (pos ma)) by (rewrite L; apply nth_error_Some; congruence).
  assert (N : nth i (pos ma') (0, 0)%Z = (- snd (nth i (pos ma) (0, 0)), fst (nth i (pos ma) (0, 0)))%Z).
  { rewrite E. rewrite nth_indep with (d' := (- 0, 0)%Z) by (now rewrite map_length). exact (map_nth (fun v => (- snd v, fst v)%Z) (pos ma) (0, 0)%Z i). }
  unfold seen. rewrite N, E. rewrite !map_map.
  destruct p; [right|left];
  (match goal with |- Permutation ?x ?y => assert (X : x = y); [apply map_ext; intros (x', y'); cbn; lia|rewrite X; apply Permutation_refl] end).
Qed.

(** * The file read for an antenna *)
Notation gain_of := (antenna_gain known pos tol).
Theorem gain_source : forall pol a m filename,
  (forall f, filename = Some f -> (a = None \/ m = None) -> gain_of pol a m filename = Ok (Named f, pol)) /\
  (filename = None -> (a = None \/ m = None) -> gain_of pol a m filename = Ok (Default, pol)).
Proof.
  intros pol a m fn. unfold antenna_gain. split.
  - intros f -> [->| ->]; [reflexivity|destruct a; reflexivity].
  - intros -> [->| ->]; [reflexivity|destruct a; reflexivity].
Qed.
Theorem gain_reference : forall pol a m s, gain_of pol (Some a) (Some m) None = Ok s ->
  exists d l, to_ref m a pol = Ok (d :: l) /\ is_measured d /\ s = (Reference (p_ma d) (p_antenna d), pol).
Proof.
  intros pol a m s H. unfold antenna_gain in H. destruct (to_ref m a pol) as [[|d l]|] eqn:E; cbn in H; try discriminate. apply ok_inj in H. subst s.
  exists d, l. split; [reflexivity|]. split; [|reflexivity]. apply (ref_sublist _ _ _ _ E). now left.
Qed.
Theorem gain_errors : forall pol a m filename e, to_ref m a pol = Err e -> gain_of pol (Some a) (Some m) filename = Err e.
Proof. intros pol a m fn e H. unfold antenna_gain. now rewrite H. Qed.
Theorem gain_no_reference : forall pol a m filename, to_ref m a pol = Ok [] -> gain_of pol (Some a) (Some m) filename = Err EIndexError.
Proof. intros pol a m fn H. unfold antenna_gain. now rewrite H. Qed.
End References.

(** * Actual positions *)
(** Those of Mini-Array 0 and of the measured ones, micrometres, from the files of the instrument
    (miniarray_antennas.json, rotations of nenufar_array.json); the tolerance is 1e-8 m. *)
Open Scope Z_scope.
Definition positions (ma : Z) : list (Z * Z) :=
  match ma with
  | 88 => [(10336618, -3762221); (6123374, -7297553); (1910129, -10832885); (9381553, 1654222); (5168309, -1881110); (955064, -5416442); (-3258180, -8951774); (8426488, 7070664); (4213244, 3535333); (-1, 1); (-4213245, -3535331); (-8426489, -7070663); (3258179, 8951775); (-955066, 5416443); (-5168310, 1881112); (-9381554, -1654220); (-1910131, 10832886); (-6123375, 7297554); (-10336619, 3762222)]
  | 91 => [(-9526278, -5500000); (-9526278, 0); (-9526279, 5500000); (-4763139, -8250000); (-4763139, -2750000); (-4763139, 2750000); (-4763139, 8250000); (1, -11000000); (1, -5500000); (1, 0); (1, 5500000); (1, 11000000); (4763141, -8250000); (4763141, -2750000); (4763141, 2750000); (4763141, 8250000); (9526280, -5500000); (9526280, 0); (9526280, 5500000)]
  | 93 => [(-7070664, 8426488); (-1654221, 9381553); (3762222, 10336618); (-8951774, 3258179); (-3535332, 4213244); (1881111, 5168308); (7297554, 6123373); (-10832885, -1910131); (-5416442, -955066); (0, -1); (5416443, 955064); (10832885, 1910129); (-7297553, -6123375); (-1881111, -5168310); (3535332, -4213245); (8951775, -3258180); (-3762221, -10336620); (1654221, -9381555); (7070664, -8426490)]
  | 94 => [(-8426489, 7070663); (-3258179, 8951774); (1910130, 10832884); (-9381554, 1654220); (-4213244, 3535331); (955065, 5416442); (6123375, 7297553); (-10336619, -3762222); (-5168309, -1881112); (0, -1); (5168310, 1881110); (10336619, 3762221); (-6123374, -7297554); (-955065, -5416444); (4213245, -3535333); (9381554, -1654222); (-1910130, -10832886); (3258180, -8951775); (8426489, -7070665)]
  | 95 => [(-5499999, -9526279); (-8249999, -4763139); (-10999999, 0); (1, -9526279); (-2749999, -4763139); (-5499999, 0); (-8249999, 4763140); (5500001, -9526279); (2750001, -4763139); (1, 0); (-2749999, 4763140); (-5499999, 9526280); (8250001, -4763139); (5500001, 0); (2750001, 4763140); (1, 9526280); (11000001, 0); (8250001, 4763140); (5500001, 9526280)]
  | _ => [(-5500000, 9526278); (0, 9526278); (5500000, 9526279); (-8250000, 4763139); (-2750000, 4763139); (2750000, 4763139); (8250000, 4763139); (-11000000, -1); (-5500000, -1); (0, -1); (5500000, -1); (11000000, -1); (-8250000, -4763141); (-2750000, -4763141); (2750000, -4763141); (8250000, -4763141); (-5500000, -9526280); (0, -9526280); (5500000, -9526280)]
  end.
Theorem polarization_refuted : exists d, ant_pol_to_ref (fun _ => true) positions 1000 0 "Ant01" "NW" = Ok [d] /\ p_polar d = NE /\
  antenna_gain (fun _ => true) positions 1000 "NW" (Some "Ant01"%string) (Some 0) None = Ok (Reference (p_ma d) (p_antenna d), "NW"%string) /\
  ant_pol_to_ref (fun _ => true) positions 1000 (p_ma d) (p_antenna d) "NW" <> Ok [d].
Proof.
  exists (mkDipole 95 NE "Ant01"). split; [vm_compute; reflexivity|]. split; [reflexivity|]. split; [vm_compute; reflexivity|]. vm_compute. discriminate.
Qed.
