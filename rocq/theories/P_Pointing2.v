(** Specification and proofs for the constructors of pointings (C93 to C95). *)
From Coq Require Import ZArith QArith Qround Lqa Bool List Arith Lia Sorting.Sorted.
From Verif Require Import Base M_Analog P_Analog2 M_Pointing P_Pointing.
Import ListNotations.
Open Scope nat_scope.
Open Scope list_scope.

(** * Lists *)
Lemma diffs_length : forall l, length (diffs l) = length l - 1.
Proof. induction l as [|a [|b r] IH]; [reflexivity|reflexivity|]. cbn [diffs length] in *. lia. Qed.
Lemma diffs_nth : forall l i a b, nth_error l i = Some a -> nth_error l (S i) = Some b -> nth_error (diffs l) i = Some (b - a)%Q.
Proof.
  induction l as [|x l IH]; intros i a b A B; [destruct i; discriminate|]. destruct l as [|y r]; [destruct i; [discriminate|destruct i; discriminate]|].
  destruct i as [|i]; cbn [nth_error diffs] in *.
  - injection A as <-. injection B as <-. reflexivity.
  - apply IH; assumption.
Qed.
Lemma removelast_length : forall A (l : list A), length (removelast l) = length l - 1.
Proof. induction l as [|a [|b r] IH]; [reflexivity|reflexivity|]. change (removelast (a :: b :: r)) with (a :: removelast (b :: r)). cbn [length] in *. lia. Qed.
Lemma removelast_nth : forall A (l : list A) i, S i < length l -> nth_error (removelast l) i = nth_error l i.
Proof.
  induction l as [|a [|b r] IH]; intros i L; cbn [length] in L; [lia|lia|]. change (removelast (a :: b :: r)) with (a :: removelast (b :: r)).
  destruct i as [|i]; [reflexivity|]. cbn [nth_error]. apply IH. cbn [length]. lia.
Qed.
Lemma sorted_nth : forall (l : list Q) i j a b, StronglySorted Qlt l -> nth_error l i = Some a -> nth_error l j = Some b -> i < j -> (a < b)%Q.
Proof.
  intros l i j a b So. revert i j. induction So as [|x r So IH F]; intros [|i] [|j] A B L; try lia; try discriminate; cbn in *.
  - injection A as <-. rewrite Forall_forall in F. apply F. eapply nth_error_In. exact B.
  - apply (IH i j A B). lia.
Qed.
Lemma last_nth : forall A (l : list A) d, l <> [] -> nth_error l (length l - 1) = Some (last l d).
Proof.
  intros A. induction l as [|a [|b r] IH]; intros d N; [congruence|reflexivity|]. cbn [length]. replace (S (S (length r)) - 1) with (S (length (b :: r) - 1)) by (cbn; lia).
  cbn [nth_error]. rewrite (IH d) by discriminate. reflexivity.
Qed.

(** In a pointing made of increasing times with one duration each, interval [k] is shown
    when it contains the time and the next one has not begun. *)
Lemma shown_sorted : forall C H (p : pt C H) t k s d, length (pt_durs p) = length (pt_times p) -> StronglySorted Qlt (pt_times p) ->
  nth_error (pt_times p) k = Some s -> nth_error (pt_durs p) k = Some d -> (s <= t)%Q -> (t < s + d)%Q ->
  (forall s', nth_error (pt_times p) (S k) = Some s' -> (t < s')%Q) -> shown p t (Some k).
Proof.
  intros C H p t k s d L So Hs Hd A B N. split.
  - exists s, d. rewrite durations_each by exact L. auto.
  - intros j Hj (s' & d' & Hs' & _ & A' & _). destruct (Nat.eq_dec j (S k)) as [->|Nj].
    + specialize (N s' Hs'). lra.
    + assert (X : exists x, nth_error (pt_times p) (S k) = Some x).
      { destruct (nth_error (pt_times p) (S k)) eqn:Z; [eauto|]. apply nth_error_None in Z. assert (j < length (pt_times p)) by (apply nth_error_Some; congruence). lia. }
      destruct X as [x Hx]. specialize (N x Hx). assert (x < s')%Q by (apply (sorted_nth _ (S k) j _ _ So Hx Hs'); lia). lra.
Qed.
(** Reading such a pointing. *)
Lemma read : forall C H (zen : Q -> C) (up : H) times cs durs hs p t k c h, p = mkPt (Many cs) times durs (Some hs) ->
  length durs = length times -> length cs = length times -> length hs = length times ->
  shown p t (Some k) -> nth_error cs k = Some c -> nth_error hs k = Some h -> at_time zen up p t = Ok (c, Some h).
Proof.
  intros C H zen up times cs durs hs p t k c h Ep Ld Lc Lh Sh Hc Hh.
  assert (S : sized p) by (rewrite Ep; unfold sized; cbn; auto).
  destruct (at_interval C H zen up p t k S Sh) as (c' & h' & A & B & E). rewrite E. unfold coord_at in A. unfold custom_at in B. rewrite Ep in A, B. cbn in A, B.
  rewrite Hc in A. injection A as <-. destruct hs as [|x [|y r]]; [destruct k; discriminate| |].
  - assert (k = 0) by (assert (k < length [x]) by (apply nth_error_Some; congruence); cbn in *; lia). subst k. cbn in Hh. congruence.
  - rewrite Hh in B. cbn in B. congruence.
Qed.

(** * Files *)
(** Line [k] of a beam, in file order. *)
Definition line_at {H} (b : Z) (lines : list (line H)) (k : nat) (s : Q) (h : H) : Prop := nth_error (of_beam b lines) k = Some (s, h).
Definition in_order {H} (b : Z) (lines : list (line H)) : Prop := StronglySorted Qlt (map fst (of_beam b lines)).
Lemma sorted_removelast : forall (l : list Q), StronglySorted Qlt l -> StronglySorted Qlt (removelast l).
Proof.
  induction l as [|a [|b r] IH]; intro So; [constructor|constructor|]. change (removelast (a :: b :: r)) with (a :: removelast (b :: r)). inversion So as [|? ? S1 F]; subst.
  constructor; [apply IH; exact S1|]. rewrite Forall_forall in *. intros x I. apply F. clear - I. revert b I. induction r as [|c r IH]; intros b I; [destruct I|].
  change (removelast (b :: c :: r)) with (b :: removelast (c :: r)) in I. destruct I as [<-|I]; [left; reflexivity|right; apply IH; exact I].
Qed.
Lemma map_removelast : forall A B (f : A -> B) l, map f (removelast l) = removelast (map f l).
Proof.
  intros A B f. induction l as [|a [|b r] IH]; [reflexivity|reflexivity|]. change (removelast (a :: b :: r)) with (a :: removelast (b :: r)).
  change (map f (a :: b :: r)) with (f a :: f b :: map f r). change (removelast (f a :: f b :: map f r)) with (f a :: removelast (map f (b :: r))).
  rewrite <- IH. reflexivity.
Qed.

(** The pointing of a list of records whose last one only gives the end. *)
Definition until_last {C H} (radec : Q -> H -> C) (l : list (Q * H)) : pt C H :=
  let kept := removelast l in
  mkPt (Many (map (fun x => radec (fst x) (snd x)) kept)) (map fst kept) (diffs (map fst l)) (Some (map snd kept)).
Lemma until_last_new : forall C H (radec : Q -> H -> C) l, let kept := removelast l in
  new_pointing (Many (map (fun x => radec (fst x) (snd x)) kept)) (map fst kept) (Some (diffs (map fst l))) (Some (map snd kept)) = Ok (until_last radec l).
Proof.
  intros. unfold new_pointing. rewrite diffs_length, !map_length. unfold kept. rewrite removelast_length, Nat.eqb_refl. rewrite andb_false_r. reflexivity.
Qed.
Lemma until_last_read : forall C H (zen : Q -> C) (up : H) radec l k s h s' h' t, StronglySorted Qlt (map fst l) ->
  nth_error l k = Some (s, h) -> nth_error l (S k) = Some (s', h') -> (s <= t)%Q -> (t < s')%Q ->
  at_time zen up (until_last radec l) t = Ok (radec s h, Some h).
Proof.
  intros C H zen up radec l k s h s' h' t So Hk Hk' A B.
  assert (L : S k < length l) by (apply nth_error_Some; congruence).
  assert (R : nth_error (removelast l) k = Some (s, h)) by (rewrite removelast_nth; assumption).
  apply (read C H zen up (map fst (removelast l)) (map (fun x => radec (fst x) (snd x)) (removelast l)) (diffs (map fst l)) (map snd (removelast l)) _ t k); try reflexivity.
  - rewrite diffs_length, !map_length, removelast_length. reflexivity.
  - rewrite !map_length. reflexivity.
  - rewrite !map_length. reflexivity.
  - apply (shown_sorted C H _ t k s (s' - s)%Q); cbn [until_last pt_times pt_durs].
    + rewrite diffs_length, !map_length, removelast_length. reflexivity.
    + rewrite map_removelast. apply sorted_removelast. exact So.
    + rewrite nth_error_map, R. reflexivity.
    + apply diffs_nth; rewrite nth_error_map; [rewrite Hk|rewrite Hk']; reflexivity.
    + exact A.
    + lra.
    + intros x Hx. rewrite nth_error_map in Hx. assert (L' : S k < length (removelast l)). { apply nth_error_Some. intro Z. rewrite Z in Hx. discriminate. }
      rewrite removelast_length in L'. rewrite removelast_nth in Hx by lia. rewrite Hk' in Hx. injection Hx as <-. exact B.
  - rewrite nth_error_map, R. reflexivity.
  - rewrite nth_error_map, R. reflexivity.
Qed.
Lemma until_last_outside : forall C H (zen : Q -> C) (up : H) radec l t, StronglySorted Qlt (map fst l) -> 
  (forall s h, nth_error l 0 = Some (s, h) -> (t < s)%Q) \/ (forall s h, nth_error l (length l - 1) = Some (s, h) -> (s <= t)%Q) ->
  at_time zen up (until_last radec l) t = Ok (zen t, Some up).
Proof.
  intros C H zen up radec l t So Ou. rewrite at_zenith; [reflexivity|]. intros j (s & d & Hs & Hd & A & B).
  rewrite durations_each in Hd by (cbn; rewrite diffs_length, !map_length, removelast_length; reflexivity). cbn [until_last pt_times pt_durs] in Hs, Hd.
  rewrite nth_error_map in Hs. destruct (nth_error (removelast l) j) as [[s0 h]|] eqn:Hj; [|discriminate]. cbn in Hs. injection Hs as ->.
  assert (L : S j < length l). { assert (j < length (removelast l)) by (apply nth_error_Some; congruence). rewrite removelast_length in H0. lia. }
  rewrite removelast_nth in Hj by exact L.
  destruct (nth_error l (S j)) as [[s' h']|] eqn:Hj'; [|apply nth_error_None in Hj'; lia].
  assert (E : nth_error (diffs (map fst l)) j = Some (s' - s)%Q) by (apply diffs_nth; rewrite nth_error_map; [rewrite Hj|rewrite Hj']; reflexivity).
  rewrite E in Hd. injection Hd as <-.
  destruct Ou as [Ou|Ou].
  - destruct l as [|[s0 h0] r]; [cbn in L; lia|]. specialize (Ou s0 h0 eq_refl). destruct j as [|j]; [cbn in Hj; injection Hj as -> _; lra|].
    assert (s0 < s)%Q; [|lra]. apply (sorted_nth (map fst ((s0, h0) :: r)) 0 (S j)); [exact So|reflexivity|rewrite nth_error_map, Hj; reflexivity|lia].
  - destruct (nth_error l (length l - 1)) as [[sn hn]|] eqn:Hn; [|apply nth_error_None in Hn; lia]. specialize (Ou sn hn eq_refl).
    assert (s' <= sn)%Q; [|lra]. destruct (Nat.eq_dec (S j) (length l - 1)) as [Ej|Nj]; [rewrite <- Ej in Hn; rewrite Hn in Hj'; injection Hj' as -> _; lra|].
    apply Qlt_le_weak. apply (sorted_nth (map fst l) (S j) (length l - 1)); [exact So|rewrite nth_error_map, Hj'; reflexivity|rewrite nth_error_map, Hn; reflexivity|lia].
Qed.

Lemma altaz_a_two : forall C H (radec : Q -> H -> C) b lines, 2 <= length (of_beam b lines) -> from_file radec AltazA b lines = Ok (until_last radec (of_beam b lines)).
Proof.
  intros C H radec b lines L. unfold from_file, from_altaz_a. pose proof (until_last_new C H radec (of_beam b lines)) as N. cbv zeta in N.
  destruct (of_beam b lines) as [|[t h] [|x r]]; cbn [length] in L; [lia|lia|exact N].
Qed.
(** altazA: between two lines, the first one; outside, the zenith. *)
Theorem altaz_a : forall C H (zen : Q -> C) (up : H) radec b lines, in_order b lines -> 2 <= length (of_beam b lines) ->
  exists p, from_file radec AltazA b lines = Ok p /\
  (forall k s h s' h' t, line_at b lines k s h -> line_at b lines (S k) s' h' -> (s <= t)%Q -> (t < s')%Q -> at_time zen up p t = Ok (radec s h, Some h)) /\
  (forall t, (forall s h, line_at b lines 0 s h -> (t < s)%Q) \/ (forall s h, line_at b lines (length (of_beam b lines) - 1) s h -> (s <= t)%Q) ->
     at_time zen up p t = Ok (zen t, Some up)).
Proof.
  intros C H zen up radec b lines So L. exists (until_last radec (of_beam b lines)). split; [apply altaz_a_two; exact L|]. split.
  - intros. eapply until_last_read; eassumption.
  - intros. apply until_last_outside; assumption.
Qed.
Theorem altaz_a_single : forall C H (zen : Q -> C) (up : H) radec b lines s h, of_beam b lines = [(s, h)] ->
  exists p, from_file radec AltazA b lines = Ok p /\ (forall t, (s <= t)%Q -> (t < s + 1)%Q -> at_time zen up p t = Ok (radec s h, Some h)) /\
  forall t, (t < s)%Q \/ (s + 1 <= t)%Q -> at_time zen up p t = Ok (zen t, Some up).
Proof.
  intros C H zen up radec b lines s h E. unfold from_file, from_altaz_a. rewrite E. eexists. split; [reflexivity|]. split.
  - intros t A B. apply (read C H zen up [s] [radec s h] [(s + 1 - s)%Q] [h] _ t 0); try reflexivity.
    apply (shown_sorted C H _ t 0 s (s + 1 - s)%Q); cbn; try reflexivity; [repeat constructor|exact A|lra|discriminate].
  - intros t O. rewrite at_zenith; [reflexivity|]. intros [|j] (s' & d & Hs & Hd & A & B); cbn in *; [|destruct j; discriminate].
    injection Hs as <-. injection Hd as <-. destruct O; lra.
Qed.
Theorem file_empty : forall C H (radec : Q -> H -> C) e b lines, of_beam b lines = [] -> e <> Other -> from_file radec e b lines = Err EValueError.
Proof. intros C H radec [] b lines E N; cbn; unfold from_altaz_a, from_altaz_b; rewrite ?E; congruence. Qed.
Theorem file_other : forall C H (radec : Q -> H -> C) b lines, from_file radec Other b lines = Err EUnboundLocalError.
Proof. reflexivity. Qed.

(** altazB *)
Definition b_durs (l : list Q) : list Q := removelast (diffs l) ++ [10%Q; last (diffs l) 0%Q].
Lemma b_durs_length : forall l, 2 <= length l -> length (b_durs l) = length l.
Proof. intros l L. unfold b_durs. rewrite app_length, removelast_length, diffs_length. cbn. lia. Qed.
Lemma b_durs_nth : forall l k a b, S (S k) < length l -> nth_error l k = Some a -> nth_error l (S k) = Some b -> nth_error (b_durs l) k = Some (b - a)%Q.
Proof.
  intros l k a b L A B. unfold b_durs. rewrite nth_error_app1 by (rewrite removelast_length, diffs_length; lia).
  rewrite removelast_nth by (rewrite diffs_length; lia). apply diffs_nth; assumption.
Qed.
Lemma b_durs_before_last : forall l, 2 <= length l -> nth_error (b_durs l) (length l - 2) = Some 10%Q.
Proof.
  intros l L. unfold b_durs. rewrite nth_error_app2 by (rewrite removelast_length, diffs_length; lia). rewrite removelast_length, diffs_length.
  replace (length l - 2 - (length l - 1 - 1)) with 0 by lia. reflexivity.
Qed.
Lemma b_durs_last : forall l a b, 2 <= length l -> nth_error l (length l - 2) = Some a -> nth_error l (length l - 1) = Some b ->
  nth_error (b_durs l) (length l - 1) = Some (b - a)%Q.
Proof.
  intros l a b L A B. unfold b_durs. rewrite nth_error_app2 by (rewrite removelast_length, diffs_length; lia). rewrite removelast_length, diffs_length.
  replace (length l - 1 - (length l - 1 - 1)) with 1 by lia. cbn [nth_error].
  rewrite <- (last_nth Q (diffs l) 0%Q).
  - rewrite diffs_length. replace (length l - 1 - 1) with (length l - 2) by lia. apply diffs_nth; [exact A|]. replace (S (length l - 2)) with (length l - 1) by lia. exact B.
  - intro Z. assert (length (diffs l) = 0) by (rewrite Z; reflexivity). rewrite diffs_length in H. lia.
Qed.
Definition b_point {C H} (radec : Q -> H -> C) (l : list (Q * H)) : pt C H :=
  mkPt (Many (map (fun x => radec (fst x) (snd x)) l)) (map fst l) (b_durs (map fst l)) (Some (map snd l)).
Lemma altaz_b_two : forall C H (radec : Q -> H -> C) b lines, 2 <= length (of_beam b lines) -> from_file radec AltazB b lines = Ok (b_point radec (of_beam b lines)).
Proof.
  intros C H radec b lines L. unfold from_file, from_altaz_b, b_point. pose proof (b_durs_length (map fst (of_beam b lines))) as Lb. rewrite map_length in Lb. specialize (Lb L).
  revert L Lb. generalize (of_beam b lines) as l. intros l L Lb. destruct l as [|x [|y r]]; cbn [length] in L; [lia|lia|].
  assert (I : insert_before_last 10 (diffs (map fst (x :: y :: r))) = Ok (b_durs (map fst (x :: y :: r)))) by reflexivity.
  rewrite I. cbn [bind]. unfold new_pointing. rewrite Lb, map_length, Nat.eqb_refl, andb_false_r. reflexivity.
Qed.
Lemma b_read : forall C H (zen : Q -> C) (up : H) radec l k s h d t, StronglySorted Qlt (map fst l) -> 2 <= length l ->
  nth_error l k = Some (s, h) -> nth_error (b_durs (map fst l)) k = Some d -> (s <= t)%Q -> (t < s + d)%Q ->
  (forall s' h', nth_error l (S k) = Some (s', h') -> (t < s')%Q) -> at_time zen up (b_point radec l) t = Ok (radec s h, Some h).
Proof.
  intros C H zen up radec l k s h d t So L Hk Hd A B N.
  apply (read C H zen up (map fst l) (map (fun x => radec (fst x) (snd x)) l) (b_durs (map fst l)) (map snd l) _ t k); try reflexivity;
    try (rewrite ?b_durs_length; rewrite ?map_length; lia); try (rewrite nth_error_map, Hk; reflexivity).
  apply (shown_sorted C H _ t k s d); cbn [b_point pt_times pt_durs]; try assumption.
  - rewrite b_durs_length by (rewrite map_length; exact L). reflexivity.
  - rewrite nth_error_map, Hk. reflexivity.
  - intros s' Hs'. rewrite nth_error_map in Hs'. destruct (nth_error l (S k)) as [[x h']|] eqn:E; [|discriminate]. injection Hs' as <-. exact (N x h' eq_refl).
Qed.
Theorem altaz_b : forall C H (zen : Q -> C) (up : H) radec b lines, in_order b lines -> 2 <= length (of_beam b lines) ->
  exists p, from_file radec AltazB b lines = Ok p /\
  (forall k s h s' h' t, S (S k) < length (of_beam b lines) -> line_at b lines k s h -> line_at b lines (S k) s' h' -> (s <= t)%Q -> (t < s')%Q ->
     at_time zen up p t = Ok (radec s h, Some h)) /\
  (forall s h s' h' t, line_at b lines (length (of_beam b lines) - 2) s h -> line_at b lines (length (of_beam b lines) - 1) s' h' ->
     ((s <= t)%Q -> (t < s')%Q -> (t < s + 10)%Q -> at_time zen up p t = Ok (radec s h, Some h)) /\
     ((s + 10 <= t)%Q -> (t < s')%Q -> at_time zen up p t = Ok (zen t, Some up)) /\
     ((s' <= t)%Q -> (t < s' + (s' - s))%Q -> at_time zen up p t = Ok (radec s' h', Some h')) /\
     ((s' + (s' - s) <= t)%Q -> (s + 10 <= t)%Q -> at_time zen up p t = Ok (zen t, Some up))).
Proof.
  intros C H zen up radec b lines So L. exists (b_point radec (of_beam b lines)). split; [apply altaz_b_two; exact L|]. unfold in_order, line_at in *.
  revert So L. generalize (of_beam b lines) as l. intros l So L. split.
  - intros k s h s' h' t Lk Hk Hk' A B. apply (b_read C H zen up radec l k s h (s' - s)%Q t So L Hk); try assumption.
    + apply b_durs_nth; [rewrite map_length; exact Lk| |]; rewrite nth_error_map; [rewrite Hk|rewrite Hk']; reflexivity.
    + lra.
    + intros x y Hx. rewrite Hk' in Hx. injection Hx as <- _. exact B.
  - intros s h s' h' t Hk Hk'.
    assert (Sk : S (length l - 2) = length l - 1) by lia.
    assert (E1 : nth_error (b_durs (map fst l)) (length l - 2) = Some 10%Q) by (rewrite <- (map_length fst l); apply b_durs_before_last; rewrite map_length; exact L).
    assert (E2 : nth_error (b_durs (map fst l)) (length l - 1) = Some (s' - s)%Q).
    { rewrite <- (map_length fst l). apply b_durs_last; rewrite ?map_length; [exact L| |]; rewrite nth_error_map; [rewrite Hk|rewrite Hk']; reflexivity. }
    assert (Lt : (s < s')%Q) by (apply (sorted_nth (map fst l) (length l - 2) (length l - 1)); [exact So|rewrite nth_error_map, Hk; reflexivity|rewrite nth_error_map, Hk'; reflexivity|lia]).
    assert (Zen : (forall j, ~ covers (b_point radec l) t j) -> at_time zen up (b_point radec l) t = Ok (zen t, Some up)).
    { intro Z. rewrite at_zenith; [reflexivity|exact Z]. }
    assert (Ld : length (pt_durs (b_point radec l)) = length (pt_times (b_point radec l))) by (cbn; rewrite b_durs_length by (rewrite map_length; exact L); reflexivity).
    assert (Early : forall j, j < length l - 2 -> (s <= t)%Q -> ~ covers (b_point radec l) t j).
    { intros j Hj St (x & d & Hx & Hd & A & B). rewrite durations_each in Hd by exact Ld. cbn [b_point pt_times pt_durs] in Hx, Hd.
      assert (Y : exists y, nth_error (map fst l) (S j) = Some y). { destruct (nth_error (map fst l) (S j)) eqn:Z; [eauto|]. apply nth_error_None in Z. rewrite map_length in Z. lia. }
      destruct Y as [y Hy]. rewrite (b_durs_nth (map fst l) j x y) in Hd by (try assumption; rewrite map_length; lia). injection Hd as <-.
      assert (y <= s)%Q; [|lra]. destruct (Nat.eq_dec (S j) (length l - 2)) as [Ej|Nj].
      - rewrite Ej, nth_error_map, Hk in Hy. injection Hy as <-. apply Qle_refl.
      - apply Qlt_le_weak. apply (sorted_nth (map fst l) (S j) (length l - 2)); [exact So|exact Hy|rewrite nth_error_map, Hk; reflexivity|lia]. }
    split; [|split; [|split]].
    + intros A B D. apply (b_read C H zen up radec l (length l - 2) s h 10%Q t So L Hk E1 A D). intros x y Hx. rewrite Sk, Hk' in Hx. injection Hx as <- _. exact B.
    + intros A B. apply Zen. intros j Cv. destruct (Nat.lt_ge_cases j (length l - 2)) as [Lj|Lj]; [apply (Early j Lj); [lra|exact Cv]|].
      destruct Cv as (x & d & Hx & Hd & A' & B'). rewrite durations_each in Hd by exact Ld. cbn [b_point pt_times pt_durs] in Hx, Hd.
      destruct (Nat.eq_dec j (length l - 2)) as [->|Nj].
      * rewrite E1 in Hd. injection Hd as <-. rewrite nth_error_map, Hk in Hx. injection Hx as <-. lra.
      * assert (j < length l) by (rewrite <- (map_length fst l); apply nth_error_Some; congruence). assert (j = length l - 1) by lia. subst j.
        rewrite nth_error_map, Hk' in Hx. injection Hx as <-. lra.
    + intros A B. apply (b_read C H zen up radec l (length l - 1) s' h' (s' - s)%Q t So L Hk' E2 A B). intros x y Hx. exfalso.
      assert (S (length l - 1) < length l) by (apply nth_error_Some; congruence). lia.
    + intros A B. apply Zen. intros j Cv. destruct (Nat.lt_ge_cases j (length l - 2)) as [Lj|Lj]; [apply (Early j Lj); [lra|exact Cv]|].
      destruct Cv as (x & d & Hx & Hd & A' & B'). rewrite durations_each in Hd by exact Ld. cbn [b_point pt_times pt_durs] in Hx, Hd.
      destruct (Nat.eq_dec j (length l - 2)) as [->|Nj].
      * rewrite E1 in Hd. injection Hd as <-. rewrite nth_error_map, Hk in Hx. injection Hx as <-. lra.
      * assert (j < length l) by (rewrite <- (map_length fst l); apply nth_error_Some; congruence). assert (j = length l - 1) by lia. subst j.
        rewrite E2 in Hd. injection Hd as <-. rewrite nth_error_map, Hk' in Hx. injection Hx as <-. lra.
Qed.
Theorem altaz_b_single : forall C H (radec : Q -> H -> C) b lines x, of_beam b lines = [x] -> from_file radec AltazB b lines = Err EIndexError.
Proof. intros C H radec b lines x E. unfold from_file, from_altaz_b. rewrite E. reflexivity. Qed.
Theorem altaz_b_refuted : exists (lines : list (line nat)) p t, in_order 0 lines /\ from_file (fun _ h => h) AltazB 0 lines = Ok p /\
  (exists s s', line_at 0 lines 1 s 11 /\ line_at 0 lines 2 s' 12 /\ (s <= t)%Q /\ (t < s')%Q) /\ at_time (fun _ => 99) 99 p t = Ok (99, Some 99).
Proof.
  exists [(0%Q, 0%Z, 10); (60%Q, 0%Z, 11); (120%Q, 0%Z, 12)]. eexists. exists 90%Q. split; [repeat constructor|]. split; [vm_compute; reflexivity|].
  split; [exists 60%Q, 120%Q; repeat split; discriminate|vm_compute; reflexivity].
Qed.
