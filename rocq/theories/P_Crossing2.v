(** Rises, sets and transits. *)
From Coq Require Import ZArith QArith Qround Qabs Bool List Arith Lia Lqa Sorting.Sorted Morphisms.
From Verif Require Import Base M_Analog M_Crossing P_Crossing.
Import ListNotations.
Open Scope list_scope.
Open Scope Q_scope.

(** A function of time. *)
Definition timely (f : Q -> Q) : Prop := forall a b, a == b -> f a == f b.
Lemma Qle_bool_eq a a' b b' : a == a' -> b == b' -> Qle_bool a b = Qle_bool a' b'.
Proof. intros A B. apply eq_true_iff_eq. rewrite !Qle_bool_iff. now rewrite A, B. Qed.
Lemma Qltb_eq a a' b b' : a == a' -> b == b' -> Qltb a b = Qltb a' b'.
Proof. intros A B. unfold Qltb. now rewrite (Qle_bool_eq b b' a a' B A). Qed.
Ltac timely H := intros a a' b b' A B; repeat (apply (f_equal2 andb) || apply (f_equal2 orb)); apply Qle_bool_eq; try reflexivity; auto.
Theorem rising_search : forall alt e, timely alt -> of_times (rising alt e) /\ splits (rising alt e).
Proof.
  intros alt e H. split; [timely H|]. intros a b c _ _ C. unfold rising in *. apply andb_prop in C. destruct C as [C1 C2]. rewrite C1, C2.
  destruct (Qlt_le_dec e (alt b)) as [L|L]; [left|right]; [rewrite (proj2 (Qle_bool_iff e (alt b))); [reflexivity|lra]|now rewrite (proj2 (Qle_bool_iff (alt b) e) L)].
Qed.
Theorem setting_search : forall alt e, timely alt -> of_times (setting alt e) /\ splits (setting alt e).
Proof.
  intros alt e H. split; [timely H|]. intros a b c _ _ C. unfold setting in *. apply andb_prop in C. destruct C as [C1 C2]. rewrite C1, C2.
  destruct (Qlt_le_dec e (alt b)) as [L|L]; [right|left]; [rewrite (proj2 (Qle_bool_iff e (alt b))); [reflexivity|lra]|now rewrite (proj2 (Qle_bool_iff (alt b) e) L)].
Qed.
Theorem ha_search : forall ha, timely ha -> of_times (ha_drop ha) /\ splits (ha_drop ha).
Proof.
  intros ha H. split.
  - intros a a' b b' A B. unfold ha_drop. apply Qltb_eq; [|reflexivity]. now rewrite (H _ _ A), (H _ _ B).
  - intros a b c _ _ C. unfold ha_drop in *. apply Qltb_lt in C. destruct (Qlt_le_dec (ha b - ha a) 0) as [L|L]; [left; now apply Qltb_lt|right; apply Qltb_lt; lra].
Qed.
Lemma signed_eq a b : a == b -> signed a == signed b.
Proof. intro E. unfold signed. assert (X : (a - 180) / 360 == (b - 180) / 360) by now rewrite E. rewrite (Qceiling_comp _ _ X). now rewrite E. Qed.
Theorem azimuth_search : forall circumpolar az a, timely az -> of_times (az_cross circumpolar az a) /\ splits (az_cross circumpolar az a).
Proof.
  intros circ az a0 H. split.
  - destruct circ; unfold az_cross; cbv zeta.
    + intros a a' b b' A B. assert (SA := signed_eq _ _ (H _ _ A)). assert (SB := signed_eq _ _ (H _ _ B)).
      rewrite (Qle_bool_eq _ _ (signed a0) (signed a0) SA (Qeq_refl _)), (Qle_bool_eq (signed a0) (signed a0) _ _ (Qeq_refl _) SB), (Qle_bool_eq (signed a0) (signed a0) _ _ (Qeq_refl _) SA), (Qle_bool_eq _ _ (signed a0) (signed a0) SB (Qeq_refl _)). reflexivity.
    + timely H.
  - intros a b c _ _ C. unfold az_cross in *. cbv zeta in *. destruct circ.
    + rewrite !orb_true_iff, !andb_true_iff, !Qle_bool_iff in *. destruct (Qlt_le_dec (signed (az b)) (signed a0)) as [L|L]; destruct C as [[C1 C2]|[C1 C2]]; [right; left|left; right|left; left|right; right]; split; lra.
    + rewrite !andb_true_iff, !Qle_bool_iff in *. destruct (Qlt_le_dec (az b) a0) as [L|L]; destruct C as [C1 C2]; [right|left]; split; lra.
Qed.
Lemma rising_met alt e t t' : rising alt e t t' = true <-> alt t <= e <= alt t'.
Proof. unfold rising. now rewrite andb_true_iff, !Qle_bool_iff. Qed.
(** What is met. *)
Theorem condition_met : forall alt ha az e t t',
  (rising alt e t t' = true <-> alt t <= e <= alt t') /\ (setting alt e t t' = true <-> alt t' <= e <= alt t) /\
  (ha_drop ha t t' = true <-> ha t' < ha t) /\ (az_cross false az e t t' = true <-> az t <= e <= az t').
Proof.
  intros. unfold rising, setting, az_cross, ha_drop. rewrite !andb_true_iff, !Qle_bool_iff, Qltb_lt. split; [tauto|]. split; [tauto|]. split; [split; intro; lra|tauto].
Qed.
Lemma signed_spec a : -180 < signed a <= 180 /\ exists k, signed a == a - 360 * inject_Z k.
Proof.
  unfold signed. set (q := (a - 180) / 360). assert (X : a - 180 == 360 * q) by (unfold q; field). assert (A := Qle_ceiling q). assert (B := Qceiling_lt q).
  unfold Z.sub in B. rewrite inject_Z_plus, inject_Z_opp in B. change (inject_Z 1) with 1 in B. split; [lra|]. eexists. reflexivity.
Qed.
Theorem circumpolar_met : forall az a t t', az_cross true az a t t' = true <-> exists s s' c, -180 < s <= 180 /\ -180 < s' <= 180 /\ -180 < c <= 180 /\
  (exists i j k, s == az t - 360 * inject_Z i /\ s' == az t' - 360 * inject_Z j /\ c == a - 360 * inject_Z k) /\ (s <= c <= s' \/ s' <= c <= s).
Proof.
  intros az a t t'. unfold az_cross. cbv zeta. rewrite orb_true_iff, !andb_true_iff, !Qle_bool_iff. split.
  - intro H. exists (signed (az t)), (signed (az t')), (signed a). destruct (signed_spec (az t)) as [A (i & I)]. destruct (signed_spec (az t')) as [B (j & J)]. destruct (signed_spec a) as [C (k & K)].
    split; [exact A|]. split; [exact B|]. split; [exact C|]. split; [exists i, j, k; auto|]. tauto.
  - intros (s & s' & c & A & B & C & (i & j & k & I & J & K) & H).
    assert (U : forall x y z, -180 < x <= 180 -> (exists m, x == y - 360 * inject_Z m) -> z == signed y -> x == z).
    { intros x y z X (m & M) Z. destruct (signed_spec y) as [Y (m' & M')]. rewrite Z. assert (E : m = m'); [|subst; lra].
      assert ((m < m' + 1)%Z) by (rewrite Zlt_Qlt, inject_Z_plus; change (inject_Z 1) with 1; lra). assert ((m' < m + 1)%Z) by (rewrite Zlt_Qlt, inject_Z_plus; change (inject_Z 1) with 1; lra). lia. }
    assert (E1 : s == signed (az t)) by (eapply U; eauto; reflexivity). assert (E2 : s' == signed (az t')) by (eapply U; eauto; reflexivity). assert (E3 : c == signed a) by (eapply U; eauto; reflexivity).
    rewrite E1, E2, E3 in H. tauto.
Qed.

(** ** One crossing in the window *)
(** A condition met only by the intervals that hold [c]. *)
Definition only_at (cross : Q -> Q -> bool) (a b c : Q) : Prop := forall t t', a <= t -> t < t' -> t' <= b -> cross t t' = true -> t <= c <= t'.
(** Found at [c]: one time, or two when [c] is a sample. *)
Definition found (l : list Q) (c p : Q) : Prop := l <> [] /\ (length l <= 2)%nat /\ forall x, In x l -> c - p < x /\ x <= c + p / 10.
Theorem once : forall cross c t0 d p fuel l, of_times cross -> splits cross -> 0 < d -> 0 < p -> p < d -> only_at cross t0 (t0 + d) c -> cross t0 (t0 + d) = true ->
  find_crossing fuel cross t0 d p = Some (Ok l) ->
  found l c p /\ ((forall t, t0 <= t -> t < c -> cross t c = false) \/ (forall t, c < t -> t <= t0 + d -> cross c t = false) -> length l = 1%nat).
Proof.
  intros cross c t0 d p fuel l T S D P Pd O C H.
  assert (NE : l <> []) by exact (find_some cross fuel t0 d p l T S D Pd C H).
  destruct (find_sound _ _ _ _ _ _ T D H) as [E|(w & h & m & n & Hn & W0 & W1 & Hh & E & Su & M)]; [contradiction|].
  assert (N := parts_ge _ _ Hn). assert (N5 : 5 <= inject_Z n) by (rewrite <- (Zle_Qle 5); exact N).
  assert (B : forall t, In t m -> t <= c /\ c <= t + w). { intros t I. destruct (M t I) as (A1 & A2 & A3). apply O in A3; lra. }
  assert (Hpos : 0 < h /\ 10 * h <= w). { split; nra. }
  assert (Sh : (length m <= 1)%nat \/ exists a b, m = [a; b] /\ a + w == c /\ b == c).
  { clear E H. destruct m as [|a [|b m]]; [cbn; left; lia|cbn; left; lia|]. right. exists a, b.
    inversion Su as [|? ? S1 F1]; subst. inversion S1 as [|? ? S2 F2]; subst. rewrite Forall_forall in F1, F2.
    assert (A := F1 b (or_introl eq_refl)). cbv beta in A. destruct (B a (or_introl eq_refl)) as (_ & Q1). destruct (B b (or_intror (or_introl eq_refl))) as (Q2 & _).
    assert (m = []) as ->; [|split; [reflexivity|split; lra]]. destruct m as [|b' m]; [reflexivity|]. assert (A' := F2 b' (or_introl eq_refl)). cbv beta in A'. destruct (B b' (or_intror (or_intror (or_introl eq_refl)))). exfalso. lra. }
  assert (NM : m <> []) by (intros ->; now apply NE). split; [split; [exact NE|split]|].
  - rewrite E, map_length. destruct Sh as [Sh|(a & b & -> & _)]; [lia|cbn; lia].
  - intros x X. rewrite E in X. apply in_map_iff in X. destruct X as (t & <- & I). destruct (B t I). assert (X : p == p / 10 * 10) by field. set (q := p / 10) in *. clearbody q. split; lra.
  - intro Z. rewrite E, map_length. destruct Sh as [Sh|(a & b & -> & Ea & Eb)]; [destruct m; [now elim NM|cbn in *; lia]|exfalso].
    destruct (M a (or_introl eq_refl)) as (A1 & A2 & A3). destruct (M b (or_intror (or_introl eq_refl))) as (B1 & B2 & B3). destruct Z as [Z|Z].
    + rewrite (T a a (a + w) c (Qeq_refl a) Ea) in A3. rewrite Z in A3; [discriminate|exact A1|lra].
    + rewrite (T b c (b + w) (b + w) Eb (Qeq_refl _)) in B3. rewrite Z in B3; [discriminate|lra|lra].
Qed.
Theorem rise_once : forall alt e c t0 d p fuel l, timely alt -> 0 < p -> p < d -> t0 < c < t0 + d ->
  (forall t, t0 <= t -> t < c -> alt t < e) -> (forall t, c < t -> t <= t0 + d -> e < alt t) ->
  find_crossing fuel (rising alt e) t0 d p = Some (Ok l) -> found l c p /\ (~ alt c == e -> length l = 1%nat).
Proof.
  intros alt e c t0 d p fuel l Ta P Pd [C1 C2] Lo Hi H. destruct (rising_search alt e Ta) as [T S].
  destruct (once (rising alt e) c t0 d p fuel l T S) as [F O]; try assumption; try lra.
  - intros t t' A B C R. apply rising_met in R. destruct R as [R1 R2]. split.
    + destruct (Qlt_le_dec c t) as [L|L]; [|exact L]. assert (X := Hi t L). lra.
    + destruct (Qlt_le_dec t' c) as [L|L]; [|exact L]. assert (X := Lo t'). lra.
  - apply rising_met. split; apply Qlt_le_weak; [apply Lo|apply Hi]; lra.
  - split; [exact F|]. intro NE. apply O. destruct (Qlt_le_dec (alt c) e) as [L|L]; [left|right]; intros t A B; apply not_true_iff_false; intro R; apply rising_met in R; [lra|]. apply NE. lra.
Qed.
Lemma setting_rising alt e t t' : setting alt e t t' = rising (fun t => - alt t) (- e) t t'.
Proof. apply eq_true_iff_eq. rewrite rising_met. unfold setting. rewrite andb_true_iff, !Qle_bool_iff. split; intros [A B]; split; lra. Qed.
Lemma starts_ext c c' : (forall a b, c a b = c' a b) -> forall l, starts c l = starts c' l.
Proof. intros E. induction l as [|a [|b l] IH]; [reflexivity|reflexivity|]. cbn [starts] in *. now rewrite E, IH. Qed.
Lemma find_ext c c' t0 d p fuel : (forall a b, c a b = c' a b) -> find_crossing fuel c t0 d p = find_crossing fuel c' t0 d p.
Proof.
  intro E. unfold find_crossing. cbv zeta. generalize (down_factor d) (d / inject_Z (down_factor d)) (@None (list Q)) [t0]. intros n dt o l. revert l d dt o. induction fuel as [|fuel IH]; intros; [reflexivity|]. cbn [find_loop]. destruct (Qltb p (dt * inject_Z n)); [|reflexivity].
  rewrite (flat_map_ext _ (fun t => starts c' (samples t dt (Qceiling (d / dt)))) (fun t => starts_ext c c' E _)). destruct (flat_map _ l); [reflexivity|apply IH].
Qed.
Theorem set_once : forall alt e c t0 d p fuel l, timely alt -> 0 < p -> p < d -> t0 < c < t0 + d ->
  (forall t, t0 <= t -> t < c -> e < alt t) -> (forall t, c < t -> t <= t0 + d -> alt t < e) ->
  find_crossing fuel (setting alt e) t0 d p = Some (Ok l) -> found l c p /\ (~ alt c == e -> length l = 1%nat).
Proof.
  intros alt e c t0 d p fuel l Ta P Pd C Lo Hi H. rewrite (find_ext _ _ t0 d p fuel (setting_rising alt e)) in H.
  destruct (rise_once (fun t => - alt t) (- e) c t0 d p fuel l) as [F O]; try assumption.
  - intros a b E. now rewrite (Ta a b E).
  - intros t A B. specialize (Lo t A B). lra.
  - intros t A B. specialize (Hi t A B). lra.
  - split; [exact F|]. intro N. apply O. intro X. apply N. lra.
Qed.
(** The hour angle grows to the transit [c], falls there, and grows again, below its first
    value. *)
Theorem transit_once : forall ha c t0 d p fuel l, timely ha -> 0 < p -> p < d -> t0 < c -> c <= t0 + d ->
  (forall t t', t0 <= t -> t <= t' -> t' < c -> ha t <= ha t') -> (forall t t', c <= t -> t <= t' -> t' <= t0 + d -> ha t <= ha t') -> ha (t0 + d) < ha t0 ->
  find_crossing fuel (ha_drop ha) t0 d p = Some (Ok l) -> found l c p /\ length l = 1%nat.
Proof.
  intros ha c t0 d p fuel l Ta P Pd C1 C2 Lo Hi Dr H. destruct (ha_search ha Ta) as [T S].
  assert (HD : forall t t', ha_drop ha t t' = true <-> ha t' < ha t). { intros t t'. unfold ha_drop. rewrite Qltb_lt. split; intro; lra. }
  destruct (once (ha_drop ha) c t0 d p fuel l T S) as [F O]; try assumption; try lra.
  - intros t t' A B C R. apply HD in R. split.
    + destruct (Qlt_le_dec c t) as [L|L]; [|exact L]. assert (X := Hi t t'). lra.
    + destruct (Qlt_le_dec t' c) as [L|L]; [|exact L]. assert (X := Lo t t'). lra.
  - now apply HD.
  - split; [exact F|]. apply O. right. intros t A B. apply not_true_iff_false. intro R. apply HD in R. assert (X := Hi c t). lra.
Qed.

(** ** Next and previous *)
Lemma successive_hd w l x y : 0 <= w -> successive w l -> hd_error l = Some x -> In y l -> x <= y.
Proof.
  intros W S H I. destruct l as [|a l]; [discriminate|]. injection H as ->. destruct I as [->|I]; [apply Qle_refl|]. inversion S as [|? ? S1 F1]; subst. rewrite Forall_forall in F1. specialize (F1 y I). cbv beta in F1. lra.
Qed.
Lemma successive_last w l x y : 0 <= w -> successive w l -> hd_error (rev l) = Some x -> In y l -> y <= x.
Proof.
  intros W S H I. destruct (rev l) as [|a r] eqn:R; [discriminate|]. injection H as ->. assert (E : l = rev r ++ [x]) by (rewrite <- (rev_involutive l), R; reflexivity). subst l.
  clear R. induction (rev r) as [|b q IH]; cbn in *; [destruct I as [->|[]]; apply Qle_refl|]. inversion S as [|? ? S1 F1]; subst. destruct I as [->|I]; [|now apply IH].
  rewrite Forall_forall in F1. specialize (F1 x). cbv beta in F1. assert (In x (q ++ [x])) by (apply in_or_app; right; now left). specialize (F1 H). lra.
Qed.
Lemma shifted_successive w h m : successive w m -> successive w (map (fun t => t + h) m).
Proof. apply StronglySorted_map. intros x y L. lra. Qed.
Theorem next_first : forall cross fuel t p r, of_times cross -> next_time fuel cross t p = Some r ->
  exists l, (r = Err EUnboundLocalError /\ 172800 <= p) \/ (find_crossing fuel cross t 172800 p = Some (Ok l) /\
    match r with Err _ => False | Ok None => l = [] | Ok (Some x) => In x l /\ forall y, In y l -> x <= y end).
Proof.
  intros cross fuel t p r T H. unfold next_time in H. change two_days with (172800 # 1) in H. destruct (find_crossing fuel cross t 172800 p) as [[l|e]|] eqn:F; [| |discriminate]; cbn in H; injection H as <-.
  - exists l. right. split; [reflexivity|]. destruct l as [|x l]; [reflexivity|]. cbn. split; [now left|]. intros y I.
    destruct (find_sound _ _ _ 172800 _ _ T ltac:(reflexivity) F) as [E|(w & h & m & n & Hn & W0 & W1 & Hh & E & Su & M)]; [discriminate|].
    apply (successive_hd w (x :: l)); [lra|rewrite E; now apply shifted_successive|reflexivity|exact I].
  - exists []. left. destruct fuel as [|fuel]; [discriminate|]. apply find_error in F; [|reflexivity]. destruct F as [-> F]. auto.
Qed.
Theorem previous_last : forall cross fuel t p r, of_times cross -> previous_time fuel cross t p = Some r ->
  exists l, (r = Err EUnboundLocalError /\ 172800 <= p) \/ (find_crossing fuel cross (t - 172800) 172800 p = Some (Ok l) /\
    match r with Err _ => False | Ok None => l = [] | Ok (Some x) => In x l /\ forall y, In y l -> y <= x end).
Proof.
  intros cross fuel t p r T H. unfold previous_time in H. change two_days with (172800 # 1) in H. destruct (find_crossing fuel cross (t - 172800) 172800 p) as [[l|e]|] eqn:F; [| |discriminate]; cbn [option_map bind] in H; injection H as <-.
  - exists l. right. split; [reflexivity|]. destruct (hd_error (rev l)) as [x|] eqn:R.
    + assert (Ix : In x l). { apply in_rev. destruct (rev l); [discriminate|]. injection R as ->. now left. } split; [exact Ix|]. intros y I.
      destruct (find_sound _ _ _ 172800 _ _ T ltac:(reflexivity) F) as [E|(w & h & m & n & Hn & W0 & W1 & Hh & E & Su & M)]; [subst l; destruct I|].
      apply (successive_last w l); [lra|rewrite E; now apply shifted_successive|exact R|exact I].
    + destruct (rev l) eqn:R'; [|discriminate]. rewrite <- (rev_involutive l), R'. reflexivity.
  - exists []. left. destruct fuel as [|fuel]; [discriminate|]. apply find_error in F; [|reflexivity]. destruct F as [-> F]. auto.
Qed.
Theorem meridian_none : forall fuel ha t p, of_times (ha_drop ha) ->
  (next_time fuel (ha_drop ha) t p = Some (Ok None) <-> next_meridian_transit fuel ha t p = Some (Err EIndexError)) /\
  (forall x, next_time fuel (ha_drop ha) t p = Some (Ok (Some x)) <-> next_meridian_transit fuel ha t p = Some (Ok x)) /\
  (previous_time fuel (ha_drop ha) t p = Some (Ok None) <-> previous_meridian_transit fuel ha t p = Some (Err EIndexError)) /\
  (forall x, previous_time fuel (ha_drop ha) t p = Some (Ok (Some x)) <-> previous_meridian_transit fuel ha t p = Some (Ok x)).
Proof.
  intros fuel ha t p T. unfold next_meridian_transit, previous_meridian_transit, or_index.
  assert (A : forall e, next_time fuel (ha_drop ha) t p = Some (Err e) -> e = EUnboundLocalError). { intros e H. apply next_first in H; [|exact T]. destruct H as (l & [[H _]|[_ []]]). congruence. }
  assert (B : forall e, previous_time fuel (ha_drop ha) t p = Some (Err e) -> e = EUnboundLocalError). { intros e H. apply previous_last in H; [|exact T]. destruct H as (l & [[H _]|[_ []]]). congruence. }
  destruct (next_time fuel (ha_drop ha) t p) as [[[x|]|e]|]; destruct (previous_time fuel (ha_drop ha) t p) as [[[x'|]|e']|]; cbn;
    try rewrite (A _ eq_refl); try rewrite (B _ eq_refl); repeat split; intros; congruence.
Qed.

(** ** What is missed or repeated *)
(** A target up for six hours between two samples. *)
Definition short_day (t : Q) : Q := 10000 - Qabs (t - 8640).
Theorem rise_missed_refuted : short_day 0 < 5000 /\ short_day 8640 == 10000 /\ short_day 17280 < 5000 /\
  find_crossing 20 (rising short_day 5000) 0 86400 5 = Some (Ok []) /\ find_crossing 20 (setting short_day 5000) 0 86400 5 = Some (Ok []).
Proof. repeat split; vm_compute; reflexivity. Qed.
(** A rise exactly at a sample is found twice. *)
Theorem rise_twice_refuted : exists x y, x < y /\ find_crossing 20 (rising (fun t => t - 17280) 0) 0 86400 5 = Some (Ok [x; y]) /\
  forall t, t - 17280 == 0 <-> t == 17280.
Proof. eexists. eexists. split; [|split; [vm_compute; reflexivity|]]; [vm_compute; reflexivity|]. intro t. split; intro H; lra. Qed.
(** A circumpolar target that crosses the South between 170 and 190 degrees is found at the
    North. *)
Definition southern (t : Q) : Q := 170 + t * (20 # 86400).
Theorem azimuth_refuted : (forall t, 0 <= t <= 86400 -> 170 <= southern t <= 190) /\
  exists x, find_crossing 20 (az_cross true southern 0) 0 86400 5 = Some (Ok [x]) /\ Qabs (southern x - 180) < 1.
Proof.
  split; [intros t [A B]; unfold southern; lra|]. eexists. split; [vm_compute; reflexivity|]. vm_compute. reflexivity.
Qed.
