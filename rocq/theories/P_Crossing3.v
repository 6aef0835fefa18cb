(** The transits by interpolation of the hour angle. *)
From Coq Require Import ZArith QArith Qround Qabs Bool List Arith Lia Lqa Sorting.Sorted Morphisms.
From Verif Require Import Base M_Analog M_Crossing P_Crossing P_Crossing2.
Import ListNotations.
Open Scope list_scope.
Open Scope Q_scope.

(** An hour angle between 0 and 360 that grows at the rate [r]. *)
Definition turns (ha : Q -> Q) (t0 r : Q) : Prop := forall t, 0 <= ha t < 360 /\ exists k, ha t == ha t0 + r * (t - t0) - 360 * inject_Z k.
(** The step between two samples. *)
Definition step_of (d ts s : Q) : Prop := s <= ts /\ s <= d / 5 /\ s <= 43200 /\ (s == ts \/ s == d / 5 \/ s == 43200).

Lemma sampling_step d ts : step_of d ts (sampling d ts).
Proof.
  unfold step_of, sampling. change (inject_Z (12 * 3600)) with 43200. cbv zeta. set (q := d / 5). clearbody q.
  destruct (Qltb q ts) eqn:A; [apply Qltb_lt in A; destruct (Qltb 43200 q) eqn:B|apply Qltb_ge in A; destruct (Qltb 43200 ts) eqn:B];
    (apply Qltb_lt in B || apply Qltb_ge in B); (split; [lra|]); (split; [lra|]); (split; [lra|]); auto using Qeq_refl.
Qed.
Lemma step_unique d ts s s' : step_of d ts s -> step_of d ts s' -> s == s'.
Proof. unfold step_of. set (q := d / 5). clearbody q. intros (A & B & C & D) (A' & B' & C' & D'). destruct D as [D|[D|D]], D' as [D'|[D'|D']]; lra. Qed.

Lemma interp_line h K : forall l x x0 y0, StronglySorted Qlt (x0 :: map fst l) -> x0 <= x -> x <= last (map fst l) x0 -> y0 * K == x0 - h ->
  (forall p, In p l -> snd p * K == fst p - h) -> interp_from x x0 y0 l * K == x - h.
Proof.
  induction l as [|[x1 y1] l IH]; intros x x0 y0 S A B E H; cbn [interp_from].
  - cbn in B. rewrite E. lra.
  - cbn [map fst] in S. inversion S as [|? ? S1 F]; subst. rewrite Forall_forall in F. assert (L := F x1 (or_introl eq_refl)). assert (E1 := H (x1, y1) (or_introl eq_refl)). cbn [fst snd] in E1.
    destruct (Qle_bool x1 x) eqn:Q.
    + apply Qle_bool_iff in Q. apply IH; [exact S1|exact Q| |exact E1|intros p I; apply H; now right].
      cbn [map fst] in B. destruct (map fst l) as [|b m] eqn:M; [exact B|]. replace (last (b :: m) x1) with (last (b :: m) x0) by (clear; revert b; induction m as [|c m IHm]; intro b; [reflexivity|apply (IHm c)]). exact B.
    + assert (X : (y0 + (x - x0) * ((y1 - y0) / (x1 - x0))) * K == y0 * K + (x - x0) * ((y1 * K - y0 * K) / (x1 - x0))) by (field; lra).
      rewrite X, E, E1. field. lra.
Qed.

(** ** Lists *)
Lemma last_cons_eq {A} : forall (l : list A) a x, last (a :: l) x = last l a.
Proof. induction l as [|c l IH]; intros a x; [reflexivity|]. change (last (a :: c :: l) x) with (last (c :: l) x). now rewrite !IH. Qed.
Lemma sorted_eq l m : Forall2 Qeq l m -> StronglySorted Qlt m -> StronglySorted Qlt l.
Proof.
  induction 1 as [|a b l m E F IH]; intro S; [constructor|]. inversion S as [|? ? S1 G]; subst. constructor; [now apply IH|].
  clear -E F G. induction F as [|c d l m E' F IH]; [constructor|]. inversion G; subst. constructor; [rewrite E, E'; assumption|now apply IH].
Qed.
Lemma max_last : forall l m, StronglySorted Qlt (m :: l) -> fold_left (fun m y => if Qle_bool m y then y else m) l m = last l m.
Proof.
  induction l as [|a l IH]; intros m S; [reflexivity|]. cbn [fold_left]. inversion S as [|? ? S1 F]; subst. inversion F; subst.
  rewrite (proj2 (Qle_bool_iff m a)) by (apply Qlt_le_weak; assumption). rewrite (IH a S1). destruct l as [|b l]; [reflexivity|]. clear. cbn [last]. revert b. induction l as [|c l IH]; intro b; [reflexivity|apply (IH c)].
Qed.
Lemma interp_all_spec table (P : Q -> Q -> Prop) : forall l, (forall v, In v l -> exists y, interp v table = Ok y /\ P v y) ->
  exists ys, interp_all table l = Ok ys /\ Forall2 P l ys.
Proof.
  induction l as [|v l IH]; intro H; cbn [interp_all]; [exists []; split; [reflexivity|constructor]|].
  destruct (H v (or_introl eq_refl)) as (y & -> & Py). destruct IH as (ys & -> & F); [intros u U; apply H; now right|]. exists (y :: ys). split; [reflexivity|now constructor].
Qed.
Lemma last_map {A B} (f : A -> B) l d : last (map f l) (f d) = f (last l d).
Proof. induction l as [|a [|b l] IH]; [reflexivity|reflexivity|exact IH]. Qed.
Lemma last_seq n : forall k, last (seq (S k) n) k = (k + n)%nat.
Proof.
  induction n as [|n IH]; intro k; [cbn; lia|]. specialize (IH (S k)). cbn [seq] in *. destruct n as [|n]; [cbn; lia|]. cbn [seq] in *.
  replace (k + S (S n))%nat with (S k + S n)%nat by lia. rewrite <- IH. clear. cbn [last]. generalize (seq (S (S (S k))) n). intro l. revert k. destruct l as [|a l]; [reflexivity|]. intros. clear. revert a. induction l as [|b l IH]; intro a; [reflexivity|apply IH].
Qed.

(** ** The flattened angle *)
Section turn.
  Variables (ha : Q -> Q) (t0 r s : Q).
  Hypothesis Ht : turns ha t0 r.
  Hypothesis Hr : 0 < r * s < 360.
  Let T := at_ t0 s.
  Let H (t : Q) : Q := ha t0 + r * (t - t0).
  Lemma H_step i : H (T (S i)) == H (T i) + r * s.
  Proof. unfold H, T. rewrite at_S. ring. Qed.
  Lemma flattened_line : forall n i k, ha (T i) + inject_Z k * 360 == H (T i) -> Forall2 Qeq (flattened k (ha (T i)) (map ha (map T (seq (S i) n)))) (map (fun j => H (T j)) (seq (S i) n)).
  Proof.
    induction n as [|n IH]; intros i k E; cbn [seq map flattened]; [constructor|].
    destruct (Ht (T i)) as [B0 _]. destruct (Ht (T (S i))) as [B1 (m & M)]. fold (H (T (S i))) in M. rewrite H_step in M.
    assert (C : (if Qltb (ha (T (S i)) - ha (T i)) 0 then k + 1 else k)%Z = m).
    { assert (A1 : (k < m + 1)%Z) by (rewrite Zlt_Qlt, inject_Z_plus; change (inject_Z 1) with 1; lra). assert (A2 : (m < k + 2)%Z) by (rewrite Zlt_Qlt, inject_Z_plus; change (inject_Z 2) with 2; lra).
      assert (A3 : m = k \/ m = (k + 1)%Z) by lia. destruct (Qltb (ha (T (S i)) - ha (T i)) 0) eqn:D; [apply Qltb_lt in D|apply Qltb_ge in D]; destruct A3 as [->|A3]; try reflexivity; try (now symmetry); exfalso.
      - lra.
      - subst m. rewrite inject_Z_plus in M. change (inject_Z 1) with 1 in M. lra. }
    cbv zeta. rewrite C. assert (X : ha (T (S i)) + inject_Z m * 360 == H (T (S i))) by (rewrite H_step, M; ring).
    constructor; [exact X|]. now apply IH.
  Qed.
  Lemma t0_eq : ha (T 0) == ha t0.
  Proof.
    destruct (Ht (T 0)) as [B (k & K)]. destruct (Ht t0) as [B0 _]. assert (Z0 : r * (T 0 - t0) == 0) by (unfold T; rewrite at_0; ring). rewrite Z0 in K. assert (E : k = 0%Z).
    { assert ((k < 0 + 1)%Z) by (rewrite Zlt_Qlt; change (inject_Z (0+1)) with 1; lra). assert ((0 < k + 1)%Z) by (rewrite Zlt_Qlt, inject_Z_plus; change (inject_Z 1) with 1; change (inject_Z 0) with 0; lra). lia. }
    subst k. change (inject_Z 0) with 0 in K. lra.
  Qed.
  Lemma flatten_line n : Forall2 Qeq (flatten_ha (map ha (map T (seq 0 n)))) (map (fun j => H (T j)) (seq 0 n)).
  Proof.
    destruct n as [|n]; [constructor|]. cbn [seq map flatten_ha]. assert (X : H (T 0) == ha t0) by (unfold H, T; rewrite at_0; ring). assert (Y := t0_eq). constructor.
    - rewrite X, Y. ring.
    - apply flattened_line. change (inject_Z 0) with 0. rewrite X, Y. ring.
  Qed.
  Lemma line_sorted n : forall k, StronglySorted Qlt (map (fun j => H (T j)) (seq k n)).
  Proof.
    intro k. eapply StronglySorted_map; [|apply seq_sorted]. intros i j L. cbv beta. unfold H, T, at_.
    assert (inject_Z (Z.of_nat i) + 1 <= inject_Z (Z.of_nat j)) by (change 1 with (inject_Z 1); rewrite <- inject_Z_plus, <- Zle_Qle; lia). nra.
  Qed.
End turn.

(** ** The transits *)
Lemma sorted_snoc_lt l x : StronglySorted Qlt (x :: l) -> forall y, In y (x :: l) -> y <= last l x.
Proof.
  revert x. induction l as [|a l IH]; intros x S y I; [destruct I as [->|[]]; apply Qle_refl|]. inversion S as [|? ? S1 F]; subst. inversion F; subst.
  rewrite last_cons_eq.
  destruct I as [->|I]; [|now apply IH]. apply Qle_trans with a; [now apply Qlt_le_weak|]. apply IH; [exact S1|now left].
Qed.
Lemma combine_fst {A B} : forall (l : list A) (m : list B), length l = length m -> map fst (combine l m) = l.
Proof. induction l as [|a l IH]; intros [|b m] E; try discriminate; [reflexivity|]. cbn. f_equal. apply IH. now injection E. Qed.
Lemma in_combine_nth {A B} (l : list A) (m : list B) p : In p (combine l m) -> exists i, nth_error l i = Some (fst p) /\ nth_error m i = Some (snd p).
Proof.
  revert m. induction l as [|a l IH]; intros [|b m] I; try destruct I as [<-|I]; try contradiction; [exists 0%nat; auto|]. destruct (IH m I) as (i & A1 & A2). exists (S i). auto.
Qed.
Lemma Forall2_nth {A B} (R : A -> B -> Prop) l m i a : Forall2 R l m -> nth_error l i = Some a -> exists b, nth_error m i = Some b /\ R a b.
Proof. intro F. revert i. induction F as [|x y l m X F IH]; intros [|i] E; try discriminate; cbn in *; [injection E as <-; eauto|now apply IH]. Qed.
Lemma Forall2_len {A B} (R : A -> B -> Prop) l m : Forall2 R l m -> length l = length m.
Proof. induction 1; cbn; congruence. Qed.
Lemma Forall2_last (l m : list Q) a b : Forall2 Qeq l m -> a == b -> last l a == last m b.
Proof. intros F. revert a b. induction F as [|x y l m X F IH]; intros a b E; [exact E|]. rewrite !last_cons_eq. exact (IH x y X). Qed.

Theorem transits_found : forall ha t0 d ts r s n, 0 < d -> 0 < ts -> step_of d ts s -> 0 < r -> r * s < 360 -> turns ha t0 r ->
  inject_Z n * s <= d -> d < (inject_Z n + 1) * s ->
  exists l, meridian_transit_2 ha t0 d ts = Ok l /\ StronglySorted Qlt l /\
    (forall x, In x l -> t0 < x /\ x < t0 + (inject_Z n - 1) * s /\ ha x == 0) /\
    (forall t, t0 < t -> t < t0 + (inject_Z n - 1) * s -> ha t == 0 -> exists x, In x l /\ x == t).
Proof.
  intros ha t0 d ts r s' n D TS Hs R Rs0 Ht N1 N2. set (s := sampling d ts). assert (Es : s' == s) by (eapply step_unique; [exact Hs|apply sampling_step]).
  assert (Rs : r * s < 360) by (rewrite <- Es; exact Rs0). rewrite Es in N1, N2. setoid_rewrite Es. clear Rs0.
  assert (S0 : 0 < s). { destruct (sampling_step d ts) as (_ & _ & _ & [X|[X|X]]); fold s in X; rewrite X; [exact TS|apply Qlt_shift_div_l; lra|reflexivity]. }
  assert (S5 : 5 * s <= d). { destruct (sampling_step d ts) as (_ & X & _). fold s in X. assert (Y : d == d / 5 * 5) by field. set (q := d / 5) in *. clearbody q. lra. }
  clear Hs Es s'. assert (Rs1 : 0 < r * s < 360) by (split; [nra|exact Rs]).
  assert (N5 : (5 <= n)%Z). { cut (5 < n + 1)%Z; [lia|]. rewrite Zlt_Qlt, inject_Z_plus. change (inject_Z 1) with 1. change (inject_Z 5) with 5. apply (Qmult_lt_r _ _ s S0). lra. }
  assert (En : Qfloor (d / s) = n).
  { assert (Y : d == d / s * s) by (field; lra). assert (A := Qfloor_le (d / s)). assert (B := Qlt_floor (d / s)). set (q := d / s) in *. clearbody q. rewrite inject_Z_plus in B. change (inject_Z 1) with 1 in B.
    assert (A1 : inject_Z n <= q) by (apply (Qmult_le_r _ _ s S0); lra). assert (A2 : q < inject_Z n + 1) by (apply (Qmult_lt_r _ _ s S0); lra).
    assert ((Qfloor q < n + 1)%Z) by (rewrite Zlt_Qlt, inject_Z_plus; change (inject_Z 1) with 1; lra). assert ((n < Qfloor q + 1)%Z) by (rewrite Zlt_Qlt, inject_Z_plus; change (inject_Z 1) with 1; lra). lia. }
  unfold meridian_transit_2, sample_times. fold s. cbv zeta. rewrite En. change (map (fun i => t0 + inject_Z (Z.of_nat i) * s) (seq 0 (Z.to_nat n))) with (map (at_ t0 s) (seq 0 (Z.to_nat n))).
  assert (F := flatten_line ha t0 r s Ht Rs1 (Z.to_nat n)). assert (LS := line_sorted ha t0 r s Rs1 (Z.to_nat n) 0%nat). set (A := flatten_ha (map ha (map (at_ t0 s) (seq 0 (Z.to_nat n))))) in *.
  assert (SA := sorted_eq _ _ F LS). assert (LA : length A = Z.to_nat n) by (rewrite (Forall2_len _ _ _ F), map_length, seq_length; reflexivity).
  destruct (Z.to_nat n) as [|k] eqn:Nk; [lia|]. assert (Zk : inject_Z (Z.of_nat k) == inject_Z n - 1). { replace n with (Z.of_nat k + 1)%Z by lia. rewrite inject_Z_plus. change (inject_Z 1) with 1. ring. }
  assert (K0 : 0 < inject_Z (Z.of_nat k)) by (change 0 with (inject_Z 0); rewrite <- Zlt_Qlt; lia).
  set (K := r * (inject_Z (Z.of_nat k) * s)). assert (Kpos : 0 < inject_Z (Z.of_nat k) * s) by nra. assert (KK : 0 < K) by (unfold K; nra).
  unfold interpolate_crossing. cbn [seq map]. destruct A as [|a0 A']; [discriminate|]. rewrite LA. cbn [Nat.sub]. rewrite Nat.sub_0_r.
  set (X := map (fun i => inject_Z (Z.of_nat i) / inject_Z (Z.of_nat k)) (seq 0 (S k))).
  assert (Top : fold_left (fun m y => if Qle_bool m y then y else m) (a0 :: A') a0 = last A' a0) by (cbn [fold_left]; rewrite (proj2 (Qle_bool_iff a0 a0)) by apply Qle_refl; now apply max_last).
  rewrite Top. clear Top.
  assert (Elast : last A' a0 == ha t0 + K).
  { cbn [seq map] in F. inversion F as [|? ? ? ? E1 F1]; subst. rewrite (Forall2_last _ _ _ _ F1 E1). rewrite (last_map (fun j => ha t0 + r * (at_ t0 s j - t0)) (seq 1 k) 0%nat), last_seq. unfold at_, K. rewrite Nat.add_0_l. ring. }
  assert (E0 : a0 == ha t0). { cbn [seq map] in F. inversion F as [|? ? ? ? E1 F1]; subst. rewrite E1, at_0. ring. }
  change (at_ t0 s 0 :: map (at_ t0 s) (seq 1 k)) with (map (at_ t0 s) (seq 0 (S k))).
  assert (Et : last (map (at_ t0 s) (seq 0 (S k))) (at_ t0 s 0) = at_ t0 s k). { rewrite last_map. cbn [seq]. destruct k as [|k']; [reflexivity|]. f_equal. exact (last_seq (S k') 0%nat). }
  rewrite Et. set (C := Qceiling (last A' a0 / 360)).
  assert (HC : forall m, (m <= C - 1)%Z <-> inject_Z m * 360 < ha t0 + K).
  { intro m. assert (Y : ha t0 + K == last A' a0 / 360 * 360) by (rewrite Elast; field). assert (B1 := Qle_ceiling (last A' a0 / 360)). assert (B2 := Qceiling_lt (last A' a0 / 360)). fold C in B1, B2. set (q := last A' a0 / 360) in *. clearbody q C.
    unfold Z.sub in B2. rewrite inject_Z_plus, inject_Z_opp in B2. change (inject_Z 1) with 1 in B2. split; intro I.
    - assert (inject_Z m + 1 <= inject_Z C) by (change 1 with (inject_Z 1); rewrite <- inject_Z_plus, <- Zle_Qle; lia). lra.
    - cut (m < C)%Z; [lia|]. rewrite Zlt_Qlt. lra. }
  destruct (Ht t0) as [[H0 H1] _].
  destruct (interp_all_spec (combine (a0 :: A') X) (fun v y => y * K == v - ha t0) (map (fun k0 => inject_Z (Z.of_nat k0) * 360 + 0) (seq 1 (Z.to_nat (C - 1))))) as (ys & -> & FY).
  { intros v I. apply in_map_iff in I. destruct I as (j & <- & J). apply in_seq in J. assert (J1 : inject_Z (Z.of_nat j) * 360 < ha t0 + K) by (apply HC; lia).
    assert (J2 : 1 <= inject_Z (Z.of_nat j)) by (change 1 with (inject_Z 1); rewrite <- Zle_Qle; lia).
    unfold X. cbn [seq map combine interp]. destruct (Qle_bool (inject_Z (Z.of_nat j) * 360 + 0) a0) eqn:Q; [apply Qle_bool_iff in Q; exfalso; lra|]. eexists. split; [reflexivity|].
    apply interp_line.
    - rewrite combine_fst; [exact SA|]. rewrite map_length, seq_length. now injection LA.
    - lra.
    - rewrite combine_fst by (rewrite map_length, seq_length; now injection LA). rewrite Elast. lra.
    - rewrite E0. change (inject_Z (Z.of_nat 0)) with 0. field. lra.
    - intros p P. apply in_combine_nth in P. destruct P as (i & P1 & P2). cbn [seq map] in F. inversion F as [|? ? ? ? _ F1]; subst. destruct (Forall2_nth _ _ _ _ _ F1 P1) as (b & B1 & B2).
      rewrite nth_error_map in B1, P2. destruct (nth_error (seq 1 k) i) as [q|]; [|discriminate]. cbn [option_map] in *. apply (f_equal (fun o => match o with Some x => x | None => 0 end)) in B1, P2. cbv beta iota in B1, P2. rewrite <- B1 in B2. rewrite <- P2, B2. unfold at_, K. field. lra. }
  cbn [bind]. eexists. split; [reflexivity|].
  assert (V : forall v y, y * K == v - ha t0 -> at_ t0 s 0 + y * (at_ t0 s k - at_ t0 s 0) == t0 + (v - ha t0) / r).
  { intros v y E. rewrite <- E. rewrite at_0. unfold at_, K. field. lra. }
  set (g := fun y => at_ t0 s 0 + y * (at_ t0 s k - at_ t0 s 0)) in *.
  assert (Inv : forall x, In x (map g ys) -> exists j, (1 <= j <= C - 1)%Z /\ x == t0 + (inject_Z j * 360 - ha t0) / r).
  { intros x I. apply in_map_iff in I. destruct I as (y & <- & I). apply In_nth_error in I. destruct I as (i & I).
    assert (FY' : Forall2 (fun y v => y * K == v - ha t0) ys (map (fun k0 : nat => inject_Z (Z.of_nat k0) * 360 + 0) (seq 1 (Z.to_nat (C - 1))))) by (clear -FY; induction FY; constructor; assumption).
    destruct (Forall2_nth _ _ _ _ _ FY' I) as (b & B1 & B2). apply nth_error_In in B1. apply in_map_iff in B1. destruct B1 as (j & <- & J). apply in_seq in J. exists (Z.of_nat j). split; [lia|]. cbv beta in B2. unfold g. rewrite (V _ y B2). field. lra. }
  assert (Z360 : forall t, ha t == 0 <-> exists j, ha t0 + r * (t - t0) == inject_Z j * 360).
  { intro t. destruct (Ht t) as [[T0 T1] (m & M)]. split; intro E; [exists m; lra|]. destruct E as (j & J). rewrite J in M. assert (m = j); [|subst; lra].
    assert ((m < j + 1)%Z) by (rewrite Zlt_Qlt, inject_Z_plus; change (inject_Z 1) with 1; lra). assert ((j < m + 1)%Z) by (rewrite Zlt_Qlt, inject_Z_plus; change (inject_Z 1) with 1; lra). lia. }
  assert (Zn : (inject_Z n - 1) * s == inject_Z (Z.of_nat k) * s) by (rewrite Zk; ring).
  split; [|split].
  - assert (G : forall j m zs, Forall2 (fun v y => y * K == v - ha t0) (map (fun k0 : nat => inject_Z (Z.of_nat k0) * 360 + 0) (seq j m)) zs -> StronglySorted Qlt (map g zs) /\ forall z, In z (map g zs) -> t0 + (inject_Z (Z.of_nat j) * 360 - ha t0) / r <= z).
    { intros j m. revert j. induction m as [|m IH]; intros j zs Z; inversion Z as [|v y vs zs' E Z1]; subst; [split; [constructor|intros z []]|].
      destruct (IH (S j) zs' Z1) as [S1 S2]. cbn [map]. assert (Y : g y == t0 + (inject_Z (Z.of_nat j) * 360 - ha t0) / r) by (unfold g; rewrite (V _ y E); field; lra).
      assert (Lt : forall z, In z (map g zs') -> g y < z). { intros z I. specialize (S2 z I). rewrite Y. eapply Qlt_le_trans; [|exact S2]. rewrite Nat2Z.inj_succ. unfold Z.succ. rewrite inject_Z_plus. change (inject_Z 1) with 1.
        assert (W : (inject_Z (Z.of_nat j) * 360 - ha t0) / r < ((inject_Z (Z.of_nat j) + 1) * 360 - ha t0) / r); [|lra]. apply Qlt_shift_div_l; [exact R|]. assert (W : (inject_Z (Z.of_nat j) * 360 - ha t0) / r * r == inject_Z (Z.of_nat j) * 360 - ha t0) by (field; lra). rewrite W. lra. }
      split; [constructor; [exact S1|apply Forall_forall; exact Lt]|]. intros z [<-|I]; [rewrite Y; apply Qle_refl|]. apply Qlt_le_weak. rewrite <- Y. now apply Lt. }
    exact (proj1 (G _ _ _ FY)).
  - intros x I. destruct (Inv x I) as (j & J & E). assert (J1 : inject_Z j * 360 < ha t0 + K) by (apply HC; lia). assert (J2 : 1 <= inject_Z j) by (change 1 with (inject_Z 1); rewrite <- Zle_Qle; lia).
    assert (W : (x - t0) * r == inject_Z j * 360 - ha t0) by (rewrite E; field; lra). split; [|split].
    + cut (0 < x - t0); [lra|]. apply (Qmult_lt_r _ _ r R). rewrite W. lra.
    + rewrite Zn. cut (x - t0 < inject_Z (Z.of_nat k) * s); [lra|]. apply (Qmult_lt_r _ _ r R). rewrite W. unfold K in J1. lra.
    + apply Z360. exists j. rewrite (Qmult_comm r), W. ring.
  - intros t T1 T2 T3. apply Z360 in T3. destruct T3 as (j & J). rewrite Zn in T2.
    assert (J1 : inject_Z j * 360 < ha t0 + K). { rewrite <- J. unfold K. assert (r * (t - t0) < r * (inject_Z (Z.of_nat k) * s)) by (apply Qmult_lt_l; [exact R|lra]). lra. }
    assert (J2 : (0 < j)%Z). { rewrite Zlt_Qlt. change (inject_Z 0) with 0. assert (0 < r * (t - t0)) by nra. lra. } apply HC in J1.
    assert (I : nth_error (map (fun k0 : nat => inject_Z (Z.of_nat k0) * 360 + 0) (seq 1 (Z.to_nat (C - 1)))) (Z.to_nat j - 1) = Some (inject_Z j * 360 + 0)).
    { rewrite nth_error_map. rewrite (nth_error_nth' _ 0%nat) by (rewrite seq_length; lia). rewrite seq_nth by lia. cbn [option_map]. repeat f_equal. lia. }
    destruct (Forall2_nth _ _ _ _ _ FY I) as (y & Y1 & Y2). exists (g y). split; [apply in_map; now apply nth_error_In in Y1|]. unfold g. rewrite (V _ y Y2).
    assert (W : inject_Z j * 360 + 0 - ha t0 == r * (t - t0)) by lra. rewrite W. field. lra.
Qed.
(** ** The last step is not searched *)
Definition sidereal (h t : Q) : Q := let x := h + t / 240 in x - 360 * inject_Z (Qfloor (x / 360)).
Lemma sidereal_turns h : 0 <= h < 360 -> turns (sidereal h) 0 (1 # 240).
Proof.
  intros B t. unfold sidereal. cbv zeta. assert (F : Qfloor ((h + 0 / 240) / 360) = 0%Z).
  { assert (X : (h + 0 / 240) / 360 == h / 360) by field. rewrite (Qfloor_comp _ _ X). assert (A1 := Qfloor_le (h / 360)). assert (A2 := Qlt_floor (h / 360)). rewrite inject_Z_plus in A2. change (inject_Z 1) with 1 in A2. assert (Y : h == h / 360 * 360) by field. set (q := h / 360) in *. clearbody q.
    assert ((Qfloor q < 0 + 1)%Z) by (rewrite Zlt_Qlt; change (inject_Z (0 + 1)) with 1; lra). assert ((0 < Qfloor q + 1)%Z) by (rewrite Zlt_Qlt, inject_Z_plus; change (inject_Z 1) with 1; change (inject_Z 0) with 0; lra). lia. }
  rewrite F. change (inject_Z 0) with 0. assert (Y : h + t / 240 == (h + t / 240) / 360 * 360) by field. assert (A1 := Qfloor_le ((h + t / 240) / 360)). assert (A2 := Qlt_floor ((h + t / 240) / 360)). rewrite inject_Z_plus in A2. change (inject_Z 1) with 1 in A2.
  split; [set (q := (h + t / 240) / 360) in *; clearbody q; split; lra|]. exists (Qfloor ((h + t / 240) / 360)). field.
Qed.
Theorem last_step_refuted : turns (sidereal 5) 0 (1 # 240) /\ sidereal 5 85200 == 0 /\ 85200 < 86400 /\ meridian_transit_2 (sidereal 5) 0 86400 1800 = Ok [].
Proof. split; [apply sidereal_turns; lra|]. repeat split; vm_compute; reflexivity. Qed.
