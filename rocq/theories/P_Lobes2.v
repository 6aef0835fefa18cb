(** Lemmas on masks of contamination and their files (M_Lobes). *)
From Coq Require Import QArith Qround ZArith Bool List Lia Lqa.
From Verif Require Import Base M_Lobes P_Lobes.
Import ListNotations.
Open Scope Q_scope.
Open Scope list_scope.

(** * Sums *)
Definition same (x y : option Q) : Prop := match x, y with Some a, Some b => a == b | None, None => True | _, _ => False end.
Definition same_times (a b : list Q) : Prop := Forall2 Qeq a b.
(** As many rows as frequencies, of as many values as times. *)
Definition shaped (m : mask) : Prop := length (m_value m) = length (m_freq m) /\ Forall (fun r => length r = length (m_time m)) (m_value m).
Definition compatible (a b : mask) : Prop := same_times (m_freq a) (m_freq b) /\ same_times (m_time a) (m_time b).
Lemma same_axis_iff a b : same_axis a b = true <-> same_times a b.
Proof.
  unfold same_axis, same_times. revert b. induction a as [|x a IH]; intros [|y b]; cbn [length combine forallb Nat.eqb andb fst snd].
  - split; [constructor|reflexivity].
  - split; [discriminate|]. intro H. inversion H.
  - split; [discriminate|]. intro H. inversion H.
  - rewrite andb_true_iff, andb_true_iff. specialize (IH b). rewrite andb_true_iff in IH. split.
    + intros (A & B & C). constructor; [now apply Qeq_bool_iff|]. now apply IH.
    + intro H. inversion H; subst. split; [now apply IH|]. split; [now apply Qeq_bool_iff|now apply IH].
Qed.
Theorem add_accepts : forall a b, ((exists m, mask_add a b = Ok m) <-> compatible a b) /\ (mask_add a b = Err EException <-> ~ compatible a b).
Proof.
  intros a b. unfold mask_add, compatible. rewrite <- !same_axis_iff. destruct (same_axis (m_freq a) (m_freq b)), (same_axis (m_time a) (m_time b)); cbn [negb orb]; split; split; intro H; try congruence; try (destruct H; congruence); eauto; intuition congruence.
Qed.
Lemma zip_nth {A} (g : A -> A -> A) : forall a b i, nth_error (zip g a b) i = match nth_error a i, nth_error b i with Some x, Some y => Some (g x y) | _, _ => None end.
Proof.
  induction a as [|x a IH]; intros [|y b] [|i]; cbn; try reflexivity; [destruct (nth_error a i); reflexivity|]. apply IH.
Qed.
Lemma entry_zip a b f t x : entry (zip (zip nadd) a b) f t x <-> exists y z, entry a f t y /\ entry b f t z /\ x = nadd y z.
Proof.
  unfold entry. split.
  - intros (r & R & X). rewrite zip_nth in R. destruct (nth_error a f) as [u|] eqn:U; [|discriminate]. destruct (nth_error b f) as [v|] eqn:V; [|discriminate]. injection R as <-. rewrite zip_nth in X.
    destruct (nth_error u t) as [y|] eqn:Y; [|discriminate]. destruct (nth_error v t) as [z|] eqn:Z; [|discriminate]. injection X as <-. exists y, z. repeat split; eauto.
  - intros (y & z & (u & U & Y) & (v & V & Z) & ->). exists (zip nadd u v). rewrite zip_nth, U, V. split; [reflexivity|]. now rewrite zip_nth, Y, Z.
Qed.
Theorem add_values : forall a b m, mask_add a b = Ok m -> m_time m = m_time a /\ m_freq m = m_freq a /\
  forall f t x, entry (m_value m) f t x <-> exists y z, entry (m_value a) f t y /\ entry (m_value b) f t z /\ x = match y, z with Some p, Some q => Some (p + q) | _, _ => None end.
Proof.
  intros a b m. unfold mask_add. destruct (_ || _); [discriminate|]. intro H. injection H as <-. split; [reflexivity|]. split; [reflexivity|]. intros f t x. apply entry_zip.
Qed.
Lemma zip_length {A} (g : A -> A -> A) : forall a b, length (zip g a b) = Nat.min (length a) (length b).
Proof. induction a as [|x a IH]; intros [|y b]; cbn; auto. Qed.
Lemma F2_len {A B} (R : A -> B -> Prop) a b : Forall2 R a b -> length a = length b.
Proof. induction 1; cbn; congruence. Qed.
Theorem add_shape : forall a b m, shaped a -> shaped b -> mask_add a b = Ok m -> shaped m.
Proof.
  intros a b m [A1 A2] [B1 B2] H. assert (C : compatible a b) by (apply add_accepts; eauto). destruct C as [Cf Ct]. apply F2_len in Cf, Ct. unfold mask_add in H. destruct (_ || _); [discriminate|]. injection H as <-. unfold shaped. cbn [m_value m_freq m_time]. split; [rewrite zip_length; lia|].
  rewrite Ct in A2. rewrite Ct. clear -A2 B2. revert A2 B2. generalize (m_value b) as v. induction (m_value a) as [|x u IH]; intros [|y v] A B; cbn [zip]; try constructor.
  - inversion A; inversion B; subst. rewrite zip_length. lia.
  - inversion A; inversion B; subst. apply IH; assumption.
Qed.
Definition equivalent (a b : mask) : Prop := compatible a b /\ (forall f t x, entry (m_value a) f t x -> exists y, entry (m_value b) f t y /\ same x y) /\ (forall f t y, entry (m_value b) f t y -> exists x, entry (m_value a) f t x /\ same x y).
Lemma same_times_refl a : same_times a a. Proof. induction a; constructor; [reflexivity|assumption]. Qed.
Lemma same_times_sym a b : same_times a b -> same_times b a. Proof. induction 1; constructor; [now symmetry|assumption]. Qed.
Lemma same_times_trans a b c : same_times a b -> same_times b c -> same_times a c.
Proof. intro H. revert c. induction H as [|x y a b X H IH]; intros c K; inversion K as [|? z ? c' Z K']; subst; constructor; [exact (Qeq_trans _ _ _ X Z)|exact (IH _ K')]. Qed.
Lemma same_refl x : same x x. Proof. destruct x; cbn; [reflexivity|exact I]. Qed.
Theorem add_comm : forall a b m, mask_add a b = Ok m -> exists m', mask_add b a = Ok m' /\ equivalent m m'.
Proof.
  intros a b m H. assert (C : compatible a b) by (apply add_accepts; eauto). destruct (proj2 (proj1 (add_accepts b a))) as [m' H']. { destruct C. split; now apply same_times_sym. }
  exists m'. split; [exact H'|]. destruct (add_values _ _ _ H) as (T & F & V), (add_values _ _ _ H') as (T' & F' & V'). split.
  - unfold compatible. rewrite T, T', F, F'. exact C.
  - split; intros f t x X; [apply V in X|apply V' in X]; destruct X as (y & z & Y & Z & ->).
    + exists (match z, y with Some p, Some q => Some (p + q) | _, _ => None end). split; [apply V'; eauto|]. destruct y, z; cbn; try exact I. apply Qplus_comm.
    + exists (match z, y with Some p, Some q => Some (p + q) | _, _ => None end). split; [apply V; eauto|]. destruct y, z; cbn; try exact I. apply Qplus_comm.
Qed.
Theorem add_assoc : forall a b c ab l, mask_add a b = Ok ab -> mask_add ab c = Ok l -> exists bc r, mask_add b c = Ok bc /\ mask_add a bc = Ok r /\ equivalent l r.
Proof.
  intros a b c ab l H1 H2. assert (C1 : compatible a b) by (apply add_accepts; eauto). assert (C2 : compatible ab c) by (apply add_accepts; eauto). destruct (add_values _ _ _ H1) as (T1 & F1 & V1), (add_values _ _ _ H2) as (T2 & F2 & V2).
  unfold compatible in C1, C2. rewrite T1, F1 in C2. destruct C1 as [C1f C1t], C2 as [C2f C2t].
  destruct (proj2 (proj1 (add_accepts b c))) as [bc H3]. { split; eapply same_times_trans; try eassumption; now apply same_times_sym. }
  destruct (add_values _ _ _ H3) as (T3 & F3 & V3). destruct (proj2 (proj1 (add_accepts a bc))) as [r H4]. { unfold compatible. rewrite T3, F3. auto. }
  destruct (add_values _ _ _ H4) as (T4 & F4 & V4). exists bc, r. split; [exact H3|]. split; [exact H4|]. split; [unfold compatible; rewrite T2, F2, T1, F1, T4, F4; split; apply same_times_refl|]. split; intros f t x X.
  - apply V2 in X. destruct X as (y & z & Y & Z & ->). apply V1 in Y. destruct Y as (p & q & P & Q' & ->). eexists. split; [apply V4; exists p; eexists; split; [exact P|]; split; [apply V3; exists q, z; auto|reflexivity]|]. destruct p, q, z; cbn; try exact I. ring.
  - apply V4 in X. destruct X as (p & y & P & Y & ->). apply V3 in Y. destruct Y as (q & z & Q' & Z & ->). eexists. split; [apply V2; eexists; exists z; split; [apply V1; exists p, q; auto|]; split; [exact Z|reflexivity]|]. destruct p, q, z; cbn; try exact I. ring.
Qed.

(** * Files *)
Theorem floats_kept : forall m, fst (export m false) = m /\ from_fits (snd (export m false)) = m.
Proof. intros [t f v]. split; reflexivity. Qed.
Lemma entry_map {A B} (g : A -> B) l f t y : entry (map (map g) l) f t y <-> exists x, entry l f t x /\ y = g x.
Proof.
  unfold entry. split.
  - intros (r & R & Y). rewrite nth_error_map in R. destruct (nth_error l f) as [u|] eqn:U; [|discriminate]. cbn in R. injection R as <-. rewrite nth_error_map in Y. destruct (nth_error u t) as [x|] eqn:X; [|discriminate]. cbn in Y. injection Y as <-. eauto.
  - intros (x & (u & U & X) & ->). exists (map g u). rewrite !nth_error_map, U, X. split; reflexivity.
Qed.
(** What is read from a file of bytes. *)
Definition read_back (m : mask) : mask := from_fits (snd (export m true)).
Lemma read_entry m f t y : entry (m_value (read_back m)) f t y <-> exists x, entry (m_value m) f t x /\ y = Some (inject_Z (scaled x mod 256) / 255).
Proof.
  unfold read_back, export, from_fits. cbn [snd m_value f_column]. rewrite entry_map. split.
  - intros (z & Z & ->). apply entry_map in Z. destruct Z as (w & W & ->). apply entry_map in W. destruct W as (x & X & ->). eauto.
  - intros (x & X & ->). exists (scaled x mod 256)%Z. split; [|reflexivity]. apply entry_map. exists (scaled x). split; [|reflexivity]. apply entry_map. eauto.
Qed.
Theorem bytes_close : forall m f t v, entry (m_value m) f t (Some v) -> 0 <= v -> v <= 1 -> exists w, entry (m_value (read_back m)) f t (Some w) /\ w <= v /\ v < w + 1 / 255 /\ exists k, (0 <= k <= 255)%Z /\ w == inject_Z k / 255.
Proof.
  intros m f t v E A B. set (k := Qfloor (v * 255)). assert (L := Qfloor_le (v * 255)). assert (U := Qlt_floor (v * 255)). fold k in L, U.
  assert (K : (0 <= k <= 255)%Z). { split; [change 0%Z with (Qfloor 0); apply Qfloor_resp_le; lra|change 255%Z with (Qfloor 255); apply Qfloor_resp_le; lra]. }
  exists (inject_Z k / 255). split; [apply read_entry; exists (Some v); split; [exact E|]; cbn [scaled]; fold k; rewrite Z.mod_small by lia; reflexivity|].
  split; [apply Qle_shift_div_r; [reflexivity|exact L]|]. split; [|exists k; split; [exact K|reflexivity]].
  rewrite inject_Z_plus in U. assert (X : v * 255 < (inject_Z k / 255 + 1 / 255) * 255). { assert (Y : (inject_Z k / 255 + 1 / 255) * 255 == inject_Z k + inject_Z 1) by (change (inject_Z 1) with 1; field). rewrite Y. exact U. }
  apply (Qmult_lt_r _ _ 255); [reflexivity|exact X].
Qed.
Theorem bytes_nan : forall m f t, entry (m_value m) f t None -> exists w, entry (m_value (read_back m)) f t (Some w) /\ w == 0.
Proof. intros m f t E. eexists. split; [apply read_entry; exists None; split; [exact E|reflexivity]|]. reflexivity. Qed.
Theorem bytes_axes : forall m in_bytes, m_time (from_fits (snd (export m in_bytes))) = m_time m /\ m_freq (from_fits (snd (export m in_bytes))) = m_freq m.
Proof. intros m []; split; reflexivity. Qed.
(** Numbers of sources. *)
Lemma byte_of_count n : (1 <= n <= 256)%Z -> ((n * 255) mod 256 = 256 - n)%Z.
Proof. intro N. symmetry. apply (Z.mod_unique_pos _ _ (n - 1)); lia. Qed.
Theorem bytes_counts_refuted : forall m f t n, (1 <= n <= 256)%Z -> entry (m_value m) f t (Some (inject_Z n)) -> exists w, entry (m_value (read_back m)) f t (Some w) /\ w == inject_Z (256 - n) / 255.
Proof.
  intros m f t n N E. eexists. split; [apply read_entry; eexists; split; [exact E|reflexivity]|]. cbn [scaled]. assert (F : Qfloor (inject_Z n * 255) = (n * 255)%Z). { change 255 with (inject_Z 255). rewrite <- inject_Z_mult. apply Qfloor_Z. }
  rewrite F, byte_of_count by exact N. reflexivity.
Qed.
(** The object is changed by the export, so that the next one is of other values. *)
Theorem bytes_changed_refuted : forall m f t v, entry (m_value m) f t (Some v) -> 1 / 255 <= v -> v <= 1 -> exists k, (1 <= k <= 255)%Z /\ inject_Z k <= v * 255 < inject_Z (k + 1) /\
  entry (m_value (fst (export m true))) f t (Some (inject_Z k)) /\ exists w, entry (m_value (read_back (fst (export m true)))) f t (Some w) /\ w == inject_Z (256 - k) / 255.
Proof.
  intros m f t v E A B. set (k := Qfloor (v * 255)). assert (L := Qfloor_le (v * 255)). assert (U := Qlt_floor (v * 255)). fold k in L, U.
  assert (A' : 1 <= v * 255). { assert (X : 1 / 255 * 255 == 1) by field. rewrite <- X. apply Qmult_le_compat_r; [exact A|discriminate]. }
  assert (K : (1 <= k <= 255)%Z). { split; [change 1%Z with (Qfloor 1); apply Qfloor_resp_le; lra|change 255%Z with (Qfloor 255); apply Qfloor_resp_le; lra]. }
  assert (E' : entry (m_value (fst (export m true))) f t (Some (inject_Z k))).
  { unfold export. cbn [fst m_value]. apply entry_map. exists k. split; [|reflexivity]. apply entry_map. exists (Some v). split; [exact E|reflexivity]. }
  exists k. split; [exact K|]. split; [split; [exact L|exact U]|]. split; [exact E'|]. apply bytes_counts_refuted; [lia|exact E'].
Qed.
