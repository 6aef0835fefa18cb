(** Specifications and lemmas for M_Bst. *)
From Coq Require Import Ascii String List Arith ZArith QArith Qabs Bool Sorting.Sorted Lia Lqa.
From Verif Require Import Base M_Nd M_Select M_SData M_Bst.
Import ListNotations.
Open Scope nat_scope.
Open Scope list_scope.

(** * Specification *)
(** The indices a range selects in a list of values: the closest, the first if several are; or all
    between two bounds, in order. *)
Definition at_ (l : list Q) (i : nat) : Q := nth i l 0%Q.
Definition nearest (l : list Q) (x : Q) (i : nat) : Prop :=
  i < length l /\ (forall j, j < length l -> (Qabs (at_ l i - x) <= Qabs (at_ l j - x))%Q) /\ (forall j, j < i -> (Qabs (at_ l i - x) < Qabs (at_ l j - x))%Q).
Definition picks (l : list Q) (r : range) (idx : list nat) : Prop :=
  match r with
  | One x => exists i, idx = [i] /\ nearest l x i
  | Many [a; b] => StronglySorted lt idx /\ forall i, In i idx <-> i < length l /\ (a <= at_ l i <= b)%Q
  | Many _ => False
  end.

(** * Masks *)
Lemma masked_map : forall A B (g : A -> B) m l, masked m (map g l) = map g (masked m l).
Proof. intros A B g; induction m as [|b m IH]; intros [|x l]; try reflexivity. cbn. destruct b; cbn; now rewrite IH. Qed.
Lemma self_nth : forall A (l : list A) d, l = map (fun i => nth i l d) (seq 0 (length l)).
Proof.
  intros A l d. induction l as [|x l IH]; [reflexivity|]. cbn [length seq map nth]. f_equal. rewrite <- seq_shift, map_map. exact IH.
Qed.
Lemma masked_nth : forall A m (l : list A) d, length m = length l -> masked m l = map (fun i => nth i l d) (true_at m).
Proof. intros A m l d L. unfold true_at. rewrite <- masked_map, L. f_equal. apply self_nth. Qed.
Lemma masked_in : forall m k n i, In i (masked m (seq k n)) <-> exists j, i = k + j /\ j < n /\ nth_error m j = Some true.
Proof.
  induction m as [|b m IH]; intros k n i.
  - cbn. split; [intros []|]. intros (j & _ & _ & H). destruct j; discriminate.
  - destruct n as [|n]; cbn [seq masked]; [split; [intros []|intros (j & _ & H & _); lia]|].
    assert (E : In i (masked m (seq (S k) n)) <-> exists j, i = k + j /\ j < S n /\ j <> 0 /\ nth_error (b :: m) j = Some true).
    { rewrite IH. split; intros (j & H).
      - exists (S j). cbn. repeat split; try apply H; lia.
      - destruct j as [|j]; [lia|]. exists j. cbn in H. repeat split; try apply H; lia. }
    destruct b; cbn [In]; rewrite E; split.
    + intros [<-|(j & H)]; [exists 0; repeat split; lia|]. exists j. tauto.
    + intros (j & H). destruct j; [left; lia|]. right. exists (S j). repeat split; try apply H; lia.
    + intros (j & H). exists j. tauto.
    + intros (j & H). destruct j; [destruct H as (_ & _ & H); discriminate|]. exists (S j). repeat split; try apply H; lia.
Qed.
Lemma masked_sorted : forall m k n, StronglySorted lt (masked m (seq k n)).
Proof.
  induction m as [|b m IH]; intros k n; [destruct n; constructor|]. destruct n as [|n]; [constructor|]. cbn [seq masked]. destruct b; [|apply IH].
  constructor; [apply IH|]. apply Forall_forall. intros i I. apply masked_in in I. destruct I as (j & -> & _). lia.
Qed.
Lemma true_at_in : forall m i, In i (true_at m) <-> nth_error m i = Some true.
Proof.
  intros m i. unfold true_at. rewrite masked_in. split; [intros (j & -> & _ & H); exact H|]. intros H. exists i. repeat split; [|exact H]. apply nth_error_Some. congruence.
Qed.
Lemma sorted_same : forall a b, StronglySorted lt a -> StronglySorted lt b -> (forall i, In i a <-> In i b) -> a = b.
Proof.
  induction a as [|x a IH]; intros b A B E.
  - destruct b as [|y b]; [reflexivity|]. exfalso. apply (E y). now left.
  - destruct b as [|y b]; [exfalso; apply (E x); now left|]. inversion A as [|? ? A1 A2]; inversion B as [|? ? B1 B2]; subst. rewrite Forall_forall in A2, B2.
    assert (x = y) as ->.
    { assert (X : In x (y :: b)) by (apply E; now left). assert (Y : In y (x :: a)) by (apply E; now left).
      destruct X as [->|X]; [reflexivity|]. destruct Y as [->|Y]; [reflexivity|]. specialize (A2 _ Y). specialize (B2 _ X). lia. }
    f_equal. apply IH; [assumption|assumption|]. intros i. split; intro I.
    + specialize (A2 _ I). assert (X : In i (y :: b)) by (apply E; now right). destruct X as [->|X]; [lia|exact X].
    + specialize (B2 _ I). assert (X : In i (y :: a)) by (apply E; now right). destruct X as [->|X]; [lia|exact X].
Qed.
Lemma nth_map_at : forall A B (g : A -> B) l i, nth_error (map g l) i = option_map g (nth_error l i).
Proof. intros A B g; induction l as [|x l IH]; intros [|i]; try reflexivity. apply IH. Qed.
Lemma at_error : forall l i, i < length l -> nth_error l i = Some (at_ l i).
Proof. intros l i H. unfold at_. now apply nth_error_nth'. Qed.

(** * Ranges *)
Lemma arg_spec : forall l pre best v, best < length pre -> v = nth best pre 0%Q ->
  (forall j, j < length pre -> (v <= nth j pre 0)%Q) -> (forall j, j < best -> (v < nth j pre 0)%Q) ->
  let i := arg (length pre) best v l in
  i < length (pre ++ l) /\ (forall j, j < length (pre ++ l) -> (nth i (pre ++ l) 0 <= nth j (pre ++ l) 0)%Q) /\ (forall j, j < i -> (nth i (pre ++ l) 0 < nth j (pre ++ l) 0)%Q).
Proof.
  induction l as [|x l IH]; intros pre best v B E M SM; cbn [arg].
  - cbv zeta. rewrite app_nil_r. split; [exact B|]. rewrite <- E. split; assumption.
  - assert (P : pre ++ x :: l = (pre ++ [x]) ++ l) by (now rewrite <- app_assoc). assert (L : S (length pre) = length (pre ++ [x])) by (rewrite app_length; cbn; lia).
    rewrite P, L. destruct (Qle_bool v x) eqn:C; cbn [negb].
    + apply Qle_bool_iff in C. apply IH.
      * lia.
      * rewrite app_nth1 by lia. exact E.
      * intros j J. destruct (Nat.eq_dec j (length pre)) as [->|N]; [rewrite app_nth2, Nat.sub_diag by lia; exact C|]. rewrite app_nth1 by lia. apply M. lia.
      * intros j J. rewrite app_nth1 by lia. now apply SM.
    + assert (D : (x < v)%Q) by (apply Qnot_le_lt; intro D; apply Qle_bool_iff in D; congruence). apply IH.
      * lia.
      * rewrite app_nth2, Nat.sub_diag by lia. reflexivity.
      * intros j J. destruct (Nat.eq_dec j (length pre)) as [->|N]; [rewrite app_nth2, Nat.sub_diag by lia; cbn; apply Qle_refl|]. rewrite app_nth1 by lia. specialize (M j ltac:(lia)). lra.
      * intros j J. rewrite app_nth1 by lia. specialize (M j J). lra.
Qed.
Lemma qargmin_spec : forall l i, qargmin l = Ok i -> i < length l /\ (forall j, j < length l -> (nth i l 0 <= nth j l 0)%Q) /\ (forall j, j < i -> (nth i l 0 < nth j l 0)%Q).
Proof.
  intros [|x l] i H; [discriminate|]. cbn in H. injection H as <-. apply (arg_spec l [x] 0 x); cbn; try lia; try reflexivity.
  intros j J. assert (j = 0) as -> by lia. apply Qle_refl.
Qed.
Lemma chosen_picks : forall l r idx, chosen l r = Ok idx -> picks l r idx.
Proof.
  intros l [x|[|a [|b [|]]]] idx H; try discriminate; unfold chosen in H.
  - destruct (qargmin (map (fun y => Qabs (y - x)) l)) as [i|] eqn:E; [|discriminate]. cbn in H. injection H as <-. apply qargmin_spec in E. exists i. split; [reflexivity|].
    rewrite map_length in E. assert (N : forall j, j < length l -> nth j (map (fun y => Qabs (y - x)) l) 0%Q = Qabs (at_ l j - x)).
    { intros j J. rewrite nth_indep with (d' := Qabs (0 - x)) by (now rewrite map_length). exact (map_nth (fun y => Qabs (y - x)) l 0%Q j). }
    destruct E as (L & M & S). split; [exact L|]. split; intros j J.
    + rewrite <- !N by assumption. now apply M.
    + rewrite <- !N by lia. now apply S.
  - injection H as <-. split; [apply masked_sorted|]. intros i. rewrite true_at_in, nth_map_at. split.
    + intros H. destruct (nth_error l i) as [y|] eqn:E; [|discriminate]. assert (L : i < length l) by (apply nth_error_Some; congruence). rewrite (at_error l i L) in E. injection E as <-.
      cbn in H. injection H as H. apply andb_true_iff in H. rewrite !Qle_bool_iff in H. now split.
    + intros (L & H). rewrite (at_error l i L). cbn. f_equal. apply andb_true_iff. now rewrite !Qle_bool_iff.
Qed.
Lemma picks_sorted : forall l r idx, picks l r idx -> StronglySorted lt idx /\ forall i, In i idx -> i < length l.
Proof.
  intros l [x|[|a [|b [|]]]] idx H; cbn in H; try contradiction.
  - destruct H as (i & -> & H & _). split; [repeat constructor|]. intros j [<-|[]]. exact H.
  - destruct H as (H & E). split; [exact H|]. intros i I. now apply E in I.
Qed.
Lemma chosen_total : forall l r, (exists idx, picks l r idx) -> exists idx, chosen l r = Ok idx.
Proof.
  intros l [x|[|a [|b [|]]]] (idx & H); cbn in H; try contradiction.
  - destruct H as (i & _ & L & _). destruct l as [|y l]; [cbn in L; lia|]. cbn. eauto.
  - cbn. eauto.
Qed.
Lemma picks_unique : forall l r a b, picks l r a -> picks l r b -> a = b.
Proof.
  intros l [x|[|u [|v [|]]]] a b A B; cbn in *; try contradiction.
  - destruct A as (i & -> & Li & Mi & Si), B as (j & -> & Lj & Mj & Sj). f_equal. destruct (lt_eq_lt_dec i j) as [[H|H]|H]; [|exact H|].
    + specialize (Sj i H). specialize (Mi j Lj). lra.
    + specialize (Si j H). specialize (Mj i Li). lra.
  - destruct A as (A & E), B as (B & F). apply sorted_same; [assumption|assumption|]. intros i. now rewrite E, F.
Qed.
Lemma chosen_refused : forall l r e, chosen l r = Err e -> e = EValueError /\ forall idx, ~ picks l r idx.
Proof.
  intros l r e H. split.
  - destruct r as [x|[|a [|b [|]]]]; cbn in H; try congruence. destruct l as [|y l]; cbn in H; congruence.
  - intros idx P. destruct (chosen_total l r (ex_intro _ idx P)) as (i & E). congruence.
Qed.

Section Objects.
Context {A : Type}.
Variable f : file A.
(** Files: tables of the size of the data, beamlets known and different in a beam, different
    polarizations, analog beams known *)
Definition sound_beam (n : nat) (b : beam) : Prop :=
  b_nb b <= length (b_beamlets b) /\ length (b_freqs b) = length (b_beamlets b) /\ NoDup (firstn (b_nb b) (b_beamlets b)) /\
  (forall x, In x (firstn (b_nb b) (b_beamlets b)) -> x < n) /\ (0 <= b_ana b < f_n_ana f)%Z.
Definition sound : Prop :=
  NoDup (f_pols f) /\ f_n_beam f = Z.of_nat (length (f_bea f)) /\ exists n, sh (f_data f) = [length (f_times f); length (f_pols f); n] /\ forall b, In b (f_bea f) -> sound_beam n b.
(** Channels of a beam: frequency in the middle of the sub-band, 97.65625 kHz below the one listed *)
Definition channels (b : beam) : list Q := map (fun x => x - 0.09765625)%Q (firstn (b_nb b) (b_freqs b)).
(** What the attributes of the object select: beam [b], polarization number [p], times [ti] and
    channels [fi] *)
Definition selects (s : bst) (b : beam) (p : nat) (ti fi : list nat) : Prop :=
  (0 <= s_dbeam s)%Z /\ nth_error (f_bea f) (Z.to_nat (s_dbeam s)) = Some b /\ s_abeam s = b_ana b /\
  nth_error (f_pols f) p = Some (s_polar s) /\ picks (f_times f) (s_timerange s) ti /\ picks (channels b) (s_freqrange s) fi.
(** The data expected *)
Definition delivered (b : beam) (p : nat) (ti fi : list nat) (r : sdata A string) : Prop :=
  s_time r = map (at_ (f_times f)) ti /\ s_freq r = map (at_ (channels b)) fi /\ M_SData.s_polar r = [nth p (f_pols f) ""%string] /\
  sh (s_data r) = [length ti; length fi; 1] /\
  forall i j, i < length ti -> j < length fi ->
    get (s_data r) [i; j; 0] = get (f_data f) [nth i ti 0; p; nth (nth j fi 0) (b_beamlets b) 0].
(** Attributes kept beside the ranges *)
Definition kept (s : bst) (b : beam) (p : nat) (ti fi : list nat) : Prop :=
  s_polar_idx s = [p] /\ s_time_idx s = ti /\ s_freq_idx s = map (fun i => nth i (b_beamlets b) 0) fi.
Definition coherent (s : bst) : Prop := exists b p ti fi, selects s b p ti fi /\ kept s b p ti fi.

Lemma channels_eq : forall b, channels b = freqs_of b.
Proof. intros b. unfold channels, freqs_of. apply map_ext. reflexivity. Qed.
Lemma row_nth : forall B (l : list B) z, (0 <= z)%Z -> row l z = match nth_error l (Z.to_nat z) with Some b => Ok b | None => Err EIndexError end.
Proof.
  intros B l z H. unfold row. destruct (Z.ltb_spec z 0); [lia|]. destruct (Z.ltb_spec (z + Z.of_nat (length l)) 0); [lia|]. reflexivity.
Qed.
Lemma sound_at : sound -> exists n, sh (f_data f) = [length (f_times f); length (f_pols f); n] /\ forall i b, nth_error (f_bea f) i = Some b -> sound_beam n b.
Proof. intros (_ & _ & n & S & B). exists n. split; [exact S|]. intros i b H. apply B. now apply nth_error_In in H. Qed.
Lemma firstn_nth : forall B (l : list B) n i d, i < n -> nth i (firstn n l) d = nth i l d.
Proof. intros B; induction l as [|x l IH]; intros [|n] [|i] d H; try reflexivity; try lia. cbn. apply IH. lia. Qed.
Lemma channels_length : forall n b, sound_beam n b -> length (channels b) = b_nb b /\ length (beamlets_of b) = b_nb b.
Proof. intros n b (L & E & _). unfold channels, beamlets_of. rewrite map_length, !firstn_length. lia. Qed.

Lemma freq_kept : forall s b p ti fi, sound -> selects s b p ti fi -> kept s b p ti fi -> freq f s = Ok (map (at_ (channels b)) fi).
Proof.
  intros s b p ti fi SO (D & B & _ & _ & _ & PF) (_ & _ & K). unfold freq, beamlets, freqs. rewrite row_nth by exact D. rewrite B. cbn [bind].
  destruct (sound_at SO) as (n & _ & SB). specialize (SB _ _ B). destruct (channels_length n b SB) as (LC & LB). change (freqs_of b) with (channels b).
  rewrite masked_nth with (d := 0%Q) by (rewrite map_length; lia). f_equal. unfold at_.
  match goal with |- map ?g ?a = map ?g fi => assert (E : a = fi); [|now rewrite E] end.
  destruct (picks_sorted _ _ _ PF) as (SF & IF). apply sorted_same; [apply masked_sorted|exact SF|]. intros i. rewrite true_at_in, nth_map_at, K.
  destruct SB as (L & EL & ND & _). split.
  - intros H. destruct (nth_error (beamlets_of b) i) as [x|] eqn:E; [|discriminate]. cbn in H. injection H as H. apply existsb_exists in H. destruct H as (y & Y & H). apply Nat.eqb_eq in H. subst y.
    apply in_map_iff in Y. destruct Y as (j & J & I). assert (Lj : j < b_nb b) by (specialize (IF _ I); lia).
    assert (i = j); [|now subst]. unfold beamlets_of in E. rewrite NoDup_nth_error in ND. apply ND; [apply nth_error_Some; congruence|].
    rewrite E. symmetry. rewrite <- J. rewrite <- (firstn_nth _ _ (b_nb b) j 0 Lj). apply nth_error_nth'. rewrite firstn_length. lia.
  - intros I. assert (Li : i < b_nb b) by (specialize (IF _ I); lia).
    assert (E : nth_error (beamlets_of b) i = Some (nth i (b_beamlets b) 0)).
    { unfold beamlets_of. rewrite <- (firstn_nth _ _ (b_nb b) i 0 Li). apply nth_error_nth'. rewrite firstn_length. lia. }
    rewrite E. cbn. f_equal. apply existsb_exists. exists (nth i (b_beamlets b) 0). split; [apply in_map_iff; eauto|apply Nat.eqb_refl].
Qed.
Theorem current_delivered : forall s b p ti fi, sound -> selects s b p ti fi -> kept s b p ti fi -> exists r, current f s = Ok r /\ delivered b p ti fi r.
Proof.
  intros s b p ti fi SO S K. pose proof (freq_kept _ _ _ _ _ SO S K) as F. destruct S as (D & B & _ & P & PT & PF). destruct K as (K1 & K2 & K3).
  destruct (sound_at SO) as (n & SH & SB). specialize (SB _ _ B). destruct (channels_length n b SB) as (LC & LB).
  destruct (picks_sorted _ _ _ PF) as (_ & IF). destruct (picks_sorted _ _ _ PT) as (_ & IT).
  unfold current, picked. rewrite SH, K1, K2, K3. 
  assert (X : forallb (fun i => i <? length (f_times f)) ti && forallb (fun i => i <? length (f_pols f)) [p] && forallb (fun i => i <? n) (map (fun i => nth i (b_beamlets b) 0) fi) = true).
  { rewrite !andb_true_iff, !forallb_forall. repeat split; intros i I.
    - apply Nat.ltb_lt. now apply IT.
    - destruct I as [<-|[]]. apply Nat.ltb_lt. apply nth_error_Some. congruence.
    - apply in_map_iff in I. destruct I as (j & <- & J). apply Nat.ltb_lt. specialize (IF _ J). destruct SB as (L & EL & _ & M & _). apply M. rewrite <- (firstn_nth _ _ (b_nb b) j 0) by lia. apply nth_In. rewrite firstn_length. lia. }
  rewrite X. cbn [bind]. rewrite F. cbn [bind]. unfold sdata_new. cbn [sh]. unfold time. rewrite K2. rewrite !map_length, !Nat.eqb_refl. cbn [length negb Nat.eqb].
  eexists; split; [reflexivity|]. unfold delivered. cbn [s_time s_freq M_SData.s_polar s_data sh get].
  split; [reflexivity|]. split; [reflexivity|]. split; [now rewrite (nth_error_nth _ _ _ P)|]. split; [reflexivity|].
  intros i j I J. cbn [nth]. f_equal. f_equal. f_equal. f_equal.
  rewrite nth_indep with (l := map _ _) (d' := nth 0 (b_beamlets b) 0) by (now rewrite map_length). exact (map_nth (fun i => nth i (b_beamlets b) 0) fi 0 j).
Qed.

Lemma selects_unique : forall s b p ti fi b' p' ti' fi', sound -> selects s b p ti fi -> selects s b' p' ti' fi' -> b = b' /\ p = p' /\ ti = ti' /\ fi = fi'.
Proof.
  intros s b p ti fi b' p' ti' fi' (N & _) (_ & B & _ & P & T & F) (_ & B' & _ & P' & T' & F'). assert (b = b') by congruence. subst b'.
  repeat split; [|eapply picks_unique; eassumption|eapply picks_unique; eassumption]. rewrite NoDup_nth_error in N. apply N; [apply nth_error_Some|]; congruence.
Qed.
Theorem coherent_delivered : forall s b p ti fi, sound -> coherent s -> selects s b p ti fi -> exists r, current f s = Ok r /\ delivered b p ti fi r.
Proof.
  intros s b p ti fi SO (b' & p' & ti' & fi' & S & K) S'. destruct (selects_unique _ _ _ _ _ _ _ _ _ SO S S') as (-> & -> & -> & ->). now apply current_delivered with (s := s).
Qed.

(** Everything but the frequencies *)
Definition half (s : bst) (b : beam) : Prop :=
  (0 <= s_dbeam s)%Z /\ nth_error (f_bea f) (Z.to_nat (s_dbeam s)) = Some b /\ s_abeam s = b_ana b /\
  exists p ti, nth_error (f_pols f) p = Some (s_polar s) /\ picks (f_times f) (s_timerange s) ti /\ s_polar_idx s = [p] /\ s_time_idx s = ti.
Definition fr_ok (s : bst) (b : beam) : Prop := exists fi, picks (channels b) (s_freqrange s) fi /\ s_freq_idx s = map (fun i => nth i (b_beamlets b) 0) fi.
Lemma coherent_half : forall s, coherent s <-> exists b, half s b /\ fr_ok s b.
Proof.
  intros s. split.
  - intros (b & p & ti & fi & (D & B & N & P & T & F) & K1 & K2 & K3). exists b. split; [|exists fi; now split]. repeat split; try assumption. exists p, ti. now repeat split.
  - intros (b & (D & B & N & p & ti & P & T & K1 & K2) & fi & F & K3). exists b, p, ti, fi. now repeat split.
Qed.
Lemma polar_found : forall p, NoDup (f_pols f) -> In p (f_pols f) -> exists i, true_at (map (String.eqb p) (f_pols f)) = [i] /\ nth_error (f_pols f) i = Some p.
Proof.
  intros p N I. apply In_nth_error in I. destruct I as (i & E). exists i. split; [|exact E]. apply sorted_same; [apply masked_sorted|repeat constructor|].
  intros j. rewrite true_at_in, nth_map_at. split.
  - intros H. left. destruct (nth_error (f_pols f) j) as [q|] eqn:F; [|discriminate]. cbn in H. injection H as H. apply String.eqb_eq in H. subst q. rewrite NoDup_nth_error in N. apply N; [apply nth_error_Some|]; congruence.
  - intros [<-|[]]. rewrite E. cbn. now rewrite String.eqb_refl.
Qed.
Lemma exists_mask : forall (g : string -> bool) l, existsb (fun b => b) (map g l) = existsb g l.
Proof. intros g; induction l as [|x l IH]; [reflexivity|]. cbn. now rewrite IH. Qed.
Lemma polar_in : forall p, existsb (fun b => b) (map (String.eqb p) (f_pols f)) = true <-> In p (f_pols f).
Proof.
  intros p. rewrite exists_mask, existsb_exists. split; [intros (q & I & E); apply String.eqb_eq in E; now subst|]. intros I. exists p. split; [exact I|apply String.eqb_refl].
Qed.
Lemma index_iff : forall n z, index n z = true <-> (0 <= z < n)%Z.
Proof. intros n z. unfold index. rewrite andb_true_iff, Z.leb_le, Z.ltb_lt. reflexivity. Qed.

Lemma set_polar_cases : forall o s, NoDup (f_pols f) ->
  (exists q p, o = Some q /\ nth_error (f_pols f) p = Some (upper q) /\ set_polar f o s = (mkBst (s_dbeam s) (s_abeam s) (upper q) [p] (s_timerange s) (s_time_idx s) (s_freqrange s) (s_freq_idx s), None)) \/
  (exists e, set_polar f o s = (s, Some e) /\ forall q, o = Some q -> e = EValueError /\ ~ In (upper q) (f_pols f)).
Proof.
  intros [q|] s N; [|right; exists ETypeError; split; [reflexivity|discriminate]]. cbn. destruct (existsb (fun b => b) (map (String.eqb (upper q)) (f_pols f))) eqn:E; cbn [negb].
  - left. apply polar_in in E. destruct (polar_found _ N E) as (i & T & P). exists q, i. rewrite T. now repeat split.
  - right. exists EValueError. split; [reflexivity|]. intros q' H. injection H as <-. split; [reflexivity|]. intros I. apply polar_in in I. congruence.
Qed.
Lemma set_time_cases : forall r s,
  (exists idx, picks (f_times f) r idx /\ set_timerange f r s = (mkBst (s_dbeam s) (s_abeam s) (s_polar s) (s_polar_idx s) r idx (s_freqrange s) (s_freq_idx s), None)) \/
  ((forall idx, ~ picks (f_times f) r idx) /\ set_timerange f r s = (s, Some EValueError)).
Proof.
  intros r s. unfold set_timerange. destruct (chosen (f_times f) r) as [idx|e] eqn:E.
  - left. exists idx. split; [now apply chosen_picks|reflexivity].
  - right. apply chosen_refused in E. destruct E as (-> & E). now split.
Qed.
Lemma set_freq_cases : forall r s b, sound -> (0 <= s_dbeam s)%Z -> nth_error (f_bea f) (Z.to_nat (s_dbeam s)) = Some b ->
  (exists fi, picks (channels b) r fi /\ set_freqrange f r s = (mkBst (s_dbeam s) (s_abeam s) (s_polar s) (s_polar_idx s) (s_timerange s) (s_time_idx s) r (map (fun i => nth i (b_beamlets b) 0) fi), None)) \/
  ((forall fi, ~ picks (channels b) r fi) /\ set_freqrange f r s = (s, Some EValueError)).
Proof.
  intros r s b SO D B. unfold set_freqrange, freqs, beamlets. rewrite row_nth, B by exact D. cbn [bind]. change (freqs_of b) with (channels b). destruct (chosen (channels b) r) as [fi|e] eqn:E.
  - left. apply chosen_picks in E. destruct (picks_sorted _ _ _ E) as (_ & I). destruct (sound_at SO) as (n & _ & SB). specialize (SB _ _ B). destruct (channels_length n b SB) as (LC & LB).
    assert (F : forallb (fun i => i <? length (beamlets_of b)) fi = true) by (apply forallb_forall; intros i J; apply Nat.ltb_lt; specialize (I _ J); lia).
    rewrite F. exists fi. split; [exact E|]. f_equal. f_equal. apply map_ext_in. intros i J. specialize (I _ J). unfold beamlets_of. apply firstn_nth. lia.
  - right. apply chosen_refused in E. destruct E as (-> & E). now split.
Qed.
Lemma set_dbeam_cases : forall o s, sound ->
  (exists d b, o = Some d /\ (0 <= d < f_n_beam f)%Z /\ nth_error (f_bea f) (Z.to_nat d) = Some b /\
     set_dbeam f o s = (mkBst d (b_ana b) (s_polar s) (s_polar_idx s) (s_timerange s) (s_time_idx s) (s_freqrange s) (s_freq_idx s), None)) \/
  (exists e, set_dbeam f o s = (s, Some e) /\ forall d, o = Some d -> e = EIndexError /\ ~ (0 <= d < f_n_beam f)%Z).
Proof.
  intros [d|] s SO; [|right; exists ETypeError; split; [reflexivity|discriminate]]. cbn -[row]. destruct (index (f_n_beam f) d) eqn:E; cbn [negb].
  - left. apply index_iff in E. destruct (nth_error (f_bea f) (Z.to_nat d)) as [b|] eqn:B.
    + exists d, b. rewrite row_nth, B by lia. split; [reflexivity|]. split; [exact E|]. split; [reflexivity|].
      destruct (sound_at SO) as (n & _ & SB). specialize (SB _ _ B). destruct SB as (_ & _ & _ & _ & AN). apply index_iff in AN. cbn. now rewrite AN.
    + exfalso. apply nth_error_None in B. destruct SO as (_ & L & _). lia.
  - right. exists EIndexError. split; [reflexivity|]. intros d' H. injection H as <-. split; [reflexivity|]. intros H. apply index_iff in H. congruence.
Qed.

(** Selections that keep the object in order: a new beam comes with a range of frequencies. *)
Definition careful (k : selection) : Prop := k_dbeam k = None \/ exists r, k_freq k = Some r /\ forall b, In b (f_bea f) -> exists fi, picks (channels b) r fi.
Lemma half_time : forall s b r idx, half s b -> picks (f_times f) r idx -> half (mkBst (s_dbeam s) (s_abeam s) (s_polar s) (s_polar_idx s) r idx (s_freqrange s) (s_freq_idx s)) b.
Proof. intros s b r idx (D & B & N & p & ti & P & T & K1 & K2) H. repeat split; try assumption. exists p, idx. now repeat split. Qed.
Lemma half_polar : forall s b q p, half s b -> nth_error (f_pols f) p = Some q -> half (mkBst (s_dbeam s) (s_abeam s) q [p] (s_timerange s) (s_time_idx s) (s_freqrange s) (s_freq_idx s)) b.
Proof. intros s b q p (D & B & N & p' & ti & P & T & K1 & K2) H. repeat split; try assumption. exists p, ti. now repeat split. Qed.
Lemma time_polar_coherent : forall (P : bst -> Prop) kt kp s, sound ->
  (forall s r idx, P s -> picks (f_times f) r idx -> P (mkBst (s_dbeam s) (s_abeam s) (s_polar s) (s_polar_idx s) r idx (s_freqrange s) (s_freq_idx s))) ->
  (forall s q p, P s -> nth_error (f_pols f) p = Some q -> P (mkBst (s_dbeam s) (s_abeam s) q [p] (s_timerange s) (s_time_idx s) (s_freqrange s) (s_freq_idx s))) ->
  P s -> P (fst (seq_ (maybe kt (set_timerange f)) (maybe kp (set_polar f)) s)).
Proof.
  intros P kt kp s (N & _) HT HP H. unfold seq_.
  assert (X : (exists s1, maybe kt (set_timerange f) s = (s1, None) /\ P s1) \/ (exists e, maybe kt (set_timerange f) s = (s, Some e))).
  { destruct kt as [r|]; cbn; [|eauto]. destruct (set_time_cases r s) as [(idx & I & ->)|(_ & ->)]; eauto. }
  destruct X as [(s1 & -> & H1)|(e & ->)]; [|exact H]. destruct kp as [o|]; cbn; [|exact H1].
  destruct (set_polar_cases o s1 N) as [(q & p & _ & I & ->)|(e & -> & _)]; cbn; auto.
Qed.
Theorem coherent_kept : forall k s, sound -> coherent s -> careful k -> coherent (fst (select f k s)).
Proof.
  intros k s SO C CA. assert (E : fst (select f k s) = fst (fill_attr f k s)) by (unfold select; destruct (fill_attr f k s) as (s1 & [e|]); reflexivity). rewrite E. clear E.
  assert (TP : forall s, coherent s -> coherent (fst (seq_ (maybe (k_time k) (set_timerange f)) (maybe (k_polar k) (set_polar f)) s))).
  { intros s0 C0. apply time_polar_coherent; [exact SO| | |exact C0].
    - intros s1 r idx C1 P. apply coherent_half in C1. destruct C1 as (b & H & F). apply coherent_half. exists b. split; [now apply half_time|exact F].
    - intros s1 q p C1 P. apply coherent_half in C1. destruct C1 as (b & H & F). apply coherent_half. exists b. split; [now apply half_polar|exact F]. }
  unfold fill_attr. destruct (k_dbeam k) as [o|] eqn:KD.
  - destruct CA as [CA|(r & KF & R)]; [congruence|]. rewrite KF. unfold seq_ at 1. cbn [maybe].
    destruct (set_dbeam_cases o s SO) as [(d & b & -> & D & B & ->)|(e & -> & _)]; [|exact C].
    set (s1 := mkBst d (b_ana b) (s_polar s) (s_polar_idx s) (s_timerange s) (s_time_idx s) (s_freqrange s) (s_freq_idx s)). unfold seq_ at 1.
    destruct (R b (nth_error_In _ _ B)) as (fi & F). destruct (set_freq_cases r s1 b SO) as [(fi' & F' & ->)|(X & _)]; [cbn; lia|exact B| |exfalso; exact (X fi F)].
    apply TP. apply coherent_half. exists b. split; [|exists fi'; now split].
    apply coherent_half in C. destruct C as (b0 & (_ & _ & _ & p & ti & P) & _). split; [cbn; lia|]. split; [exact B|]. split; [reflexivity|]. exists p, ti. exact P.
  - unfold seq_ at 1. cbn [maybe]. destruct (k_freq k) as [r|] eqn:KF; unfold seq_ at 1; cbn [maybe]; [|now apply TP].
    pose proof C as C'. apply coherent_half in C'. destruct C' as (b & H & F). assert (H' := H). destruct H' as (D & B & N & P).
    destruct (set_freq_cases r s b SO D B) as [(fi & F' & ->)|(X & ->)]; [|exact C]. apply TP. apply coherent_half. exists b. split; [|exists fi; now split]. split; [exact D|]. split; [exact B|]. now split.
Qed.
(** Any number of selections *)
Definition run (ks : list selection) (s : bst) : bst := fold_left (fun s k => fst (select f k s)) ks s.
Theorem coherent_run : forall ks s, sound -> coherent s -> Forall careful ks -> coherent (run ks s).
Proof.
  induction ks as [|k ks IH]; intros s SO C F; [exact C|]. inversion F; subst. cbn. apply IH; [assumption| |assumption]. now apply coherent_kept.
Qed.

(** ** One selection *)
Definition or_old {B} (o : option B) (old : B) : B := match o with Some v => v | None => old end.
Theorem select_exact : forall k s, sound -> coherent s -> careful k ->
  (forall d, k_dbeam k = Some d -> exists z, d = Some z /\ (0 <= z < f_n_beam f)%Z) ->
  (forall r, k_freq k = Some r -> forall b, In b (f_bea f) -> exists fi, picks (channels b) r fi) ->
  (forall r, k_time k = Some r -> exists ti, picks (f_times f) r ti) ->
  (forall p, k_polar k = Some p -> exists q, p = Some q /\ In (upper q) (f_pols f)) ->
  exists s' r b p ti fi, select f k s = (s', Ok r) /\
    Some (s_dbeam s') = or_old (k_dbeam k) (Some (s_dbeam s)) /\ s_freqrange s' = or_old (k_freq k) (s_freqrange s) /\
    s_timerange s' = or_old (k_time k) (s_timerange s) /\ Some (s_polar s') = or_old (option_map (option_map upper) (k_polar k)) (Some (s_polar s)) /\
    selects s' b p ti fi /\ delivered b p ti fi r.
Proof.
  intros k s SO C CA HD HF HT HP. pose proof (coherent_kept k s SO C CA) as CK. unfold select in *.
  assert (X : exists s', fill_attr f k s = (s', None) /\ Some (s_dbeam s') = or_old (k_dbeam k) (Some (s_dbeam s)) /\ s_freqrange s' = or_old (k_freq k) (s_freqrange s) /\
    s_timerange s' = or_old (k_time k) (s_timerange s) /\ Some (s_polar s') = or_old (option_map (option_map upper) (k_polar k)) (Some (s_polar s))).
  { clear CK CA. unfold fill_attr. apply coherent_half in C. destruct C as (b0 & (D0 & B0 & _) & _).
    assert (S1 : exists s1 b, maybe (k_dbeam k) (set_dbeam f) s = (s1, None) /\ (0 <= s_dbeam s1)%Z /\ nth_error (f_bea f) (Z.to_nat (s_dbeam s1)) = Some b /\ Some (s_dbeam s1) = or_old (k_dbeam k) (Some (s_dbeam s)) /\
        s_freqrange s1 = s_freqrange s /\ s_timerange s1 = s_timerange s /\ s_polar s1 = s_polar s).
    { destruct (k_dbeam k) as [o|]; cbn [maybe or_old]; [|exists s, b0; now repeat split]. destruct (HD o eq_refl) as (z & -> & Z).
      destruct (set_dbeam_cases (Some z) s SO) as [(d & b & E & D & B & ->)|(e & _ & H)]; [|destruct (H z eq_refl) as (_ & H'); tauto]. injection E as <-.
      eexists _, b. split; [reflexivity|]. cbn. repeat split; try assumption. lia. }
    destruct S1 as (s1 & b & E1 & D1 & B1 & A1 & A2 & A3 & A4). unfold seq_ at 1. rewrite E1. clear E1.
    assert (S2 : exists s2, maybe (k_freq k) (set_freqrange f) s1 = (s2, None) /\ s_dbeam s2 = s_dbeam s1 /\ s_freqrange s2 = or_old (k_freq k) (s_freqrange s1) /\ s_timerange s2 = s_timerange s1 /\ s_polar s2 = s_polar s1).
    { destruct (k_freq k) as [r|]; cbn [maybe or_old]; [|exists s1; now repeat split]. destruct (set_freq_cases r s1 b SO D1 B1) as [(fi & _ & ->)|(X & _)].
      - eexists; split; [reflexivity|]. now repeat split.
      - exfalso. destruct (HF r eq_refl b (nth_error_In _ _ B1)) as (fi & F). exact (X fi F). }
    destruct S2 as (s2 & E2 & G1 & G2 & G3 & G4). unfold seq_ at 1. rewrite E2. clear E2.
    assert (S3 : exists s3, maybe (k_time k) (set_timerange f) s2 = (s3, None) /\ s_dbeam s3 = s_dbeam s2 /\ s_freqrange s3 = s_freqrange s2 /\ s_timerange s3 = or_old (k_time k) (s_timerange s2) /\ s_polar s3 = s_polar s2).
    { destruct (k_time k) as [r|]; cbn [maybe or_old]; [|exists s2; now repeat split]. destruct (set_time_cases r s2) as [(ti & _ & ->)|(X & _)].
      - eexists; split; [reflexivity|]. now repeat split.
      - exfalso. destruct (HT r eq_refl) as (ti & T). exact (X ti T). }
    destruct S3 as (s3 & E3 & I1 & I2 & I3 & I4). unfold seq_ at 1. rewrite E3. clear E3.
    destruct (k_polar k) as [o|]; cbn [maybe or_old option_map].
    - destruct (HP o eq_refl) as (q & -> & Q). destruct SO as (N & _). destruct (set_polar_cases (Some q) s3 N) as [(q' & p & E & _ & ->)|(e & _ & H)]; [|destruct (H q eq_refl); tauto].
      injection E as <-. eexists; split; [reflexivity|]. cbn [s_dbeam s_freqrange s_timerange s_polar option_map or_old]. repeat split; congruence.
    - exists s3. split; [reflexivity|]. repeat split; congruence. }
  destruct X as (s' & E & A1 & A2 & A3 & A4). rewrite E in CK |- *. cbn [fst] in CK. pose proof CK as (b & p & ti & fi & S & K).
  destruct (current_delivered s' b p ti fi SO S K) as (r & R & DE). exists s', r, b, p, ti, fi. rewrite R. exact (conj eq_refl (conj A1 (conj A2 (conj A3 (conj A4 (conj S DE)))))) .
Qed.

(** ** Refusals *)
Theorem refused_dbeam : forall k s d, sound -> k_dbeam k = Some (Some d) -> ~ (0 <= d < f_n_beam f)%Z -> select f k s = (s, Err EIndexError).
Proof.
  intros k s d SO K H. unfold select, fill_attr. rewrite K. unfold seq_ at 1. cbn [maybe].
  destruct (set_dbeam_cases (Some d) s SO) as [(z & b & E & D & _)|(e & -> & X)]; [injection E as <-; tauto|]. now destruct (X d eq_refl) as (-> & _).
Qed.
(** Attributes set before the one refused are kept. *)
Theorem refused_time : forall fr r s b fi, sound -> coherent s -> nth_error (f_bea f) (Z.to_nat (s_dbeam s)) = Some b -> picks (channels b) fr fi -> (forall ti, ~ picks (f_times f) r ti) ->
  exists s', select f (mkSel None (Some fr) (Some r) None) s = (s', Err EValueError) /\ s_freqrange s' = fr /\ s_timerange s' = s_timerange s /\ coherent s'.
Proof.
  intros fr r s b fi SO C B F T. assert (D : (0 <= s_dbeam s)%Z) by (apply coherent_half in C; destruct C as (? & (D & _) & _); exact D).
  assert (CK : coherent (fst (select f (mkSel None (Some fr) (Some r) None) s))) by (apply coherent_kept; [assumption|assumption|now left]).
  unfold select, fill_attr in *. cbn [k_dbeam k_freq k_time k_polar maybe] in *. unfold seq_ in *.
  destruct (set_freq_cases fr s b SO D B) as [(fi' & F' & E)|(X & _)]; [|exfalso; exact (X fi F)]. rewrite E in *.
  match goal with |- context [set_timerange f r ?s1] => destruct (set_time_cases r s1) as [(ti & X & _)|(_ & E2)]; [exfalso; exact (T ti X)|] end.
  rewrite E2 in *. eexists; split; [reflexivity|]. split; [reflexivity|]. split; [reflexivity|]. exact CK.
Qed.

(** ** Another beam, without a range of frequencies *)
Definition disjoint (b c : beam) : Prop := forall x, In x (firstn (b_nb b) (b_beamlets b)) -> ~ In x (firstn (b_nb c) (b_beamlets c)).
(** The beamlets kept are of beam [b], the beam selected is another. *)
Definition stuck (s : bst) : Prop :=
  exists b c fi, half s c /\ In b (f_bea f) /\ disjoint b c /\ fi <> [] /\ (forall i, In i fi -> i < length (channels b)) /\ s_freq_idx s = map (fun i => nth i (b_beamlets b) 0) fi.
Lemma masked_none : forall A B (g : A -> bool) (l : list A) (m : list B), (forall x, In x l -> g x = false) -> masked (map g l) m = [].
Proof. intros A0 B g; induction l as [|x l IH]; intros [|y m] H; try reflexivity. cbn. rewrite (H x) by now left. apply IH. intros z Z. apply H. now right. Qed.
Lemma current_stuck : forall s, sound -> stuck s -> current f s = Err EAssertionError.
Proof.
  intros s SO (b & c & fi & (D & B & N & p & ti & P & T & K1 & K2) & IB & DI & NE & IF & K3). destruct (sound_at SO) as (n & SH & SB).
  apply In_nth_error in IB. destruct IB as (ib & IB). pose proof (SB _ _ IB) as S1. destruct (channels_length n b S1) as (LC & LB). pose proof (SB _ _ B) as S2.
  assert (IN : forall i, In i fi -> In (nth i (b_beamlets b) 0) (firstn (b_nb b) (b_beamlets b))).
  { intros i I. specialize (IF _ I). rewrite <- (firstn_nth _ _ (b_nb b) i 0) by lia. apply nth_In. fold (beamlets_of b). lia. }
  destruct (picks_sorted _ _ _ T) as (_ & IT). unfold current, picked. rewrite SH, K1, K2, K3.
  assert (X : forallb (fun i => i <? length (f_times f)) ti && forallb (fun i => i <? length (f_pols f)) [p] && forallb (fun i => i <? n) (map (fun i => nth i (b_beamlets b) 0) fi) = true).
  { rewrite !andb_true_iff, !forallb_forall. repeat split; intros i I.
    - apply Nat.ltb_lt. now apply IT.
    - destruct I as [<-|[]]. apply Nat.ltb_lt. apply nth_error_Some. congruence.
    - apply in_map_iff in I. destruct I as (j & <- & J). apply Nat.ltb_lt. destruct S1 as (_ & _ & _ & M & _). apply M. now apply IN. }
  rewrite X. cbn [bind]. unfold freq, beamlets, freqs. rewrite row_nth, B by exact D. cbn [bind]. rewrite masked_none.
  - cbn [bind]. unfold sdata_new, time. cbn [sh]. rewrite K2, !map_length, Nat.eqb_refl. cbn [negb length]. destruct fi; [congruence|]. reflexivity.
  - intros x I. apply not_true_is_false. intros H. apply existsb_exists in H. destruct H as (y & Y & H). apply Nat.eqb_eq in H. subst y. rewrite K3 in Y. apply in_map_iff in Y. destruct Y as (i & <- & J). exact (DI _ (IN _ J) I).
Qed.
Theorem beam_refuted : forall s b p ti fi d c, sound -> coherent s -> selects s b p ti fi -> fi <> [] -> (0 <= d < f_n_beam f)%Z -> nth_error (f_bea f) (Z.to_nat d) = Some c -> disjoint b c ->
  exists s', select f (mkSel (Some (Some d)) None None None) s = (s', Err EAssertionError) /\ s_dbeam s' = d /\ stuck s'.
Proof.
  intros s b p ti fi d c SO (b' & p' & ti' & fi' & S' & K) S NE D C DI. destruct (selects_unique _ _ _ _ _ _ _ _ _ SO S' S) as (-> & -> & -> & ->).
  unfold select, fill_attr, seq_. cbn [k_dbeam k_freq k_time k_polar maybe]. destruct (set_dbeam_cases (Some d) s SO) as [(z & c' & E & _ & C' & ->)|(e & _ & X)]; [|destruct (X d eq_refl); tauto].
  injection E as <-. assert (c' = c) by congruence. subst c'. destruct S as (D0 & B & N & P & T & F). destruct K as (K1 & K2 & K3).
  set (s1 := mkBst d (b_ana c) (s_polar s) (s_polar_idx s) (s_timerange s) (s_time_idx s) (s_freqrange s) (s_freq_idx s)).
  assert (ST : stuck s1).
  { exists b, c, fi. split; [|split; [|split; [exact DI|split; [exact NE|split; [|exact K3]]]]].
    - split; [cbn; lia|]. split; [exact C|]. split; [reflexivity|]. exists p, ti. now repeat split.
    - now apply nth_error_In in B.
    - now destruct (picks_sorted _ _ _ F). }
  exists s1. split; [|split; [reflexivity|exact ST]]. f_equal. now apply current_stuck.
Qed.
Lemma stuck_kept : forall k s, sound -> k_dbeam k = None -> k_freq k = None -> stuck s -> stuck (fst (select f k s)) /\ exists e, snd (select f k s) = Err e.
Proof.
  intros k s SO KD KF ST. assert (X : stuck (fst (fill_attr f k s))).
  { unfold fill_attr. rewrite KD, KF. unfold seq_ at 1. cbn [maybe]. unfold seq_ at 1. cbn [maybe]. apply time_polar_coherent; [exact SO| | |exact ST].
    - intros s1 r idx (b & c & fi & H & R) P. exists b, c, fi. split; [now apply half_time|exact R].
    - intros s1 q p (b & c & fi & H & R) P. exists b, c, fi. split; [now apply half_polar|exact R]. }
  unfold select. destruct (fill_attr f k s) as (s1 & [e|]); cbn [fst snd] in *; [split; eauto|]. split; [exact X|]. exists EAssertionError. now apply current_stuck.
Qed.
Theorem stuck_run : forall ks k s, sound -> stuck s -> Forall (fun k => k_dbeam k = None /\ k_freq k = None) ks -> k_dbeam k = None -> k_freq k = None -> exists e, snd (select f k (run ks s)) = Err e.
Proof.
  induction ks as [|a ks IH]; intros k s SO ST F KD KF; [now apply stuck_kept|]. inversion F as [|? ? (A1 & A2) F']; subst. cbn. apply IH; try assumption. now apply stuck_kept.
Qed.

(** ** Opening *)
Lemma min_fold : forall l x, let m := fold_left (fun a b => if Qle_bool a b then a else b) l x in In m (x :: l) /\ forall y, In y (x :: l) -> (m <= y)%Q.
Proof.
  induction l as [|y l IH]; intros x; [split; [now left|intros y [<-|[]]; apply Qle_refl]|]. cbn [fold_left]. destruct (Qle_bool x y) eqn:E.
  - destruct (IH x) as (I & M). split; [destruct I as [I|I]; [left; exact I|right; right; exact I]|]. intros z [<-|[<-|Z]]; [apply M; now left| |apply M; now right]. apply Qle_bool_iff in E. eapply Qle_trans; [|exact E]. apply M. now left.
  - destruct (IH y) as (I & M). split; [now right|]. assert (L : (y <= x)%Q) by (apply Qlt_le_weak, Qnot_le_lt; intro H; apply Qle_bool_iff in H; congruence).
    intros z [<-|[<-|Z]]; [eapply Qle_trans; [|exact L]; apply M; now left|apply M; now left|apply M; now right].
Qed.
Lemma max_fold : forall l x, let m := fold_left (fun a b => if Qle_bool b a then a else b) l x in In m (x :: l) /\ forall y, In y (x :: l) -> (y <= m)%Q.
Proof.
  induction l as [|y l IH]; intros x; [split; [now left|intros y [<-|[]]; apply Qle_refl]|]. cbn [fold_left]. destruct (Qle_bool y x) eqn:E.
  - destruct (IH x) as (I & M). split; [destruct I as [I|I]; [left; exact I|right; right; exact I]|]. intros z [<-|[<-|Z]]; [apply M; now left| |apply M; now right]. apply Qle_bool_iff in E. eapply Qle_trans; [exact E|]. apply M. now left.
  - destruct (IH y) as (I & M). split; [now right|]. assert (L : (x <= y)%Q) by (apply Qlt_le_weak, Qnot_le_lt; intro H; apply Qle_bool_iff in H; congruence).
    intros z [<-|[<-|Z]]; [eapply Qle_trans; [exact L|]; apply M; now left|apply M; now left|apply M; now right].
Qed.
Lemma qmin_ok : forall l a, qmin_list l = Ok a -> In a l /\ forall y, In y l -> (a <= y)%Q.
Proof. intros [|x l] a H; [discriminate|]. cbn in H. injection H as <-. apply min_fold. Qed.
Lemma qmax_ok : forall l a, qmax_list l = Ok a -> In a l /\ forall y, In y l -> (y <= a)%Q.
Proof. intros [|x l] a H; [discriminate|]. cbn in H. injection H as <-. apply max_fold. Qed.
(** The frequencies listed in a file, in any beam *)
Definition in_file (x : Q) : Prop := ~ (x == 0)%Q /\ exists b, In b (f_bea f) /\ In x (b_freqs b).
Lemma listed_in : forall x, In x (listed f) <-> in_file x.
Proof.
  intros x. unfold listed. rewrite filter_In, in_flat_map, negb_true_iff. split.
  - intros (H & E). split; [|exact H]. intros Q. apply Qeq_bool_iff in Q. congruence.
  - intros (N & H). split; [exact H|]. apply not_true_is_false. intros E. apply Qeq_bool_iff in E. tauto.
Qed.
Theorem opening : sound -> f_bea f <> [] -> f_times f <> [] -> In "NW"%string (f_pols f) -> (exists x, in_file x) ->
  exists s b p fi, opened f = Ok s /\ nth_error (f_bea f) 0 = Some b /\ s_dbeam s = 0%Z /\ s_polar s = "NW"%string /\
    selects s b p (seq 0 (length (f_times f))) fi /\ coherent s.
Proof.
  intros SO NB NT IP (x0 & X0). unfold opened, seq_. destruct (f_bea f) as [|b l] eqn:EB; [congruence|].
  assert (NZ : (0 <= 0 < f_n_beam f)%Z) by (destruct SO as (_ & L & _); rewrite EB in L; cbn [length] in L; lia).
  destruct (set_dbeam_cases (Some 0%Z) blank SO) as [(z & b' & E & _ & B & ->)|(e & _ & X)]; [|destruct (X 0%Z eq_refl); tauto]. injection E as <-.
  assert (b' = b) by (rewrite EB in B; cbn in B; congruence). subst b'.
  assert (N : NoDup (f_pols f)) by apply SO.
  match goal with |- context [set_polar f ?o ?s] => destruct (set_polar_cases o s N) as [(q & p & E & P & ->)|(e & _ & X)]; [|destruct (X _ eq_refl) as (_ & Y); exfalso; exact (Y IP)] end.
  injection E as <-. unfold t_min, t_max. destruct (f_times f) as [|t0 ts] eqn:ET; [congruence|]. rewrite <- ET in *.
  assert (TM : exists a, qmin_list (f_times f) = Ok a) by (rewrite ET; cbn; eauto). assert (TX : exists a, qmax_list (f_times f) = Ok a) by (rewrite ET; cbn; eauto).
  destruct TM as (a & TM), TX as (c & TX). rewrite TM, TX. cbn [bind].
  match goal with |- context [set_timerange f ?r ?s] => destruct (set_time_cases r s) as [(ti & PT & ->)|(X & _)]; [|exfalso; destruct (chosen_total (f_times f) (Many [a; c])) as (i & I)] end.
  2:{ exists (true_at (map (fun y => Qle_bool a y && Qle_bool y c) (f_times f))). apply chosen_picks. reflexivity. }
  2:{ apply (X i). now apply chosen_picks. }
  assert (TI : ti = seq 0 (length (f_times f))).
  { destruct PT as (ST & PT). apply sorted_same; [exact ST| |].
    - clear. generalize 0. induction (length (f_times f)) as [|n IH]; intros k; [constructor|]. cbn. constructor; [apply IH|]. apply Forall_forall. intros i I. apply in_seq in I. lia.
    - intros i. rewrite PT, in_seq. split; [intros (L & _); lia|]. intros (_ & L). split; [exact L|]. assert (I : In (at_ (f_times f) i) (f_times f)) by (apply nth_In; exact L).
      split; [apply (qmin_ok _ _ TM)|apply (qmax_ok _ _ TX)]; exact I. }
  subst ti. unfold f_min, f_max. apply listed_in in X0. destruct (listed f) as [|y0 ys] eqn:EL; [destruct X0|]. cbn [qmin_list qmax_list bind].
  match goal with |- context [set_freqrange f ?r ?s] => destruct (set_freq_cases r s b SO) as [(fi & PF & ->)|(X & _)]; [cbn; lia|exact B| |exfalso] end.
  2:{ eapply X. apply (chosen_picks (channels b) (Many [_; _])). reflexivity. }
  eexists _, b, p, fi. split; [reflexivity|]. split; [reflexivity|]. split; [reflexivity|]. split; [reflexivity|].
  assert (S : selects (mkBst 0 (b_ana b) (upper "NW") [p] (Many [a; c]) (seq 0 (length (f_times f)))
     (Many [fold_left (fun a b : Q => if Qle_bool a b then a else b) ys y0; fold_left (fun a b : Q => if Qle_bool b a then a else b) ys y0]) (map (fun i => nth i (b_beamlets b) 0) fi)) b p (seq 0 (length (f_times f))) fi).
  { split; [cbn; lia|]. split; [exact B|]. split; [reflexivity|]. split; [exact P|]. now split. }
  split; [exact S|]. exists b, p, (seq 0 (length (f_times f))), fi. split; [exact S|]. now repeat split.
Qed.
Lemma opened_range : forall s, sound -> opened f = Ok s -> exists a c, f_min f = Ok a /\ f_max f = Ok c /\ s_freqrange s = Many [a; c].
Proof.
  intros s SO H. unfold opened in H. destruct (seq_ _ _ blank) as (s0 & [e|]); [discriminate|]. destruct (t_min f); [|discriminate]. destruct (t_max f); [|discriminate]. cbn [bind] in H.
  destruct (set_timerange f _ s0) as (s1 & [e|]); [discriminate|]. destruct (f_min f) as [x|] eqn:FM; [|discriminate]. destruct (f_max f) as [y|] eqn:FX; [|discriminate]. cbn [bind] in H.
  exists x, y. repeat split. unfold set_freqrange in H. destruct (bind (freqs f s1) _); [|discriminate]. destruct (beamlets f s1); [|discriminate]. destruct (forallb _ _); [|discriminate]. injection H as <-. reflexivity.
Qed.
Lemma channel_at : forall b j, j < length (channels b) -> at_ (channels b) j = (nth j (b_freqs b) 0 - 0.09765625)%Q.
Proof.
  intros b j L. unfold at_, channels in *. rewrite nth_indep with (d' := (0 - 0.09765625)%Q) by exact L. rewrite map_length, firstn_length in L. rewrite (map_nth (fun x => x - 0.09765625)%Q). f_equal. apply firstn_nth. lia.
Qed.
Theorem opening_channels : forall s b p ti fi a j, sound -> opened f = Ok s -> selects s b p ti fi -> in_file a -> (forall x, in_file x -> (a <= x)%Q) ->
  j < length (channels b) -> in_file (nth j (b_freqs b) 0%Q) -> (In j fi <-> (a <= at_ (channels b) j)%Q).
Proof.
  intros s b p ti fi a j SO H (_ & _ & _ & _ & _ & F) IA MA L IX. destruct (opened_range s SO H) as (a' & c & FA & FC & R). rewrite R in F. cbn in F. destruct F as (_ & F). rewrite F.
  apply qmin_ok in FA. apply qmax_ok in FC. destruct FA as (A1 & A2). destruct FC as (_ & C2). apply listed_in in A1. specialize (MA _ A1). apply listed_in in IA. specialize (A2 _ IA). apply listed_in in IX. specialize (C2 _ IX).
  rewrite (channel_at b j L). split; [intros (_ & Q & _); lra|]. intros Q. repeat split; try lra; exact L.
Qed.
Theorem opening_lowest_refuted : forall s b p ti fi j, sound -> opened f = Ok s -> selects s b p ti fi -> j < length (channels b) ->
  in_file (nth j (b_freqs b) 0%Q) -> (forall x, in_file x -> (nth j (b_freqs b) 0 <= x)%Q) -> ~ In j fi.
Proof.
  intros s b p ti fi j SO H S L I M J. apply (opening_channels s b p ti fi _ j SO H S I M L I) in J.
  rewrite (channel_at b j L) in J. lra.
Qed.

Theorem history : forall ks, sound -> f_bea f <> [] -> f_times f <> [] -> In "NW"%string (f_pols f) -> (exists x, in_file x) -> Forall careful ks ->
  exists s, opened f = Ok s /\ forall b p ti fi, selects (run ks s) b p ti fi -> exists r, select f (mkSel None None None None) (run ks s) = (run ks s, Ok r) /\ delivered b p ti fi r.
Proof.
  intros ks SO NB NT NW X CA. destruct (opening SO NB NT NW X) as (s & b & p & fi & O & _ & _ & _ & _ & C). exists s. split; [exact O|]. clear b p fi. intros b p ti fi S.
  destruct (coherent_delivered (run ks s) b p ti fi SO (coherent_run ks s SO C CA) S) as (r & R & D). exists r. split; [|exact D]. unfold select, fill_attr, seq_. cbn. now rewrite R.
Qed.

(** ** Pointings *)
Definition contiguous (l : list (Q * Q)) (last : Q) : Prop :=
  (forall i, S i < length l -> snd (nth i l (0, 0)%Q) = fst (nth (S i) l (0, 0)%Q)) /\ snd (nth (length l - 1) l (0, 0)%Q) = last.
Lemma spans_ok : forall l t r, spans l t = Ok r -> map fst r = l /\ contiguous r t.
Proof.
  intros [|x l] t r H; [discriminate|]. cbn [spans] in H. injection H as <-. change (x :: l) with ([x] ++ l). revert x. induction l as [|y l IH]; intros x.
  - cbn. split; [reflexivity|]. split; [intros i L; cbn in L; lia|reflexivity].
  - cbn [app combine map fst]. destruct (IH y) as (M & C1 & C2). cbn [app] in M, C1, C2. rewrite M. split; [reflexivity|]. split.
    + intros [|i] L; [cbn [nth snd fst]; destruct l; reflexivity|]. cbn [nth]. apply C1. cbn [length] in L |- *. lia.
    + etransitivity; [|exact C2]. destruct l; cbn; rewrite ?Nat.sub_0_r; reflexivity.
Qed.
Theorem analog_pointings : forall s l, utana f s = Ok l ->
  map fst l = map p_time (of_beam (s_abeam s) (removelast (f_pan f))) /\ length l = length (azana f s) /\ length l = length (elana f s) /\
  exists q, last (map Some (f_pan f)) None = Some q /\ contiguous l (p_time q).
Proof.
  intros s l H. unfold utana in H. destruct (last_time f) as [t|] eqn:T; [|discriminate]. cbn [bind] in H. apply spans_ok in H. destruct H as (M & C). unfold without_last in M. split; [exact M|].
  assert (L : length l = length (of_beam (s_abeam s) (removelast (f_pan f)))) by (rewrite <- (map_length fst l), M; apply map_length).
  unfold azana, elana, without_last. rewrite !map_length. split; [exact L|]. split; [exact L|]. unfold last_time in T. destruct (rev (f_pan f)) as [|q r] eqn:R; [discriminate|]. injection T as <-.
  exists q. split; [|exact C]. rewrite <- (rev_involutive (f_pan f)), R. cbn [rev]. rewrite map_app. apply last_last.
Qed.
Theorem digital_pointings : forall s l, utdig f s = Ok l ->
  map fst l = map p_time (of_beam (s_dbeam s) (f_pbe f)) /\ length l = length (azdig f s) /\ length l = length (eldig f s) /\
  exists q, last (map Some (f_pan f)) None = Some q /\ contiguous l (p_time q).
Proof.
  intros s l H. unfold utdig in H. destruct (last_time f) as [t|] eqn:T; [|discriminate]. cbn [bind] in H. apply spans_ok in H. destruct H as (M & C). split; [exact M|].
  assert (L : length l = length (of_beam (s_dbeam s) (f_pbe f))) by (rewrite <- (map_length fst l), M; apply map_length).
  unfold azdig, eldig. rewrite !map_length. split; [exact L|]. split; [exact L|]. unfold last_time in T. destruct (rev (f_pan f)) as [|q r] eqn:R; [discriminate|]. injection T as <-.
  exists q. split; [|exact C]. rewrite <- (rev_involutive (f_pan f)), R. cbn [rev]. rewrite map_app. apply last_last.
Qed.
(** Without pointing of the beam, the azimuths are an empty list, the times an error. *)
Theorem no_pointing : forall s, f_pan f <> [] -> (forall q, In q (f_pbe f) -> p_beam q <> s_dbeam s) -> azdig f s = [] /\ utdig f s = Err EValueError.
Proof.
  intros s N H. assert (E : of_beam (s_dbeam s) (f_pbe f) = []).
  { unfold of_beam. induction (f_pbe f) as [|q l IH]; [reflexivity|]. cbn. destruct (Z.eqb_spec (p_beam q) (s_dbeam s)) as [E|_]; [exfalso; apply (H q); [now left|exact E]|]. apply IH. intros z Z. apply H. now right. }
  unfold azdig, utdig. rewrite E. split; [reflexivity|]. unfold last_time. destruct (rev (f_pan f)) as [|q r] eqn:R; [|reflexivity]. exfalso. apply N. rewrite <- (rev_involutive (f_pan f)), R. reflexivity.
Qed.
Theorem no_analog_pointing : forall s, f_pan f <> [] -> (forall q, In q (removelast (f_pan f)) -> p_beam q <> s_abeam s) -> azana f s = [] /\ utana f s = Err EValueError.
Proof.
  intros s N H. assert (E : of_beam (s_abeam s) (removelast (f_pan f)) = []).
  { unfold of_beam. induction (removelast (f_pan f)) as [|q l IH]; [reflexivity|]. cbn. destruct (Z.eqb_spec (p_beam q) (s_abeam s)) as [E|_]; [exfalso; apply (H q); [now left|exact E]|]. apply IH. intros z Z. apply H. now right. }
  unfold azana, utana, without_last. rewrite E. split; [reflexivity|]. unfold last_time. destruct (rev (f_pan f)) as [|q r] eqn:R; [|reflexivity]. exfalso. apply N. rewrite <- (rev_involutive (f_pan f)), R. reflexivity.
Qed.
End Objects.
