(** Smoothing of profiles *)
From Coq Require Import List Arith ZArith QArith Bool Lia Reals Qreals Lra Lqa.
From Verif Require Import Base M_Rebin P_Rebin M_Smooth.
Import ListNotations.
Open Scope nat_scope.

(** ** Specification *)
(** Samples [j] to [j + w - 1] *)
Definition samples_of (x l : list sample) (j w : nat) : Prop := length l = w /\ forall i, i < w -> nth i l None = nth (j + i) x None.
(** Window [j] of [w] samples lies in the data and holds sample [i] *)
Definition holds (x : list sample) (w i j : nat) : Prop := j + w <= length x /\ j <= i < j + w.
Definition variance_of (l : list sample) (s : Q) : Prop :=
  exists m, mean_of l (Some m) /\ mean_of (map (option_map (fun v => ((v - m) * (v - m))%Q)) l) (Some s).
(** Sample [i] reaches the threshold of one of the windows *)
Definition outlier (k : Q) (x : list sample) (w i : nat) : Prop :=
  exists j l v m s, holds x w i j /\ samples_of x l j w /\ nth i x None = Some v /\ median_of l (Some m) /\ variance_of l s /\
    (Q2R m + Q2R k * sqrt (Q2R s) <= Q2R v)%R.
(** The median of the medians of the windows that hold sample [i] *)
Definition median_around (x : list sample) (w i : nat) (q : Q) : Prop :=
  exists js meds, NoDup js /\ (forall j, In j js <-> holds x w i j) /\
    Forall2 (fun j m => exists l, samples_of x l j w /\ median_of l (Some m)) js meds /\ median_of (map Some meds) (Some q).
Definition pass (k : Q) (w : nat) (x y : list sample) : Prop :=
  length y = length x /\ forall i, i < length x ->
    (outlier k x w i -> exists q, nth i y None = Some q /\ median_around x w i q) /\ (~ outlier k x w i -> nth i y None = nth i x None).
Inductive passes (k : Q) : nat -> nat -> list sample -> list sample -> Prop :=
| passes0 : forall w x, passes k 0 w x x
| passesS : forall n w x y z, pass k w x y -> passes k n (w / 2) y z -> passes k (S n) w x z.
Definition same (u v : sample) : Prop := match u, v with Some a, Some b => (a == b)%Q | None, None => True | _, _ => False end.

(** ** Proofs *)
Lemma window_samples : forall x w j, samples_of x (window x w j) j w.
Proof.
  intros x w j. unfold window. split; [now rewrite map_length, seq_length|]. intros i I.
  rewrite (nth_indep _ None (nth 0 x None)) by (now rewrite map_length, seq_length).
  rewrite (map_nth (fun i => nth i x None) (seq j w) 0 i). now rewrite seq_nth.
Qed.
Lemma samples_unique : forall x l w j, samples_of x l j w -> l = window x w j.
Proof.
  intros x l w j [L N]. destruct (window_samples x w j) as [L' N']. apply nth_ext with None None; [congruence|]. intros i I. rewrite N, N' by lia. reflexivity.
Qed.
Lemma covers_holds : forall x w i j, w <= length x -> In j (slides x w) /\ covers w i j = true <-> holds x w i j.
Proof.
  intros x w i j W. unfold slides, covers, holds. rewrite in_seq, andb_true_iff, Nat.leb_le, Nat.ltb_lt. lia.
Qed.
Lemma window_known : forall x w i j v, holds x w i j -> nth i x None = Some v -> In (Some v) (window x w j).
Proof.
  intros x w i j v [A B] E. unfold window. apply in_map_iff. exists i. split; [exact E|]. apply in_seq. lia.
Qed.
Lemma mean_ext : forall l l' v, Forall2 same l l' -> mean_of l (Some v) -> mean_of l' (Some v).
Proof.
  assert (A : forall l l', Forall2 same l l' -> count l = count l' /\ (total l == total l')%Q).
  { intros l l' F. induction F as [|a b l l' S F [IC IT]]; [split; reflexivity|]. destruct a as [a|], b as [b|]; cbn in S; try contradiction; cbn; split; try congruence; try assumption. rewrite S, IT. reflexivity. }
  intros l l' v F [C T]. destruct (A l l' F) as [EC ET]. cbn. rewrite <- EC, <- ET. now split.
Qed.
Lemma mean_eq : forall l a b, mean_of l (Some a) -> mean_of l (Some b) -> (a == b)%Q.
Proof.
  intros l a b [C A] [_ B]. assert (N : ~ (inject_Z (Z.of_nat (count l)) == 0)%Q) by (unfold Qeq; cbn; lia).
  apply (Qmult_inj_r _ _ _ N). now rewrite A, B.
Qed.
Lemma variance_unique : forall l a b, variance_of l a -> variance_of l b -> (a == b)%Q.
Proof.
  intros l a b (m & M & A) (m' & M' & B). pose proof (mean_eq _ _ _ M M') as E.
  apply (mean_eq (map (option_map (fun v => ((v - m) * (v - m))%Q)) l)); [exact A|]. refine (mean_ext _ _ _ _ B).
  clear - E. induction l as [|[v|] l IH]; cbn; constructor; try exact IH; cbn; [rewrite E; reflexivity|exact I].
Qed.
Lemma nanmean_some : forall l v, In (Some v) l -> exists m, nanmean l = Some m.
Proof.
  intros l v I. pose proof (nanmean_spec l) as H. destruct (nanmean l) as [m|]; [now exists m|]. cbn in H. specialize (H _ I). discriminate.
Qed.
Lemma nanvar_some : forall l v, In (Some v) l -> exists s, nanvar l = Some s /\ variance_of l s.
Proof.
  intros l v I. unfold nanvar. destruct (nanmean_some l v I) as [m E]. rewrite E.
  set (l2 := map (option_map (fun v => ((v - m) * (v - m))%Q)) l).
  destruct (nanmean_some l2 ((v - m) * (v - m))%Q) as [s S].
  - unfold l2. apply in_map_iff. exists (Some v). now split.
  - exists s. split; [exact S|]. exists m. split; [rewrite <- E; apply nanmean_spec|]. fold l2. rewrite <- S. apply nanmean_spec.
Qed.
Lemma nanmedian_some : forall l v, In (Some v) l -> exists m, nanmedian l = Some m.
Proof.
  intros l v I. pose proof (nanmedian_spec l) as H. destruct (nanmedian l) as [m|]; [now exists m|]. cbn in H. specialize (H _ I). discriminate.
Qed.
Lemma mean_nonneg : forall l s, (forall q, In (Some q) l -> (0 <= q)%Q) -> mean_of l (Some s) -> (0 <= s)%Q.
Proof.
  intros l s P [C E]. assert (T : (0 <= total l)%Q).
  { clear - P. induction l as [|[q|] l IH]; cbn; [apply Qle_refl| |].
    - assert (0 <= q)%Q by (apply P; now left). assert (0 <= total l)%Q by (apply IH; intros; apply P; now right). lra.
    - apply IH. intros; apply P; now right. }
  assert (N : (0 < inject_Z (Z.of_nat (count l)))%Q) by (unfold Qlt; cbn; lia).
  destruct (Qlt_le_dec s 0) as [L|L]; [|exact L]. exfalso. assert ((s * inject_Z (Z.of_nat (count l)) < 0)%Q) by nra. lra.
Qed.
Lemma variance_nonneg : forall l s, variance_of l s -> (0 <= s)%Q.
Proof.
  intros l s (m & _ & H). refine (mean_nonneg _ _ _ H). intros q I. apply in_map_iff in I as ([v|] & E & _); [|discriminate]. injection E as <-. cbv beta. generalize (v - m)%Q. intro d. nra.
Qed.
Lemma reaches_spec : forall k s m v, (0 <= s)%Q -> reaches k s m v = true <-> (Q2R m + Q2R k * sqrt (Q2R s) <= Q2R v)%R.
Proof.
  intros k s m v S. unfold reaches. cbv zeta.
  assert (SR : (0 <= Q2R s)%R) by (rewrite <- RMicromega.Q2R_0; now apply Qle_Rle).
  pose proof (sqrt_pos (Q2R s)) as R0. pose proof (sqrt_sqrt _ SR) as RR. set (r := sqrt (Q2R s)) in *.
  assert (LE : forall a b, Qle_bool a b = true <-> (Q2R a <= Q2R b)%R) by (intros a b; rewrite Qle_bool_iff; split; [apply Qle_Rle|apply Rle_Qle]).
  destruct (Qle_bool 0 k) eqn:K.
  - apply LE in K. rewrite RMicromega.Q2R_0 in K. rewrite andb_true_iff, !LE, !Q2R_mult, Q2R_minus, RMicromega.Q2R_0.
    split.
    + intros [A B]. rewrite <- RR in B. assert ((Q2R k * r) <= (Q2R v - Q2R m))%R; [|Lra.lra]. apply Rsqr_incr_0; unfold Rsqr; [Lra.nra|Lra.nra|Lra.lra].
    + intro A. assert (0 <= Q2R k * r)%R by Lra.nra. split; [Lra.lra|]. rewrite <- RR. Lra.nra.
  - assert (KN : (Q2R k < 0)%R). { apply Rnot_le_lt. intro H. rewrite <- RMicromega.Q2R_0 in H. apply LE in H. congruence. }
    rewrite orb_true_iff, !LE, !Q2R_mult, Q2R_minus, RMicromega.Q2R_0. split.
    + intros [A|B]; [Lra.nra|]. destruct (Rle_lt_dec 0 (Q2R v - Q2R m)) as [A|A]; [Lra.nra|]. rewrite <- RR in B.
      assert (- (Q2R v - Q2R m) <= - (Q2R k * r))%R; [|Lra.lra]. apply Rsqr_incr_0; unfold Rsqr; [Lra.nra|Lra.lra|Lra.nra].
    + intro A. destruct (Rle_lt_dec 0 (Q2R v - Q2R m)) as [B|B]; [now left|right]. rewrite <- RR. Lra.nra.
Qed.
Lemma problem_spec : forall k x w i, w <= length x -> problem k x w i = true <-> outlier k x w i.
Proof.
  intros k x w i W. unfold problem. rewrite existsb_exists. split.
  - intros (j & J & H). apply andb_true_iff in H as [C H]. assert (HJ : holds x w i j) by (apply covers_holds; auto).
    destruct (nth i x None) as [v|] eqn:V; [|discriminate]. unfold win_median in H. pose proof (window_known _ _ _ _ _ HJ V) as IN.
    destruct (nanvar_some _ _ IN) as (s & SE & SV). pose proof (nanmedian_spec (window x w j)) as M. destruct (nanmedian (window x w j)) as [m|]; [|discriminate].
    rewrite SE in H. exists j, (window x w j), v, m, s. split; [exact HJ|]. split; [apply window_samples|]. split; [exact V|]. split; [exact M|]. split; [exact SV|]. apply reaches_spec; [exact (variance_nonneg _ _ SV)|exact H].
  - intros (j & l & v & m & s & HJ & L & V & M & SV & R). apply samples_unique in L. subst l. exists j. apply (covers_holds x w i j W) in HJ as HC. destruct HC as [J C]. split; [exact J|]. rewrite C, V. cbn [andb].
    pose proof (window_known _ _ _ _ _ HJ V) as IN. destruct (nanvar_some _ _ IN) as (s' & SE & SV'). rewrite SE.
    unfold win_median. pose proof (median_unique _ _ _ (nanmedian_spec (window x w j)) M) as EM. destruct (nanmedian (window x w j)) as [m'|]; [|contradiction].
    apply reaches_spec; [exact (variance_nonneg _ _ SV')|]. rewrite (Qeq_eqR _ _ EM), (Qeq_eqR _ _ (variance_unique _ _ _ SV' SV)). exact R.
Qed.
Lemma np_median_some : forall l, np_median (map Some l) = nanmedian (map Some l).
Proof.
  intro l. unfold np_median. replace (existsb _ _) with false; [reflexivity|]. symmetry. induction l; [reflexivity|exact IHl].
Qed.
Lemma all_some : forall A (f : A -> sample) js, (forall j, In j js -> exists m, f j = Some m) -> exists ms, map f js = map Some ms.
Proof.
  intros A f js H. induction js as [|j js IH]; [now exists []|]. destruct IH as [ms E]; [intros; apply H; now right|]. destruct (H j (or_introl eq_refl)) as [m M]. exists (m :: ms). cbn. now rewrite M, E.
Qed.
Lemma once_nth : forall k w x i, i < length x -> nth i (smooth_once k w x) None = if problem k x w i then np_median (map (win_median x w) (filter (covers w i) (slides x w))) else nth i x None.
Proof.
  intros k w x i I. unfold smooth_once. set (g := fun i => if problem k x w i then _ else _).
  rewrite (nth_indep _ None (g 0)) by (now rewrite map_length, seq_length). rewrite (map_nth g (seq 0 (length x)) 0 i), seq_nth by exact I. reflexivity.
Qed.
Lemma once_length : forall k w x, length (smooth_once k w x) = length x.
Proof. intros. unfold smooth_once. now rewrite map_length, seq_length. Qed.
Lemma once_pass : forall k w x, w <= length x -> pass k w x (smooth_once k w x).
Proof.
  intros k w x W. split; [apply once_length|]. intros i I. rewrite once_nth by exact I. split; intro H.
  - pose proof H as HO. destruct H as (j0 & _ & v & _ & _ & H0 & _ & V & _). apply (problem_spec _ _ _ _ W) in HO. rewrite HO.
    set (js := filter (covers w i) (slides x w)). assert (JS : forall j, In j js <-> holds x w i j) by (intro j; unfold js; rewrite filter_In; now apply covers_holds).
    destruct (all_some _ (win_median x w) js) as [ms E].
    { intros j J. apply JS in J. exact (nanmedian_some _ _ (window_known _ _ _ _ _ J V)). }
    rewrite E, np_median_some. assert (NE : exists q, nanmedian (map Some ms) = Some q).
    { apply JS in H0. destruct js as [|j js]; [contradiction|]. destruct ms as [|m ms]; [discriminate|]. apply (nanmedian_some _ m). now left. }
    destruct NE as [q Q]. exists q. split; [exact Q|]. exists js, ms. split; [apply NoDup_filter, seq_NoDup|]. split; [exact JS|]. split; [|rewrite <- Q; apply nanmedian_spec].
    clear - E. revert ms E. induction js as [|j js IH]; intros [|m ms] E; try discriminate; constructor.
    + injection E as E _. exists (window x w j). split; [apply window_samples|]. rewrite <- E. apply nanmedian_spec.
    + apply IH. now injection E.
  - destruct (problem k x w i) eqn:P; [|reflexivity]. apply (problem_spec _ _ _ _ W) in P. contradiction.
Qed.
Theorem smooth_passes : forall x w k n, w <= length x -> exists y, passes k n w x y /\ forall fuel, n <= fuel -> smooth_data fuel x w k (Z.of_nat n) = Some (Ok y).
Proof.
  assert (A : forall k n w x, w <= length x -> exists y, passes k n w x y /\ forall fuel, n <= fuel -> smooth_loop fuel k (Z.of_nat n) w x = Some y).
  { intros k n. induction n as [|n IH]; intros w x W.
    - exists x. split; [constructor|]. now intros [|fuel] _.
    - destruct (IH (w / 2) (smooth_once k w x)) as (y & P & R).
      + rewrite once_length. pose proof (Nat.div_le_upper_bound w 2 w). lia.
      + exists y. split; [econstructor; [exact (once_pass k w x W)|exact P]|]. intros [|fuel] F; [lia|]. cbn [smooth_loop].
        replace (Z.of_nat (S n) =? 0)%Z with false by (symmetry; apply Z.eqb_neq; lia). replace (Z.of_nat (S n) - 1)%Z with (Z.of_nat n) by lia. apply R. lia. }
  intros x w k n W. destruct (A k n w x W) as (y & P & R). exists y. split; [exact P|]. intros fuel F. unfold smooth_data. replace (length x <? w) with false by (symmetry; apply Nat.ltb_ge; lia). now rewrite R.
Qed.
Theorem smooth_error : forall fuel x w k it, length x < w -> smooth_data fuel x w k it = Some (Err EIndexError).
Proof. intros fuel x w k it W. unfold smooth_data. replace (length x <? w) with true by (symmetry; apply Nat.ltb_lt; lia). reflexivity. Qed.
Theorem smooth_endless : forall fuel x w k it, w <= length x -> (it < 0)%Z -> smooth_data fuel x w k it = None.
Proof.
  intros fuel x w k it W. unfold smooth_data. replace (length x <? w) with false by (symmetry; apply Nat.ltb_ge; lia). clear W. revert it w x. induction fuel as [|fuel IH]; intros it w x N; cbn [smooth_loop]; replace (it =? 0)%Z with false by (symmetry; apply Z.eqb_neq; lia); [reflexivity|]. apply IH. lia.
Qed.
(** Samples stay within any bounds of the data, and NaN stay NaN *)
Definition within (lo hi : Q) (x : sample) : Prop := match x with Some q => (lo <= q <= hi)%Q | None => True end.
Lemma median_within : forall lo hi l v, (forall q, In (Some q) l -> (lo <= q <= hi)%Q) -> median_of l (Some v) -> (lo <= v <= hi)%Q.
Proof. intros lo hi l v H (a & b & (A & _) & (B & _) & E). apply H in A, B. lra. Qed.
Lemma pass_within : forall k w x y lo hi, pass k w x y -> (forall i, within lo hi (nth i x None)) -> forall i, within lo hi (nth i y None).
Proof.
  intros k w x y lo hi [L P] H i. destruct (Nat.lt_ge_cases i (length x)) as [I|I]; [|rewrite nth_overflow by lia; exact Logic.I].
  destruct (P i I) as [A B]. destruct (nth i y None) as [q|] eqn:E; [|exact Logic.I].
  assert (D : outlier k x w i \/ ~ outlier k x w i). { destruct (Nat.le_gt_cases w (length x)) as [W|W]; [|right; intros (j & _ & _ & _ & _ & (HJ & _) & _); lia]. rewrite <- (problem_spec k x w i W). destruct (problem k x w i); auto. }
  destruct D as [D|D].
  - destruct (A D) as (q' & E' & js & ms & _ & _ & F & M). injection E' as <-. cbn. refine (median_within lo hi _ _ _ M). intros m IM. apply in_map_iff in IM as (m' & EM & IM). injection EM as ->.
    clear - F IM H. induction F as [|j m' js ms (l & (LL & S) & ML) F IH]; [contradiction|]. destruct IM as [->|IM]; [|exact (IH IM)].
    refine (median_within lo hi _ _ _ ML). intros q I. apply (In_nth _ _ None) in I as (p & Q & E). rewrite S in E by lia. specialize (H (j + p)). rewrite E in H. exact H.
  - specialize (B D). specialize (H i). rewrite <- B in H. exact H.
Qed.
Lemma pass_nan : forall k w x y, pass k w x y -> forall i, nth i x None = None <-> nth i y None = None.
Proof.
  intros k w x y [L P] i. destruct (Nat.lt_ge_cases i (length x)) as [I|I]; [|rewrite !nth_overflow by lia; reflexivity].
  destruct (P i I) as [A B].
  assert (D : outlier k x w i \/ ~ outlier k x w i). { destruct (Nat.le_gt_cases w (length x)) as [W|W]; [|right; intros (j & _ & _ & _ & _ & (HJ & _) & _); lia]. rewrite <- (problem_spec k x w i W). destruct (problem k x w i); auto. }
  destruct D as [D|D].
  - destruct (A D) as (q & E & _). destruct D as (_ & _ & v & _ & _ & _ & _ & V & _). rewrite E, V. split; discriminate.
  - now rewrite (B D).
Qed.
Lemma loop_inv : forall (I : list sample -> Prop) k fuel it w x y, (forall w x y, pass k w x y -> I x -> I y) -> w <= length x -> smooth_loop fuel k it w x = Some y -> I x -> I y.
Proof.
  intros I k fuel. induction fuel as [|fuel IH]; intros it w x y S W; cbn [smooth_loop]; destruct (it =? 0)%Z; intros E H; try discriminate; try (injection E as <-; exact H).
  refine (IH _ _ _ _ S _ E _); [rewrite once_length; pose proof (Nat.div_le_upper_bound w 2 w); lia|]. exact (S _ _ _ (once_pass k w x W) H).
Qed.
Lemma smooth_inv : forall (I : list sample -> Prop) k fuel it w x y, (forall w x y, pass k w x y -> I x -> I y) -> smooth_data fuel x w k it = Some (Ok y) -> I x -> I y.
Proof.
  intros I k fuel it w x y S. unfold smooth_data. destruct (length x <? w) eqn:W; [discriminate|]. apply Nat.ltb_ge in W. destruct (smooth_loop fuel k it w x) as [z|] eqn:E; [|discriminate]. intro H. injection H as <-. exact (loop_inv I k fuel it w x z S W E).
Qed.
Theorem smooth_shape : forall fuel x w k it y, smooth_data fuel x w k it = Some (Ok y) -> length y = length x /\ forall i, nth i y None = None <-> nth i x None = None.
Proof.
  intros fuel x w k it y E. refine (smooth_inv (fun z => length z = length x /\ forall i, nth i z None = None <-> nth i x None = None) k fuel it w x y _ E _); [|split; reflexivity].
  intros w' a b P [L N]. split; [destruct P; congruence|]. intro i. rewrite <- N. symmetry. exact (pass_nan k w' a b P i).
Qed.
Theorem smooth_within : forall fuel x w k it y lo hi, smooth_data fuel x w k it = Some (Ok y) -> (forall i, within lo hi (nth i x None)) -> forall i, within lo hi (nth i y None).
Proof.
  intros fuel x w k it y lo hi E. refine (smooth_inv (fun z => forall i, within lo hi (nth i z None)) k fuel it w x y _ E). intros w' a b P. exact (pass_within k w' a b lo hi P).
Qed.
Theorem smooth_constant : forall fuel x w k it y c, smooth_data fuel x w k it = Some (Ok y) -> (forall i, nth i x None = None \/ nth i x None = Some c) -> forall i, same (nth i y None) (nth i x None).
Proof.
  intros fuel x w k it y c E H i. destruct (smooth_shape _ _ _ _ _ _ E) as [_ N]. specialize (N i).
  assert (B : within c c (nth i y None)). { refine (smooth_within _ _ _ _ _ _ c c E _ i). intro j. destruct (H j) as [->| ->]; cbn; [exact I|split; apply Qle_refl]. }
  destruct (H i) as [X|X]; rewrite X in *; [destruct N as [_ N]; rewrite (N eq_refl); exact I|]. destruct (nth i y None) as [q|]; [cbn in *; lra|]. destruct N as [N _]. now specialize (N eq_refl).
Qed.
(** An outlier of one window may lie below the median of the medians *)
Definition rising : list sample := [Some 0; Some 0; Some 0; Some 1; Some 9; Some 9; Some 9]%Q.
Theorem smooth_raised : ~ (forall x w k n y, (0 < k)%Q -> smooth_data n x w k (Z.of_nat n) = Some (Ok y) ->
  forall i a b, nth i x None = Some a -> nth i y None = Some b -> (b <= a)%Q).
Proof.
  intro H. destruct (smooth_data 1 rising 4 (3 # 2) 1) as [[y|e]|] eqn:E; [|discriminate|discriminate].
  specialize (H rising 4 (3 # 2)%Q 1 y eq_refl E 3 1%Q). vm_compute in E. injection E as <-. specialize (H _ eq_refl eq_refl). apply Qle_bool_iff in H. discriminate.
Qed.
