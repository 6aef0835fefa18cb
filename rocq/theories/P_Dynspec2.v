(** What is selected of a lane. *)
From Coq Require Import ZArith QArith Qabs Lqa String Bool List Arith Lia Sorted.
From Verif Require Import Base M_Nd P_Nd M_TFArray P_TFArray M_Select P_Select3 M_Lane P_Lane M_Dynspec P_Dynspec.
Import ListNotations.
Open Scope nat_scope.
Open Scope list_scope.

(** [i] is the first index of [l] whose value is nearest to [x]. *)
Definition nearest (l : list Q) (x : Q) (i : nat) : Prop :=
  i < length l /\
  (forall j, j < length l -> (Qabs (nth i l 0 - x) <= Qabs (nth j l 0 - x))%Q) /\
  (forall j, j < i -> (Qabs (nth i l 0 - x) < Qabs (nth j l 0 - x))%Q).
Definition increasing (l : list Q) : Prop := forall i j, i < j -> j < length l -> (nth i l 0 < nth j l 0)%Q.

Lemma argmin_q_spec : forall l all i best v,
  (forall k, k < length l -> nth (i + k) all 0%Q = nth k l 0%Q) -> length all = i + length l ->
  best < i -> v = nth best all 0%Q ->
  (forall j, j < i -> (v <= nth j all 0)%Q) -> (forall j, j < best -> (v < nth j all 0)%Q) ->
  let b := argmin_q i best v l in
  b < length all /\ (forall j, j < length all -> (nth b all 0 <= nth j all 0)%Q) /\ forall j, j < b -> (nth b all 0 < nth j all 0)%Q.
Proof.
  induction l as [|x l IH]; intros all i best v N L B V M S; cbn [argmin_q].
  - cbn [length] in L. subst v. split; [lia|]. split; [intros j J; apply M; lia|exact S].
  - cbn [length] in L, N. assert (X : nth i all 0%Q = x) by (rewrite <- (Nat.add_0_r i); apply (N 0); lia).
    assert (N' : forall k, k < length l -> nth (Datatypes.S i + k) all 0%Q = nth k l 0%Q).
    { intros k K. replace (Datatypes.S i + k) with (i + Datatypes.S k) by lia. now rewrite (N (Datatypes.S k)) by lia. }
    destruct (Qle_bool v x) eqn:C; cbn [negb].
    + apply Qle_bool_iff in C. apply IH; try assumption; try lia.
      intros j J. destruct (Nat.eq_dec j i) as [->|]; [now rewrite X|apply M; lia].
    + assert (C' : (x < v)%Q) by (apply Qnot_le_lt; intros K; apply Qle_bool_iff in K; congruence).
      apply IH; try assumption; try lia; [now rewrite X| |].
      * intros j J. destruct (Nat.eq_dec j i) as [->|]; [rewrite X; lra|]. specialize (M j ltac:(lia)). lra.
      * intros j J. specialize (M j J). lra.
Qed.
Lemma nearest_ok : forall l x, l <> [] -> exists i, nearest_index l x = Ok i /\ nearest l x i.
Proof.
  intros l x N. unfold nearest_index. destruct l as [|y l]; [congruence|]. cbn [map].
  eexists. split; [reflexivity|].
  set (all := map (fun y => Qabs (y - x)) (y :: l)).
  assert (A : forall j, j < length (y :: l) -> nth j all 0%Q = Qabs (nth j (y :: l) 0%Q - x)).
  { intros j J. unfold all. rewrite (nth_indep _ 0%Q (Qabs (0%Q - x))) by (rewrite map_length; exact J).
    now rewrite (map_nth (fun y => Qabs (y - x))). }
  destruct (argmin_q_spec (map (fun y => Qabs (y - x)) l) all 1 0 (Qabs (y - x))) as (P1 & P2 & P3).
  - intros k K. reflexivity.
  - unfold all. cbn [map length]. reflexivity.
  - lia.
  - reflexivity.
  - intros j J. replace j with 0 by lia. apply Qle_refl.
  - intros j J. lia.
  - unfold all in P1, P2. rewrite map_length in P1, P2. fold all in P2, P3. unfold nearest.
    set (i := argmin_q 1 0 (Qabs (y - x)) (map (fun y => Qabs (y - x)) l)) in *.
    split; [exact P1|]. split.
    + intros j J. rewrite <- !A by assumption. now apply P2.
    + intros j J. rewrite <- !A by lia. now apply P3.
Qed.
Lemma nearest_unique : forall l x i j, nearest l x i -> nearest l x j -> i = j.
Proof.
  intros l x i j (I1 & I2 & I3) (J1 & J2 & J3).
  destruct (Nat.lt_trichotomy i j) as [H|[H|H]]; [|exact H|].
  - specialize (J3 i H). specialize (I2 j J1). lra.
  - specialize (I3 j H). specialize (J2 i I1). lra.
Qed.
Lemma abs_cases : forall x, (0 <= x /\ Qabs x == x)%Q \/ (x <= 0 /\ Qabs x == - x)%Q.
Proof.
  intros x. destruct (Qlt_le_dec x 0) as [H|H].
  - right. split; [lra|]. apply Qabs_neg. lra.
  - left. split; [exact H|]. now apply Qabs_pos.
Qed.
Ltac qabs := repeat match goal with
  | H : context [Qabs ?x] |- _ => let C := fresh in destruct (abs_cases x) as [C|C]; destruct C as (? & C); rewrite C in H; clear C
  | |- context [Qabs ?x] => let C := fresh in destruct (abs_cases x) as [C|C]; destruct C as (? & C); rewrite C; clear C
  end.
Lemma nearest_monotone : forall l x y i j, increasing l -> (x <= y)%Q -> nearest l x i -> nearest l y j -> i <= j.
Proof.
  intros l x y i j M L (I1 & I2 & I3) (J1 & J2 & J3). destruct (Nat.le_gt_cases i j) as [|G]; [assumption|exfalso].
  specialize (M j i G I1). specialize (I3 j G). specialize (J2 i I1).
  set (a := nth i l 0%Q) in *. set (b := nth j l 0%Q) in *. clearbody a b. qabs; lra.
Qed.
Lemma nearest_first : forall l x, increasing l -> l <> [] -> (x <= nth 0 l 0)%Q -> nearest l x 0.
Proof.
  intros l x M N L. assert (P : 0 < length l) by (destruct l; [congruence|cbn; lia]). split; [exact P|]. split; [|intros; lia].
  intros j J. destruct (Nat.eq_dec j 0) as [->|]; [apply Qle_refl|].
  specialize (M 0 j ltac:(lia) J). set (a := nth 0 l 0%Q) in *. set (b := nth j l 0%Q) in *. clearbody a b. qabs; lra.
Qed.
Lemma nearest_last : forall l x, increasing l -> l <> [] -> (nth (length l - 1) l 0 <= x)%Q -> nearest l x (length l - 1).
Proof.
  intros l x M N L. assert (P : 0 < length l) by (destruct l; [congruence|cbn; lia]). split; [lia|].
  assert (G : forall j, j < length l - 1 -> (Qabs (nth (length l - 1) l 0 - x) < Qabs (nth j l 0 - x))%Q).
  { intros j J. specialize (M j (length l - 1) J ltac:(lia)).
    set (a := nth (length l - 1) l 0%Q) in *. set (b := nth j l 0%Q) in *. clearbody a b. qabs; lra. }
  split; [|exact G]. intros j J. destruct (Nat.eq_dec j (length l - 1)) as [->|]; [apply Qle_refl|].
  apply Qlt_le_weak, G. lia.
Qed.

(** ** Slices *)
Lemma slice_length : forall X (l : list X) a b, length (slice a b l) = Nat.min b (length l) - a.
Proof. intros. unfold slice. rewrite firstn_length, skipn_length. lia. Qed.
Lemma nth_skip : forall X (l : list X) a k d, nth k (skipn a l) d = nth (a + k) l d.
Proof.
  intros X l a k d. revert a. induction l as [|x l IH]; intros a; [rewrite skipn_nil; destruct k, a; reflexivity|].
  destruct a; [reflexivity|]. cbn [skipn Nat.add nth]. apply IH.
Qed.
Lemma nth_slice : forall X (l : list X) a b k d, k < b - a -> nth k (slice a b l) d = nth (a + k) l d.
Proof.
  intros X l a b k d K. unfold slice. rewrite <- nth_skip. revert K. generalize (skipn a l) (b - a). clear.
  intros l. revert k. induction l as [|x l IH]; intros k n K; [now rewrite firstn_nil|].
  destruct n; [lia|]. destruct k; [reflexivity|]. cbn. apply IH. lia.
Qed.

(** ** Selection *)

(** A lane whose axes fit its data; [p] are the axes of a sample. *)
Definition fits {A} (l : lane A) (p : list nat) : Prop :=
  sh (l_data l) = length (l_time l) :: length (l_freq l) :: p /\ 0 < l_nchan l.
(** The frequencies of a beam which starts at channel [b0] and stops before [b1]. *)
Definition band_of {A} (l : lane A) (b0 b1 : nat) : list Q := slice b0 b1 (l_freq l).

Lemma lookup_beam_in : forall b l v, lookup_beam b l = Some v -> In (b, v) l.
Proof.
  induction l as [|(k & w) l IH]; intros v H; [discriminate|]. cbn [lookup_beam] in H.
  destruct (Z.eqb_spec k b) as [->|]; [injection H as ->; now left|right; now apply IH].
Qed.
Lemma lookup_beam_none : forall b l, lookup_beam b l = None <-> ~ In b (map fst l).
Proof.
  induction l as [|(k & w) l IH]; cbn [lookup_beam map fst In]; [tauto|].
  destruct (Z.eqb_spec k b) as [->|]; [split; [discriminate|tauto]|]. rewrite IH. intuition.
Qed.

Definition selection {A} (l : lane A) (p : list nat) (b0 i0 i1 j0 j1 : nat) (r : list Q * list Q * nd A) : Prop :=
  let '(freqs, times, data) := r in
  length times = i1 - i0 /\ length freqs = j1 - j0 /\ sh data = i1 - i0 :: j1 - j0 :: p /\
  (forall i, i < i1 - i0 -> nth i times 0%Q = nth (i0 + i) (l_time l) 0%Q) /\
  (forall j, j < j1 - j0 -> nth j freqs 0%Q = nth (b0 + (j0 + j)) (l_freq l) 0%Q) /\
  forall i j q, get data (i :: j :: q) = get (l_data l) (i0 + i :: b0 + (j0 + j) :: q).

Theorem select_spec : forall A (d : dynspec A) l p b0 b1 t0 t1 f0 f1 i0 i1 j0 j1,
  fits l p -> lookup_beam (d_beam d) (l_beams l) = Some (b0, b1) -> b0 < b1 -> b1 <= length (l_freq l) ->
  (exists k, b1 - b0 = k * l_nchan l) ->
  time_range d = Ok (t0, t1) -> freq_range d = Ok (f0, f1) ->
  nearest (l_time l) t0 i0 -> nearest (l_time l) t1 i1 ->
  nearest (band_of l b0 b1) f0 j0 -> nearest (band_of l b0 b1) f1 j1 ->
  (i0 = i1 \/ j0 = j1 -> select_data d l = Ok None) /\
  (i0 <> i1 -> j0 <> j1 -> exists r, select_data d l = Ok (Some r) /\
     selection l p b0 i0 i1 (j0 / l_nchan l * l_nchan l) ((j1 / l_nchan l + 1) * l_nchan l) r).
Proof.
  intros A d l p b0 b1 t0 t1 f0 f1 i0 i1 j0 j1 (SH & NC) LB BB BL (kk & BK) TR FR I0 I1 J0 J1.
  unfold select_data. rewrite LB, TR. cbn [bind fst snd].
  assert (TN : l_time l <> []) by (destruct I0 as (X & _); intros E; rewrite E in X; cbn in X; lia).
  destruct (nearest_ok (l_time l) t0 TN) as (x & X1 & X2). rewrite X1. rewrite (nearest_unique _ _ _ _ X2 I0) in *. clear X2.
  destruct (nearest_ok (l_time l) t1 TN) as (y & Y1 & Y2). rewrite Y1. rewrite (nearest_unique _ _ _ _ Y2 I1) in *. clear Y2.
  cbn [bind].
  fold (band_of l b0 b1) in *.
  assert (LEN : length (band_of l b0 b1) = b1 - b0) by (unfold band_of; rewrite slice_length; lia).
  assert (BN : band_of l b0 b1 <> []) by (intros E; rewrite E in LEN; cbn in LEN; lia).
  destruct (nearest_ok (band_of l b0 b1) f0 BN) as (u & U1 & U2). rewrite (nearest_unique _ _ _ _ U2 J0) in *. clear U2.
  destruct (nearest_ok (band_of l b0 b1) f1 BN) as (v & V1 & V2). rewrite (nearest_unique _ _ _ _ V2 J1) in *. clear V2.
  split.
  - intros H. destruct (Nat.eqb_spec i0 i1); [reflexivity|]. destruct H as [H|H]; [contradiction|].
    rewrite FR. cbn [bind fst snd]. rewrite U1, V1. cbn [bind]. now rewrite (proj2 (Nat.eqb_eq j0 j1) H).
  - intros HI HJ. destruct (Nat.eqb_spec i0 i1); [contradiction|].
    rewrite FR. cbn [bind fst snd]. rewrite U1, V1. cbn [bind]. destruct (Nat.eqb_spec j0 j1); [contradiction|].
    set (nc := l_nchan l) in *. set (a := j0 / nc * nc). set (b := (j1 / nc + 1) * nc).
    eexists. split; [reflexivity|]. unfold selection.
    destruct I1 as (I1 & _). destruct J1 as (J1 & _). rewrite LEN in J1.
    assert (BL' : b <= b1 - b0).
    { unfold b. rewrite BK in *. assert (j1 / nc < kk) by (apply Nat.div_lt_upper_bound; nia). nia. }
    rewrite !slice_length, LEN.
    unfold slice_nd at 1 2. rewrite SH. cbn [sh get].
    replace (Nat.min i1 (length (l_time l)) - i0) with (i1 - i0) by lia.
    replace (Nat.min b (b1 - b0) - a) with (b - a) by lia.
    split; [reflexivity|]. split; [reflexivity|]. split.
    { f_equal; [|f_equal]; lia. }
    split; [intros i Hi; now apply nth_slice|]. split.
    { intros j Hj. rewrite nth_slice by exact Hj. unfold band_of. apply nth_slice. lia. }
    intros i j q. unfold slice_nd. rewrite SH. cbn [sh get]. reflexivity.
Qed.
Theorem select_no_beam : forall A (d : dynspec A) l, ~ In (d_beam d) (map fst (l_beams l)) -> select_data d l = Ok None.
Proof. intros A d l H. unfold select_data. now rewrite (proj2 (lookup_beam_none _ _) H). Qed.

(** ** Uniform times *)
Definition uniform (l : list Q) (a dt : Q) : Prop := forall k, k < length l -> (nth k l 0 == a + qn k * dt)%Q.
Lemma qn_lt : forall i j, i < j -> (qn i + 1 <= qn j)%Q.
Proof. intros i j H. rewrite <- qn_S. unfold qn. rewrite <- Zle_Qle. lia. Qed.
Lemma uniform_increasing : forall l a dt, uniform l a dt -> (0 < dt)%Q -> increasing l.
Proof.
  intros l a dt U D i j I J. rewrite (U i), (U j) by lia. pose proof (qn_lt i j I) as Q1.
  assert ((qn i + 1) * dt <= qn j * dt)%Q by (apply Qmult_le_compat_r; lra). lra.
Qed.
Lemma qn_le : forall i j, i <= j -> (qn i <= qn j)%Q.
Proof. intros i j H. unfold qn. rewrite <- Zle_Qle. lia. Qed.
Lemma uniform_near : forall l a dt x i, uniform l a dt -> (0 < dt)%Q -> nearest l x i ->
  (a - dt * (1 # 2) <= x)%Q -> (x <= a + (qn (length l) - (1 # 2)) * dt)%Q ->
  (Qabs (nth i l 0 - x) <= dt * (1 # 2))%Q.
Proof.
  intros l a dt x i U D (I1 & I2 & I3) L1 L2. rewrite (U i I1).
  destruct (Qlt_le_dec (a + qn i * dt) x) as [H|H].
  - (* the next sample, or the end *)
    destruct (Nat.eq_dec (S i) (length l)) as [E|E].
    + rewrite <- E in L2. rewrite qn_S in L2. rewrite Qabs_neg by lra. lra.
    + assert (J : S i < length l) by lia. pose proof (I2 (S i) J) as K. rewrite (U i I1), (U (S i) J), qn_S in K.
      rewrite (Qabs_neg (a + qn i * dt - x)) in * by lra. destruct (abs_cases (a + (qn i + 1) * dt - x)) as [(C & Q)|(C & Q)]; rewrite Q in K; lra.
  - rewrite Qabs_pos by lra. destruct i as [|i].
    + change (qn 0) with 0%Q in *. lra.
    + assert (J : i < length l) by lia. pose proof (I2 i J) as K. rewrite (U (S i) I1), (U i J), qn_S in K. rewrite qn_S in H |- *.
      rewrite (Qabs_pos (a + (qn i + 1) * dt - x)) in K by lra.
      destruct (abs_cases (a + qn i * dt - x)) as [(C & Q)|(C & Q)]; rewrite Q in K; lra.
Qed.

(** Bounds which fall on the samples, up to half a step: what is kept of the times. *)
Theorem select_window : forall (l : list Q) a dt t0 t1 i0 i1, uniform l a dt -> (0 < dt)%Q -> (t0 < t1)%Q ->
  (a - dt * (1 # 2) <= t0)%Q -> (t1 <= a + (qn (length l) - (1 # 2)) * dt)%Q ->
  nearest l t0 i0 -> nearest l t1 i1 -> i0 <= i1 /\ forall k, k < length l ->
  ((i0 <= k < i1) -> (t0 - dt * (1 # 2) <= nth k l 0 /\ nth k l 0 <= t1 - dt * (1 # 2))%Q) /\
  ((t0 + dt * (1 # 2) <= nth k l 0)%Q -> (nth k l 0 < t1 - dt * (1 # 2))%Q -> i0 <= k < i1).
Proof.
  intros l a dt t0 t1 i0 i1 U D L L0 L1 N0 N1.
  assert (Q0 := uniform_near l a dt t0 i0 U D N0 L0 ltac:(lra)).
  assert (Q1 := uniform_near l a dt t1 i1 U D N1 ltac:(lra) L1).
  split; [apply (nearest_monotone l t0 t1); auto; [eapply uniform_increasing; eauto|lra]|].
  destruct N0 as (N0 & _), N1 as (N1 & _).
  pose proof (uniform_increasing l a dt U D) as INC.
  intros k K. split.
  - intros (K0 & K1).
    assert (A0 : (nth i0 l 0 <= nth k l 0)%Q).
    { destruct (Nat.eq_dec i0 k) as [->|]; [apply Qle_refl|]. apply Qlt_le_weak, INC; lia. }
    assert (A1 : (nth k l 0 + dt <= nth i1 l 0)%Q).
    { rewrite (U k K), (U i1 N1). pose proof (qn_lt k i1 K1) as X. assert ((qn k + 1) * dt <= qn i1 * dt)%Q by (apply Qmult_le_compat_r; lra). lra. }
    set (x := nth i0 l 0%Q) in *. set (y := nth i1 l 0%Q) in *. set (z := nth k l 0%Q) in *. clearbody x y z.
    qabs; split; lra.
  - intros H0 H1. set (x := nth i0 l 0%Q) in *. set (y := nth i1 l 0%Q) in *.
    destruct (Nat.le_gt_cases i0 k) as [A0|A0]; [destruct (Nat.le_gt_cases i1 k) as [A1|A1]; [|lia]|].
    + exfalso. assert (y <= nth k l 0)%Q.
      { unfold y. destruct (Nat.eq_dec i1 k) as [->|]; [apply Qle_refl|]. apply Qlt_le_weak, INC; lia. }
      clearbody x y. qabs; lra.
    + exfalso. specialize (INC k i0 A0 N0). fold x in INC. clearbody x y. qabs; lra.
Qed.
(** A range after or before the times selects nothing. *)
Theorem select_outside : forall A (d : dynspec A) l b t0 t1, increasing (l_time l) -> l_time l <> [] ->
  lookup_beam (d_beam d) (l_beams l) = Some b -> time_range d = Ok (t0, t1) -> (t0 < t1)%Q ->
  (t1 <= nth 0 (l_time l) 0)%Q \/ (nth (length (l_time l) - 1) (l_time l) 0 <= t0)%Q ->
  select_data d l = Ok None.
Proof.
  intros A d l (b0 & b1) t0 t1 INC N LB TR L H. unfold select_data. rewrite LB, TR. cbn [bind fst snd].
  destruct (nearest_ok (l_time l) t0 N) as (x & X1 & X2). destruct (nearest_ok (l_time l) t1 N) as (y & Y1 & Y2).
  rewrite X1, Y1. cbn [bind]. assert (E : x = y).
  { destruct H as [H|H].
    - assert (E1 := nearest_unique _ _ _ _ X2 (nearest_first _ t0 INC N ltac:(lra))).
      assert (E2 := nearest_unique _ _ _ _ Y2 (nearest_first _ t1 INC N ltac:(lra))). congruence.
    - assert (E1 := nearest_unique _ _ _ _ X2 (nearest_last _ t0 INC N ltac:(lra))).
      assert (E2 := nearest_unique _ _ _ _ Y2 (nearest_last _ t1 INC N ltac:(lra))). congruence. }
  rewrite E, Nat.eqb_refl. reflexivity.
Qed.
(** The range set by default, from the first to the last sample, leaves the last sample out. *)
Theorem select_default_times : forall (l : list Q) i0 i1, increasing l -> l <> [] ->
  nearest l (nth 0 l 0%Q) i0 -> nearest l (nth (length l - 1) l 0%Q) i1 -> i0 = 0 /\ i1 = length l - 1.
Proof.
  intros l i0 i1 INC N N0 N1. split.
  - apply (nearest_unique _ _ _ _ N0). apply nearest_first; auto. apply Qle_refl.
  - apply (nearest_unique _ _ _ _ N1). apply nearest_last; auto. apply Qle_refl.
Qed.

(** ** Sub-bands *)
(** The channels kept are those of whole sub-bands of the beam, from that of the
    channel nearest to the lower bound to that of the nearest to the upper bound. *)
Theorem select_subbands : forall n j0 j1 k, 0 < n -> j0 <= j1 -> j1 < k * n ->
  let a := j0 / n * n in let b := (j1 / n + 1) * n in
  a <= j0 /\ j1 < b /\ b <= k * n /\
  forall j, a <= j < b <-> j0 / n <= j / n <= j1 / n.
Proof.
  intros n j0 j1 k N L K a b. unfold a, b.
  pose proof (Nat.div_mod j0 n ltac:(lia)) as D0. pose proof (Nat.mod_upper_bound j0 n ltac:(lia)) as M0.
  pose proof (Nat.div_mod j1 n ltac:(lia)) as D1. pose proof (Nat.mod_upper_bound j1 n ltac:(lia)) as M1.
  assert (j1 / n < k) by (apply Nat.div_lt_upper_bound; nia).
  split; [nia|]. split; [nia|]. split; [nia|]. intros j. 
  pose proof (Nat.div_mod j n ltac:(lia)) as D. pose proof (Nat.mod_upper_bound j n ltac:(lia)) as M. split.
  - intros (A & B). split; [apply Nat.div_le_lower_bound; lia|]. apply Nat.lt_succ_r. apply Nat.div_lt_upper_bound; nia.
  - intros (A & B). nia.
Qed.

(** ** Lanes which were read meet all this *)
Theorem select_loaded : forall idx c B S T h l, holds c B S T h -> 0 < T -> 0 < h_nfft2int (c_header c) -> load idx c = Ok l ->
  fits l [2; 2] /\ l_time l <> [] /\ increasing (l_time l) /\ (0 < l_dt l)%Q /\ uniform (l_time l) (start_time c) (l_dt l) /\
  forall b b0 b1, lookup_beam b (l_beams l) = Some (b0, b1) ->
    b0 < b1 /\ b1 <= length (l_freq l) /\ (exists k, b1 - b0 = k * l_nchan l).
Proof.
  intros idx c B S T h l HH T0 N0 E.
  destruct (load_spec idx c B S T h HH) as (l' & E' & _ & NC & DT & _ & LT & NT & LF & _ & _ & LB & SH & _).
  rewrite E in E'. injection E' as <-. pose proof HH as (E1 & _ & E3 & H0 & S0 & B0 & _).
  assert (BT : 0 < B * T) by nia.
  assert (D : (0 < l_dt l)%Q).
  { rewrite DT. unfold time_step. rewrite E3. apply Qmult_lt_0_compat; [apply Qmult_lt_0_compat; [reflexivity|]|]; apply qn_pos; lia. }
  assert (U : uniform (l_time l) (start_time c) (l_dt l)).
  { intros k K. rewrite NT by lia. now rewrite DT. }
  split; [split; [rewrite SH, LT, LF; reflexivity|lia]|].
  split; [intros X; rewrite X in LT; cbn in LT; lia|].
  split; [eapply uniform_increasing; eauto|]. split; [exact D|]. split; [exact U|].
  intros b b0 b1 K. apply lookup_beam_in in K. rewrite LB in K.
  destruct (proj2 (proj2 (lane_beams_spec (beams_of c) (2 * h))) _ _ _ K) as (lo & hi & (L1 & L2) & (H1 & H2) & -> & ->).
  assert (LE : lo <= hi) by (now apply L2).
  assert (HL : hi < length (beams_of c)) by (apply nth_error_Some; congruence).
  assert (BL : length (beams_of c) = S) by (unfold beams_of; rewrite map_length, seq_length; exact E1).
  rewrite LF, NC. split; [nia|]. split; [nia|]. exists (hi + 1 - lo). nia.
Qed.
