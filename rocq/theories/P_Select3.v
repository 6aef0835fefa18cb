(** Missing blocks and bounds of a file. *)
From Coq Require Import List Arith ZArith QArith Qround Qabs Bool Lia Lqa Sorted.
From Verif Require Import Base M_Slots M_Nd P_Nd M_Rebin M_TFArray P_TFArray P_TFArray2 M_Polar P_Polar2 M_Select P_Select P_Select2.
Import ListNotations.
Open Scope nat_scope.

(** ** Missing blocks *)
Definition bad_at (l : list block) (i : nat) : Prop :=
  exists b, nth_error l i = Some b /\
    ((b_timestamp b < 1 # 10)%Q \/ (i <> 0 /\ b_idx b = 0%Z) \/ (b_nbchan b < 0)%Z).
Definition good_at (l : list block) (i : nat) : Prop := i < length l /\ ~ bad_at l i.
Definition recorded (width : Q) (l : list block) (i : nat) (t : Q) : Prop :=
  exists b, nth_error l i = Some b /\ (t == b_timestamp b + inject_Z (b_seq b) / width)%Q.

Theorem bad_mask_spec : forall l, length (bad_mask l) = length l /\
  forall i, i < length l -> (nth i (bad_mask l) false = true <-> bad_at l i).
Proof.
  intros l. unfold bad_mask. split; [apply imap_length|]. intros i I.
  destruct (nth_error l i) as [b|] eqn:E; [|apply nth_error_None in E; lia].
  assert (N : nth_error (bad_mask l) i = Some (negb (Qle_bool (1 # 10) (b_timestamp b)) ||
                   (negb (i =? 0) && (b_idx b =? 0)%Z) || (b_nbchan b <? 0)%Z)).
  { unfold bad_mask. rewrite nth_error_imap, E. reflexivity. }
  unfold bad_mask in N. rewrite (nth_error_nth _ _ false N). unfold bad_at.
  rewrite !orb_true_iff, andb_true_iff, !negb_true_iff, Nat.eqb_neq, Z.eqb_eq, Z.ltb_lt.
  assert (Q1 : Qle_bool (1 # 10) (b_timestamp b) = false <-> (b_timestamp b < 1 # 10)%Q).
  { split.
    - intros H. apply Qnot_le_lt. intros X. apply Qle_bool_iff in X. congruence.
    - intros H. destruct (Qle_bool _ _) eqn:X; [|reflexivity]. apply Qle_bool_iff in X. lra. }
  rewrite Q1. split.
  - intros H. exists b. split; [first [exact E|reflexivity]|tauto].
  - intros (b' & E' & H). assert (b' = b) by congruence. subst b'. tauto.
Qed.

Definition starts_of (width : Q) (l : list block) : list Q :=
  map (fun b => b_timestamp b + inject_Z (b_seq b) / width)%Q l.
Lemma starts_recorded : forall width l i t, recorded width l i t -> (nth i (starts_of width l) 0 == t)%Q.
Proof.
  intros width l i t (b & E & T). unfold starts_of.
  rewrite (nth_error_nth _ i _ (map_nth_error _ _ _ E)). now symmetry.
Qed.

Definition pts (starts : list Q) (mask : list bool) (a n : nat) : list (nat * Q) :=
  flat_map (fun i => if nth i mask false then [] else [(i, nth i starts 0%Q)]) (seq a n).
Lemma pts_app : forall s m a n k, pts s m a (n + k) = pts s m a n ++ pts s m (a + n) k.
Proof. intros. unfold pts. now rewrite seq_app, flat_map_app. Qed.
Lemma pts_bad : forall s m a n, (forall i, a <= i < a + n -> nth i m false = true) -> pts s m a n = [].
Proof.
  intros s m a n. revert a. induction n as [|n IH]; intros a H; [reflexivity|].
  unfold pts in *. cbn [seq flat_map]. rewrite (H a) by lia. apply IH. intros. apply H. lia.
Qed.
Lemma pts_one : forall s m a, nth a m false = false -> pts s m a 1 = [(a, nth a s 0%Q)].
Proof. intros s m a H. unfold pts. cbn. now rewrite H. Qed.
Lemma pts_fst : forall s m a n, Forall (fun e => a <= fst e < a + n) (pts s m a n).
Proof.
  intros. apply Forall_forall. intros e I. unfold pts in I. apply in_flat_map in I. destruct I as (i & I & J).
  apply in_seq in I. destruct (nth i m false); [destruct J|]. destruct J as [<-|[]]. cbn. lia.
Qed.
Lemma interp_skip : forall p x prev q, Forall (fun e => fst e <= x) p ->
  interp x prev (p ++ q) = interp x (match p with [] => prev | e :: _ => Some (last p e) end) q.
Proof.
  induction p as [|(k & v) p IH]; intros x prev q F; [reflexivity|].
  inversion F as [|? ? H1 H2]; subst. cbn [app interp]. cbn in H1.
  rewrite (proj2 (Nat.ltb_ge x k) H1). rewrite (IH _ _ _ H2). destruct p as [|e p]; [reflexivity|].
  f_equal. f_equal. change (last ((k, v) :: e :: p) (k, v)) with (last (e :: p) (k, v)).
  clear. revert e. induction p as [|e' p IH]; intros e; [reflexivity|]. cbn [last] in *. destruct p; auto.
Qed.

Lemma reconstruct_nth : forall width l ts, reconstruct_time width l = Ok ts ->
  length ts = length l /\
  (exists i, good_at l i) /\
  forall i, i < length l ->
    (good_at l i -> nth i ts 0%Q = nth i (starts_of width l) 0%Q) /\
    (bad_at l i -> forall v, interp i None (pts (starts_of width l) (bad_mask l) 0 (length l)) = Some v -> nth i ts 0%Q = v).
Proof.
  intros width l ts E. unfold reconstruct_time in E. fold (starts_of width l) in E.
  unfold good_points in E. assert (LS : length (starts_of width l) = length l) by (unfold starts_of; apply map_length).
  rewrite LS in E. fold (pts (starts_of width l) (bad_mask l) 0 (length l)) in E.
  destruct (bad_mask_spec l) as (_ & BM).
  remember (pts (starts_of width l) (bad_mask l) 0 (length l)) as g eqn:G.
  destruct g as [|e g]; [discriminate|]. injection E as <-.
  split; [now rewrite imap_length|]. split.
  { assert (I : In e (pts (starts_of width l) (bad_mask l) 0 (length l))) by (rewrite <- G; now left).
    unfold pts in I. apply in_flat_map in I. destruct I as (i & I & J). apply in_seq in I.
    destruct (nth i (bad_mask l) false) eqn:N; [destruct J|]. exists i. split; [lia|].
    intros X. apply BM in X; [congruence|lia]. }
  intros i I.
  assert (NS : exists s, nth_error (starts_of width l) i = Some s).
  { destruct (nth_error (starts_of width l) i) eqn:X; [eauto|]. apply nth_error_None in X. lia. }
  destruct NS as (s & NS).
  split; intros H.
  - assert (nth i (bad_mask l) false = false).
    { destruct (nth i (bad_mask l) false) eqn:X; [|reflexivity]. apply BM in X; [|exact I]. destruct H. contradiction. }
    eapply nth_error_nth. rewrite nth_error_imap, NS. cbn. rewrite H0. now rewrite (nth_error_nth _ _ 0%Q NS).
  - intros v V. apply BM in H; [|exact I]. eapply nth_error_nth. rewrite nth_error_imap, NS. cbn [option_map]. cbv beta. rewrite H. f_equal.
    cbn [interp] in V. now rewrite V.
Qed.
Theorem reconstruct_total : forall width l,
  ((exists i, good_at l i) -> exists ts, reconstruct_time width l = Ok ts /\ length ts = length l) /\
  ((forall i, i < length l -> bad_at l i) -> reconstruct_time width l = Err EValueError).
Proof.
  intros width l. destruct (bad_mask_spec l) as (_ & BM).
  assert (LS : length (starts_of width l) = length l) by (unfold starts_of; apply map_length).
  split.
  - intros (i & I & G). destruct (reconstruct_time width l) as [ts|e] eqn:E.
    { exists ts. split; [reflexivity|]. now destruct (reconstruct_nth _ _ _ E). }
    exfalso. unfold reconstruct_time in E. fold (starts_of width l) in E. unfold good_points in E. rewrite LS in E.
    fold (pts (starts_of width l) (bad_mask l) 0 (length l)) in E.
    assert (X : In (i, nth i (starts_of width l) 0%Q) (pts (starts_of width l) (bad_mask l) 0 (length l))).
    { unfold pts. apply in_flat_map. exists i. split; [apply in_seq; lia|].
      destruct (nth i (bad_mask l) false) eqn:N; [|now left]. apply BM in N; [contradiction|exact I]. }
    destruct (pts _ _ _ _); [destruct X|discriminate].
  - intros H. unfold reconstruct_time. fold (starts_of width l). unfold good_points. rewrite LS.
    fold (pts (starts_of width l) (bad_mask l) 0 (length l)). rewrite pts_bad; [reflexivity|].
    intros i I. apply BM; [lia|]. apply H. lia.
Qed.

(** Times of the good blocks, and between two good blocks with none in between. *)
Theorem reconstruct_between : forall width l ts a b ra rb, reconstruct_time width l = Ok ts ->
  a < b -> good_at l a -> good_at l b -> (forall i, a < i < b -> bad_at l i) ->
  recorded width l a ra -> recorded width l b rb ->
  forall i, a <= i <= b -> (nth i ts 0 == ra + (rb - ra) * (qn i - qn a) / (qn b - qn a))%Q.
Proof.
  intros width l ts a b ra rb E AB GA GB BB RA RB i I.
  destruct (reconstruct_nth _ _ _ E) as (LT & _ & H). destruct (bad_mask_spec l) as (_ & BM).
  assert (D : (0 < qn b - qn a)%Q).
  { unfold qn. assert (Z.of_nat a < Z.of_nat b)%Z by lia. rewrite Zlt_Qlt in H0. lra. }
  apply starts_recorded in RA, RB. destruct GA as (LA & GA), GB as (LB & GB).
  destruct (Nat.eq_dec i a) as [->|NA].
  { rewrite (proj1 (H a LA)) by (split; assumption). rewrite RA. field. lra. }
  destruct (Nat.eq_dec i b) as [->|NB].
  { rewrite (proj1 (H b LB)) by (split; assumption). rewrite RB. field. lra. }
  assert (BI : bad_at l i) by (apply BB; lia).
  assert (MA : nth a (bad_mask l) false = false).
  { destruct (nth a (bad_mask l) false) eqn:X; [|reflexivity]. apply BM in X; [contradiction|exact LA]. }
  assert (MB : nth b (bad_mask l) false = false).
  { destruct (nth b (bad_mask l) false) eqn:X; [|reflexivity]. apply BM in X; [contradiction|exact LB]. }
  set (s := starts_of width l) in *. set (m := bad_mask l) in *.
  rewrite (proj2 (H i ltac:(lia)) BI (nth a s 0 + (nth b s 0 - nth a s 0) * (qn i - qn a) / (qn b - qn a))%Q).
  - rewrite RA, RB. reflexivity.
  - replace (length l) with (a + 1 + (b - a - 1) + 1 + (length l - b - 1)) by lia. rewrite !pts_app.
    replace (0 + a) with a by lia. replace (0 + (a + 1)) with (a + 1) by lia.
    replace (0 + (a + 1 + (b - a - 1))) with b by lia.
    rewrite (pts_one s m a MA), (pts_one s m b MB).
    rewrite (pts_bad s m (a + 1)) by (intros j J; apply BM; [lia|]; apply BB; lia).
    rewrite app_nil_r, <- !app_assoc. rewrite app_assoc. rewrite interp_skip.
    + assert (LS : forall p : list (nat * Q), match p ++ [(a, nth a s 0%Q)] with [] => None | e :: _ => Some (last (p ++ [(a, nth a s 0%Q)]) e) end
                        = Some (a, nth a s 0%Q)).
      { intros [|e p]; [reflexivity|]. cbn [app]. f_equal. rewrite app_comm_cons. apply last_last. }
      rewrite LS. cbn [app interp]. rewrite (proj2 (Nat.ltb_lt i b)) by lia. reflexivity.
    + apply Forall_app. split; [|constructor; [cbn; lia|constructor]].
      eapply Forall_impl; [|apply pts_fst]. cbn. lia.
Qed.
(** Before the first good block, and after the last one. *)
Theorem reconstruct_ends : forall width l ts g rg, reconstruct_time width l = Ok ts -> good_at l g -> recorded width l g rg ->
  ((forall i, i < g -> bad_at l i) -> forall i, i <= g -> (nth i ts 0 == rg)%Q) /\
  ((forall i, g < i < length l -> bad_at l i) -> forall i, g <= i < length l -> (nth i ts 0 == rg)%Q).
Proof.
  intros width l ts g rg E (LG & GG) RG.
  destruct (reconstruct_nth _ _ _ E) as (LT & _ & H). destruct (bad_mask_spec l) as (_ & BM).
  apply starts_recorded in RG.
  assert (MG : nth g (bad_mask l) false = false).
  { destruct (nth g (bad_mask l) false) eqn:X; [|reflexivity]. apply BM in X; [contradiction|exact LG]. }
  split; intros BB i I.
  - destruct (Nat.eq_dec i g) as [->|N].
    { rewrite (proj1 (H g LG)) by (split; assumption). exact RG. }
    rewrite (proj2 (H i ltac:(lia)) (BB i ltac:(lia)) (nth g (starts_of width l) 0%Q)); [exact RG|].
    replace (length l) with (g + 1 + (length l - g - 1)) by lia. rewrite !pts_app. cbn [plus].
    rewrite (pts_bad _ _ 0) by (intros j J; apply BM; [lia|]; apply BB; lia). rewrite (pts_one _ _ _ MG).
    cbn [app interp]. rewrite (proj2 (Nat.ltb_lt i g)) by lia. reflexivity.
  - destruct (Nat.eq_dec i g) as [->|N].
    { rewrite (proj1 (H g LG)) by (split; assumption). exact RG. }
    rewrite (proj2 (H i ltac:(lia)) (BB i ltac:(lia)) (nth g (starts_of width l) 0%Q)); [exact RG|].
    replace (length l) with (g + 1 + (length l - g - 1)) by lia. rewrite !pts_app. cbn [plus].
    rewrite (pts_bad _ _ (g + 1)) by (intros j J; apply BM; [lia|]; apply BB; lia). rewrite (pts_one _ _ _ MG).
    rewrite interp_skip.
    + assert (LS : forall p : list (nat * Q), match p ++ [(g, nth g (starts_of width l) 0%Q)] with [] => None | e :: _ => Some (last (p ++ [(g, nth g (starts_of width l) 0%Q)]) e) end
                        = Some (g, nth g (starts_of width l) 0%Q)).
      { intros [|e p]; [reflexivity|]. cbn [app]. f_equal. rewrite app_comm_cons. apply last_last. }
      rewrite LS. reflexivity.
    + apply Forall_app. split; [|constructor; [cbn; lia|constructor]].
      eapply Forall_impl; [|apply pts_fst]. cbn. lia.
Qed.

(** The good blocks on both sides of [i]. *)
Lemma good_dec : forall l i, i < length l -> good_at l i \/ bad_at l i.
Proof.
  intros l i I. destruct (bad_mask_spec l) as (_ & BM). destruct (nth i (bad_mask l) false) eqn:E.
  - right. now apply BM.
  - left. split; [exact I|]. intros X. apply BM in X; [congruence|exact I].
Qed.
Lemma last_good : forall l i g, g <= i -> i < length l -> good_at l g ->
  exists a, g <= a <= i /\ good_at l a /\ forall j, a < j <= i -> bad_at l j.
Proof.
  intros l i g. induction i as [|i IH]; intros L I G.
  - exists g. split; [lia|]. split; [exact G|]. intros; lia.
  - destruct (good_dec l (S i) I) as [X|X].
    + exists (S i). split; [lia|]. split; [exact X|]. intros; lia.
    + destruct (Nat.eq_dec g (S i)) as [->|N]; [destruct G; contradiction|].
      destruct (IH ltac:(lia) ltac:(lia) G) as (a & A & GA & B). exists a. split; [lia|]. split; [exact GA|].
      intros j J. destruct (Nat.eq_dec j (S i)) as [->|M]; [exact X|]. apply B. lia.
Qed.
Lemma next_good : forall l k i g, i <= g -> g - i <= k -> good_at l g ->
  exists b, i <= b <= g /\ good_at l b /\ forall j, i <= j < b -> bad_at l j.
Proof.
  intros l. induction k as [|k IH]; intros i g L K G.
  - exists i. assert (i = g) by lia. subst. split; [lia|]. split; [exact G|]. intros; lia.
  - destruct (good_dec l i) as [X|X]; [destruct G; lia| |].
    + exists i. split; [lia|]. split; [exact X|]. intros; lia.
    + destruct (Nat.eq_dec i g) as [->|N]; [destruct G; contradiction|].
      destruct (IH (S i) g ltac:(lia) ltac:(lia) G) as (b & B & GB & H). exists b. split; [lia|]. split; [exact GB|].
      intros j J. destruct (Nat.eq_dec j i) as [->|M]; [exact X|]. apply H. lia.
Qed.
Lemma recorded_ex : forall width l i, i < length l -> exists t, recorded width l i t.
Proof.
  intros. destruct (nth_error l i) as [b|] eqn:E; [|apply nth_error_None in E; lia].
  exists (b_timestamp b + inject_Z (b_seq b) / width)%Q. exists b. split; [exact E|reflexivity].
Qed.
Lemma reconstruct_step : forall width l ts g g' i, reconstruct_time width l = Ok ts ->
  good_at l g -> good_at l g' -> g <= i -> S i <= g' ->
  exists a b ra rb, a <= i /\ S i <= b /\ good_at l a /\ good_at l b /\ recorded width l a ra /\ recorded width l b rb /\
    (nth i ts 0 == ra + (rb - ra) * (qn i - qn a) / (qn b - qn a))%Q /\
    (nth (S i) ts 0 == ra + (rb - ra) * (qn (S i) - qn a) / (qn b - qn a))%Q.
Proof.
  intros width l ts g g' i E G G' L L'. assert (LG' : g' < length l) by (destruct G'; auto).
  destruct (last_good l i g L ltac:(lia) G) as (a & A & GA & BA).
  destruct (next_good l (g' - S i) (S i) g' L' ltac:(lia) G') as (b & B & GB & BB).
  destruct (recorded_ex width l a) as (ra & RA); [destruct GA; auto|].
  destruct (recorded_ex width l b) as (rb & RB); [destruct GB; auto|].
  assert (X : forall j, a <= j <= b -> (nth j ts 0 == ra + (rb - ra) * (qn j - qn a) / (qn b - qn a))%Q).
  { apply (reconstruct_between width l); auto; try lia. intros j J.
    destruct (le_lt_dec j i); [apply BA; lia|apply BB; lia]. }
  exists a, b, ra, rb. split; [lia|]. split; [lia|]. split; [exact GA|]. split; [exact GB|]. split; [exact RA|]. split; [exact RB|].
  split; apply X; lia.
Qed.
(** Increasing times of the good blocks: times increase between the first and the
    last good block. *)
Theorem reconstruct_increasing : forall width l ts g g', reconstruct_time width l = Ok ts ->
  good_at l g -> good_at l g' ->
  (forall i j ti tj, i < j -> good_at l i -> good_at l j -> recorded width l i ti -> recorded width l j tj -> (ti < tj)%Q) ->
  forall i, g <= i -> S i <= g' -> (nth i ts 0 < nth (S i) ts 0)%Q.
Proof.
  intros width l ts g g' E G G' INC i L L'.
  destruct (reconstruct_step width l ts g g' i E G G' L L') as (a & b & ra & rb & A & B & GA & GB & RA & RB & X & Y).
  rewrite X, Y. assert (R : (ra < rb)%Q) by (apply (INC a b); auto; lia).
  assert (D : (0 < qn b - qn a)%Q).
  { unfold qn. assert (Z.of_nat a < Z.of_nat b)%Z by lia. rewrite Zlt_Qlt in H. lra. }
  rewrite qn_S. assert (0 < (rb - ra) / (qn b - qn a))%Q.
  { apply Qlt_shift_div_l; lra. }
  setoid_replace ((rb - ra) * (qn i + 1 - qn a) / (qn b - qn a))%Q
    with ((rb - ra) * (qn i - qn a) / (qn b - qn a) + (rb - ra) / (qn b - qn a))%Q by (field; lra). lra.
Qed.
(** Blocks recorded at a constant rate: the missing ones get their own time. *)
Theorem reconstruct_regular : forall width l ts g g' t0 p, reconstruct_time width l = Ok ts ->
  good_at l g -> good_at l g' ->
  (forall i t, good_at l i -> recorded width l i t -> (t == t0 + qn i * p)%Q) ->
  forall i, g <= i <= g' -> (nth i ts 0 == t0 + qn i * p)%Q.
Proof.
  intros width l ts g g' t0 p E G G' REG i (L & L').
  destruct (Nat.eq_dec i g') as [->|N].
  - destruct (recorded_ex width l g') as (r & R); [destruct G'; auto|].
    assert (X : (nth g' ts 0 == r)%Q).
    { destruct (reconstruct_nth _ _ _ E) as (_ & _ & H). destruct G' as (LG & GG).
      rewrite (proj1 (H g' LG)) by (split; assumption). now apply starts_recorded. }
    rewrite X. now apply REG.
  - destruct (reconstruct_step width l ts g g' i E G G' L ltac:(lia)) as (a & b & ra & rb & A & B & GA & GB & RA & RB & X & _).
    rewrite X, (REG a ra GA RA), (REG b rb GB RB).
    assert (D : (0 < qn b - qn a)%Q).
    { unfold qn. assert (Z.of_nat a < Z.of_nat b)%Z by lia. rewrite Zlt_Qlt in H. lra. }
    field. lra.
Qed.
(** Nothing is ever flagged. *)
Theorem flag_nothing : forall A (nan : A) mask data,
  sh (flag_bad nan mask data) = sh data /\ forall idx, get (flag_bad nan mask data) idx = get data idx.
Proof.
  intros A nan [m|] data; [|split; reflexivity]. unfold flag_bad. destruct (forallb negb m) eqn:F; [|split; reflexivity].
  split; [reflexivity|]. intros idx. cbn [get].
  destruct (nth (hd 0 idx) m false) eqn:N; [|reflexivity]. exfalso.
  destruct (le_lt_dec (length m) (hd 0 idx)) as [L|L]; [rewrite nth_overflow in N by exact L; discriminate|].
  rewrite forallb_forall in F. specialize (F true). rewrite <- N in F at 1. specialize (F (nth_In m false L)). discriminate.
Qed.

(** ** Bounds *)
Definition nondecreasing (l : list Q) : Prop := forall i j, i < j -> j < length l -> (nth i l 0 <= nth j l 0)%Q.
Theorem time_bounds : forall A (f : file A), well_formed f -> (0 < f_dt f)%Q -> nondecreasing (f_starts f) ->
  exists a b, time_min f = Ok a /\ time_max f = Ok b /\
    (a == sample_time (nth 0 (f_starts f) 0) (f_dt f) 0)%Q /\
    (b - f_dt f == sample_time (nth (length (f_starts f) - 1) (f_starts f) 0) (f_dt f) (f_nt f - 1))%Q /\
    forall s c, s < length (f_starts f) -> c < f_nt f ->
      (a <= sample_time (nth s (f_starts f) 0) (f_dt f) c)%Q /\ (sample_time (nth s (f_starts f) 0) (f_dt f) c <= b - f_dt f)%Q.
Proof.
  intros A f (N & _ & SN & _) D ND. unfold time_min, time_max. remember (f_starts f) as l eqn:EL. destruct l as [|x r]; [congruence|].
  do 2 eexists. split; [reflexivity|]. split; [reflexivity|].
  assert (LA : last (x :: r) 0%Q = nth (length (x :: r) - 1) (x :: r) 0%Q).
  { clear. generalize (x :: r). intros l. induction l as [|y l IH]; [reflexivity|]. destruct l as [|z l]; [reflexivity|].
    change (last (y :: z :: l) 0%Q) with (last (z :: l) 0%Q). rewrite IH. cbn [length]. now replace (S (S (length l)) - 1) with (S (S (length l) - 1)) by lia. }
  rewrite LA. set (m := length (x :: r) - 1). assert (M : m < length (x :: r)) by (unfold m; cbn; lia).
  assert (Q1 : (qn (f_nt f) == qn (f_nt f - 1) + 1)%Q).
  { rewrite <- qn_S. replace (S (f_nt f - 1)) with (f_nt f) by lia. reflexivity. }
  unfold sample_time. split; [unfold qn; cbn [nth]; change (inject_Z (Z.of_nat 0)) with 0%Q; lra|].
  split; [rewrite Q1; lra|]. intros s c S1 C.
  assert (X : (nth 0 (x :: r) 0 <= nth s (x :: r) 0)%Q).
  { destruct s; [apply Qle_refl|]. apply ND; [lia|exact S1]. }
  assert (Y : (nth s (x :: r) 0 <= nth m (x :: r) 0)%Q).
  { destruct (Nat.eq_dec s m) as [->|]; [apply Qle_refl|]. apply ND; [unfold m in *; lia|exact M]. }
  assert (C0 : (0 <= qn c)%Q) by (unfold qn; change 0%Q with (inject_Z 0); rewrite <- Zle_Qle; lia).
  assert (C1 : (qn c <= qn (f_nt f - 1))%Q) by (unfold qn; rewrite <- Zle_Qle; lia).
  assert (0 <= qn c * f_dt f)%Q by (apply Qmult_le_0_compat; lra).
  assert (qn c * f_dt f <= qn (f_nt f - 1) * f_dt f)%Q by (apply Qmult_le_compat_r; lra).
  change (nth 0 (x :: r) 0%Q) with x in X. rewrite Q1. split; lra.
Qed.

Lemma qmin_spec : forall l m, qmin_list l = Ok m -> In m l /\ forall x, In x l -> (m <= x)%Q.
Proof.
  intros [|x l] m; [discriminate|]. cbn [qmin_list]. intros E. injection E as <-. revert x.
  induction l as [|y l IH]; intros x; cbn [fold_left].
  - split; [now left|]. intros z [<-|[]]. apply Qle_refl.
  - destruct (Qle_bool x y) eqn:C.
    + apply Qle_bool_iff in C. destruct (IH x) as (I & H). split; [destruct I; [now left|right; now right]|].
      intros z [<-|[<-|Z1]]; [apply H; now left| |apply H; now right].
      eapply Qle_trans; [apply H; now left|exact C].
    + assert (D : (y < x)%Q) by (apply Qnot_le_lt; intros X; apply Qle_bool_iff in X; congruence).
      destruct (IH y) as (I & H). split; [right; exact I|].
      intros z [<-|Z1]; [|now apply H]. eapply Qle_trans; [apply H; now left|]. now apply Qlt_le_weak.
Qed.
Lemma qmax_spec : forall l m, qmax_list l = Ok m -> In m l /\ forall x, In x l -> (x <= m)%Q.
Proof.
  intros [|x l] m; [discriminate|]. cbn [qmax_list]. intros E. injection E as <-. revert x.
  induction l as [|y l IH]; intros x; cbn [fold_left].
  - split; [now left|]. intros z [<-|[]]. apply Qle_refl.
  - destruct (Qle_bool y x) eqn:C.
    + apply Qle_bool_iff in C. destruct (IH x) as (I & H). split; [destruct I; [now left|right; now right]|].
      intros z [<-|[<-|Z1]]; [apply H; now left| |apply H; now right].
      eapply Qle_trans; [exact C|apply H; now left].
    + assert (D : (x < y)%Q) by (apply Qnot_le_lt; intros X; apply Qle_bool_iff in X; congruence).
      destruct (IH y) as (I & H). split; [right; exact I|].
      intros z [<-|Z1]; [|now apply H]. eapply Qle_trans; [|apply H; now left]. now apply Qlt_le_weak.
Qed.
(** Within each beam, sub-bands are in increasing order. *)
Definition ordered_bands (beams : list Z) (subbands : list Q) : Prop :=
  forall i j b, i <= j -> nth_error beams i = Some b -> nth_error beams j = Some b -> (nth i subbands 0 <= nth j subbands 0)%Q.
(** Frequency of channel [c] of sub-band [s] (compute_spectra_frequencies, C37). *)
Definition channel_frequency {A} (f : file A) (s c : nat) : Q :=
  (nth s (f_subbands f) 0 + (qn c - qn (f_nc f) / 2) * f_df f)%Q.
Theorem frequency_bounds : forall A (f : file A) width, well_formed f -> (0 < f_df f)%Q -> f_beams f <> [] ->
  ordered_bands (f_beams f) (f_subbands f) -> (qn (f_nc f) * f_df f == width)%Q ->
  exists a b, frequency_min f = Ok a /\ frequency_max width f = Ok b /\
    (exists s, s < length (f_beams f) /\ (channel_frequency f s 0 == a - width / 2)%Q) /\
    (exists s, s < length (f_beams f) /\ (channel_frequency f s (f_nc f - 1) == b - width / 2 - f_df f)%Q) /\
    forall s c, s < length (f_beams f) -> c < f_nc f ->
      (a - width / 2 <= channel_frequency f s c)%Q /\ (channel_frequency f s c <= b - width / 2 - f_df f)%Q.
Proof.
  intros A f width (_ & NC & _ & SB & _) D NB OB W. unfold frequency_min, frequency_max.
  destruct (beam_edges_spec (f_beams f) (f_nc f)) as (_ & K & S1).
  assert (BN : beam_edges (f_beams f) (f_nc f) <> []).
  { destruct (f_beams f) as [|z r] eqn:Z1; [congruence|]. intros X. rewrite X in K. destruct (proj2 (K z)). now left. }
  assert (LOW : forall e, In e (beam_edges (f_beams f) (f_nc f)) -> exists lo hi, first_sub (f_beams f) (fst e) lo /\ last_sub (f_beams f) (fst e) hi /\
            fst (snd e) / f_nc f = lo /\ (snd (snd e) + 1) / f_nc f - 1 = hi).
  { intros (b & (s & t)) I. destruct (S1 _ _ _ I) as (lo & hi & L & H & -> & ->). exists lo, hi. cbn [fst snd].
    split; [exact L|]. split; [exact H|]. rewrite Nat.div_mul by lia. rewrite div_mul_sub1 by lia. lia. }
  destruct (qmin_list _) as [a|e] eqn:QA; [|exfalso; destruct (beam_edges _ _); [congruence|discriminate]].
  destruct (qmax_list _) as [b|e] eqn:QB; [|exfalso; destruct (beam_edges _ _); [congruence|discriminate]].
  cbn [bind]. exists a, (b + width)%Q. split; [reflexivity|]. split; [reflexivity|].
  apply qmin_spec in QA. apply qmax_spec in QB. destruct QA as (IA & HA), QB as (IB & HB).
  assert (BEAM : forall s, s < length (f_beams f) -> (a <= nth s (f_subbands f) 0)%Q /\ (nth s (f_subbands f) 0 <= b)%Q).
  { intros s S2. destruct (nth_error (f_beams f) s) as [z|] eqn:ZE; [|apply nth_error_None in ZE; lia].
    assert (IZ : In z (f_beams f)) by (eapply nth_error_In; exact ZE). apply K in IZ. apply in_map_iff in IZ.
    destruct IZ as (e & EZ & IE). destruct (LOW e IE) as (lo & hi & (L1 & L2) & (H1 & H2) & EL & EH). rewrite EZ in *.
    split.
    - eapply Qle_trans; [apply HA; apply in_map_iff; exists e; split; [reflexivity|exact IE]|]. rewrite EL.
      apply (OB lo s z); auto.
    - eapply Qle_trans; [|apply HB; apply in_map_iff; exists e; split; [reflexivity|exact IE]]. rewrite EH.
      apply (OB s hi z); auto. }
  assert (Q1 : (qn (f_nc f) == qn (f_nc f - 1) + 1)%Q).
  { rewrite <- qn_S. replace (S (f_nc f - 1)) with (f_nc f) by lia. reflexivity. }
  assert (QH : forall c, ((qn c - qn (f_nc f) / 2) * f_df f == qn c * f_df f - width / 2)%Q).
  { intros c. rewrite <- W. field. }
  unfold channel_frequency. split; [|split].
  - apply in_map_iff in IA. destruct IA as (e & EA & IE). destruct (LOW e IE) as (lo & hi & (L1 & _) & _ & EL & _).
    exists lo. split; [apply nth_error_Some; congruence|]. rewrite QH, <- EL, EA. change (qn 0) with 0%Q. lra.
  - apply in_map_iff in IB. destruct IB as (e & EB & IE). destruct (LOW e IE) as (lo & hi & _ & (H1 & _) & _ & EH).
    exists hi. split; [apply nth_error_Some; congruence|]. rewrite QH, <- EH, EB.
    assert (qn (f_nc f - 1) * f_df f == width - f_df f)%Q by (rewrite <- W, Q1; ring). lra.
  - intros s c S2 C. destruct (BEAM s S2) as (X & Y). rewrite QH.
    assert (C0 : (0 <= qn c)%Q) by (unfold qn; change 0%Q with (inject_Z 0); rewrite <- Zle_Qle; lia).
    assert (C1 : (qn c <= qn (f_nc f - 1))%Q) by (unfold qn; rewrite <- Zle_Qle; lia).
    assert (0 <= qn c * f_df f)%Q by (apply Qmult_le_0_compat; lra).
    assert (qn c * f_df f <= qn (f_nc f - 1) * f_df f)%Q by (apply Qmult_le_compat_r; lra).
    assert (qn (f_nc f - 1) * f_df f == width - f_df f)%Q by (rewrite <- W, Q1; ring). split; lra.
Qed.
