(** [flatten_subband]. *)
From Coq Require Import List Arith ZArith QArith Lqa Lia Bool Sorted Permutation.
From Verif Require Import Base M_Slots M_Nd P_Nd M_Rebin P_Rebin M_TFArray P_TFArray.
Import ListNotations.
Open Scope nat_scope.

(** ** The computation, in terms of the samples *)

(** Samples of channel [f] and polarisation [p] along time. *)
Definition column (data : nd sample) (nt f : nat) (p : list nat) : list sample :=
  map (fun t => get data (t :: f :: p)) (seq 0 nt).

Section Profile.
  Context (n : nat) (prof : nat -> sample).
  Definition ylow : sample := nanmedian (map prof (seq 0 (n / 2))).
  Definition yhigh : sample := nanmedian (map prof (seq ((n + 1) / 2) (n - (n + 1) / 2))).
  Definition line (x : nat) : sample :=
    sop Qplus (sop Qmult (Some (qn x - qn (n / 2) / 2)%Q)
      (sop (fun d e => d / e)%Q (sop Qminus yhigh ylow)
           (Some (qn n - qn (n / 2) / 2 - qn (n / 2) / 2)%Q))) ylow.
  Definition normal (x : nat) : sample := sdiv (line x) (nanmedian (map line (seq 0 n))).
End Profile.

Lemma map_seq_shift : forall A (f : nat -> A) i k, map (fun j => f (i + j)) (seq 0 k) = map f (seq i k).
Proof.
  intros A f i k. revert i. induction k as [|k IH]; intros i; [reflexivity|]. cbn [seq map].
  rewrite Nat.add_0_r. f_equal. rewrite <- (IH (S i)). rewrite <- seq_shift, map_map.
  apply map_ext. intros j. f_equal. lia.
Qed.

Theorem flatten_unfold : forall data n nt m pol, 0 < n -> sh data = nt :: m * n :: pol ->
  exists r, flatten_subband data n = Ok r /\ sh r = sh data /\
    forall t s c p, t < nt -> s < m -> c < n -> inside pol p ->
      get r (t :: (s * n + c) :: p) =
      sdiv (get data (t :: (s * n + c) :: p))
           (normal n (fun x => nanmedian (column data nt (s * n + x) p)) c).
Proof.
  intros data n nt m pol N E. unfold flatten_subband. rewrite E.
  destruct (Nat.eqb_spec n 0); [lia|]. rewrite Nat.mod_mul by lia. cbn [Nat.eqb negb].
  rewrite Nat.div_mul by lia.
  set (profile := reduce nanmedian 0 data).
  assert (PS : sh profile = m * n :: pol) by (unfold profile, reduce; cbn [sh]; now rewrite E).
  destruct (reshape_split _ profile [] pol m n PS) as (msp & M1 & M2 & M3). cbn [app] in M1, M2, M3.
  cbn [app]. rewrite M1. cbn [bind].
  set (y1 := reduce nanmedian 1 (cut1 0 (n / 2) msp)).
  set (y2 := reduce nanmedian 1 (cut1 ((n + 1) / 2) n msp)).
  assert (YS : sh y1 = m :: pol) by (unfold y1, reduce, cut1; cbn [sh]; now rewrite M2).
  set (slope := mkNd (sh y1) _). set (linear := mkNd (n :: sh y1) _).
  set (mean := reduce nanmedian 0 linear). set (norm := mkNd (sh linear) _). set (swapped := mkNd _ _).
  assert (SS : sh swapped = m :: n :: pol) by (unfold swapped, norm, linear; cbn [sh]; now rewrite YS).
  destruct (reshape_join _ swapped [] pol m n SS) as (nrm & R1 & R2 & R3). cbn [app] in R1, R2, R3.
  rewrite R1. cbn [bind]. eexists. split; [reflexivity|]. split; [cbn [sh]; congruence|].
  intros t s c p T S0 C P. cbn [get tl]. f_equal.
  specialize (R3 [] s c p). cbn [app] in R3. rewrite R3; auto; [|constructor].
  unfold swapped, norm. cbn [get tl].
  assert (MP : forall x, x < n -> get msp (s :: x :: p) = nanmedian (column data nt (s * n + x) p)).
  { intros x X. specialize (M3 [] s x p). cbn [app] in M3. rewrite M3; auto; [|constructor].
    unfold profile, reduce. cbn [get firstn skipn app]. rewrite E. reflexivity. }
  set (prof := fun x => nanmedian (column data nt (s * n + x) p)) in *.
  assert (H2 : n / 2 <= n) by (apply Nat.div_le_upper_bound; lia).
  assert (U2 : (n + 1) / 2 <= n) by (apply Nat.div_le_upper_bound; lia).
  assert (Y1 : get y1 (s :: p) = ylow n prof).
  { unfold y1, reduce, cut1, ylow. cbn [sh get firstn skipn app]. rewrite M2. cbn [nth firstn skipn app].
    rewrite Nat.min_l by exact H2. rewrite Nat.sub_0_r. f_equal. apply map_ext_in. intros x X. apply in_seq in X.
    apply MP. lia. }
  assert (Y2 : get y2 (s :: p) = yhigh n prof).
  { unfold y2, reduce, cut1, yhigh. cbn [sh get firstn skipn app]. rewrite M2. cbn [nth firstn skipn app].
    rewrite Nat.min_id. f_equal. rewrite <- (map_seq_shift _ prof ((n + 1) / 2)). apply map_ext_in. intros x X. apply in_seq in X.
    apply MP. lia. }
  assert (LN : forall x, get linear (x :: s :: p) = line n prof x).
  { intros x. unfold linear, slope. cbn [get]. rewrite Y1, Y2. reflexivity. }
  unfold normal. rewrite LN. f_equal. unfold mean, reduce. cbn [get firstn skipn app].
  assert (LS : nth 0 (sh linear) 0 = n) by reflexivity. rewrite LS. f_equal.
  apply map_ext. intros x. apply LN.
Qed.

(** ** What is refused *)
Theorem flatten_refused : forall data n,
  (length (sh data) < 2 -> flatten_subband data n = Err EIndexError) /\
  (forall nt nf pol, sh data = nt :: nf :: pol -> 0 < n -> nf mod n <> 0 -> flatten_subband data n = Err EValueError).
Proof.
  intros data n. unfold flatten_subband. split.
  - intros L. destruct (sh data) as [|a [|b t]]; cbn [length] in L; try lia; reflexivity.
  - intros nt nf pol E N M. rewrite E. destruct (Nat.eqb_spec n 0); [lia|].
    destruct (Nat.eqb_spec (nf mod n) 0); [contradiction|reflexivity].
Qed.

(** ** A correction for each channel, which depends on its sub-band only *)

(** [y] is [x / g]. *)
Definition quotient (x g y : sample) : Prop :=
  match x, g with
  | Some a, Some b => if Qeq_bool b 0 then y = None else exists q, y = Some q /\ (q * b == a)%Q
  | _, _ => y = None
  end.
Lemma sdiv_quotient : forall x g, quotient x g (sdiv x g).
Proof.
  intros [a|] [b|]; cbn; auto. destruct (Qeq_bool b 0) eqn:Z; [reflexivity|].
  eexists. split; [reflexivity|]. apply Qeq_bool_neq in Z. field. exact Z.
Qed.

Theorem flatten_factor : forall data n nt m pol r, 0 < n -> sh data = nt :: m * n :: pol ->
  flatten_subband data n = Ok r ->
  sh r = sh data /\
  exists g : nat -> list nat -> sample, forall t f p, inside (sh data) (t :: f :: p) ->
    quotient (get data (t :: f :: p)) (g f p) (get r (t :: f :: p)).
Proof.
  intros data n nt m pol r N E H. destruct (flatten_unfold data n nt m pol N E) as (r' & R1 & R2 & R3).
  rewrite H in R1. injection R1 as <-. split; [exact R2|].
  exists (fun f p => normal n (fun x => nanmedian (column data nt (f / n * n + x) p)) (f mod n)).
  intros t f p I. rewrite E in I. inversion I as [|a b l1 l2 T I']; subst. inversion I' as [|a b l3 l4 F P]; subst.
  pose proof (Nat.div_mod f n ltac:(lia)) as DM. pose proof (Nat.mod_upper_bound f n ltac:(lia)) as MU.
  assert (S0 : f / n < m) by (apply Nat.div_lt_upper_bound; lia).
  specialize (R3 t (f / n) (f mod n) p T S0 MU P).
  replace (f / n * n + f mod n) with f in R3 by lia. rewrite R3. apply sdiv_quotient.
Qed.

Lemma line_ext : forall n f g, (forall x, x < n -> f x = g x) -> forall x, line n f x = line n g x.
Proof.
  intros n f g H x. unfold line.
  assert (A : ylow n f = ylow n g).
  { unfold ylow. f_equal. apply map_ext_in. intros y Y. apply in_seq in Y. apply H.
    pose proof (Nat.div_le_upper_bound n 2 n). lia. }
  assert (B : yhigh n f = yhigh n g).
  { unfold yhigh. f_equal. apply map_ext_in. intros y Y. apply in_seq in Y. apply H. lia. }
  now rewrite A, B.
Qed.
Lemma normal_ext : forall n f g, (forall x, x < n -> f x = g x) -> forall c, normal n f c = normal n g c.
Proof.
  intros n f g H c. unfold normal. rewrite (line_ext n f g H c). f_equal. f_equal.
  apply map_ext. intros x. now apply line_ext.
Qed.

Theorem flatten_local : forall data data' n nt m pol r r' s p, 0 < n ->
  sh data = nt :: m * n :: pol -> sh data' = nt :: m * n :: pol ->
  flatten_subband data n = Ok r -> flatten_subband data' n = Ok r' -> s < m -> inside pol p ->
  (forall t c, t < nt -> c < n -> get data (t :: (s * n + c) :: p) = get data' (t :: (s * n + c) :: p)) ->
  forall t c, t < nt -> c < n -> get r (t :: (s * n + c) :: p) = get r' (t :: (s * n + c) :: p).
Proof.
  intros data data' n nt m pol r r' s p N E E' H H' S0 P A t c T C.
  destruct (flatten_unfold data n nt m pol N E) as (r1 & R1 & _ & R3).
  destruct (flatten_unfold data' n nt m pol N E') as (r2 & Q1 & _ & Q3).
  rewrite H in R1. injection R1 as <-. rewrite H' in Q1. injection Q1 as <-.
  rewrite R3, Q3 by assumption. rewrite A by assumption. f_equal. apply normal_ext.
  intros x X. f_equal. unfold column. apply map_ext_in. intros t' T'. apply in_seq in T'. apply A; lia.
Qed.

(** ** One channel per sub-band: everything is lost *)
Theorem flatten_single : forall data nt m pol r t s p, sh data = nt :: m * 1 :: pol ->
  flatten_subband data 1 = Ok r -> t < nt -> s < m -> inside pol p -> get r (t :: s :: p) = None.
Proof.
  intros data nt m pol r t s p E H T S0 P.
  destruct (flatten_unfold data 1 nt m pol ltac:(lia) E) as (r1 & R1 & _ & R3).
  rewrite H in R1. injection R1 as <-. specialize (R3 t s 0 p T S0 ltac:(lia) P).
  replace (s * 1 + 0) with s in R3 by lia. rewrite R3. cbn. now destruct (get data (t :: s :: p)).
Qed.

(** ** Medians of affine sequences *)
Lemma filter_map_len : forall A B (p : B -> bool) (f : A -> B) l,
  length (filter p (map f l)) = length (filter (fun x => p (f x)) l).
Proof. induction l as [|x l IH]; [reflexivity|]. cbn [map filter]. destruct (p (f x)); cbn [length]; congruence. Qed.
Lemma filter_length_le : forall A (p : A -> bool) l, length (filter p l) <= length l.
Proof. induction l as [|x l IH]; cbn [filter length]; [lia|]. destruct (p x); cbn [length]; lia. Qed.
Lemma forallb_filter_id : forall A (p : A -> bool) l, forallb p l = true -> filter p l = l.
Proof.
  induction l as [|x l IH]; cbn [filter forallb]; [reflexivity|]. intros H. apply andb_true_iff in H.
  destruct H as [-> H]. f_equal. now apply IH.
Qed.
Lemma filter_seq_le : forall p i k j, (forall x, p x = true -> x < i + j) -> length (filter p (seq i k)) <= j.
Proof.
  intros p i k j H. destruct (Nat.le_gt_cases k j) as [L|L].
  - rewrite (filter_length_le _ p (seq i k)), seq_length. exact L.
  - replace k with (j + (k - j)) by lia. rewrite seq_app, filter_app, app_length.
    assert (Z : filter p (seq (i + j) (k - j)) = []).
    { destruct (filter p (seq (i + j) (k - j))) as [|y t] eqn:F; [reflexivity|].
      assert (I : In y (filter p (seq (i + j) (k - j)))) by (rewrite F; now left).
      apply filter_In in I. destruct I as [I Y]. apply in_seq in I. apply H in Y. lia. }
    rewrite Z. pose proof (filter_length_le _ p (seq i j)) as Q. rewrite seq_length in Q. cbn [length]. lia.
Qed.
Lemma filter_seq_ge : forall p i k j, j <= k -> (forall x, i <= x < i + j -> p x = true) -> j <= length (filter p (seq i k)).
Proof.
  intros p i k j L H. replace k with (j + (k - j)) by lia. rewrite seq_app, filter_app, app_length.
  assert (Z : filter p (seq i j) = seq i j).
  { apply forallb_filter_id. apply forallb_forall. intros x X. apply in_seq in X. apply H. lia. }
  rewrite Z, seq_length. lia.
Qed.
Lemma filter_seq_le' : forall p i k j, (forall x, i <= x < i + k -> p x = true -> i + (k - j) <= x) -> length (filter p (seq i k)) <= j.
Proof.
  intros p i k j H. destruct (Nat.le_gt_cases k j) as [L|L].
  - rewrite (filter_length_le _ p (seq i k)), seq_length. exact L.
  - replace (seq i k) with (seq i (k - j) ++ seq (i + (k - j)) j) by (rewrite <- seq_app; f_equal; lia).
    rewrite filter_app, app_length.
    assert (Z : filter p (seq i (k - j)) = []).
    { destruct (filter p (seq i (k - j))) as [|y t] eqn:F; [reflexivity|].
      assert (I : In y (filter p (seq i (k - j)))) by (rewrite F; now left).
      apply filter_In in I. destruct I as [I Y]. apply in_seq in I. apply H in Y; lia. }
    rewrite Z. pose proof (filter_length_le _ p (seq (i + (k - j)) j)) as Q. rewrite seq_length in Q. cbn [length]. lia.
Qed.
Lemma filter_seq_ge' : forall p i k j, j <= k -> (forall x, i + (k - j) <= x < i + k -> p x = true) -> j <= length (filter p (seq i k)).
Proof.
  intros p i k j L H.
  replace (seq i k) with (seq i (k - j) ++ seq (i + (k - j)) j) by (rewrite <- seq_app; f_equal; lia).
  rewrite filter_app, app_length.
  assert (Z : filter p (seq (i + (k - j)) j) = seq (i + (k - j)) j).
  { apply forallb_filter_id. apply forallb_forall. intros x X. apply in_seq in X. apply H. lia. }
  rewrite Z, seq_length. lia.
Qed.

Definition affine (a b : Q) (i k : nat) (f : nat -> sample) : Prop :=
  forall x, i <= x < i + k -> exists q, f x = Some q /\ (q == a + b * qn x)%Q.
Lemma qn_le : forall x y, x <= y -> (qn x <= qn y)%Q.
Proof. intros. unfold qn. rewrite <- Zle_Qle. lia. Qed.
Lemma qn_lt : forall x y, x < y -> (qn x < qn y)%Q.
Proof. intros. unfold qn. rewrite <- Zlt_Qlt. lia. Qed.

Lemma count_affine : forall a b i k f, affine a b i k f -> count (map f (seq i k)) = k.
Proof.
  intros a b i k f. revert i. induction k as [|k IH]; intros i H; [reflexivity|].
  cbn [seq map]. destruct (H i ltac:(lia)) as (q & -> & _). cbn [count].
  rewrite (IH (S i)); [lia|]. intros x X. apply H. lia.
Qed.

Lemma affine_rank_up : forall a b i k f j q, affine a b i k f -> (0 <= b)%Q -> j < k -> f (i + j) = Some q ->
  ranked (map f (seq i k)) j q.
Proof.
  intros a b i k f j q A B J Q. destruct (A (i + j) ltac:(lia)) as (q' & Q' & E). rewrite Q in Q'. injection Q' as <-.
  split; [|split].
  - apply in_map_iff. exists (i + j). split; [exact Q|]. apply in_seq. lia.
  - rewrite filter_map_len.
    rewrite (filter_ext_in (fun x => below q (f x)) (fun x => below q (f x) && (x <? i + j))).
    + apply filter_seq_le. intros x X. apply andb_true_iff in X. destruct X as [_ X]. now apply Nat.ltb_lt.
    + intros x X. apply in_seq in X. destruct (A x ltac:(lia)) as (v & V & EV). rewrite V. cbn [below].
      destruct (Nat.ltb_spec x (i + j)); [now rewrite andb_true_r|]. rewrite andb_false_r.
      assert (W : Qle_bool q v = true); [|now rewrite W]. apply Qle_bool_iff. pose proof (qn_le (i + j) x ltac:(lia)). nra.
  - rewrite filter_map_len. apply filter_seq_ge; [lia|]. intros x X.
    destruct (A x ltac:(lia)) as (v & V & EV). rewrite V. cbn [upto]. apply Qle_bool_iff.
    pose proof (qn_le x (i + j) ltac:(lia)). nra.
Qed.
Lemma affine_rank_down : forall a b i k f j q, affine a b i k f -> (b <= 0)%Q -> j < k -> f (i + (k - 1 - j)) = Some q ->
  ranked (map f (seq i k)) j q.
Proof.
  intros a b i k f j q A B J Q. destruct (A (i + (k - 1 - j)) ltac:(lia)) as (q' & Q' & E). rewrite Q in Q'. injection Q' as <-.
  split; [|split].
  - apply in_map_iff. exists (i + (k - 1 - j)). split; [exact Q|]. apply in_seq. lia.
  - rewrite filter_map_len. apply filter_seq_le'. intros x X.
    destruct (A x ltac:(lia)) as (v & V & EV). rewrite V. cbn [below]. intros W.
    destruct (Nat.le_gt_cases (i + (k - j)) x) as [|L]; [assumption|]. exfalso.
    apply negb_true_iff in W. assert (W' : Qle_bool q v = true); [|congruence]. apply Qle_bool_iff.
    pose proof (qn_le x (i + (k - 1 - j)) ltac:(lia)). nra.
  - rewrite filter_map_len. apply filter_seq_ge'; [lia|]. intros x X.
    destruct (A x ltac:(lia)) as (v & V & EV). rewrite V. cbn [upto]. apply Qle_bool_iff.
    pose proof (qn_le (i + (k - 1 - j)) x ltac:(lia)). nra.
Qed.

Lemma median_affine : forall a b i k f, affine a b i k f -> 0 < k ->
  exists q, nanmedian (map f (seq i k)) = Some q /\ (q == a + b * (qn i + (qn k - 1) / 2))%Q.
Proof.
  intros a b i k f A K. pose proof (nanmedian_spec (map f (seq i k))) as M.
  pose proof (count_affine a b i k f A) as CN.
  set (lo := (k - 1) / 2). set (hi := k / 2).
  assert (HL : lo + hi = k - 1).
  { unfold lo, hi. pose proof (Nat.div_mod (k - 1) 2). pose proof (Nat.mod_upper_bound (k - 1) 2).
    pose proof (Nat.div_mod k 2). pose proof (Nat.mod_upper_bound k 2). lia. }
  assert (HH : lo < k /\ hi < k) by lia.
  destruct (A (i + lo) ltac:(lia)) as (u & U & EU). destruct (A (i + hi) ltac:(lia)) as (v & V & EV).
  destruct (nanmedian (map f (seq i k))) as [q|].
  - exists q. split; [reflexivity|]. cbn [median_of] in M. rewrite CN in M. destruct M as (c & d & C & D & E).
    fold lo in C. fold hi in D.
    assert (S0 : (u + v == c + d)%Q).
    { destruct (Qlt_le_dec b 0) as [B|B].
      - assert (RC := affine_rank_down a b i k f lo v A ltac:(lra) ltac:(lia)).
        replace (k - 1 - lo) with hi in RC by lia. specialize (RC V).
        assert (RD := affine_rank_down a b i k f hi u A ltac:(lra) ltac:(lia)).
        replace (k - 1 - hi) with lo in RD by lia. specialize (RD U).
        pose proof (ranked_unique _ _ _ _ C RC). pose proof (ranked_unique _ _ _ _ D RD). lra.
      - pose proof (ranked_unique _ _ _ _ C (affine_rank_up a b i k f lo u A B ltac:(lia) U)).
        pose proof (ranked_unique _ _ _ _ D (affine_rank_up a b i k f hi v A B ltac:(lia) V)). lra. }
    assert (QK : (qn k == qn lo + qn hi + 1)%Q).
    { rewrite <- qn_add, <- qn_S. replace (S (lo + hi)) with k by lia. reflexivity. }
    rewrite qn_add in EU, EV. rewrite QK. assert (Q2 : (2 * q == u + v)%Q) by (rewrite S0; exact E). assert (QQ : (q == (2 * q) / 2)%Q) by field. rewrite QQ, Q2, EU, EV. field.
  - exfalso. cbn [median_of] in M. specialize (M (Some u)). assert (Some u = None); [|discriminate].
    apply M. rewrite <- U. apply in_map. apply in_seq. lia.
Qed.

(** ** Sub-bands with an affine median profile *)
Lemma affine_line : forall n prof a b, 2 <= n -> affine a b 0 n prof -> affine (a - b / 2)%Q b 0 n (line n prof).
Proof.
  intros n prof a b N A x X.
  pose proof (Nat.div_mod n 2 ltac:(lia)) as D1. pose proof (Nat.mod_upper_bound n 2 ltac:(lia)) as D2.
  pose proof (Nat.div_mod (n + 1) 2 ltac:(lia)) as D3. pose proof (Nat.mod_upper_bound (n + 1) 2 ltac:(lia)) as D4.
  set (h := n / 2) in *. set (u := (n + 1) / 2) in *.
  assert (HU : n = h + u) by lia.
  assert (A1 : affine a b 0 h prof) by (intros y Y; apply A; lia).
  assert (A2 : affine a b u (n - u) prof) by (intros y Y; apply A; lia).
  destruct (median_affine a b 0 h prof A1 ltac:(lia)) as (q1 & Q1 & E1).
  destruct (median_affine a b u (n - u) prof A2 ltac:(lia)) as (q2 & Q2 & E2).
  unfold line, ylow, yhigh. fold h u. rewrite Q1, Q2. cbn [sop]. eexists. split; [reflexivity|].
  change (qn 0) with 0%Q in E1. replace (n - u) with h in E2 by lia.
  assert (QN : (qn n == qn h + qn u)%Q) by (rewrite <- qn_add, <- HU; reflexivity).
  assert (UP : (0 < qn u)%Q) by (change 0%Q with (qn 0); apply qn_lt; lia).
  rewrite E1, E2, QN. field. lra.
Qed.

Theorem flatten_affine : forall data n nt m pol r s p a b, 2 <= n -> sh data = nt :: m * n :: pol ->
  flatten_subband data n = Ok r -> s < m -> inside pol p ->
  (forall c, c < n -> exists q, median_of (column data nt (s * n + c) p) (Some q) /\ (q == a + b * qn c)%Q) ->
  ~ (a + b * (qn n / 2 - 1) == 0)%Q ->
  forall t c v, t < nt -> c < n -> get data (t :: (s * n + c) :: p) = Some v -> ~ (a + b * (qn c - 1 / 2) == 0)%Q ->
  exists w, get r (t :: (s * n + c) :: p) = Some w /\
    (w * (a + b * (qn c - 1 / 2)) == v * (a + b * (qn n / 2 - 1)))%Q.
Proof.
  intros data n nt m pol r s p a b N E H S0 P A Z t c v T C V D.
  destruct (flatten_unfold data n nt m pol ltac:(lia) E) as (r1 & R1 & _ & R3).
  rewrite H in R1. injection R1 as <-. rewrite R3 by assumption. rewrite V.
  set (prof := fun x => nanmedian (column data nt (s * n + x) p)).
  assert (AF : affine a b 0 n prof).
  { intros x X. destruct (A x ltac:(lia)) as (q & M & Q). pose proof (nanmedian_spec (column data nt (s * n + x) p)) as M'.
    pose proof (median_unique _ _ _ M M') as U. unfold prof. destruct (nanmedian _) as [q'|]; [|contradiction].
    exists q'. split; [reflexivity|]. lra. }
  pose proof (affine_line n prof a b N AF) as AL.
  destruct (median_affine _ _ 0 n (line n prof) AL ltac:(lia)) as (mu & MU & EM).
  destruct (AL c ltac:(lia)) as (l & L & EL). unfold normal. rewrite MU, L. cbn [sdiv].
  change (qn 0) with 0%Q in EM.
  assert (M0 : ~ (mu == 0)%Q) by (intros X; apply Z; rewrite EM in X; rewrite <- X; field).
  destruct (Qeq_bool mu 0) eqn:B; [apply Qeq_bool_iff in B; contradiction|].
  assert (L0 : ~ (l == 0)%Q) by (intros X; apply D; rewrite EL in X; rewrite <- X; field).
  assert (Q0 : ~ (l / mu == 0)%Q).
  { intros X. apply L0. assert (l == l / mu * mu)%Q by (field; exact M0). rewrite X in H0. lra. }
  destruct (Qeq_bool (l / mu) 0) eqn:B2; [apply Qeq_bool_iff in B2; contradiction|].
  eexists. split; [reflexivity|].
  assert (E1 : (a + b * (qn c - 1 / 2) == l)%Q) by (rewrite EL; field).
  assert (E2 : (a + b * (qn n / 2 - 1) == mu)%Q) by (rewrite EM; field).
  rewrite E1, E2. field. split; assumption.
Qed.

(** A flat sub-band is unchanged. *)
Theorem flatten_flat : forall data n nt m pol r s p a, 2 <= n -> sh data = nt :: m * n :: pol ->
  flatten_subband data n = Ok r -> s < m -> inside pol p ->
  (forall c, c < n -> exists q, median_of (column data nt (s * n + c) p) (Some q) /\ (q == a)%Q) -> ~ (a == 0)%Q ->
  forall t c v, t < nt -> c < n -> get data (t :: (s * n + c) :: p) = Some v ->
  exists w, get r (t :: (s * n + c) :: p) = Some w /\ (w == v)%Q.
Proof.
  intros data n nt m pol r s p a N E H S0 P A Z t c v T C V.
  destruct (flatten_affine data n nt m pol r s p a 0 N E H S0 P) with (t := t) (c := c) (v := v) as (w & W & EQ); auto.
  - intros x X. destruct (A x X) as (q & M & Q). exists q. split; [exact M|]. rewrite Q. ring.
  - intros X. apply Z. rewrite <- X. ring.
  - intros X. apply Z. rewrite <- X. ring.
  - exists w. split; [exact W|]. assert (E0 : (w * a == v * a)%Q).
    { transitivity (w * (a + 0 * (qn c - 1 / 2)))%Q; [ring|]. rewrite EQ. ring. }
    assert (w == w * a / a)%Q by (field; exact Z). assert (v == v * a / a)%Q by (field; exact Z).
    rewrite H0, E0, <- H1. reflexivity.
Qed.

(** A linear sub-band is not flattened. *)
Definition ramp4 : nd sample := mkNd [1; 4] (fun idx => Some (inject_Z (Z.of_nat (S (nth 1 idx 0))))).
Theorem flatten_ramp : exists r, flatten_subband ramp4 4 = Ok r /\
  map (fun f => option_map Qred (get r [0; f])) [0; 1; 2; 3] = [Some 4; Some (8 # 3); Some (12 # 5); Some (16 # 7)]%Q.
Proof. eexists. split; [reflexivity|]. vm_compute. reflexivity. Qed.
