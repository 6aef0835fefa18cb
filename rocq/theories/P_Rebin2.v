(** Refusals, conservation of the total and composition of rebinnings. *)
From Coq Require Import List Arith ZArith QArith Qround Lqa Lia Bool.
From Verif Require Import Base M_Slots M_Nd P_Nd M_Rebin P_Rebin.
Import ListNotations.
Open Scope nat_scope.

(** The lines of data along an axis. *)
Definition line (data : nd sample) (ip iq : list nat) (j : nat) : sample := get data (ip ++ j :: iq).
(** A line without NaN. *)
Definition complete (f : nat -> sample) (n : nat) : Prop := forall j, j < n -> f j <> None.
(** Total of the first [n] samples of a line. *)
Definition line_total (f : nat -> sample) (n : nat) : Q := total (map f (seq 0 n)).

(** Same sample up to the equality of rationals. *)
Definition same (x y : sample) : Prop :=
  match x, y with Some a, Some b => (a == b)%Q | None, None => True | _, _ => False end.

Theorem rebin_tf_spec : forall data ax k dx nd ax' d', (0 < dx)%Q ->
  rebin_along data ax k dx nd = Ok (ax', d') ->
  exists n b, nth_error (sh data) k = Some n /\ length ax = n /\ width n b dx nd /\
    bins n b (length ax') /\ 0 < length ax' /\
    (forall i, i < length ax' -> mean_of (bin (fun j => nth j ax None) b i) (nth i ax' None)) /\
    sh d' = firstn k (sh data) ++ length ax' :: skipn (S k) (sh data) /\
    (forall ip i iq, inside (firstn k (sh data)) ip -> i < length ax' -> inside (skipn (S k) (sh data)) iq ->
       mean_of (bin (line data ip iq) b i) (line d' ip iq i)).
Proof.
  intros data ax k dx nd ax' d' P H.
  destruct (nth_error (sh data) k) as [n|] eqn:NE; [|unfold rebin_along in H; rewrite NE in H; discriminate].
  assert (LA : length ax = n).
  { unfold rebin_along in H. rewrite NE in H. destruct (Nat.eqb_spec n (length ax)); [congruence|discriminate]. }
  assert (L : (dx <= nd)%Q).
  { unfold rebin_along in H. rewrite NE, LA, Nat.eqb_refl in H. cbn [negb] in H.
    destruct (Qle_bool dx nd) eqn:C; [now apply Qle_bool_iff|discriminate]. }
  assert (N : 0 < n).
  { destruct n as [|n]; [|lia]. exfalso. unfold rebin_along in H. rewrite NE, LA in H. cbn [Nat.eqb negb] in H.
    assert (L' : Qle_bool dx nd = true) by (now apply Qle_bool_iff). rewrite L' in H. cbn [negb] in H.
    destruct (Qeq_bool dx 0); [discriminate|]. destruct (Qfloor (nd / dx) =? 0)%Z; [discriminate|].
    change (Z.of_nat 0) with 0%Z in H. rewrite Zdiv_0_l in H. cbn in H. discriminate. }
  destruct (rebin_along_ok data ax k dx nd n NE LA N P L)
    as (b & m & ax1 & d1 & E & M & B & W & _ & LM & AX & SH & G).
  rewrite H in E. injection E as <- <-. exists n, b. rewrite LM.
  split; [reflexivity|]. split; [exact LA|]. split; [exact W|]. split; [exact B|]. split; [exact M|]. split.
  - intros i I. rewrite (AX i I). apply nanmean_spec.
  - split; [exact SH|]. intros ip i iq Hp I Hq. unfold line. rewrite (G ip i iq Hp I Hq). apply nanmean_spec.
Qed.

Theorem rebin_tf_defined : forall data ax k dx nd, (0 < dx)%Q ->
  ((exists r, rebin_along data ax k dx nd = Ok r) <->
   nth_error (sh data) k = Some (length ax) /\ ax <> [] /\ (dx <= nd)%Q).
Proof.
  intros data ax k dx nd P. split.
  - intros ([ax' d'] & H). destruct (rebin_tf_spec _ _ _ _ _ _ _ P H) as (n & b & NE & LA & _ & B & M & _).
    split; [congruence|]. split.
    + intros ->. cbn in LA. subst n. destruct B as [B0 B]. nia.
    + unfold rebin_along in H. rewrite NE in H. destruct (negb _); [discriminate|].
      destruct (Qle_bool dx nd) eqn:C; [now apply Qle_bool_iff|discriminate].
  - intros (NE & A & L).
    destruct (rebin_along_ok data ax k dx nd (length ax) NE eq_refl) as (b & m & ax1 & d1 & E & _); auto.
    + destruct ax; [congruence|cbn; lia].
    + eauto.
Qed.

Theorem rebin_tf_errors : forall data ax k dx nd, (0 < dx)%Q ->
  (nth_error (sh data) k = None -> rebin_along data ax k dx nd = Err EIndexError) /\
  (forall n, nth_error (sh data) k = Some n -> n <> length ax \/ (nd < dx)%Q ->
     rebin_along data ax k dx nd = Err EValueError) /\
  (nth_error (sh data) k = Some 0 -> ax = [] -> (dx <= nd)%Q ->
     rebin_along data ax k dx nd = Err EZeroDivisionError).
Proof.
  intros data ax k dx nd P. unfold rebin_along. repeat split.
  - intros ->. reflexivity.
  - intros n ->  H. destruct (Nat.eqb_spec n (length ax)) as [E|E]; cbn [negb]; [|reflexivity].
    destruct H as [H|H]; [contradiction|]. destruct (Qle_bool dx nd) eqn:C; cbn [negb]; [|reflexivity].
    apply Qle_bool_iff in C. lra.
  - intros -> -> L. cbn [length Nat.eqb negb].
    assert (L' : Qle_bool dx nd = true) by (now apply Qle_bool_iff). rewrite L'. cbn [negb].
    destruct (Qeq_bool dx 0); [reflexivity|]. destruct (Qfloor (nd / dx) =? 0)%Z; [reflexivity|].
    change (Z.of_nat 0) with 0%Z. rewrite Zdiv_0_l. reflexivity.
Qed.

(** ** Totals *)
Lemma total_app : forall l l', (total (l ++ l') == total l + total l')%Q.
Proof.
  induction l as [|[q|] l IH]; intros l'; cbn [app total]; [lra| |apply IH].
  rewrite IH. lra.
Qed.
Lemma count_complete : forall l, (forall x, In x l -> x <> None) -> count l = length l.
Proof.
  induction l as [|[q|] l IH]; intros H; cbn [count length]; [reflexivity| |].
  - f_equal. apply IH. intros x I. apply H. now right.
  - exfalso. apply (H None); [now left|reflexivity].
Qed.
Lemma bin_length : forall A (f : nat -> A) b i, length (bin f b i) = b.
Proof. intros. unfold bin. now rewrite map_length, seq_length. Qed.
Lemma seq_shift_by : forall n s k, seq (k + s) n = map (fun j => k + j) (seq s n).
Proof.
  induction n as [|n IH]; intros s k; cbn [seq map]; [reflexivity|].
  f_equal. rewrite <- IH. now rewrite Nat.add_succ_r.
Qed.
Lemma bin_seq : forall A (f : nat -> A) b i, bin f b i = map f (seq (i * b) b).
Proof.
  intros. unfold bin. replace (seq (i * b) b) with (seq (i * b + 0) b) by (now rewrite Nat.add_0_r). rewrite seq_shift_by, map_map. reflexivity.
Qed.
Lemma seq_split : forall m b, seq 0 (S m * b) = seq 0 (m * b) ++ seq (m * b) b.
Proof. intros. replace (S m * b) with (m * b + b) by lia. apply seq_app. Qed.

Lemma bin_mean : forall f b i n, complete f n -> 0 < b -> i * b + b <= n ->
  exists q, nanmean (bin f b i) = Some q /\ (q * inject_Z (Z.of_nat b) == total (bin f b i))%Q.
Proof.
  intros f b i n C B L. pose proof (nanmean_spec (bin f b i)) as M.
  assert (K : count (bin f b i) = b).
  { rewrite count_complete, bin_length; [reflexivity|]. intros x I. unfold bin in I.
    apply in_map_iff in I. destruct I as (j & <- & J). apply in_seq in J. apply C. lia. }
  destruct (nanmean (bin f b i)) as [q|]; cbn [mean_of] in M.
  - exists q. split; [reflexivity|]. rewrite K in M. apply M.
  - exfalso. assert (count (bin f b i) = 0).
    { rewrite count_known. apply known_nil in M. now rewrite M. }
    lia.
Qed.

Lemma total_bins : forall f b m n (g : nat -> sample), complete f n -> 0 < b -> m * b <= n ->
  (forall i, i < m -> g i = nanmean (bin f b i)) ->
  complete g m /\ (line_total g m * inject_Z (Z.of_nat b) == line_total f (m * b))%Q.
Proof.
  intros f b m n g C B. induction m as [|m IH]; intros L G.
  - split; [intros j J; lia|]. cbn. unfold line_total. cbn. lra.
  - destruct IH as [IC IT]; [lia|intros i I; apply G; lia|].
    destruct (bin_mean f b m n C B ltac:(lia)) as (q & E & T).
    split.
    + intros j J. destruct (Nat.eq_dec j m) as [->|D]; [rewrite G, E by lia; discriminate|apply IC; lia].
    + unfold line_total in *. rewrite seq_S, map_app, total_app. cbn [Nat.add map total]. rewrite G, E by lia.
      rewrite seq_split, map_app, total_app, <- IT, <- bin_seq, <- T. cbn [total]. lra.
Qed.

(** Total of the samples of a line covered by the bins. *)
Theorem rebin_tf_total : forall data ax k dx nd ax' d' ip iq n b, (0 < dx)%Q ->
  rebin_along data ax k dx nd = Ok (ax', d') ->
  inside (firstn k (sh data)) ip -> inside (skipn (S k) (sh data)) iq ->
  nth_error (sh data) k = Some n -> complete (line data ip iq) n ->
  width n b dx nd -> bins n b (length ax') ->
  (line_total (line d' ip iq) (length ax') * inject_Z (Z.of_nat b) ==
   line_total (line data ip iq) (length ax' * b))%Q.
Proof.
  intros data ax k dx nd ax' d' ip iq n b P H Hp Hq NE C W B.
  destruct (proj1 (rebin_tf_defined data ax k dx nd P) (ex_intro _ _ H)) as (NE' & A & L).
  assert (LA : length ax = n) by congruence.
  destruct (rebin_along_ok data ax k dx nd n NE LA ltac:(destruct ax; [congruence|cbn in LA; lia]) P L)
    as (b1 & m & ax1 & d1 & E & M & B1 & W1 & F & LM & AX & SH & G).
  rewrite H in E. injection E as <- <-. rewrite LM in *.
  assert (b = b1).
  { assert (Qb : forall x, width n x dx nd -> 0 < x -> x = Nat.min n (Z.to_nat (Qfloor (nd / dx)))).
    { pose proof (floor_bounds dx nd P) as [FL FU]. intros x [[X1 [X2 X3]]|[X1 X2]] X.
      - assert (Z.of_nat x = Qfloor (nd / dx)); [|lia].
        apply Z.le_antisymm.
        + apply Z.lt_succ_r. rewrite Zlt_Qlt. unfold Z.succ. rewrite inject_Z_plus. change (inject_Z 1) with 1%Q.
          apply (Qmult_lt_r _ _ dx P). lra.
        + apply Z.lt_succ_r. rewrite Zlt_Qlt. unfold Z.succ. rewrite inject_Z_plus. change (inject_Z 1) with 1%Q.
          apply (Qmult_lt_r _ _ dx P). lra.
      - subst x. assert (Z.of_nat n <= Qfloor (nd / dx))%Z; [|lia].
        apply Z.lt_succ_r. rewrite Zlt_Qlt. unfold Z.succ. rewrite inject_Z_plus. change (inject_Z 1) with 1%Q.
        apply (Qmult_lt_r _ _ dx P). lra. }
    rewrite (Qb b W) by apply B. rewrite (Qb b1 W1) by apply B1. reflexivity. }
  subst b1.
  refine (proj2 (total_bins (line data ip iq) b m n (line d' ip iq) C _ _ _)); [apply B|apply B|].
  intros i I. unfold line. now apply G.
Qed.

(** ** Exact factors *)
Lemma floor_exact : forall dx nd a, (0 < dx)%Q -> (nd == inject_Z (Z.of_nat a) * dx)%Q ->
  Qfloor (nd / dx) = Z.of_nat a.
Proof.
  intros dx nd a P E. assert (X : (nd / dx == inject_Z (Z.of_nat a))%Q) by (rewrite E; field; lra).
  rewrite X. apply Qfloor_Z.
Qed.

Lemma bins_unique : forall n b m, bins n b m -> m = n / b.
Proof. intros n b m [B L]. apply (Nat.div_unique n b m (n - m * b)); lia. Qed.

Lemma rebin_exact : forall data ax k dx nd n a,
  nth_error (sh data) k = Some n -> length ax = n -> 0 < a -> a <= n -> (0 < dx)%Q ->
  (nd == inject_Z (Z.of_nat a) * dx)%Q ->
  exists ax' d', rebin_along data ax k dx nd = Ok (ax', d') /\
    length ax' = n / a /\
    (forall i, i < n / a -> nth i ax' None = nanmean (bin (fun j => nth j ax None) a i)) /\
    sh d' = firstn k (sh data) ++ n / a :: skipn (S k) (sh data) /\
    (forall ip i iq, inside (firstn k (sh data)) ip -> i < n / a -> inside (skipn (S k) (sh data)) iq ->
       get d' (ip ++ i :: iq) = nanmean (bin (fun j => get data (ip ++ j :: iq)) a i)).
Proof.
  intros data ax k dx nd n a NE LA A L P E.
  pose proof (floor_exact dx nd a P E) as F.
  assert (LE : (dx <= nd)%Q).
  { rewrite E. assert ((1 <= inject_Z (Z.of_nat a))%Q) by (change 1%Q with (inject_Z 1); rewrite <- Zle_Qle; lia).
    setoid_replace dx with (1 * dx)%Q at 1 by ring. apply Qmult_le_compat_r; [assumption|lra]. }
  destruct (rebin_along_ok data ax k dx nd n NE LA ltac:(lia) P LE)
    as (b & m & ax1 & d1 & EQ & M & B & _ & W & LM & AX & SH & G).
  assert (b = a) by (rewrite F in W; destruct W as [[W1 W2]|[W1 W2]]; lia). subst b.
  pose proof (bins_unique _ _ _ B) as ->. exists ax1, d1. auto.
Qed.

Lemma bin_bin : forall f g a b i n, 0 < a -> 0 < b -> complete f n -> i * (a * b) + a * b <= n ->
  (forall j, j < n / a -> g j = nanmean (bin f a j)) ->
  same (nanmean (bin g b i)) (nanmean (bin f (a * b) i)).
Proof.
  intros f g a b i n A B C L G.
  destruct (bin_mean f (a * b) i n C ltac:(nia) L) as (q & EQ & T). rewrite EQ.
  assert (CG : complete g (n / a) /\ forall k, k <= n / a ->
     (line_total g k * inject_Z (Z.of_nat a) == line_total f (k * a))%Q).
  { split.
    - apply (total_bins f a (n / a) n g C A); [|exact G].
      pose proof (Nat.mul_div_le n a ltac:(lia)). lia.
    - intros k K. apply (total_bins f a k n g C A); [|intros; apply G; lia].
      pose proof (Nat.mul_div_le n a ltac:(lia)). nia. }
  destruct CG as [CG TG].
  assert (NB : i * b + b <= n / a).
  { apply Nat.div_le_lower_bound; [lia|]. nia. }
  destruct (bin_mean g b i (n / a) CG B NB) as (p & EP & TP). rewrite EP. cbn [same].
  (* totals of a bin as differences of prefixes *)
  assert (D : forall h w, (line_total h (i * w + w) == line_total h (i * w) + total (bin h w i))%Q).
  { intros h w. unfold line_total. rewrite seq_app, map_app, total_app, bin_seq. reflexivity. }
  pose proof (D g b) as D1. pose proof (D f (a * b)) as D2.
  pose proof (TG (i * b + b) NB) as T1. pose proof (TG (i * b) ltac:(lia)) as T2.
  replace ((i * b + b) * a) with (i * (a * b) + a * b) in T1 by lia.
  replace (i * b * a) with (i * (a * b)) in T2 by lia.
  assert (X : (total (bin g b i) * inject_Z (Z.of_nat a) == total (bin f (a * b) i))%Q).
  { assert (E1 : (total (bin g b i) == line_total g (i * b + b) - line_total g (i * b))%Q) by lra.
    rewrite E1. unfold Qminus. rewrite Qmult_plus_distr_l. rewrite T1, D2.
    setoid_replace (- line_total g (i * b) * inject_Z (Z.of_nat a))%Q with
      (- (line_total g (i * b) * inject_Z (Z.of_nat a)))%Q by ring.
    rewrite T2. ring. }
  rewrite <- TP, <- T in X. rewrite Nat2Z.inj_mul, inject_Z_mult in X.
  pose proof (inj_pos _ A) as PA. pose proof (inj_pos _ B) as PB.
  apply (Qmult_inj_r p q (inject_Z (Z.of_nat a) * inject_Z (Z.of_nat b))%Q).
  - intros Z. apply Qmult_integral in Z. lra.
  - lra.
Qed.

Theorem rebin_tf_twice : forall data ax k dx dx1 dx2 n a b ax1 d1 ax2 d2,
  nth_error (sh data) k = Some n -> length ax = n -> 0 < a -> 0 < b -> a * b <= n -> (0 < dx)%Q ->
  (dx1 == inject_Z (Z.of_nat a) * dx)%Q -> (dx2 == inject_Z (Z.of_nat b) * dx1)%Q ->
  (forall ip iq, inside (firstn k (sh data)) ip -> inside (skipn (S k) (sh data)) iq ->
     complete (line data ip iq) n) -> complete (fun j => nth j ax None) n ->
  rebin_along data ax k dx dx1 = Ok (ax1, d1) ->
  rebin_along d1 ax1 k dx1 dx2 = Ok (ax2, d2) ->
  exists ax3 d3, rebin_along data ax k dx dx2 = Ok (ax3, d3) /\
    length ax2 = length ax3 /\ (forall i, i < length ax3 -> same (nth i ax2 None) (nth i ax3 None)) /\
    sh d2 = sh d3 /\ (forall idx, inside (sh d3) idx -> same (get d2 idx) (get d3 idx)).
Proof.
  intros data ax k dx dx1 dx2 n a b ax1 d1 ax2 d2 NE LA A B AB P E1 E2 CD CA H1 H2.
  destruct (rebin_exact data ax k dx dx1 n a NE LA A ltac:(nia) P E1) as (x1 & y1 & Q1 & L1 & X1 & S1 & G1).
  rewrite H1 in Q1. injection Q1 as <- <-.
  assert (P1 : (0 < dx1)%Q) by (rewrite E1; apply Qmult_lt_0_compat; [now apply inj_pos|exact P]).
  assert (LK : length (firstn k (sh data)) = k).
  { apply firstn_length_le. apply Nat.lt_le_incl. apply nth_error_Some. congruence. }
  assert (F1 : firstn k (sh d1) = firstn k (sh data)).
  { rewrite S1, firstn_app, LK, Nat.sub_diag, firstn_O, app_nil_r. rewrite firstn_firstn, Nat.min_id. reflexivity. }
  assert (K1 : skipn (S k) (sh d1) = skipn (S k) (sh data)).
  { rewrite S1, skipn_app, LK, skipn_all2 by lia. replace (S k - k) with 1 by lia. reflexivity. }
  assert (N1 : nth_error (sh d1) k = Some (n / a)).
  { rewrite S1, nth_error_app2 by lia. rewrite LK, Nat.sub_diag. reflexivity. }
  assert (BA : b <= n / a) by (apply Nat.div_le_lower_bound; lia).
  destruct (rebin_exact d1 ax1 k dx1 dx2 (n / a) b N1 L1 B BA P1 E2) as (x2 & y2 & Q2 & L2 & X2 & S2 & G2).
  rewrite H2 in Q2. injection Q2 as <- <-.
  assert (E3 : (dx2 == inject_Z (Z.of_nat (a * b)) * dx)%Q).
  { rewrite Nat2Z.inj_mul, inject_Z_mult, E2, E1. ring. }
  destruct (rebin_exact data ax k dx dx2 n (a * b) NE LA ltac:(nia) AB P E3) as (ax3 & d3 & Q3 & L3 & X3 & S3 & G3).
  assert (DD : n / a / b = n / (a * b)) by (apply Nat.div_div; lia).
  assert (FIT : forall i, i < n / (a * b) -> i * (a * b) + a * b <= n).
  { intros i I. pose proof (Nat.mul_div_le n (a * b) ltac:(nia)). nia. }
  exists ax3, d3. split; [exact Q3|]. rewrite L2, L3, DD. split; [reflexivity|]. split; [|split].
  - intros i I. rewrite X2, X3 by lia.
    apply (bin_bin (fun j => nth j ax None) (fun j => nth j ax1 None) a b i n A B CA (FIT i I) X1).
  - rewrite S2, S3, F1, K1, DD. reflexivity.
  - intros idx I. rewrite S3 in I. destruct (inside_split _ _ _ _ I) as (ip & i & iq & -> & Ip & Ii & Iq).
    rewrite G2, G3 by (rewrite ?F1, ?K1, ?DD; auto).
    apply (bin_bin (line data ip iq) (line d1 ip iq) a b i n A B (CD ip iq Ip Iq) (FIT i Ii)).
    intros j J. unfold line. now apply G1.
Qed.

(** When the bins cover the axis exactly. *)
Theorem rebin_tf_conserves : forall data ax k dx nd m b,
  nth_error (sh data) k = Some (m * b) -> length ax = m * b -> 0 < b -> 0 < m -> (0 < dx)%Q ->
  (nd == inject_Z (Z.of_nat b) * dx)%Q ->
  exists ax' d', rebin_along data ax k dx nd = Ok (ax', d') /\
    sh d' = firstn k (sh data) ++ m :: skipn (S k) (sh data) /\ length ax' = m /\
    forall ip iq, inside (firstn k (sh data)) ip -> inside (skipn (S k) (sh data)) iq ->
      complete (line data ip iq) (m * b) ->
      (line_total (line d' ip iq) m * inject_Z (Z.of_nat b) == line_total (line data ip iq) (m * b))%Q.
Proof.
  intros data ax k dx nd m b NE LA B M P E.
  destruct (rebin_exact data ax k dx nd (m * b) b NE LA B ltac:(nia) P E) as (ax' & d' & H & L & X & S & G).
  rewrite Nat.div_mul in * by lia. exists ax', d'. split; [exact H|]. split; [exact S|]. split; [exact L|].
  intros ip iq Ip Iq C.
  apply (total_bins (line data ip iq) b m (m * b) (line d' ip iq) C B); [lia|].
  intros i I. unfold line. now apply G.
Qed.

(** With NaN samples the mean of means is not the mean. *)
Definition gappy : nd sample := of_list None [Some 1%Q; None; Some 3%Q; Some 5%Q].
Definition coords (n : nat) : list sample := map (fun i => Some (inject_Z (Z.of_nat i))) (seq 0 n).
Lemma twice_nan :
  exists ax1 d1 ax2 d2 ax3 d3,
    rebin_along gappy (coords 4) 0 1 2 = Ok (ax1, d1) /\ rebin_along d1 ax1 0 2 4 = Ok (ax2, d2) /\
    rebin_along gappy (coords 4) 0 1 4 = Ok (ax3, d3) /\ ~ same (get d2 [0]) (get d3 [0]).
Proof.
  destruct (rebin_along gappy (coords 4) 0 1 2) as [[ax1 d1]|] eqn:E1; [|vm_compute in E1; discriminate].
  assert (A1 : ax1 = [Some (1 # 2)%Q; Some (5 # 2)%Q] /\ sh d1 = [2] /\ get d1 [0] = Some (1 # 1)%Q /\ get d1 [1] = Some (8 # 2)%Q).
  { vm_compute in E1. injection E1 as <- <-. vm_compute. auto. }
  destruct A1 as (-> & S1 & G1 & G2).
  destruct (rebin_exact d1 [Some (1 # 2)%Q; Some (5 # 2)%Q] 0 2 4 2 2) as (ax2 & d2 & E2 & _ & _ & _ & X2);
    [now rewrite S1|reflexivity|lia|lia|lra|reflexivity|].
  destruct (rebin_exact gappy (coords 4) 0 1 4 4 4) as (ax3 & d3 & E3 & _ & _ & _ & X3);
    [reflexivity|reflexivity|lia|lia|lra|reflexivity|].
  exists [Some (1 # 2)%Q; Some (5 # 2)%Q], d1, ax2, d2, ax3, d3.
  split; [reflexivity|]. split; [exact E2|]. split; [exact E3|].
  rewrite S1 in X2. specialize (X2 [] 0 []). cbn [app] in X2. rewrite X2; [|constructor|cbn; lia|constructor].
  specialize (X3 [] 0 []). cbn [app] in X3. rewrite X3; [|constructor|cbn; lia|constructor].
  unfold bin. cbn [seq map Nat.mul Nat.add]. rewrite G1, G2. vm_compute. discriminate.
Qed.
