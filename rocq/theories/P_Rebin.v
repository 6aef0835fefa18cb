(** Specification and proofs for the rebinning. *)
From Coq Require Import List Arith ZArith QArith Qround Lqa Lia Bool Permutation Sorted.
From Verif Require Import Base M_Slots M_Nd P_Nd M_Rebin.
Import ListNotations.
Open Scope nat_scope.

(** ** Specification *)

(** Number and total of the valid samples. *)
Fixpoint count (l : list sample) : nat :=
  match l with [] => 0 | Some _ :: t => S (count t) | None :: t => count t end.
Fixpoint total (l : list sample) : Q :=
  match l with [] => 0%Q | Some q :: t => (q + total t)%Q | None :: t => total t end.

(** [v] is the mean of the valid samples of [l], NaN when there is none. *)
Definition mean_of (l : list sample) (v : sample) : Prop :=
  match v with
  | None => forall x, In x l -> x = None
  | Some q => 0 < count l /\ (q * inject_Z (Z.of_nat (count l)) == total l)%Q
  end.

(** [a] is the valid sample of rank [k]: at most [k] are below it and more than
    [k] at or below it.  [v] is the median: half-way between the samples of the
    two middle ranks (which are the same if their number is odd). *)
Definition below (a : Q) (x : sample) : bool := match x with Some q => negb (Qle_bool a q) | None => false end.
Definition upto (a : Q) (x : sample) : bool := match x with Some q => Qle_bool q a | None => false end.
Definition ranked (l : list sample) (k : nat) (a : Q) : Prop :=
  In (Some a) l /\ length (filter (below a) l) <= k < length (filter (upto a) l).
Definition median_of (l : list sample) (v : sample) : Prop :=
  match v with
  | None => forall x, In x l -> x = None
  | Some q => exists a b, ranked l ((count l - 1) / 2) a /\ ranked l (count l / 2) b /\ (2 * q == a + b)%Q
  end.

(** [m] bins of [b] consecutive samples starting at the first one, leaving out
    less than one bin out of [n] samples. *)
Definition bins (n b m : nat) : Prop := 0 < b /\ m * b <= n < m * b + b.

(** The samples of bin [i] of a line [f] of data. *)
Definition bin {A} (f : nat -> A) (b i : nat) : list A := map (fun j => f (i * b + j)) (seq 0 b).

(** The width of a bin: the requested width counted in samples, at most the axis. *)
Definition width (n b : nat) (dx new_dx : Q) : Prop :=
  (b <= n /\ (inject_Z (Z.of_nat b) * dx <= new_dx < (inject_Z (Z.of_nat b) + 1) * dx)%Q) \/
  (b = n /\ (inject_Z (Z.of_nat n) * dx <= new_dx)%Q).

(** ** Sums *)
Lemma count_known : forall l, count l = length (known l).
Proof. induction l as [|[q|] l IH]; cbn [count known flat_map app length]; auto. Qed.
Lemma total_known : forall l, (total l == qsum (known l))%Q.
Proof.
  induction l as [|[q|] l IH]; cbn [total known flat_map app].
  - reflexivity.
  - change (qsum (q :: flat_map (fun x => match x with Some q => [q] | None => [] end) l)) with (q + qsum (known l))%Q.
    rewrite IH. reflexivity.
  - exact IH.
Qed.

Lemma known_nil : forall l, known l = [] <-> forall x, In x l -> x = None.
Proof.
  induction l as [|[q|] l IH]; cbn [known flat_map app]; split; intros H.
  - intros x [].
  - reflexivity.
  - discriminate.
  - specialize (H (Some q) (or_introl eq_refl)). discriminate.
  - intros x [<-|I]; [reflexivity|]. now apply IH.
  - apply IH. intros x I. apply H. now right.
Qed.

Lemma inj_pos : forall n, 0 < n -> (0 < inject_Z (Z.of_nat n))%Q.
Proof. intros n H. change 0%Q with (inject_Z 0). rewrite <- Zlt_Qlt. lia. Qed.

Lemma nanmean_spec : forall l, mean_of l (nanmean l).
Proof.
  intros l. unfold nanmean. destruct (known l) as [|q t] eqn:E.
  - cbn [mean_of]. now apply known_nil.
  - cbn [mean_of]. rewrite count_known, E. split; [cbn [length]; lia|].
    rewrite total_known, E. set (n := inject_Z (Z.of_nat (length (q :: t)))).
    assert (P : (0 < n)%Q) by (apply inj_pos; cbn [length]; lia).
    field. lra.
Qed.

Lemma mean_of_unique : forall l v w, mean_of l v -> mean_of l w ->
  match v, w with Some a, Some b => (a == b)%Q | None, None => True | _, _ => False end.
Proof.
  assert (N : forall l, (forall x, In x l -> x = None) -> count l = 0).
  { intros l H. rewrite count_known. apply known_nil in H. now rewrite H. }
  intros l [a|] [b|] V W; cbn [mean_of] in *; auto.
  - destruct V as [P V]. destruct W as [_ W]. rewrite <- W in V.
    apply Qmult_inj_r in V; [exact V|]. pose proof (inj_pos _ P). lra.
  - destruct V as [P _]. rewrite (N _ W) in P. lia.
  - destruct W as [P _]. rewrite (N _ V) in P. lia.
Qed.

(** ** Median *)
Lemma insert_q_perm : forall x l, Permutation (insert_q x l) (x :: l).
Proof.
  induction l as [|y l IH]; cbn [insert_q]; [reflexivity|].
  destruct (Qle_bool x y); [reflexivity|]. rewrite IH. apply perm_swap.
Qed.
Lemma sort_q_perm : forall l, Permutation (sort_q l) l.
Proof. induction l as [|x l IH]; cbn; [constructor|]. rewrite insert_q_perm. now constructor. Qed.
Lemma insert_q_sorted : forall x l, StronglySorted Qle l -> StronglySorted Qle (insert_q x l).
Proof.
  induction l as [|y l IH]; intros H; cbn [insert_q]; [now repeat constructor|].
  inversion H as [|y' l' S F]; subst. destruct (Qle_bool x y) eqn:C.
  - apply Qle_bool_iff in C. constructor; [exact H|]. constructor; [exact C|].
    eapply Forall_impl; [|exact F]. cbv beta. intros z Z. lra.
  - assert (C' : (y <= x)%Q). { destruct (Qlt_le_dec x y) as [L|L]; [|exact L].
      assert (Qle_bool x y = true) by (apply Qle_bool_iff; lra). congruence. }
    constructor; [now apply IH|].
    apply Forall_forall. intros z Z. apply (Permutation_in z (insert_q_perm x l)) in Z.
    destruct Z as [<-|Z]; [exact C'|]. revert Z. now apply Forall_forall.
Qed.
Lemma sort_q_sorted : forall l, StronglySorted Qle (sort_q l).
Proof. induction l as [|x l IH]; cbn; [constructor|]. now apply insert_q_sorted. Qed.

Lemma sorted_nth : forall l i j, StronglySorted Qle l -> i <= j -> j < length l ->
  (nth i l 0 <= nth j l 0)%Q.
Proof.
  induction l as [|x l IH]; intros i j S I J; cbn [length] in J; [lia|].
  inversion S as [|x' l' S' F]; subst. destruct i as [|i], j as [|j]; cbn [nth]; try lia.
  - lra.
  - rewrite Forall_forall in F. apply F. apply nth_In. lia.
  - apply IH; auto; lia.
Qed.

(** Elements satisfying a predicate, seen as a set of positions. *)
Lemma filter_prefix : forall (p : Q -> bool) l k, k <= length l ->
  (forall i, i < k -> p (nth i l 0%Q) = true) -> k <= length (filter p l).
Proof.
  induction l as [|x l IH]; intros k L H; cbn [length] in L; [lia|].
  destruct k as [|k]; [lia|]. cbn [filter].
  pose proof (H 0 ltac:(lia)) as X. cbn [nth] in X. rewrite X. cbn [length].
  apply le_n_S. apply IH; [lia|]. intros i I. apply (H (S i)). lia.
Qed.
Lemma filter_suffix : forall (p : Q -> bool) l k, k <= length l ->
  (forall i, k <= i -> i < length l -> p (nth i l 0%Q) = true) -> length l - k <= length (filter p l).
Proof.
  induction l as [|x l IH]; intros k L H; cbn [length] in *; [lia|].
  cbn [filter]. destruct k as [|k].
  - pose proof (H 0 ltac:(lia) ltac:(lia)) as X. cbn [nth] in X. rewrite X. cbn [length].
    specialize (IH 0 ltac:(lia)). assert (length l - 0 <= length (filter p l)); [|lia].
    apply IH. intros i I J. apply (H (S i)); lia.
  - specialize (IH k ltac:(lia)). assert (length l - k <= length (filter p l)).
    { apply IH. intros i I J. apply (H (S i)); lia. }
    destruct (p x); cbn [length]; lia.
Qed.

Lemma filter_perm : forall A (p : A -> bool) l l', Permutation l l' ->
  length (filter p l) = length (filter p l').
Proof.
  intros A p l l' H. induction H; cbn [filter]; auto.
  - destruct (p x); cbn [length]; auto.
  - destruct (p x), (p y); reflexivity.
  - congruence.
Qed.
Lemma filter_known : forall (p : Q -> bool) (f : sample -> bool),
  (forall q, f (Some q) = p q) -> f None = false ->
  forall l, length (filter f l) = length (filter p (known l)).
Proof.
  intros p f S N. induction l as [|[q|] l IH]; cbn [filter known flat_map app]; [reflexivity| |].
  - rewrite S. fold (known l). destruct (p q); cbn [length]; now rewrite IH.
  - rewrite N. exact IH.
Qed.
Lemma known_In : forall q l, In q (known l) <-> In (Some q) l.
Proof.
  intros q l. unfold known. rewrite in_flat_map. split.
  - intros ([x|] & I & J); cbn in J; [|contradiction]. destruct J as [->|[]]. exact I.
  - intros I. exists (Some q). split; [exact I|now left].
Qed.

Lemma ranked_known : forall l k, StronglySorted Qle k -> Permutation k (known l) ->
  forall i, i < length k -> ranked l i (nth i k 0%Q).
Proof.
  intros l k S0 P i I. split; [|split].
  - apply known_In. apply (Permutation_in _ P). now apply nth_In.
  - rewrite (filter_known (fun q => negb (Qle_bool (nth i k 0%Q) q))) by reflexivity.
    rewrite <- (filter_perm _ _ _ _ P).
    pose proof (filter_suffix (fun q => Qle_bool (nth i k 0%Q) q) k i ltac:(lia)) as F.
    assert (length k - i <= length (filter (fun q => Qle_bool (nth i k 0%Q) q) k)).
    { apply F. intros j J K. apply Qle_bool_iff. now apply sorted_nth. }
    assert (A : forall m, length (filter (fun q => Qle_bool (nth i k 0%Q) q) m)
      + length (filter (fun q => negb (Qle_bool (nth i k 0%Q) q)) m) = length m).
    { induction m as [|x m IH]; [reflexivity|]. cbn [filter]. destruct (Qle_bool (nth i k 0%Q) x); cbn [negb length]; lia. }
    specialize (A k). lia.
  - rewrite (filter_known (fun q => Qle_bool q (nth i k 0%Q))) by reflexivity.
    rewrite <- (filter_perm _ _ _ _ P).
    assert (i + 1 <= length (filter (fun x => Qle_bool x (nth i k 0%Q)) k)); [|lia].
    apply filter_prefix; [lia|]. intros j J. apply Qle_bool_iff. apply sorted_nth; [exact S0|lia|lia].
Qed.

Lemma nanmedian_spec : forall l, median_of l (nanmedian l).
Proof.
  intros l. unfold nanmedian. pose proof (sort_q_perm (known l)) as P. pose proof (sort_q_sorted (known l)) as S0.
  destruct (sort_q (known l)) as [|q t] eqn:E.
  - cbn [median_of]. apply known_nil. now apply Permutation_nil.
  - set (k := q :: t) in *. assert (L : 0 < length k) by (cbn [length k]; lia).
    cbn [median_of]. rewrite count_known, <- (Permutation_length P).
    exists (nth ((length k - 1) / 2) k 0%Q), (nth (length k / 2) k 0%Q).
    split; [|split].
    + apply ranked_known; auto. apply Nat.div_lt_upper_bound; lia.
    + apply ranked_known; auto. apply Nat.div_lt_upper_bound; lia.
    + set (a := nth ((length k - 1) / 2) k 0%Q). set (b := nth (length k / 2) k 0%Q). field.
Qed.

(** The rank, hence the median, determines the value. *)
Lemma ranked_unique : forall l k a b, ranked l k a -> ranked l k b -> (a == b)%Q.
Proof.
  assert (H : forall l k a b, ranked l k a -> ranked l k b -> ~ (a < b)%Q).
  { intros l k a b (_ & _ & A) (_ & B & _) L.
    assert (length (filter (upto a) l) <= length (filter (below b) l)); [|lia].
    clear A B. induction l as [|[q|] l IH]; cbn [filter upto below]; auto.
    destruct (Qle_bool q a) eqn:U; cbn [length].
    - apply Qle_bool_iff in U. destruct (Qle_bool b q) eqn:V; [apply Qle_bool_iff in V; lra|]. cbn [negb length]. lia.
    - destruct (negb (Qle_bool b q)); cbn [length]; lia. }
  intros l k a b A B. pose proof (H l k a b A B). pose proof (H l k b a B A). lra.
Qed.
Lemma median_unique : forall l u v, median_of l u -> median_of l v ->
  match u, v with Some a, Some b => (a == b)%Q | None, None => True | _, _ => False end.
Proof.
  intros l [u|] [v|] A B; cbn [median_of] in A, B; auto.
  - destruct A as (a & b & A1 & A2 & A3), B as (c & d & B1 & B2 & B3).
    pose proof (ranked_unique _ _ _ _ A1 B1). pose proof (ranked_unique _ _ _ _ A2 B2). lra.
  - destruct A as (a & b & (A & _) & _). specialize (B _ A). discriminate.
  - destruct B as (a & b & (B & _) & _). specialize (A _ B). discriminate.
Qed.

(** ** rebin_along_dimension *)
Lemma nth_firstn_lt : forall A (l : list A) k i d, i < k -> nth i (firstn k l) d = nth i l d.
Proof.
  induction l as [|x l IH]; intros [|k] i d H; cbn; try lia; [now destruct i|].
  destruct i as [|i]; [reflexivity|]. apply IH. lia.
Qed.

Lemma take_axis_sh : forall A (a : nd A) s n t m, sh a = s ++ n :: t -> m <= n ->
  sh (take_axis (length s) m a) = s ++ m :: t.
Proof.
  intros A a s n t m E L. unfold take_axis. cbn [sh]. rewrite E.
  rewrite firstn_app, Nat.sub_diag, firstn_all, firstn_O, app_nil_r.
  rewrite app_nth2 by lia. rewrite Nat.sub_diag. cbn [nth].
  rewrite Nat.min_l by exact L.
  rewrite skipn_app, skipn_all2 by lia. replace (S (length s) - length s) with 1 by lia. reflexivity.
Qed.

Lemma reduce_split : forall A B (f : list A -> B) (d : nd A) s m w t,
  sh d = s ++ m :: w :: t ->
  sh (reduce f (S (length s)) d) = s ++ m :: t /\
  forall ip i iq, length ip = length s ->
    get (reduce f (S (length s)) d) (ip ++ i :: iq) =
    f (map (fun j => get d (ip ++ i :: j :: iq)) (seq 0 w)).
Proof.
  intros A B f d s m w t E. unfold reduce. cbn [sh get]. rewrite E.
  assert (R : s ++ m :: w :: t = (s ++ [m]) ++ w :: t) by (rewrite <- app_assoc; reflexivity).
  assert (LN : length (s ++ [m]) = S (length s)) by (rewrite app_length; cbn; lia).
  assert (F : firstn (S (length s)) (s ++ m :: w :: t) = s ++ [m]).
  { rewrite R, <- LN, firstn_app, Nat.sub_diag, firstn_all, firstn_O. apply app_nil_r. }
  assert (K : skipn (S (S (length s))) (s ++ m :: w :: t) = t).
  { rewrite R, <- LN, skipn_app, skipn_all2 by lia.
    replace (S (length (s ++ [m])) - length (s ++ [m])) with 1 by lia. reflexivity. }
  assert (N : nth (S (length s)) (s ++ m :: w :: t) 0 = w).
  { rewrite R, <- LN, app_nth2, Nat.sub_diag by lia. reflexivity. }
  split.
  - rewrite F, K, <- app_assoc. reflexivity.
  - intros ip i iq L. rewrite N. f_equal. apply map_ext. intros j. f_equal.
    assert (RI : ip ++ i :: iq = (ip ++ [i]) ++ iq) by (rewrite <- app_assoc; reflexivity).
    assert (LI : length (ip ++ [i]) = S (length s)) by (rewrite app_length; cbn; lia).
    rewrite RI, <- LI, firstn_app, Nat.sub_diag, firstn_all, firstn_O, app_nil_r.
    rewrite skipn_app, skipn_all2, Nat.sub_diag by lia. cbn [skipn app].
    rewrite <- app_assoc. reflexivity.
Qed.

(** The middle of the function, once the sizes are known. *)
Lemma rebin_core : forall data ax s t n m w,
  sh data = s ++ n :: t -> length ax = n -> m * w <= n ->
  exists d a,
    reshape (firstn (length s) (sh data) ++ m :: w :: skipn (S (length s)) (sh data))
            (take_axis (length s) (m * w) data) = Ok d /\
    reshape [m; w] (of_list None (firstn (m * w) ax)) = Ok a /\
    sh (reduce nanmean (S (length s)) d) = s ++ m :: t /\
    (forall ip i iq, inside s ip -> i < m -> inside t iq ->
       get (reduce nanmean (S (length s)) d) (ip ++ i :: iq) =
       nanmean (bin (fun k => get data (ip ++ k :: iq)) w i)) /\
    (forall i, i < m -> get (reduce nanmean 1 a) [i] = nanmean (bin (fun k => nth k ax None) w i)).
Proof.
  intros data ax s t n m w E LA L.
  assert (F : firstn (length s) (sh data) = s).
  { rewrite E, firstn_app, Nat.sub_diag, firstn_all, firstn_O. apply app_nil_r. }
  assert (K : skipn (S (length s)) (sh data) = t).
  { rewrite E, skipn_app, skipn_all2 by lia. replace (S (length s) - length s) with 1 by lia. reflexivity. }
  rewrite F, K. pose proof (take_axis_sh _ data s n t (m * w) E L) as T.
  destruct (reshape_split _ _ s t m w T) as (d & D & DS & DG).
  assert (T1 : sh (of_list None (firstn (m * w) ax)) = [] ++ m * w :: []).
  { unfold of_list. cbn [sh app]. rewrite firstn_length, Nat.min_l by lia. reflexivity. }
  destruct (reshape_split _ _ [] [] m w T1) as (a & A & AS & AG).
  exists d, a. split; [exact D|]. split; [exact A|].
  destruct (reduce_split _ _ nanmean d s m w t DS) as (R1 & R2). split; [exact R1|]. split.
  - intros ip i iq P I Q. rewrite R2 by (now apply inside_length). f_equal. unfold bin.
    apply map_ext_in. intros j J. apply in_seq in J. rewrite DG by (auto; lia). reflexivity.
  - intros i I. destruct (reduce_split _ _ nanmean a [] m w [] AS) as (_ & R3).
    specialize (R3 [] i [] eq_refl). cbn [app length] in R3. rewrite R3. f_equal. unfold bin.
    apply map_ext_in. intros j J. apply in_seq in J.
    specialize (AG [] i j []). cbn [app] in AG. rewrite AG; [|constructor|exact I|lia|constructor].
    unfold of_list. cbn [get hd]. apply nth_firstn_lt. nia.
Qed.

(** What the sizes are. *)
Lemma rebin_sizes : forall n bs, 0 < n -> (0 < bs)%Z ->
  let fb := if (Z.of_nat n / bs =? 0)%Z then (1%Z, Z.of_nat n) else ((Z.of_nat n / bs)%Z, bs) in
  exists m b, fst fb = Z.of_nat m /\ snd fb = Z.of_nat b /\ 0 < m /\ bins n b m /\
    (Z.of_nat n mod (fst fb * snd fb))%Z = (Z.of_nat n - Z.of_nat (m * b))%Z /\
    ((b <= n /\ Z.of_nat b = bs) \/ (b = n /\ (Z.of_nat n < bs)%Z)).
Proof.
  intros n bs N B fb. unfold fb. destruct (Z.eqb_spec (Z.of_nat n / bs) 0) as [E|E]; cbn [fst snd].
  - exists 1, n. split; [reflexivity|]. split; [reflexivity|]. split; [lia|].
    split; [unfold bins; lia|]. split.
    + rewrite Z.mul_1_l, Z.mod_same by lia. lia.
    + right. split; [reflexivity|]. apply Z.div_small_iff in E; lia.
  - pose proof (Z.div_pos (Z.of_nat n) bs ltac:(lia) B) as P.
    pose proof (Z.mul_div_le (Z.of_nat n) bs B) as L. pose proof (Z.mul_succ_div_gt (Z.of_nat n) bs B) as U.
    set (q := (Z.of_nat n / bs)%Z) in *.
    exists (Z.to_nat q), (Z.to_nat bs).
    split; [lia|]. split; [lia|]. split; [lia|].
    assert (M : Z.of_nat (Z.to_nat q * Z.to_nat bs) = (q * bs)%Z) by (rewrite Nat2Z.inj_mul; lia).
    split; [|split].
    + unfold bins. split; [lia|]. nia.
    + rewrite M. replace (Z.of_nat n) with (Z.of_nat n - q * bs + 1 * (q * bs))%Z at 1 by lia.
      rewrite Z.mod_add by nia. rewrite Z.mod_small by nia. reflexivity.
    + left. split; [nia|lia].
Qed.

Lemma floor_pos : forall dx new_dx, (0 < dx)%Q -> (dx <= new_dx)%Q -> (1 <= Qfloor (new_dx / dx))%Z.
Proof.
  intros dx nd P L.
  assert (H : (1 <= nd / dx)%Q) by (apply Qle_shift_div_l; lra).
  apply Qfloor_resp_le in H. exact H.
Qed.

Lemma floor_bounds : forall dx nd, (0 < dx)%Q ->
  (inject_Z (Qfloor (nd / dx)) * dx <= nd < (inject_Z (Qfloor (nd / dx)) + 1) * dx)%Q.
Proof.
  intros dx nd P. pose proof (Qfloor_le (nd / dx)) as A. pose proof (Qlt_floor (nd / dx)) as B.
  set (f := Qfloor (nd / dx)) in *.
  assert (E : (nd == nd / dx * dx)%Q) by (field; lra).
  rewrite inject_Z_plus in B. change (inject_Z 1) with 1%Q in B. set (x := (nd / dx)%Q) in *.
  rewrite E. split.
  - apply Qmult_le_compat_r; [exact A|lra].
  - apply Qmult_lt_compat_r; [exact P|exact B].
Qed.

Lemma rebin_along_ok : forall data ax k dx nd n,
  nth_error (sh data) k = Some n -> length ax = n -> 0 < n -> (0 < dx)%Q -> (dx <= nd)%Q ->
  exists b m ax' d', rebin_along data ax k dx nd = Ok (ax', d') /\
    0 < m /\ bins n b m /\ width n b dx nd /\
    ((b <= n /\ Z.of_nat b = Qfloor (nd / dx)) \/ (b = n /\ (Z.of_nat n < Qfloor (nd / dx))%Z)) /\
    length ax' = m /\
    (forall i, i < m -> nth i ax' None = nanmean (bin (fun j => nth j ax None) b i)) /\
    sh d' = firstn k (sh data) ++ m :: skipn (S k) (sh data) /\
    (forall ip i iq, inside (firstn k (sh data)) ip -> i < m -> inside (skipn (S k) (sh data)) iq ->
       get d' (ip ++ i :: iq) = nanmean (bin (fun j => get data (ip ++ j :: iq)) b i)).
Proof.
  intros data ax k dx nd n NE LA N P L. unfold rebin_along. rewrite NE, LA, Nat.eqb_refl. cbn [negb].
  assert (L' : Qle_bool dx nd = true) by (now apply Qle_bool_iff). rewrite L'. cbn [negb].
  assert (Z0 : Qeq_bool dx 0 = false).
  { destruct (Qeq_bool dx 0) eqn:C; [|reflexivity]. apply Qeq_bool_iff in C. lra. }
  rewrite Z0. pose proof (floor_pos _ _ P L) as BP. pose proof (floor_bounds dx nd P) as BB.
  set (bs := Qfloor (nd / dx)) in *.
  destruct (Z.eqb_spec bs 0) as [C|_]; [lia|].
  destruct (rebin_sizes n bs N ltac:(lia)) as (m & b & E1 & E2 & M & BI & LE & W).
  destruct (if (Z.of_nat n / bs =? 0)%Z then (1%Z, Z.of_nat n) else ((Z.of_nat n / bs)%Z, bs)) as [fs bz].
  cbn [fst snd] in E1, E2, LE. subst fs bz. destruct BI as [BP0 BI].
  destruct (Z.eqb_spec (Z.of_nat m * Z.of_nat b) 0) as [C|_]; [nia|].
  destruct (Z.ltb_spec (Z.of_nat m) 0) as [C|_]; [lia|].
  rewrite LE. replace (Z.to_nat (Z.of_nat n - (Z.of_nat n - Z.of_nat (m * b)))) with (m * b) by lia.
  rewrite Nat2Z.id. replace (m * b / m) with b by (rewrite Nat.mul_comm, Nat.div_mul; lia).
  pose proof (sh_split _ _ _ NE) as SS.
  assert (LK : length (firstn k (sh data)) = k).
  { apply firstn_length_le. apply Nat.lt_le_incl. apply nth_error_Some. congruence. }
  set (s := firstn k (sh data)) in *. set (t := skipn (S k) (sh data)) in *.
  destruct (rebin_core data ax s t n m b SS LA ltac:(lia)) as (d & a & D & A & R1 & R2 & R3).
  rewrite LK in D. fold s t in D. rewrite D. cbn [bind]. rewrite A. cbn [bind].
  exists b, m, (map (fun i => get (reduce nanmean 1 a) [i]) (seq 0 m)), (reduce nanmean (S k) d).
  split; [reflexivity|]. split; [exact M|]. split; [split; assumption|]. split.
  { unfold width. destruct W as [[W1 W2]|[W1 W2]].
    - left. rewrite W2. auto.
    - right. split; [exact W1|].
      assert ((inject_Z (Z.of_nat n) <= inject_Z bs)%Q) by (rewrite <- Zle_Qle; lia).
      destruct BB as [BB _]. eapply Qle_trans; [|exact BB].
      apply Qmult_le_compat_r; [assumption|lra]. }
  split; [exact W|].
  split; [rewrite map_length; apply seq_length|]. split.
  - intros i I. rewrite <- R3 by exact I.
    rewrite (nth_indep _ None (get (reduce nanmean 1 a) [0])) by (rewrite map_length, seq_length; exact I).
    rewrite (map_nth (fun i => get (reduce nanmean 1 a) [i])). now rewrite seq_nth.
  - rewrite LK in R1, R2. split; [exact R1|exact R2].
Qed.
