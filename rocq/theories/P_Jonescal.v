(** Correction of polarization by given Jones matrices *)
From Coq Require Import List Arith ZArith QArith Qabs Bool Lia Lqa.
From Verif Require Import Base M_Jonescal.
Import ListNotations.
Open Scope nat_scope.

(** ** Specification *)
Definition at_ (l : list Q) (i : nat) : Q := nth i l 0%Q.
Definition sorted (l : list Q) : Prop := forall i j, i <= j -> j < length l -> (at_ l i <= at_ l j)%Q.
Definition nearest (l : list Q) (x : Q) (i : nat) : Prop := i < length l /\ forall k, k < length l -> (Qabs (x - at_ l i) <= Qabs (x - at_ l k))%Q.
(** The data go beyond the last matrix, or the sample comes before it *)
Definition reached (data l : list Q) (x : Q) : Prop := (x < at_ l (length l - 1) \/ at_ l (length l - 1) < at_ data (length data - 1))%Q.

(** ** Proofs *)
Lemma qle : forall a b, Qle_bool a b = false -> (b < a)%Q.
Proof. intros a b H. destruct (Qlt_le_dec b a) as [L|L]; [exact L|]. apply Qle_bool_iff in L. congruence. Qed.
Lemma ascending_sorted : forall l, ascending l = true <-> sorted l.
Proof.
  induction l as [|a l IH]; [split; [intros _ i j _ J; cbn in J; lia|reflexivity]|]. destruct l as [|b l].
  - split; [|reflexivity]. intros _ i j I J. cbn in J. replace j with 0 by lia. replace i with 0 by lia. apply Qle_refl.
  - cbn [ascending]. rewrite andb_true_iff, IH, Qle_bool_iff. split.
    + intros [AB H] [|i] [|j] I J; try lia; [apply Qle_refl| |].
      * apply Qle_trans with b; [exact AB|]. apply (H 0 j); [lia|cbn in *; lia].
      * apply (H i j); [lia|cbn in *; lia].
    + intro H. split; [apply (H 0 1); cbn; lia|]. intros i j I J. apply (H (S i) (S j)); cbn in *; lia.
Qed.
Lemma half_length : forall l, length (half_steps l) = length l - 1.
Proof. induction l as [|a [|b l] IH]; [reflexivity|reflexivity|]. cbn [half_steps length] in *. rewrite IH. cbn. lia. Qed.
Lemma half_nth : forall l k, S k < length l -> (2 * at_ (half_steps l) k == at_ l k + at_ l (S k))%Q.
Proof.
  induction l as [|a [|b l] IH]; intros k K; [cbn in K; lia|cbn in K; lia|]. destruct k as [|k]; [cbn; field|].
  change (at_ (half_steps (a :: b :: l)) (S k)) with (at_ (half_steps (b :: l)) k). rewrite IH by (cbn in *; lia). reflexivity.
Qed.
Lemma last_at : forall l, last l 0%Q = at_ l (length l - 1).
Proof. induction l as [|a [|b l] IH]; [reflexivity|reflexivity|]. change (last (a :: b :: l) 0%Q) with (last (b :: l) 0%Q). rewrite IH. unfold at_. cbn. now rewrite Nat.sub_0_r. Qed.
(** Bounds of the intervals *)
Lemma intervals_nth : forall data l iv, prepare_intervals data l = Ok iv -> data <> [] /\ l <> [] /\ length iv = S (length l) /\
  at_ iv 0 = (if Qle_bool (at_ l 0) (at_ data 0) then at_ l 0 else at_ data 0) /\
  (forall k, S k < length l -> (2 * at_ iv (S k) == at_ l k + at_ l (S k))%Q) /\
  at_ iv (length l) = (if Qle_bool (at_ data (length data - 1)) (at_ l (length l - 1)) then at_ l (length l - 1) else (at_ data (length data - 1) + (1 # 10))%Q).
Proof.
  intros data l iv H. unfold prepare_intervals in H. rewrite !last_at in H. destruct data as [|d0 data], l as [|t0 l]; try discriminate.
  set (D := d0 :: data) in *. set (L := t0 :: l) in *. assert (ND : D <> []) by discriminate. assert (NL : L <> []) by discriminate. change d0 with (at_ D 0) in H. change t0 with (at_ L 0) in H. assert (LL : 0 < length L) by (cbn; lia). clearbody D L. injection H as <-.
  split; [exact ND|]. split; [exact NL|]. split; [cbn [length]; rewrite app_length, half_length; cbn; lia|]. split; [reflexivity|]. split.
  - intros k K. unfold at_ at 1. cbn [nth]. rewrite app_nth1 by (rewrite half_length; lia). apply half_nth. exact K.
  - unfold at_ at 1. destruct (length L) as [|n] eqn:E; [lia|]. cbn [nth]. rewrite app_nth2 by (rewrite half_length; lia). rewrite half_length, E. replace (n - (S n - 1)) with 0 by lia. reflexivity.
Qed.
Lemma sorted_steps : forall l, (forall i, S i < length l -> (at_ l i <= at_ l (S i))%Q) -> sorted l.
Proof.
  intros l H i j I J. induction j as [|j IH]; [replace i with 0 by lia; apply Qle_refl|]. destruct (Nat.eq_dec i (S j)) as [->|N]; [apply Qle_refl|].
  apply Qle_trans with (at_ l j); [apply IH; lia|]. apply H. exact J.
Qed.
Lemma intervals_sorted : forall data l iv, sorted l -> prepare_intervals data l = Ok iv -> sorted iv.
Proof.
  intros data l iv S0 H. destruct (intervals_nth _ _ _ H) as (ND & NL & LEN & I0 & IK & IN). assert (LP : 0 < length l) by (destruct l; [contradiction|cbn; lia]).
  apply sorted_steps. intros i I. rewrite LEN in I.
  assert (UP : (at_ l (length l - 1) <= at_ iv (length l))%Q) by (rewrite IN; destruct (Qle_bool (at_ data (length data - 1)) (at_ l (length l - 1))) eqn:E; [apply Qle_refl|apply qle in E; lra]).
  assert (DN : (at_ iv 0 <= at_ l 0)%Q) by (rewrite I0; destruct (Qle_bool (at_ l 0) (at_ data 0)) eqn:E; [apply Qle_refl|apply qle in E; lra]).
  assert (HI : (at_ iv i <= at_ l i)%Q). { destruct i as [|i]; [exact DN|]. pose proof (S0 i (S i) ltac:(lia) ltac:(lia)). pose proof (IK i ltac:(lia)). lra. }
  apply Qle_trans with (at_ l i); [exact HI|]. destruct (Nat.eq_dec (S i) (length l)) as [E|E].
  - rewrite E. replace i with (length l - 1) by lia. exact UP.
  - pose proof (IK i ltac:(lia)). pose proof (S0 i (S i) ltac:(lia) ltac:(lia)). lra.
Qed.
(** The interval of a sample *)
Lemma locate : forall iv x n, (at_ iv 0 <= x)%Q -> (x < at_ iv (S n))%Q -> exists k, k <= n /\ (at_ iv k <= x < at_ iv (S k))%Q.
Proof.
  intros iv x n L. induction n as [|n IH]; intro U; [exists 0; split; [lia|split; assumption]|].
  destruct (Qlt_le_dec x (at_ iv (S n))) as [H|H]; [destruct (IH H) as (k & K & R); exists k; split; [lia|exact R]|]. exists (S n). split; [lia|]. split; assumption.
Qed.
Lemma qabs_le : forall a b, (- b <= a)%Q -> (a <= b)%Q -> (Qabs a <= b)%Q.
Proof. intros a b A B. apply Qabs_Qle_condition. split; assumption. Qed.
Lemma interval_nearest : forall data l iv x k, sorted l -> prepare_intervals data l = Ok iv -> k < length l -> (at_ iv k <= x < at_ iv (S k))%Q -> nearest l x k.
Proof.
  intros data l iv x k S0 H K [LO HI]. destruct (intervals_nth _ _ _ H) as (_ & _ & _ & I0 & IK & IN). split; [exact K|]. intros j J.
  destruct (Nat.lt_trichotomy j k) as [C|[->|C]]; [|apply Qle_refl|].
  - destruct k as [|k]; [lia|]. pose proof (IK k ltac:(lia)). pose proof (S0 k (S k) ltac:(lia) K) as A. pose proof (S0 j k ltac:(lia) ltac:(lia)) as B.
    apply Qle_trans with (x - at_ l j)%Q; [|apply Qle_Qabs]. apply qabs_le; lra.
  - pose proof (IK k ltac:(lia)). pose proof (S0 k (S k) ltac:(lia) ltac:(lia)) as A. pose proof (S0 (S k) j ltac:(lia) J) as B.
    apply Qle_trans with (- (x - at_ l j))%Q; [|rewrite <- Qabs_opp; apply Qle_Qabs]. apply qabs_le; lra.
Qed.
(** Spans of sorted data *)
Lemma argmax_spec : forall m, existsb (fun b => b) m = true -> nth (argmax m) m false = true /\ argmax m < length m /\ forall p, nth p m false = true -> argmax m <= p.
Proof.
  induction m as [|[] m IH]; cbn; intro H; [discriminate|split; [reflexivity|split; [lia|intros; lia]]|]. destruct (IH H) as (A & B & C). split; [exact A|]. split; [lia|]. intros [|p] P; [discriminate|]. apply C in P. lia.
Qed.
Lemma nth_existsb : forall m p, nth p m false = true -> existsb (fun b => b) m = true.
Proof. intros m p H. apply existsb_exists. exists true. split; [|reflexivity]. rewrite <- H. apply nth_In. destruct (Nat.lt_ge_cases p (length m)) as [L|L]; [exact L|]. rewrite nth_overflow in H by exact L. discriminate. Qed.
Lemma mask_nth : forall lo hi data p, p < length data -> nth p (mask lo hi data) false = true <-> (lo <= at_ data p < hi)%Q.
Proof.
  intros lo hi data p P. unfold mask. set (g := fun x => Qle_bool lo x && negb (Qle_bool hi x)). rewrite (nth_indep _ false (g 0%Q)) by (now rewrite map_length). rewrite (map_nth g data 0%Q p). fold (at_ data p). unfold g.
  rewrite andb_true_iff, Qle_bool_iff, negb_true_iff. split; intros [A B]; (split; [exact A|]); [exact (qle _ _ B)|]. destruct (Qle_bool hi (at_ data p)) eqn:E; [|reflexivity]. apply Qle_bool_iff in E. lra.
Qed.
Lemma span_inside : forall lo hi data p, sorted data -> p < length data -> inside (span lo hi data) p = true <-> (lo <= at_ data p < hi)%Q.
Proof.
  intros lo hi data p S0 P. unfold span. cbv zeta. set (m := mask lo hi data). assert (LM : length m = length data) by (unfold m, mask; apply map_length).
  destruct (existsb (fun b => b) m) eqn:E; cbn [inside].
  - destruct (argmax_spec m E) as (A & B & C). assert (ER : existsb (fun b => b) (rev m) = true).
    { apply existsb_exists in E as (b & I & T). apply existsb_exists. exists b. split; [now apply -> in_rev|exact T]. }
    destruct (argmax_spec (rev m) ER) as (A' & B' & C'). rewrite rev_length in B'. rewrite rev_nth in A' by exact B'.
    rewrite andb_true_iff, Nat.leb_le, Nat.ltb_lt. split.
    + intros [X Y]. apply mask_nth in A; [|lia]. apply mask_nth in A'; [|lia]. pose proof (S0 (argmax m) p X P). pose proof (S0 p (length m - S (argmax (rev m))) ltac:(lia) ltac:(lia)). lra.
    + intro H. apply (mask_nth lo hi data p P) in H. fold m in H. split; [exact (C p H)|].
      assert (Z : argmax (rev m) <= length m - S p). { apply C'. rewrite rev_nth by lia. replace (length m - S (length m - S p)) with p by lia. exact H. } lia.
  - split; [discriminate|]. intro H. apply (mask_nth lo hi data p P) in H. fold m in H. apply nth_existsb in H. congruence.
Qed.
(** One axis: the matrix of each sample *)
Lemma axis_spec : forall data l iv p, sorted data -> sorted l -> prepare_intervals data l = Ok iv -> p < length data ->
  (reached data l (at_ data p) -> exists i, nearest l (at_ data p) i /\ forall k, k < length iv - 1 -> inside (interval_span data iv k) p = (k =? i)) /\
  (~ reached data l (at_ data p) -> forall k, k < length iv - 1 -> inside (interval_span data iv k) p = false).
Proof.
  intros data l iv p SD SL H P. pose proof (intervals_sorted _ _ _ SL H) as SI. destruct (intervals_nth _ _ _ H) as (ND & NL & LEN & I0 & IK & IN).
  assert (LP : 0 < length l) by (destruct l; [contradiction|cbn; lia]). rewrite LEN. cbn [Nat.sub]. rewrite Nat.sub_0_r.
  set (x := at_ data p) in *. pose proof (SD 0 p ltac:(lia) P) as X0. pose proof (SD p (length data - 1) ltac:(lia) ltac:(lia)) as X1. fold x in X0, X1.
  assert (INS : forall k, inside (interval_span data iv k) p = true <-> (at_ iv k <= x < at_ iv (S k))%Q) by (intro k; now apply span_inside).
  split; intro R.
  - assert (LO : (at_ iv 0 <= x)%Q). { rewrite I0. destruct (Qle_bool (at_ l 0) (at_ data 0)) eqn:E; [apply Qle_bool_iff in E; lra|exact X0]. }
    assert (HI : (x < at_ iv (S (length l - 1)))%Q). { replace (S (length l - 1)) with (length l) by lia. rewrite IN. destruct (Qle_bool (at_ data (length data - 1)) (at_ l (length l - 1))) eqn:E; [apply Qle_bool_iff in E; destruct R; lra|lra]. }
    destruct (locate iv x (length l - 1) LO HI) as (i & I & B). exists i. split; [apply (interval_nearest data l iv); auto; lia|].
    intros k K. destruct (k =? i) eqn:E; [apply Nat.eqb_eq in E; subst k; now apply INS|]. apply Nat.eqb_neq in E. apply not_true_iff_false. rewrite INS. intros [A C].
    destruct (Nat.lt_ge_cases k i) as [D|D].
    + pose proof (SI (S k) i ltac:(lia) ltac:(lia)). lra.
    + pose proof (SI (S i) k ltac:(lia) ltac:(lia)). lra.
  - intros k K. apply not_true_iff_false. rewrite INS. intros [A B]. apply R. unfold reached. destruct (Qlt_le_dec (at_ l (length l - 1)) (at_ data (length data - 1))) as [U|U]; [now right|left].
    apply Qle_bool_iff in U. rewrite U in IN. pose proof (SI (S k) (length l) ltac:(lia) ltac:(lia)) as M. rewrite IN in M. lra.
Qed.
Section Product.
  Context {A : Type}.
  Variable mul : A -> A -> A.
  Lemma fold_at : forall (l : list nat) n st sf (g : nat -> nat -> nat -> A) d t f a b,
    fold_left (fun d j => scale_span mul n st (sf j) (g j) d) l d t f a b = fold_left (fun v j => if inside st t && inside (sf j) (f / n) then mul v (g j a b) else v) l (d t f a b).
  Proof. induction l as [|j l IH]; intros; [reflexivity|]. cbn [fold_left]. rewrite IH. reflexivity. Qed.
  Lemma fold_none : forall (l : list nat) (c : nat -> bool) g (v : A), (forall k, In k l -> c k = false) -> fold_left (fun v k => if c k then mul v (g k) else v) l v = v.
  Proof. induction l as [|k l IH]; intros c g v H; [reflexivity|]. cbn. rewrite (H k) by now left. apply IH. intros; apply H. now right. Qed.
  Lemma fold_one : forall n s (c : nat -> bool) g (v : A) i, s <= i < s + n -> (forall k, s <= k < s + n -> c k = (k =? i)) -> fold_left (fun v k => if c k then mul v (g k) else v) (seq s n) v = mul v (g i).
  Proof.
    induction n as [|n IH]; intros s c g v i I H; [lia|]. cbn [seq fold_left]. rewrite (H s) by lia. destruct (s =? i) eqn:E.
    - apply Nat.eqb_eq in E. subst s. apply fold_none. intros k K. apply in_seq in K. rewrite H by lia. apply Nat.eqb_neq. lia.
    - apply Nat.eqb_neq in E. apply IH; [lia|]. intros k K. apply H. lia.
  Qed.
  Lemma fold_ext : forall (l : list nat) (F G : A -> nat -> A) v, (forall v k, In k l -> F v k = G v k) -> fold_left F l v = fold_left G l v.
  Proof. induction l as [|k l IH]; intros F G v H; [reflexivity|]. cbn. rewrite H by now left. apply IH. intros. apply H. now right. Qed.
  Lemma all_at : forall n times freqs ti fi jones d t f a b,
    scale_all mul n times freqs ti fi jones d t f a b =
    fold_left (fun v i => fold_left (fun v j => if inside (interval_span times ti i) t && inside (interval_span freqs fi j) (f / n) then mul v (jones i j a b) else v) (seq 0 (length fi - 1)) v) (seq 0 (length ti - 1)) (d t f a b).
  Proof.
    intros n times freqs ti fi jones d t f a b. unfold scale_all. revert d. induction (seq 0 (length ti - 1)) as [|i l IH]; intro d; [reflexivity|]. cbn [fold_left]. rewrite IH. f_equal.
    apply (fold_at (seq 0 (length fi - 1)) n (interval_span times ti i) (interval_span freqs fi) (jones i)).
  Qed.
  (** The subbands *)
  Lemma subband_at : forall n freqs s, s < length freqs / n -> at_ (subband_first n freqs) s = at_ freqs (s * n).
  Proof.
    intros n freqs s H. unfold subband_first, at_. set (g := fun s => nth (s * n) freqs 0%Q). rewrite (nth_indep _ 0%Q (g 0)) by (now rewrite map_length, seq_length). rewrite (map_nth g _ 0 s), seq_nth by exact H. reflexivity.
  Qed.
  Lemma subband_length : forall n freqs, length (subband_first n freqs) = length freqs / n.
  Proof. intros. unfold subband_first. now rewrite map_length, seq_length. Qed.
  Lemma subband_sorted : forall n freqs, 0 < n -> sorted freqs -> sorted (subband_first n freqs).
  Proof.
    intros n freqs N S0 i j I J. rewrite subband_length in J. rewrite !subband_at by lia. apply S0; [nia|]. pose proof (Nat.mul_div_le (length freqs) n ltac:(lia)). nia.
  Qed.
  Theorem corrected : forall jt jf jones n times freqs d r, sorted times -> sorted freqs -> correct2 mul (Some jt) (Some jf) (Some jones) n times freqs d = Ok r ->
    sorted jt /\ sorted jf /\ 0 < n /\ forall t f a b, t < length times -> f < length freqs ->
    let x := at_ times t in let y := at_ freqs (f / n * n) in
    (reached times jt x /\ reached (subband_first n freqs) jf y -> exists i j, nearest jt x i /\ nearest jf y j /\ r t f a b = mul (d t f a b) (jones i j a b)) /\
    (~ (reached times jt x /\ reached (subband_first n freqs) jf y) -> r t f a b = d t f a b).
  Proof.
    intros jt jf jones n times freqs d r ST SF H. unfold correct2 in H. destruct (ascending jt) eqn:AT; [|discriminate]. destruct (ascending jf) eqn:AF; [|discriminate]. cbn [negb] in H.
    apply ascending_sorted in AT, AF. destruct (n =? 0) eqn:N; [discriminate|]. apply Nat.eqb_neq in N. destruct (length freqs mod n =? 0) eqn:M; [|discriminate]. apply Nat.eqb_eq in M. cbn [negb] in H.
    destruct (prepare_intervals times jt) as [ti|] eqn:TI; [|discriminate]. destruct (prepare_intervals (subband_first n freqs) jf) as [fi|] eqn:FI; [|discriminate]. injection H as <-.
    split; [exact AT|]. split; [exact AF|]. split; [lia|]. intros t f a b T F. cbv zeta.
    assert (FS : f / n < length freqs / n). { apply Nat.div_lt_upper_bound; [lia|]. rewrite (Nat.div_mod (length freqs) n N) in F. lia. }
    rewrite <- (subband_at n freqs (f / n) FS). pose proof (subband_sorted n freqs ltac:(lia) SF) as SB. set (B := subband_first n freqs) in *. assert (FB : f / n < length B) by (unfold B; rewrite subband_length; exact FS).
    destruct (axis_spec times jt ti t ST AT TI T) as [T1 T2]. destruct (axis_spec B jf fi (f / n) SB AF FI FB) as [F1 F2].
    rewrite all_at.
    assert (LT : length ti - 1 = length jt) by (destruct (intervals_nth _ _ _ TI) as (_ & _ & -> & _); lia). assert (LF : length fi - 1 = length jf) by (destruct (intervals_nth _ _ _ FI) as (_ & _ & -> & _); lia). rewrite LT, LF in *.
    split.
    - intros [RT RF]. destruct (T1 RT) as (i & NI & CI). destruct (F1 RF) as (j & NJ & CJ). exists i, j. split; [exact NI|]. split; [exact NJ|].
      rewrite (fold_ext _ _ (fun v k => if k =? i then mul v (jones k j a b) else v)).
      + apply (fold_one (length jt) 0 (fun k => k =? i) (fun k => jones k j a b) _ i); [destruct NI; lia|reflexivity].
      + intros v k K. apply in_seq in K. rewrite CI by lia. destruct (k =? i); cbn [andb]; [|clear; induction (seq 0 (length jf)); [reflexivity|assumption]].
        apply (fold_one (length jf) 0 (fun q => inside (interval_span B fi q) (f / n)) (fun q => jones k q a b)); [destruct NJ; lia|]. intros q Q. apply CJ. lia.
    - intro NR. assert (Z : forall i j, i < length jt -> j < length jf -> inside (interval_span times ti i) t && inside (interval_span B fi j) (f / n) = false).
      { intros i j I J. destruct (inside (interval_span times ti i) t) eqn:E1; [|reflexivity]. destruct (inside (interval_span B fi j) (f / n)) eqn:E2; [|reflexivity]. exfalso. apply NR. split.
        - destruct (Qlt_le_dec (at_ times t) (at_ jt (length jt - 1))) as [X|X]; [now left|]. destruct (Qlt_le_dec (at_ jt (length jt - 1)) (at_ times (length times - 1))) as [Y|Y]; [now right|].
          rewrite (T2 ltac:(intros [?|?]; lra) i I) in E1. discriminate.
        - destruct (Qlt_le_dec (at_ B (f / n)) (at_ jf (length jf - 1))) as [X|X]; [now left|]. destruct (Qlt_le_dec (at_ jf (length jf - 1)) (at_ B (length B - 1))) as [Y|Y]; [now right|].
          rewrite (F2 ltac:(intros [?|?]; lra) j J) in E2. discriminate. }
      rewrite (fold_ext _ _ (fun v _ => v)); [clear; induction (seq 0 (length jt)); [reflexivity|assumption]|].
      intros v i I. apply in_seq in I. apply fold_none. intros j J. apply in_seq in J. apply Z; lia.
  Qed.
  Theorem correct2_error : forall jt jf jones n times freqs d e, correct2 mul (Some jt) (Some jf) (Some jones) n times freqs d = Err e <->
    (e = EValueError /\ (~ sorted jt \/ ~ sorted jf)) \/
    (sorted jt /\ sorted jf /\ ((e = EZeroDivisionError /\ n = 0) \/ (e = EValueError /\ 0 < n /\ length freqs mod n <> 0) \/
      (e = EIndexError /\ 0 < n /\ length freqs mod n = 0 /\ (times = [] \/ jt = [] \/ freqs = [] \/ jf = [])))).
  Proof.
    intros jt jf jones n times freqs d e. unfold correct2. rewrite <- !ascending_sorted. destruct (ascending jt) eqn:AT; cbn [negb]; [|split; [intro H; injection H as <-; left; split; [reflexivity|left; discriminate]|intros [[-> _]|(H & _)]; [reflexivity|discriminate]]].
    destruct (ascending jf) eqn:AF; cbn [negb]; [|split; [intro H; injection H as <-; left; split; [reflexivity|right; discriminate]|intros [[-> _]|(_ & H & _)]; [reflexivity|discriminate]]].
    transitivity ((e = EZeroDivisionError /\ n = 0) \/ (e = EValueError /\ 0 < n /\ length freqs mod n <> 0) \/ (e = EIndexError /\ 0 < n /\ length freqs mod n = 0 /\ (times = [] \/ jt = [] \/ freqs = [] \/ jf = []))); [|split; [intro H; right; repeat split; exact H|intros [[_ [H|H]]|(_ & _ & H)]; [now elim H|now elim H|exact H]]].
    destruct (n =? 0) eqn:N; [apply Nat.eqb_eq in N; split; [intro H; injection H as <-; now left|intros [[-> _]|[(_ & H & _)|(_ & H & _)]]; [reflexivity|lia|lia]]|]. apply Nat.eqb_neq in N.
    destruct (length freqs mod n =? 0) eqn:M; cbn [negb]; [|apply Nat.eqb_neq in M; split; [intro H; injection H as <-; right; left; repeat split; [lia|exact M]|intros [[_ H]|[(-> & _)|(_ & _ & H & _)]]; [lia|reflexivity|contradiction]]]. apply Nat.eqb_eq in M.
    assert (BE : subband_first n freqs = [] <-> freqs = []).
    { split; [|intros ->; unfold subband_first; cbn [length]; now rewrite Nat.div_0_l]. intro H. apply (f_equal (@length Q)) in H. rewrite subband_length in H. cbn in H. pose proof (Nat.div_mod (length freqs) n N). destruct freqs; [reflexivity|cbn [length] in *; lia]. }
    transitivity (e = EIndexError /\ (times = [] \/ jt = [] \/ subband_first n freqs = [] \/ jf = [])).
    - unfold prepare_intervals. destruct times, jt, (subband_first n freqs), jf; cbn [bind]; (split; [intro H; first [discriminate H|injection H as <-; split; [reflexivity|tauto]]|intros [-> [H|[H|[H|H]]]]; first [reflexivity|discriminate H]]).
    - rewrite BE. split; [intros [E H]; right; right; repeat split; auto; lia|intros [[_ H]|[(_ & _ & H)|(E & _ & _ & H)]]; [lia|contradiction|now split]].
  Qed.
End Product.
Theorem correct2_none : forall A (mul : A -> A -> A) jt jf jones n times freqs d, jt = None \/ jf = None \/ jones = None -> correct2 mul jt jf jones n times freqs d = Ok d.
Proof. intros A mul jt jf jones n times freqs d H. unfold correct2. destruct jt, jf, jones; try reflexivity. destruct H as [H|[H|H]]; discriminate. Qed.
(** Data that stop at the time of the last matrix *)
Theorem last_left : forall A (mul : A -> A -> A) jt jf jones n times freqs d r, sorted times -> sorted freqs -> correct2 mul (Some jt) (Some jf) (Some jones) n times freqs d = Ok r ->
  (at_ times (length times - 1) == at_ jt (length jt - 1))%Q -> forall f a b, times <> [] -> f < length freqs -> r (length times - 1) f a b = d (length times - 1) f a b.
Proof.
  intros A mul jt jf jones n times freqs d r ST SF H E f a b T F. destruct (corrected mul _ _ _ _ _ _ _ _ ST SF H) as (_ & _ & _ & C).
  assert (TL : length times - 1 < length times) by (destruct times; [contradiction|cbn; lia]). destruct (C _ f a b TL F) as [_ N]. apply N. intros [[R|R] _]; lra.
Qed.
