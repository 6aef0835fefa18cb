(** Specifications and lemmas: the genetic algorithm. *)
From Coq Require Import List Arith ZArith QArith Bool Lia Lqa Permutation Sorting.Sorted.
From Verif Require Import Base M_Sched M_Evolve P_Cnst2.
Import ListNotations.
Open Scope nat_scope.

(** ** Crossovers *)

(** The integers drawn for a crossover of genomes of [n] genes. *)
Definition valid_cut (m : crossing) (n : nat) (cut : nat -> nat) : Prop :=
  match m with
  | SPCO => 1 <= cut 0 < n
  | TPCO => cut 0 < n /\ cut 1 < n
  | UNCO => forall i, i < n -> cut i < 2
  | CrossOther => True
  end.

(** At every position the children have the two genes of the parents. *)
Definition same_genes (p q c d : genome) : Prop :=
  length c = length p /\ length d = length p /\
  forall i, i < length p ->
    (nth i c 0%Z = nth i p 0%Z /\ nth i d 0%Z = nth i q 0%Z) \/
    (nth i c 0%Z = nth i q 0%Z /\ nth i d 0%Z = nth i p 0%Z).

Lemma take_from_length : forall f p q, length (take_from f p q) = length p.
Proof. intros. unfold take_from. apply imap_length. Qed.

Lemma take_from_nth : forall f p q i, i < length p ->
  nth i (take_from f p q) 0%Z = if f i then nth i q 0%Z else nth i p 0%Z.
Proof. intros f p q i L. unfold take_from. now rewrite (nth_imap _ _ _ _ _ 0%Z 0%Z) by assumption. Qed.

Lemma swap_genes : forall f p q, length q = length p ->
  same_genes p q (take_from f p q) (take_from f q p).
Proof.
  intros f p q L. split; [apply take_from_length|]. split; [now rewrite take_from_length|].
  intros i I. rewrite !take_from_nth by lia. destruct (f i); [right|left]; now split.
Qed.

Lemma cross_genes : forall m cut p q c d, length q = length p -> cross m cut p q = Ok (c, d) -> same_genes p q c d.
Proof.
  intros m cut p q c d L H. unfold cross in H. destruct (length p =? 1).
  - injection H; intros <- <-. split; [reflexivity|]. split; [assumption|]. intros i I. left. now split.
  - destruct m; [destruct (length p =? 0); [discriminate|]|destruct (length p =? 0); [discriminate|]| |discriminate];
      injection H; intros <- <-; now apply swap_genes.
Qed.

Lemma cross_defined : forall m cut p q,
  (exists c d, cross m cut p q = Ok (c, d)) <->
  length p = 1 \/ (m <> CrossOther /\ (length p <> 0 \/ m = UNCO)).
Proof.
  intros m cut p q. unfold cross. destruct (Nat.eqb_spec (length p) 1) as [E|N].
  - split; [now left|]. intros _. now exists p, q.
  - destruct (Nat.eqb_spec (length p) 0) as [Z|Z]; destruct m; split; intros H;
      try (destruct H as (c & d & H); discriminate); try (do 2 eexists; reflexivity);
      try (right; split; [discriminate|now (left + right)]);
      destruct H as [H|[H1 [H2|H2]]]; congruence.
Qed.

Lemma cross_error : forall m cut p q e, cross m cut p q = Err e -> e = EValueError.
Proof.
  intros m cut p q e H. unfold cross in H. destruct (length p =? 1); [discriminate|].
  destruct m; try destruct (length p =? 0); congruence.
Qed.

(** The genes exchanged. *)
Lemma cross_single : forall cut p q, length q = length p -> 2 <= length p -> valid_cut SPCO (length p) cut ->
  cross SPCO cut p q = Ok (firstn (cut 0) p ++ skipn (cut 0) q, firstn (cut 0) q ++ skipn (cut 0) p).
Proof.
  intros cut p q L N V. unfold cross. destruct (Nat.eqb_spec (length p) 1); [lia|].
  destruct (Nat.eqb_spec (length p) 0); [lia|]. cbn [valid_cut] in V.
  assert (G : forall a b : genome, length a = length b -> cut 0 < length a ->
     take_from (fun i => cut 0 <=? i) a b = firstn (cut 0) a ++ skipn (cut 0) b).
  { intros a b LA C. apply (nth_ext _ _ 0%Z 0%Z).
    - rewrite take_from_length, app_length, firstn_length, skipn_length. lia.
    - rewrite take_from_length. intros i I. rewrite take_from_nth by assumption.
      destruct (Nat.leb_spec (cut 0) i) as [G|G].
      + rewrite app_nth2; rewrite firstn_length; [|lia]. replace (Nat.min (cut 0) (length a)) with (cut 0) by lia.
        clear -G. revert i G b. induction (cut 0) as [|k IH]; intros i G b; [now rewrite Nat.sub_0_r|].
        destruct b as [|x b]; [cbn; destruct i; destruct (_ - _); reflexivity|].
        destruct i as [|i]; [lia|]. cbn [skipn nth Nat.sub]. apply IH. lia.
      + rewrite app_nth1 by (rewrite firstn_length; lia).
        clear -G. revert i G a. induction (cut 0) as [|k IH]; intros i G a; [lia|].
        destruct a as [|x a]; [reflexivity|]. destruct i as [|i]; [reflexivity|]. cbn. apply IH. lia. }
  rewrite !G by lia. reflexivity.
Qed.

Lemma cross_double : forall cut p q c d i, length q = length p -> 2 <= length p ->
  cross TPCO cut p q = Ok (c, d) -> i < length p ->
  (Nat.min (cut 0) (cut 1) <= i < Nat.max (cut 0) (cut 1) -> nth i c 0%Z = nth i q 0%Z /\ nth i d 0%Z = nth i p 0%Z) /\
  (~ (Nat.min (cut 0) (cut 1) <= i < Nat.max (cut 0) (cut 1)) -> nth i c 0%Z = nth i p 0%Z /\ nth i d 0%Z = nth i q 0%Z).
Proof.
  intros cut p q c d i L N H I. unfold cross in H. destruct (Nat.eqb_spec (length p) 1); [lia|].
  destruct (Nat.eqb_spec (length p) 0); [lia|]. injection H; intros <- <-. rewrite !take_from_nth by lia.
  destruct (Nat.leb_spec (Nat.min (cut 0) (cut 1)) i); destruct (Nat.ltb_spec i (Nat.max (cut 0) (cut 1))); cbn [andb];
    (split; intros X; first [exfalso; lia|now split]).
Qed.

(** The last gene is never exchanged by a two point crossover. *)
Lemma cross_double_last : forall cut p q c d, length q = length p -> valid_cut TPCO (length p) cut ->
  cross TPCO cut p q = Ok (c, d) -> last c 0%Z = last p 0%Z /\ last d 0%Z = last q 0%Z.
Proof.
  intros cut p q c d L [V1 V2] H.
  assert (N : 1 <= length p) by lia.
  assert (LG : same_genes p q c d) by (eapply cross_genes; eassumption). destruct LG as (LC & LD & _).
  assert (LN : forall l : genome, 1 <= length l -> last l 0%Z = nth (length l - 1) l 0%Z).
  { clear. induction l as [|x l IH]; [cbn; lia|]. intros _. destruct l as [|y l]; [reflexivity|].
    change (last (x :: y :: l) 0%Z) with (last (y :: l) 0%Z). rewrite IH by (cbn; lia).
    cbn [length]. replace (S (S (length l)) - 1) with (S (length l)) by lia. replace (S (length l) - 1) with (length l) by lia. reflexivity. }
  rewrite !LN by lia. rewrite LC, LD, L.
  destruct (Nat.eq_dec (length p) 1) as [E|E].
  - unfold cross in H. rewrite E in H. cbn in H. injection H; intros <- <-. now split.
  - destruct (cross_double cut p q c d (length p - 1) L) as [_ X]; [lia|assumption|lia|]. apply X. lia.
Qed.

Lemma cross_uniform : forall cut p q c d i, length q = length p -> 2 <= length p ->
  cross UNCO cut p q = Ok (c, d) -> i < length p ->
  if cut i =? 0 then nth i c 0%Z = nth i p 0%Z /\ nth i d 0%Z = nth i q 0%Z
  else nth i c 0%Z = nth i q 0%Z /\ nth i d 0%Z = nth i p 0%Z.
Proof.
  intros cut p q c d i L N H I. unfold cross in H. destruct (Nat.eqb_spec (length p) 1); [lia|].
  injection H; intros <- <-. rewrite !take_from_nth by lia. destruct (cut i =? 0); now split.
Qed.

(** ** Best positions and selections *)

Definition is_best (l : list Q) (k : nat) : Prop :=
  k < length l /\ forall i, i < length l -> (nth i l 0 <= nth k l 0)%Q.

Lemma argmax_from_spec : forall l pre best v, best < length pre -> nth best pre 0%Q = v ->
  (forall i, i < length pre -> (nth i pre 0 <= v)%Q) ->
  is_best (pre ++ l) (argmax_from (length pre) best v l).
Proof.
  induction l as [|x l IH]; intros pre best v B E M; cbn.
  - rewrite app_nil_r. split; [assumption|]. intros i I. rewrite E. now apply M.
  - replace (pre ++ x :: l) with ((pre ++ [x]) ++ l) by now rewrite <- app_assoc.
    assert (LP : S (length pre) = length (pre ++ [x])) by (rewrite app_length; cbn; lia).
    destruct (Qltb v x) eqn:C.
    + apply qltb_iff in C. rewrite LP. apply IH; [lia|now rewrite app_nth2, Nat.sub_diag by lia|].
      intros i I. destruct (Nat.eq_dec i (length pre)) as [->|N].
      * rewrite app_nth2, Nat.sub_diag by lia. cbn. lra.
      * rewrite app_nth1 by lia. assert (nth i pre 0 <= v)%Q by (apply M; lia). lra.
    + apply qltb_false in C. rewrite LP. apply IH; [lia|now rewrite app_nth1 by lia|].
      intros i I. destruct (Nat.eq_dec i (length pre)) as [->|N].
      * rewrite app_nth2, Nat.sub_diag by lia. cbn. lra.
      * rewrite app_nth1 by lia. apply M. lia.
Qed.

Lemma argmax_spec : forall l, l <> [] -> is_best l (argmax l).
Proof.
  intros [|x l] N; [congruence|]. unfold argmax.
  apply (argmax_from_spec l [x] 0 x); [cbn; lia|reflexivity|]. intros [|i] I; cbn in *; [lra|lia].
Qed.

(** A tournament: the winner is one of the contestants and has the best score
    of them. *)
Lemma tournament_spec : forall scores drawn, drawn <> [] ->
  In (tournament scores drawn) drawn /\
  forall i, In i drawn -> (nth i scores 0 <= nth (tournament scores drawn) scores 0)%Q.
Proof.
  intros scores drawn N. unfold tournament.
  destruct (argmax_spec (map (fun i => nth i scores 0%Q) drawn)) as [K M].
  { destruct drawn; [congruence|discriminate]. }
  rewrite map_length in *. split; [now apply nth_In|].
  intros i I. destruct (In_nth _ _ 0 I) as (j & J & <-). specialize (M j J).
  set (k := argmax (map (fun i : nat => nth i scores 0%Q) drawn)) in *.
  rewrite (nth_map_in _ _ (fun i => nth i scores 0%Q) drawn 0 0%Q j) in M by assumption.
  rewrite (nth_map_in _ _ (fun i => nth i scores 0%Q) drawn 0 0%Q k) in M by assumption. exact M.
Qed.

(** The draws that [np.random.choice] without replacement can make. *)
Definition valid_draw (m : selection) (scores : list Q) (d : draw) : Prop :=
  let n := length scores in
  match m with
  | TNS => (length (d_first d) = contestants n /\ NoDup (d_first d) /\ forall i, In i (d_first d) -> i < n) /\
           (length (d_second d) = contestants n /\ NoDup (d_second d) /\ forall i, In i (d_second d) -> i < n)
  | FPS => fst (d_pair d) < n /\ snd (d_pair d) < n /\ fst (d_pair d) <> snd (d_pair d) /\
           ~ (nth (fst (d_pair d)) (fps_scores scores) 0 == 0)%Q /\ ~ (nth (snd (d_pair d)) (fps_scores scores) 0 == 0)%Q
  | RKS => fst (d_pair d) < n /\ snd (d_pair d) < n /\ fst (d_pair d) <> snd (d_pair d)
  | SelOther => True
  end.

(** At least [k] individuals, itself included, do not have a better score. *)
Definition beats (scores : list Q) (k : nat) (i : nat) : Prop :=
  i < length scores /\
  exists l, length l = k /\ NoDup l /\ In i l /\ forall j, In j l -> j < length scores /\ (nth j scores 0 <= nth i scores 0)%Q.

Lemma tournament_beats : forall scores drawn k, length drawn = k -> NoDup drawn -> 0 < k ->
  (forall i, In i drawn -> i < length scores) -> beats scores k (tournament scores drawn).
Proof.
  intros scores drawn k L ND K R. destruct (tournament_spec scores drawn) as [H1 H2].
  { intros ->. cbn in L. lia. }
  split; [now apply R|]. exists drawn. repeat split; auto.
Qed.

Lemma contestants_spec : forall n, 2 <= n -> 2 <= contestants n <= n /\ (n <= 10 * contestants n).
Proof.
  intros n N. unfold contestants. destruct (cdiv_spec (Z.of_nat n) 10) as [A B]; [lia|]. lia.
Qed.

Lemma select_tournament : forall scores d, 2 <= length scores -> valid_draw TNS scores d ->
  exists a b, select TNS scores d = (scores, Ok (a, b)) /\
    beats scores (contestants (length scores)) a /\ beats scores (contestants (length scores)) b.
Proof.
  intros scores d N ((L1 & N1 & R1) & (L2 & N2 & R2)).
  pose proof (contestants_spec (length scores) N) as C.
  do 2 eexists. split; [reflexivity|]. split; apply tournament_beats; try assumption; lia.
Qed.

Definition nonneg (l : list Q) : Prop := forall x, In x l -> (0 <= x)%Q.

Lemma nonzero_ge : forall l, nonzero l <= length l.
Proof.
  induction l as [|x t IH]; [reflexivity|]. unfold nonzero in *. cbn [filter].
  destruct (negb (Qeq_bool x 0)); cbn [length]; lia.
Qed.

Lemma nonzero_ones : forall (l : list Q), nonzero (map (fun _ => 1%Q) l) = length l.
Proof. induction l as [|x t IH]; [reflexivity|]. cbn. now f_equal. Qed.

(** Fitness proportionate selection never raises on non negative scores, and
    never takes an individual of null score if there are two others. *)
Lemma select_fitness : forall scores d, 2 <= length scores -> nonneg scores -> valid_draw FPS scores d ->
  exists s' a b, select FPS scores d = (s', Ok (a, b)) /\ a < length scores /\ b < length scores /\ a <> b /\
    length s' = length scores /\ 2 <= nonzero s' /\ nonneg s' /\
    (2 <= nonzero scores -> s' = scores /\ (0 < nth a scores 0)%Q /\ (0 < nth b scores 0)%Q).
Proof.
  intros scores d N NN (A & B & AB & ZA & ZB). unfold select.
  assert (NF : nonneg (fps_scores scores)).
  { unfold fps_scores. destruct (nonzero scores <? 2); [|assumption]. intros x X. apply in_map_iff in X.
    destruct X as (y & <- & _). lra. }
  assert (E : existsb (fun x => Qltb x 0) (fps_scores scores) = false).
  { destruct (existsb _ _) eqn:E; [|reflexivity]. apply existsb_exists in E. destruct E as (x & X & Y).
    apply qltb_iff in Y. specialize (NF x X). exfalso. lra. }
  rewrite E. destruct (d_pair d) as [a b]. cbn in *. exists (fps_scores scores), a, b.
  split; [reflexivity|]. split; [assumption|]. split; [assumption|]. split; [assumption|].
  split; [unfold fps_scores; destruct (_ <? 2); [apply map_length|reflexivity]|].
  split. { unfold fps_scores. destruct (Nat.ltb_spec (nonzero scores) 2); [rewrite nonzero_ones|]; lia. }
  split; [assumption|]. intros Z2.
  assert (F : fps_scores scores = scores) by (unfold fps_scores; destruct (Nat.ltb_spec (nonzero scores) 2); [lia|reflexivity]).
  split; [assumption|]. rewrite F in *.
  assert (P : forall i, i < length scores -> ~ (nth i scores 0 == 0)%Q -> (0 < nth i scores 0)%Q).
  { intros i I NZ. assert (0 <= nth i scores 0)%Q by (apply NN; now apply nth_In).
    destruct (Qlt_le_dec 0 (nth i scores 0%Q)) as [Q|Q]; [assumption|]. exfalso. apply NZ. lra. }
  split; now apply P.
Qed.

(** ** Sorts *)

Definition sorts (sort : list Q -> list nat) : Prop :=
  forall l, Permutation (seq 0 (length l)) (sort l) /\
    forall i j, i < j < length l -> (nth (nth i (sort l) 0%nat) l 0 <= nth (nth j (sort l) 0%nat) l 0)%Q.

(** [np.argsort] of strictly decreasing scores, hence the ranks. *)
Lemma ranks_decreasing : forall sort l, sorts sort ->
  (forall i j, i < j < length l -> (nth j l 0 < nth i l 0)%Q) ->
  ranks sort l = map (fun i => length l - i) (seq 0 (length l)).
Proof.
  intros sort l SO D. destruct (SO l) as [P M]. unfold ranks.
  assert (LS : length (sort l) = length l) by (rewrite <- (Permutation_length P); apply seq_length).
  assert (ND : NoDup (sort l)) by (eapply Permutation_NoDup; [exact P|apply seq_NoDup]).
  assert (R : forall i, i < length l -> nth i (sort l) 0 < length l).
  { intros i I. assert (X : In (nth i (sort l) 0) (sort l)) by (apply nth_In; lia).
    apply (Permutation_in _ (Permutation_sym P)) in X. apply in_seq in X. lia. }
  (* positions decrease *)
  assert (DEC : forall i j, i < j < length l -> nth j (sort l) 0 < nth i (sort l) 0).
  { intros i j IJ. specialize (M i j IJ).
    destruct (lt_eq_lt_dec (nth j (sort l) 0) (nth i (sort l) 0)) as [[G|G]|G]; [assumption| |].
    - exfalso. assert (j = i) by (apply (proj1 (NoDup_nth (sort l) 0) ND); lia). lia.
    - exfalso. assert (nth (nth j (sort l) 0%nat) l 0 < nth (nth i (sort l) 0%nat) l 0)%Q by (apply D; split; [assumption|apply R; lia]). lra. }
  assert (LOW : forall i, i < length l -> nth i (sort l) 0 + i <= length l - 1).
  { induction i as [|i IH]; intros I; [specialize (R 0 I); lia|].
    specialize (IH ltac:(lia)). specialize (DEC i (S i) ltac:(lia)). lia. }
  assert (UP : forall k i, i + S k = length l -> k <= nth i (sort l) 0).
  { induction k as [|k IH]; intros i E; [lia|]. specialize (IH (S i) ltac:(lia)).
    specialize (DEC i (S i) ltac:(lia)). lia. }
  apply (nth_ext _ _ 0 0); [now rewrite !map_length, seq_length|].
  intros i I. rewrite map_length in I.
  rewrite (nth_indep _ 0 (S 0)) by (rewrite map_length; lia). rewrite map_nth.
  rewrite (nth_map_in _ _ (fun i => length l - i) (seq 0 (length l)) 0 0 i) by (rewrite seq_length; lia).
  rewrite seq_nth by lia. specialize (LOW i ltac:(lia)). specialize (UP (length l - 1 - i) i ltac:(lia)). lia.
Qed.
