(** Specifications and lemmas for M_Antenna: azimuths of pixels, files of maps. *)
From Coq Require Import Ascii String List Arith ZArith QArith Qabs Bool Permutation Sorting.Sorted Lia Lqa.
From Verif Require Import Base M_Antenna P_Antenna.
Import ListNotations.
Open Scope nat_scope.
Open Scope list_scope.

(** * Azimuths *)
Lemma ring_size_sym : forall n r, r <= 4 * n -> ring_size n (4 * n - r) = ring_size n r.
Proof. intros n r H. unfold ring_size. lia. Qed.
Lemma half_shift_sym : forall n r, 1 <= r <= 4 * n - 1 -> half_shift n (4 * n - r) = half_shift n r.
Proof.
  intros n r H. unfold half_shift.
  assert (E : Nat.even (4 * n - r + n) = Nat.even (r + n)).
  { destruct (le_lt_dec r (2 * n)).
    - replace (4 * n - r + n) with (r + n + 2 * (2 * n - r)) by lia. apply Nat.even_add_mul_2.
    - replace (r + n) with (4 * n - r + n + 2 * (r - 2 * n)) by lia. now rewrite Nat.even_add_mul_2. }
  rewrite E. destruct (Nat.ltb_spec (4 * n - r) n), (Nat.ltb_spec (3 * n) r), (Nat.ltb_spec r n), (Nat.ltb_spec (3 * n) (4 * n - r)); try lia; reflexivity.
Qed.
Lemma ring_sym : forall n r, 1 <= r <= 4 * n - 1 -> ring n (4 * n - r) = ring n r.
Proof. intros n r H. unfold ring. now rewrite ring_size_sym, half_shift_sym by lia. Qed.
Lemma flat_map_rev : forall A B (f : A -> list B) l, rev (flat_map f l) = flat_map (fun x => rev (f x)) (rev l).
Proof.
  intros A B f l; induction l as [|a l IH]; [reflexivity|]. cbn [flat_map rev]. rewrite rev_app_distr, IH.
  rewrite flat_map_app. cbn. now rewrite app_nil_r.
Qed.
Lemma rev_seq1 : forall k, rev (seq 1 k) = map (fun r => S k - r) (seq 1 k).
Proof.
  intros k. apply nth_ext with (d := 0) (d' := 0); [now rewrite rev_length, map_length|].
  intros i H. rewrite rev_length, seq_length in H. rewrite rev_nth by (rewrite seq_length; exact H). rewrite seq_length.
  rewrite nth_indep with (l := map _ _) (d' := S k - 0) by (rewrite map_length, seq_length; exact H).
  rewrite (map_nth (fun r => S k - r)), !seq_nth by lia. lia.
Qed.
Lemma azgrid_rev : forall n, rev (azgrid n) = flat_map (fun r => rev (ring n r)) (seq 1 (4 * n - 1)).
Proof.
  intros n. unfold azgrid. rewrite flat_map_rev, rev_seq1. destruct (Nat.eq_dec n 0) as [->|N]; [reflexivity|].
  replace (S (4 * n - 1)) with (4 * n) by lia.
  assert (G : forall l, (forall r, In r l -> 1 <= r <= 4 * n - 1) -> flat_map (fun x => rev (ring n x)) (map (fun r => 4 * n - r) l) = flat_map (fun r => rev (ring n r)) l).
  { induction l as [|r l IH]; intros H; [reflexivity|]. cbn [map flat_map]. rewrite ring_sym by (apply H; now left). rewrite IH; [reflexivity|]. intros; apply H; now right. }
  apply G. intros r I. apply in_seq in I. lia.
Qed.
(** The number of the first pixel of a ring *)
Definition first_pixel (nside r : nat) : nat := list_sum (map (ring_size nside) (seq 1 (r - 1))).
Lemma ring_length : forall n r, length (ring n r) = ring_size n r.
Proof. intros. unfold ring. now rewrite map_length, seq_length. Qed.
Lemma flat_map_split : forall B (f : nat -> list B) m k r j d, (forall x, length (f x) = k x) -> 1 <= r <= m -> j < k r ->
  nth (list_sum (map k (seq 1 (r - 1))) + j) (flat_map f (seq 1 m)) d = nth j (f r) d.
Proof.
  intros B f m k r j d L R J.
  replace m with ((r - 1) + S (m - r)) by lia. rewrite seq_app, flat_map_app.
  assert (E : forall a n, length (flat_map f (seq a n)) = list_sum (map k (seq a n))).
  { intros a n; revert a; induction n as [|n IH]; intros a; [reflexivity|]. cbn [seq flat_map map]. cbn [list_sum fold_right]. rewrite app_length, L, IH. reflexivity. }
  rewrite app_nth2 by (rewrite E; lia). rewrite E. replace (_ + j - _) with j by lia.
  replace (1 + (r - 1)) with r by lia. cbn [seq flat_map]. apply app_nth1. now rewrite L.
Qed.
Lemma ring_nth : forall n r j, j < ring_size n r ->
  nth j (ring n r) 0%Q = ((inject_Z (Z.of_nat j) + (if half_shift n r then 1 # 2 else 0)) * (360 / inject_Z (Z.of_nat (ring_size n r))))%Q.
Proof.
  intros n r j J. unfold ring.
  set (h := fun j => ((inject_Z (Z.of_nat j) + (if half_shift n r then 1 # 2 else 0)) * (360 / inject_Z (Z.of_nat (ring_size n r))))%Q).
  rewrite nth_indep with (d' := h 0) by (rewrite map_length, seq_length; exact J). rewrite map_nth, seq_nth by exact J. reflexivity.
Qed.
(** The azimuth of a pixel and the one at which its gain is read *)
Definition azimuth (n p : nat) : Q := nth p (azgrid n) 0%Q.
Definition read_azimuth (n p : nat) : Q := nth p (rev (azgrid n)) 0%Q.
Definition width (n r : nat) : Q := (360 / inject_Z (Z.of_nat (ring_size n r)))%Q.
Lemma size_pos : forall n r j, j < ring_size n r -> ~ (inject_Z (Z.of_nat (ring_size n r)) == 0)%Q.
Proof. intros n r j H E. change 0%Q with (inject_Z 0) in E. pose proof (proj1 (inject_Z_injective _ _) E). lia. Qed.
Theorem azimuth_value : forall n r j, 1 <= r <= 4 * n - 1 -> j < ring_size n r ->
  (azimuth n (first_pixel n r + j) == (inject_Z (Z.of_nat j) + (if half_shift n r then 1 # 2 else 0)) * width n r)%Q.
Proof.
  intros n r j R J. unfold azimuth, azgrid, first_pixel. rewrite (flat_map_split _ _ _ (ring_size n)); [|apply ring_length|exact R|exact J].
  rewrite ring_nth by exact J. reflexivity.
Qed.
Theorem azimuth_mirror : forall n r j, 1 <= r <= 4 * n - 1 -> j < ring_size n r ->
  (read_azimuth n (first_pixel n r + j) ==
   360 - azimuth n (first_pixel n r + j) - (if half_shift n r then 0 else width n r))%Q.
Proof.
  intros n r j R J. rewrite azimuth_value by assumption. unfold read_azimuth. rewrite azgrid_rev. unfold first_pixel.
  rewrite (flat_map_split _ (fun r => rev (ring n r)) _ (ring_size n)); [|intros; rewrite rev_length; apply ring_length|exact R|exact J].
  rewrite rev_nth by (rewrite ring_length; exact J). rewrite ring_length, ring_nth by lia. unfold width.
  replace (Z.of_nat (ring_size n r - S j)) with (Z.of_nat (ring_size n r) - Z.of_nat j - 1)%Z by lia.
  pose proof (size_pos n r j J) as N. set (s := Z.of_nat (ring_size n r)) in *.
  unfold Z.sub. rewrite !inject_Z_plus, !inject_Z_opp.
  destruct (half_shift n r); field; exact N.
Qed.
(** A ring with a pixel at azimuth 0 *)
Theorem azimuth_mirror_refuted : forall n, 1 <= n ->
  exists p, (azimuth n p == 0)%Q /\ (read_azimuth n p == 360 - 360 / inject_Z (4 * Z.of_nat n))%Q.
Proof.
  intros n N. set (r := if Nat.even (n + n) then S n else n). exists (first_pixel n (n + 1) + 0).
  destruct (Nat.eq_dec n 1) as [->|N1].
  - split; vm_compute; reflexivity.
  - assert (R : 1 <= n + 1 <= 4 * n - 1) by lia.
    assert (S1 : ring_size n (n + 1) = 4 * n) by (unfold ring_size; lia).
    assert (H : half_shift n (n + 1) = false).
    { unfold half_shift. replace (n + 1 + n) with (1 + 2 * n) by lia. rewrite Nat.even_add_mul_2.
      destruct (Nat.ltb_spec (n + 1) n), (Nat.ltb_spec (3 * n) (n + 1)); try lia. reflexivity. }
    split.
    + rewrite azimuth_value by lia. rewrite H. cbn [Z.of_nat]. ring_simplify. reflexivity.
    + rewrite azimuth_mirror by lia. rewrite azimuth_value by lia. rewrite H. unfold width. rewrite S1.
      replace (Z.of_nat (4 * n)) with (4 * Z.of_nat n)%Z by lia. cbn [Z.of_nat]. ring.
Qed.
Lemma azgrid_length : forall n, length (azgrid n) = 12 * n * n.
Proof.
  intros n. unfold azgrid.
  assert (E : forall a k, length (flat_map (ring n) (seq a k)) = list_sum (map (ring_size n) (seq a k))).
  { intros a k; revert a; induction k as [|k IH]; intros a; [reflexivity|]. cbn [seq flat_map map]. cbn [list_sum fold_right]. now rewrite app_length, ring_length, IH. }
  rewrite E. destruct (Nat.eq_dec n 0) as [->|N]; [reflexivity|].
  assert (A : forall k, k <= n -> list_sum (map (ring_size n) (seq 1 k)) = 2 * k * (k + 1)).
  { induction k as [|k IH]; intros H; [reflexivity|]. rewrite seq_S, map_app, list_sum_app, IH by lia. cbn [map list_sum fold_right].
    unfold ring_size. replace (Nat.min (Nat.min (1 + k) n) (4 * n - (1 + k))) with (k + 1) by lia. nia. }
  assert (B : forall k, k <= 2 * n -> list_sum (map (ring_size n) (seq 1 (n + k))) = 2 * n * (n + 1) + 4 * n * k).
  { induction k as [|k IH]; intros H; [rewrite Nat.add_0_r, A by lia; lia|].
    replace (n + S k) with (S (n + k)) by lia. rewrite seq_S, map_app, list_sum_app, IH by lia. cbn [map list_sum fold_right].
    unfold ring_size. replace (Nat.min (Nat.min (1 + (n + k)) n) (4 * n - (1 + (n + k)))) with n by lia. nia. }
  assert (C : forall k, k <= n - 1 -> list_sum (map (ring_size n) (seq 1 (n + 2 * n + k))) + 2 * (n - 1 - k) * (n - k) = 2 * n * (n + 1) + 8 * n * n + 2 * (n - 1) * n).
  { induction k as [|k IH]; intros H; [rewrite Nat.add_0_r, B by lia; rewrite !Nat.sub_0_r; nia|].
    specialize (IH ltac:(lia)). replace (n + 2 * n + S k) with (S (n + 2 * n + k)) by lia. rewrite seq_S, map_app, list_sum_app. cbn [map list_sum fold_right].
    unfold ring_size at 2. replace (Nat.min (Nat.min (1 + (n + 2 * n + k)) n) (4 * n - (1 + (n + 2 * n + k)))) with (n - 1 - k) by lia.
    replace (n - 1 - S k) with (n - 1 - k - 1) by lia. replace (n - S k) with (n - k - 1) by lia. nia. }
  specialize (C (n - 1) ltac:(lia)). replace (n + 2 * n + (n - 1)) with (4 * n - 1) in C by lia. rewrite Nat.sub_diag in C. nia.
Qed.
(** Every pixel is one of a ring. *)
Theorem healpix_map : forall m nside elevation f, interpolator m = Ok f ->
  exists l, to_healpix m nside elevation = Ok l /\ length l = 12 * nside * nside /\
    forall p, p < length l -> nth_error l p = Some (f (micro (read_azimuth nside p)) (micro (elevation p))).
Proof.
  intros m n e f F. unfold to_healpix. rewrite F. cbn [bind]. eexists; split; [reflexivity|].
  rewrite map_length, combine_length, seq_length, rev_length, Nat.min_id, azgrid_length. split; [reflexivity|].
  intros p P. rewrite map_nth_error with (d := (p, read_azimuth n p)); [reflexivity|].
  assert (G : forall (A B : Type) (a : list A) (b : list B) k x y, nth_error a k = Some x -> nth_error b k = Some y -> nth_error (combine a b) k = Some (x, y)).
  { induction a as [|? ? IH]; intros [|? ?] [|k] x y X Y; try discriminate; [now injection X as ->; injection Y as ->|]. now apply IH. }
  apply G.
  - rewrite nth_error_nth' with (d := 0) by (rewrite seq_length; exact P). now rewrite seq_nth by exact P.
  - unfold read_azimuth. apply nth_error_nth'. rewrite rev_length, azgrid_length. exact P.
Qed.
Theorem pixel_ring : forall n p, p < 12 * n * n -> exists r j, 1 <= r <= 4 * n - 1 /\ j < ring_size n r /\ p = first_pixel n r + j.
Proof.
  intros n p H. rewrite <- azgrid_length in H. unfold azgrid in H.
  assert (E : forall a k, length (flat_map (ring n) (seq a k)) = list_sum (map (ring_size n) (seq a k))).
  { intros a k; revert a; induction k as [|k IH]; intros a; [reflexivity|]. cbn [seq flat_map map]. cbn [list_sum fold_right]. now rewrite app_length, ring_length, IH. }
  rewrite E in H. unfold first_pixel. revert H. generalize (4 * n - 1). intros k. induction k as [|k IH]; intros H; [cbn in H; lia|].
  destruct (Nat.lt_ge_cases p (list_sum (map (ring_size n) (seq 1 k)))) as [L|L].
  - destruct (IH L) as (r & j & R & J & P). exists r, j. repeat split; try assumption; lia.
  - rewrite seq_S, map_app, list_sum_app in H. cbn [map list_sum fold_right] in H.
    exists (S k), (p - list_sum (map (ring_size n) (seq 1 k))). replace (S k - 1) with k by lia. cbn [Nat.add] in H. split; [lia|split; lia].
Qed.

(** * Files of maps *)
Section Files.
Context {F : Type}.
Variable read : F -> res (Q * list Q).
Variable show : Q -> string.
Definition by_frequency (a b : Q * list Q) : Prop := (fst a <= fst b)%Q.
Lemma finsert_perm : forall x l, Permutation (x :: l) (finsert x l).
Proof.
  intros x l; induction l as [|y l IH]; cbn; [apply Permutation_refl|]. destruct (Qle_bool (fst x) (fst y)); [apply Permutation_refl|].
  eapply perm_trans; [apply perm_swap|]. now constructor.
Qed.
Lemma fsort_perm : forall l, Permutation l (fsort l).
Proof. induction l as [|x l IH]; cbn; [constructor|]. eapply perm_trans; [apply perm_skip, IH|apply finsert_perm]. Qed.
Lemma finsert_sorted : forall x l, Sorted by_frequency l -> Sorted by_frequency (finsert x l).
Proof.
  intros x l H; induction H as [|y l H IH R]; cbn; [repeat constructor|]. destruct (Qle_bool (fst x) (fst y)) eqn:E.
  - constructor; [now constructor|]. constructor. now apply Qle_bool_iff.
  - assert (L : (fst y <= fst x)%Q) by (apply Qlt_le_weak, Qnot_le_lt; intros X; apply Qle_bool_iff in X; congruence).
    constructor; [exact IH|]. destruct l as [|z l]; cbn; [now constructor|]. inversion R; subst. destruct (Qle_bool (fst x) (fst z)); constructor; assumption.
Qed.
Lemma fsort_sorted : forall l, Sorted by_frequency (fsort l).
Proof. induction l as [|x l IH]; cbn; [constructor|now apply finsert_sorted]. Qed.

(** The columns of one polarization: what was read, by increasing frequencies *)
Definition columns_of (pol : string) (files : list F) (cols : list (string * list Q)) : Prop :=
  exists contents sorted, Forall2 (fun f c => read f = Ok c) files contents /\ Permutation contents sorted /\ Sorted by_frequency sorted /\
    cols = map (fun c => ((pol ++ "_" ++ show (fst c))%string, snd c)) sorted.
Theorem file_columns : forall nw ne cols, write_file read show nw ne = Ok (Some cols) ->
  exists a b, cols = a ++ b /\
    match nw with Some l => columns_of "NW" l a | None => a = [] end /\
    match ne with Some l => columns_of "NE" l b | None => b = [] end.
Proof.
  intros nw ne cols. unfold write_file.
  assert (G : forall pol files c, polarized read show pol files = Ok c -> match files with Some l => columns_of pol l c | None => c = [] end).
  { intros pol [[|f l]|] c; cbn [polarized]; [discriminate| |now intros [= <-]].
    destruct (collect (map read (f :: l))) as [contents|] eqn:E; [|discriminate]. cbn [bind]. intros [= <-].
    exists contents, (fsort contents). apply collect_ok in E. repeat split; [exact E|apply fsort_perm|apply fsort_sorted]. }
  destruct (polarized read show "NW" nw) as [a|] eqn:A; [|discriminate]. cbn [bind].
  destruct (polarized read show "NE" ne) as [b|] eqn:B; [|discriminate]. cbn [bind]. intros H. exists a, b.
  apply G in A, B. split; [|split; assumption]. destruct (a ++ b); [discriminate|congruence].
Qed.
Theorem file_none : write_file read show None None = Ok None.
Proof. reflexivity. Qed.
Theorem file_empty : forall nw ne, nw = Some [] \/ (ne = Some [] /\ nw = None) -> write_file read show nw ne = Err EException.
Proof. intros nw ne [->|(-> & ->)]; reflexivity. Qed.
Theorem file_written : forall nw ne, nw <> Some [] -> ne <> Some [] -> (nw <> None \/ ne <> None) ->
  (forall f, (exists l, nw = Some l /\ In f l) \/ (exists l, ne = Some l /\ In f l) -> exists c, read f = Ok c) ->
  exists cols, write_file read show nw ne = Ok (Some cols) /\
    length cols = length (match nw with Some l => l | None => [] end) + length (match ne with Some l => l | None => [] end).
Proof.
  intros nw ne A B C D. unfold write_file.
  assert (G : forall pol files, files <> Some [] -> (forall f, (exists l, files = Some l /\ In f l) -> exists c, read f = Ok c) ->
    exists c, polarized read show pol files = Ok c /\ length c = length (match files with Some l => l | None => [] end)).
  { intros pol [[|f l]|] N R; cbn [polarized]; [now destruct N| |exists []; now split].
    assert (E : exists c, collect (map read (f :: l)) = Ok c).
    { assert (R' : forall g, In g (f :: l) -> exists c, read g = Ok c) by (intros g I; apply R; eauto). clear R N.
      induction (f :: l) as [|g t IH]; [exists []; reflexivity|]. cbn [map collect]. destruct (R' g (or_introl eq_refl)) as (c & ->). cbn [bind].
      destruct IH as (r & ->); [intros; apply R'; now right|]. cbn. eauto. }
    destruct E as (c & E). rewrite E. cbn [bind]. eexists; split; [reflexivity|]. rewrite map_length, <- (Permutation_length (fsort_perm c)).
    apply collect_ok in E. symmetry. clear - E. induction E; cbn; congruence. }
  destruct (G "NW"%string nw A) as (a & -> & La); [intros; apply D; now left|].
  destruct (G "NE"%string ne B) as (b & -> & Lb); [intros; apply D; now right|]. cbn [bind].
  rewrite <- La, <- Lb, <- app_length. destruct (a ++ b) as [|x l] eqn:E; [|eauto]. exfalso. apply app_eq_nil in E. destruct E as (-> & ->).
  destruct nw as [[|? ?]|], ne as [[|? ?]|]; try discriminate; try (now destruct A); try (now destruct B). destruct C; congruence.
Qed.

(** ** Reading *)
Variable float : string -> option Q.
Definition gives (pol : string) (c : string * list Q) (q : Q) : Prop := label float (fst c) = Ok (pol, q).
Lemma label_written : forall pol q, ~ char_in "_" pol -> ~ char_in "_" (show q) -> float (show q) = Some q ->
  label float (pol ++ "_" ++ show q)%string = Ok (pol, q).
Proof.
  intros pol q A B E. unfold label. change (pol ++ "_" ++ show q)%string with (pol ++ String "_" (show q))%string.
  now rewrite split_on_app, split_on_absent, E by assumption.
Qed.
Lemma qmax_ge : forall a b, (a <= qmax a b /\ b <= qmax a b)%Q.
Proof.
  intros a b. unfold qmax. destruct (Qle_bool a b) eqn:E.
  - apply Qle_bool_iff in E. split; [exact E|apply Qle_refl].
  - split; [apply Qle_refl|]. apply Qlt_le_weak, Qnot_le_lt. intros X. apply Qle_bool_iff in X. congruence.
Qed.
Lemma fold_max_ge : forall l x, (x <= fold_left qmax l x)%Q /\ forall y, In y l -> (y <= fold_left qmax l x)%Q.
Proof.
  induction l as [|a l IH]; intros x; cbn [fold_left]; [split; [apply Qle_refl|intros y []]|].
  destruct (IH (qmax x a)) as (A & B), (qmax_ge x a) as (C & D). split; [eapply Qle_trans; eassumption|].
  intros y [->|I]; [eapply Qle_trans; eassumption|now apply B].
Qed.
Lemma fold_max_in : forall l x, fold_left qmax l x = x \/ In (fold_left qmax l x) l.
Proof.
  induction l as [|a l IH]; intros x; cbn [fold_left]; [now left|]. destruct (IH (qmax x a)) as [->|H]; [|right; now right].
  unfold qmax. destruct (Qle_bool x a); [right; now left|now left].
Qed.
Lemma largest_spec : forall l, l <> [] -> In (largest l) l /\ forall y, In y l -> (y <= largest l)%Q.
Proof.
  intros [|x l] N; [congruence|]. cbn [largest]. split.
  - destruct (fold_max_in l x) as [->|H]; [now left|now right].
  - destruct (fold_max_ge l x) as (A & B). intros y [<-|I]; [exact A|now apply B].
Qed.
(** The columns of a polarization, in their order *)
Definition chosen (pol : string) (file : list (string * list Q)) (names : list (string * Q)) : list ((string * Q) * list Q) :=
  filter (fun p => String.eqb (fst (fst p)) pol) (combine names (map snd file)).
Theorem load_spec : forall file pol maps, load_file float file pol = Ok maps ->
  exists names m, Forall2 (fun c n => label float (fst c) = Ok n) file names /\
    (forall k v, In (k, v) (chosen pol file names) -> fst k = pol) /\
    m = largest (flat_map snd (chosen pol file names)) /\
    maps = map (fun p => (snd (fst p), map (divided m) (snd p))) (chosen pol file names) /\ maps <> [].
Proof.
  intros file pol maps. unfold load_file. destruct (collect (map (fun c => label float (fst c)) file)) as [names|] eqn:E; [|discriminate].
  cbn [bind]. change (filter _ _) with (chosen pol file names). apply collect_ok in E. intros H. exists names, (largest (flat_map snd (chosen pol file names))).
  split; [exact E|]. split.
  - intros k v I. apply filter_In in I. destruct I as (_ & I). now apply String.eqb_eq in I.
  - split; [reflexivity|]. destruct (chosen pol file names) as [|c l]; [discriminate|]. injection H as <-. split; [reflexivity|discriminate].
Qed.
(** The largest value of the polarization becomes one; the others keep their ratios. *)
Theorem load_scaled : forall file pol maps, load_file float file pol = Ok maps ->
  forall names, Forall2 (fun c n => label float (fst c) = Ok n) file names ->
  (exists v, In v (flat_map snd (chosen pol file names)) /\ 0 < v)%Q ->
  (forall f g x, In (f, g) maps -> In x g -> exists v, x = Some v /\ v <= 1)%Q /\
  (exists f g v, In (f, g) maps /\ In (Some v) g /\ v == 1)%Q.
Proof.
  intros file pol maps H names N (w & W & P). destruct (load_spec _ _ _ H) as (names' & m & N' & _ & M & E & _).
  assert (names' = names) as -> by (clear - N N'; revert names' N'; induction N; intros ? X; inversion X; subst; [reflexivity|]; f_equal; [congruence|now apply IHN]).
  destruct (largest_spec (flat_map snd (chosen pol file names))) as (L1 & L2); [intros X; rewrite X in W; inversion W|]. rewrite <- M in L1, L2.
  assert (Pm : (0 < m)%Q) by (eapply Qlt_le_trans; [exact P|now apply L2]).
  assert (D : forall v, divided m v = Some (v / m)%Q).
  { intros v. unfold divided. destruct (Qeq_bool m 0) eqn:Z0; [|reflexivity]. apply Qeq_bool_iff in Z0. exfalso. rewrite Z0 in Pm. now apply Qlt_irrefl in Pm. }
  split.
  - intros f g x I X. rewrite E in I. apply in_map_iff in I. destruct I as (p & Ep & Ip). injection Ep as <- <-. apply in_map_iff in X. destruct X as (v & <- & V).
    exists (v / m)%Q. split; [apply D|]. apply Qle_shift_div_r; [exact Pm|]. rewrite Qmult_1_l. apply L2. apply in_flat_map. eauto.
  - apply in_flat_map in L1. destruct L1 as (p & Ip & Im). exists (snd (fst p)), (map (divided m) (snd p)), (m / m)%Q. rewrite E. split; [apply in_map_iff; exists p; now split|].
    split; [apply in_map_iff; exists m; split; [apply D|exact Im]|]. field. intros Z0. rewrite Z0 in Pm. now apply Qlt_irrefl in Pm.
Qed.
Theorem load_missing : forall file pol names, Forall2 (fun c n => label float (fst c) = Ok n) file names ->
  ((forall n, In n names -> fst n <> pol) <-> load_file float file pol = Err EException).
Proof.
  intros file pol names N. unfold load_file. pose proof N as E. apply collect_ok in E. rewrite E. cbn [bind].
  assert (L : length names = length (map snd file)) by (rewrite map_length; clear - N; induction N; cbn; congruence).
  split.
  - intros H. assert (X : filter (fun p => String.eqb (fst (fst p)) pol) (combine names (map snd file)) = []).
    { destruct (filter _ _) as [|p t] eqn:X; [reflexivity|]. exfalso. assert (I : In p (filter (fun p => String.eqb (fst (fst p)) pol) (combine names (map snd file)))) by (rewrite X; now left).
      apply filter_In in I. destruct I as (I & Y). destruct p as (a, b). apply in_combine_l in I. apply String.eqb_eq in Y. now apply (H a I). }
    now rewrite X.
  - intros H n I EQ. destruct (filter _ _) as [|p t] eqn:X; [|discriminate]. destruct (In_nth _ _ n I) as (k & K & NE).
    assert (J : In (nth k (combine names (map snd file)) (n, [])) (filter (fun p => String.eqb (fst (fst p)) pol) (combine names (map snd file)))).
    { apply filter_In. rewrite combine_nth by exact L. split; [|cbn [fst]; rewrite NE, EQ; apply String.eqb_refl].
      rewrite <- combine_nth by exact L. apply nth_In. rewrite combine_length, <- L, Nat.min_id. exact K. }
    rewrite X in J. inversion J.
Qed.
End Files.

(** What is written for the first polarization is read back. *)
Theorem file_round_trip : forall F (read : F -> res (Q * list Q)) show float nw cols,
  (forall q, ~ char_in "_" (show q) /\ float (show q) = Some q) -> write_file read show (Some nw) None = Ok (Some cols) ->
  exists contents maps m, Forall2 (fun f c => read f = Ok c) nw contents /\ load_file float cols "NW" = Ok maps /\
    m = largest (flat_map snd (fsort contents)) /\
    map fst maps = map fst (fsort contents) /\ map snd maps = map (fun c => map (divided m) (snd c)) (fsort contents).
Proof.
  intros F read show float nw cols S H. unfold write_file in H. cbn [polarized bind] in H.
  destruct nw as [|f l]; [discriminate|]. destruct (collect (map read (f :: l))) as [contents|] eqn:E; [|discriminate]. cbn [bind] in H.
  rewrite app_nil_r in H. set (s := fsort contents) in *.
  assert (X : cols = map (fun x => (column_name show "NW" (fst x), snd x)) s /\ s <> []).
  { destruct s as [|c t]; [discriminate|]. cbn [map] in *. split; [congruence|discriminate]. }
  destruct X as (-> & N). exists contents.
  assert (C : collect (map (fun c => label float (fst c)) (map (fun x => (column_name show "NW" (fst x), snd x)) s)) = Ok (map (fun x => ("NW"%string, fst x)) s)).
  { apply collect_ok. clear - S. induction s as [|c t IH]; cbn [map]; constructor; [|exact IH]. cbn [fst]. destruct (S (fst c)). unfold column_name. apply label_written; try assumption.
    intros I; inversion I; subst; inversion H2; subst; inversion H3. }
  assert (G : filter (fun p : (string * Q) * list Q => String.eqb (fst (fst p)) "NW") (combine (map (fun x => ("NW"%string, fst x)) s) (map snd (map (fun x => (column_name show "NW" (fst x), snd x)) s)))
              = map (fun c => (("NW"%string, fst c), snd c)) s).
  { clear. induction s as [|c t IH]; [reflexivity|]. cbn [map combine filter fst snd]. cbn [String.eqb Ascii.eqb]. now rewrite IH. }
  unfold load_file. rewrite C. cbn [bind]. rewrite G.
  assert (M : flat_map snd (map (fun c => (("NW"%string, fst c), snd c)) s) = flat_map snd s) by (clear; induction s; cbn; congruence).
  rewrite M. exists (map (fun p : (string * Q) * list Q => (snd (fst p), map (divided (largest (flat_map snd s))) (snd p))) (map (fun c => (("NW"%string, fst c), snd c)) s)), (largest (flat_map snd s)). split; [now apply collect_ok|]. split; [destruct s as [|c t]; [congruence|reflexivity]|]. split; [reflexivity|].
  split; rewrite !map_map; reflexivity.
Qed.

(** * Interpolation in frequency *)
Lemma product_one : forall l, (forall x, In x l -> x == 1)%Q -> (product l == 1)%Q.
Proof. induction l as [|x l IH]; intros H; cbn; [reflexivity|]. rewrite (H x) by (now left). rewrite IH; [ring|]. intros; apply H; now right. Qed.
Lemma product_zero : forall l x, In x l -> (x == 0)%Q -> (product l == 0)%Q.
Proof. induction l as [|y l IH]; intros x I E; [inversion I|]. cbn. destruct I as [->|I]; [rewrite E; ring|]. rewrite (IH x I E). ring. Qed.
Definition distinct (l : list Q) : Prop := forall i j, i < length l -> j < length l -> i <> j -> ~ (nth i l 0 == nth j l 0)%Q.
Lemma basis_node : forall nodes k i, distinct nodes -> k < length nodes -> i < length nodes ->
  (basis nodes k (nth i nodes 0) == if i =? k then 1 else 0)%Q.
Proof.
  intros nodes k i D K I. unfold basis. destruct (Nat.eqb_spec i k) as [->|N].
  - apply product_one. intros x X. apply in_map_iff in X. destruct X as (j & <- & J). apply in_seq in J. destruct (Nat.eqb_spec j k) as [->|M]; [reflexivity|].
    field. intros E. apply (D k j); [lia|lia|auto|]. lra.
  - apply (product_zero _ ((nth i nodes 0 - nth i nodes 0) / (nth k nodes 0 - nth i nodes 0))%Q).
    + apply in_map_iff. exists i. split; [destruct (Nat.eqb_spec i k); [contradiction|reflexivity]|apply in_seq; lia].
    + unfold Qdiv. ring.
Qed.
Lemma sum_delta : forall n s (v : nat -> Q) i, s <= i < s + n ->
  (fold_right Qplus 0 (map (fun k => v k * (if i =? k then 1 else 0)) (seq s n)) == v i)%Q.
Proof.
  assert (Z0 : forall n s (v : nat -> Q) i, i < s -> (fold_right Qplus 0 (map (fun k => v k * (if i =? k then 1 else 0)) (seq s n)) == 0)%Q).
  { induction n as [|n IH]; intros s v i H; cbn [seq map fold_right]; [reflexivity|]. destruct (Nat.eqb_spec i s); [lia|]. rewrite IH by lia. ring. }
  induction n as [|n IH]; intros s v i H; [lia|]. cbn [seq map fold_right]. destruct (Nat.eqb_spec i s) as [->|N]; [rewrite Z0 by lia; ring|]. rewrite IH by lia. ring.
Qed.
Theorem lagrange_node : forall nodes values i, distinct nodes -> i < length nodes -> (lagrange nodes values (nth i nodes 0) == nth i values 0)%Q.
Proof.
  intros nodes values i D I. unfold lagrange.
  transitivity (fold_right Qplus 0 (map (fun k => nth k values 0 * (if i =? k then 1 else 0)) (seq 0 (length nodes))))%Q.
  - assert (G : forall l, (forall k, In k l -> k < length nodes) -> (fold_right Qplus 0 (map (fun k => nth k values 0 * basis nodes k (nth i nodes 0)) l) == fold_right Qplus 0 (map (fun k => nth k values 0 * (if i =? k then 1 else 0)) l))%Q).
    { induction l as [|k l IH]; intros H; cbn [map fold_right]; [reflexivity|]. rewrite IH by (intros; apply H; now right). rewrite basis_node by (try assumption; apply H; now left). reflexivity. }
    apply G. intros k K. apply in_seq in K. lia.
  - apply (sum_delta (length nodes) 0 (fun k => nth k values 0%Q)). lia.
Qed.
