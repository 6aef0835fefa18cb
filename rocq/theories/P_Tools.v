(** Selections of Mini-Arrays and of antennas. *)
From Coq Require Import ZArith QArith Qround Bool List Lia Lqa Sorted Permutation.
From Verif Require Import Base M_Tools.
Import ListNotations.
Open Scope nat_scope.
Open Scope list_scope.

(** ** C196: Mini-Arrays of given rotations *)

(** The same orientation, up to the symmetry of the hexagon *)
Definition alike (r q : Z) : Prop := exists k, (r - q = 60 * k)%Z.
Definition tens (l : list Z) : Prop := forall r, In r l -> exists k, (r = 10 * k)%Z.

Lemma tens_check : forall l, forallb (fun r => r mod 10 =? 0)%Z l = true <-> tens l.
Proof.
  intros l. rewrite forallb_forall. unfold tens. split; intros H r R.
  - exists (r / 10)%Z. specialize (H r R). apply Z.eqb_eq in H. pose proof (Z.div_mod r 10). lia.
  - destruct (H r R) as [k ->]. apply Z.eqb_eq. rewrite Z.mul_comm. apply Z.mod_mul. lia.
Qed.
Lemma alike_mod : forall r q, (r mod 60 = q mod 60)%Z <-> alike r q.
Proof.
  intros r q. unfold alike. split.
  - intros E. exists (r / 60 - q / 60)%Z. pose proof (Z.div_mod r 60). pose proof (Z.div_mod q 60). lia.
  - intros [k E]. assert (r = q + k * 60)%Z as -> by lia. now rewrite Z.mod_add by lia.
Qed.
Lemma like_in : forall r l, existsb (Z.eqb (r mod 60)) (map (fun q => q mod 60)%Z l) = true <-> exists q, In q l /\ alike r q.
Proof.
  intros r l. rewrite existsb_exists. split.
  - intros (x & X & E). apply in_map_iff in X. destruct X as (q & <- & Q). apply Z.eqb_eq in E. exists q. split; [exact Q|]. now apply alike_mod.
  - intros (q & Q & A). exists (q mod 60)%Z. split; [now apply (in_map (fun q => q mod 60)%Z)|]. apply Z.eqb_eq. now apply alike_mod.
Qed.

Theorem like_exact : forall table rotations, tens rotations -> exists l, rotated_like table rotations = Ok l /\
  forall i, In i l <-> exists r q, In (i, r) table /\ In q rotations /\ alike r q.
Proof.
  intros table rotations T. unfold rotated_like. rewrite (proj2 (tens_check rotations) T). eexists. split; [reflexivity|]. intros i.
  rewrite in_map_iff. split.
  - intros ([j r] & <- & F). apply filter_In in F. destruct F as [I L]. apply like_in in L. destruct L as (q & Q & A). exists r, q. auto.
  - intros (r & q & I & Q & A). exists (i, r). split; [reflexivity|]. apply filter_In. split; [exact I|]. apply like_in. exists q. auto.
Qed.
Theorem like_refused : forall table rotations, ~ tens rotations -> rotated_like table rotations = Err EValueError.
Proof.
  intros table rotations T. unfold rotated_like. destruct (forallb _ _) eqn:E; [|reflexivity]. apply tens_check in E. contradiction.
Qed.
(** The order of the file, each one once *)
Theorem like_sorted : forall table rotations l, rotated_like table rotations = Ok l -> StronglySorted Z.lt (map fst table) -> StronglySorted Z.lt l.
Proof.
  intros table rotations l H S. unfold rotated_like in H. destruct (forallb _ _); [|discriminate]. injection H as <-.
  set (f := fun m : Z * Z => _). clearbody f. induction table as [|m table IH]; [constructor|]. inversion S; subst. cbn [filter].
  destruct (f m); [|now apply IH]. cbn [map]. constructor; [now apply IH|]. rewrite Forall_forall in *. intros x X.
  apply in_map_iff in X. destruct X as (y & <- & Y). apply filter_In in Y. apply H2. now apply in_map.
Qed.
Theorem like_periodic : forall table rotations turns, length turns = length rotations ->
  (forall k, In k turns -> exists j, k = (60 * j)%Z) ->
  rotated_like table (map (fun x => (fst x + snd x)%Z) (combine rotations turns)) = rotated_like table rotations.
Proof.
  intros table rotations turns L T. unfold rotated_like.
  assert (E : map (fun r => r mod 60)%Z (map (fun x => (fst x + snd x)%Z) (combine rotations turns)) = map (fun r => r mod 60)%Z rotations /\
    forallb (fun r => r mod 10 =? 0)%Z (map (fun x => (fst x + snd x)%Z) (combine rotations turns)) = forallb (fun r => r mod 10 =? 0)%Z rotations).
  { revert turns L T. induction rotations as [|r rot IH]; intros [|k turns] L T; try discriminate; [split; reflexivity|].
    injection L as L. destruct (IH turns L) as [A B]; [intros; apply T; now right|]. destruct (T k) as [j ->]; [now left|].
    cbn [combine map forallb fst snd]. rewrite A, B. split.
    - f_equal. rewrite Z.mul_comm. now rewrite Z.mod_add by lia.
    - f_equal. f_equal. replace (r + 60 * j)%Z with (r + (6 * j) * 10)%Z by lia. now rewrite Z.mod_add by lia. }
  destruct E as [A B]. rewrite A, B. reflexivity.
Qed.
Theorem like_every : forall table, (forall i r, In (i, r) table -> exists k, (r = 10 * k)%Z) ->
  rotated_like table [0; 10; 20; 30; 40; 50]%Z = Ok (map fst table).
Proof.
  intros table H. unfold rotated_like. rewrite (proj2 (tens_check [0; 10; 20; 30; 40; 50]%Z)).
  - f_equal. f_equal. induction table as [|[i r] table IH]; [reflexivity|]. cbn [filter snd].
    rewrite (proj2 (like_in r [0; 10; 20; 30; 40; 50]%Z)).
    + f_equal. apply IH. intros. apply (H i0 r0). now right.
    + destruct (H i r) as [k ->]; [now left|]. pose proof (Z.div_mod k 6). pose proof (Z.mod_pos_bound k 6).
      exists (10 * (k mod 6))%Z. split; [|exists (k / 6)%Z; lia]. assert (C : (k mod 6 = 0 \/ k mod 6 = 1 \/ k mod 6 = 2 \/ k mod 6 = 3 \/ k mod 6 = 4 \/ k mod 6 = 5)%Z) by lia.
      destruct C as [->|[->|[->|[->|[->| ->]]]]]; cbn; tauto.
  - intros r R. exists (r / 10)%Z. repeat (destruct R as [<-|R]; [reflexivity|]). destruct R.
Qed.
Theorem file_tens : forall i r, In (i, r) miniarrays -> exists k, (r = 10 * k)%Z.
Proof.
  assert (H : forallb (fun m => snd m mod 10 =? 0)%Z miniarrays = true) by reflexivity. rewrite forallb_forall in H. intros i r I.
  specialize (H (i, r) I). cbn in H. apply Z.eqb_eq in H. exists (r / 10)%Z. pose proof (Z.div_mod r 10). lia.
Qed.

(** ** C201: Mini-Arrays and antennas known *)

Lemma file_ids : map fst miniarrays = map Z.of_nat (seq 0 96) ++ map Z.of_nat (seq 100 6).
Proof. reflexivity. Qed.
Theorem known : forall i, (exists r, mini_array (Some i) = Ok r /\ In (i, r) miniarrays) <-> (0 <= i < 96 \/ 100 <= i < 106)%Z.
Proof.
  assert (I : forall i, In i (map fst miniarrays) <-> (0 <= i < 96 \/ 100 <= i < 106)%Z).
  { intros i. rewrite file_ids, in_app_iff, !in_map_iff. split.
    - intros [(n & <- & N)|(n & <- & N)]; apply in_seq in N; lia.
    - intros [H|H]; [left|right]; exists (Z.to_nat i); (split; [lia|]); apply in_seq; lia. }
  intros i. rewrite <- I. unfold mini_array. split.
  - intros (r & _ & H). now apply (in_map fst) in H.
  - intros H. apply in_map_iff in H. destruct H as (m & E & M). destruct (find _ miniarrays) as [[j r]|] eqn:F.
    + apply find_some in F. destruct F as [F1 F2]. cbn in F2. apply Z.eqb_eq in F2. subst j. exists r. auto.
    + exfalso. apply (find_none _ _ F) in M. rewrite E, Z.eqb_refl in M. discriminate.
Qed.
Theorem unknown : forall i, (0 <= i < 96 \/ 100 <= i < 106)%Z \/ mini_array (Some i) = Err EKeyError.
Proof.
  intros i. destruct (mini_array (Some i)) as [r|e] eqn:E.
  - left. apply known. exists r. split; [exact E|]. unfold mini_array in E. destruct (find _ _) as [[j q]|] eqn:F; [|discriminate]. injection E as <-.
    apply find_some in F. destruct F as [F1 F2]. cbn in F2. apply Z.eqb_eq in F2. now subst j.
  - right. unfold mini_array in E. destruct (find _ _); [discriminate|]. congruence.
Qed.
Theorem core : nenufar false = map Z.of_nat (seq 0 96) /\ nenufar true = nenufar false ++ map Z.of_nat (seq 100 6).
Proof. split; reflexivity. Qed.

(** The hexagon of the antennas of miniarray_antennas.json, in units of 2.75 m and 4.763 m, and
    the rotation by 60 degrees in these units *)
Definition position (a : Z) : Z * Z :=
  nth (Z.to_nat (a - 1)) [(-2, -2); (0, -2); (2, -2); (-3, -1); (-1, -1); (1, -1); (3, -1); (-4, 0); (-2, 0); (0, 0); (2, 0); (4, 0);
    (-3, 1); (-1, 1); (1, 1); (3, 1); (-2, 2); (0, 2); (2, 2)]%Z (0, 0)%Z.
Definition turn (p : Z * Z) : Z * Z := ((fst p - 3 * snd p) / 2, (fst p + snd p) / 2)%Z.
Fixpoint turns (k : nat) (p : Z * Z) : Z * Z := match k with 0 => p | S k => turn (turns k p) end.
Definition symmetric (a b : Z) : Prop := exists k, turns k (position a) = position b.
Definition antennas : list Z := map Z.of_nat (seq 1 19).
Lemma antennas_in : forall a, In a antennas <-> (1 <= a <= 19)%Z.
Proof.
  intros a. unfold antennas. rewrite in_map_iff. split.
  - intros (n & <- & N). apply in_seq in N. lia.
  - intros H. exists (Z.to_nat a). split; [lia|]. apply in_seq. lia.
Qed.
Definition pair_eqb (p q : Z * Z) : bool := ((fst p =? fst q) && (snd p =? snd q))%Z.
Lemma pair_eqb_eq : forall p q, pair_eqb p q = true <-> p = q.
Proof. intros [a b] [c d]. unfold pair_eqb. cbn. rewrite andb_true_iff, !Z.eqb_eq. split; [intros [-> ->]; reflexivity|intros E; injection E as -> ->; auto]. Qed.
Definition symb (a b : Z) : bool := existsb (fun k => pair_eqb (turns k (position a)) (position b)) (seq 0 6).
Lemma six : forall a, In a antennas -> turns 6 (position a) = position a.
Proof.
  assert (H : forallb (fun a => pair_eqb (turns 6 (position a)) (position a)) antennas = true) by reflexivity.
  rewrite forallb_forall in H. intros a A. apply pair_eqb_eq. now apply H.
Qed.
Lemma turns_add : forall k l p, turns (k + l) p = turns k (turns l p).
Proof. induction k as [|k IH]; intros; [reflexivity|]. cbn [turns Nat.add]. now rewrite IH. Qed.
Lemma turns_mod : forall a k, In a antennas -> turns k (position a) = turns (k mod 6) (position a).
Proof.
  intros a k A. rewrite (Nat.div_mod k 6) at 1 by lia. rewrite Nat.add_comm, turns_add. f_equal. induction (k / 6) as [|n IH]; [reflexivity|].
  replace (6 * S n) with (6 + 6 * n) by lia. rewrite turns_add, IH. now apply six.
Qed.
Lemma symb_spec : forall a b, In a antennas -> symb a b = true <-> symmetric a b.
Proof.
  intros a b A. unfold symb, symmetric. rewrite existsb_exists. split.
  - intros (k & _ & E). exists k. now apply pair_eqb_eq.
  - intros (k & E). exists (k mod 6). split; [apply in_seq; pose proof (Nat.mod_upper_bound k 6); lia|]. apply pair_eqb_eq. now rewrite <- turns_mod.
Qed.
Definition index_ok (a : Z) : bool :=
  match unique_index (Some a) with
  | Ok (Some u) => symb a u && forallb (fun b => implb (symb a b) (u <=? b)%Z) antennas && existsb (Z.eqb u) antennas
  | _ => false
  end.
Theorem unique_right : forall a, (1 <= a <= 19)%Z -> exists u, unique_index (Some a) = Ok (Some u) /\
  (1 <= u <= 19)%Z /\ symmetric a u /\ forall b, (1 <= b <= 19)%Z -> symmetric a b -> (u <= b)%Z.
Proof.
  assert (H : forallb index_ok antennas = true) by (vm_compute; reflexivity). rewrite forallb_forall in H. intros a A. apply antennas_in in A.
  specialize (H a A). unfold index_ok in H. destruct (unique_index (Some a)) as [[u|]|e]; try discriminate. exists u.
  apply andb_true_iff in H. destruct H as [H U]. apply andb_true_iff in H. destruct H as [S M]. split; [reflexivity|].
  apply existsb_exists in U. destruct U as (v & V & E). apply Z.eqb_eq in E. subst v. split; [now apply antennas_in|].
  split; [now apply symb_spec|]. intros b B SB. apply antennas_in in B. rewrite forallb_forall in M. specialize (M b B).
  apply (symb_spec a b A) in SB. rewrite SB in M. cbn in M. now apply Z.leb_le.
Qed.
Theorem unique_refused : forall a, (1 <= a <= 19)%Z \/ unique_index (Some a) = Err EValueError.
Proof.
  intros a. destruct (Z_le_dec 1 a) as [A|A]; [destruct (Z_le_dec a 19) as [B|B]; [now left|]|]; right; unfold unique_index.
  - assert (E : find (existsb (Z.eqb a)) groups = None); [|now rewrite E]. unfold groups. cbn [find existsb].
    rewrite !(proj2 (Z.eqb_neq a _)) by lia. reflexivity.
  - assert (E : find (existsb (Z.eqb a)) groups = None); [|now rewrite E]. unfold groups. cbn [find existsb].
    rewrite !(proj2 (Z.eqb_neq a _)) by lia. reflexivity.
Qed.

(** ** C197: random sub-arrays *)

Definition unit_draw (draw : nat -> Q) : Prop := forall k, (0 <= draw k /\ draw k < 1)%Q.
Lemma in_bin_spec : forall n i v, 0 < n -> in_bin n i v = true <-> (edge n i <= v /\ v < edge n (S i))%Q.
Proof.
  intros n i v N. unfold in_bin. rewrite andb_true_iff, negb_true_iff, Qle_bool_iff. split; intros [A B]; (split; [exact A|]).
  - apply Qnot_le_lt. intros L. apply Qle_bool_iff in L. congruence.
  - destruct (Qle_bool _ _) eqn:E; [|reflexivity]. apply Qle_bool_iff in E. lra.
Qed.
Lemma bin_floor : forall n i v, 0 < n -> in_bin n i v = true <-> Z.of_nat i = Qfloor (v * inject_Z (Z.of_nat n)).
Proof.
  intros n i v N. rewrite in_bin_spec by exact N. set (N' := inject_Z (Z.of_nat n)).
  assert (P : (0 < N')%Q) by (unfold N'; change 0%Q with (inject_Z 0); rewrite <- Zlt_Qlt; lia).
  assert (E : forall j, (edge n j * N' == inject_Z (Z.of_nat j))%Q) by (intros j; unfold edge; fold N'; field; lra).
  split.
  - intros [A B]. assert (A' : (inject_Z (Z.of_nat i) <= v * N')%Q) by (rewrite <- E; apply Qmult_le_compat_r; lra).
    assert (B' : (v * N' < inject_Z (Z.of_nat (S i)))%Q) by (rewrite <- E; apply Qmult_lt_compat_r; lra).
    pose proof (Qfloor_le (v * N')). pose proof (Qlt_floor (v * N')).
    assert (X : (Qfloor (v * N') < Z.of_nat (S i))%Z) by (rewrite Zlt_Qlt; lra).
    assert (Y : (Z.of_nat i < Qfloor (v * N') + 1)%Z) by (rewrite Zlt_Qlt; lra). lia.
  - intros F. pose proof (Qfloor_le (v * N')) as A. pose proof (Qlt_floor (v * N')) as B. rewrite <- F in A, B.
    replace (Z.of_nat i + 1)%Z with (Z.of_nat (S i)) in B by lia. rewrite <- E in A, B. split.
    + apply Qmult_lt_0_le_reg_r with N'; assumption.
    + destruct (Qlt_le_dec v (edge n (S i))); [assumption|]. assert (edge n (S i) * N' <= v * N')%Q by (apply Qmult_le_compat_r; lra). lra.
Qed.
Lemma one_bin : forall n v, 0 < n -> (0 <= v)%Q -> (v < 1)%Q -> exists i, i < n /\ forall j, in_bin n j v = (j =? i).
Proof.
  intros n v N A B. set (N' := inject_Z (Z.of_nat n)).
  assert (P : (0 < N')%Q) by (unfold N'; change 0%Q with (inject_Z 0); rewrite <- Zlt_Qlt; lia).
  assert (L : (0 <= Qfloor (v * N'))%Z). { change 0%Z with (Qfloor 0). apply Qfloor_resp_le. apply Qmult_le_0_compat; lra. }
  assert (U : (Qfloor (v * N') < Z.of_nat n)%Z).
  { rewrite Zlt_Qlt. pose proof (Qfloor_le (v * N')). fold N'. assert (v * N' < 1 * N')%Q by (apply Qmult_lt_compat_r; assumption). lra. }
  exists (Z.to_nat (Qfloor (v * N'))). split; [lia|]. intros j. destruct (in_bin n j v) eqn:E.
  - apply bin_floor in E; [|exact N]. symmetry. apply Nat.eqb_eq. fold N' in E. lia.
  - symmetry. apply Nat.eqb_neq. intros ->. assert (in_bin n (Z.to_nat (Qfloor (v * N'))) v = true) by (apply bin_floor; [exact N|]; fold N'; lia). congruence.
Qed.
Lemma filter_one : forall n i a, a <= i -> i < a + n -> filter (fun j => j =? i) (seq a n) = [i].
Proof.
  induction n as [|n IH]; intros i a A B; [lia|]. cbn [seq filter]. destruct (Nat.eqb_spec a i) as [->|N].
  - f_equal. assert (H : forall m b, i < b -> filter (fun j => j =? i) (seq b m) = []).
    { induction m as [|m IHm]; intros b L; [reflexivity|]. cbn. destruct (Nat.eqb_spec b i); [lia|]. apply IHm. lia. }
    apply H. lia.
  - apply IH; lia.
Qed.
Lemma concat_split : forall A (f g : nat -> list A) is, Permutation (concat (map (fun i => f i ++ g i) is)) (concat (map f is) ++ concat (map g is)).
Proof.
  intros A f g. induction is as [|i is IH]; [reflexivity|]. cbn [map concat]. rewrite IH. rewrite <- !app_assoc. apply Permutation_app_head.
  rewrite !app_assoc. apply Permutation_app_tail. apply Permutation_app_comm.
Qed.
Lemma concat_filter : forall A (x : A) (b : nat -> bool) is, concat (map (fun i : nat => if b i then [x] else []) is) = repeat x (length (filter b is)).
Proof. intros A x b. induction is as [|i is IH]; [reflexivity|]. cbn [map concat filter]. rewrite IH. now destruct (b i). Qed.
Lemma keep_perm : forall A n (vs : list Q) (l : list A), 0 < n -> length l = length vs -> (forall v, In v vs -> (0 <= v /\ v < 1)%Q) ->
  Permutation (concat (map (fun i => keep l (map (in_bin n i) vs)) (seq 0 n))) l.
Proof.
  intros A n. induction vs as [|v vs IH]; intros [|x l] N L D; try discriminate.
  - assert (E : forall is : list nat, concat (map (fun i => keep (@nil A) (map (in_bin n i) [])) is) = []) by (induction is; [reflexivity|assumption]).
    now rewrite E.
  - injection L as L.
    assert (E : map (fun i => keep (x :: l) (map (in_bin n i) (v :: vs))) (seq 0 n) =
      map (fun i => (if in_bin n i v then [x] else []) ++ keep l (map (in_bin n i) vs)) (seq 0 n)).
    { apply map_ext. intros i. cbn [map keep]. now destruct (in_bin n i v). }
    rewrite E, concat_split, concat_filter. destruct (one_bin n v N) as (i & I & B); [apply D; now left|apply D; now left|].
    rewrite (filter_ext _ (fun j => j =? i)) by (intros; apply B). rewrite filter_one by lia. cbn. constructor. apply IH; auto. intros; apply D; now right.
Qed.
Lemma keep_in : forall A (l : list A) m x, In x (keep l m) <-> exists k, nth_error l k = Some x /\ nth_error m k = Some true.
Proof.
  intros A. induction l as [|y l IH]; intros [|b m] x; cbn [keep].
  - split; [intros []|intros ([|k] & E & _); discriminate].
  - split; [intros []|intros ([|k] & E & _); discriminate].
  - split; [intros []|intros ([|k] & _ & E); discriminate].
  - destruct b; cbn [In]; rewrite ?IH; split.
    + intros [->|(k & K1 & K2)]; [exists 0; auto|exists (S k); auto].
    + intros ([|k] & K1 & K2); [left; now injection K1|right; exists k; auto].
    + intros (k & K1 & K2); exists (S k); auto.
    + intros ([|k] & K1 & K2); [discriminate|exists k; auto].
Qed.
Definition count (remote : bool) : nat := if remote then 102 else 96.
Lemma nth_draws : forall (f : Q -> bool) draw k n, nth_error (map f (map draw (seq 0 n))) k = if k <? n then Some (f (draw k)) else None.
Proof.
  intros f draw k n. rewrite map_map. destruct (Nat.ltb_spec k n).
  - rewrite nth_error_map. rewrite (nth_error_nth' (seq 0 n) 0) by (now rewrite seq_length). now rewrite seq_nth.
  - apply nth_error_None. now rewrite map_length, seq_length.
Qed.
Lemma sub_run : forall names n remote draw, (2 <= n)%Z -> unit_draw draw -> count remote <= length names ->
  subarrays names n remote draw = Ok (map (fun i => keep (firstn (count remote) names) (map (in_bin (Z.to_nat n) i) (map draw (seq 0 (count remote))))) (seq 0 (Z.to_nat n))).
Proof.
  intros names n remote draw N D L. unfold subarrays. destruct (Z.ltb_spec n 2); [lia|]. cbv zeta. fold (count remote).
  assert (F : forallb (fun v => length (filter (fun i => in_bin (Z.to_nat n) i v) (seq 0 (Z.to_nat n))) =? 1) (map draw (seq 0 (count remote))) = true).
  { apply forallb_forall. intros v V. apply in_map_iff in V. destruct V as (k & <- & _). destruct (D k) as [A B].
    destruct (one_bin (Z.to_nat n) (draw k)) as (i & I & E); [lia|assumption|assumption|]. rewrite (filter_ext _ (fun j => j =? i)) by (intros; apply E).
    rewrite filter_one by lia. reflexivity. }
  rewrite F. rewrite firstn_length_le by exact L. now rewrite Nat.eqb_refl.
Qed.
Theorem sub_partition : forall names n remote draw, (2 <= n)%Z -> unit_draw draw -> count remote <= length names ->
  exists l, subarrays names n remote draw = Ok l /\ Z.of_nat (length l) = n /\ Permutation (concat l) (firstn (count remote) names) /\
    forall i sub, nth_error l i = Some sub -> forall x, In x sub <->
      exists k, k < count remote /\ nth_error names k = Some x /\ (inject_Z (Z.of_nat i) / inject_Z n <= draw k /\ draw k < inject_Z (Z.of_nat (S i)) / inject_Z n)%Q.
Proof.
  intros names n remote draw N D L. eexists. split; [apply sub_run; assumption|]. rewrite map_length, seq_length. split; [lia|]. split.
  - apply keep_perm; [lia| |].
    + rewrite firstn_length_le, map_length, seq_length by exact L. reflexivity.
    + intros v V. apply in_map_iff in V. destruct V as (k & <- & _). apply D.
  - intros i sub H x. rewrite nth_error_map in H. destruct (nth_error (seq 0 (Z.to_nat n)) i) as [j|] eqn:E; [|discriminate]. cbn in H. injection H as <-.
    assert (I : i < Z.to_nat n). { assert (X : nth_error (seq 0 (Z.to_nat n)) i <> None) by congruence. apply nth_error_Some in X. now rewrite seq_length in X. }
    rewrite (nth_error_nth' _ 0) in E by (now rewrite seq_length). rewrite seq_nth in E by exact I. injection E as <-. cbn [Nat.add].
    rewrite keep_in. split.
    + intros (k & K1 & K2). rewrite nth_draws in K2. destruct (Nat.ltb_spec k (count remote)) as [K|K]; [|discriminate]. injection K2 as K2.
      exists k. split; [exact K|]. split.
      * rewrite <- (firstn_skipn (count remote) names). rewrite nth_error_app1 by (rewrite firstn_length_le by exact L; exact K). exact K1.
      * apply in_bin_spec in K2; [|lia]. unfold edge in K2. now rewrite Z2Nat.id in K2 by lia.
    + intros (k & K & K1 & K2). exists k. split.
      * rewrite <- (firstn_skipn (count remote) names) in K1. rewrite nth_error_app1 in K1 by (rewrite firstn_length_le by exact L; exact K). exact K1.
      * rewrite nth_draws. rewrite (proj2 (Nat.ltb_lt _ _) K). f_equal. apply in_bin_spec; [lia|]. unfold edge. now rewrite Z2Nat.id by lia.
Qed.
Theorem sub_file : forall n remote draw l, (2 <= n)%Z -> unit_draw draw -> subarrays (map fst miniarrays) n remote draw = Ok l ->
  Permutation (concat l) (nenufar remote) /\ NoDup (concat l).
Proof.
  intros n remote draw l N D H. destruct (sub_partition (map fst miniarrays) n remote draw N D) as (l' & E & _ & P & _); [destruct remote; cbn; lia|].
  rewrite H in E. injection E as <-. assert (X : firstn (count remote) (map fst miniarrays) = nenufar remote) by (destruct remote; reflexivity).
  rewrite X in P. split; [exact P|]. apply (Permutation_NoDup (Permutation_sym P)).
  assert (ND : NoDup (nenufar true)).
  { destruct core as [C1 C2]. rewrite C2, C1. rewrite <- map_app. apply FinFun.Injective_map_NoDup; [intros a b; lia|].
    assert (Y : forall l, (if list_eq_dec Nat.eq_dec (nodup Nat.eq_dec l) l then true else false) = true -> NoDup l) by (intros l0 H0; destruct (list_eq_dec _ _ _) as [e|]; [rewrite <- e; apply NoDup_nodup|discriminate]); apply Y; vm_compute; reflexivity. }
  destruct remote; [exact ND|]. destruct core as [_ C2]. rewrite C2 in ND. clear - ND. revert ND. generalize (nenufar false), (map Z.of_nat (seq 100 6)).
  induction l as [|x l IH]; intros r ND; [constructor|]. inversion ND; subst. constructor; [|now apply IH with r]. intros X. apply H1. apply in_app_iff. now left.
Qed.
Theorem sub_few : forall names n remote draw, (n < 2)%Z -> subarrays names n remote draw = Err EValueError.
Proof. intros. unfold subarrays. destruct (Z.ltb_spec n 2); [reflexivity|lia]. Qed.
(** Nothing prevents a sub-array from being empty. *)
Theorem sub_empty_refuted : forall n remote, (2 <= n)%Z -> exists draw l, unit_draw draw /\ subarrays (map fst miniarrays) n remote draw = Ok l /\
  forall i, 0 < i -> (Z.of_nat i < n)%Z -> nth_error l i = Some [].
Proof.
  intros n remote N. exists (fun _ => 0%Q). assert (D : unit_draw (fun _ => 0%Q)) by (intros k; split; reflexivity || discriminate).
  destruct (sub_partition (map fst miniarrays) n remote (fun _ => 0%Q) N D) as (l & E & LL & _ & S); [destruct remote; cbn; lia|].
  exists l. split; [exact D|]. split; [exact E|]. intros i P I. destruct (nth_error l i) as [sub|] eqn:X; [|apply nth_error_None in X; lia].
  destruct sub as [|x sub]; [reflexivity|]. exfalso. destruct (proj1 (S i _ X x) (or_introl eq_refl)) as (k & _ & _ & B & _).
  assert (0 < inject_Z n)%Q by (change 0%Q with (inject_Z 0); rewrite <- Zlt_Qlt; lia).
  assert (0 < inject_Z (Z.of_nat i))%Q by (change 0%Q with (inject_Z 0); rewrite <- Zlt_Qlt; lia).
  assert (0 < inject_Z (Z.of_nat i) / inject_Z n)%Q by (apply Qlt_shift_div_l; [assumption|lra]). lra.
Qed.
