(** Lemmas for the mitigation of interferences, both axes. *)
From Coq Require Import QArith Qabs ZArith Bool List Lia Lqa Permutation.
From Verif Require Import Base M_Rebin P_Rebin M_Rfi P_Rfi.
Import ListNotations.
Open Scope nat_scope.
Open Scope list_scope.

(** Specification: [line a axis o x p] is the sample at index [o] of [axis] and [x] of the other
    one, of polarization [p]. *)
Definition line (a : array) (axis : Z) (o x p : nat) : option Q := if (axis =? 0)%Z then a_value a o x p else a_value a x o p.
Definition along_size (a : array) (axis : Z) : nat := if (axis =? 0)%Z then a_times a else a_freqs a.
Definition other_size (a : array) (axis : Z) : nat := if (axis =? 0)%Z then a_freqs a else a_times a.
(** The level of a line: the median modulus along it. *)
Definition level_of (a : array) (axis : Z) (o p : nat) (m : Q) : Prop :=
  median_of (map (fun x => option_map Qabs (line a axis o x p)) (seq 0 (other_size a axis))) (Some m).
(** The same data with a gain by line. *)
Definition amplified (a : array) (axis : Z) (k : nat -> nat -> Q) : array :=
  mkArray (a_dim a) (a_times a) (a_freqs a) (a_pols a)
    (fun t f p => option_map (Qmult (if (axis =? 0)%Z then k t p else k f p)) (a_value a t f p)).

Section Mitigation.
Variable fit : Z -> list (nat * Q) -> nat -> Q.
Variable std : list Q -> Q.

Lemma mitigate_along : forall a axis sigma degree,
  match mitigate fit std a axis sigma degree with
  | Ok b => 2 <= a_dim a /\ (0 <= axis <= 1)%Z /\ a_dim b = a_dim a /\ a_times b = a_times a /\ a_freqs b = a_freqs a /\ a_pols b = a_pols a /\
      exists v, along fit std (along_size a axis) (other_size a axis) (a_pols a) (line a axis) sigma degree = Ok v /\ forall o x p, line b axis o x p = v o x p
  | Err e => a_dim a < 2 /\ e = EException \/ 2 <= a_dim a /\ ~ (0 <= axis <= 1)%Z /\ e = EIndexError \/
      2 <= a_dim a /\ (0 <= axis <= 1)%Z /\ along fit std (along_size a axis) (other_size a axis) (a_pols a) (line a axis) sigma degree = Err e
  end.
Proof.
  intros a axis sigma degree. unfold mitigate. destruct (Nat.ltb_spec (a_dim a) 2) as [D|D]; [left; split; [assumption|reflexivity]|].
  assert (AX : axis = 0%Z \/ axis = 1%Z \/ ~ (0 <= axis <= 1)%Z) by lia. destruct AX as [->|[->|N]].
  - change (line a 0) with (a_value a). change (along_size a 0) with (a_times a). change (other_size a 0) with (a_freqs a).
    destruct (along fit std (a_times a) (a_freqs a) (a_pols a) (a_value a) sigma degree) as [v|e] eqn:E; cbn [bind].
    + repeat (split; [first [assumption|lia|reflexivity]|]). exists v. split; [reflexivity|]. reflexivity.
    + right; right. split; [assumption|]. split; [lia|reflexivity].
  - change (line a 1) with (fun o x p => a_value a x o p). change (along_size a 1) with (a_freqs a). change (other_size a 1) with (a_times a).
    destruct (along fit std (a_freqs a) (a_times a) (a_pols a) (fun f t p => a_value a t f p) sigma degree) as [v|e] eqn:E; cbn [bind].
    + repeat (split; [first [assumption|lia|reflexivity]|]). exists v. split; [reflexivity|]. reflexivity.
    + right; right. split; [assumption|]. split; [lia|reflexivity].
  - destruct axis as [|[q|q|]|q]; try lia; right; left; (split; [assumption|split; [assumption|reflexivity]]).
Qed.
Lemma along_kept : forall no nx np d sigma degree v, along fit std no nx np d sigma degree = Ok v ->
  np <> 0 /\ no <> 0 /\ (exists x, x < nx /\ not_nan no nx np d x = true) /\ forall o x p, v o x p = if clipped fit std no nx np d sigma degree o x p then None else d o x p.
Proof.
  intros no nx np d sigma degree v H. unfold along in H. destruct (Nat.eqb_spec (no * np) 0); [discriminate H|]. destruct (degree <? 0)%Z; [discriminate H|].
  destruct (forallb (fun x => negb (not_nan no nx np d x)) (seq 0 nx)) eqn:F; [discriminate H|]. injection H as <-. split; [nia|]. split; [nia|]. split; [|reflexivity].
  assert (E : existsb (not_nan no nx np d) (seq 0 nx) = true).
  { clear -F. induction (seq 0 nx) as [|x l IH]; cbn in *; [discriminate|]. destruct (not_nan no nx np d x); [reflexivity|]. apply IH. exact F. }
  apply existsb_exists in E. destruct E as (x & X & N). exists x. apply in_seq in X. split; [lia|assumption].
Qed.
Lemma kept : forall a axis sigma degree b, mitigate fit std a axis sigma degree = Ok b ->
  a_dim b = a_dim a /\ a_times b = a_times a /\ a_freqs b = a_freqs a /\ a_pols b = a_pols a /\ forall t f p, a_value b t f p = None \/ a_value b t f p = a_value a t f p.
Proof.
  intros a axis sigma degree b H. pose proof (mitigate_along a axis sigma degree) as M. rewrite H in M. destruct M as (_ & AX & D & T & F & P & v & A & L).
  repeat (split; [assumption|]). intros t f p. destruct (along_kept _ _ _ _ _ _ _ A) as (_ & _ & _ & V).
  assert (C : axis = 0%Z \/ axis = 1%Z) by lia. destruct C; subst axis.
  - specialize (L t f p). unfold line in L. cbn in L. rewrite L, V. destruct (clipped _ _ _ _ _ _ _ _ _ _ _); [left; reflexivity|right; reflexivity].
  - specialize (L f t p). unfold line in L. cbn in L. rewrite L, V. destruct (clipped _ _ _ _ _ _ _ _ _ _ _); [left; reflexivity|right; reflexivity].
Qed.
Lemma refused : forall a axis sigma degree e, mitigate fit std a axis sigma degree = Err e ->
  (e = EException <-> a_dim a < 2) /\ (e = EIndexError <-> 2 <= a_dim a /\ axis <> 0%Z /\ axis <> 1%Z) /\
  (e = EException \/ e = EIndexError \/ e = EValueError /\ ((degree < 0)%Z \/ a_pols a = 0 \/ along_size a axis = 0) \/ e = ETypeError /\ (0 <= degree)%Z).
Proof.
  intros a axis sigma degree e H. pose proof (mitigate_along a axis sigma degree) as M. rewrite H in M. destruct M as [(D & ->)|[(D & A & ->)|(D & A & E)]].
  - split; [split; [auto|reflexivity]|]. split; [split; [discriminate|lia]|]. left. reflexivity.
  - split; [split; [discriminate|lia]|]. split; [split; [intros _; lia|reflexivity]|]. right; left. reflexivity.
  - unfold along in E. destruct (Nat.eqb_spec (along_size a axis * a_pols a) 0); [|destruct (Z.ltb_spec degree 0); [|destruct (forallb _ _); [|discriminate E]]];
      injection E as <-; (split; [split; [discriminate|lia]|]); (split; [split; [discriminate|lia]|]); right; right.
    + left. split; [reflexivity|]. right. nia.
    + left. split; [reflexivity|]. left. assumption.
    + right. split; [reflexivity|assumption].
Qed.
Lemma refused_first : forall a axis sigma degree, (a_dim a < 2 -> mitigate fit std a axis sigma degree = Err EException) /\
  (2 <= a_dim a -> axis <> 0%Z -> axis <> 1%Z -> mitigate fit std a axis sigma degree = Err EIndexError).
Proof.
  intros a axis sigma degree. pose proof (mitigate_along a axis sigma degree) as M. split.
  - intro D. unfold mitigate. destruct (Nat.ltb_spec (a_dim a) 2); [reflexivity|lia].
  - intros D A B. destruct (mitigate fit std a axis sigma degree) as [b|e]; [lia|]. destruct M as [M|[M|M]]; [lia| |lia]. destruct M as (_ & _ & ->). reflexivity.
Qed.
(** A higher threshold removes less. *)
Lemma sigma_monotone : forall a axis s s' degree b b' t f p, (forall l, (0 <= std l)%Q) -> (s <= s')%Q ->
  mitigate fit std a axis s degree = Ok b -> mitigate fit std a axis s' degree = Ok b' -> a_value b' t f p = None -> a_value b t f p = None.
Proof.
  intros a axis s s' degree b b' t f p SN S1 H H'. pose proof (mitigate_along a axis s degree) as M. rewrite H in M. destruct M as (_ & AX & _ & _ & _ & _ & v & A & L).
  pose proof (mitigate_along a axis s' degree) as M. rewrite H' in M. destruct M as (_ & _ & _ & _ & _ & _ & v' & A' & L').
  assert (G : forall o x p, line b' axis o x p = None -> line b axis o x p = None).
  { clear t f p. intros o x p. rewrite L, L'. destruct (along_kept _ _ _ _ _ _ _ A) as (_ & _ & _ & V). destruct (along_kept _ _ _ _ _ _ _ A') as (_ & _ & _ & V').
    rewrite V, V'. unfold clipped. set (fl := flattened _ _ _ _ o x p). set (sm := smooth _ _ _ _ _ degree x p). set (sp := spread _ _ _ _ _ _ degree).
    assert (SP : (0 <= sp)%Q) by apply SN.
    destruct (above fl (sm + s' * sp)) eqn:B'; [|intro Q; rewrite Q; destruct (above fl (sm + s * sp)); reflexivity].
    intros _. replace (above fl (sm + s * sp)) with true; [reflexivity|]. symmetry. destruct fl as [|q|]; cbn in *; [discriminate| |reflexivity].
    apply negb_true_iff in B'. apply qle_false in B'. apply negb_true_iff. destruct (Qle_bool q (sm + s * sp)) eqn:E; [|reflexivity]. apply Qle_bool_iff in E.
    assert (s * sp <= s' * sp)%Q by (apply Qmult_le_compat_r; assumption). lra. }
  assert (C : axis = 0%Z \/ axis = 1%Z) by lia. destruct C; subst axis; [exact (G t f p)|exact (G f t p)].
Qed.
Lemma gain_free : forall a axis k sigma degree, fit_scales fit -> std_scales std -> (forall o p, ~ (k o p == 0)%Q) ->
  match mitigate fit std a axis sigma degree, mitigate fit std (amplified a axis k) axis sigma degree with
  | Ok b, Ok c => forall t f p, (a_value b t f p = None <-> a_value c t f p = None)
  | Err e, Err e' => e = e'
  | _, _ => False
  end.
Proof.
  intros a axis k sigma degree FS SS K. unfold mitigate. cbn [amplified a_dim a_times a_freqs a_pols a_value]. destruct (a_dim a <? 2); [reflexivity|].
  destruct axis as [|[q|q|]|q]; try reflexivity.
  - pose proof (along_gained fit std FS SS (a_times a) (a_freqs a) (a_pols a) (a_value a) k K sigma degree) as G. unfold gained in G. cbn [Z.eqb].
    destruct (along fit std (a_times a) (a_freqs a) (a_pols a) (a_value a) sigma degree), (along fit std (a_times a) (a_freqs a) (a_pols a) (fun o x p : nat => option_map (Qmult (k o p)) (a_value a o x p)) sigma degree); cbn [bind]; try assumption; try contradiction.
  - pose proof (along_gained fit std FS SS (a_freqs a) (a_times a) (a_pols a) (fun f t p => a_value a t f p) k K sigma degree) as G. unfold gained in G. cbn [Z.eqb].
    destruct (along fit std (a_freqs a) (a_times a) (a_pols a) (fun f t p => a_value a t f p) sigma degree), (along fit std (a_freqs a) (a_times a) (a_pols a) (fun o x p : nat => option_map (Qmult (k o p)) (a_value a x o p)) sigma degree); cbn [bind]; try assumption; try contradiction.
    cbn [a_value]. intros t f p. apply G.
Qed.
(** ** Order of the samples *)
Lemma largest_positive : forall no nx np d, np <> 0 -> (exists x, x < nx /\ not_nan no nx np d x = true) -> exists M, largest no nx np d = Fin M /\ (0 < M)%Q.
Proof.
  intros no nx np d NP (x & X & N). destruct (Nat.le_gt_cases (cls (largest no nx np d)) 1) as [C|C]; [rewrite not_nan_false in N by assumption; discriminate N|].
  pose proof (proj1 (nanmax_fine _ (levels_fine no nx np d))) as F. fold (largest no nx np d) in F.
  destruct (largest no nx np d) as [|M|]; [cbn in C; lia| |contradiction]. exists M. split; [reflexivity|]. cbn in C. destruct (Qle_bool M 0) eqn:E; [lia|apply qle_false; exact E].
Qed.
Lemma flat_value : forall no nx np d o x p M m v, largest no nx np d = Fin M -> (0 < M)%Q -> level nx d o p = Fin m -> (0 < m)%Q -> d o x p = Some v ->
  exists w, flattened no nx np d o x p = Fin w /\ (w == Qabs v * M / m)%Q.
Proof.
  intros no nx np d o x p M m v E P L Q D. unfold flattened. rewrite E, L, D. cbn [num_div modulus].
  assert (M0 : Qeq_bool M 0 = false) by (destruct (Qeq_bool M 0) eqn:Z; [apply Qeq_bool_iff in Z; lra|reflexivity]). rewrite M0. cbn [num_div].
  assert (R : (0 < m / M)%Q) by (apply Qlt_shift_div_l; [assumption|lra]).
  assert (R0 : Qeq_bool (m / M) 0 = false) by (destruct (Qeq_bool (m / M) 0) eqn:Z; [apply Qeq_bool_iff in Z; lra|reflexivity]). rewrite R0.
  eexists. split; [reflexivity|]. field. split; lra.
Qed.
Lemma ordered : forall a axis sigma degree b o o' x p v v' m m', mitigate fit std a axis sigma degree = Ok b ->
  line a axis o x p = Some v -> line a axis o' x p = Some v' -> level_of a axis o p m -> level_of a axis o' p m' -> (0 < m)%Q -> (0 < m')%Q ->
  (Qabs v / m <= Qabs v' / m')%Q -> line b axis o x p = None -> line b axis o' x p = None.
Proof.
  intros a axis sigma degree b o o' x p v v' m m' H D D' ML ML' P P' LE N. pose proof (mitigate_along a axis sigma degree) as MA. rewrite H in MA. destruct MA as (_ & AX & _ & _ & _ & _ & w & A & L).
  destruct (along_kept _ _ _ _ _ _ _ A) as (NP & NO & EX & V). destruct (largest_positive _ _ _ _ NP EX) as (M & EM & MP).
  destruct (median_level _ _ _ _ _ ML) as (q & EQ & QQ). destruct (median_level _ _ _ _ _ ML') as (q' & EQ' & QQ').
  destruct (flat_value _ _ _ _ o x p M q v EM MP EQ ltac:(lra) D) as (u & FU & UU). destruct (flat_value _ _ _ _ o' x p M q' v' EM MP EQ' ltac:(lra) D') as (u' & FU' & UU').
  rewrite L in *. rewrite V in *. unfold clipped in *. rewrite FU in N. rewrite FU'. cbn [above] in *. rewrite D in N. rewrite D'.
  set (th := (smooth _ _ _ _ _ degree x p + sigma * spread _ _ _ _ _ _ degree)%Q) in *.
  destruct (Qle_bool u th) eqn:B; [discriminate N|]. apply qle_false in B. destruct (Qle_bool u' th) eqn:B'; [|reflexivity]. apply Qle_bool_iff in B'. exfalso.
  assert (U1 : (u <= u')%Q).
  { rewrite UU, UU', QQ, QQ'. setoid_replace (Qabs v * M / m)%Q with (Qabs v / m * M)%Q by (field; lra). setoid_replace (Qabs v' * M / m')%Q with (Qabs v' / m' * M)%Q by (field; lra).
    apply Qmult_le_compat_r; lra. }
  lra.
Qed.
(** ** Lines of null level *)
Lemma null_level : forall a axis sigma degree b o x p v, mitigate fit std a axis sigma degree = Ok b -> line a axis o x p = Some v -> level_of a axis o p 0 ->
  (line b axis o x p = None <-> ~ (v == 0)%Q).
Proof.
  intros a axis sigma degree b o x p v H D ML. pose proof (mitigate_along a axis sigma degree) as MA. rewrite H in MA. destruct MA as (_ & AX & _ & _ & _ & _ & w & A & L).
  destruct (along_kept _ _ _ _ _ _ _ A) as (NP & NO & EX & V). destruct (largest_positive _ _ _ _ NP EX) as (M & EM & MP). destruct (median_level _ _ _ _ _ ML) as (q & EQ & QQ).
  rewrite L, V. unfold clipped, flattened. rewrite EM, EQ, D. cbn [num_div modulus].
  assert (M0 : Qeq_bool M 0 = false) by (destruct (Qeq_bool M 0) eqn:Z; [apply Qeq_bool_iff in Z; lra|reflexivity]). rewrite M0. cbn [num_div].
  assert (R0 : Qeq_bool (q / M) 0 = true) by (apply Qeq_bool_iff; rewrite QQ; field; lra). rewrite R0.
  assert (AB : forall z, (Qabs z == 0)%Q <-> (z == 0)%Q).
  { intro z. split; intro Z; [|rewrite Z; reflexivity]. apply (Qabs_case z (fun y => (y == 0)%Q -> (z == 0)%Q)); [auto|intros _ Y; lra|assumption]. }
  destruct (Qeq_bool (Qabs v) 0) eqn:E; cbn [above].
  - apply Qeq_bool_iff in E. apply (proj1 (AB v)) in E. split; [discriminate|intro Z; destruct (Z E)].
  - apply Qeq_bool_neq in E. split; [|reflexivity]. intros _ Z. apply E, AB. exact Z.
Qed.
(** ** Data without null nor missing sample *)
Lemma insert_in : forall x l y, In y (insert x l) -> y = x \/ In y l.
Proof. induction l as [|z l IH]; intros y I; cbn in I; [destruct I as [<-|[]]; left; reflexivity|]. destruct (num_le x z); [destruct I as [<-|I]; [left; reflexivity|right; exact I]|]. destruct I as [<-|I]; [right; left; reflexivity|]. destruct (IH y I) as [->|J]; [left; reflexivity|right; right; exact J]. Qed.
Lemma sorted_in : forall l y, In y (sorted l) -> In y l.
Proof. induction l as [|x l IH]; intros y I; [exact I|]. cbn in I. fold (sorted l) in I. apply insert_in in I. destruct I as [->|I]; [left; reflexivity|right; apply IH; exact I]. Qed.
Lemma insert_length : forall x l, length (insert x l) = S (length l).
Proof. induction l as [|y l IH]; cbn; [reflexivity|]. destruct (num_le x y); cbn; congruence. Qed.
Lemma sorted_length : forall l, length (sorted l) = length l.
Proof. induction l as [|x l IH]; [reflexivity|]. cbn. fold (sorted l). rewrite insert_length, IH. reflexivity. Qed.
Definition plus_num (a : num) : Prop := exists q, a = Fin q /\ (0 < q)%Q.
Lemma median_plus : forall l, l <> [] -> (forall a, In a l -> plus_num a) -> plus_num (M_Rfi.nanmedian l).
Proof.
  intros l NE H. assert (KN : M_Rfi.known l = l).
  { clear NE. induction l as [|a l IH]; [reflexivity|]. destruct (H a (or_introl eq_refl)) as (q & -> & _). cbn. f_equal. apply IH. intros; apply H; right; assumption. }
  unfold M_Rfi.nanmedian. rewrite KN. pose proof (sorted_length l) as SL. destruct (sorted l) as [|s k] eqn:E; [destruct l; [contradiction|discriminate SL]|].
  assert (G : forall i, i < length (s :: k) -> plus_num (nth i (s :: k) Nan)) by (intros i I; apply H, sorted_in; rewrite E; apply nth_In; assumption).
  destruct (G ((length (s :: k) - 1) / 2)) as (x & -> & X). { apply Nat.div_lt_upper_bound; cbn [length]; lia. }
  destruct (G (length (s :: k) / 2)) as (y & -> & Y). { apply Nat.div_lt_upper_bound; cbn [length]; lia. }
  eexists. split; [reflexivity|]. apply Qlt_shift_div_l; [reflexivity|]. lra.
Qed.
Lemma along_complete : forall no nx np d sigma degree, no <> 0 -> nx <> 0 -> np <> 0 -> (0 <= degree)%Z ->
  (forall o x p, o < no -> x < nx -> p < np -> exists v, d o x p = Some v /\ ~ (v == 0)%Q) -> exists v, along fit std no nx np d sigma degree = Ok v.
Proof.
  intros no nx np d sigma degree NO NX NP DG H. unfold along. destruct (Nat.eqb_spec (no * np) 0); [nia|]. destruct (Z.ltb_spec degree 0); [lia|].
  assert (MP : forall o x p, o < no -> x < nx -> p < np -> plus_num (modulus (d o x p))).
  { intros o x p O X P. destruct (H o x p O X P) as (v & E & Z). rewrite E. exists (Qabs v). split; [reflexivity|]. pose proof (Qabs_nonneg v).
    destruct (Qlt_le_dec 0 (Qabs v)); [assumption|]. exfalso. apply Z. revert q. apply (Qabs_case v (fun y => (y <= 0)%Q -> (v == 0)%Q)); intros; lra. }
  assert (LP : forall o p, o < no -> p < np -> plus_num (level nx d o p)).
  { intros o p O P. apply median_plus; [destruct nx; [contradiction|discriminate]|]. intros a I. apply in_map_iff in I. destruct I as (x & <- & I). apply in_seq in I. apply MP; lia. }
  assert (LG : exists M, largest no nx np d = Fin M /\ (0 < M)%Q).
  { pose proof (nanmax_fine _ (levels_fine no nx np d)) as [F _]. fold (largest no nx np d) in F. destruct (LP 0 0 ltac:(lia) ltac:(lia)) as (q & E & Q).
    assert (I : In (level nx d 0 0) (flat_map (fun o => map (level nx d o) (seq 0 np)) (seq 0 no))).
    { apply in_flat_map. exists 0. split; [apply in_seq; lia|]. apply in_map_iff. exists 0. split; [reflexivity|apply in_seq; lia]. }
    pose proof (max_above _ _ (levels_fine no nx np d) I (level_fine nx d 0 0)) as G. fold (largest no nx np d) in G. rewrite E in G.
    destruct (largest no nx np d) as [|M|]; try contradiction. exists M. split; [reflexivity|lra]. }
  destruct LG as (M & EM & M0).
  assert (NN : not_nan no nx np d 0 = true).
  { apply forallb_forall. intros p P. apply in_seq in P. assert (PP : plus_num (profile no nx np d 0 p)).
    { apply median_plus; [destruct no; [contradiction|discriminate]|]. intros a I. apply in_map_iff in I. destruct I as (o & <- & I). apply in_seq in I.
      destruct (LP o p ltac:(lia) ltac:(lia)) as (m & E & ME). destruct (MP o 0 p ltac:(lia) ltac:(lia) ltac:(lia)) as (u & EU & UP).
      destruct (H o 0 p ltac:(lia) ltac:(lia) ltac:(lia)) as (v & EV & _). destruct (flat_value no nx np d o 0 p M m v EM M0 E ME EV) as (w & FW & WW).
      exists w. split; [assumption|]. rewrite WW. rewrite EV in EU. cbn in EU. injection EU as EU. rewrite EU. apply Qlt_shift_div_l; [assumption|]. rewrite Qmult_0_l. apply Qmult_lt_0_compat; assumption. }
    destruct PP as (q & -> & Q). cbn. apply negb_true_iff. destruct (Qle_bool q 0) eqn:E; [apply Qle_bool_iff in E; lra|reflexivity]. }
  destruct nx as [|n']; [contradiction|]. cbn [seq forallb]. rewrite NN. eexists. reflexivity.
Qed.
Lemma complete : forall a axis sigma degree, 2 <= a_dim a -> (axis = 0 \/ axis = 1)%Z -> (0 <= degree)%Z -> a_times a <> 0 -> a_freqs a <> 0 -> a_pols a <> 0 ->
  (forall t f p, t < a_times a -> f < a_freqs a -> p < a_pols a -> exists v, a_value a t f p = Some v /\ ~ (v == 0)%Q) -> exists b, mitigate fit std a axis sigma degree = Ok b.
Proof.
  intros a axis sigma degree D AX DG T F P H. pose proof (mitigate_along a axis sigma degree) as M. destruct (mitigate fit std a axis sigma degree) as [b|e]; [exists b; reflexivity|].
  exfalso. destruct M as [M|[M|M]]; [lia|lia|]. destruct M as (_ & _ & M).
  destruct (along_complete (along_size a axis) (other_size a axis) (a_pols a) (line a axis) sigma degree) as (v & V); [..|congruence]; destruct AX; subst axis; cbn; try assumption; intros; apply H; assumption.
Qed.
End Mitigation.
