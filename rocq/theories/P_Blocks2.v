(** Proofs: laws of the operators on blocks, periodic observations. *)
From Coq Require Import List Arith ZArith QArith Bool Lia.
From Verif Require Import Base M_Slots M_Sched M_Cnst M_Blocks P_Cnst P_Cnst2 P_Cnst3 P_Blocks.
Import ListNotations.
Open Scope nat_scope.

(** ** Laws of the operators *)

Lemma add_law : forall h a b la lb, breach h -> elements h a la -> elements h b lb ->
  exists h' c, py_plus h (VRef a) (VRef b) = (h', Ok (VRef c)) /\ breach h' /\
    ~ c < length h /\ elements h' c (la ++ lb) /\
    same_but (fun r => In r (la ++ lb)) h h' /\ (NoDup (la ++ lb) -> numbered h' (la ++ lb)).
Proof.
  intros h a b la lb B A1 A2. pose proof (breach_wf h B) as W.
  apply elements_iff in A1. apply elements_iff in A2. destruct A1 as [L1 R1], A2 as [L2 R2].
  destruct (add_spec h a b W L1 L2) as (h' & c & E & W' & C & EL & DA & SB & NUM). rewrite R1, R2 in *.
  exists h', c. cbn [py_plus]. split; [exact E|]. split.
  { pose proof (br_plus h (VRef a) (VRef b) B (vv_ref h a L1) (vv_ref h b L2)) as X. cbn [py_plus] in X. now rewrite E in X. }
  split; [assumption|]. split; [assumption|]. split; [assumption|].
  intros N i r I. apply NUM; [assumption|]. intros j J. now apply last_of_nodup with (i := i).
Qed.

(** Both ways to associate give the same elements with the same numbers. *)
Lemma add_assoc_law : forall h a b c la lb lc, breach h -> elements h a la -> elements h b lb -> elements h c lc ->
  exists h1 x h2 y h3 z h4 t,
    py_plus h (VRef a) (VRef b) = (h1, Ok (VRef x)) /\ py_plus h1 (VRef x) (VRef c) = (h2, Ok (VRef y)) /\
    py_plus h (VRef b) (VRef c) = (h3, Ok (VRef z)) /\ py_plus h3 (VRef a) (VRef z) = (h4, Ok (VRef t)) /\
    elements h2 y (la ++ lb ++ lc) /\ elements h4 t (la ++ lb ++ lc) /\
    forall r, In r (la ++ lb ++ lc) -> exists o o', nth_error h2 r = Some o /\ nth_error h4 r = Some o' /\
      o_data o = o_data o' /\ o_refs o = o_refs o' /\ o_idx o = o_idx o'.
Proof.
  intros h a b c la lb lc B A1 A2 A3. pose proof (breach_wf h B) as W.
  apply elements_iff in A1. apply elements_iff in A2. apply elements_iff in A3.
  destruct A1 as [L1 R1], A2 as [L2 R2], A3 as [L3 R3].
  destruct (add_spec h a b W L1 L2) as (h1 & x & E1 & W1 & C1 & EL1 & _ & SB1 & _).
  destruct (add_spec h b c W L2 L3) as (h3 & z & E3 & W3 & C3 & EL3 & _ & SB3 & _).
  apply elements_iff in EL1. apply elements_iff in EL3. destruct EL1 as [X1 RX], EL3 as [Z1 RZ].
  pose proof (same_but_length _ _ _ SB1) as LL1. pose proof (same_but_length _ _ _ SB3) as LL3.
  destruct (add_spec h1 x c W1 X1 ltac:(lia)) as (h2 & y & E2 & W2 & C2 & EL2 & _ & SB2 & N2).
  destruct (add_spec h3 a z W3 ltac:(lia) Z1) as (h4 & t & E4 & W4 & C4 & EL4 & _ & SB4 & N4).
  rewrite RX, (refs_of_same _ _ _ c SB1 L3), R1, R2, R3, <- app_assoc in *.
  rewrite RZ, (refs_of_same _ _ _ a SB3 L1), R1 in *.
  exists h1, x, h2, y, h3, z, h4, t. cbn [py_plus].
  split; [assumption|]. split; [assumption|]. split; [assumption|]. split; [assumption|]. split; [assumption|]. split; [assumption|].
  intros r I.
  assert (LAST : forall l : list nat, In r l -> exists i, nth_error l i = Some r /\ forall j, i < j -> nth_error l j <> Some r).
  { clear. induction l as [|q l IH]; intros I; [destruct I|]. destruct (in_dec Nat.eq_dec r l) as [J|J].
    - destruct (IH J) as (i & P & Q). exists (S i). split; [assumption|]. intros [|j] L; [lia|]. cbn. apply Q. lia.
    - destruct I as [->|I]; [|contradiction]. exists 0. split; [reflexivity|]. intros [|j] L; [lia|]. cbn. intros K. apply J. now apply nth_error_In in K. }
  destruct (LAST _ I) as (i & P & Q).
  destruct (N2 i r P Q) as (o & O1 & O2). destruct (N4 i r P Q) as (o' & O3 & O4).
  exists o, o'. split; [assumption|]. split; [assumption|].
  assert (RL : r < length h).
  { rewrite <- R1, <- R2, <- R3 in I. pose proof (wf_refs h a W) as F1. pose proof (wf_refs h b W) as F2. pose proof (wf_refs h c W) as F3.
    rewrite Forall_forall in *. apply in_app_or in I. destruct I as [I|I]; [now apply F1|]. apply in_app_or in I. destruct I; [now apply F2|now apply F3]. }
  destruct (nth_error h r) as [o0|] eqn:O; [|apply nth_error_None in O; lia].
  destruct (SB1 r o0 O) as (p1 & P1 & P2 & P3 & _). destruct (SB2 r p1 P1) as (p2 & P4 & P5 & P6 & _).
  destruct (SB3 r o0 O) as (q1 & Q1 & Q2 & Q3 & _). destruct (SB4 r q1 Q1) as (q2 & Q4 & Q5 & Q6 & _).
  rewrite O1 in P4. injection P4; intros <-. rewrite O3 in Q4. injection Q4; intros <-.
  split; [congruence|]. split; congruence.
Qed.

Lemma add_type_error : forall h a v, (forall b, v <> VRef b) ->
  py_plus h (VRef a) v = (h, Err ETypeError) /\
  (v = VInt 0 -> py_plus h v (VRef a) = (h, Ok (VRef a))) /\
  (v <> VInt 0 -> py_plus h v (VRef a) = (h, Err ETypeError)).
Proof.
  intros h a v N. destruct v as [b|z|]; [now destruct (N b)| |].
  - split; [reflexivity|]. split; [now intros ->|]. intros X. destruct z; [congruence|reflexivity|reflexivity].
  - split; [reflexivity|]. split; [discriminate|reflexivity].
Qed.

(** Multiplication. *)
Lemma mul_law : forall h a l n, breach h -> elements h a l ->
  exists h' c l', mul h a n = (h', c) /\ breach h' /\ ~ c < length h /\
    elements h' c l' /\ length l' = length l * Z.to_nat n /\
    NoDup l' /\ (forall r, In r l' -> length h <= r) /\ numbered h' l' /\
    same_but (fun _ => False) h h' /\
    (forall i k, i < length l -> k < Z.to_nat n ->
       exists r o r' o', nth_error l i = Some r /\ nth_error h r = Some o /\
         nth_error l' (i * Z.to_nat n + k) = Some r' /\ nth_error h' r' = Some o' /\
         o_data o' = o_data o /\ o_refs o' = o_refs o).
Proof.
  intros h a l n B E. apply elements_iff in E. destruct E as [L R].
  destruct (mul_spec h a n (breach_wf h B) L) as (h' & c & l' & E & W & X). rewrite R in X.
  exists h', c, l'. split; [exact E|]. split; [|exact X].
  pose proof (br_mul h a n B L) as Y. now rewrite E in Y.
Qed.

(** Sums of lists. *)
Lemma sum_law : forall h a l ls, breach h -> Forall2 (elements h) (a :: l) ls ->
  exists h' c, py_sum h (map VRef (a :: l)) = (h', Ok (VRef c)) /\ breach h' /\
    elements h' c (concat ls) /\ same_but (fun r => In r (concat ls)) h h' /\
    (l <> [] -> ~ c < length h /\ (NoDup (concat ls) -> numbered h' (concat ls))) /\
    (l = [] -> h' = h /\ c = a).
Proof.
  intros h a l ls B F.
  assert (EQ : flat_map (refs_of h) (a :: l) = concat ls /\ Forall (fun b => b < length h) (a :: l)).
  { clear B. remember (a :: l) as m. clear Heqm. induction F as [|x y t u E F IH]; [now split|].
    apply elements_iff in E. destruct E as [E1 E2], IH as [IH1 IH2]. cbn. split; [congruence|now constructor]. }
  destruct EQ as [EQ FA]. inversion FA; subst.
  destruct (sum_spec a l h (breach_wf h B) H1 H2) as (h' & c & E & W & EL & SB & N & Z). rewrite EQ in *.
  exists h', c. split; [exact E|]. split.
  { pose proof (br_sum h (map VRef (a :: l)) B) as X. rewrite E in X. apply X.
    apply Forall_forall. intros v V. apply in_map_iff in V. destruct V as (r & <- & V). constructor.
    rewrite Forall_forall in FA. now apply FA. }
  split; [assumption|]. split; [assumption|]. split; [|assumption].
  intros NE. destruct (N NE) as (N1 & N2 & N3). split; [assumption|].
  intros ND i r I. apply N3; [assumption|]. intros j J. now apply last_of_nodup with (i := i).
Qed.

Lemma sum_empty : forall h, py_sum h [] = (h, Ok (VInt 0)) /\ py_reduce h [] = (h, Err ETypeError).
Proof. now split. Qed.

(** Reading an element. *)
Lemma getitem_law : forall h a l n, elements h a l ->
  (0 <= n < Z.of_nat (length l) -> exists r, nth_error l (Z.to_nat n) = Some r /\ getitem h a n = Ok r)%Z /\
  (- Z.of_nat (length l) <= n < 0 -> exists r, nth_error l (length l - Z.to_nat (- n)) = Some r /\ getitem h a n = Ok r)%Z /\
  (~ (- Z.of_nat (length l) <= n < Z.of_nat (length l)) -> getitem h a n = Err EIndexError)%Z.
Proof.
  intros h a l n E. apply elements_iff in E. destruct E as [_ R]. unfold getitem. rewrite R. split; [|split].
  - intros L. replace (n <? 0)%Z with false by lia. replace (n <? 0)%Z with false by lia.
    destruct (nth_error l (Z.to_nat n)) as [r|] eqn:X; [now exists r|]. apply nth_error_None in X. lia.
  - intros L. replace (n <? 0)%Z with true by lia. replace (n + Z.of_nat (length l) <? 0)%Z with false by lia.
    replace (Z.to_nat (n + Z.of_nat (length l))) with (length l - Z.to_nat (- n)) by lia.
    destruct (nth_error l (length l - Z.to_nat (- n))) as [r|] eqn:X; [now exists r|]. apply nth_error_None in X. lia.
  - intros L. destruct (Z.ltb_spec n 0).
    + replace (n + Z.of_nat (length l) <? 0)%Z with true by lia. reflexivity.
    + replace (n <? 0)%Z with false by lia. destruct (nth_error l (Z.to_nat n)) eqn:X; [|reflexivity].
      assert (Z.to_nat n < length l) by (apply nth_error_Some; congruence). lia.
Qed.

(** Filtering. *)
Lemma get_law : forall h a l test, breach h -> elements h a l ->
  (forall r o, In r l -> nth_error h r = Some o -> exists b, test o = Ok b) ->
  exists h' c l', get h a 1 test = (h', Ok c) /\ breach h' /\ ~ c < length h /\ elements h' c l' /\
    l' = filter (fun r => match nth_error h r with
                          | Some o => match test o with Ok b => b | Err _ => false end
                          | None => false end) l /\
    same_but (fun r => In r l') h h' /\ (NoDup l -> numbered h' l').
Proof.
  intros h a l test B E T. apply elements_iff in E. destruct E as [L R]. pose proof (breach_wf h B) as W.
  pose proof (wf_refs h a W) as F. rewrite R in F.
  set (keep := fun r => match nth_error h r with Some o => match test o with Ok b => b | Err _ => false end | None => false end).
  assert (FR : filter_res (fun r => match nth_error h r with Some o => test o | None => Err EKeyError end) l = Ok (filter keep l)).
  { clear R. induction l as [|r t IH]; [reflexivity|]. inversion F; subst. cbn [filter_res filter].
    destruct (nth_error h r) as [o|] eqn:O; [|apply nth_error_None in O; lia].
    destruct (T r o (or_introl eq_refl) O) as (b & TB). rewrite TB. cbn [bind].
    rewrite IH; [|intros r' o' I; apply T; now right|assumption]. cbn [bind].
    assert (K : keep r = b) by (unfold keep; now rewrite O, TB). rewrite K. reflexivity. }
  assert (F' : Forall (fun r => r < length h) (filter keep l)).
  { rewrite Forall_forall in *. intros r I. apply filter_In in I. now apply F. }
  destruct (new_block_spec h (filter keep l) F') as (X0 & X1 & X2 & X3 & X4 & X5).
  assert (G : get h a 1 test = (fst (new_block h (filter keep l)), Ok (snd (new_block h (filter keep l))))).
  { unfold get. rewrite R. cbn [Nat.eqb negb]. now rewrite FR. }
  eexists. eexists. exists (filter keep l). split; [exact G|]. split.
  { pose proof (br_get h a 1 test B L) as Y. now rewrite G in Y. }
  split; [rewrite X1; lia|]. split; [exact X2|]. split; [reflexivity|]. split; [exact X4|].
  intros ND i r I. apply X5; [assumption|]. intros j J. apply last_of_nodup with (i := i); try assumption. now apply NoDup_filter.
Qed.

Lemma get_keywords : forall h a n test, n <> 1 -> get h a n test = (h, Err EValueError).
Proof. intros. unfold get. now destruct (Nat.eqb_spec n 1). Qed.

(** ** What does not hold *)

Definition obs0 : payload := PObs 1 1 3600 None (mkCset [default_el] true).
Definition obs1 : payload := PObs 2 1 7200 None (mkCset [default_el] true).

Lemma cset0_reach : cset_reach (mkCset [default_el] true).
Proof. apply (cr_new []). reflexivity. Qed.

(** Two blocks, [b + b], then [b + c]. *)
Definition h_two : heap := fst (new_one (fst (new_one [] obs0)) obs1).
Lemma h_two_reach : breach h_two.
Proof. unfold h_two. apply br_obs; [|apply cset0_reach]. apply br_obs; [constructor|apply cset0_reach]. Qed.

(** The same object twice: both elements show the number 1. *)
Lemma add_twice : exists h' c, py_plus h_two (VRef 0) (VRef 0) = (h', Ok (VRef c)) /\
  elements h' c [0; 0] /\ (exists o, nth_error h' 0 = Some o /\ o_idx o = Some 1) /\ ~ numbered h' [0; 0].
Proof.
  eexists; eexists. split; [vm_compute; reflexivity|]. split; [eexists; split; reflexivity|].
  split; [eexists; split; reflexivity|]. intros N. destruct (N 0 0 eq_refl) as (o & A & B). vm_compute in A. injection A; intros <-. discriminate.
Qed.

(** A later addition renumbers the elements of an older collection. *)
Lemma add_renumbers : exists h1 x h2 y,
  py_plus h_two (VRef 0) (VRef 1) = (h1, Ok (VRef x)) /\ elements h1 x [0; 1] /\ numbered h1 [0; 1] /\
  py_plus h1 (VRef 1) (VRef 0) = (h2, Ok (VRef y)) /\ elements h2 x [0; 1] /\ ~ numbered h2 [0; 1].
Proof.
  eexists; eexists; eexists; eexists. split; [vm_compute; reflexivity|]. split; [eexists; split; reflexivity|]. split.
  { intros [|[|[|i]]] r E; try discriminate; vm_compute in E; injection E; intros <-; eexists; split; reflexivity. }
  split; [vm_compute; reflexivity|]. split; [eexists; split; reflexivity|].
  intros N. destruct (N 0 0 eq_refl) as (o & A & B). vm_compute in A. injection A; intros <-. discriminate.
Qed.

(** An element of a product refers to the block it is a copy of: adding it adds
    that block instead. *)
Lemma copy_is_not_itself : exists h1 x r h2 y,
  mul h_two 0 2 = (h1, x) /\ getitem h1 x 1 = Ok r /\ r <> 0 /\
  py_plus h1 (VRef r) (VRef 1) = (h2, Ok (VRef y)) /\ elements h2 y [0; 1].
Proof.
  do 5 eexists. split; [vm_compute; reflexivity|]. split; [vm_compute; reflexivity|]. split; [discriminate|].
  split; [vm_compute; reflexivity|]. eexists; split; reflexivity.
Qed.

(** ** Periodic observations *)

Lemma repetitions_spec : forall start stop p cap, (0 < p)%Z ->
  exists n, repetitions (stop - start) p cap = Ok n /\
    forall i, (0 <= i)%Z -> ((i < n) <-> (start + i * p < stop) /\ match cap with Some m => i < m | None => True end)%Z.
Proof.
  intros start stop p cap P. unfold repetitions. replace (p =? 0)%Z with false by lia.
  eexists. split; [reflexivity|]. intros i I. pose proof (cdiv_spec (stop - start) p P) as C.
  assert (X : (i < cdiv (stop - start) p <-> start + i * p < stop)%Z) by (split; intros; nia).
  destruct cap as [m|]; [destruct (Z.ltb_spec m (cdiv (stop - start) p))|]; lia.
Qed.

Lemma repetitions_zero : forall span cap,
  repetitions span 0 cap = Err (if (span =? 0)%Z then EValueError else EOverflowError).
Proof. intros. unfold repetitions. cbn. now destruct (span =? 0)%Z. Qed.

Lemma deepcopy_old : forall h a r, r < length h -> nth_error (fst (deepcopy h a)) r = nth_error h r.
Proof. intros. unfold deepcopy. cbn [fst]. now rewrite nth_error_app1. Qed.

Lemma deepcopy_length : forall h a, length (fst (deepcopy h a)) = length h + length h.
Proof. intros. unfold deepcopy. cbn [fst]. now rewrite app_length, map_length. Qed.

Lemma deepcopies_spec : forall n h a o, nth_error h a = Some o -> o_refs o = [a] ->
  let h' := fst (deepcopies h a n) in let l := snd (deepcopies h a n) in
  length l = n /\ length h <= length h' /\
  (forall r, r < length h -> nth_error h' r = nth_error h r) /\ NoDup l /\
  forall c, In c l -> length h <= c < length h' /\ nth_error h' c = Some (mkObj (o_data o) (o_idx o) [c]).
Proof.
  induction n as [|n IH]; intros h a o E R.
  - cbn. split; [reflexivity|]. split; [lia|]. split; [reflexivity|]. split; [constructor|]. intros c [].
  - assert (A : a < length h) by (apply nth_error_Some; congruence).
    cbn [deepcopies]. set (h1 := fst (deepcopy h a)). change (snd (deepcopy h a)) with (length h + a).
    assert (E1 : nth_error h1 a = Some o) by (unfold h1; now rewrite deepcopy_old).
    assert (L1 : length h1 = length h + length h) by apply deepcopy_length.
    destruct (IH h1 a o E1 R) as (I1 & I2 & I3 & I4 & I5). cbn [fst snd]. cbn zeta.
    split; [cbn [length]; now rewrite I1|]. split; [lia|].
    split; [intros r L; rewrite I3 by lia; unfold h1; now apply deepcopy_old|]. split.
    + constructor; [|assumption]. intros I. apply I5 in I. lia.
    + intros c [<-|I]; [|destruct (I5 c I) as [X Y]; split; [lia|exact Y]].
      split; [lia|]. rewrite I3 by lia. unfold h1, deepcopy. cbn [fst]. rewrite nth_error_app2 by lia.
      replace (length h + a - length h) with a by lia. rewrite (map_nth_error _ a h E). cbn. now rewrite R.
Qed.

(** The constraint of the [i]-th repetition. *)
Definition window_cnst (start p tol : Z) (i : nat) : cnst :=
  let c := (start + Z.of_nat i * p)%Z in mkCnst (CTimeRange [(c - tol, c + tol)%Z]) 1.

Definition no_range (cs : cset) : Prop := forall c, In c (cs_list cs) -> forall rs, cn_kind c <> CTimeRange rs.

Lemma no_range_iff : forall cs, no_range cs <-> ~ In 6 (classes (cs_list cs)).
Proof.
  intros cs. unfold no_range, classes. rewrite in_map_iff. split.
  - intros H (c & E & I). specialize (H c I). destruct (cn_kind c); try discriminate. now apply (H ranges).
  - intros H c I rs E. apply H. exists c. split; [now rewrite E|assumption].
Qed.

Lemma window_ok : forall cs start p tol i, cset_reach cs -> no_range cs ->
  exists left r, cset_add cs (window_cnst start p tol i) = (left, Ok r).
Proof.
  intros cs start p tol i R N. apply no_range_iff in N.
  destruct (cset_add cs (window_cnst start p tol i)) as [left [r|e]] eqn:E; [now exists left, r|exfalso].
  destruct (add_ok cs (window_cnst start p tol i) R) as [[_ H] _].
  destruct (H (or_introl N)) as (s' & r & X). congruence.
Qed.

Lemma window_refused : forall cs start p tol i, cset_reach cs -> ~ no_range cs ->
  snd (cset_add cs (window_cnst start p tol i)) = Err EValueError.
Proof.
  intros cs start p tol i R N.
  destruct (add_ok cs (window_cnst start p tol i) R) as [[H _] X].
  destruct (cset_add cs (window_cnst start p tol i)) as [left [r|e]] eqn:E.
  - exfalso. destruct (H (ex_intro _ left (ex_intro _ r eq_refl))) as [A|[A _]]; [|discriminate].
    apply N. now apply no_range_iff.
  - cbn. destruct (X left e eq_refl) as [-> _]. reflexivity.
Qed.

Lemma add_ranges_spec : forall l h cs0 start p tol k, cset_reach cs0 -> no_range cs0 -> NoDup l ->
  exists h', add_ranges h cs0 start p tol k l = (h', None) /\ length h' = length h /\
    (forall r, ~ In r l -> nth_error h' r = nth_error h r) /\
    forall j c o n pr d dl cs, nth_error l j = Some c -> nth_error h c = Some o -> o_data o = PObs n pr d dl cs ->
      exists left csj, cset_add cs0 (window_cnst start p tol (k + j)) = (left, Ok csj) /\
        nth_error h' c = Some (mkObj (PObs n pr d dl csj) (o_idx o) (o_refs o)).
Proof.
  induction l as [|a t IH]; intros h cs0 start p tol k R N ND.
  - exists h. cbn. split; [reflexivity|]. split; [reflexivity|]. split; [reflexivity|]. intros [|j]; discriminate.
  - inversion ND; subst. cbn [add_ranges]. destruct (window_ok cs0 start p tol k R N) as (left & r & E).
    change (mkCnst (CTimeRange [(start + Z.of_nat k * p - tol, start + Z.of_nat k * p + tol)%Z]) 1) with (window_cnst start p tol k).
    rewrite E. cbn [snd]. destruct (IH (set_cs h a r) cs0 start p tol (S k) R N H2) as (h' & E' & L' & F' & G').
    exists h'. split; [exact E'|]. split; [rewrite L'; apply set_cs_length|]. split.
    + intros q Q. rewrite F' by (intros X; apply Q; now right). rewrite set_cs_spec.
      destruct (Nat.eqb_spec q a) as [X|X]; [exfalso; apply Q; now left|reflexivity].
    + intros [|j] c o n pr d dl cs J O D.
      * cbn in J. injection J; intros <-. rewrite Nat.add_0_r. exists left, r. split; [exact E|].
        rewrite F' by assumption. rewrite set_cs_spec, Nat.eqb_refl, O. cbn. now rewrite D.
      * cbn in J. replace (k + S j) with (S k + j) by lia. apply (G' j c o n pr d dl cs J); [|assumption].
        rewrite set_cs_spec. destruct (Nat.eqb_spec c a) as [X|X]; [|assumption].
        exfalso. apply H1. rewrite <- X. now apply nth_error_In in J.
Qed.

(** Every constraint set in a reachable heap was built by the operators. *)
Definition csets_ok (h : heap) : Prop :=
  forall r o, nth_error h r = Some o -> match o_data o with PObs _ _ _ _ cs => cset_reach cs | _ => True end.

Lemma csets_from : forall h h',
  (forall r o', nth_error h' r = Some o' -> o_data o' = PBlock \/ exists q o, nth_error h q = Some o /\ o_data o' = o_data o) ->
  csets_ok h -> csets_ok h'.
Proof. intros h h' F H r o' E. destruct (F r o' E) as [->|(q & o & Q & ->)]; [exact I|now apply (H q)]. Qed.

Lemma csets_new_block : forall h l, csets_ok h -> csets_ok (fst (new_block h l)).
Proof.
  intros h l. apply csets_from. intros r o' E. unfold new_block in E. cbn [fst] in E. rewrite assign_is in E.
  pose proof (assign_from_spec l 0 (h ++ [mkObj PBlock None l]) r) as A.
  destruct (nth_error (h ++ [mkObj PBlock None l]) r) as [o|] eqn:O; [|congruence].
  destruct A as (o2 & A1 & A2 & _). rewrite E in A1. injection A1; intros <-.
  destruct (le_lt_dec (length h) r) as [G|G].
  - rewrite nth_error_app2 in O by assumption. destruct (r - length h) as [|[|]]; try discriminate.
    cbn in O. injection O; intros <-. now left.
  - rewrite nth_error_app1 in O by assumption. right. now exists r, o.
Qed.

Lemma csets_add : forall h a v, csets_ok h -> csets_ok (fst (add h a v)).
Proof. intros h a [b|z|] C; [now apply csets_new_block|assumption|assumption]. Qed.

Lemma csets_plus : forall h x y, csets_ok h -> csets_ok (fst (py_plus h x y)).
Proof.
  intros h [a|z|] y C; cbn [py_plus]; [now apply csets_add| |].
  - destruct y; [|assumption..]. unfold radd. destruct z; [assumption|now apply csets_add..].
  - destruct y; [|assumption..]. now apply csets_add.
Qed.

Lemma csets_sum : forall l h v, csets_ok h -> csets_ok (fst (sum_from h v l)).
Proof.
  induction l as [|x t IH]; intros h v C; cbn [sum_from]; [assumption|].
  pose proof (csets_plus h v x C) as P. destruct (py_plus h v x) as [h' [y|e]]; [now apply IH|assumption].
Qed.

Lemma csets_app : forall h x, csets_ok h -> (forall o, In o x -> exists q o', nth_error h q = Some o' /\ o_data o = o_data o') ->
  csets_ok (h ++ x).
Proof.
  intros h x C F. revert C. apply csets_from. intros r o' E. right. destruct (le_lt_dec (length h) r) as [G|G].
  - rewrite nth_error_app2 in E by assumption. apply nth_error_In in E. now apply F.
  - rewrite nth_error_app1 in E by assumption. now exists r, o'.
Qed.

Lemma csets_deepcopies : forall n h a, csets_ok h -> csets_ok (fst (deepcopies h a n)).
Proof.
  induction n as [|n IH]; intros h a C; cbn [deepcopies]; [assumption|]. cbn [fst]. apply IH.
  unfold deepcopy. cbn [fst]. apply csets_app; [assumption|]. intros o I. apply in_map_iff in I.
  destruct I as (o0 & <- & I). apply In_nth_error in I. destruct I as (q & Q). exists q, o0. now split.
Qed.

Lemma csets_add_ranges : forall l h cs0 start p tol k, cset_reach cs0 -> csets_ok h ->
  csets_ok (fst (add_ranges h cs0 start p tol k l)).
Proof.
  induction l as [|a t IH]; intros h cs0 start p tol k R C; cbn [add_ranges]; [assumption|].
  destruct (snd (cset_add _ _)) as [cs|e] eqn:E; [|assumption]. apply IH; [assumption|].
  intros r o O. rewrite set_cs_spec in O. destruct (r =? a); [|now apply (C r)].
  destruct (nth_error h r) as [o0|] eqn:O0; [|discriminate]. injection O; intros <-. cbn.
  specialize (C r o0 O0). destruct (o_data o0); try exact C.
  match type of E with snd ?x = _ => destruct x as [left rr] eqn:E2 end. cbn [snd] in E. subst rr. exact (cr_add _ _ _ _ R E2).
Qed.

Lemma breach_csets : forall h, breach h -> csets_ok h.
Proof.
  induction 1 as [|h n p d dl cs B IH C|h a b B IH|h l B IH F|h x y B IH X Y|h l B IH F|h l B IH F|h a n B IH A
    |h a n test B IH A|h a start stop p tol cap B IH A].
  - intros r o E. destruct r; discriminate.
  - rewrite new_one_eq. intros r o E. destruct (le_lt_dec (length h) r) as [G|G].
    + rewrite nth_error_app2 in E by assumption. destruct (r - length h) as [|[|]]; try discriminate.
      cbn in E. injection E; intros <-. exact C.
    + rewrite nth_error_app1 in E by assumption. now apply (IH r).
  - rewrite new_one_eq. intros r o E. destruct (le_lt_dec (length h) r) as [G|G].
    + rewrite nth_error_app2 in E by assumption. destruct (r - length h) as [|[|]]; try discriminate.
      cbn in E. injection E; intros <-. exact I.
    + rewrite nth_error_app1 in E by assumption. now apply (IH r).
  - now apply csets_new_block.
  - now apply csets_plus.
  - now apply csets_sum.
  - destruct l; [assumption|now apply csets_sum].
  - unfold mul. apply csets_new_block. apply csets_app; [assumption|]. intros o I. apply in_flat_map in I.
    destruct I as (r & _ & I). destruct (nth_error h r) as [o'|] eqn:E; [|destruct I]. destruct I as [<-|[]]. now exists r, o'.
  - unfold get. destruct (negb (n =? 1)); [assumption|]. destruct (filter_res _ _); [now apply csets_new_block|assumption].
  - unfold periodic. destruct (repetitions _ _ _) as [n|e]; [|assumption].
    assert (CR : cset_reach (cs_of h a)).
    { unfold is_obs in A. unfold cs_of. destruct (nth_error h a) as [o|] eqn:E; [|discriminate]. specialize (IH a o E).
      destruct (o_data o); [assumption|discriminate..]. }
    pose proof (csets_add_ranges (snd (deepcopies h a (Z.to_nat n))) (fst (deepcopies h a (Z.to_nat n))) (cs_of h a) start p tol 0 CR
      (csets_deepcopies (Z.to_nat n) h a IH)) as X.
    destruct (add_ranges _ _ _ _ _ _ _) as [h' [e|]]; cbn [fst] in *; [assumption|]. now apply csets_sum.
Qed.

(** The blocks returned by [periodic_observation]. *)
Lemma periodic_law : forall h a o name prog dur dl cs start stop p tol cap n, breach h ->
  nth_error h a = Some o -> o_data o = PObs name prog dur dl cs -> o_refs o = [a] -> no_range cs ->
  repetitions (stop - start) p cap = Ok n -> (0 < n)%Z ->
  exists h' c l, periodic h a start stop p tol cap = (h', Ok (VRef c)) /\
    elements h' c l /\ length l = Z.to_nat n /\ NoDup l /\ (forall r, In r l -> length h <= r) /\
    same_but (fun _ => False) h h' /\ ((1 < n)%Z -> numbered h' l) /\ (n = 1%Z -> l = [c]) /\
    forall i r, nth_error l i = Some r -> exists cs',
      data_at h' r (PObs name prog dur dl cs') /\ In (window_cnst start p tol i) (cs_list cs') /\
      (forall d, In d (cs_list cs) -> In d (cs_list cs')) /\
      (forall d, In d (cs_list cs') -> d = window_cnst start p tol i \/ In d (cs_list cs) \/ d = default_el).
Proof.
  intros h a o name prog dur dl cs start stop p tol cap n B O D R NR RP NP.
  assert (CR : cset_reach cs) by (pose proof (breach_csets h B a o O) as X; now rewrite D in X).
  assert (CS : cs_of h a = cs) by (unfold cs_of; now rewrite O, D).
  assert (AL : a < length h) by (apply nth_error_Some; congruence).
  unfold periodic. rewrite RP, CS.
  destruct (deepcopies_spec (Z.to_nat n) h a o O R) as (D1 & D2 & D3 & D4 & D5).
  destruct (deepcopies_wf (Z.to_nat n) h a (breach_wf h B) AL) as (W1 & _).
  set (hc := fst (deepcopies h a (Z.to_nat n))) in *. set (l := snd (deepcopies h a (Z.to_nat n))) in *.
  destruct (add_ranges_spec l hc cs start p tol 0 CR NR D4) as (h1 & E1 & L1 & F1 & G1). rewrite E1.
  assert (W : wf h1) by (pose proof (wf_add_ranges l hc cs start p tol 0 W1) as X; rewrite E1 in X; apply X).
  assert (REF : forall c, In c l -> refs_of h1 c = [c]).
  { intros c C. pose proof C as C'. apply In_nth_error in C'. destruct C' as (j & J). destruct (D5 c C) as [_ X].
    destruct (G1 j c _ name prog dur dl cs J X) as (left & csj & _ & Y); [cbn; assumption|]. unfold refs_of. now rewrite Y. }
  assert (FM : flat_map (refs_of h1) l = l).
  { clear -REF. induction l as [|x t IH]; [reflexivity|]. cbn. rewrite (REF x) by now left. cbn. f_equal. apply IH. intros c C. apply REF. now right. }
  assert (LT : Forall (fun c => c < length h1) l) by (apply Forall_forall; intros c C; apply D5 in C; lia).
  assert (S1 : same_but (fun _ => False) h h1).
  { intros r q E. assert (r < length h) by (apply nth_error_Some; congruence). exists q.
    rewrite F1, D3 by (try assumption; intros X; apply D5 in X; lia). auto. }
  destruct l as [|x t] eqn:EL; [cbn in D1; lia|]. rewrite <- EL in *.
  assert (LT' : x < length h1 /\ Forall (fun c => c < length h1) t) by (rewrite EL in LT; inversion LT; now split).
  destruct (sum_spec x t h1 W (proj1 LT') (proj2 LT')) as (h' & c & E & W' & EL' & SB & NU & ON).
  rewrite <- EL, FM in *. exists h', c, l.
  split; [exact E|]. split; [exact EL'|]. split; [exact D1|]. split; [exact D4|].
  split; [intros r I; now apply D5 in I|]. split.
  { intros r q Q. destruct (S1 r q Q) as (q1 & Q1 & Q2 & Q3 & Q4). destruct (SB r q1 Q1) as (q2 & Q5 & Q6 & Q7 & Q8).
    exists q2. split; [assumption|]. split; [congruence|]. split; [congruence|]. intros _. rewrite Q8, Q4; auto.
    intros X. apply D5 in X. assert (r < length h) by (apply nth_error_Some; congruence). lia. }
  split.
  { intros N1 i r I. destruct NU as (_ & _ & NU). { intros ->. rewrite EL in D1. cbn in D1. lia. }
    apply NU; [assumption|]. intros j J. now apply last_of_nodup with (i := i). }
  split.
  { intros N1. assert (T : t = []) by (rewrite EL in D1; destruct t; [reflexivity|cbn in D1; lia]).
    destruct (ON T) as [_ ->]. now rewrite EL, T. }
  intros i r I. destruct (D5 r (nth_error_In _ _ I)) as [_ X].
  destruct (G1 i r _ name prog dur dl cs I X D) as (left & csj & AD & Y).
  destruct (SB r _ Y) as (q & Q1 & Q2 & _). exists csj. split; [exists q; split; [assumption|now rewrite Q2]|].
  destruct (add_result cs _ left csj CR AD) as (_ & _ & A3 & A4 & A5). split; [exact A3|]. split.
  - intros d I'. apply A4; [assumption|]. intros EQ. apply (proj1 (no_range_iff cs)) in NR. apply NR. unfold classes. apply in_map_iff. now exists d.
  - intros d I'. destruct (A5 d I') as [->|[X1|[-> _]]]; auto.
Qed.

Lemma periodic_none : forall h a start stop p tol cap n,
  repetitions (stop - start) p cap = Ok n -> (n <= 0)%Z ->
  periodic h a start stop p tol cap = (h, Ok (VInt 0)).
Proof. intros. unfold periodic. rewrite H. replace (Z.to_nat n) with 0 by lia. reflexivity. Qed.

Lemma periodic_refused : forall h a o name prog dur dl cs start stop p tol cap n, breach h ->
  nth_error h a = Some o -> o_data o = PObs name prog dur dl cs -> ~ no_range cs ->
  repetitions (stop - start) p cap = Ok n -> (0 < n)%Z ->
  snd (periodic h a start stop p tol cap) = Err EValueError.
Proof.
  intros h a o name prog dur dl cs start stop p tol cap n B O D NR RP NP.
  assert (CR : cset_reach cs) by (pose proof (breach_csets h B a o O) as X; now rewrite D in X).
  assert (CS : cs_of h a = cs) by (unfold cs_of; now rewrite O, D).
  unfold periodic. rewrite RP, CS.
  destruct (Z.to_nat n) as [|m] eqn:M; [lia|]. cbn [deepcopies snd fst]. cbn [add_ranges].
  change (mkCnst (CTimeRange [(start + Z.of_nat 0 * p - tol, start + Z.of_nat 0 * p + tol)%Z]) 1) with (window_cnst start p tol 0).
  now rewrite (window_refused cs start p tol 0 CR NR).
Qed.

(** The slots allowed by the window: those starting within the tolerance. *)
Lemma window_slots : forall start p tol i time k, k < length time - 1 ->
  exists rs, cn_kind (window_cnst start p tol i) = CTimeRange rs /\
    accepted (range_eval rs time) k (Z.abs (nth k time 0 - (start + Z.of_nat i * p)) <= tol)%Z.
Proof.
  intros start p tol i time k K. eexists. split; [reflexivity|].
  pose proof (range_spec [(start + Z.of_nat i * p - tol, start + Z.of_nat i * p + tol)%Z] time k K) as [A B].
  split.
  - intros H. apply A. eexists. split; [now left|]. cbn. lia.
  - intros H. apply B. intros (r & [<-|[]] & X). cbn in X. lia.
Qed.

(** Whatever the other constraints, the block has no score elsewhere. *)
Lemma eval_rows_nth : forall tg ck ns cs sun sun' rows j c, eval_rows tg ck ns sun cs = (sun', Ok rows) ->
  nth_error cs j = Some c -> exists s s' r, eval_one tg ck ns s c = (s', Ok r) /\ nth j rows None = r.
Proof.
  intros tg ck ns; induction cs as [|d t IH]; intros sun sun' rows j c H J; [destruct j; discriminate|].
  cbn in H. destruct (eval_one tg ck ns sun d) as [s1 [r|e]] eqn:E; [|discriminate].
  destruct (eval_rows tg ck ns s1 t) as [s2 [rs|e]] eqn:E2; cbn in H; [|discriminate].
  injection H; intros <- _. destruct j as [|j].
  - cbn in J. injection J; intros <-. now exists sun, s1, r.
  - cbn in J. now apply (IH _ _ _ j c E2).
Qed.

Lemma window_score : forall cs start p tol i tg ck ns sun sun' rows score k,
  In (window_cnst start p tol i) cs ->
  evaluate cs tg ck ns sun = (sun', Ok (rows, score)) -> k < length score ->
  ~ (Z.abs (nth k (ck_time ck) 0 - (start + Z.of_nat i * p)) <= tol)%Z -> nth k score 0%Q = 0%Q.
Proof.
  intros cs start p tol i tg ck ns sun sun' rows score k I H K N.
  destruct (evaluate_ok _ _ _ _ _ _ _ _ H) as (_ & LR & LS & _).
  apply In_nth_error in I. destruct I as (j & J).
  assert (JL : j < length cs) by (apply nth_error_Some; congruence).
  apply (evaluate_blocked cs tg ck ns sun sun' rows score k j H K JL). left.
  unfold evaluate in H. destruct (eval_rows tg ck ns sun cs) as [s1 [rs|e]] eqn:E; cbn in H; [|discriminate].
  assert (rs = rows) by (destruct cs; [discriminate|congruence]). subst rs.
  destruct (eval_rows_nth _ _ _ _ _ _ _ _ _ E J) as (s & s' & r & E1 & RJ).
  unfold value_at. rewrite RJ. unfold eval_one in E1. cbn [window_cnst cn_kind] in E1.
  set (rr := range_eval _ _) in E1.
  assert (LL : length rr = length (ck_time ck) - 1).
  { unfold rr, range_eval. apply mask_score_length. }
  unfold fit_row in E1. rewrite LL, Nat.eqb_refl in E1. cbn in E1. injection E1; intros <- _.
  destruct (window_slots start p tol i (ck_time ck) k ltac:(lia)) as (rs & RS & _ & A).
  cbn in RS. injection RS; intros RS'. unfold rr. rewrite RS'. now apply A.
Qed.

(** The copies made by a product lose the windows: their element is a copy of
    the original block. *)
Lemma periodic_of_copy : exists h1 x r h2 y l,
  mul h_two 0 2 = (h1, x) /\ getitem h1 x 0 = Ok r /\
  periodic h1 r 0 20 10 1 None = (h2, Ok (VRef y)) /\ elements h2 y l /\ length l = 2 /\
  forall q, In q l -> data_at h2 q obs0.
Proof.
  do 6 eexists. split; [vm_compute; reflexivity|]. split; [vm_compute; reflexivity|]. split; [vm_compute; reflexivity|].
  split; [eexists; split; vm_compute; reflexivity|]. split; [reflexivity|].
  intros q [<-|[<-|[]]]; eexists; split; vm_compute; reflexivity.
Qed.
