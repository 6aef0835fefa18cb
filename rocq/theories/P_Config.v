(** The properties of a receiver. *)
From Coq Require Import Ascii String List Arith ZArith QArith Qround Qabs Bool Lia Lqa.
From Verif Require Import Base M_Polar M_Dedisperse M_Pipeline M_PText M_POptions M_Parset M_Config.
Import ListNotations.
Open Scope nat_scope.
Open Scope list_scope.

(** ** Specification *)
(** The number a value stands for, when its type is the one asked. *)
Inductive stands : attr -> arg -> Q -> Prop :=
| stands_int : forall a n, stands a (AInt n) (inject_Z n)
| stands_float : forall a x, In a [TimeRes; TFold; FreqRes] -> stands a (AFloat x) x
| stands_delta : forall a x, In a [TimeRes; TFold] -> stands a (ADelta x) x
| stands_freq : forall x, stands FreqRes (AFreq x) x.
(** Properties that take powers of two only. *)
Definition binary (a : attr) : Prop := a = DsTime \/ a = NBits.
Definition power_of_two (v : Q) : Prop := exists k, (0 <= k)%Z /\ v = inject_Z (2 ^ k).
(** The value kept for [v]: itself inside the range, else the default. *)
Definition kept (r : range) (v w : Q) : Prop := (r_min r <= v <= r_max r /\ w = v)%Q \/ ((v < r_min r \/ r_max r < v) /\ w = r_default r)%Q.
Definition valid (c : config) : Prop := forall a r, In (a, r) (props (c_backend c)) ->
  exists v, get c a = Some v /\ (r_min r <= v <= r_max r)%Q /\ (~ In a [TimeRes; TFold; FreqRes] -> exists n, v = inject_Z n) /\ (binary a -> power_of_two v).
(** Calls of the setters; one that fails leaves the object as it is. *)
Inductive setting := SAttr (a : attr) (x : arg) | SDuration (x : arg).
Definition apply (c : config) (s : setting) : config :=
  match s with
  | SAttr a x => match set_attr c a x with Ok c' => c' | Err _ => c end
  | SDuration x => match set_duration c x with Ok c' => c' | Err _ => c end
  end.

(** ** Dictionaries *)
Lemma attr_eqb_eq a b : attr_eqb a b = true <-> a = b.
Proof. destruct a, b; cbn; split; intro H; congruence. Qed.
Lemma attr_eqb_neq a b : attr_eqb a b = false <-> a <> b.
Proof. rewrite <- not_true_iff_false, attr_eqb_eq. tauto. Qed.
Lemma assoc_store {V} a b (v : V) l : assoc b (store a v l) = if attr_eqb b a then Some v else assoc b l.
Proof.
  induction l as [|[c w] l IH]; cbn [store assoc]; [reflexivity|]. destruct (attr_eqb a c) eqn:E; cbn [assoc].
  - apply attr_eqb_eq in E. subst c. destruct (attr_eqb b a); reflexivity.
  - rewrite IH. destruct (attr_eqb b c) eqn:E'; [|reflexivity]. apply attr_eqb_eq in E'. subst c. destruct (attr_eqb b a) eqn:E''; [|reflexivity]. apply attr_eqb_eq in E''. subst. apply attr_eqb_neq in E. now elim E.
Qed.
Lemma props_assoc b a r : In (a, r) (props b) <-> assoc a (props b) = Some r.
Proof.
  split.
  - destruct b; cbn; intro H; repeat (destruct H as [H|H]; [injection H as <- <-; reflexivity|]); contradiction.
  - destruct b; cbn; intro H; repeat match type of H with (if attr_eqb a ?x then _ else _) = _ => destruct (attr_eqb a x) eqn:E; [apply attr_eqb_eq in E; subst; injection H as <-; auto 8|clear E] end; discriminate.
Qed.
Lemma Qgt_bool_iff a b : Qgt_bool a b = true <-> (b < a)%Q.
Proof. unfold Qgt_bool. rewrite negb_true_iff, <- not_true_iff_false, Qle_bool_iff. split; intro H; [now apply Qnot_le_lt|now apply Qlt_not_le]. Qed.
Lemma Qgt_bool_false a b : Qgt_bool a b = false <-> (a <= b)%Q.
Proof. rewrite <- not_true_iff_false, Qgt_bool_iff. split; intro H; [now apply Qnot_lt_le|now apply Qle_not_lt]. Qed.

(** ** Powers of two *)
Theorem pow2_spec : forall n, is2pow n = true <-> exists k, (0 <= k)%Z /\ n = (2 ^ k)%Z.
Proof.
  intro n. unfold is2pow. rewrite andb_true_iff, negb_true_iff, Z.eqb_eq, Z.eqb_neq. split.
  - intros [L N]. assert (P : (0 < n)%Z).
    { destruct (Z_lt_le_dec 0 n) as [|G]; [assumption|]. exfalso. assert (X : (Z.land n (n - 1) < 0)%Z) by (apply Z.land_neg; lia). lia. }
    exists (Z.log2 n). split; [apply Z.log2_nonneg|]. destruct (Z.log2_spec n P) as [A B].
    assert (T : Z.testbit (n - 1) (Z.log2 n) = false).
    { assert (X : Z.testbit (Z.land n (n - 1)) (Z.log2 n) = false) by (rewrite L; apply Z.bits_0). rewrite Z.land_spec, Z.bit_log2 in X by exact P. exact X. }
    destruct (Z_lt_le_dec (n - 1) (2 ^ Z.log2 n)) as [C|C]; [lia|]. exfalso.
    assert (E : Z.log2 (n - 1) = Z.log2 n). { apply Z.log2_unique; [apply Z.log2_nonneg|]. rewrite <- Z.add_1_r in *. lia. }
    assert (Q : (0 < n - 1)%Z) by (assert (0 < 2 ^ Z.log2 n)%Z by (apply Z.pow_pos_nonneg; [lia|apply Z.log2_nonneg]); lia).
    rewrite <- E, Z.bit_log2 in T by exact Q. discriminate.
  - intros (k & K & ->). assert (P : (0 < 2 ^ k)%Z) by (apply Z.pow_pos_nonneg; lia). split; [|lia].
    replace (2 ^ k - 1)%Z with (Z.ones k) by (rewrite Z.ones_equiv; lia). rewrite Z.land_ones by exact K. apply Z.mod_same. lia.
Qed.

(** ** Setters *)
Lemma convert_stands a x v : convert a x = Ok v <-> stands a x v.
Proof.
  split.
  - destruct a, x; cbn; intro H; try discriminate; injection H as <-; constructor; cbn; auto.
  - destruct 1; [destruct a; reflexivity| | |reflexivity]; repeat (destruct H as [<-|H]; [reflexivity|]); destruct H.
Qed.
Lemma convert_err a x e : convert a x = Err e <-> e = ETypeError /\ forall v, ~ stands a x v.
Proof.
  destruct (convert a x) as [v|e'] eqn:C.
  - split; [discriminate|]. intros [_ H]. elim (H v). now apply convert_stands.
  - assert (E : e' = ETypeError) by (destruct a, x; cbn in C; congruence). subst e'. split.
    + intro H. injection H as <-. split; [reflexivity|]. intros v S. apply convert_stands in S. congruence.
    + intros [-> _]. reflexivity.
Qed.
Lemma pow2_fails_spec a x v : stands a x v -> (pow2_fails a x = true <-> binary a /\ ~ power_of_two v).
Proof.
  intro S. unfold binary, power_of_two. split.
  - intro H. destruct a, x; cbn in H; try discriminate; inversion S; subst; apply negb_true_iff in H; (split; [auto|]); intros (k & K & E);
      (assert (X : is2pow n = true) by (apply pow2_spec; exists k; split; [exact K|now injection E])); congruence.
  - intros [[->| ->] N]; inversion S; subst; try (repeat (destruct H as [H|H]; [discriminate|]); destruct H); cbn; apply negb_true_iff, not_true_iff_false; intro X; apply N; apply pow2_spec in X; destruct X as (k & K & ->); eauto.
Qed.
Lemma binary_int a x v : binary a -> stands a x v -> exists n, x = AInt n /\ v = inject_Z n.
Proof.
  intros B S. destruct S as [a n|a q I|a q I|q]; [eauto| | |destruct B; discriminate]; destruct B as [-> | ->]; exfalso; cbn in I; repeat (destruct I as [I|I]; [discriminate|]); exact I.
Qed.
Lemma check_attr_spec b a v : match assoc a (props b) with None => check_attr b a v = Err EKeyError | Some r => exists w, check_attr b a v = Ok w /\ kept r v w end.
Proof.
  unfold check_attr, kept. destruct (assoc a (props b)) as [r|]; [|reflexivity]. eexists. split; [reflexivity|].
  destruct (Qgt_bool v (r_max r)) eqn:A; [apply Qgt_bool_iff in A; right; auto|apply Qgt_bool_false in A].
  destruct (Qgt_bool (r_min r) v) eqn:B; [apply Qgt_bool_iff in B; right; auto|apply Qgt_bool_false in B; left; auto].
Qed.
Theorem set_value : forall c a x v r, stands a x v -> In (a, r) (props (c_backend c)) -> (binary a -> power_of_two v) ->
  exists c' w, set_attr c a x = Ok c' /\ get c' a = Some w /\ kept r v w /\ (forall b, b <> a -> get c' b = get c b) /\
    c_backend c' = c_backend c /\ c_duration c' = c_duration c /\ c_start c' = c_start c.
Proof.
  intros c a x v r S I P. unfold set_attr. rewrite (proj2 (convert_stands a x v) S). cbn [bind].
  replace (pow2_fails a x) with false. 2:{ symmetry. apply not_true_iff_false. intro H. apply (pow2_fails_spec a x v S) in H. destruct H as [B N]. now apply N, P. }
  assert (K := check_attr_spec (c_backend c) a v). apply props_assoc in I. rewrite I in K. destruct K as (w & -> & K). cbn [bind].
  eexists. exists w. split; [reflexivity|]. unfold get. cbn [c_values c_backend c_duration c_start]. rewrite assoc_store, (proj2 (attr_eqb_eq a a) eq_refl).
  split; [reflexivity|]. split; [exact K|]. split; [|auto]. intros b N. rewrite assoc_store. apply attr_eqb_neq in N. now rewrite N.
Qed.
Theorem set_error : forall c a x e, set_attr c a x = Err e <->
  (e = ETypeError /\ forall v, ~ stands a x v) \/
  (exists v, stands a x v /\ e = EValueError /\ binary a /\ ~ power_of_two v) \/
  (exists v, stands a x v /\ e = EKeyError /\ (forall r, ~ In (a, r) (props (c_backend c))) /\ (binary a -> power_of_two v)).
Proof.
  intros c a x e. unfold set_attr. destruct (convert a x) as [v|e'] eqn:C; cbn [bind].
  - apply convert_stands in C. assert (U : forall w, stands a x w -> w = v) by (intros w S; apply convert_stands in S; apply convert_stands in C; congruence).
    destruct (pow2_fails a x) eqn:P.
    + apply (pow2_fails_spec a x v C) in P. destruct P as [B N]. split.
      * intro H. injection H as <-. right; left. exists v. auto.
      * intros [[_ H]|[(w & S & -> & _)|(w & S & _ & _ & H)]]; [now elim (H v)|reflexivity|]. rewrite (U w S) in H. elim N. now apply H.
    + assert (P' : binary a -> power_of_two v).
      { intro B. destruct (binary_int a x v B C) as (n & -> & _).
        destruct (is2pow n) eqn:X; [apply pow2_spec in X; destruct X as (k & K & ->); inversion C; subst; exists k; auto|]. destruct B as [-> | ->]; cbn in P; rewrite X in P; discriminate. }
      assert (K := check_attr_spec (c_backend c) a v). destruct (assoc a (props (c_backend c))) as [r|] eqn:A.
      * destruct K as (w & -> & _). cbn [bind]. split; [discriminate|]. intros [[_ H]|[(w' & S & _ & B & N)|(w' & S & _ & H & _)]]; [now elim (H v)| |].
        -- rewrite (U w' S) in N. elim N. now apply P'.
        -- elim (H r). now apply props_assoc.
      * rewrite K. cbn [bind]. split.
        -- intro H. injection H as <-. right; right. exists v. repeat split; auto. intros r I. apply props_assoc in I. congruence.
        -- intros [[_ H]|[(w' & S & -> & B & N)|(w' & S & -> & _)]]; [now elim (H v)| |reflexivity]. rewrite (U w' S) in N. elim N. now apply P'.
  - assert (C' := C). apply convert_err in C'. destruct C' as [-> C']. split.
    + intro H. injection H as <-. left. auto.
    + intros [[-> _]|[(v & S & _)|(v & S & _)]]; [reflexivity| |]; now elim (C' v).
Qed.
Theorem duration_any : forall c x, match duration_of x with
  | Ok d => exists c', set_duration c x = Ok c' /\ c_duration c' = d /\ c_values c' = c_values c /\ c_backend c' = c_backend c
  | Err e => e = ETypeError /\ set_duration c x = Err ETypeError end.
Proof. intros c [n|q|q|q|[q|]]; cbn; try (eexists; split; [reflexivity|auto]); auto. Qed.

(** What a duration may be given as: a number, a time difference, or what [float] accepts. *)
Definition lasting (x : arg) (d : Q) : Prop := (exists n, x = AInt n /\ d = inject_Z n) \/ x = AFloat d \/ x = ADelta d \/ x = AOther (Some d).
Theorem duration_given : forall c x, (forall d, lasting x d -> exists c', set_duration c x = Ok c' /\ c_duration c' = d /\ c_values c' = c_values c /\ c_backend c' = c_backend c) /\
  ((forall d, ~ lasting x d) -> set_duration c x = Err ETypeError).
Proof.
  intros c x. split.
  - intros d [(n & -> & ->)|[->|[->| ->]]]; eexists; (split; [reflexivity|auto]).
  - intro N. destruct x as [n|q|q|q|[q|]]; try reflexivity; exfalso; [apply (N (inject_Z n)); left; eauto|apply (N q)..]; unfold lasting; auto.
Qed.

(** ** Construction *)
Lemma defaults b a r : In (a, r) (props b) -> (r_min r <= r_default r <= r_max r)%Q /\ (~ In a [TimeRes; TFold; FreqRes] -> exists n, r_default r = inject_Z n) /\ (binary a -> power_of_two (r_default r)).
Proof.
  assert (P2 : forall n k, (0 <= k)%Z -> n = (2 ^ k)%Z -> power_of_two (inject_Z n)) by (intros n k K ->; exists k; auto).
  destruct b; cbn; intro H; repeat (destruct H as [H|H]; [injection H as <- <-; (split; [cbn; split; vm_compute; congruence|]); (split; [intro N; try (elim N; cbn; auto; fail); cbn; eexists; reflexivity|]); intros [B|B]; try discriminate; cbn; first [apply (P2 _ 3%Z); [lia|reflexivity]|apply (P2 _ 5%Z); [lia|reflexivity]|apply (P2 _ 7%Z); [lia|reflexivity]]|]); destruct H.
Qed.
Lemma kept_in r v w b a : In (a, r) (props b) -> kept r v w -> (r_min r <= w <= r_max r)%Q.
Proof. intros I [[A ->]|[_ ->]]; [exact A|exact (proj1 (defaults b a r I))]. Qed.
Lemma stands_integer a x v : stands a x v -> ~ In a [TimeRes; TFold; FreqRes] -> exists n, v = inject_Z n.
Proof. intros S N. destruct S as [a n|a q I|a q I|q]; [eauto|now elim N|elim N; cbn in *; tauto|elim N; cbn; tauto]. Qed.
Lemma set_inv c a x c' : set_attr c a x = Ok c' -> exists v r w, stands a x v /\ In (a, r) (props (c_backend c)) /\ (binary a -> power_of_two v) /\ kept r v w /\ get c' a = Some w /\
  (forall b, b <> a -> get c' b = get c b) /\ c_backend c' = c_backend c /\ c_duration c' = c_duration c /\ c_start c' = c_start c.
Proof.
  intro H. assert (NE : forall e, set_attr c a x <> Err e) by congruence.
  destruct (convert a x) as [v|e] eqn:C. 2:{ exfalso. apply convert_err in C. destruct C as [-> C]. apply (NE ETypeError). apply set_error. now left. }
  apply convert_stands in C. assert (P : binary a -> power_of_two v).
  { intro B. destruct (binary_int a x v B C) as (n & -> & ->). destruct (is2pow n) eqn:X; [apply pow2_spec in X; destruct X as (k & K & ->); exists k; auto|]. exfalso. apply (NE EValueError). apply set_error. right; left. exists (inject_Z n).
    repeat split; [exact C|exact B|]. intros (k & K & E). injection E as ->. assert (is2pow (2 ^ k) = true) by (apply pow2_spec; eauto). congruence. }
  destruct (assoc a (props (c_backend c))) as [r|] eqn:A.
  - apply props_assoc in A. destruct (set_value c a x v r C A P) as (c2 & w & E & G & K & O & B1 & B2 & B3). rewrite H in E. injection E as <-. exists v, r, w. auto 10.
  - exfalso. apply (NE EKeyError). apply set_error. right; right. exists v. repeat split; auto. intros r I. apply props_assoc in I. congruence.
Qed.
Lemma set_valid c a x c' : valid c -> set_attr c a x = Ok c' -> valid c'.
Proof.
  intros V H. destruct (set_inv c a x c' H) as (v & r & w & S & I & P & K & G & O & B & _). intros b s J. rewrite B in J.
  destruct (attr_eqb b a) eqn:E; [apply attr_eqb_eq in E; subst b|apply attr_eqb_neq in E; rewrite (O b E); now apply V].
  assert (s = r) by (apply props_assoc in J; apply props_assoc in I; congruence). subst s. exists w. split; [exact G|]. split; [exact (kept_in _ _ _ _ _ I K)|].
  destruct (defaults _ _ _ I) as (_ & D1 & D2). destruct K as [[_ ->]|[_ ->]]; split; auto. now apply (stands_integer a x).
Qed.
Definition given (k : list (string * arg)) (a : attr) (r : range) (w : Q) : Prop :=
  match kw (attr_name a) k with Some x => exists v, stands a x v /\ (binary a -> power_of_two v) /\ kept r v w | None => w = r_default r end.
Lemma default_stands b a r : In (a, r) (props b) -> stands a (default_arg a (r_default r)) (r_default r).
Proof.
  destruct b; cbn; intro H; repeat (destruct H as [H|H]; [injection H as <- <-; cbn; first [apply stands_float; cbn; auto|exact (stands_int _ _)]|]); destruct H.
Qed.
Lemma set_all_spec k : forall l c c', NoDup (map fst l) -> incl l (props (c_backend c)) -> set_all l k c = Ok c' ->
  (forall a r, In (a, r) l -> exists w, get c' a = Some w /\ given k a r w) /\ (forall a, ~ In a (map fst l) -> get c' a = get c a) /\
  c_backend c' = c_backend c /\ c_duration c' = c_duration c /\ c_start c' = c_start c.
Proof.
  induction l as [|[a r] l IH]; intros c c' ND IN H; cbn [set_all] in H.
  - injection H as <-. split; [intros a r []|]. auto.
  - cbn [map fst] in ND. inversion ND as [|? ? N1 N2]; subst. assert (Ia : In (a, r) (props (c_backend c))) by (apply IN; now left).
    destruct (set_attr c a _) as [c1|e] eqn:E; [|discriminate]. cbn [bind] in H. destruct (set_inv _ _ _ _ E) as (v & r' & w & S & I & P & K & G & O & B & D & T).
    assert (r' = r) by (apply props_assoc in I; apply props_assoc in Ia; congruence). subst r'.
    destruct (IH c1 c' N2) as (A1 & A2 & A3 & A4 & A5); [rewrite B; intros y Y; apply IN; now right|exact H|].
    split; [|split; [|rewrite A3, A4, A5; auto]].
    + intros a' r' [J|J]; [|now apply A1]. injection J as <- <-. exists w. split; [rewrite (A2 a N1); exact G|]. unfold given. destruct (kw (attr_name a) k) as [x|] eqn:X; [eauto|].
      assert (v = r_default r) by (assert (Z := default_stands _ _ _ Ia); apply convert_stands in Z; apply convert_stands in S; congruence). subst v. destruct K as [[_ ->]|[_ ->]]; reflexivity.
    + intros a' N. cbn [map fst] in N. rewrite A2 by (intro; apply N; now right). apply O. intros ->. apply N. now left.
Qed.
Lemma props_nodup b : NoDup (map fst (props b)).
Proof. destruct b; cbn; repeat (constructor; [cbn; intuition congruence|]); constructor. Qed.
Definition asked_duration (k : list (string * arg)) : res Q := match kw "durationSec" k with Some x => duration_of x | None => Ok 0%Q end.
Theorem init_spec : forall public b k s c, init public b k s = Ok c ->
  c_backend c = b /\ asked_duration k = Ok (c_duration c) /\ c_start c = s /\ (forall a r, In (a, r) (props b) -> exists w, get c a = Some w /\ given k a r w) /\
  (forall a, (forall r, ~ In (a, r) (props b)) -> get c a = None).
Proof.
  intros public b k s c H. unfold init, asked_duration in *. destruct (match kw "durationSec" k with Some x => duration_of x | None => Ok 0%Q end) as [d|e]; [|discriminate]. cbn [bind] in H.
  destruct (existsb _ k); [discriminate|]. destruct (set_all_spec k (props b) (mkConfig b [] d s) c (props_nodup b) (fun y Y => Y) H) as (A1 & A2 & A3 & A4 & A5). cbn in *.
  split; [exact A3|]. split; [now rewrite A4|]. split; [exact A5|]. split; [exact A1|]. intros a N. apply A2. intro I. apply in_map_iff in I. destruct I as ((a', r) & <- & I). now apply (N r).
Qed.
Lemma given_valid b a r k w : In (a, r) (props b) -> given k a r w -> (r_min r <= w <= r_max r)%Q /\ (~ In a [TimeRes; TFold; FreqRes] -> exists n, w = inject_Z n) /\ (binary a -> power_of_two w).
Proof.
  intros I G. destruct (defaults _ _ _ I) as (D0 & D1 & D2). unfold given in G. destruct (kw (attr_name a) k) as [x|]; [|subst w; auto].
  destruct G as (v & S & P & K). split; [exact (kept_in _ _ _ _ _ I K)|]. destruct K as [[_ ->]|[_ ->]]; split; auto. now apply (stands_integer a x).
Qed.
Theorem always_valid : forall public b k s c ops, init public b k s = Ok c -> let c' := fold_left apply ops c in c_backend c' = b /\ valid c'.
Proof.
  intros public b k s c ops H. cbv zeta. assert (V : c_backend c = b /\ valid c).
  { destruct (init_spec _ _ _ _ _ H) as (B & _ & _ & G & _). split; [exact B|]. intros a r I. rewrite B in I. destruct (G a r I) as (w & W & Gw). exists w. split; [exact W|]. now apply (given_valid b a r k). }
  clear H. revert c V. induction ops as [|o ops IH]; intros c [B V]; [auto|]. cbn [fold_left]. apply IH. destruct o as [a x|x]; cbn [apply].
  - destruct (set_attr c a x) as [c1|] eqn:E; [|auto]. split; [destruct (set_inv _ _ _ _ E) as (? & ? & ? & ? & ? & ? & ? & ? & ? & -> & _); exact B|now apply (set_valid c a x)].
  - unfold set_duration. destruct (duration_of x); cbn [bind]; auto.
Qed.
Definition refused (public : bool) (k : string) : Prop := (exists r, k = String "_" r) \/
  (~ In k (map attr_name [NSubBands; NChannels; NBins; NPolars; TimeRes; TFold; DsTime; NBits; FreqRes; NMAs]) /\ k <> "durationSec" /\ k <> "startTime" /\ k <> "volume" /\ (public = true -> k <> "fromParset"))%string.
Lemma refused_spec public k : name_refused (directory public) k = true <-> refused public k.
Proof.
  unfold name_refused, refused. rewrite orb_true_iff, negb_true_iff, <- not_true_iff_false, existsb_exists.
  assert (A : starts_with "_" k = true <-> exists r, k = String "_" r).
  { destruct k as [|c k]; cbn; [split; [discriminate|intros (r & R); discriminate]|]. rewrite Ascii.eqb_eq. split; [intros ->; eauto|intros (r & R); now injection R]. }
  assert (B : (exists x, In x (directory public) /\ String.eqb k x = true) <-> In k (directory public)).
  { split; [intros (x & I & E); apply String.eqb_eq in E; now subst|intro I; exists k; split; [exact I|apply String.eqb_refl]]. }
  rewrite A, B. assert (C : In k (directory public) <-> In k (map attr_name [NSubBands; NChannels; NBins; NPolars; TimeRes; TFold; DsTime; NBits; FreqRes; NMAs]) \/ k = "durationSec"%string \/ k = "startTime"%string \/ k = "volume"%string \/ (public = true /\ k = "fromParset"%string)).
  { unfold directory, common_dir. rewrite !in_app_iff. destruct public; cbn; intuition congruence. }
  rewrite C. destruct public; intuition congruence.
Qed.
Theorem init_refused : forall public b k s d, asked_duration k = Ok d -> (exists n, In n (map fst k) /\ refused public n) -> init public b k s = Err EAttributeError.
Proof.
  intros public b k s d D (n & I & R). unfold init. unfold asked_duration in D. rewrite D. cbn [bind]. apply in_map_iff in I. destruct I as (p & <- & I).
  replace (existsb _ k) with true; [reflexivity|]. symmetry. apply existsb_exists. exists p. split; [exact I|]. now apply refused_spec.
Qed.
Theorem init_made : forall public b k s d, asked_duration k = Ok d -> (forall n, In n (map fst k) -> ~ refused public n) ->
  (forall a r x, In (a, r) (props b) -> kw (attr_name a) k = Some x -> exists v, stands a x v /\ (binary a -> power_of_two v)) -> exists c, init public b k s = Ok c.
Proof.
  intros public b k s d D N W. unfold init. unfold asked_duration in D. rewrite D. cbn [bind]. replace (existsb _ k) with false.
  2:{ symmetry. apply not_true_iff_false. intro E. apply existsb_exists in E. destruct E as (p & I & E). apply refused_spec in E. apply (N (fst p)); [now apply in_map|exact E]. }
  assert (G : forall l c, c_backend c = b -> incl l (props b) -> exists c', set_all l k c = Ok c').
  { induction l as [|[a r] l IH]; intros c B I; [cbn; eauto|]. cbn [set_all]. assert (Ia : In (a, r) (props b)) by (apply I; now left).
    assert (X : exists v, stands a (match kw (attr_name a) k with Some x => x | None => default_arg a (r_default r) end) v /\ (binary a -> power_of_two v)).
    { destruct (kw (attr_name a) k) as [x|] eqn:E; [exact (W a r x Ia E)|]. exists (r_default r). split; [exact (default_stands b a r Ia)|exact (proj2 (proj2 (defaults b a r Ia)))]. }
    destruct X as (v & S & P). rewrite <- B in Ia. destruct (set_value c a _ v r S Ia P) as (c1 & w & E & _ & _ & _ & B1 & _). rewrite E. cbn [bind]. apply IH; [congruence|intros y Y; apply I; now right]. }
  apply G; [reflexivity|intros y Y; exact Y].
Qed.
(** A parameter of another receiver is ignored. *)
Theorem init_ignored : forall public b k s n x, ~ refused public n -> n <> "durationSec"%string -> (forall a r, In (a, r) (props b) -> n <> attr_name a) ->
  init public b ((n, x) :: k) s = init public b k s.
Proof.
  intros public b k s n x R D N. unfold init. cbn [kw existsb fst].
  replace (String.eqb "durationSec" n) with false by (symmetry; apply String.eqb_neq; congruence).
  replace (name_refused (directory public) n) with false by (symmetry; apply not_true_iff_false; intro H; apply R; now apply refused_spec). cbn [orb].
  destruct (match kw "durationSec" k with Some y => duration_of y | None => Ok 0%Q end) as [d|]; [|reflexivity]. cbn [bind]. destruct (existsb _ k); [reflexivity|].
  assert (G : forall l c, incl l (props b) -> set_all l ((n, x) :: k) c = set_all l k c).
  { induction l as [|[a r] l IH]; intros c I; [reflexivity|]. cbn [set_all kw]. replace (String.eqb (attr_name a) n) with false by (symmetry; apply String.eqb_neq; intro E; apply (N a r); [apply I; now left|now symmetry]).
    destruct (set_attr c a _); [|reflexivity]. cbn [bind]. apply IH. intros y Y. apply I. now right. }
  apply G. intros y Y. exact Y.
Qed.
