(** Specification of the pipeline, its tasks and its parameters, and proofs. *)
From Coq Require Import Ascii String List Arith ZArith QArith Bool Lia.
From Verif Require Import Base M_Pipeline.
Import ListNotations.
Open Scope nat_scope.

(** ** Specification of the parameters *)
(** A number as Python sees it (booleans are numbers). *)
Inductive number : pyval -> Q -> Prop :=
| number_num : forall x, number (VNum (Some x)) x
| number_true : number (VBool true) 1
| number_false : number (VBool false) 0.
Definition within (mn mx : option Q) (r x : Q) : Prop :=
  (forall m, mn = Some m -> (m - r / 2 <= x)%Q) /\ (forall m, mx = Some m -> (x <= m + r / 2)%Q).
Definition not_a_number (v : pyval) : Prop := v = VNum None.

Inductive char_in (c : ascii) : string -> Prop :=
| char_here : forall s, char_in c (String c s)
| char_later : forall d s, char_in c s -> char_in c (String d s).
(** The things a value is made of: its items, its characters, or itself. *)
Inductive part : pyval -> pyval -> Prop :=
| part_item : forall l e, In e l -> part (VList l) e
| part_char : forall s c, char_in c s -> part (VStr s) (VStr (String c EmptyString))
| part_bool : forall b, part (VBool b) (VBool b)
| part_num : forall x, part (VNum x) (VNum x)
| part_none : part VNone VNone.
Inductive same_value : pyval -> pyval -> Prop :=
| same_number : forall v w x y, number v x -> number w y -> (x == y)%Q -> same_value v w
| same_text : forall s, same_value (VStr s) (VStr s)
| same_none : same_value VNone VNone.

(** Values allowed by the declaration of a parameter. *)
Inductive allowed : kind -> pyval -> Prop :=
| allowed_any : forall r v, allowed (KRange None None r) v
| allowed_range : forall mn mx r v x, number v x -> within mn mx r x -> allowed (KRange mn mx r) v
| allowed_nan : forall mn mx r v, not_a_number v -> allowed (KRange mn mx r) v
| allowed_choice : forall av v, (forall e, part v e -> exists a, In a av /\ same_value e a) -> allowed (KChoice av) v
| allowed_bool : forall b, allowed KBool (VBool b).
Definition of_type (t : option ptype) (v : pyval) : Prop :=
  match t with
  | None => True
  | Some t => pt_is t v = true \/ exists w, pt_is t w = false /\ pt_conv t w = Some v
  end.
(** What an assigned value becomes. *)
Definition becomes (t : option ptype) (v w : pyval) : Prop :=
  match t with
  | None => w = v
  | Some t => (pt_is t v = true /\ w = v) \/ (pt_is t v = false /\ pt_conv t v = Some w)
  end.
Definition holds (p : param) : Prop :=
  pkind p <> KFixed -> pvalue p = VNone \/ (allowed (pkind p) (pvalue p) /\ of_type (pty p) (pvalue p)).
(** Same declaration. *)
Definition declared (p q : param) : Prop := pname p = pname q /\ pkind p = pkind q /\ pty p = pty q.

(** Letters and case. *)
Inductive same_letter : ascii -> ascii -> Prop :=
| letter_same : forall c, same_letter c c
| letter_case : forall n, 65 <= n -> n <= 90 -> same_letter (ascii_of_nat n) (ascii_of_nat (n + 32))
| letter_case' : forall n, 65 <= n -> n <= 90 -> same_letter (ascii_of_nat (n + 32)) (ascii_of_nat n).
Inductive same_letters : string -> string -> Prop :=
| letters_nil : same_letters EmptyString EmptyString
| letters_cons : forall c d s t, same_letter c d -> same_letters s t -> same_letters (String c s) (String d t).
Definition capital (c : ascii) : Prop := 65 <= nat_of_ascii c /\ nat_of_ascii c <= 90.

(** ** Lemmas on values *)
Lemma num_of_number : forall v x, num_of v = Some x <-> number v x.
Proof.
  intros v x. split.
  - destruct v as [|b|y|s|l]; cbn; try discriminate.
    + intro H. injection H as <-. destruct b; constructor.
    + intros ->. constructor.
  - intro H. destruct H; reflexivity.
Qed.

Lemma py_eq_same : forall a b, py_eq a b = true <-> same_value a b.
Proof.
  intros a b. unfold py_eq. split.
  - destruct (num_of a) as [x|] eqn:A.
    + destruct (num_of b) as [y|] eqn:B.
      * intro H. apply Qeq_bool_iff in H. apply num_of_number in A. apply num_of_number in B.
        eapply same_number; eassumption.
      * destruct a, b; cbn in *; try discriminate.
    + destruct a, b; cbn in *; try discriminate; intro H; try constructor.
      apply String.eqb_eq in H. subst. constructor.
  - intro H. destruct H as [v w x y A B E|s|].
    + apply num_of_number in A. apply num_of_number in B. rewrite A, B. apply Qeq_bool_iff. exact E.
    + cbn. apply String.eqb_refl.
    + reflexivity.
Qed.

Lemma chars_in : forall s e, In e (chars s) <-> exists c, char_in c s /\ e = VStr (String c EmptyString).
Proof.
  induction s as [|d s IH]; intro e; cbn [chars In].
  - split; [contradiction|]. intros (c & H & _). inversion H.
  - rewrite IH. split.
    + intros [<-|(c & H & ->)]; [exists d|exists c]; (split; [constructor; assumption || constructor|reflexivity]).
    + intros (c & H & ->). inversion H; subst; [left; reflexivity|right; exists c; split; [assumption|reflexivity]].
Qed.

Lemma elements_part : forall v e, In e (elements v) <-> part v e.
Proof.
  intros v e. destruct v as [|b|x|s|l]; cbn [elements].
  - cbn. split; [intros [<-|[]]; constructor|intro H; inversion H; left; reflexivity].
  - cbn. split; [intros [<-|[]]; constructor|intro H; inversion H; left; reflexivity].
  - cbn. split; [intros [<-|[]]; constructor|intro H; inversion H; left; reflexivity].
  - rewrite chars_in. split.
    + intros (c & H & ->). constructor. exact H.
    + intro H. inversion H; subst. eexists. split; [eassumption|reflexivity].
  - split; [intro H; constructor; exact H|intro H; inversion H; assumption].
Qed.

Lemma below_number : forall v m, ~ not_a_number v -> forall x, number v x -> below v m = Ok (negb (Qle_bool m x)).
Proof.
  intros v m N x H. destruct H; reflexivity.
Qed.
Lemma above_number : forall v m, ~ not_a_number v -> forall x, number v x -> above v m = Ok (negb (Qle_bool x m)).
Proof.
  intros v m N x H. destruct H; reflexivity.
Qed.
Lemma below_other : forall v m, ~ not_a_number v -> (forall x, ~ number v x) -> below v m = Err ETypeError.
Proof.
  intros v m N H. destruct v as [|b|[x|]|s|l]; cbn; try reflexivity.
  - exfalso. destruct b; eapply H; constructor.
  - exfalso. eapply H. constructor.
  - exfalso. apply N. reflexivity.
Qed.
Lemma above_other : forall v m, ~ not_a_number v -> (forall x, ~ number v x) -> above v m = Err ETypeError.
Proof.
  intros v m N H. destruct v as [|b|[x|]|s|l]; cbn; try reflexivity.
  - exfalso. destruct b; eapply H; constructor.
  - exfalso. eapply H. constructor.
  - exfalso. apply N. reflexivity.
Qed.
Lemma nan_or_number : forall v, not_a_number v \/ (exists x, number v x) \/ (~ not_a_number v /\ forall x, ~ number v x).
Proof.
  intro v. destruct v as [|b|[x|]|s|l].
  - right. right. split; [intro H; discriminate|intros x H; inversion H].
  - right. left. destruct b; eexists; constructor.
  - right. left. eexists. constructor.
  - left. reflexivity.
  - right. right. split; [intro H; discriminate|intros x H; inversion H].
  - right. right. split; [intro H; discriminate|intros x H; inversion H].
Qed.
Lemma number_det : forall v x y, number v x -> number v y -> x = y.
Proof. intros v x y A B. destruct A; inversion B; reflexivity. Qed.
Lemma qle_bool_false : forall a b, Qle_bool a b = false <-> (b < a)%Q.
Proof.
  intros a b. split; intro H.
  - apply Qnot_le_lt. intro C. apply Qle_bool_iff in C. congruence.
  - destruct (Qle_bool a b) eqn:E; [|reflexivity]. apply Qle_bool_iff in E. exfalso. apply (Qlt_not_le _ _ H). exact E.
Qed.

(** A bounded range and a value which cannot be compared. *)
Definition incomparable (k : kind) (v : pyval) : Prop :=
  match k with
  | KRange mn mx _ => (mn <> None \/ mx <> None) /\ ~ not_a_number v /\ forall x, ~ number v x
  | _ => False
  end.

Lemma expected_true : forall k v, k <> KFixed -> (is_expected k v = Ok true <-> allowed k v).
Proof.
  intros k v NF. destruct k as [|mn mx r|av|]; [contradiction| | |].
  - cbn [is_expected]. destruct (nan_or_number v) as [N|[[x X]|[N X]]].
    + split; [intros _; apply allowed_nan; exact N|].
      intros _. red in N. subst v. destruct mn, mx; reflexivity.
    + assert (N : ~ not_a_number v) by (intro C; red in C; subst; inversion X).
      assert (E : is_expected (KRange mn mx r) v = Ok true <-> within mn mx r x).
      { cbn [is_expected]. unfold within. destruct mn as [m|]; destruct mx as [m'|]; cbn [bind];
          repeat first [rewrite (below_number _ _ N _ X)|rewrite (above_number _ _ N _ X)]; cbn [bind].
        - destruct (Qle_bool (m - r / 2) x) eqn:A; cbn [negb].
          + try rewrite (above_number _ _ N _ X). cbn [bind]. destruct (Qle_bool x (m' + r / 2)) eqn:B; cbn [negb].
            * apply Qle_bool_iff in A. apply Qle_bool_iff in B. split; [|reflexivity].
              intros _. split; intros k K; injection K as <-; assumption.
            * split; [discriminate|]. intros [_ C]. specialize (C _ eq_refl). apply Qle_bool_iff in C. congruence.
          + split; [discriminate|]. intros [C _]. specialize (C _ eq_refl). apply Qle_bool_iff in C. congruence.
        - destruct (Qle_bool (m - r / 2) x) eqn:A; cbn [negb].
          + apply Qle_bool_iff in A. split; [|reflexivity]. intros _. split; intros k K; [injection K as <-; assumption|discriminate].
          + split; [discriminate|]. intros [C _]. specialize (C _ eq_refl). apply Qle_bool_iff in C. congruence.
        - destruct (Qle_bool x (m' + r / 2)) eqn:B; cbn [negb].
          + apply Qle_bool_iff in B. split; [|reflexivity]. intros _. split; intros k K; [discriminate|injection K as <-; assumption].
          + split; [discriminate|]. intros [_ C]. specialize (C _ eq_refl). apply Qle_bool_iff in C. congruence.
        - split; [|reflexivity]. intros _. split; intros k K; discriminate. }
      cbn [is_expected] in E. rewrite E. split.
      * intro W. eapply allowed_range; eassumption.
      * intro A. inversion A as [r' v'|mn' mx' r' v' y Y W|mn' mx' r' v' N'|a v' C|b]; subst.
        -- split; intros k K; discriminate.
        -- rewrite (number_det _ _ _ X Y). exact W.
        -- contradiction.
    + split.
      * destruct mn as [m|]; [rewrite (below_other _ _ N X); discriminate|].
        destruct mx as [m|]; cbn [bind]; [rewrite (above_other _ _ N X); discriminate|].
        intros _. apply allowed_any.
      * intro A. inversion A as [r' v'|mn' mx' r' v' y Y W|mn' mx' r' v' N'|a v' C|b]; subst.
        -- reflexivity.
        -- exfalso. eapply X. exact Y.
        -- contradiction.
  - cbn [is_expected]. split.
    + intro H. injection H as H. apply allowed_choice. intros e E. rewrite <- elements_part in E.
      rewrite forallb_forall in H. specialize (H _ E). rewrite existsb_exists in H.
      destruct H as (a & I & S). exists a. split; [exact I|]. apply py_eq_same. exact S.
    + intro A. f_equal. apply forallb_forall. intros e E. rewrite elements_part in E.
      inversion A as [| | |a v' C|]; subst. destruct (C _ E) as (x & I & S).
      apply existsb_exists. exists x. split; [exact I|]. apply py_eq_same. exact S.
  - cbn [is_expected]. split.
    + destruct v; try discriminate. intros _. constructor.
    + intro A. inversion A. reflexivity.
Qed.

Lemma expected_error : forall k v e, k <> KFixed -> (is_expected k v = Err e <-> incomparable k v /\ e = ETypeError).
Proof.
  intros k v e NF. destruct k as [|mn mx r|av|]; [contradiction| | |].
  - cbn [is_expected incomparable]. destruct (nan_or_number v) as [N|[[x X]|[N X]]].
    + red in N. subst v. split; [destruct mn, mx; discriminate|]. intros [(_ & C & _) _]. exfalso. apply C. reflexivity.
    + assert (N : ~ not_a_number v) by (intro C; red in C; subst; inversion X).
      split; [|intros [(_ & _ & C) _]; exfalso; eapply C; exact X].
      destruct mn as [m|]; cbn [bind]; [rewrite (below_number _ _ N _ X); cbn [bind]; destruct (negb _); [discriminate|]|];
        (destruct mx as [m'|]; cbn [bind]; [rewrite (above_number _ _ N _ X)|]; cbn [bind]; discriminate).
    + destruct mn as [m|]; cbn [bind].
      * rewrite (below_other _ _ N X). cbn [bind]. split; [|intros [_ ->]; reflexivity].
        intro H. injection H as <-. split; [|reflexivity]. split; [left; discriminate|]. split; assumption.
      * destruct mx as [m|]; cbn [bind].
        -- rewrite (above_other _ _ N X). cbn [bind]. split; [|intros [_ ->]; reflexivity].
           intro H. injection H as <-. split; [|reflexivity]. split; [right; discriminate|]. split; assumption.
        -- split; [discriminate|]. intros [([C|C] & _) _]; exfalso; apply C; reflexivity.
  - cbn. split; [discriminate|intros [[] _]].
  - cbn. split; [destruct v; discriminate|intros [[] _]].
Qed.

Lemma type_check_ok : forall p v w, type_check p v = Ok w <-> becomes (pty p) v w.
Proof.
  intros p v w. unfold type_check, becomes. destruct (pty p) as [t|].
  - destruct (pt_is t v) eqn:I.
    + split; [intro H; injection H as <-; left; auto|]. intros [[_ ->]|[C _]]; [reflexivity|discriminate].
    + destruct (pt_conv t v) as [u|] eqn:C.
      * split; [intro H; injection H as <-; right; auto|]. intros [[D _]|[_ E]]; [discriminate|congruence].
      * split; [discriminate|]. intros [[D _]|[_ E]]; discriminate.
  - split; [intro H; injection H as <-; reflexivity|intros ->; reflexivity].
Qed.
Lemma type_check_err : forall p v e, type_check p v = Err e <-> (forall w, ~ becomes (pty p) v w) /\ e = ETypeError.
Proof.
  intros p v e. split.
  - intro H. split.
    + intros w W. apply type_check_ok in W. congruence.
    + unfold type_check in H. destruct (pty p) as [t|]; [|discriminate].
      destruct (pt_is t v); [discriminate|]. destruct (pt_conv t v); [discriminate|]. congruence.
  - intros [N ->]. destruct (type_check p v) as [w|e] eqn:E.
    + exfalso. apply (N w). apply type_check_ok. exact E.
    + unfold type_check in E. destruct (pty p) as [t|]; [|discriminate].
      destruct (pt_is t v); [discriminate|]. destruct (pt_conv t v); [discriminate|]. congruence.
Qed.
Lemma becomes_of_type : forall t v w, becomes t v w -> of_type t w.
Proof.
  intros [t|] v w H; [|exact I]. destruct H as [[A ->]|[A B]]; [left; exact A|right; exists v; auto].
Qed.
Lemma becomes_det : forall t v w w', becomes t v w -> becomes t v w' -> w = w'.
Proof.
  intros [t|] v w w' A B; cbn in *; [|congruence].
  destruct A as [[A ->]|[A C]], B as [[B ->]|[B D]]; congruence.
Qed.

(** The setter. *)
Definition fixed (p : param) : Prop := pkind p = KFixed.
Lemma fixed_dec : forall p, fixed p \/ ~ fixed p.
Proof. intro p. unfold fixed. destruct (pkind p); auto; right; discriminate. Qed.

Lemma set_value_fixed : forall p v, fixed p -> set_value p v = (p, Some EException).
Proof. intros p v H. unfold set_value. rewrite H. reflexivity. Qed.
Lemma set_value_free : forall p v, ~ fixed p -> set_value p v =
    if is_none v then (with_value p VNone, None)
    else match type_check p v with
         | Err e => (p, Some e)
         | Ok w => match is_expected (pkind p) w with
                   | Err e => (p, Some e)
                   | Ok false => (p, Some EValueError)
                   | Ok true => (with_value p w, None)
                   end
         end.
Proof. intros p v H. unfold set_value, fixed in *. destruct (pkind p); [contradiction|reflexivity..]. Qed.

Lemma set_value_accept : forall p v p', set_value p v = (p', None) <->
  ~ fixed p /\ ((v = VNone /\ p' = with_value p VNone) \/
    (v <> VNone /\ exists w, becomes (pty p) v w /\ allowed (pkind p) w /\ p' = with_value p w)).
Proof.
  intros p v p'. destruct (fixed_dec p) as [X|X].
  - rewrite (set_value_fixed _ _ X). split; [discriminate|]. intros [C _]. contradiction.
  - rewrite (set_value_free _ _ X). destruct (is_none v) eqn:N.
    + destruct v; try discriminate. split.
      * intro H. injection H as <-. split; [exact X|]. left. auto.
      * intros [_ [[_ ->]|[C _]]]; [reflexivity|contradiction].
    + assert (V : v <> VNone) by (intros ->; discriminate).
      destruct (type_check p v) as [w|e] eqn:T.
      * apply type_check_ok in T. destruct (is_expected (pkind p) w) as [[|]|e] eqn:E.
        -- apply (expected_true _ _ X) in E. split.
           ++ intro H. injection H as <-. split; [exact X|]. right. split; [exact V|]. exists w. auto.
           ++ intros [_ [[C _]|[_ (u & U & _ & ->)]]]; [contradiction|].
              rewrite (becomes_det _ _ _ _ U T). reflexivity.
        -- split; [discriminate|]. intros [_ [[C _]|[_ (u & U & A & _)]]]; [contradiction|].
           rewrite (becomes_det _ _ _ _ U T) in A. apply (expected_true _ _ X) in A. congruence.
        -- split; [discriminate|]. intros [_ [[C _]|[_ (u & U & A & _)]]]; [contradiction|].
           rewrite (becomes_det _ _ _ _ U T) in A. apply (expected_true _ _ X) in A. congruence.
      * split; [discriminate|]. intros [_ [[C _]|[_ (u & U & _)]]]; [contradiction|].
        apply type_check_err in T. exfalso. apply (proj1 T u U).
Qed.

Lemma set_value_refuse : forall p v p' e, set_value p v = (p', Some e) <->
  p' = p /\
  ((fixed p /\ e = EException) \/
   (~ fixed p /\ v <> VNone /\ (forall w, ~ becomes (pty p) v w) /\ e = ETypeError) \/
   (~ fixed p /\ v <> VNone /\ exists w, becomes (pty p) v w /\
      ((incomparable (pkind p) w /\ e = ETypeError) \/
       (~ incomparable (pkind p) w /\ ~ allowed (pkind p) w /\ e = EValueError)))).
Proof.
  intros p v p' e. destruct (fixed_dec p) as [X|X].
  - rewrite (set_value_fixed _ _ X). split.
    + intro H. injection H as <- <-. split; [reflexivity|]. left. auto.
    + intros [-> [[_ ->]|[[C _]|[C _]]]]; [reflexivity|contradiction..].
  - rewrite (set_value_free _ _ X). destruct (is_none v) eqn:N.
    + destruct v; try discriminate. split; [discriminate|].
      intros [_ [[C _]|[[_ [C _]]|[_ [C _]]]]]; contradiction.
    + assert (V : v <> VNone) by (intros ->; discriminate).
      destruct (type_check p v) as [w|e'] eqn:T.
      * apply type_check_ok in T. destruct (is_expected (pkind p) w) as [[|]|e'] eqn:E.
        -- pose proof (proj1 (expected_true _ _ X) E) as A. split; [discriminate|].
           intros [_ [[C _]|[[_ [_ [C _]]]|[_ [_ (u & U & H)]]]]]; [contradiction|exfalso; apply (C _ T)|].
           rewrite (becomes_det _ _ _ _ U T) in H. destruct H as [[I _]|[_ [I _]]]; [|contradiction].
           exfalso. assert (K : is_expected (pkind p) w = Err ETypeError) by (apply (expected_error _ _ _ X); auto). congruence.
        -- assert (A : ~ allowed (pkind p) w) by (intro C; apply (expected_true _ _ X) in C; congruence).
           assert (I : ~ incomparable (pkind p) w).
           { intro C. assert (K : is_expected (pkind p) w = Err ETypeError) by (apply (expected_error _ _ _ X); auto). congruence. }
           split.
           ++ intro H. injection H as <- <-. split; [reflexivity|]. right. right. split; [exact X|]. split; [exact V|].
              exists w. split; [exact T|]. right. auto.
           ++ intros [-> [[C _]|[[_ [_ [C _]]]|[_ [_ (u & U & H)]]]]]; [contradiction|exfalso; apply (C _ T)|].
              rewrite (becomes_det _ _ _ _ U T) in H. destruct H as [[C _]|[_ [_ ->]]]; [contradiction|reflexivity].
        -- pose proof (proj1 (expected_error _ _ _ X) E) as [I ->]. split.
           ++ intro H. injection H as <- <-. split; [reflexivity|]. right. right. split; [exact X|]. split; [exact V|].
              exists w. split; [exact T|]. left. auto.
           ++ intros [-> [[C _]|[[_ [_ [C _]]]|[_ [_ (u & U & H)]]]]]; [contradiction|exfalso; apply (C _ T)|].
              rewrite (becomes_det _ _ _ _ U T) in H. destruct H as [[_ ->]|[C _]]; [reflexivity|contradiction].
      * apply type_check_err in T. destruct T as [T ->]. split.
        -- intro H. injection H as <- <-. split; [reflexivity|]. right. left. auto.
        -- intros [-> [[C _]|[[_ [_ [_ ->]]]|[_ [_ (u & U & _)]]]]]; [contradiction|reflexivity|exfalso; apply (T _ U)].
Qed.

Lemma set_value_cases : forall p v, (exists p', set_value p v = (p', None)) \/ (exists e, set_value p v = (p, Some e)).
Proof.
  intros p v. destruct (set_value p v) as [p' [e|]] eqn:E; [right|left; eauto].
  exists e. assert (H := E). apply set_value_refuse in H. destruct H as [-> _]. reflexivity.
Qed.

Lemma with_value_same : forall p, with_value p (pvalue p) = p.
Proof. intros [n k t v]. reflexivity. Qed.

(** ** Looking up a name *)
Lemma position_some : forall {A} (f : A -> bool) l i, position f l = Some i <->
  exists x, nth_error l i = Some x /\ f x = true /\ forall j y, j < i -> nth_error l j = Some y -> f y = false.
Proof.
  intros A f. induction l as [|a l IH]; intro i; cbn [position].
  - split; [discriminate|]. intros (x & H & _). destruct i; discriminate.
  - destruct (f a) eqn:Fa.
    + split.
      * intro H. injection H as <-. exists a. split; [reflexivity|]. split; [exact Fa|]. intros j y J. lia.
      * intros (x & H & _ & B). destruct i as [|i]; [reflexivity|]. rewrite (B 0 a) in Fa; [discriminate|lia|reflexivity].
    + split.
      * destruct (position f l) as [k|] eqn:P; [|discriminate]. intro H. injection H as <-.
        destruct (proj1 (IH k) eq_refl) as (x & X & Fx & B). exists x. split; [exact X|]. split; [exact Fx|].
        intros [|j] y J Y; [injection Y as <-; exact Fa|]. apply (B j); [lia|exact Y].
      * intros (x & X & Fx & B). destruct i as [|i]; [injection X as <-; congruence|].
        rewrite (proj2 (IH i)); [reflexivity|]. exists x. split; [exact X|]. split; [exact Fx|].
        intros j y J Y. apply (B (S j)); [lia|exact Y].
Qed.
Lemma position_none : forall {A} (f : A -> bool) l, position f l = None <-> forall x, In x l -> f x = false.
Proof.
  intros A f. induction l as [|a l IH]; cbn [position].
  - split; [intros _ x []|reflexivity].
  - destruct (f a) eqn:Fa.
    + split; [discriminate|]. intro H. rewrite (H a) in Fa; [discriminate|left; reflexivity].
    + destruct (position f l) as [k|].
      * split; [discriminate|]. intro H. assert (C : Some k = None) by (apply IH; intros x X; apply H; right; exact X). discriminate.
      * split; [|reflexivity]. intros _ x [<-|X]; [exact Fa|]. apply IH; [reflexivity|exact X].
Qed.

(** The parameter a name refers to: the first whose name is the one given, in
    small letters. *)
Definition named (l : list param) (name : string) (i : nat) : Prop :=
  exists p, nth_error l i = Some p /\ pname p = lower name /\
    forall j q, j < i -> nth_error l j = Some q -> pname q <> lower name.
Definition unknown (l : list param) (name : string) : Prop := forall p, In p l -> pname p <> lower name.

Lemma find_named : forall l name i, find_param l name = Some i <-> named l name i.
Proof.
  intros l name i. unfold find_param. rewrite position_some. unfold named. split.
  - intros (p & P & N & B). exists p. split; [exact P|]. split; [apply String.eqb_eq; exact N|].
    intros j q J Q. apply String.eqb_neq. apply (B j); assumption.
  - intros (p & P & N & B). exists p. split; [exact P|]. split; [apply String.eqb_eq; exact N|].
    intros j q J Q. apply String.eqb_neq. apply (B j); assumption.
Qed.
Lemma find_unknown : forall l name, find_param l name = None <-> unknown l name.
Proof.
  intros l name. unfold find_param. rewrite position_none. unfold unknown. split; intros H p P; apply String.eqb_neq; auto.
Qed.
Lemma named_det : forall l name i j, named l name i -> named l name j -> i = j.
Proof. intros l name i j A B. apply find_named in A. apply find_named in B. congruence. Qed.

Lemma get_item_ok : forall ps name v, get_item ps name = Ok v <->
  exists i p, named (now ps) name i /\ nth_error (now ps) i = Some p /\ v = pvalue p.
Proof.
  intros ps name v. unfold get_item. destruct (find_param (now ps) name) as [i|] eqn:E.
  - assert (N := E). apply find_named in N. destruct N as (p & P & N). rewrite P. split.
    + intro H. injection H as <-. exists i, p. split; [apply find_named; exact E|]. auto.
    + intros (j & q & J & Q & ->). apply find_named in J. assert (j = i) by congruence. subst j. congruence.
  - split; [discriminate|]. intros (j & q & J & _). apply find_named in J. congruence.
Qed.
Lemma get_item_err : forall ps name e, get_item ps name = Err e <-> unknown (now ps) name /\ e = EKeyError.
Proof.
  intros ps name e. unfold get_item. destruct (find_param (now ps) name) as [i|] eqn:E.
  - assert (N := E). apply find_named in N. destruct N as (p & P & N). rewrite P. split; [discriminate|].
    intros [U _]. apply find_unknown in U. congruence.
  - apply find_unknown in E. split; [intro H; injection H as <-; auto|intros [_ ->]; reflexivity].
Qed.

Lemma low_char_capital : forall c, capital c -> low_char c = ascii_of_nat (nat_of_ascii c + 32).
Proof.
  intros c [A B]. unfold low_char. apply Nat.leb_le in A. apply Nat.leb_le in B. rewrite A, B. reflexivity.
Qed.
Lemma low_char_other : forall c, ~ capital c -> low_char c = c.
Proof.
  intros c N. unfold low_char. destruct (65 <=? nat_of_ascii c) eqn:A; [|reflexivity].
  destruct (nat_of_ascii c <=? 90) eqn:B; [|reflexivity]. exfalso. apply N. split; apply Nat.leb_le; assumption.
Qed.
Lemma low_char_not_capital : forall c, ~ capital (low_char c).
Proof.
  intros c. destruct (le_dec 65 (nat_of_ascii c)) as [A|A]; [destruct (le_dec (nat_of_ascii c) 90) as [B|B]|].
  - rewrite (low_char_capital c (conj A B)). unfold capital. rewrite nat_ascii_embedding by lia. lia.
  - rewrite low_char_other by (unfold capital; lia). unfold capital. lia.
  - rewrite low_char_other by (unfold capital; lia). unfold capital. lia.
Qed.
Lemma same_letter_low : forall c d, same_letter c d -> low_char c = low_char d.
Proof.
  intros c d H. destruct H as [c|n A B|n A B]; [reflexivity| |].
  - rewrite (low_char_capital (ascii_of_nat n)) by (unfold capital; rewrite nat_ascii_embedding; lia).
    rewrite (low_char_other (ascii_of_nat (n + 32))) by (unfold capital; rewrite nat_ascii_embedding; lia).
    rewrite nat_ascii_embedding by lia. reflexivity.
  - rewrite (low_char_capital (ascii_of_nat n)) by (unfold capital; rewrite nat_ascii_embedding; lia).
    rewrite (low_char_other (ascii_of_nat (n + 32))) by (unfold capital; rewrite nat_ascii_embedding; lia).
    rewrite nat_ascii_embedding by lia. reflexivity.
Qed.
Lemma same_letters_lower : forall s t, same_letters s t -> lower s = lower t.
Proof.
  intros s t H. induction H as [|c d s t C H IH]; cbn; [reflexivity|]. rewrite (same_letter_low _ _ C), IH. reflexivity.
Qed.
Lemma lower_no_capital : forall s c, char_in c (lower s) -> ~ capital c.
Proof.
  induction s as [|d s IH]; intros c H; cbn in H; inversion H; subst.
  - apply low_char_not_capital.
  - apply IH. assumption.
Qed.

Lemma case_lookup : forall ps s t v, same_letters s t ->
  get_item ps s = get_item ps t /\ set_item ps s v = set_item ps t v.
Proof.
  intros ps s t v H. unfold get_item, set_item, find_param. rewrite (same_letters_lower _ _ H). auto.
Qed.
(** A parameter whose name has a capital letter is never reached. *)
Lemma capital_unreachable : forall ps i p c, nth_error (now ps) i = Some p -> char_in c (pname p) -> capital c ->
  forall name, ~ named (now ps) name i.
Proof.
  intros ps i p c P C K name (q & Q & N & _). assert (q = p) by congruence. subst q.
  rewrite N in C. apply lower_no_capital in C. contradiction.
Qed.

(** ** Assignments *)
Lemma set_item_known : forall ps name v i p, named (now ps) name i -> nth_error (now ps) i = Some p ->
  set_item ps name v = (mkParams (upd i (fst (set_value p v)) (now ps)) (original ps), snd (set_value p v)).
Proof.
  intros ps name v i p N P. apply find_named in N. unfold set_item. rewrite N, P.
  destruct (set_value p v) as [p' e]. reflexivity.
Qed.
Lemma upd_same : forall {A} i (x : A) l, nth_error l i = Some x -> upd i x l = l.
Proof.
  intros A i x l H. apply list_ext_error. intro k. rewrite nth_error_upd.
  destruct (Nat.eqb_spec k i) as [->|N]; [|reflexivity]. rewrite H. reflexivity.
Qed.

Lemma set_item_refused : forall ps name v ps' e, set_item ps name v = (ps', Some e) -> ps' = ps.
Proof.
  intros ps name v ps' e H. unfold set_item in H. destruct (find_param (now ps) name) as [i|] eqn:E.
  - destruct (nth_error (now ps) i) as [p|] eqn:P; [|congruence].
    destruct (set_value p v) as [p' e'] eqn:SV. injection H as <- ->.
    apply set_value_refuse in SV. destruct SV as [-> _]. rewrite (upd_same _ _ _ P). destruct ps. reflexivity.
  - congruence.
Qed.

(** What an accepted assignment does. *)
Lemma set_item_accepted : forall ps name v ps', set_item ps name v = (ps', None) <->
  exists i p w, named (now ps) name i /\ nth_error (now ps) i = Some p /\ ~ fixed p /\
    ((v = VNone /\ w = VNone) \/ (v <> VNone /\ becomes (pty p) v w /\ allowed (pkind p) w)) /\
    original ps' = original ps /\ length (now ps') = length (now ps) /\
    nth_error (now ps') i = Some (with_value p w) /\
    (forall j, j <> i -> nth_error (now ps') j = nth_error (now ps) j).
Proof.
  intros ps name v ps'. split.
  - intro H. destruct (find_param (now ps) name) as [i|] eqn:E.
    2:{ unfold set_item in H. rewrite E in H. discriminate. }
    assert (N := E). apply find_named in N. destruct N as (p & P & N).
    rewrite (set_item_known _ _ _ i p) in H by (try (apply find_named); assumption).
    injection H as H0 H1. destruct (set_value p v) as [p' e] eqn:SV. cbn in H0, H1. subst e ps'.
    apply set_value_accept in SV. destruct SV as [X SV].
    assert (W : exists w, p' = with_value p w /\ ((v = VNone /\ w = VNone) \/ (v <> VNone /\ becomes (pty p) v w /\ allowed (pkind p) w))).
    { destruct SV as [[-> ->]|[V (w & B & A & ->)]]; [exists VNone; auto|exists w; auto]. }
    destruct W as (w & -> & W). exists i, p, w. cbn [now original].
    split; [apply find_named; exact E|]. split; [exact P|]. split; [exact X|]. split; [exact W|].
    split; [reflexivity|]. split; [apply upd_length|]. split.
    + rewrite nth_error_upd, Nat.eqb_refl, P. reflexivity.
    + intros j J. rewrite nth_error_upd. apply Nat.eqb_neq in J. rewrite J. reflexivity.
  - intros (i & p & w & N & P & X & W & O & L & Q & R).
    rewrite (set_item_known _ _ _ _ _ N P).
    assert (SV : set_value p v = (with_value p w, None)).
    { apply set_value_accept. split; [exact X|]. destruct W as [[-> ->]|[V [B A]]]; [left; auto|right; split; [exact V|exists w; auto]]. }
    rewrite SV. cbn [fst snd]. f_equal. destruct ps' as [n' o']. cbn in *. subst o'. f_equal.
    apply list_ext_error. intro k. rewrite nth_error_upd. destruct (Nat.eqb_spec k i) as [->|K].
    + rewrite P, Q. reflexivity.
    + rewrite (R _ K). reflexivity.
Qed.

Definition refusal (p : param) (v : pyval) (e : err) : Prop :=
  (fixed p /\ e = EException) \/
  (~ fixed p /\ v <> VNone /\ (forall w, ~ becomes (pty p) v w) /\ e = ETypeError) \/
  (~ fixed p /\ v <> VNone /\ exists w, becomes (pty p) v w /\
     ((incomparable (pkind p) w /\ e = ETypeError) \/
      (~ incomparable (pkind p) w /\ ~ allowed (pkind p) w /\ e = EValueError))).
Lemma set_item_errors : forall ps name v e, snd (set_item ps name v) = Some e <->
  (unknown (now ps) name /\ e = EKeyError) \/
  (exists i p, named (now ps) name i /\ nth_error (now ps) i = Some p /\ refusal p v e).
Proof.
  intros ps name v e. destruct (find_param (now ps) name) as [i|] eqn:E.
  - assert (N := E). apply find_named in N. pose proof N as (p & P & _).
    rewrite (set_item_known _ _ _ _ _ N P). cbn [snd]. split.
    + intro H. right. exists i, p. split; [exact N|]. split; [exact P|].
      destruct (set_value p v) as [p' o] eqn:SV. cbn in H. subst o. apply set_value_refuse in SV. exact (proj2 SV).
    + intros [[U _]|(j & q & J & Q & R)].
      * apply find_unknown in U. congruence.
      * assert (j = i) by (eapply named_det; eassumption). subst j. assert (q = p) by congruence. subst q.
        assert (SV : set_value p v = (p, Some e)) by (apply set_value_refuse; split; [reflexivity|exact R]).
        rewrite SV. reflexivity.
  - unfold set_item. rewrite E. cbn [snd]. assert (U := E). apply find_unknown in U. split.
    + intro H. injection H as <-. left. auto.
    + intros [[_ ->]|(j & q & J & _)]; [reflexivity|]. apply find_named in J. congruence.
Qed.

(** ** Histories of assignments and resets *)
Inductive change := Assign (name : string) (v : pyval) | Reset.
Definition do_change (ps : params) (c : change) : params :=
  match c with Assign n v => fst (set_item ps n v) | Reset => reset ps end.
Definition changes (ps : params) (l : list change) : params := fold_left do_change l ps.

Definition declaration := (string * kind * option ptype * pyval)%type.
Definition build (l : list declaration) : list (res param) :=
  map (fun d => let '(n, k, t, v) := d in make_param n k t v) l.
(** The list of parameters made by the constructors. *)
Definition constructed (l : list param) : Prop := exists ds, build ds = map Ok l.

Lemma make_param_holds : forall n k t v p, make_param n k t v = Ok p -> holds p.
Proof.
  intros n k t v p H K. assert (E : k = KFixed \/ set_value (mkParam n k t VNone) v = (p, None)).
  { unfold make_param in H. destruct k as [|mn mx r|av|]; [left; reflexivity|right..];
      (destruct (set_value _ v) as [p' [e|]]; [discriminate|]; injection H as ->; reflexivity). }
  destruct E as [->|E]; [cbn in H; injection H as <-; cbn in K; congruence|].
  apply set_value_accept in E. destruct E as [_ [[_ ->]|[_ (w & B & A & ->)]]]; cbn in *; [left; reflexivity|].
  right. split; [exact A|eapply becomes_of_type; exact B].
Qed.
Lemma constructed_holds : forall l, constructed l -> forall p, In p l -> holds p.
Proof.
  intros l (ds & B) p P. assert (I : In (Ok p) (build ds)) by (rewrite B; apply in_map; exact P).
  unfold build in I. apply in_map_iff in I. destruct I as ([[[n k] t] v] & M & _). eapply make_param_holds. exact M.
Qed.

Lemma declared_refl : forall p, declared p p.
Proof. intro p. repeat split. Qed.
Lemma declared_with : forall p v, declared (with_value p v) p.
Proof. intros p v. repeat split. Qed.
Lemma declared_trans : forall p q r, declared p q -> declared q r -> declared p r.
Proof. intros p q r (A & B & C) (A' & B' & C'). repeat split; congruence. Qed.

Definition sound (l : list param) (ps : params) : Prop :=
  original ps = l /\ length (now ps) = length l /\
  forall i p q, nth_error (now ps) i = Some p -> nth_error l i = Some q ->
    declared p q /\ holds p /\ (fixed q -> p = q).

Lemma sound_start : forall l, (forall p, In p l -> holds p) -> sound l (make_params l).
Proof.
  intros l H. split; [reflexivity|]. split; [reflexivity|]. cbn. intros i p q P Q. assert (p = q) by congruence. subst q.
  split; [apply declared_refl|]. split; [|reflexivity]. apply H. eapply nth_error_In. exact P.
Qed.
Lemma sound_change : forall l ps c, (forall p, In p l -> holds p) -> sound l ps -> sound l (do_change ps c).
Proof.
  intros l ps [n v|] H S.
  - cbn [do_change]. destruct (set_item ps n v) as [ps' [e|]] eqn:E; cbn [fst].
    + apply set_item_refused in E. subst ps'. exact S.
    + apply set_item_accepted in E. destruct E as (i & p & w & N & P & X & W & O & L & Q & R).
      destruct S as (S1 & S2 & S3). split; [congruence|]. split; [congruence|].
      intros j a b A B. destruct (Nat.eq_dec j i) as [->|J].
      * assert (a = with_value p w) by congruence. subst a. destruct (S3 _ _ _ P B) as (D & Hp & Fq).
        split; [eapply declared_trans; [apply declared_with|exact D]|]. split.
        -- intro K. cbn in *. destruct W as [[_ ->]|[_ [Be Al]]]; [left; reflexivity|]. right.
           split; [exact Al|eapply becomes_of_type; exact Be].
        -- intro C. exfalso. apply X. unfold fixed in *. destruct D as (_ & D & _). congruence.
      * rewrite (R _ J) in A. exact (S3 _ _ _ A B).
  - cbn [do_change]. destruct S as (S1 & S2 & S3). unfold reset. rewrite S1. exact (sound_start l H).
Qed.
Lemma sound_changes : forall l cs, (forall p, In p l -> holds p) -> sound l (changes (make_params l) cs).
Proof.
  intros l cs H. unfold changes. assert (S := sound_start l H). revert S. generalize (make_params l).
  induction cs as [|c cs IH]; intros ps S; cbn [fold_left]; [exact S|]. apply IH. apply sound_change; assumption.
Qed.

Theorem values_held : forall l cs, constructed l -> let ps := changes (make_params l) cs in
  length (now ps) = length l /\
  forall i p q, nth_error (now ps) i = Some p -> nth_error l i = Some q ->
    declared p q /\ holds p /\ (fixed q -> p = q).
Proof.
  intros l cs C ps. destruct (sound_changes l cs (constructed_holds l C)) as (_ & L & S). split; assumption.
Qed.
Theorem reset_restores : forall l cs, constructed l -> now (reset (changes (make_params l) cs)) = l.
Proof.
  intros l cs C. destruct (sound_changes l cs (constructed_holds l C)) as (O & _ & _). exact O.
Qed.
