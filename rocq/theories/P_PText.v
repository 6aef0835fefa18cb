(** Strings: splitting, joining and decimal integers. *)
From Coq Require Import Ascii String List Arith ZArith Bool Lia Decimal DecimalString DecimalFacts DecimalZ.
From Verif Require Import Base M_Pipeline M_PText.
Import ListNotations.
Open Scope nat_scope.
Local Open Scope string_scope.

(** The string holds no character [c]. *)
Definition without (c : ascii) (s : string) : Prop := has_char c s = false.

Lemma app_nil_r_s : forall s, s ++ "" = s.
Proof. induction s as [|a r IH]; cbn; [reflexivity|]. now rewrite IH. Qed.
Lemma app_assoc_s : forall a b c : string, (a ++ b) ++ c = a ++ b ++ c.
Proof. induction a as [|x r IH]; intros; cbn; [reflexivity|]. now rewrite IH. Qed.
Lemma has_char_app : forall c a b, has_char c (a ++ b) = has_char c a || has_char c b.
Proof. induction a as [|x r IH]; intro b; cbn; [reflexivity|]. now rewrite IH, orb_assoc. Qed.
Lemma without_app : forall c a b, without c a -> without c b -> without c (a ++ b).
Proof. unfold without. intros c a b H1 H2. now rewrite has_char_app, H1, H2. Qed.
Lemma without_inv : forall c a b, without c (a ++ b) -> without c a /\ without c b.
Proof. unfold without. intros c a b H. rewrite has_char_app in H. now apply orb_false_elim in H. Qed.
Lemma without_cons : forall c a r, without c (String a r) <-> a <> c /\ without c r.
Proof.
  intros c a r. unfold without. cbn. rewrite orb_false_iff, Ascii.eqb_neq. reflexivity.
Qed.

(** ** [split] *)
Lemma split_char_nonempty : forall c s, split_char c s <> [].
Proof.
  intros c s. destruct s as [|a r]; cbn; [discriminate|]. destruct (Ascii.eqb a c); [discriminate|].
  destruct (split_char c r); discriminate.
Qed.
Lemma split_char_app : forall c x rest, without c x ->
  split_char c (x ++ String c rest) = x :: split_char c rest.
Proof.
  intros c x rest. induction x as [|a r IH]; intro H; cbn.
  - now rewrite Ascii.eqb_refl.
  - apply without_cons in H. destruct H as [H1 H2]. apply Ascii.eqb_neq in H1. rewrite H1.
    now rewrite IH.
Qed.
Lemma split_char_one : forall c x, without c x -> split_char c x = [x].
Proof.
  intros c x. induction x as [|a r IH]; intro H; cbn; [reflexivity|].
  apply without_cons in H. destruct H as [H1 H2]. apply Ascii.eqb_neq in H1. rewrite H1. now rewrite IH.
Qed.
Lemma split_join : forall c l, l <> [] -> Forall (without c) l -> split_char c (join (String c "") l) = l.
Proof.
  intros c l. induction l as [|x r IH]; intros Hn H; [easy|]. inversion H as [|? ? Hx Hr]; subst.
  destruct r as [|y t].
  - cbn. now apply split_char_one.
  - change (join (String c "") (x :: y :: t)) with (x ++ String c (join (String c "") (y :: t))).
    rewrite (split_char_app c x (join (String c "") (y :: t)) Hx). f_equal. apply IH; [discriminate|exact Hr].
Qed.
Lemma split_char_without : forall c s, Forall (without c) (split_char c s).
Proof.
  intros c s. induction s as [|a r IH]; cbn.
  - constructor; [reflexivity|constructor].
  - destruct (Ascii.eqb a c) eqn:E; [constructor; [reflexivity|exact IH]|].
    destruct (split_char c r) as [|h t]; [constructor; [|constructor]; apply without_cons; split;
      [now apply Ascii.eqb_neq|reflexivity]|].
    inversion IH; subst. constructor; [|assumption]. apply without_cons. split; [now apply Ascii.eqb_neq|assumption].
Qed.
Lemma split_char_keeps : forall d c s, without d s -> Forall (without d) (split_char c s).
Proof.
  intros d c s. induction s as [|a r IH]; intro H; cbn.
  - constructor; [reflexivity|constructor].
  - apply without_cons in H. destruct H as [H1 H2]. specialize (IH H2).
    destruct (Ascii.eqb a c); [constructor; [reflexivity|exact IH]|].
    destruct (split_char c r) as [|h t].
    + constructor; [|constructor]. apply without_cons. split; [exact H1|reflexivity].
    + inversion IH; subst. constructor; [|assumption]. now apply without_cons.
Qed.
Lemma split_once_app : forall c x rest, without c x -> split_once c (x ++ String c rest) = Some (x, rest).
Proof.
  intros c x rest. induction x as [|a r IH]; intro H; cbn.
  - now rewrite Ascii.eqb_refl.
  - apply without_cons in H. destruct H as [H1 H2]. apply Ascii.eqb_neq in H1. rewrite H1. now rewrite IH.
Qed.
Lemma split_once_none : forall c s, without c s -> split_once c s = None.
Proof.
  intros c s. induction s as [|a r IH]; intro H; cbn; [reflexivity|].
  apply without_cons in H. destruct H as [H1 H2]. apply Ascii.eqb_neq in H1. rewrite H1. now rewrite IH.
Qed.

(** ** Removed characters *)
Lemma drop_char_app : forall c a b, drop_char c (a ++ b) = drop_char c a ++ drop_char c b.
Proof.
  intros c a b. induction a as [|x r IH]; cbn; [reflexivity|]. destruct (Ascii.eqb x c); cbn; now rewrite IH.
Qed.
Lemma drop_char_id : forall c s, without c s -> drop_char c s = s.
Proof.
  intros c s. induction s as [|a r IH]; intro H; cbn; [reflexivity|].
  apply without_cons in H. destruct H as [H1 H2]. apply Ascii.eqb_neq in H1. rewrite H1. now rewrite IH.
Qed.
Lemma drop_char_without : forall c s, without c (drop_char c s).
Proof.
  intros c s. induction s as [|a r IH]; cbn; [reflexivity|].
  destruct (Ascii.eqb a c) eqn:E; [exact IH|]. apply without_cons. split; [now apply Ascii.eqb_neq|exact IH].
Qed.
Lemma drop_char_keeps : forall d c s, without d s -> without d (drop_char c s).
Proof.
  intros d c s. induction s as [|a r IH]; intro H; cbn; [reflexivity|].
  apply without_cons in H. destruct H as [H1 H2].
  destruct (Ascii.eqb a c); [auto|]. apply without_cons. auto.
Qed.

(** ** Brackets *)
Lemma but_last_snoc : forall s c, but_last (s ++ String c "") = s.
Proof.
  induction s as [|a r IH]; intro c; cbn; [reflexivity|]. rewrite IH.
  destruct (r ++ String c "") eqn:E; [destruct r; discriminate|reflexivity].
Qed.
Lemma ends_with_snoc : forall s c d, ends_with d (s ++ String c "") = Ascii.eqb c d.
Proof.
  induction s as [|a r IH]; intros c d; cbn; [reflexivity|]. rewrite IH.
  destruct (r ++ String c "") eqn:E; [destruct r; discriminate|reflexivity].
Qed.
Lemma inner_bracket : forall s c d, inner (String c (s ++ String d "")) = s.
Proof. intros. cbn. apply but_last_snoc. Qed.
Lemma but_last_keeps : forall d s, without d s -> without d (but_last s).
Proof.
  intros d s. induction s as [|a r IH]; intro H; cbn; [reflexivity|].
  apply without_cons in H. destruct H as [H1 H2]. destruct r; [reflexivity|]. apply without_cons. auto.
Qed.
Lemma inner_keeps : forall d s, without d s -> without d (inner s).
Proof.
  intros d [|a r] H; cbn; [reflexivity|]. apply without_cons in H. now apply but_last_keeps.
Qed.

(** ** Decimal integers *)
Lemma digits_acc : forall d acc,
  digits_value (Zpos acc) (NilEmpty.string_of_uint d) = Zpos (Pos.of_uint_acc d acc).
Proof.
  induction d as [|d IH|d IH|d IH|d IH|d IH|d IH|d IH|d IH|d IH|d IH]; intro acc;
    [reflexivity|..]; cbn [NilEmpty.string_of_uint digits_value Pos.of_uint_acc];
    rewrite <- IH; f_equal;
    match goal with |- context [Z.of_nat ?x] => let v := eval vm_compute in (Z.of_nat x) in change (Z.of_nat x) with v end; lia.
Qed.
Lemma digits_uint : forall d, digits_value 0 (NilEmpty.string_of_uint d) = Z.of_N (Pos.of_uint d).
Proof.
  induction d as [|d IH|d IH|d IH|d IH|d IH|d IH|d IH|d IH|d IH|d IH];
    [reflexivity|exact IH|..]; cbn [Pos.of_uint]; cbn [Z.of_N]; rewrite <- digits_acc; reflexivity.
Qed.
Lemma digits_nilzero : forall d, digits_value 0 (NilZero.string_of_uint d) = Z.of_N (Pos.of_uint d).
Proof. intro d. destruct d; try reflexivity; apply digits_uint. Qed.
Lemma all_digits_uint : forall d, all_digits (NilEmpty.string_of_uint d) = true.
Proof. induction d; [reflexivity|..]; exact IHd. Qed.
Lemma isdigit_uint : forall d, isdigit (NilZero.string_of_uint d) = true.
Proof. intro d. destruct d; try reflexivity; apply (all_digits_uint _). Qed.

Lemma show_nonneg : forall n, (0 <= n)%Z ->
  isdigit (show_int n) = true /\ digits_value 0 (show_int n) = n.
Proof.
  intros n Hn. unfold show_int. pose proof (DecimalZ.of_to n) as E.
  destruct (Z.to_int n) as [d|d] eqn:D.
  - cbn [NilZero.string_of_int]. split; [apply isdigit_uint|]. rewrite digits_nilzero. exact E.
  - exfalso. destruct n as [|p|p]; [discriminate|discriminate|lia].
Qed.
Lemma show_neg : forall n, (n < 0)%Z -> show_int n = "-" ++ show_int (- n).
Proof. intros [|p|p] H; [lia|lia|reflexivity]. Qed.

Lemma digits_not : forall s, isdigit s = true -> forall c, is_digit c = false -> without c s.
Proof.
  intros s Hs c Hc. assert (H : all_digits s = true) by (destruct s; [discriminate|exact Hs]). clear Hs.
  induction s as [|a r IH]; [reflexivity|]. cbn in H. apply andb_prop in H. destruct H as [H1 H2].
  apply without_cons. split; [congruence|auto].
Qed.
Lemma digit_not_space : forall c, is_digit c = true -> is_space c = false.
Proof.
  intros c H. unfold is_digit, is_space in *. set (n := nat_of_ascii c) in *. clearbody n.
  destruct (48 <=? n)%nat eqn:E; [|discriminate]. apply Nat.leb_le in E.
  replace (n <=? 13)%nat with false by (symmetry; apply Nat.leb_gt; lia).
  replace (n <=? 32)%nat with false by (symmetry; apply Nat.leb_gt; lia).
  now rewrite !andb_false_r.
Qed.
Lemma rstrip_digits : forall s, all_digits s = true -> rstrip_sp s = s.
Proof.
  induction s as [|a r IH]; intro H; cbn; [reflexivity|]. cbn in H. apply andb_prop in H. destruct H as [H1 H2].
  rewrite (IH H2). rewrite (digit_not_space _ H1). now destruct r.
Qed.
Lemma strip_digits : forall s, isdigit s = true -> strip s = s.
Proof.
  intros s H. unfold strip. destruct s as [|a r]; [discriminate|]. cbn in H. apply andb_prop in H. destruct H as [H1 H2].
  cbn [lstrip_sp]. rewrite (digit_not_space _ H1). apply rstrip_digits. cbn. now rewrite H1, H2.
Qed.
Lemma underscored_digits : forall s b, all_digits s = true -> (b = true \/ s <> "") -> underscored b s = Some s.
Proof.
  induction s as [|a r IH]; intros b H Hb; cbn.
  - destruct Hb as [-> | Hb]; [reflexivity|congruence].
  - cbn in H. apply andb_prop in H. destruct H as [H1 H2]. rewrite H1. rewrite IH; [reflexivity|assumption|now left].
Qed.
Lemma py_int_digits : forall s, isdigit s = true -> py_int s = Some (digits_value 0 s).
Proof.
  intros s H. unfold py_int. rewrite (strip_digits _ H).
  assert (E : underscored false s = Some s).
  { apply underscored_digits; [destruct s; [discriminate|exact H]|right; now destruct s]. }
  destruct s as [|a r]; [discriminate|].
  assert (Ha : is_digit a = true) by (cbn in H; now apply andb_prop in H).
  assert (P : a <> "-"%char /\ a <> "+"%char) by (split; intros ->; discriminate Ha).
  destruct P as [P1 P2].
  destruct a as [[] [] [] [] [] [] [] []]; try (now contradiction P1); try (now contradiction P2); rewrite E; reflexivity.
Qed.
Theorem py_int_show : forall n, py_int (show_int n) = Some n.
Proof.
  intro n. destruct (Z.lt_ge_cases n 0) as [H|H].
  - rewrite (show_neg _ H). destruct (show_nonneg (- n)) as [D V]; [lia|].
    assert (A : all_digits (show_int (- n)) = true) by (destruct (show_int (- n)); [discriminate|exact D]).
    assert (R : rstrip_sp (String "-" (show_int (- n))) = String "-" (show_int (- n))).
    { cbn -[show_int]. rewrite (rstrip_digits _ A). now destruct (show_int (- n)). }
    unfold py_int. change (strip ("-" ++ show_int (- n))) with (rstrip_sp (String "-" (show_int (- n)))).
    rewrite R. cbv iota beta.
    rewrite underscored_digits; [|exact A|right; intros E; rewrite E in D; discriminate].
    cbn [option_map]. rewrite V. f_equal. lia.
  - destruct (show_nonneg n H) as [D V]. rewrite (py_int_digits _ D). now rewrite V.
Qed.

(** Characters of a written integer. *)
Lemma show_int_without : forall n c, is_digit c = false -> c <> "-"%char -> without c (show_int n).
Proof.
  intros n c H1 H2. destruct (Z.lt_ge_cases n 0) as [H|H].
  - rewrite (show_neg _ H). destruct (show_nonneg (- n)) as [D V]; [lia|]. apply without_app.
    + apply without_cons. split; [congruence|reflexivity].
    + now apply digits_not.
  - destruct (show_nonneg n H) as [D V]. now apply digits_not.
Qed.

(** ** Lines of a text *)
Definition nl : string := String newline "".
Lemma lines_app : forall x rest, without newline x -> lines (x ++ nl ++ rest) = (x ++ nl) :: lines rest.
Proof.
  induction x as [|a r IH]; intros rest H; cbn.
  - reflexivity.
  - apply without_cons in H. destruct H as [H1 H2]. apply Ascii.eqb_neq in H1. rewrite H1.
    change (String newline rest) with (nl ++ rest). rewrite (IH rest H2). reflexivity.
Qed.
Lemma lines_last : forall x, without newline x -> x <> "" -> lines x = [x].
Proof.
  induction x as [|a r IH]; intros H Hn; [congruence|]. cbn. apply without_cons in H. destruct H as [H1 H2].
  apply Ascii.eqb_neq in H1. rewrite H1. destruct r as [|b r]; [reflexivity|]. now rewrite IH.
Qed.

(** ** Prefixes *)
Lemma prefix_app : forall p s, String.prefix p (p ++ s) = true.
Proof.
  induction p as [|a r IH]; intro s; [now destruct s|]. cbn. destruct (ascii_dec a a); [apply IH|congruence].
Qed.
Lemma lower_app : forall a b, lower (a ++ b) = lower a ++ lower b.
Proof. induction a as [|x r IH]; intro b; cbn; [reflexivity|]. now rewrite IH. Qed.
Lemma low_char_idem : forall c, low_char (low_char c) = low_char c.
Proof. intros [[] [] [] [] [] [] [] []]; reflexivity. Qed.
Lemma lower_idem : forall s, lower (lower s) = lower s.
Proof. induction s as [|a r IH]; cbn; [reflexivity|]. now rewrite IH, low_char_idem. Qed.
Lemma low_char_other : forall d c, (forall n, 65 <= n <= 90 -> nat_of_ascii d <> n) ->
  (forall n, 97 <= n <= 122 -> nat_of_ascii d <> n) -> Ascii.eqb (low_char c) d = Ascii.eqb c d.
Proof.
  intros d c H1 H2. unfold low_char.
  destruct ((65 <=? nat_of_ascii c)%nat && (nat_of_ascii c <=? 90)%nat) eqn:E; [|reflexivity].
  apply andb_prop in E. destruct E as [E1 E2]. apply Nat.leb_le in E1. apply Nat.leb_le in E2.
  transitivity false.
  - apply Ascii.eqb_neq. intro F. apply (H2 (nat_of_ascii c + 32)); [lia|]. rewrite <- F.
    apply nat_ascii_embedding. lia.
  - symmetry. apply Ascii.eqb_neq. intro F. apply (H1 (nat_of_ascii c)); [lia|]. now rewrite F.
Qed.
(** Characters that are not letters. *)
Definition not_letter (d : ascii) : bool :=
  negb (((65 <=? nat_of_ascii d) && (nat_of_ascii d <=? 90)) || ((97 <=? nat_of_ascii d) && (nat_of_ascii d <=? 122)))%nat.
Lemma low_char_eqb : forall d c, not_letter d = true -> Ascii.eqb (low_char c) d = Ascii.eqb c d.
Proof.
  intros d c H. unfold not_letter in H. apply negb_true_iff in H. apply orb_false_elim in H. destruct H as [H1 H2].
  apply low_char_other; intros n Hn E; rewrite E in *.
  - apply andb_false_iff in H1. destruct H1 as [H1|H1]; apply Nat.leb_gt in H1; lia.
  - apply andb_false_iff in H2. destruct H2 as [H2|H2]; apply Nat.leb_gt in H2; lia.
Qed.
Lemma has_char_lower : forall d s, not_letter d = true -> has_char d (lower s) = has_char d s.
Proof.
  intros d s H. induction s as [|a r IH]; cbn; [reflexivity|]. now rewrite IH, low_char_eqb.
Qed.
Lemma starts_with_lower : forall d s, not_letter d = true -> starts_with d (lower s) = starts_with d s.
Proof. intros d [|a r] H; cbn; [reflexivity|]. now apply low_char_eqb. Qed.
Lemma ends_with_lower : forall d s, not_letter d = true -> ends_with d (lower s) = ends_with d s.
Proof.
  intros d s H. induction s as [|a r IH]; cbn; [reflexivity|].
  destruct r as [|b r]; cbn in *; [now apply low_char_eqb|exact IH].
Qed.
Lemma is_digit_low : forall c, is_digit (low_char c) = is_digit c.
Proof. intros [[] [] [] [] [] [] [] []]; reflexivity. Qed.
Lemma isdigit_lower : forall s, isdigit (lower s) = isdigit s.
Proof.
  assert (G : forall s, all_digits (lower s) = all_digits s).
  { induction s as [|a r IH]; cbn; [reflexivity|]. now rewrite IH, is_digit_low. }
  intros [|a r]; [reflexivity|]. exact (G (String a r)).
Qed.

(** ** [rstrip] *)
Lemma rstrip_snoc : forall c s, rstrip c (s ++ String c "") = rstrip c s.
Proof.
  intros c s. induction s as [|a r IH]; cbn.
  - now rewrite Ascii.eqb_refl.
  - now rewrite IH.
Qed.
Lemma rstrip_idem : forall c s, rstrip c (rstrip c s) = rstrip c s.
Proof.
  intros c s. induction s as [|a r IH]; cbn; [reflexivity|].
  destruct (rstrip c r) as [|b t] eqn:E.
  - destruct (Ascii.eqb a c) eqn:F; cbn; [reflexivity|now rewrite F].
  - cbn in *. now rewrite IH.
Qed.
Lemma rstrip_id : forall c s, ends_with c s = false -> rstrip c s = s.
Proof.
  intros c s. induction s as [|a r IH]; intro H; [reflexivity|]. cbn [rstrip].
  destruct r as [|b t].
  - cbn in *. now rewrite H.
  - assert (E : rstrip c (String b t) = String b t) by (apply IH; exact H). rewrite E. reflexivity.
Qed.
Lemma rstrip_keeps : forall d c s, without d s -> without d (rstrip c s).
Proof.
  intros d c s. induction s as [|a r IH]; intro H; cbn; [reflexivity|].
  apply without_cons in H. destruct H as [H1 H2]. specialize (IH H2).
  destruct (rstrip c r) as [|b t].
  - destruct (Ascii.eqb a c); [reflexivity|]. apply without_cons. split; [exact H1|reflexivity].
  - apply without_cons. auto.
Qed.
