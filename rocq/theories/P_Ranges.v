(** Ranges of mini-arrays and durations. *)
From Coq Require Import Ascii String List ZArith Bool Lia.
From Verif Require Import Base M_PText M_Ranges P_PText.
Import ListNotations.
Open Scope Z_scope.
Open Scope list_scope.

(** ** Specification *)
(** The integers from [a] to [b]. *)
Definition between (a b : Z) : list Z := map (fun k => a + Z.of_nat k) (seq 0 (Z.to_nat (b - a + 1))).
(** Ranges that are not empty, none going on where the one before ends. *)
Fixpoint maximal (rs : list (Z * Z)) : Prop :=
  match rs with
  | [] => True
  | (a, b) :: r => a <= b /\ maximal r /\ match r with (c, _) :: _ => c <> b + 1 | [] => True end
  end.
Definition listed (rs : list (Z * Z)) : list Z := flat_map (fun p => between (fst p) (snd p)) rs.
Definition unit_of (c : ascii) (u : Z) : Prop := (c = "s"%char /\ u = 1) \/ (c = "m"%char /\ u = 60) \/ (c = "h"%char /\ u = 3600).
(** [d] is decimal digits, one at least, that write [n]. *)
Inductive writes : string -> Z -> Prop :=
| writes_one : forall c, is_digit c = true -> writes (String c EmptyString) (Z.of_nat (nat_of_ascii c) - 48)
| writes_more : forall d n c, writes d n -> is_digit c = true -> writes (d ++ String c EmptyString)%string (10 * n + (Z.of_nat (nat_of_ascii c) - 48)).

(** ** Ranges *)
Lemma between_one a : between a a = [a].
Proof. unfold between. replace (Z.to_nat (a - a + 1)) with 1%nat by lia. cbn. f_equal. lia. Qed.
Lemma between_step a b : a <= b -> between a b = a :: between (a + 1) b.
Proof.
  intro H. unfold between. replace (Z.to_nat (b - a + 1)) with (S (Z.to_nat (b - (a + 1) + 1))) by lia. cbn [seq map].
  f_equal; [lia|]. rewrite <- seq_shift, map_map. apply map_ext. intro k. lia.
Qed.
Lemma groups_head x r : exists g gs, groups (x :: r) = (x :: g) :: gs.
Proof.
  revert x. induction r as [|y r IH]; intro x; cbn [groups]; [eauto|]. destruct (y - x =? 1); [|eauto].
  destruct (IH y) as (g & gs & E). cbn [groups] in E. rewrite E. eauto.
Qed.
Lemma last_any (l : list Z) : forall y d d', last (y :: l) d = last (y :: l) d'.
Proof. induction l as [|z l IH]; intros y d d'; [reflexivity|]. exact (IH z d d'). Qed.
Lemma last_cons (x y : Z) l d d' : last (x :: y :: l) d = last (y :: l) d'.
Proof. exact (last_any l y d d'). Qed.
Lemma ranges_run : forall r x, exists b rs, miniarray_ranges (x :: r) = Ok ((x, b) :: rs) /\ maximal ((x, b) :: rs) /\ listed ((x, b) :: rs) = x :: r.
Proof.
  induction r as [|y r IH]; intro x.
  - exists x, []. cbn. rewrite between_one. repeat split; lia.
  - destruct (IH y) as (b & rs & E & M & L). unfold miniarray_ranges in *. cbn [groups]. destruct (y - x =? 1) eqn:D.
    + apply Z.eqb_eq in D. destruct (groups_head y r) as (g & gs & G). rewrite G in E. cbn [groups] in G. rewrite G.
      cbn [all_ranges group_range bind] in *. destruct (all_ranges gs) as [t|]; cbn [bind] in *; [|discriminate].
      injection E as E1 E2. change (last (y :: g) y = b) in E1. exists b, rs. change (last (x :: y :: g) x) with (last (y :: g) x). rewrite (last_any g y x y), E1, E2. split; [reflexivity|].
      cbn [maximal] in *. destruct M as (Mb & Mr & Mc). split; [repeat split; [lia|assumption|assumption]|].
      cbn [listed flat_map fst snd] in *. rewrite (between_step x b) by lia. replace (x + 1) with y by lia. cbn [app]. f_equal. exact L.
    + apply Z.eqb_neq in D. exists x, ((y, b) :: rs). cbn [all_ranges group_range bind last]. cbn [groups] in E. rewrite E. cbn [bind].
      split; [reflexivity|]. split; [cbn [maximal] in *; intuition lia|].
      cbn [listed flat_map fst snd] in *. rewrite between_one. cbn [app]. f_equal. exact L.
Qed.
Theorem ranges_spec : forall l, l <> [] -> exists rs, miniarray_ranges l = Ok rs /\ maximal rs /\ listed rs = l.
Proof. intros [|x r] H; [now elim H|]. destruct (ranges_run r x) as (b & rs & E). eauto. Qed.
Lemma maximal_unique : forall rs rs', maximal rs -> maximal rs' -> listed rs = listed rs' -> rs = rs'.
Proof.
  assert (W : forall n rs rs', (length (listed rs) <= n)%nat -> maximal rs -> maximal rs' -> listed rs = listed rs' -> rs = rs').
  { induction n as [|n IH]; intros rs rs' N M M' L.
    - destruct rs as [|[a b] rs].
      + destruct rs' as [|[c d] rs']; [reflexivity|]. cbn [maximal listed flat_map fst snd] in *. rewrite (between_step c d) in L by lia. discriminate.
      + cbn [maximal listed flat_map fst snd] in *. rewrite (between_step a b) in N by lia. cbn in N. lia.
    - destruct rs as [|[a b] rs]; destruct rs' as [|[c d] rs']; [reflexivity| | |].
      + cbn [maximal listed flat_map fst snd] in *. rewrite (between_step c d) in L by lia. discriminate.
      + cbn [maximal listed flat_map fst snd] in *. rewrite (between_step a b) in L by lia. discriminate.
      + cbn [maximal listed flat_map fst snd] in *. destruct M as (Mab & Mr & Mn). destruct M' as (Mcd & Mr' & Mn').
        rewrite (between_step a b), (between_step c d) in L by lia. rewrite (between_step a b) in N by lia. cbn [app length] in *. injection L as <- L.
        destruct (Z.eq_dec a b) as [<-|Nb]; destruct (Z.eq_dec a d) as [<-|Nd].
        * f_equal. assert (Z0 : between (a + 1) a = []) by (unfold between; replace (Z.to_nat (a - (a + 1) + 1)) with 0%nat by lia; reflexivity).
          rewrite Z0 in *. cbn [app] in *. apply IH; auto; unfold listed; lia.
        * exfalso. assert (Z0 : between (a + 1) a = []) by (unfold between; replace (Z.to_nat (a - (a + 1) + 1)) with 0%nat by lia; reflexivity).
          rewrite Z0 in L. rewrite (between_step (a + 1) d) in L by lia. cbn [app] in L. destruct rs as [|[e f] rs]; [discriminate|]. cbn [maximal flat_map fst snd] in *.
          rewrite (between_step e f) in L by lia. injection L as L _. lia.
        * exfalso. assert (Z0 : between (a + 1) a = []) by (unfold between; replace (Z.to_nat (a - (a + 1) + 1)) with 0%nat by lia; reflexivity).
          rewrite Z0 in L. rewrite (between_step (a + 1) b) in L by lia. cbn [app] in L. destruct rs' as [|[e f] rs']; [discriminate|]. cbn [maximal flat_map fst snd] in *.
          rewrite (between_step e f) in L by lia. injection L as L _. lia.
        * assert (X : (a + 1, b) :: rs = (a + 1, d) :: rs').
          { apply IH; cbn [maximal listed flat_map fst snd]; try (repeat split; [lia|assumption|assumption]); [lia|exact L]. }
          injection X as -> ->. reflexivity. }
  intros rs rs' M M' L. eapply W; eauto.
Qed.
Theorem ranges_unique : forall l rs rs', miniarray_ranges l = Ok rs -> maximal rs' -> listed rs' = l -> rs = rs'.
Proof.
  intros [|x r] rs rs' E M L; [discriminate|]. destruct (ranges_run r x) as (b & t & E' & M' & L'). rewrite E in E'. injection E' as ->.
  apply maximal_unique; auto; congruence.
Qed.
Theorem ranges_empty : miniarray_ranges [] = Err EIndexError.
Proof. reflexivity. Qed.
Theorem ranges_error : forall l e, miniarray_ranges l = Err e <-> l = [] /\ e = EIndexError.
Proof.
  intros l e. split.
  - destruct l as [|x r]; [intro H; injection H as <-; auto|]. destruct (ranges_run r x) as (b & t & E & _). rewrite E. discriminate.
  - intros [-> ->]. reflexivity.
Qed.
Lemma in_between a b x : In x (between a b) <-> a <= x <= b.
Proof.
  unfold between. rewrite in_map_iff. split.
  - intros (k & <- & K). apply in_seq in K. lia.
  - intro H. exists (Z.to_nat (x - a)). rewrite in_seq. lia.
Qed.
(** Which mini-arrays the ranges hold. *)
Theorem ranges_member : forall l rs x, miniarray_ranges l = Ok rs -> In x l <-> exists a b, In (a, b) rs /\ a <= x <= b.
Proof.
  intros [|y r] rs x E; [discriminate|]. destruct (ranges_run r y) as (b & t & E' & _ & L). rewrite E in E'. injection E' as ->.
  rewrite <- L at 1. unfold listed. rewrite in_flat_map. split.
  - intros ([c d] & I & K). cbn [fst snd] in K. apply in_between in K. eauto.
  - intros (c & d & I & K). exists (c, d). rewrite in_between. auto.
Qed.

(** ** Durations *)
Lemma span_all : forall d s, all_digits d = true -> match s with String c _ => is_digit c = false | EmptyString => True end -> span_digits (d ++ s)%string = (d, s).
Proof.
  induction d as [|c d IH]; intros s D S; cbn [append all_digits span_digits] in *.
  - destruct s as [|c s]; [reflexivity|]. cbn [span_digits]. now rewrite S.
  - apply andb_true_iff in D. destruct D as [C D]. rewrite C, (IH s D S). reflexivity.
Qed.
Lemma span_split : forall s d t, span_digits s = (d, t) -> s = (d ++ t)%string /\ all_digits d = true /\ match t with String c _ => is_digit c = false | EmptyString => True end.
Proof.
  induction s as [|c s IH]; intros d t E; cbn [span_digits] in E.
  - injection E as <- <-. auto.
  - destruct (is_digit c) eqn:C.
    + destruct (span_digits s) as [d' t'] eqn:P. injection E as <- <-. destruct (IH _ _ eq_refl) as (-> & A & B). cbn [append all_digits]. rewrite C, A. auto.
    + injection E as <- <-. cbn. auto.
Qed.
Lemma digits_app : forall d e acc, digits_value acc (d ++ e)%string = digits_value (digits_value acc d) e.
Proof. induction d as [|c d IH]; intros e acc; cbn [append digits_value]; [reflexivity|]. apply IH. Qed.
Lemma all_digits_app : forall d e, all_digits (d ++ e)%string = all_digits d && all_digits e.
Proof. induction d as [|c d IH]; intro e; cbn [append all_digits]; [reflexivity|]. rewrite IH. now rewrite andb_assoc. Qed.
Lemma digit_code c : is_digit c = true -> (48 <= nat_of_ascii c)%nat.
Proof. unfold is_digit. intro H. apply andb_true_iff in H. destruct H as [H _]. now apply Nat.leb_le in H. Qed.
Lemma writes_digits d n : writes d n -> all_digits d = true /\ d <> EmptyString /\ digits_value 0 d = n.
Proof.
  induction 1 as [c C|d n c W (A & N & V) C].
  - cbn [all_digits digits_value]. rewrite C. apply digit_code in C. repeat split; [discriminate|lia].
  - rewrite all_digits_app, A. cbn [all_digits]. rewrite C, digits_app, V. cbn [digits_value]. apply digit_code in C. repeat split; [destruct d; discriminate|lia].
Qed.
Lemma string_last : forall s, s <> EmptyString -> exists t c, s = (t ++ String c EmptyString)%string.
Proof.
  induction s as [|c s IH]; intro H; [now elim H|]. destruct s as [|c' s].
  - exists EmptyString, c. reflexivity.
  - destruct IH as (t & c'' & E); [discriminate|]. exists (String c t), c''. cbn [append]. now rewrite <- E.
Qed.
Lemma length_app_s : forall a b, String.length (a ++ b)%string = (String.length a + String.length b)%nat.
Proof. induction a as [|c a IH]; intro b; cbn; [reflexivity|]. now rewrite IH. Qed.
Lemma digits_write : forall d, all_digits d = true -> d <> EmptyString -> writes d (digits_value 0 d).
Proof.
  intro d. remember (String.length d) as k eqn:K. revert d K. induction k as [k IH] using lt_wf_ind. intros d K A N.
  destruct (string_last d N) as (t & c & ->). rewrite all_digits_app in A. apply andb_true_iff in A. destruct A as [A C]. cbn [all_digits] in C. rewrite andb_true_r in C.
  rewrite digits_app. cbn [digits_value]. pose proof (digit_code c C) as G. replace (Z.of_nat (nat_of_ascii c - 48)) with (Z.of_nat (nat_of_ascii c) - 48) by lia.
  destruct t as [|c0 t].
  - cbn [append digits_value]. replace (10 * 0 + (Z.of_nat (nat_of_ascii c) - 48)) with (Z.of_nat (nat_of_ascii c) - 48) by lia. now constructor.
  - constructor; [|assumption]. apply (IH (String.length (String c0 t))); [|reflexivity|assumption|discriminate]. rewrite K, length_app_s. cbn. lia.
Qed.
Lemma unit_iff c u : unit_seconds c = Some u <-> unit_of c u.
Proof.
  unfold unit_seconds, unit_of. destruct (Ascii.eqb_spec c "s") as [->|A]; [split; [intro H; injection H as <-; auto|intros [[_ ->]|[[X _]|[X _]]]; [reflexivity|discriminate|discriminate]]|].
  destruct (Ascii.eqb_spec c "m") as [->|B]; [split; [intro H; injection H as <-; auto|intros [[X _]|[[_ ->]|[X _]]]; [discriminate|reflexivity|discriminate]]|].
  destruct (Ascii.eqb_spec c "h") as [->|C]; [split; [intro H; injection H as <-; auto 8|intros [[X _]|[[X _]|[_ ->]]]; [discriminate|discriminate|reflexivity]]|].
  split; [discriminate|intros [[X _]|[[X _]|[X _]]]; congruence].
Qed.
Lemma unit_not_digit c u : unit_of c u -> is_digit c = false.
Proof. intros [[-> _]|[[-> _]|[-> _]]]; reflexivity. Qed.
Theorem duration_iff : forall s v, get_duration s = Ok v <-> exists d n c u rest, s = (d ++ String c rest)%string /\ writes d n /\ unit_of c u /\ v = n * u.
Proof.
  intros s v. split.
  - unfold get_duration. destruct (span_digits s) as [d t] eqn:E. apply span_split in E. destruct E as (-> & A & B).
    destruct d as [|d0 d]; [discriminate|]. destruct t as [|c t]; [discriminate|]. destruct (unit_seconds c) as [u|] eqn:U; [|discriminate].
    intro H. injection H as <-. apply unit_iff in U. exists (String d0 d), (digits_value 0 (String d0 d)), c, u, t. repeat split; auto. apply digits_write; [assumption|discriminate].
  - intros (d & n & c & u & rest & -> & W & U & ->). apply writes_digits in W. destruct W as (A & N & V). unfold get_duration.
    rewrite (span_all d (String c rest) A (unit_not_digit c u U)). destruct d as [|d0 d]; [now elim N|]. apply unit_iff in U. rewrite U. now rewrite V.
Qed.
Theorem duration_error : forall s e, get_duration s = Err e <-> e = EAttributeError /\ ~ exists d n c u rest, s = (d ++ String c rest)%string /\ writes d n /\ unit_of c u.
Proof.
  intros s e. split.
  - intro H. split.
    + unfold get_duration in H. destruct (span_digits s) as [[|d0 d] [|c t]]; try (injection H as <-; reflexivity). destruct (unit_seconds c); [discriminate|]. injection H as <-. reflexivity.
    + intros (d & n & c & u & rest & K). assert (X : get_duration s = Ok (n * u)) by (apply duration_iff; exists d, n, c, u, rest; tauto). congruence.
  - intros [-> N]. destruct (get_duration s) as [v|e] eqn:E.
    + apply duration_iff in E. destruct E as (d & n & c & u & rest & A & B & C & _). elim N. exists d, n, c, u, rest. auto.
    + f_equal. unfold get_duration in E. destruct (span_digits s) as [[|d0 d] [|c t]]; try (injection E as <-; reflexivity). destruct (unit_seconds c); [discriminate|]. injection E as <-. reflexivity.
Qed.
Lemma show_digits n : 0 <= n -> all_digits (show_int n) = true /\ show_int n <> EmptyString /\ digits_value 0 (show_int n) = n.
Proof.
  intro H. destruct (show_nonneg n H) as [D V]. destruct (show_int n) as [|c r]; [discriminate|]. split; [exact D|]. split; [discriminate|exact V].
Qed.
(** A duration given as [TimeDelta] is read back. *)
Theorem duration_back : forall n, 0 <= n -> get_duration (duration_text n) = Ok n.
Proof.
  intros n H. destruct (show_digits n H) as (A & N & V). apply duration_iff. exists (show_int n), n, "s"%char, 1, EmptyString.
  repeat split; [|left; auto|lia]. rewrite <- V at 2. now apply digits_write.
Qed.
Theorem duration_given : forall n c u, 0 <= n -> unit_of c u -> get_duration (show_int n ++ String c EmptyString)%string = Ok (n * u).
Proof.
  intros n c u H U. destruct (show_digits n H) as (A & N & V). apply duration_iff. exists (show_int n), n, c, u, EmptyString.
  repeat split; [|assumption]. rewrite <- V at 2. now apply digits_write.
Qed.
Theorem duration_negative : forall n, n < 0 -> get_duration (duration_text n) = Err EAttributeError.
Proof. intros n H. unfold duration_text. rewrite (show_neg n H). reflexivity. Qed.
Lemma app_assoc_s : forall a b c, ((a ++ b) ++ c)%string = (a ++ (b ++ c))%string.
Proof. induction a as [|x a IH]; intros b c; cbn [append]; [reflexivity|]. now rewrite IH. Qed.
(** What follows the first letter is not read. *)
Theorem duration_rest : forall s v more, get_duration s = Ok v -> get_duration (s ++ more)%string = Ok v.
Proof.
  intros s v more H. apply duration_iff in H. destruct H as (d & n & c & u & rest & -> & W & U & ->). apply duration_iff.
  exists d, n, c, u, (rest ++ more)%string. repeat split; try assumption. rewrite app_assoc_s. reflexivity.
Qed.
Theorem duration_sum_refuted : forall a b, 0 <= a -> 0 < b -> exists v, get_duration (show_int a ++ "h" ++ show_int b ++ "m")%string = Ok v /\ v = a * 3600 /\ v <> a * 3600 + b * 60.
Proof.
  intros a b A B. exists (a * 3600). split; [|split; lia].
  replace (show_int a ++ "h" ++ show_int b ++ "m")%string with ((show_int a ++ "h") ++ (show_int b ++ "m"))%string by apply app_assoc_s.
  apply duration_rest. apply duration_given; [assumption|]. unfold unit_of. auto.
Qed.
Theorem duration_decimal_refuted : forall a b c, 0 <= a -> get_duration (show_int a ++ "." ++ show_int b ++ String c EmptyString)%string = Err EAttributeError.
Proof.
  intros a b c A. destruct (show_digits a A) as (D & N & V). unfold get_duration. rewrite span_all; [|exact D|reflexivity].
  destruct (show_int a); [now elim N|]. reflexivity.
Qed.
