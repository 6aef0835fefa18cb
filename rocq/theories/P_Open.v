(** Lemmas on the rows of a sheet, on overlaps and on the order of events (M_Open). *)
From Coq Require Import ZArith Bool String List Lia Permutation.
From Verif Require Import Base M_Night M_Open.
Import ListNotations.
Open Scope Z_scope.
Open Scope list_scope.

(** * Specification *)
(** What is seen in the column [i]: the value of a cell that is not hidden, all those after
    it being hidden up to [i]. *)
Definition shown (row : list cell) (i : nat) (v : option string) : Prop :=
  exists j, (j <= i)%nat /\ nth_error row j = Some (Plain v) /\ forall k, (j < k <= i)%nat -> nth_error row k = Some Merged.
(** An instant is in both events. *)
Definition proper (e : event) : Prop := e_begin e < e_end e.
Definition during (e : event) (t : Z) : Prop := e_begin e <= t < e_end e.
Definition share (a b : event) : Prop := exists t, during a t /\ during b t.
(** A property of all that follow one another. *)
Definition adjacent {A} (R : A -> A -> Prop) (l : list A) : Prop := forall l1 a b l2, l = l1 ++ a :: b :: l2 -> R a b.
Definition before (a b : event) : Prop := e_end a <= e_begin b.
(** All in the order of time, without overlap. *)
Definition chronological (l : list event) : Prop := ForallOrdPairs before l.
Definition disjoint (l : list event) : Prop := ForallOrdPairs (fun a b => ~ share a b) l.
(** What a sort by comparisons ensures when the comparison is not an order. *)
Definition sorted_as (l s : list event) : Prop :=
  Permutation l s /\ adjacent (fun a b => event_lt a b = true \/ event_lt b a = false) s.

(** * Rows *)
Fixpoint starts (pm : bool) (k : Z) (row : list cell) : list Z :=
  match row with
  | [] => []
  | c :: r => (if is_merged c && negb pm then [k - 1] else []) ++ starts (is_merged c) (k + 1) r
  end.
Lemma first_cells_eq : forall row k p, (match p with Some p => p < k | None => True end) ->
  first_cells p (merged_indices k row) = starts (match p with Some p => p =? k - 1 | None => false end) k row.
Proof.
  induction row as [|c r IH]; intros k p H; cbn [merged_indices starts]; [reflexivity|]. destruct (is_merged c).
  - cbn [first_cells andb]. destruct p as [p|].
    + destruct (Z.eqb_spec (k - p) 1), (Z.eqb_spec p (k - 1)); try lia; cbn [negb app]; rewrite IH by lia; replace (k + 1 - 1) with k by lia; rewrite Z.eqb_refl; reflexivity.
    + cbn [negb app]. rewrite IH by lia. replace (k + 1 - 1) with k by lia. rewrite Z.eqb_refl. reflexivity.
  - cbn [andb app]. rewrite IH by (destruct p; lia). f_equal. destruct p as [p|]; [|reflexivity]. destruct (Z.eqb_spec p (k + 1 - 1)); [lia|reflexivity].
Qed.
Definition end_merged (pm : bool) (row : list cell) : bool := match rev row with [] => pm | c :: _ => is_merged c end.
Lemma end_merged_cons pm c r : end_merged pm (c :: r) = end_merged (is_merged c) r.
Proof. unfold end_merged. cbn [rev]. destruct (rev r); reflexivity. Qed.
Lemma starts_app : forall a b pm k, starts pm k (a ++ b) = starts pm k a ++ starts (end_merged pm a) (k + Z.of_nat (length a)) b.
Proof.
  induction a as [|c a IH]; intros b pm k; cbn [starts app]. { cbn. now rewrite Z.add_0_r. }
  rewrite IH, app_assoc, end_merged_cons. f_equal. f_equal. cbn [length]. lia.
Qed.
Lemma starts_bounds : forall row pm k f, In f (starts pm k row) -> k - 1 <= f < k - 1 + Z.of_nat (length row).
Proof.
  induction row as [|c r IH]; intros pm k f I; cbn [starts] in I; [destruct I|]. apply in_app_or in I. cbn [length]. destruct I as [I|I].
  - destruct (is_merged c && negb pm); [destruct I as [<-|[]]; lia|destruct I].
  - apply IH in I. lia.
Qed.
Lemma starts_merged : forall n k r, starts true k (repeat Merged n ++ r) = starts true (k + Z.of_nat n) r.
Proof. induction n as [|n IH]; intros k r; cbn [repeat app starts is_merged negb andb]; [now rewrite Z.add_0_r|]. rewrite IH. f_equal. lia. Qed.
Lemma filter_all {A} p : forall l : list A, (forall x, In x l -> p x = true) -> filter p l = l.
Proof. induction l as [|x l IH]; intro H; cbn; [reflexivity|]. rewrite (H x) by now left. f_equal. apply IH. intros. apply H. now right. Qed.
Lemma filter_none {A} p : forall l : list A, (forall x, In x l -> p x = false) -> filter p l = [].
Proof. induction l as [|x l IH]; intro H; cbn; [reflexivity|]. rewrite (H x) by now left. apply IH. intros. apply H. now right. Qed.
(** The first cell found for a run of [m + 1] hidden cells, the last of which is considered. *)
Lemma found pre m post : end_merged false pre = false ->
  exists t, rev (filter (fun f => f <? Z.of_nat (length pre + m)) (starts false 0 (pre ++ repeat Merged (S m) ++ post))) = Z.of_nat (length pre) - 1 :: t.
Proof.
  intro E. rewrite starts_app, E. cbn [repeat app starts is_merged negb andb]. rewrite starts_merged, filter_app. cbn [filter].
  destruct (Z.ltb_spec (0 + Z.of_nat (length pre) - 1) (Z.of_nat (length pre + m))); [|lia]. rewrite (filter_none _ (starts true _ post)).
  - rewrite rev_app_distr. cbn [rev app]. eexists. f_equal.
  - intros x I. apply starts_bounds in I. apply Z.ltb_ge. lia.
Qed.
Lemma repeat_merged : forall n row, (forall k, (k < n)%nat -> nth_error row k = Some Merged) -> exists post, row = repeat Merged n ++ post.
Proof.
  induction n as [|n IH]; intros row H; [exists row; reflexivity|]. destruct row as [|c r]; [specialize (H 0%nat ltac:(lia)); discriminate|].
  assert (A := H 0%nat ltac:(lia)). cbn in A. injection A as ->. destruct (IH r) as [post ->]; [intros k K; apply (H (S k)); lia|]. exists post. reflexivity.
Qed.
Definition row_of (row : list cell) (firsts : list Z) (i : nat) := match nth_error row i with Some c => row_value row firsts i c | None => Err EIndexError end.
Lemma shown_value row i v : shown row i v -> row_of row (first_cells None (merged_indices 0 row)) i = Ok v.
Proof.
  intros (j & J & P & M). unfold row_of. rewrite (first_cells_eq row 0 None I). destruct (Nat.eq_dec i j) as [->|N]; [rewrite P; reflexivity|].
  rewrite (M i) by lia. unfold row_value. cbn [is_merged]. destruct (nth_error_split row j P) as (a & r & R & L).
  destruct (repeat_merged (i - j) r) as [post E].
  { intros k K. specialize (M (S (j + k)) ltac:(lia)). rewrite R, nth_error_app2 in M by lia. replace (S (j + k) - length a)%nat with (S k) in M by lia. exact M. }
  assert (W : row = (a ++ [Plain v]) ++ repeat Merged (S (i - j - 1)) ++ post). { rewrite R, E, <- app_assoc. cbn [app]. replace (S (i - j - 1)) with (i - j)%nat by lia. reflexivity. }
  destruct (found (a ++ [Plain v]) (i - j - 1) post) as [t F]. { unfold end_merged. rewrite rev_app_distr. reflexivity. }
  rewrite <- W, app_length in F. cbn [length] in F. replace (length a + 1 + (i - j - 1))%nat with i in F by lia. rewrite F. unfold py_nth.
  destruct (Z.ltb_spec (Z.of_nat (length a + 1) - 1) 0); [lia|]. replace (Z.to_nat (Z.of_nat (length a + 1) - 1)) with j by lia. rewrite P. reflexivity.
Qed.
(** The cells hidden from the first column on take the value of the last column. *)
Lemma hidden_value row i c : (forall k, (k <= i)%nat -> nth_error row k = Some Merged) -> hd_error (rev row) = Some c ->
  row_of row (first_cells None (merged_indices 0 row)) i = Ok (cell_value c).
Proof.
  intros M H. unfold row_of. rewrite (first_cells_eq row 0 None I). rewrite (M i) by lia. unfold row_value. cbn [is_merged].
  destruct (repeat_merged (S i) row) as [post E]; [intros k K; apply M; lia|]. destruct (found [] i post eq_refl) as [t F]. cbn [app length] in F. rewrite <- E in F. cbn [plus Nat.add] in F. rewrite F.
  unfold py_nth. cbn [Z.of_nat]. destruct (Z.ltb_spec (0 - 1) 0); [|lia]. destruct (exists_last (l := row)) as (r & x & R); [rewrite E; discriminate|].
  rewrite R, rev_app_distr in H. cbn in H. injection H as ->. rewrite R, app_length. cbn [length]. replace (Z.to_nat (Z.of_nat (length r + 1) + (0 - 1))) with (length r) by lia.
  rewrite nth_error_app2 by lia. rewrite Nat.sub_diag. reflexivity.
Qed.
Lemma cell_cases : forall row i, (i < length row)%nat -> (exists v, shown row i v) \/ forall k, (k <= i)%nat -> nth_error row k = Some Merged.
Proof.
  intros row i. induction i as [|i IH]; intro L.
  - destruct (nth_error row 0) as [[v|]|] eqn:E; [left|right|apply nth_error_None in E; lia].
    + exists v, 0%nat. split; [lia|]. split; [exact E|lia].
    + intros k K. replace k with 0%nat by lia. exact E.
  - destruct (nth_error row (S i)) as [[v|]|] eqn:E; [left| |apply nth_error_None in E; lia].
    + exists v, (S i). split; [lia|]. split; [exact E|lia].
    + destruct (IH ltac:(lia)) as [(v & j & J & P & M)|M]; [left|right].
      * exists v, j. split; [lia|]. split; [exact P|]. intros k K. destruct (Nat.eq_dec k (S i)) as [->|]; [exact E|apply M; lia].
      * intros k K. destruct (Nat.eq_dec k (S i)) as [->|]; [exact E|apply M; lia].
Qed.
Lemma row_values_ok row firsts : (forall i, (i < length row)%nat -> exists v, row_of row firsts i = Ok v) ->
  forall l i, (forall k, nth_error l k = nth_error row (i + k)) -> exists vs, row_values row firsts i l = Ok vs /\ length vs = length l /\ forall k, (k < length l)%nat -> exists v, nth_error vs k = Some v /\ row_of row firsts (i + k) = Ok v.
Proof.
  intro H. induction l as [|c l IH]; intros i E; cbn [row_values].
  - exists []. split; [reflexivity|]. split; [reflexivity|]. cbn. lia.
  - assert (C := E 0%nat). rewrite Nat.add_0_r in C. cbn in C. assert (L : (i < length row)%nat) by (apply nth_error_Some; congruence). destruct (H i L) as [v V].
    assert (V' := V). unfold row_of in V'. rewrite <- C in V'. rewrite V'. cbn [bind]. destruct (IH (S i)) as (vs & R & N & K). { intro k. specialize (E (S k)). cbn in E. rewrite E. f_equal. lia. }
    rewrite R. cbn [bind]. exists (v :: vs). split; [reflexivity|]. split; [cbn; lia|]. intros [|k] B.
    + exists v. split; [reflexivity|]. now rewrite Nat.add_0_r.
    + cbn [length] in B. destruct (K k ltac:(lia)) as (w & W & X). exists w. split; [exact W|]. replace (i + S k)%nat with (S i + k)%nat by lia. exact X.
Qed.
Lemma row_total row : exists vs, row_values row (first_cells None (merged_indices 0 row)) 0 row = Ok vs /\ length vs = length row /\
  forall k, (k < length row)%nat -> exists v, nth_error vs k = Some v /\ row_of row (first_cells None (merged_indices 0 row)) k = Ok v.
Proof.
  apply row_values_ok; [|intro k; reflexivity]. intros i L. destruct (cell_cases row i L) as [[v S]|M].
  - exists v. now apply shown_value.
  - destruct (rev row) as [|c r] eqn:E; [apply (f_equal (@length cell)) in E; rewrite rev_length in E; cbn in E; lia|]. exists (cell_value c). apply hidden_value; [exact M|]. now rewrite E.
Qed.
Theorem row_shown : forall row, length row = 24%nat -> exists vs, row_to_list row = Ok vs /\ length vs = 24%nat /\ forall i v, (i < 24)%nat -> shown row i v -> nth_error vs i = Some v.
Proof.
  intros row L. destruct (row_total row) as (vs & R & N & K). exists vs. unfold row_to_list. rewrite R. cbn [bind]. rewrite N, L, Nat.eqb_refl. split; [reflexivity|]. split; [congruence|].
  intros i v I S. destruct (K i ltac:(lia)) as (w & W & X). rewrite (shown_value _ _ _ S) in X. injection X as <-. exact W.
Qed.
Theorem row_hidden_refuted : forall row c, length row = 24%nat -> hd_error (rev row) = Some c -> exists vs, row_to_list row = Ok vs /\
  forall i, (forall k, (k <= i)%nat -> nth_error row k = Some Merged) -> nth_error vs i = Some (cell_value c).
Proof.
  intros row c L C. destruct (row_total row) as (vs & R & N & K). exists vs. unfold row_to_list. rewrite R. cbn [bind]. rewrite N, L, Nat.eqb_refl. split; [reflexivity|].
  intros i M. assert (I : (i < length row)%nat) by (apply nth_error_Some; rewrite (M i) by lia; discriminate). destruct (K i I) as (w & W & X). rewrite (hidden_value _ _ _ M C) in X. injection X as <-. exact W.
Qed.
Theorem row_length : forall row, row_to_list row = Err EValueError <-> length row <> 24%nat.
Proof.
  intro row. destruct (row_total row) as (vs & R & N & _). unfold row_to_list. rewrite R. cbn [bind]. rewrite N. destruct (Nat.eqb_spec (length row) 24); split; intro H; congruence.
Qed.

(** * Overlaps *)
Lemma share_iff a b : proper a -> proper b -> (share a b <-> e_begin a < e_end b /\ e_begin b < e_end a).
Proof.
  unfold proper, share, during. intros A B. split.
  - intros (t & H & K). lia.
  - intro H. exists (Z.max (e_begin a) (e_begin b)). lia.
Qed.
Theorem contains_share : forall a b, proper a -> proper b -> (event_contains a b = true <-> share a b).
Proof. intros a b A B. rewrite share_iff by assumption. unfold event_contains, proper in *. cbv zeta. rewrite Z.ltb_lt. lia. Qed.
Theorem intersection_share : forall a b, proper a -> proper b -> (time_intersection (e_begin a, e_end a) (e_begin b, e_end b) = true <-> share a b).
Proof. intros a b A B. rewrite share_iff by assumption. unfold time_intersection, proper in *. cbv zeta. cbn [fst snd]. rewrite Z.ltb_lt. lia. Qed.
Theorem contains_sym : forall a b, event_contains a b = event_contains b a.
Proof. intros. unfold event_contains. cbv zeta. rewrite (Z.max_comm (Z.abs _)), (Z.add_comm (e_end a - _)). reflexivity. Qed.
(** An event without duration overlaps those in the inside of which it is. *)
Theorem contains_instant : forall a b, e_begin a <= e_end a -> e_begin b = e_end b -> (event_contains a b = true <-> e_begin a < e_begin b < e_end a).
Proof. intros a b A B. unfold event_contains. cbv zeta. rewrite Z.ltb_lt. lia. Qed.
Lemma contains_touch a b : e_begin a <= e_end a -> e_begin b <= e_end b -> e_end a = e_begin b -> event_contains b a = false.
Proof. intros. unfold event_contains. cbv zeta. apply Z.ltb_ge. lia. Qed.
Lemma contains_before a b : proper a -> proper b -> before a b -> event_contains b a = false.
Proof. unfold before, proper, event_contains. cbv zeta. intros. apply Z.ltb_ge. lia. Qed.
Theorem lt_refuted : forall a b, share a b -> event_lt a b = true /\ event_lt b a = true.
Proof. intros a b (t & A & B). unfold during, event_lt in *. rewrite !Z.ltb_lt. lia. Qed.

(** * Order *)
Lemma adjacent_cons {A} (R : A -> A -> Prop) a b l : adjacent R (a :: b :: l) <-> R a b /\ adjacent R (b :: l).
Proof.
  split.
  - intro H. split; [apply (H [] a b l); reflexivity|]. intros l1 x y l2 E. apply (H (a :: l1) x y l2). now rewrite E.
  - intros [H K] l1 x y l2 E. destruct l1 as [|z l1]; cbn in E; [injection E as -> -> _; exact H|]. injection E as -> E. now apply (K l1 x y l2).
Qed.
Lemma adjacent_nil {A} (R : A -> A -> Prop) : adjacent R [].
Proof. intros [|x l1] a b l2 E; discriminate. Qed.
Lemma adjacent_one {A} (R : A -> A -> Prop) x : adjacent R [x].
Proof. intros [|y [|z l1]] a b l2 E; discriminate. Qed.
Lemma adjacent_tail {A} (R : A -> A -> Prop) x l : adjacent R (x :: l) -> adjacent R l.
Proof. destruct l; [intros _; apply adjacent_nil|]. intro H. now apply adjacent_cons in H. Qed.
Lemma adjacent_rev {A} (R : A -> A -> Prop) l : adjacent (fun a b => R b a) l -> adjacent R (rev l).
Proof.
  intros H l1 a b l2 E. apply (H (rev l2) b a (rev l1)). rewrite <- (rev_involutive l), E, rev_app_distr. cbn. rewrite <- !app_assoc. reflexivity.
Qed.
Lemma adjacent_insert {A} (R : A -> A -> Prop) p l2 : (forall x l, l2 = x :: l -> R p x) -> forall l1, adjacent R (l1 ++ l2) -> (forall x l, l1 = l ++ [x] -> R x p) -> adjacent R (l1 ++ p :: l2).
Proof.
  intros H. induction l1 as [|x l1 IH]; intros K L.
  - cbn [app] in *. destruct l2 as [|y l2]; [apply adjacent_one|]. apply adjacent_cons. split; [eapply H; reflexivity|exact K].
  - destruct l1 as [|y l1].
    + cbn [app] in *. apply adjacent_cons. split; [apply (L x []); reflexivity|]. apply (IH (adjacent_tail _ _ _ K)). intros z l E. destruct l; discriminate.
    + cbn [app] in *. apply adjacent_cons in K. apply adjacent_cons. split; [apply K|]. apply IH; [apply K|]. intros z l E. apply (L z (x :: l)). now rewrite E.
Qed.
Lemma adjacent_imp {A} (R S : A -> A -> Prop) l : (forall a b, R a b -> S a b) -> adjacent R l -> adjacent S l.
Proof. intros H K l1 a b l2 E. apply H. eapply K. exact E. Qed.
Definition fine (a b : event) : Prop := event_lt a b = true \/ event_lt b a = false.
Lemma bsearch_spec pivot l : forall fuel lo hi, (hi - lo < fuel)%nat -> (lo <= hi <= length l)%nat ->
  (forall k x, lo = S k -> nth_error l k = Some x -> event_lt pivot x = false) -> (forall x, nth_error l hi = Some x -> event_lt pivot x = true) ->
  let i := bsearch fuel pivot l lo hi in (lo <= i <= hi)%nat /\ (forall k x, i = S k -> nth_error l k = Some x -> event_lt pivot x = false) /\ (forall x, nth_error l i = Some x -> event_lt pivot x = true).
Proof.
  induction fuel as [|fuel IH]; intros lo hi F B P Q; [lia|]. cbv zeta. cbn [bsearch]. destruct (Nat.ltb_spec lo hi) as [L|L].
  - set (p := (lo + (hi - lo) / 2)%nat). assert (D : ((hi - lo) / 2 < hi - lo)%nat) by (apply Nat.div_lt; lia). assert (Hp : (lo <= p < hi)%nat) by (unfold p; lia).
    destruct (nth_error l p) as [x|] eqn:E; [|apply nth_error_None in E; lia]. destruct (event_lt pivot x) eqn:T.
    + destruct (IH lo p) as (A & C & G); [lia|lia|exact P|intros y Y; congruence|]. split; [lia|]. split; [exact C|exact G].
    + destruct (IH (S p) hi) as (A & C & G); [lia|lia|intros k y K Y; injection K as <-; congruence|exact Q|]. split; [lia|]. split; [exact C|exact G].
  - replace lo with hi in * by lia. split; [lia|]. split; [exact P|exact Q].
Qed.
Lemma binsert_spec l p : Permutation (p :: l) (binsert l p) /\ (adjacent fine l -> adjacent fine (binsert l p)).
Proof.
  unfold binsert. cbv zeta. destruct (bsearch_spec p l (S (length l)) 0 (length l)) as (A & B & C); [lia|lia|discriminate|intros x X; assert (nth_error l (length l) <> None) by congruence; apply nth_error_Some in H; lia|].
  set (i := bsearch _ _ _ _ _) in *. clearbody i. split.
  - transitivity (p :: firstn i l ++ skipn i l); [now rewrite firstn_skipn|]. apply Permutation_middle.
  - intro H. apply adjacent_insert.
    + intros x r E. left. apply C. assert (S : nth_error (skipn i l) 0 = Some x) by (rewrite E; reflexivity). rewrite <- (firstn_skipn i l), nth_error_app2; rewrite firstn_length_le by lia; [rewrite Nat.sub_diag; exact S|lia].
    + now rewrite firstn_skipn.
    + intros x r E. right. assert (S : length (r ++ [x]) = i) by (rewrite <- E; apply firstn_length_le; lia). rewrite app_length in S. cbn [length] in S. apply (B (length r)); [lia|].
      rewrite <- (firstn_skipn i l), E, <- app_assoc, nth_error_app2 by lia. rewrite Nat.sub_diag. reflexivity.
Qed.
Lemma inserts_spec : forall r l, Permutation (r ++ l) (fold_left binsert r l) /\ (adjacent fine l -> adjacent fine (fold_left binsert r l)).
Proof.
  induction r as [|x r IH]; intro l; cbn [fold_left app]; [split; [reflexivity|auto]|]. destruct (IH (binsert l x)) as [A B]. destruct (binsert_spec l x) as [C D]. split; [|auto].
  etransitivity; [|exact A]. etransitivity; [apply Permutation_middle|]. now apply Permutation_app_head.
Qed.
Lemma run_spec down : forall l acc prev rv rest, run down acc prev l = (rv, rest) ->
  rev rv ++ rest = rev acc ++ prev :: l /\
  (adjacent (fun a b => if down then fine a b else fine b a) (prev :: acc) -> adjacent (fun a b => if down then fine a b else fine b a) rv).
Proof.
  induction l as [|x l IH]; intros acc prev rv rest E; cbn [run] in E.
  - injection E as <- <-. split; [cbn; now rewrite app_nil_r|auto].
  - destruct (Bool.eqb (event_lt x prev) down) eqn:T.
    + destruct (IH _ _ _ _ E) as [A B]. split; [rewrite A; cbn; now rewrite <- app_assoc|]. intro H. apply B. apply adjacent_cons. split; [|exact H].
      apply Bool.eqb_prop in T. destruct down; [left|right]; exact T.
    + injection E as <- <-. split; [cbn; now rewrite <- app_assoc|auto].
Qed.
Theorem py_sort_sorted : forall l, sorted_as l (py_sort l).
Proof.
  intro l. unfold py_sort. destruct l as [|x [|y r]].
  - split; [constructor|apply adjacent_nil].
  - split; [reflexivity|apply adjacent_one].
  - cbv zeta. cbn [List.tl]. destruct (run (event_lt y x) [] x (y :: r)) as [rv rest] eqn:E. destruct (run_spec _ _ _ _ _ _ E) as [A B]. specialize (B (adjacent_one _ x)). cbn [rev app] in A.
    set (l0 := if event_lt y x then rv else rev rv). assert (P : Permutation (rev rv) l0) by (unfold l0; destruct (event_lt y x); [symmetry; apply Permutation_rev|reflexivity]).
    assert (F : adjacent fine l0) by (unfold l0; destruct (event_lt y x); [exact B|apply adjacent_rev; exact B]).
    destruct (inserts_spec rest l0) as [C D]. split; [|apply D; exact F]. rewrite <- A. etransitivity; [|exact C]. etransitivity; [apply Permutation_app_comm|]. now apply Permutation_app_head.
Qed.
(** Without an overlap of two neighbours, everything is in order. *)
Lemma chronological_of s : Forall proper s -> adjacent before s -> chronological s.
Proof.
  induction s as [|a s IH]; intros P H; [constructor|]. inversion P as [|? ? Pa Ps]; subst. constructor; [|apply IH; [exact Ps|eapply adjacent_tail; exact H]].
  assert (C := IH Ps (adjacent_tail _ _ _ H)). destruct s as [|b s]; [constructor|]. apply adjacent_cons in H. destruct H as [H _]. inversion C as [|? ? C1 C2]; subst. inversion Ps as [|? ? Pb _]; subst.
  constructor; [exact H|]. eapply Forall_impl; [|exact C1]. unfold before, proper in *. intros. lia.
Qed.
Lemma fine_apart a b : proper a -> proper b -> fine a b -> ~ share a b -> before a b.
Proof. intros A B F N. rewrite share_iff in N by assumption. unfold fine, event_lt, before, proper in *. rewrite Z.ltb_lt, Z.ltb_ge in F. lia. Qed.
Lemma adjacent_forall {A} (P : A -> Prop) (R S : A -> A -> Prop) l : Forall P l -> (forall a b, P a -> P b -> R a b -> S a b) -> adjacent R l -> adjacent S l.
Proof.
  intros F H K l1 a b l2 E. subst l. apply Forall_app in F. destruct F as [_ F]. inversion F as [|? ? Fa F']; subst. inversion F' as [|? ? Fb _]; subst. apply H; auto. eapply K. reflexivity.
Qed.
Theorem sorted_chronological : forall l s, sorted_as l s -> Forall proper l -> adjacent (fun a b => ~ share a b) s -> chronological s.
Proof.
  intros l s [P F] Q N. assert (Qs : Forall proper s) by (eapply Permutation_Forall; eauto). apply chronological_of; [exact Qs|].
  intros l1 a b l2 E. assert (A := F _ _ _ _ E). assert (B := N _ _ _ _ E). subst s. apply Forall_app in Qs. destruct Qs as [_ Qs]. inversion Qs as [|? ? Qa Q']; subst. inversion Q' as [|? ? Qb _]; subst.
  now apply fine_apart.
Qed.
Lemma disjoint_perm l s : Permutation l s -> disjoint l -> disjoint s.
Proof.
  induction 1 as [|x l s P IH|x y l|l s u P1 IH1 P2 IH2]; intro D; auto.
  - inversion D as [|? ? A B]; subst. constructor; [eapply Permutation_Forall; eauto|apply IH; exact B].
  - inversion D as [|? ? A B]; subst. inversion B as [|? ? C E]; subst. inversion A as [|? ? A1 A2]; subst. constructor; [constructor; [|exact C]|constructor; [exact A2|exact E]].
    intros (t & T1 & T2). apply A1. exists t. auto.
Qed.
Lemma disjoint_adjacent s : disjoint s -> adjacent (fun a b => ~ share a b) s.
Proof.
  induction 1 as [|a l A B IH]; [apply adjacent_nil|]. destruct l as [|b l]; [apply adjacent_one|]. apply adjacent_cons. split; [inversion A; subst; assumption|exact IH].
Qed.
Lemma chronological_disjoint s : Forall proper s -> chronological s -> disjoint s.
Proof.
  intros P C. induction C as [|a l A B IH]; [constructor|]. inversion P as [|? ? Pa Pl]; subst. constructor; [|apply IH; exact Pl]. rewrite Forall_forall in *. intros b I (t & T1 & T2).
  specialize (A b I). unfold before, during in *. lia.
Qed.
Theorem disjoint_sorted : forall l s, sorted_as l s -> Forall proper l -> disjoint l -> chronological s.
Proof. intros l s S P D. apply (sorted_chronological l s S P). apply disjoint_adjacent. eapply disjoint_perm; [apply S|exact D]. Qed.
