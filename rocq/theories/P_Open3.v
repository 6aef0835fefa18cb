(** Lemmas on bookings around midnight, hours of a calendar and moves of events (M_Open). *)
From Coq Require Import ZArith Bool Ascii String List Lia Permutation.
From Verif Require Import Base M_Night M_Open P_Night2 P_Open P_Open2.
Import ListNotations.
Open Scope Z_scope.
Open Scope list_scope.

(** * Bookings around midnight *)
Definition touches (a b : event) : Prop := e_end a = e_begin b.
(** The names with a star between them. *)
Fixpoint starred (l : list string) : string :=
  match l with [] => EmptyString | [x] => x | x :: r => (x ++ "*" ++ starred r)%string end.
(** [m] is the booking of the pieces [g]. *)
Definition merged_of (g : list event) (m : event) : Prop :=
  adjacent touches g /\ e_name m = starred (map e_name g) /\ exists f l, hd_error g = Some f /\ hd_error (rev g) = Some l /\ e_begin m = e_begin f /\ e_end m = e_end l /\ e_kp m = e_kp l.
Lemma starred_app : forall l x, l <> [] -> starred (l ++ [x]) = (starred l ++ "*" ++ x)%string.
Proof.
  induction l as [|y l IH]; intros x H; [contradiction|]. destruct l as [|z l]; [reflexivity|]. cbn [app] in *. change (starred (y :: z :: l ++ [x])) with (y ++ "*" ++ starred (z :: l ++ [x]))%string.
  rewrite IH by discriminate. change (starred (y :: z :: l)) with (y ++ "*" ++ starred (z :: l))%string. generalize (starred (z :: l)) as t. intro t.
  assert (A : forall a b c : string, ((a ++ b) ++ c = a ++ b ++ c)%string) by (induction a as [|k a IHa]; intros; cbn; congruence). rewrite !A. reflexivity.
Qed.
Lemma adjacent_snoc {A} (R : A -> A -> Prop) l x y : adjacent R l -> hd_error (rev l) = Some x -> R x y -> adjacent R (l ++ [y]).
Proof.
  intros H L X. induction l as [|a l IH]; [discriminate|]. destruct l as [|b l].
  - cbn in L. injection L as <-. apply adjacent_cons. split; [exact X|apply adjacent_one].
  - apply adjacent_cons in H. destruct H as [H1 H2]. change ((a :: b :: l) ++ [y]) with (a :: b :: (l ++ [y])). apply adjacent_cons. split; [exact H1|]. apply IH; [exact H2|].
    change (rev (a :: b :: l)) with (rev (b :: l) ++ [a]) in L. destruct (rev (b :: l)) as [|z t] eqn:R'; [cbn in R'; destruct (rev l); discriminate|exact L].
Qed.
Lemma merge_from_spec : forall l g m, merged_of g m -> exists h gs, concat (h :: gs) = g ++ l /\ Forall2 merged_of (h :: gs) (merge_from m l) /\ exists u, h = g ++ u.
Proof.
  induction l as [|n l IH]; intros g m M; cbn [merge_from].
  - exists g, []. split; [cbn; now rewrite !app_nil_r|]. split; [constructor; [exact M|constructor]|]. exists []. now rewrite app_nil_r.
  - destruct (_ && _) eqn:E.
    + apply andb_true_iff in E. destruct E as [E _]. apply Z.eqb_eq in E. destruct M as (A & N & f & z & F & L & B & D & K).
      destruct (IH (g ++ [n]) (mkEvent (e_begin m) (e_end n) (e_name m ++ "*" ++ e_name n) (e_kp n))) as (h & gs & C1 & C2 & u & C3).
      { split; [apply (adjacent_snoc _ _ z); auto; unfold touches; lia|]. split; [cbn; rewrite N, map_app; cbn [map]; rewrite starred_app; [reflexivity|destruct g; discriminate]|].
        exists f, n. split; [destruct g; [discriminate|exact F]|]. split; [rewrite rev_app_distr; reflexivity|]. repeat split; assumption. }
      exists h, gs. split; [rewrite C1, <- app_assoc; reflexivity|]. split; [exact C2|]. exists ([n] ++ u). rewrite C3, <- app_assoc. reflexivity.
    + destruct (IH [n] n) as (h & gs & C1 & C2 & _).
      { split; [apply adjacent_one|]. split; [reflexivity|]. exists n, n. repeat split. }
      exists g, (h :: gs). split; [change (concat (g :: h :: gs)) with (g ++ concat (h :: gs)); rewrite C1; reflexivity|]. split; [constructor; assumption|]. exists []. now rewrite app_nil_r.
Qed.
Theorem merge_groups : forall l, exists groups, concat groups = l /\ Forall2 merged_of groups (merge_events l).
Proof.
  intros [|e l]; [exists []; split; [reflexivity|constructor]|]. destruct (merge_from_spec l [e] e) as (h & gs & A & B & _); [|exists (h :: gs); auto].
  split; [apply adjacent_one|]. split; [reflexivity|]. exists e, e. repeat split.
Qed.
Lemma group_total : forall g m, merged_of g m -> length_of m = total g.
Proof.
  intros g m (A & _ & f & l & F & L & B & E & _). unfold length_of. rewrite B, E. clear B E m. revert f l A F L. induction g as [|a g IH]; intros f l A F L; [discriminate|]. cbn in F. injection F as <-. destruct g as [|b g].
  - cbn in L. injection L as <-. cbn. unfold length_of. lia.
  - apply adjacent_cons in A. destruct A as [T A]. assert (L' : hd_error (rev (b :: g)) = Some l).
    { change (rev (a :: b :: g)) with (rev (b :: g) ++ [a]) in L. destruct (rev (b :: g)) as [|z t] eqn:R; [cbn in R; destruct (rev g); discriminate|exact L]. }
    specialize (IH b l A eq_refl L'). cbn [total fold_right] in *. unfold length_of at 1. unfold touches in T. lia.
Qed.
Lemma total_app a b : total (a ++ b) = total a + total b.
Proof. induction a as [|x a IH]; cbn [app total fold_right]; [reflexivity|]. unfold total in *. cbn [fold_right]. lia. Qed.
Theorem merge_total : forall l, total (merge_events l) = total l.
Proof.
  intro l. destruct (merge_groups l) as (gs & <- & F). induction F as [|g m gs ms M F IH]; [reflexivity|]. cbn [concat]. rewrite total_app, <- (group_total g m M). cbn [total fold_right]. unfold total in IH at 1. lia.
Qed.
Lemma group_during : forall g m, merged_of g m -> Forall proper g -> forall t, during m t <-> exists e, In e g /\ during e t.
Proof.
  intros g m (A & _ & f & l & F & L & B & E & _) P t. unfold during. rewrite B, E. clear B E m. revert f l A F L P. induction g as [|a g IH]; intros f l A F L P; [discriminate|]. cbn in F. injection F as <-. destruct g as [|b g].
  - cbn in L. injection L as <-. split; [intro; exists a; split; [now left|assumption]|]. intros (e & [<-|[]] & D). exact D.
  - apply adjacent_cons in A. destruct A as [T A]. assert (L' : hd_error (rev (b :: g)) = Some l).
    { change (rev (a :: b :: g)) with (rev (b :: g) ++ [a]) in L. destruct (rev (b :: g)) as [|z u] eqn:R; [cbn in R; destruct (rev g); discriminate|exact L]. }
    inversion P as [|? ? Pa P']; subst. specialize (IH b l A eq_refl L' P'). unfold touches in T. unfold proper in Pa.
    assert (W : e_begin b < e_end l).
    { clear -P' A L'. revert b A L' P'. induction g as [|c g IHg]; intros b A L' P'; [cbn in L'; injection L' as <-; inversion P'; assumption|].
      apply adjacent_cons in A. destruct A as [T A]. inversion P' as [|? ? Pb Pc]; subst. unfold touches, proper in *. assert (e_begin c < e_end l); [|lia]. apply (IHg c A); [|exact Pc].
      change (rev (b :: c :: g)) with (rev (c :: g) ++ [b]) in L'. destruct (rev (c :: g)) as [|z u] eqn:R; [cbn in R; destruct (rev g); discriminate|exact L']. }
    split.
    + intro D. destruct (Z_lt_le_dec t (e_end a)) as [X|X]; [exists a; split; [now left|lia]|]. destruct (proj1 IH ltac:(lia)) as (e & I & Y). exists e. split; [now right|exact Y].
    + intros (e & [<-|I] & Y); [lia|]. assert (Z := proj2 IH ltac:(eauto)). lia.
Qed.
Theorem merge_during : forall l t, Forall proper l -> ((exists e, In e (merge_events l) /\ during e t) <-> exists e, In e l /\ during e t).
Proof.
  intros l t P. destruct (merge_groups l) as (gs & <- & F). revert P. induction F as [|g m gs ms M F IH]; intro P; [split; intros (e & [] & _)|]. cbn [concat] in *. apply Forall_app in P. destruct P as [P1 P2]. assert (D := group_during g m M P1 t). specialize (IH P2). split.
  - intros (e & [<-|I] & X).
    + destruct (proj1 D X) as (z & Z & Y). exists z. split; [apply in_or_app; auto|exact Y].
    + destruct (proj1 IH ltac:(eauto)) as (z & Z & Y). exists z. split; [apply in_or_app; auto|exact Y].
  - intros (e & I & X). apply in_app_or in I. destruct I as [I|I]; [exists m; split; [now left|apply D; eauto]|]. destruct (proj2 IH ltac:(eauto)) as (z & Z & Y). exists z. split; [now right|exact Y].
Qed.
(** Names without comment. *)
Fixpoint without (c : ascii) (s : string) : Prop := match s with EmptyString => True | String d r => d <> c /\ without c r end.
Definition no_comment (e : event) : Prop := without "(" (e_name e).
Lemma plain_comment s : without "(" s -> comment_of s = EmptyString.
Proof. induction s as [|c s IH]; cbn [without comment_of]; [reflexivity|]. intros [A B]. destruct (Ascii.eqb_spec c "("); [contradiction|auto]. Qed.
Lemma without_app c a b : without c a -> without c b -> without c (a ++ b).
Proof. induction a as [|x a IH]; cbn; [auto|]. intuition. Qed.
Lemma merge_plain : forall l e, no_comment e -> Forall no_comment l -> adjacent (fun a b => ~ touches a b) (merge_from e l) /\ exists m r, merge_from e l = m :: r /\ e_begin m = e_begin e /\ Forall no_comment (m :: r).
Proof.
  induction l as [|n l IH]; intros e E F; cbn [merge_from]; [split; [apply adjacent_one|]; exists e, []; auto|]. inversion F as [|? ? N F']; subst.
  unfold no_comment in E, N. rewrite (plain_comment _ E), (plain_comment _ N), String.eqb_refl, andb_true_r. destruct (Z.eqb_spec (e_begin n) (e_end e)) as [T|T].
  - destruct (IH (mkEvent (e_begin e) (e_end n) (e_name e ++ "*" ++ e_name n) (e_kp n))) as [A (m & r & B & C & D)]; [|exact F'|split; [exact A|exists m, r; auto]].
    unfold no_comment. cbn [e_name]. apply without_app; [exact E|]. apply without_app; [|exact N]. cbn. split; [discriminate|exact I].
  - destruct (IH n N F') as [A (m & r & B & C & D)]. split; [|exists e, (merge_from n l); repeat split; [constructor; [exact E|rewrite B; exact D]]]. rewrite B in *. apply adjacent_cons. split; [unfold touches; congruence|exact A].
Qed.
Theorem merge_apart : forall l, Forall no_comment l -> adjacent (fun a b => ~ touches a b) (merge_events l).
Proof. intros [|e l] F; [apply adjacent_nil|]. inversion F; subst. now apply merge_plain. Qed.
Theorem merge_two : forall a b, touches a b -> comment_of (e_name a) = comment_of (e_name b) ->
  merge_events [a; b] = [mkEvent (e_begin a) (e_end b) (e_name a ++ "*" ++ e_name b) (e_kp b)].
Proof. intros a b T C. cbn [merge_events merge_from]. rewrite <- T, Z.eqb_refl, C, String.eqb_refl. reflexivity. Qed.
Theorem merge_comments : forall l, adjacent (fun a b => comment_of (e_name a) <> comment_of (e_name b)) l -> merge_events l = l.
Proof.
  intros [|e l]; [reflexivity|]. cbn [merge_events]. revert e. induction l as [|n l IH]; intros e A; cbn [merge_from]; [reflexivity|]. apply adjacent_cons in A. destruct A as [A B].
  destruct (String.eqb_spec (comment_of (e_name n)) (comment_of (e_name e))); [congruence|]. rewrite andb_false_r. now rewrite IH.
Qed.
(** Pieces with the same comment are merged by two. *)
Lemma until_app : forall a b t, until_last_paren b = Some t -> until_last_paren (a ++ b) = Some (a ++ t)%string.
Proof. induction a as [|c a IH]; intros b t H; cbn [append until_last_paren]; [exact H|]. now rewrite (IH b t H). Qed.
Lemma comment_app : forall s c x t, comment_of s = c -> c <> EmptyString -> until_last_paren x = Some t -> exists r, comment_of (s ++ x) = (r ++ t)%string /\ (String.length c < String.length r)%nat.
Proof.
  induction s as [|d s IH]; intros c x t H N U; cbn [comment_of append] in *; [congruence|]. destruct (Ascii.eqb d "(").
  - destruct (until_last_paren s) as [v|] eqn:V; [|congruence]. subst v. rewrite (until_app s x t U). exists s. split; [reflexivity|]. clear -V. revert c V. induction s as [|k s IH]; intros c V; cbn in V; [discriminate|].
    destruct (until_last_paren s) as [w|]; [injection V as <-; cbn; specialize (IH w eq_refl); lia|]. destruct (Ascii.eqb k ")"); [injection V as <-; cbn; lia|discriminate].
  - now apply IH.
Qed.
Lemma comment_until : forall s c, comment_of s = c -> c <> EmptyString -> exists t, until_last_paren s = Some t.
Proof.
  induction s as [|d s IH]; intros c H N; cbn [comment_of until_last_paren] in *; [congruence|]. destruct (Ascii.eqb d "(").
  - destruct (until_last_paren s); [eauto|congruence].
  - destruct (IH c H N) as [t ->]. eauto.
Qed.
Lemma comment_two a b c : comment_of a = c -> comment_of b = c -> c <> EmptyString -> comment_of (a ++ "*" ++ b) <> c.
Proof.
  intros A B N E. destruct (comment_until b c B N) as [t T]. destruct (comment_app a c ("*" ++ b) ("*" ++ t)%string A N) as (r & R & L); [now rewrite (until_app "*" b t T)|].
  rewrite E in R. assert (X : forall u v : string, String.length (u ++ v) = (String.length u + String.length v)%nat) by (induction u; intros; cbn; auto). apply (f_equal String.length) in R. rewrite X in R. lia.
Qed.
Lemma pairs_length : forall n l c, (length l <= n)%nat -> c <> EmptyString -> adjacent touches l -> Forall (fun e => comment_of (e_name e) = c) l -> length (merge_events l) = Nat.div2 (S (length l)).
Proof.
  induction n as [|n IH]; intros l c L N A F; [destruct l; [reflexivity|cbn in L; lia]|]. destruct l as [|a [|b l]]; [reflexivity|reflexivity|]. cbn [merge_events merge_from].
  inversion F as [|? ? Fa F']; subst. inversion F' as [|? ? Fb F'']; subst. apply adjacent_cons in A. destruct A as [T A]. rewrite <- T, Z.eqb_refl, Fb, String.eqb_refl. cbn [andb].
  destruct l as [|d l]; [reflexivity|]. inversion F'' as [|? ? Fd _]; subst. cbn [merge_from]. cbn [e_name]. destruct (String.eqb_spec (comment_of (e_name d)) (comment_of (e_name a ++ "*" ++ e_name b))) as [X|X].
  - exfalso. apply (comment_two (e_name a) (e_name b) _ eq_refl Fb N). congruence.
  - rewrite andb_false_r. apply adjacent_cons in A. destruct A as [_ A]. assert (R := IH (d :: l) (comment_of (e_name a)) ltac:(cbn in *; lia) N A F''). cbn [merge_events] in R. cbn [length]. rewrite R. reflexivity.
Qed.
Theorem merge_refuted : forall l c, c <> EmptyString -> adjacent touches l -> Forall (fun e => comment_of (e_name e) = c) l -> length (merge_events l) = Nat.div2 (S (length l)).
Proof. intros l c. apply (pairs_length (length l)). lia. Qed.

(** * Hours *)
(** An event at whole seconds, from [b] to [e]; [day] is the midnight before [b]. *)
Definition whole (t : Z) : Prop := (second | t).
Definition the_day : Z := 86400000000.
Definition midnight (t m : Z) : Prop := (the_day | m) /\ m <= t < m + the_day.
(** The hours of night between two instants of the day and of the next one. *)
Definition night_hours (s : season) (m b e : Z) : Z :=
  overlap b e m (m + morning_end s) + overlap b e (m + evening_start s) (m + the_day + morning_end s) + overlap b e (m + the_day + evening_start s) (m + 2 * the_day).
Lemma hour_of_eq t m : whole t -> midnight t m -> hour_of t = t - m.
Proof.
  intros [k ->] [[j ->] B]. unfold hour_of, the_day, second in *. change day_length with 86400000000. replace ((k * 1000000) mod 86400000000) with (k * 1000000 - j * 86400000000).
  - replace (k * 1000000 - j * 86400000000) with ((k - j * 86400) * 1000000) by lia. rewrite Z.div_mul by lia. lia.
  - apply (Z.mod_unique_pos _ _ j); lia.
Qed.
Lemma midnight_ex t : exists m, midnight t m.
Proof. exists (t / the_day * the_day). split; [exists (t / the_day); reflexivity|]. assert (A := Z.div_mod t the_day ltac:(discriminate)). assert (B := Z.mod_pos_bound t the_day ltac:(reflexivity)). lia. Qed.
Lemma season_bounds s : 0 < morning_end s /\ morning_end s < evening_start s /\ evening_start s < the_day.
Proof. destruct s; unfold morning_end, evening_start, the_day; lia. Qed.
Lemma overlap_shift a b c d m : overlap (a - m) (b - m) c d = overlap a b (c + m) (d + m).
Proof. unfold overlap. lia. Qed.
Lemma overlap_split a x b c d : a <= x <= b -> overlap a b c d = overlap a x c d + overlap x b c d.
Proof. unfold overlap. lia. Qed.
Lemma overlap_out a b c d : b <= c \/ d <= a -> overlap a b c d = 0.
Proof. unfold overlap. lia. Qed.
Lemma overlap_clip a b c d : b <= d -> overlap a b c d = overlap a b c b.
Proof. unfold overlap. lia. Qed.
Lemma overlap_clip' a b c d : c <= a -> overlap a b c d = overlap a b a d.
Proof. unfold overlap. lia. Qed.
(** In one day, and across midnight. *)
Lemma night_same s m b e : m <= b -> b <= e -> e <= m + the_day -> night_hours s m b e = overlap (b - m) (e - m) 0 (morning_end s) + overlap (b - m) (e - m) (evening_start s) the_day.
Proof.
  intros A B C. assert (SB := season_bounds s). unfold night_hours. rewrite !overlap_shift, Z.add_0_l, (Z.add_comm m (morning_end s)), (Z.add_comm m (evening_start s)).
  rewrite (overlap_out b e (m + the_day + evening_start s)) by lia. rewrite (overlap_clip b e _ (m + the_day + morning_end s)), (overlap_clip b e _ (the_day + m)) by lia. lia.
Qed.
Lemma night_next s m b e : m <= b -> b <= m + the_day -> m + the_day <= e -> e <= m + 2 * the_day ->
  night_hours s m b e = overlap (b - m) the_day 0 (morning_end s) + overlap (b - m) the_day (evening_start s) the_day +
    (overlap 0 (e - (m + the_day)) 0 (morning_end s) + overlap 0 (e - (m + the_day)) (evening_start s) the_day).
Proof.
  intros A B C D. assert (SB := season_bounds s). assert (X : night_hours s m b e = night_hours s m b (m + the_day) + night_hours s m (m + the_day) e).
  { unfold night_hours. rewrite !(overlap_split b (m + the_day) e) by lia. lia. }
  rewrite X, night_same by lia. replace (m + the_day - m) with the_day by lia. f_equal. unfold night_hours. rewrite (overlap_out _ _ m) by lia. rewrite (overlap_clip' _ _ (m + evening_start s)) by lia.
  replace (overlap 0 (e - (m + the_day)) 0 (morning_end s)) with (overlap (m + the_day) e (m + the_day) (m + the_day + morning_end s)).
  2:{ replace 0 with (m + the_day - (m + the_day)) at 1 by lia. rewrite overlap_shift. f_equal; lia. }
  replace (overlap 0 (e - (m + the_day)) (evening_start s) the_day) with (overlap (m + the_day) e (m + the_day + evening_start s) (m + 2 * the_day)); [lia|].
  replace 0 with (m + the_day - (m + the_day)) by lia. rewrite overlap_shift. f_equal; lia.
Qed.
Theorem hours_right : forall e m, whole (e_begin e) -> whole (e_end e) -> midnight (e_begin e) m -> proper e -> e_end e - e_begin e <= the_day -> exists d n, event_hours e = (d, n, e_end e - e_begin e) /\
  n = night_hours (season_from_time (e_begin e)) m (e_begin e) (e_end e) /\ d + n = e_end e - e_begin e.
Proof.
  intros e m Wb We M P L. unfold event_hours. rewrite (hour_of_eq _ m Wb M). destruct (midnight_ex (e_end e)) as [m' M']. rewrite (hour_of_eq _ m' We M').
  assert (T : (e_end e - e_begin e) / second * second = e_end e - e_begin e).
  { destruct Wb as [k ->], We as [j ->]. replace (j * second - k * second) with ((j - k) * second) by lia. rewrite Z.div_mul by discriminate. reflexivity. }
  rewrite T. destruct M as [[k Hm] M], M' as [[j Hm'] M']. unfold proper in P. set (s := season_from_time (e_begin e)).
  assert (J : m' = m \/ m' = m + the_day) by (unfold the_day in *; lia). change (24 * hour) with the_day.
  destruct (Z.leb_spec (e_end e - m') (e_begin e - m)) as [C|C].
  - assert (E : m' = m + the_day) by lia. destruct (sort_night_right (e_begin e - m) the_day (e_begin e)) as (d1 & n1 & S1 & N1 & _); [lia|unfold the_day; lia|]. destruct (sort_night_right 0 (e_end e - m') (e_begin e)) as (d2 & n2 & S2 & N2 & _); [lia|unfold the_day in *; lia|].
    assert (A := sort_night_total (e_begin e - m) the_day (e_begin e)). assert (B := sort_night_total 0 (e_end e - m') (e_begin e)). rewrite S1 in A. rewrite S2 in B. cbn [fst snd] in A, B.
    rewrite S1, S2. exists (d1 + d2), (n1 + n2). split; [reflexivity|]. split; [|lia]. rewrite night_next by lia. rewrite N1, N2. change (24 * 3600000000) with the_day. rewrite E. reflexivity.
  - assert (E : m' = m) by lia. rewrite E in *. destruct (sort_night_right (e_begin e - m) (e_end e - m) (e_begin e)) as (d1 & n1 & S1 & N1 & _); [lia|unfold the_day in *; lia|]. assert (A := sort_night_total (e_begin e - m) (e_end e - m) (e_begin e)). rewrite S1 in A. cbn [fst snd] in A.
    rewrite S1. exists d1, n1. split; [reflexivity|]. split; [|lia]. rewrite night_same by lia. exact N1.
Qed.
Theorem hours_refuted : forall e, whole (e_begin e) -> whole (e_end e) -> the_day < e_end e - e_begin e -> exists d n, event_hours e = (d, n, e_end e - e_begin e) /\ 0 < d + n <= the_day /\ (the_day | e_end e - e_begin e - (d + n)).
Proof.
  intros e Wb We L. unfold event_hours. destruct (midnight_ex (e_begin e)) as [m M]. destruct (midnight_ex (e_end e)) as [m' M']. rewrite (hour_of_eq _ m Wb M), (hour_of_eq _ m' We M').
  assert (T : (e_end e - e_begin e) / second * second = e_end e - e_begin e).
  { destruct Wb as [k ->], We as [j ->]. replace (j * second - k * second) with ((j - k) * second) by lia. rewrite Z.div_mul by discriminate. reflexivity. }
  rewrite T. destruct M as [[k Hm] M], M' as [[j Hm'] M']. change (24 * hour) with the_day in *.
  destruct (Z.leb_spec (e_end e - m') (e_begin e - m)) as [C|C].
  - assert (A := sort_night_total (e_begin e - m) the_day (e_begin e)). assert (B := sort_night_total 0 (e_end e - m') (e_begin e)). destruct (sort_night_time (e_begin e - m) the_day (e_begin e)) as [d1 n1], (sort_night_time 0 (e_end e - m') (e_begin e)) as [d2 n2]. cbn [fst snd] in *.
    exists (d1 + d2), (n1 + n2). split; [reflexivity|]. split; [unfold the_day in *; lia|]. exists (j - k - 1). lia.
  - assert (A := sort_night_total (e_begin e - m) (e_end e - m') (e_begin e)). destruct (sort_night_time (e_begin e - m) (e_end e - m') (e_begin e)) as [d1 n1]. cbn [fst snd] in *. exists d1, n1. split; [reflexivity|]. split; [unfold the_day in *; lia|]. exists (j - k). lia.
Qed.
Definition day_part (h : Z * Z * Z) : Z := fst (fst h).
Definition night_part (h : Z * Z * Z) : Z := snd (fst h).
Theorem calendar_sum : forall l, let sum f := fold_right (fun e s => f (event_hours e) + s) 0 l in calendar_hours l = (sum day_part, sum night_part, sum snd).
Proof.
  intro l. cbv zeta. unfold calendar_hours. assert (G : forall l a b c, fold_left (fun acc e => let '(d, n, t) := acc in let '(d', n', t') := event_hours e in (d + d', n + n', t + t')) l (a, b, c) =
    (a + fold_right (fun e s => day_part (event_hours e) + s) 0 l, b + fold_right (fun e s => night_part (event_hours e) + s) 0 l, c + fold_right (fun e s => snd (event_hours e) + s) 0 l)).
  { clear l. induction l as [|e l IH]; intros a b c; cbn [fold_left fold_right]; [now rewrite !Z.add_0_r|]. destruct (event_hours e) as [[d n] t]. rewrite IH. unfold day_part, night_part. cbn [fst snd]. f_equal; [f_equal|]; lia. }
  rewrite G. reflexivity.
Qed.

(** * Moves *)
(** 23 h 56 min 4.0905 s, in microseconds. *)
Definition sidereal : Z := 86164090500.
Definition moved (e : event) (k : Z) : event := mkEvent (e_begin e + k * sidereal) (e_end e + k * sidereal) (e_name e) (e_kp e).
Lemma sidereal_eq : sidereal_day = sidereal. Proof. reflexivity. Qed.
Theorem move_right : forall e, e_begin e <= e_end e -> earlier e = Ok (moved e (-1)) /\ later e = Ok (moved e 1).
Proof.
  intros [b f n k] H. cbn [e_begin e_end] in H. unfold earlier, later, set_begin, set_end, moved. cbn [e_begin e_end e_name e_kp]. rewrite sidereal_eq. unfold sidereal.
  destruct (Z.ltb_spec f (b - 86164090500)); [lia|]. cbn [bind e_begin e_end e_name e_kp]. destruct (Z.ltb_spec (f - 86164090500) (b - 86164090500)); [lia|].
  destruct (Z.ltb_spec (f + 86164090500) b); [lia|]. cbn [bind e_begin e_end e_name e_kp]. destruct (Z.ltb_spec (f + 86164090500) (b + 86164090500)); [lia|]. split; do 2 f_equal; lia.
Qed.
Theorem move_inverse : forall e e', e_begin e <= e_end e -> (earlier e = Ok e' -> later e' = Ok e) /\ (later e = Ok e' -> earlier e' = Ok e).
Proof.
  intros e e' H. destruct (move_right e H) as [A B]. split; intro X.
  - rewrite A in X. injection X as <-. destruct (move_right (moved e (-1))) as [_ ->]; [cbn; lia|]. destruct e. unfold moved. cbn. do 2 f_equal; lia.
  - rewrite B in X. injection X as <-. destruct (move_right (moved e 1)) as [-> _]; [cbn; lia|]. destruct e. unfold moved. cbn. do 2 f_equal; lia.
Qed.
(** What a sequence of actions is: whether the event is selected in the end, and by how many
    days it has moved. *)
Inductive does : bool -> list action -> bool -> Z -> Prop :=
| does_nil : forall s, does s [] s 0
| does_out : forall s l s' k, does s l s' k -> does s (ClickOut :: l) s' k
| does_elsewhere : forall s l s' k, does false l s' k -> does s (ClickElsewhere :: l) s' k
| does_on : forall s l s' k, does true l s' k -> does s (ClickOn :: l) s' k
| does_up : forall l s' k, does true l s' k -> does true (Key "up" :: l) s' (k - 1)
| does_down : forall l s' k, does true l s' k -> does true (Key "down" :: l) s' (k + 1)
| does_key : forall s n l s' k, s = false \/ n <> "up"%string /\ n <> "down"%string -> does s l s' k -> does s (Key n :: l) s' k.
Lemma does_total : forall l s, exists s' k, does s l s' k.
Proof.
  induction l as [|a l IH]; intro s; [do 2 eexists; constructor|]. destruct a as [| | |n].
  - destruct (IH s) as (s' & k & D). do 2 eexists. apply does_out, D.
  - destruct (IH false) as (s' & k & D). do 2 eexists. apply does_elsewhere, D.
  - destruct (IH true) as (s' & k & D). do 2 eexists. apply does_on, D.
  - destruct s.
    + destruct (IH true) as (s' & k & D). destruct (string_dec n "up") as [->|U]; [do 2 eexists; apply does_up, D|]. destruct (string_dec n "down") as [->|V]; [do 2 eexists; apply does_down, D|]. do 2 eexists. apply does_key; [auto|exact D].
    + destruct (IH false) as (s' & k & D). do 2 eexists. apply does_key; [auto|exact D].
Qed.
Lemma moved_moved e a b : moved (moved e a) b = moved e (a + b).
Proof. destruct e. unfold moved. cbn. f_equal; lia. Qed.
Theorem actions_right : forall l d s k, e_begin (d_event d) <= e_end (d_event d) -> does (d_selected d) l s k ->
  fold_left (fun d a => fst (on_action d a)) l d = mkDrawn (moved (d_event d) k) s.
Proof.
  intros l d s k H D. remember (d_selected d) as s0 eqn:E. revert d E H. induction D as [s|s l s' k D IH|s l s' k D IH|s l s' k D IH|l s' k D IH|l s' k D IH|s n l s' k X D IH]; intros d E H; cbn [fold_left on_action fst].
  - destruct d as [[b f n q] s0]. cbn in *. subst. unfold moved. cbn. do 2 f_equal; lia.
  - apply IH; assumption.
  - apply (IH (mkDrawn (d_event d) false)); [reflexivity|exact H].
  - apply (IH (mkDrawn (d_event d) true)); [reflexivity|exact H].
  - rewrite <- E. cbn [negb orb String.eqb Ascii.eqb Bool.eqb fst]. destruct (move_right _ H) as [-> _]. cbn [fst]. rewrite (IH (mkDrawn (moved (d_event d) (-1)) true)); [|reflexivity|cbn; lia]. cbn [d_event]. rewrite moved_moved. do 2 f_equal. lia.
  - rewrite <- E. cbn [negb orb String.eqb Ascii.eqb Bool.eqb fst]. destruct (move_right _ H) as [_ ->]. cbn [fst]. rewrite (IH (mkDrawn (moved (d_event d) 1) true)); [|reflexivity|cbn; lia]. cbn [d_event]. rewrite moved_moved. do 2 f_equal. lia.
  - assert (N : (negb (d_selected d) || negb (String.eqb n "up" || String.eqb n "down"))%string = true).
    { destruct X as [X|[X Y]]; [rewrite <- E, X; reflexivity|]. apply String.eqb_neq in X, Y. rewrite X, Y. apply orb_true_r. }
    rewrite N. cbn [fst]. apply IH; assumption.
Qed.
Theorem key_refuted : forall d n, e_begin (d_event d) <= e_end (d_event d) -> d_selected d = true -> n = "up"%string \/ n = "down"%string -> snd (on_action d (Key n)) = Some ETypeError.
Proof.
  intros d n H S N. cbn [on_action]. rewrite S. destruct (move_right _ H) as [A B]. destruct N as [->| ->]; cbn [negb orb String.eqb Ascii.eqb Bool.eqb]; [rewrite A|rewrite B]; reflexivity.
Qed.
Theorem action_silent : forall d a, snd (on_action d a) <> None -> d_selected d = true /\ (a = Key "up" \/ a = Key "down").
Proof.
  intros d a. destruct a as [| | |n]; cbn [on_action snd]; try congruence. destruct (d_selected d); cbn [negb orb]; [|cbn; congruence]. destruct (String.eqb_spec n "up") as [->|]; [auto|]. destruct (String.eqb_spec n "down") as [->|]; [auto|]. cbn. congruence.
Qed.
