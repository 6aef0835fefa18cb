(** Lemmas on the file of bookings (M_Open). *)
From Coq Require Import ZArith Bool Ascii String List Lia Permutation.
From Verif Require Import Base M_Night M_Open P_Open.
Import ListNotations.
Open Scope Z_scope.
Open Scope list_scope.

(** * Specification *)
(** [b] follows [a] at once, for the same key project. *)
Definition follows (a b : event) : Prop := e_kp a = e_kp b /\ e_end a = e_begin b.
(** The booking [b] is that of the events of [g]: one after the other, for the same key
    project, from the start of the first to the end of the last. *)
Definition closest_second (t s : Z) : Prop := s * 1000000 - 500000 <= t < s * 1000000 + 500000.
Definition books (g : list event) (b : booking) : Prop :=
  adjacent follows g /\ (exists f l, hd_error g = Some f /\ hd_error (rev g) = Some l /\ closest_second (e_begin f) (b_start b) /\ closest_second (e_end l) (b_stop b)) /\
  forall e, In e g -> e_kp e = b_kp b.
(** [g] and then [h], a group of bookings and the next one. *)
Definition parted (g h : list event) : Prop := forall a b, hd_error (rev g) = Some a -> hd_error h = Some b -> ~ follows a b /\ (length g = 1%nat -> event_contains b a = false).

(** * Lemmas *)
Lemma iso_closest t : closest_second t (iso_second t).
Proof.
  unfold closest_second, iso_second, second. assert (A := Z.div_mod (t + 500000) 1000000 ltac:(lia)). assert (B := Z.mod_pos_bound (t + 500000) 1000000 ltac:(lia)). lia.
Qed.
Lemma follows_iff a b : String.eqb (e_kp a) (e_kp b) && (e_end a =? e_begin b) = true <-> follows a b.
Proof. unfold follows. rewrite andb_true_iff, String.eqb_eq, Z.eqb_eq. tauto. Qed.
Lemma follows_dec a b : follows a b \/ ~ follows a b.
Proof. rewrite <- follows_iff. destruct (_ && _); [left|right]; congruence. Qed.
Lemma gather_ok : forall l e g rest, gather e l = Ok (g, rest) ->
  exists mid, e :: l = (e :: mid) ++ rest /\ hd_error (rev (e :: mid)) = Some g /\ adjacent follows (e :: mid) /\ exists b r, rest = b :: r /\ ~ follows g b.
Proof.
  induction l as [|n l IH]; intros e g rest H; cbn [gather] in H; [discriminate|]. destruct (_ && _) eqn:F.
  - destruct (event_contains n e); [discriminate|]. destruct (IH _ _ _ H) as (mid & A & B & C & D). exists (n :: mid). split; [cbn in *; now rewrite A|]. split.
    + cbn [rev] in *. rewrite <- app_assoc. destruct (rev mid ++ [n]) as [|z t] eqn:R; [destruct (rev mid); discriminate|]. cbn in *. destruct (rev mid) as [|q t']; cbn in *; congruence.
    + split; [|exact D]. apply adjacent_cons. split; [now apply follows_iff|exact C].
  - injection H as <- <-. exists []. split; [reflexivity|]. split; [reflexivity|]. split; [apply adjacent_one|]. exists n, l. split; [reflexivity|]. rewrite <- follows_iff. congruence.
Qed.
Lemma gather_err : forall l e x, gather e l = Err x -> Forall proper (e :: l) -> x = EAttributeError /\ adjacent follows (e :: l).
Proof.
  induction l as [|n l IH]; intros e x H P; cbn [gather] in H; [injection H as <-; split; [reflexivity|apply adjacent_one]|]. destruct (_ && _) eqn:F; [|discriminate].
  apply follows_iff in F. inversion P as [|? ? Pe P']; subst. inversion P' as [|? ? Pn _]; subst. rewrite (contains_touch e n) in H; [|unfold proper in *; lia|unfold proper in *; lia|apply F].
  destruct (IH _ _ H P') as [A B]. split; [exact A|]. apply adjacent_cons. auto.
Qed.
Lemma booking_ok start e b : booking_of start e = Ok b -> closest_second start (b_start b) /\ closest_second (e_end e) (b_stop b) /\ b_kp b = e_kp e.
Proof.
  unfold booking_of. destruct (find_kp _) as [kp|]; [|discriminate]. destruct (String.eqb_spec kp (e_kp e)); [|discriminate]. intro H. injection H as <-. cbn. split; [apply iso_closest|]. split; [apply iso_closest|assumption].
Qed.
Lemma last_cons {A} (x : A) l y : hd_error (rev (x :: l)) = Some y -> In y (x :: l).
Proof. intro H. apply in_rev. destruct (rev (x :: l)); [discriminate|]. cbn in H. injection H as ->. now left. Qed.
Lemma same_kp g l : adjacent follows g -> hd_error (rev g) = Some l -> forall e, In e g -> e_kp e = e_kp l.
Proof.
  induction g as [|a g IH]; intros F L e I; [destruct I|]. destruct g as [|b g].
  - cbn in L. injection L as <-. destruct I as [<-|[]]. reflexivity.
  - apply adjacent_cons in F. destruct F as [[K _] F]. assert (L' : hd_error (rev (b :: g)) = Some l).
    { change (rev (a :: b :: g)) with (rev (b :: g) ++ [a]) in L. destruct (rev (b :: g)) as [|z t] eqn:R; [cbn in R; destruct (rev g); discriminate|exact L]. }
    destruct I as [<-|I]; [rewrite K; apply (IH F L' b); now left|now apply (IH F L' e)].
Qed.
(** What a complete file is. *)
Definition complete (s : list event) (lines : list booking) : Prop :=
  exists groups, concat groups = s /\ Forall2 books groups lines /\ adjacent parted groups /\ (forall g, hd_error (rev groups) = Some g -> length g = 1%nat).
Lemma write_lines_ok : forall fuel s lines, (length s <= fuel)%nat -> write_lines fuel s = (lines, None) -> complete s lines.
Proof.
  induction fuel as [|fuel IH]; intros s lines L H.
  - destruct s; [|cbn in L; lia]. cbn in H. injection H as <-. exists []. split; [reflexivity|]. split; [constructor|]. split; [apply adjacent_nil|discriminate].
  - destruct s as [|e r]; cbn [write_lines] in H. { injection H as <-. exists []. split; [reflexivity|]. split; [constructor|]. split; [apply adjacent_nil|discriminate]. }
    destruct (match r with [] => _ | n :: _ => _ end) as [[g rest]|x] eqn:G; [|discriminate]. destruct (booking_of (e_begin e) g) as [b|] eqn:B; [|discriminate].
    destruct (write_lines fuel rest) as [ls y] eqn:W. injection H as <- ->. apply booking_ok in B. destruct B as (B1 & B2 & B3).
    destruct r as [|n r].
    + injection G as <- <-. assert (ls = []) by (destruct fuel; cbn in W; congruence). subst ls. exists [[e]]. split; [reflexivity|]. split.
      { constructor; [|constructor]. split; [apply adjacent_one|]. split; [exists e, e; auto|]. intros z [<-|[]]. auto. }
      split; [apply adjacent_one|]. intros g' G'. injection G' as <-. reflexivity.
    + destruct (event_contains n e) eqn:C; [discriminate|]. destruct (gather_ok _ _ _ _ G) as (mid & E1 & E2 & E3 & q & t & E4 & E5).
      assert (R : (length rest <= fuel)%nat). { apply (f_equal (@length event)) in E1. rewrite app_length in E1. cbn in E1, L. lia. }
      destruct (IH _ _ R W) as (gs & D1 & D2 & D3 & D4). exists ((e :: mid) :: gs). split; [cbn [concat]; rewrite D1, E1; reflexivity|]. split.
      { constructor; [|exact D2]. split; [exact E3|]. split; [exists e, g; auto|]. intros z I. rewrite B3. now apply (same_kp (e :: mid)). }
      subst rest. destruct gs as [|h gs]; [discriminate|]. assert (Hh : hd_error h = Some q).
      { inversion D2 as [|? ? ? ? Bk _]; subst. destruct Bk as (_ & (f & l & F & _) & _). destruct h as [|z h]; [discriminate|]. cbn in D1. injection D1 as -> _. reflexivity. }
      split.
      * apply adjacent_cons. split; [|exact D3]. intros a c A Q. rewrite E2 in A. injection A as <-. rewrite Hh in Q. injection Q as <-. split; [exact E5|]. intro M. destruct mid as [|z mid]; [|discriminate].
        cbn in E2. injection E2 as <-. cbn in E1. injection E1 as -> _. exact C.
      * intros g' G'. apply D4. change (rev ((e :: mid) :: h :: gs)) with (rev (h :: gs) ++ [e :: mid]) in G'. destruct (rev (h :: gs)) as [|z u] eqn:RR; [cbn in RR; destruct (rev gs); discriminate|exact G'].
Qed.
Lemma write_vcr_ok s add lines : write_vcr s add = (lines, None) -> exists ls, complete s ls /\ s <> [] /\ if add then exists l b, ls = l ++ [b] /\ lines = ls ++ [b] else lines = ls.
Proof.
  unfold write_vcr. destruct s as [|e r]; [discriminate|]. destruct (write_lines (length (e :: r)) (e :: r)) as [ls y] eqn:W. destruct y; [discriminate|]. intro H. injection H as <-.
  assert (C := write_lines_ok _ _ _ (le_n _) W). exists ls. split; [exact C|]. split; [discriminate|]. destruct add; [|reflexivity]. destruct (rev ls) as [|b l] eqn:R.
  - apply (f_equal (@rev booking)) in R. rewrite rev_involutive in R. cbn in R. subst ls. destruct C as (gs & C1 & C2 & _). inversion C2; subst. discriminate.
  - exists (rev l), b. split; [|reflexivity]. rewrite <- (rev_involutive ls), R. reflexivity.
Qed.
Theorem file_groups : forall s add lines, write_vcr s add = (lines, None) -> exists ls, complete s ls /\ s <> [] /\ if add then exists l b, ls = l ++ [b] /\ lines = ls ++ [b] else lines = ls.
Proof. exact write_vcr_ok. Qed.
(** The time of a booking is that of its events. *)
Definition length_of (e : event) : Z := e_end e - e_begin e.
Definition total (l : list event) : Z := fold_right (fun e s => length_of e + s) 0 l.
Theorem group_time : forall g f l, adjacent follows g -> hd_error g = Some f -> hd_error (rev g) = Some l -> e_end l - e_begin f = total g.
Proof.
  induction g as [|a g IH]; intros f l F H L; [discriminate|]. cbn in H. injection H as <-. destruct g as [|b g].
  - cbn in L. injection L as <-. cbn. unfold length_of. lia.
  - apply adjacent_cons in F. destruct F as [[_ T] F]. assert (L' : hd_error (rev (b :: g)) = Some l).
    { change (rev (a :: b :: g)) with (rev (b :: g) ++ [a]) in L. destruct (rev (b :: g)) as [|z t] eqn:R; [cbn in R; destruct (rev g); discriminate|exact L]. }
    specialize (IH b l F eq_refl L'). cbn [total fold_right] in *. unfold length_of at 1. lia.
Qed.
(** Without events that follow one another, an overlap is always found. *)
Lemma groups_single (groups : list (list event)) : (forall g, In g groups -> length g = 1%nat) -> exists s, groups = map (fun e => [e]) s /\ concat groups = s.
Proof.
  induction groups as [|g gs IH]; intro H; [exists []; auto|]. destruct IH as (s & -> & E); [intros; apply H; now right|]. assert (L := H g (or_introl eq_refl)). destruct g as [|e [|]]; try discriminate.
  exists (e :: s). split; [reflexivity|]. cbn in *. now rewrite E.
Qed.
Theorem overlap_found : forall l s add lines, sorted_as l s -> Forall proper l -> (forall a b, In a l -> In b l -> ~ follows a b) -> write_vcr s add = (lines, None) -> disjoint l.
Proof.
  intros l s add lines S P N W. destruct (write_vcr_ok _ _ _ W) as (ls & (gs & C1 & C2 & C3 & C4) & _ & _). assert (Ps : Forall proper s) by (eapply Permutation_Forall; [apply S|exact P]).
  assert (Ns : forall a b, In a s -> In b s -> ~ follows a b). { intros a b A B. apply N; eapply Permutation_in; try (symmetry; apply S); assumption. }
  assert (G : forall g, In g gs -> length g = 1%nat).
  { intros g I. assert (J : forall e, In e g -> In e s) by (intros e K; rewrite <- C1; apply in_concat; eauto).
    assert (B : exists b, books g b) by (clear -C2 I; induction C2 as [|x y gs ls X C IH]; [destruct I|destruct I as [<-|I]; [eauto|auto]]). destruct B as (b & F & (f & l' & H1 & _) & _).
    destruct g as [|a [|c g]]; [discriminate|reflexivity|]. apply adjacent_cons in F. exfalso. apply (Ns a c); [apply J; now left|apply J; right; now left|apply F]. }
  destruct (groups_single gs G) as (s' & E & E'). rewrite C1 in E'. subst s'.
  apply (disjoint_perm s l); [symmetry; apply S|]. apply chronological_disjoint; [exact Ps|]. apply (sorted_chronological l s S P).
  intros l1 a b l2 X Sh. rewrite E, X, map_app in C3. rewrite X in Ps. cbn [map] in C3. specialize (C3 _ _ _ _ eq_refl a b eq_refl eq_refl). destruct C3 as [_ C3]. specialize (C3 eq_refl).
  apply Forall_app in Ps. destruct Ps as [_ Ps]. inversion Ps as [|? ? Pa P']; subst. inversion P' as [|? ? Pb _]; subst.
  assert (T : event_contains b a = true). { apply contains_share; auto. destruct Sh as (t & T1 & T2). exists t. auto. } congruence.
Qed.
(** Two events that follow one another, and then one that overlaps the second: not found. *)
Definition named (e : event) : Prop := find_kp (booked_name (e_name e)) = Some (e_kp e).
Lemma booking_named start e : named e -> booking_of start e = Ok (mkBooking (iso_second start) (iso_second (e_end e)) (e_kp e)).
Proof. unfold named, booking_of. intros ->. now rewrite String.eqb_refl. Qed.
Theorem overlap_refuted : forall a b c, proper a -> proper b -> proper c -> named b -> named c -> follows a b -> e_begin b < e_begin c -> share b c ->
  write_vcr [a; b; c] false = ([mkBooking (iso_second (e_begin a)) (iso_second (e_end b)) (e_kp b); mkBooking (iso_second (e_begin c)) (iso_second (e_end c)) (e_kp c)], None) /\
  sorted_as [a; b; c] [a; b; c] /\ ~ disjoint [a; b; c].
Proof.
  intros a b c A B C Nb Nc F L S. assert (S' := S). rewrite share_iff in S' by assumption. unfold proper in *. split; [|split].
  - unfold write_vcr. cbn [length write_lines]. rewrite (contains_touch a b) by (try apply F; lia). cbn [gather]. rewrite (proj2 (follows_iff a b) F), (contains_touch a b) by (try apply F; lia).
    destruct (_ && _) eqn:X; [apply follows_iff in X; destruct X; lia|]. rewrite (booking_named _ _ Nb), (booking_named _ _ Nc). reflexivity.
  - split; [reflexivity|]. destruct F as [_ F]. unfold event_lt. apply adjacent_cons. split; [left; apply Z.ltb_lt; lia|]. apply adjacent_cons. split; [left; apply Z.ltb_lt; lia|apply adjacent_one].
  - intro D. inversion D as [|? ? _ D']; subst. inversion D' as [|? ? D'' _]; subst. inversion D''; subst. contradiction.
Qed.
(** The last two events follow one another: the file is never complete. *)
Theorem tail_refuted : forall s a b add, follows a b -> snd (write_vcr (s ++ [a; b]) add) <> None.
Proof.
  intros s a b add F H. destruct (write_vcr (s ++ [a; b]) add) as [lines x] eqn:W. cbn in H. subst x. destruct (write_vcr_ok _ _ _ W) as (ls & (gs & C1 & C2 & C3 & C4) & _ & _).
  destruct gs as [|g gs] using rev_ind; [cbn in C1; destruct s; discriminate|]. clear IHgs. specialize (C4 g ltac:(rewrite rev_app_distr; reflexivity)).
  rewrite concat_app in C1. cbn [concat] in C1. rewrite app_nil_r in C1. destruct g as [|z [|]]; try discriminate. change (s ++ [a; b]) with (s ++ [a] ++ [b]) in C1. rewrite app_assoc in C1. apply app_inj_tail in C1. destruct C1 as [C1 ->].
  destruct gs as [|h gs] using rev_ind; [cbn in C1; destruct s; discriminate|]. clear IHgs. rewrite concat_app in C1. cbn [concat] in C1. rewrite app_nil_r in C1.
  rewrite <- app_assoc in C3. cbn [app] in C3. specialize (C3 gs h [b] [] eq_refl a b).
  assert (R : hd_error (rev h) = Some a).
  { destruct h as [|z h] using rev_ind.
    - exfalso. apply Forall2_app_inv_l in C2. destruct C2 as (l1 & l2 & C2 & _ & _). apply Forall2_app_inv_l in C2. destruct C2 as (l3 & l4 & _ & C2 & _). inversion C2 as [|? ? ? ? Bk _]; subst. destruct Bk as (_ & (f & l & X & _) & _). discriminate.
    - rewrite app_assoc in C1. apply app_inj_tail in C1. destruct C1 as [_ ->]. rewrite rev_app_distr. reflexivity. }
  destruct (C3 R eq_refl) as [C _]. contradiction.
Qed.
(** Bookings in order, of known key projects: the file is complete. *)
Lemma write_lines_total : forall fuel s, (length s <= fuel)%nat -> Forall proper s -> chronological s -> Forall named s ->
  (forall l a b, s = l ++ [a; b] -> ~ follows a b) -> snd (write_lines fuel s) = None.
Proof.
  induction fuel as [|fuel IH]; intros s L P C N T; [destruct s; [reflexivity|cbn in L; lia]|]. destruct s as [|e r]; [reflexivity|]. cbn [write_lines].
  inversion P as [|? ? Pe P']; subst. inversion N as [|? ? Ne N']; subst. inversion C as [|? ? Ce C']; subst.
  destruct r as [|n r].
  - rewrite (booking_named _ _ Ne). destruct fuel; reflexivity.
  - inversion P' as [|? ? Pn _]; subst. inversion Ce as [|? ? B _]; subst. rewrite (contains_before e n Pe Pn B). destruct (gather e (n :: r)) as [[g rest]|x] eqn:G.
    + destruct (gather_ok _ _ _ _ G) as (mid & E1 & E2 & E3 & q & t & E4 & E5). assert (I : In g (e :: n :: r)) by (rewrite E1; apply in_or_app; left; now apply last_cons).
      rewrite Forall_forall in N. rewrite (booking_named _ _ (N g I)). assert (W : snd (write_lines fuel rest) = None).
      { assert (Rl : (length rest <= fuel)%nat) by (apply (f_equal (@length event)) in E1; rewrite app_length in E1; cbn in E1, L; lia).
        assert (Q : forall X : event -> Prop, (forall z, In z (e :: n :: r) -> X z) -> Forall X rest) by (intros X Y; apply Forall_forall; intros z Z; apply Y; rewrite E1; apply in_or_app; auto).
        apply IH; [exact Rl| | | |].
        - apply Q. now apply Forall_forall.
        - clear -C E1. unfold chronological in C. rewrite E1 in C. clear E1. revert C. generalize (e :: mid) as k. induction k as [|z m IH]; intro C; [exact C|]. inversion C; subst. auto.
        - apply Q. exact N.
        - intros l a b E. apply (T ((e :: mid) ++ l)). rewrite E1, E, <- app_assoc. reflexivity. }
      destruct (write_lines fuel rest) as [ls y]. cbn in *. exact W.
    + exfalso. destruct (gather_err _ _ _ G P) as [_ A]. destruct (exists_last (l := n :: r)) as (r' & z & R); [discriminate|]. destruct (exists_last (l := e :: r')) as (r'' & y & R'); [discriminate|].
      assert (E : e :: n :: r = r'' ++ [y; z]). { rewrite R. change (e :: r' ++ [z]) with ((e :: r') ++ [z]). rewrite R', <- app_assoc. reflexivity. }
      apply (T r'' y z E). apply (A r'' y z []). exact E.
Qed.
Theorem file_complete : forall l s add, sorted_as l s -> l <> [] -> Forall proper l -> disjoint l -> Forall named l -> (forall r a b, s = r ++ [a; b] -> ~ follows a b) ->
  exists lines, write_vcr s add = (lines, None).
Proof.
  intros l s add S Z P D N T. assert (C := disjoint_sorted l s S P D). assert (Ps : Forall proper s) by (eapply Permutation_Forall; [apply S|exact P]). assert (Ns : Forall named s) by (eapply Permutation_Forall; [apply S|exact N]).
  assert (W := write_lines_total (length s) s (le_n _) Ps C Ns T). unfold write_vcr. destruct s as [|e r]; [exfalso; apply Z; apply Permutation_nil; symmetry; apply S|].
  destruct (write_lines (length (e :: r)) (e :: r)) as [ls y]. cbn in W. subst y. eexists. reflexivity.
Qed.
(** Key project LT00 is renamed and then refused. *)
Lemma lt00_name rest : exists r, booked_name ("LT00" ++ rest) = ("ES00" ++ r)%string.
Proof.
  unfold booked_name. assert (C : contains_str "LT00" ("LT00" ++ rest) = true) by (destruct rest; reflexivity). rewrite C. assert (R : replace4 "LT00" "ES00" ("LT00" ++ rest) = ("ES00" ++ replace4 "LT00" "ES00" rest)%string) by reflexivity.
  assert (L : (String.eqb (lower ("LT00" ++ rest)) "filler" || String.eqb (lower ("LT00" ++ rest)) "filer")%string = false) by reflexivity. rewrite L, R.
  destruct (contains_str "RP5A" _); [|eexists; reflexivity]. set (t := replace4 "LT00" "ES00" rest). clearbody t. destruct t as [|a [|b [|c t]]]; eexists; reflexivity.
Qed.
Theorem lt00_refuted : forall rest start e, e_name e = ("LT00" ++ rest)%string -> e_kp e = "LT00"%string -> booking_of start e = Err EException.
Proof.
  intros rest start e N K. unfold booking_of. rewrite N. destruct (lt00_name rest) as [r ->]. assert (F : find_kp ("ES00" ++ r) = Some "ES00"%string) by reflexivity. rewrite F, K. reflexivity.
Qed.
Theorem file_empty : forall add, write_vcr [] add = ([], Some EIndexError).
Proof. reflexivity. Qed.
(** Key project RP5A is renamed as well. *)
Theorem rp5a_refuted : forall rest start e, e_name e = ("RP5A" ++ rest)%string -> e_kp e = "RP5A"%string -> booking_of start e = Err EException.
Proof.
  intros rest start e N K. unfold booking_of. rewrite N. unfold booked_name.
  assert (C : contains_str "RP5A" ("RP5A" ++ rest) = true) by (destruct rest; reflexivity). rewrite C.
  assert (L : (String.eqb (lower ("RP5A" ++ rest)) "filler" || String.eqb (lower ("RP5A" ++ rest)) "filer")%string = false) by reflexivity. rewrite L.
  assert (X : forall t, find_kp (replace4 "RP5A" "RP3A" ("RP5A" ++ t)) = Some "RP3A"%string) by reflexivity.
  destruct (contains_str "LT00" ("RP5A" ++ rest)).
  - assert (R : exists t, replace4 "LT00" "ES00" ("RP5A" ++ rest) = ("RP5A" ++ t)%string).
    { destruct rest as [|a [|b [|c rest]]]; eexists; reflexivity. }
    destruct R as (t & ->). rewrite X, K. reflexivity.
  - rewrite X, K. reflexivity.
Qed.
(** Fillers *)
Theorem filler_booked : forall start e, lower (e_name e) = "filler"%string \/ lower (e_name e) = "filer"%string ->
  contains_str "LT00" (e_name e) = false /\ contains_str "RP5A" (e_name e) = false -> e_kp e = "LT02"%string ->
  booking_of start e = Ok (mkBooking (iso_second start) (iso_second (e_end e)) "LT02").
Proof.
  intros start e H (A & B) K. unfold booking_of, booked_name. rewrite A, B.
  assert (T : (String.eqb (lower (e_name e)) "filler" || String.eqb (lower (e_name e)) "filer")%string = true) by (destruct H as [-> | ->]; reflexivity).
  rewrite T, K. reflexivity.
Qed.
(** The code of the key project: the first four characters that look like one. *)
Definition visible (c : ascii) : Prop := ~ ((9 <= nat_of_ascii c <= 13) \/ (28 <= nat_of_ascii c <= 32) \/ nat_of_ascii c = 133 \/ nat_of_ascii c = 160)%nat.
Definition code (k : string) : Prop := exists p c d, In p ["ES"; "SP"; "RP"; "LT"]%string /\ visible c /\ visible d /\ k = (p ++ String c (String d ""))%string.
Definition code_at (s pre k post : string) : Prop := s = (pre ++ k ++ post)%string /\ code k.
Lemma visible_iff c : negb (is_space c) = true <-> visible c.
Proof.
  unfold is_space, visible. rewrite negb_true_iff. split.
  - intros H K. repeat (apply orb_false_iff in H; destruct H as [H ?]). rewrite ?andb_false_iff, ?Nat.leb_gt, ?Nat.eqb_neq in *. lia.
  - intros H. repeat (apply orb_false_iff; split); rewrite ?andb_false_iff, ?Nat.leb_gt, ?Nat.eqb_neq; lia.
Qed.
Lemma kp_here_iff s k : kp_here s = Some k <-> exists post, code_at s "" k post.
Proof.
  split.
  - destruct s as [|a [|b [|c [|d r]]]]; try discriminate. cbn [kp_here].
    destruct (existsb _ _) eqn:E; [|discriminate]. destruct (negb (is_space c)) eqn:C; [|discriminate]. destruct (negb (is_space d)) eqn:D; [|discriminate].
    cbn [andb]. intros H; injection H as <-. exists r. split; [reflexivity|]. apply existsb_exists in E. destruct E as (p & I & E). apply String.eqb_eq in E. subst p.
    exists (String a (String b "")), c, d. split; [exact I|]. split; [now apply visible_iff|]. split; [now apply visible_iff|reflexivity].
  - intros (post & E & p & c & d & I & C & D & K). subst s k. apply visible_iff in C, D.
    cbn in I; destruct I as [<-|[<-|[<-|[<-|[]]]]]; cbn; rewrite C, D; reflexivity.
Qed.
Lemma find_kp_here : forall s, find_kp s = match kp_here s with Some k => Some k | None => match s with EmptyString => None | String _ r => find_kp r end end.
Proof. now destruct s. Qed.
Theorem code_found : forall s k, find_kp s = Some k <-> exists pre post, code_at s pre k post /\ forall pre' k' post', code_at s pre' k' post' -> (String.length pre <= String.length pre')%nat.
Proof.
  induction s as [|a s IH]; intros k.
  - split; [discriminate|]. intros (pre & post & (E & p & c & d & I & _ & _ & K) & _). subst k. destruct pre; [|discriminate]. cbn in I; destruct I as [<-|[<-|[<-|[<-|[]]]]]; discriminate.
  - rewrite find_kp_here. destruct (kp_here (String a s)) as [k0|] eqn:H.
    + split.
      * intros X; injection X as ->. apply kp_here_iff in H. destruct H as (post & H). exists ""%string, post. split; [exact H|]. cbn. lia.
      * intros (pre & post & A & M). pose proof H as H0. apply kp_here_iff in H. destruct H as (q & H). specialize (M _ _ _ H). destruct pre; [|cbn in M; lia].
        assert (B : kp_here (String a s) = Some k) by (apply kp_here_iff; now exists post). congruence.
    + rewrite IH. assert (N : forall k' post', ~ code_at (String a s) "" k' post').
      { intros k' post' A. assert (B : kp_here (String a s) = Some k') by (apply kp_here_iff; eauto). congruence. }
      split.
      * intros (pre & post & (E & C) & M). exists (String a pre), post. split; [split; [cbn; now rewrite E|exact C]|].
        intros pre' k' post' A. destruct pre' as [|b pre']; [now apply N in A|]. destruct A as (A & C'). cbn in A. injection A as <- A. cbn. specialize (M pre' k' post' (conj A C')). lia.
      * intros (pre & post & A & M). destruct pre as [|b pre]; [now apply N in A|]. destruct A as (A & C'). cbn in A. injection A as <- A. exists pre, post. split; [now split|].
        intros pre' k' post' (B & C). specialize (M (String a pre') k' post' (conj (f_equal (String a) B) C)). cbn in M. lia.
Qed.
(** An event without any code in its name is refused. *)
Theorem no_code : forall start e, (forall pre k post, ~ code_at (booked_name (e_name e)) pre k post) -> booking_of start e = Err EException.
Proof.
  intros start e H. unfold booking_of. destruct (find_kp (booked_name (e_name e))) as [k|] eqn:F; [|reflexivity]. apply code_found in F. destruct F as (pre & post & F & _). now apply H in F.
Qed.
