(** Lemmas: the evolution of the genetic algorithm. *)
From Coq Require Import List Arith ZArith QArith Bool Lia Lqa Permutation Sorting.Sorted.
From Verif Require Import Base M_Sched M_Genetic M_Evolve P_Cnst2 P_Genetic P_Evolve.
Import ListNotations.
Open Scope nat_scope.

(** What the functions given to the class return: [populate(n)] has [n] rows of
    [genes] columns, [fitness] one score per row, [mutation] a genome of the same
    size, and the sort sorts. *)
Definition well_behaved (genes : nat) (w : world) : Prop :=
  (forall t n, length (w_populate w t n) = n /\ forall x, In x (w_populate w t n) -> length x = genes) /\
  (forall pop, length (w_fitness w pop) = length pop) /\
  (forall t i b x, length x = genes -> length (w_mutate w t i b x) = genes) /\
  sorts (w_sort w).

(** [evolve] checks: lines 201-216; and the size of a population. *)
Definition valid_conf (c : conf) : Prop :=
  2 <= c_size c /\ (c_threshold c <= 1)%Q /\ (c_random c <= Z.of_nat (c_size c))%Z.

(** [b] is the greatest of [b0] and of the elements of [l]. *)
Definition greatest (b0 : Q) (l : list Q) (b : Q) : Prop :=
  In b (b0 :: l) /\ forall x, In x (b0 :: l) -> (x <= b)%Q.

(** [s] is the greatest element of [l]. *)
Definition top (s : Q) (l : list Q) : Prop := In s l /\ forall x, In x l -> (x <= s)%Q.

(** [x] was evaluated in one of the populations, with score [b]. *)
Definition evaluated (w : world) (children : list (list Q)) (x : genome) (b : Q) : Prop :=
  exists pop k, nth_error pop k = Some x /\ In (w_fitness w pop) children /\
    nth_error (w_fitness w pop) k = Some b.

(** ** Sizes *)

Lemma breed_length : forall c w t pop n i scores l, breed c w t pop scores i n = Ok l -> length l = 2 * n.
Proof.
  intros c w t pop. induction n as [|n IH]; intros i scores l H; cbn in H; [injection H; intros <-; reflexivity|].
  destruct (select (c_select c) scores (w_draw w t i)) as [s' [[a b]|e]]; [|discriminate].
  destruct (cross _ _ _ _) as [[x y]|e]; [|discriminate]. cbn [bind] in H.
  destruct (breed c w t pop s' (S i) n) as [l'|e] eqn:B; [|discriminate]. cbn [bind fst snd] in H.
  apply IH in B. injection H; intros <-. cbn [length]. lia.
Qed.

Lemma next_length : forall c w t pop scores pop' genes, well_behaved genes w -> valid_conf c ->
  length scores = c_size c -> next_generation c w t pop scores = Ok pop' -> length pop' = c_size c.
Proof.
  intros c w t pop scores pop' genes (WP & WF & WM & WS) (V1 & V2 & V3) LS H. unfold next_generation in H.
  destruct (breed c w t _ _ 0 (c_size c / 2 - 1)) as [l|e] eqn:B; [|discriminate]. cbn [bind] in H.
  apply breed_length in B.
  set (p' := map (fun i => nth i pop []) (rev (w_sort w scores))) in *.
  assert (LP : length p' = c_size c).
  { unfold p'. rewrite map_length, rev_length. destruct (WS scores) as [P _].
    rewrite <- (Permutation_length P), seq_length. assumption. }
  assert (D : 2 * (c_size c / 2) <= c_size c) by (apply Nat.mul_div_le; lia).
  assert (D1 : 1 <= c_size c / 2) by (apply Nat.div_le_lower_bound; lia).
  set (rows := firstn 2 p' ++ l) in *.
  assert (LR : length rows <= c_size c).
  { unfold rows. rewrite app_length, firstn_length, B, LP. lia. }
  injection H; intros <-.
  destruct (Z.ltb_spec 0 (c_random c)) as [R|R].
  - rewrite app_length, firstn_length, app_length, repeat_length. rewrite (proj1 (WP (S t) (Z.to_nat (c_random c)))). lia.
  - rewrite app_length, repeat_length. lia.
Qed.

(** ** Best score and genome *)

Lemma nth_some : forall A (l : list A) k d, k < length l -> nth_error l k = Some (nth k l d).
Proof. intros. now apply nth_error_nth'. Qed.

Lemma top_argmax : forall l, l <> [] -> top (nth (argmax l) l 0%Q) l.
Proof.
  intros l N. destruct (argmax_spec l N) as [K M]. split; [now apply nth_In|].
  intros x X. destruct (In_nth _ _ 0%Q X) as (i & I & <-). now apply M.
Qed.

Lemma loop_best : forall genes c w, well_behaved genes w -> valid_conf c ->
  forall fuel t ns pop g g' e, length pop = c_size c -> loop fuel c w t ns pop g = (g', e) ->
  exists new newc, ga_scores g' = ga_scores g ++ new /\ ga_children g' = ga_children g ++ newc /\
    length new <= fuel /\ Forall2 top new newc /\ Forall (fun sc => length sc = c_size c) newc /\
    greatest (ga_best g) new (ga_best g') /\
    ((ga_best g' = ga_best g /\ ga_genome g' = ga_genome g) \/
     ((ga_best g < ga_best g')%Q /\ exists x, ga_genome g' = Some x /\ evaluated w newc x (ga_best g'))).
Proof.
  intros genes c w WB V. induction fuel as [|f IH]; intros t ns pop g g' e LP H; cbn [loop] in H.
  { injection H; intros <- <-. exists [], []. cbn. rewrite !app_nil_r. split; [reflexivity|]. split; [reflexivity|].
    split; [lia|]. split; [constructor|]. split; [constructor|]. split; [|now left].
    split; [now left|]. intros x [<-|[]]. apply Qle_refl. }
  pose proof WB as (WP & WF & WM & WS). pose proof V as (V1 & V2 & V3).
  set (sc := w_fitness w pop) in *. set (k := argmax sc) in *. set (s := nth k sc 0%Q) in *.
  assert (LS : length sc = c_size c) by (unfold sc; now rewrite WF).
  assert (NE : sc <> []) by (intros X; rewrite X in LS; cbn in LS; lia).
  assert (TS : top s sc) by (apply top_argmax; assumption).
  assert (KL : k < length sc) by (apply argmax_spec; assumption).
  set (better := Qltb (ga_best g) s) in *.
  set (g1 := mkGa (if better then s else ga_best g) (if better then nth_error pop k else ga_genome g)
                  (ga_gen g) (ga_scores g ++ [s]) (ga_children g ++ [sc])) in *.
  assert (G1 : greatest (ga_best g) [s] (ga_best g1)).
  { unfold g1; cbn. unfold better. destruct (Qltb (ga_best g) s) eqn:C; split; cbn; auto.
    - apply qltb_iff in C. intros x [<-|[<-|[]]]; lra.
    - apply qltb_false in C. intros x [<-|[<-|[]]]; lra. }
  assert (GG : (ga_best g1 = ga_best g /\ ga_genome g1 = ga_genome g) \/
     ((ga_best g < ga_best g1)%Q /\ exists x, ga_genome g1 = Some x /\ evaluated w [sc] x (ga_best g1))).
  { unfold g1; cbn. unfold better. destruct (Qltb (ga_best g) s) eqn:C; [right|now left].
    apply qltb_iff in C. split; [assumption|].
    assert (KP : k < length pop) by lia.
    exists (nth k pop []). split; [now apply nth_some|]. exists pop, k.
    split; [now apply nth_some|]. split; [now left|]. unfold s. now apply nth_some. }
  assert (STOP : g' = g1 -> exists new newc, ga_scores g' = ga_scores g ++ new /\ ga_children g' = ga_children g ++ newc /\
    length new <= S f /\ Forall2 top new newc /\ Forall (fun sc => length sc = c_size c) newc /\
    greatest (ga_best g) new (ga_best g') /\
    ((ga_best g' = ga_best g /\ ga_genome g' = ga_genome g) \/
     ((ga_best g < ga_best g')%Q /\ exists x, ga_genome g' = Some x /\ evaluated w newc x (ga_best g')))).
  { intros ->. exists [s], [sc]. split; [reflexivity|]. split; [reflexivity|]. split; [cbn; lia|].
    split; [constructor; [assumption|constructor]|]. split; [constructor; [assumption|constructor]|]. now split. }
  destruct (Qle_bool (c_threshold c) s); [apply STOP; congruence|].
  destruct ((_ =? _)%Z && _); [apply STOP; congruence|].
  destruct (next_generation c w t pop sc) as [pop'|e'] eqn:NG; [|apply STOP; congruence].
  assert (LP' : length pop' = c_size c) by (eapply next_length; eassumption).
  apply IH in H; [|assumption]. cbn [ga_best ga_genome ga_scores ga_children] in H.
  destruct H as (new & newc & E1 & E2 & L & F2 & F1 & GR & GN).
  exists (s :: new), (sc :: newc). split; [rewrite E1; unfold g1; cbn; now rewrite <- app_assoc|].
  split; [rewrite E2; unfold g1; cbn; now rewrite <- app_assoc|].
  split; [cbn; lia|]. split; [now constructor|]. split; [now constructor|].
  destruct GR as [GR1 GR2]. destruct G1 as [G1a G1b].
  assert (LE1 : (ga_best g1 <= ga_best g')%Q) by (apply GR2; now left).
  split.
  - split.
    + destruct GR1 as [E|I]; [|right; now right]. change (ga_best g1 = ga_best g') in E. rewrite <- E.
      destruct G1a as [X|[X|[]]]; [now left|right; now left].
    + intros x [X|[X|X]].
      * assert (x <= ga_best g1)%Q by (apply G1b; now left). lra.
      * assert (x <= ga_best g1)%Q by (apply G1b; right; now left). lra.
      * apply GR2. now right.
  - assert (EV : forall cs x b, (forall y, In y cs -> In y (sc :: newc)) -> evaluated w cs x b -> evaluated w (sc :: newc) x b).
    { intros cs x b SUB (p & i & A & B & C). exists p, i. auto. }
    destruct GN as [[B1 B2]|(B1 & x & B2 & B3)].
    + change (ga_best g' = ga_best g1) in B1. change (ga_genome g' = ga_genome g1) in B2. rewrite B1, B2.
      destruct GG as [GG|(GG & x & X1 & X2)]; [now left|right]. split; [assumption|]. exists x. split; [assumption|].
      eapply EV; [|exact X2]. intros y [<-|[]]. now left.
    + right. assert (ga_best g <= ga_best g1)%Q by (apply G1b; now left).
      change (ga_best g1 < ga_best g')%Q in B1. split; [lra|]. exists x. split; [assumption|].
      eapply EV; [|exact B3]. intros y Y. now right.
Qed.

Lemma evolve_refused : forall c w g, 2 <= c_size c -> ~ valid_conf c -> evolve c w g = (g, Some EValueError).
Proof.
  intros c w g S N. unfold evolve. destruct (Qltb 1 (c_threshold c)) eqn:C; [reflexivity|]. apply qltb_false in C.
  destruct (Z.ltb_spec (Z.of_nat (c_size c)) (c_random c)); [reflexivity|]. exfalso. apply N. now repeat split.
Qed.

Lemma evolve_loop : forall c w g, valid_conf c ->
  evolve c w g = loop (Z.to_nat (c_max c - ga_gen g)) c w 0 0 (w_populate w 0 (c_size c))
    (mkGa (ga_best g) (nth_error (w_populate w 0 (c_size c)) 0) (ga_gen g) (ga_scores g) (ga_children g)).
Proof.
  intros c w g (V1 & V2 & V3). unfold evolve.
  assert (Qltb 1 (c_threshold c) = false) as -> by (apply qltb_false; assumption).
  destruct (Z.ltb_spec (Z.of_nat (c_size c)) (c_random c)); [lia|reflexivity].
Qed.

Lemma evolve_best : forall genes c w g g' e, well_behaved genes w -> valid_conf c -> evolve c w g = (g', e) ->
  exists new newc, ga_scores g' = ga_scores g ++ new /\ ga_children g' = ga_children g ++ newc /\
    (Z.of_nat (length new) <= Z.max 0 (c_max c - ga_gen g))%Z /\
    Forall2 top new newc /\ Forall (fun sc => length sc = c_size c) newc /\
    greatest (ga_best g) new (ga_best g') /\
    ((ga_best g' = ga_best g /\ exists x, ga_genome g' = Some x /\ nth_error (w_populate w 0 (c_size c)) 0 = Some x) \/
     ((ga_best g < ga_best g')%Q /\ exists x, ga_genome g' = Some x /\ evaluated w newc x (ga_best g'))).
Proof.
  intros genes c w g g' e WB V H. rewrite evolve_loop in H by assumption.
  pose proof WB as (WP & _). destruct (WP 0 (c_size c)) as [LP _].
  destruct (loop_best genes c w WB V _ _ _ _ _ _ _ LP H) as (new & newc & E1 & E2 & L & F2 & F1 & GR & GN).
  exists new, newc. cbn [ga_scores ga_children ga_best ga_genome ga_gen] in *. split; [assumption|]. split; [assumption|]. split; [lia|]. split; [assumption|].
  split; [assumption|]. split; [assumption|]. destruct GN as [[A B]|GN]; [left|now right].
  split; [assumption|]. destruct V as [V _]. exists (nth 0 (w_populate w 0 (c_size c)) []).
  rewrite B. split; apply nth_some; lia.
Qed.

(** ** Number of generations *)

Lemma loop_count : forall c w fuel t ns pop g g' e d, loop fuel c w t ns pop g = (g', e) ->
  ga_gen g = (Z.of_nat (length (ga_scores g)) + d)%Z -> (ga_gen g' + 1 = Z.of_nat (length (ga_scores g')) + d)%Z.
Proof.
  intros c w. induction fuel as [|f IH]; intros t ns pop g g' e d H G; cbn [loop] in H.
  { injection H; intros <- <-. cbn. lia. }
  set (g1 := mkGa _ _ (ga_gen g) (ga_scores g ++ _) _) in H.
  assert (G1 : (ga_gen g1 + 1 = Z.of_nat (length (ga_scores g1)) + d)%Z) by (unfold g1; cbn; rewrite app_length; cbn; lia).
  destruct (Qle_bool _ _); [injection H; intros <- <-; assumption|].
  destruct ((_ =? _)%Z && _); [injection H; intros <- <-; assumption|].
  destruct (next_generation c w t pop _) as [pop'|e']; [|injection H; intros <- <-; assumption].
  apply (IH _ _ _ _ _ _ d) in H; [assumption|]. cbn in *. lia.
Qed.

Lemma evolve_count : forall c w g' e, valid_conf c -> evolve c w new_ga = (g', e) ->
  (ga_gen g' + 1 = Z.of_nat (length (ga_scores g')))%Z.
Proof.
  intros c w g' e V H. rewrite evolve_loop in H by assumption.
  apply (loop_count _ _ _ _ _ _ _ _ _ 0%Z) in H; [lia|reflexivity].
Qed.

(** ** Why it stops *)

Definition stops_because (c : conf) (b0 : Q) (new : list Q) (b : Q) (asked : Z) : Prop :=
  (exists s pre, new = pre ++ [s] /\ (c_threshold c <= s)%Q) \/
  (~ (b == 0)%Q /\ exists pre post, new = pre ++ post /\ pre <> [] /\
     Z.of_nat (length post) = c_stagnate c /\ In b (b0 :: pre)) \/
  Z.of_nat (length new) = Z.max 0 asked.

Lemma loop_stops : forall c w b0 fuel t ns pop g g' old total, loop fuel c w t ns pop g = (g', None) ->
  (exists pre post, ga_scores g = old ++ pre ++ post /\ In (ga_best g) (b0 :: pre) /\
     (pre = [] -> post = []) /\ length (pre ++ post) + fuel = total /\
     (forall x, In x (pre ++ post) -> (x < c_threshold c)%Q) /\
     ns = if length (pre ++ post) =? 0 then 0%Z else (Z.of_nat (length post) + 1)%Z) ->
  exists new, ga_scores g' = old ++ new /\ stops_because c b0 new (ga_best g') (Z.of_nat total) /\
    (forall pre s, new = pre ++ [s] -> forall x, In x pre -> (x < c_threshold c)%Q).
Proof.
  intros c w b0. induction fuel as [|f IH]; intros t ns pop g g' old total H (pre & post & E & B & PP & T & TH & NS); cbn [loop] in H.
  { injection H; intros <-. exists (pre ++ post). split; [assumption|]. split; [right; right; lia|].
    intros p' s X x Y. apply TH. rewrite X. apply in_or_app. now left. }
  set (sc := w_fitness w pop) in *. set (k := argmax sc) in *. set (s := nth k sc 0%Q) in *.
  set (better := Qltb (ga_best g) s) in *.
  set (g1 := mkGa (if better then s else ga_best g) (if better then nth_error pop k else ga_genome g)
                  (ga_gen g) (ga_scores g ++ [s]) (ga_children g ++ [sc])) in *.
  assert (INV : exists pre1 post1, ga_scores g1 = old ++ pre1 ++ post1 /\ In (ga_best g1) (b0 :: pre1) /\
    pre1 <> [] /\ length (pre1 ++ post1) + f = total /\ (pre1 ++ post1 = (pre ++ post) ++ [s]) /\
    (if better then 0%Z else ns) = Z.of_nat (length post1)).
  { unfold g1, better; cbn [ga_scores ga_best]. rewrite E. destruct (Qltb (ga_best g) s).
    - exists ((pre ++ post) ++ [s]), []. rewrite !app_nil_r. split; [now rewrite <- !app_assoc|].
      split; [right; apply in_or_app; right; now left|]. split; [destruct (pre ++ post); discriminate|].
      split; [rewrite app_length; cbn; lia|]. now split.
    - destruct (Nat.eqb_spec (length (pre ++ post)) 0) as [Z0|Z0].
      + assert (pre = [] /\ post = []) as [-> ->] by (destruct pre; [destruct post; [now split|discriminate]|discriminate]).
        exists [s], []. cbn in *. split; [now rewrite app_nil_r|]. split; [destruct B as [B|[]]; now left|].
        split; [discriminate|]. split; [lia|]. split; [reflexivity|]. lia.
      + exists pre, (post ++ [s]). split; [now rewrite <- !app_assoc|]. split; [assumption|].
        split. { intros X. rewrite X, (PP X) in Z0. now apply Z0. }
        split. { rewrite !app_length in *. cbn. lia. }
        split; [now rewrite <- app_assoc|]. rewrite app_length. cbn. lia. }
  destruct INV as (pre1 & post1 & E1 & B1 & N1 & T1 & X1 & NS1).
  assert (LAST : forall p' q, pre1 ++ post1 = p' ++ [q] -> forall x, In x p' -> (x < c_threshold c)%Q).
  { intros p' q EQ x X. rewrite X1 in EQ. apply app_inj_tail in EQ. destruct EQ as [EQ _]. apply TH. now rewrite EQ. }
  destruct (Qle_bool (c_threshold c) s) eqn:C1.
  { injection H; intros <-. exists (pre1 ++ post1). split; [assumption|]. split; [|assumption].
    left. exists s, (pre ++ post). split; [assumption|]. now apply Qle_bool_iff. }
  apply qle_false in C1.
  destruct (((if better then 0%Z else ns) =? c_stagnate c)%Z && negb (Qeq_bool (ga_best g1) 0)) eqn:C2.
  { injection H; intros <-. exists (pre1 ++ post1). split; [assumption|]. split; [|assumption].
    apply andb_true_iff in C2. destruct C2 as [C2 C3]. apply Z.eqb_eq in C2. right; left. split.
    - intros Q. apply Qeq_bool_iff in Q. rewrite Q in C3. discriminate.
    - exists pre1, post1. split; [reflexivity|]. split; [assumption|]. split; [congruence|assumption]. }
  destruct (next_generation c w t pop sc) as [pop'|e']; [|discriminate].
  eapply IH; [exact H|]. cbn [ga_scores ga_best]. exists pre1, post1. split; [assumption|]. split; [assumption|].
  split; [intros X; congruence|]. split; [assumption|]. split.
  - intros x X. rewrite X1 in X. apply in_app_or in X. destruct X as [X|[<-|[]]]; [now apply TH|assumption].
  - rewrite NS1. destruct (Nat.eqb_spec (length (pre1 ++ post1)) 0) as [Z0|Z0]; [|reflexivity].
    destruct pre1; [congruence|discriminate].
Qed.

Lemma evolve_stops : forall c w g g', valid_conf c -> evolve c w g = (g', None) ->
  exists new, ga_scores g' = ga_scores g ++ new /\ stops_because c (ga_best g) new (ga_best g') (c_max c - ga_gen g) /\
    (forall pre s, new = pre ++ [s] -> forall x, In x pre -> (x < c_threshold c)%Q).
Proof.
  intros c w g g' V H. rewrite evolve_loop in H by assumption.
  destruct (loop_stops c w (ga_best g) _ _ _ _ _ _ (ga_scores g) (Z.to_nat (c_max c - ga_gen g)) H) as (new & E & S & L).
  { exists [], []. cbn. rewrite app_nil_r. repeat split; auto. intros x []. }
  exists new. split; [assumption|]. split; [|assumption]. unfold stops_because in *.
  destruct S as [S|[S|S]]; [now left|right; now left|right; right; lia].
Qed.

(** ** Elitism *)

Lemma next_first : forall genes c w t pop scores pop', well_behaved genes w -> valid_conf c ->
  (c_random c < Z.of_nat (c_size c))%Z ->
  length pop = c_size c -> length scores = c_size c -> next_generation c w t pop scores = Ok pop' ->
  exists k, is_best scores k /\ nth_error pop' 0 = nth_error pop k.
Proof.
  intros genes c w t pop scores pop' (WP & WF & WM & WS) (V1 & V2 & V3) R LP LS H. unfold next_generation in H.
  destruct (breed c w t _ _ 0 (c_size c / 2 - 1)) as [l|e] eqn:B; [|discriminate]. cbn [bind] in H.
  destruct (WS scores) as [P M]. set (o := w_sort w scores) in *.
  assert (LO : length o = c_size c) by (rewrite <- (Permutation_length P), seq_length; assumption).
  set (k := nth (c_size c - 1) o 0).
  assert (KIN : k < length scores).
  { assert (In k o) by (apply nth_In; lia). apply (Permutation_in _ (Permutation_sym P)) in H0. apply in_seq in H0. lia. }
  exists k. split.
  - split; [assumption|]. intros i I.
    assert (In i o) by (apply (Permutation_in _ P), in_seq; lia).
    destruct (In_nth _ _ 0 H0) as (j & J & <-). destruct (Nat.eq_dec j (c_size c - 1)) as [->|N]; [apply Qle_refl|].
    apply M. lia.
  - assert (R0 : exists r, rev o = k :: r).
    { assert (RV : rev o <> []) by (intros X; apply (f_equal (@length nat)) in X; rewrite rev_length in X; cbn in X; lia).
      destruct (rev o) as [|y r] eqn:E; [congruence|]. exists r. f_equal. unfold k.
      assert (Y : nth 0 (rev o) 0 = y) by now rewrite E. rewrite rev_nth in Y by lia. rewrite <- Y. f_equal. lia. }
    destruct R0 as (r & E). rewrite E in H. cbn [map] in H. cbn [firstn app] in H.
    injection H; intros <-.
    assert (NK : nth_error pop k = Some (nth k pop [])) by (apply nth_some; lia).
    destruct (Z.ltb_spec 0 (c_random c)) as [G|G].
    + destruct (c_size c - Z.to_nat (c_random c)) as [|m] eqn:SM; [lia|]. cbn. now rewrite NK.
    + cbn. now rewrite NK.
Qed.

Lemma loop_elitist : forall genes c w f, well_behaved genes w -> valid_conf c -> (c_random c < Z.of_nat (c_size c))%Z ->
  (forall pop, w_fitness w pop = map f pop) ->
  forall fuel t ns pop g g' e b, length pop = c_size c -> loop fuel c w t ns pop g = (g', e) ->
  (exists x, In x pop /\ (b <= f x)%Q) ->
  exists new, ga_scores g' = ga_scores g ++ new /\ StronglySorted Qle new /\ Forall (Qle b) new.
Proof.
  intros genes c w f WB V R PW. induction fuel as [|n IH]; intros t ns pop g g' e b LP H (x & X & BX); cbn [loop] in H.
  { injection H; intros <- <-. exists []. cbn. rewrite app_nil_r. repeat split; constructor. }
  pose proof WB as (WP & WF & WM & WS). pose proof V as (V1 & V2 & V3).
  set (sc := w_fitness w pop) in *. set (k := argmax sc) in *. set (s := nth k sc 0%Q) in *.
  assert (LS : length sc = c_size c) by (unfold sc; now rewrite WF).
  assert (NE : sc <> []) by (intros Y; rewrite Y in LS; cbn in LS; lia).
  assert (TS : top s sc) by (apply top_argmax; assumption).
  assert (BS : (b <= s)%Q).
  { assert (f x <= s)%Q by (apply TS; unfold sc; rewrite PW; now apply in_map). lra. }
  set (g1 := mkGa _ _ (ga_gen g) (ga_scores g ++ [s]) _) in H.
  assert (STOP : g' = g1 -> exists new, ga_scores g' = ga_scores g ++ new /\ StronglySorted Qle new /\ Forall (Qle b) new).
  { intros ->. exists [s]. repeat split; auto. repeat constructor. }
  destruct (Qle_bool _ _); [apply STOP; congruence|].
  destruct ((_ =? _)%Z && _); [apply STOP; congruence|].
  destruct (next_generation c w t pop sc) as [pop'|e'] eqn:NG; [|apply STOP; congruence].
  assert (LP' : length pop' = c_size c) by (eapply next_length; eassumption).
  destruct (next_first genes c w t pop sc pop' WB V R LP LS NG) as (j & [J M] & EJ).
  apply (IH _ _ _ _ _ _ s) in H; [|assumption|].
  - destruct H as (new & E & SS & FA). exists (s :: new). split; [rewrite E; unfold g1; cbn; now rewrite <- app_assoc|].
    split; [now constructor|]. constructor; [assumption|]. eapply Forall_impl; [|exact FA]. intros y Y. cbn in Y. lra.
  - exists (nth j pop []). assert (NJ : nth_error pop j = Some (nth j pop [])) by (apply nth_some; lia).
    rewrite NJ in EJ. split; [eapply nth_error_In; exact EJ|].
    assert (EQ : nth j sc 0%Q = f (nth j pop [])).
    { unfold sc. rewrite PW. apply (nth_map_in _ _ f pop [] 0%Q j). lia. }
    rewrite <- EQ. apply M. unfold s. apply argmax_spec. assumption.
Qed.

Lemma evolve_elitist : forall genes c w f g g' e, well_behaved genes w -> valid_conf c -> (c_random c < Z.of_nat (c_size c))%Z ->
  (forall pop, w_fitness w pop = map f pop) -> evolve c w g = (g', e) ->
  exists new, ga_scores g' = ga_scores g ++ new /\ StronglySorted Qle new.
Proof.
  intros genes c w f g g' e WB V R PW H. rewrite evolve_loop in H by assumption.
  pose proof WB as (WP & _). destruct (WP 0 (c_size c)) as [LP _]. destruct V as (V1 & V).
  destruct (loop_elitist genes c w f WB (conj V1 V) R PW _ _ _ _ _ _ _ (f (nth 0 (w_populate w 0 (c_size c)) [])) LP H) as (new & E & SS & _).
  - exists (nth 0 (w_populate w 0 (c_size c)) []). split; [apply nth_In; lia|apply Qle_refl].
  - now exists new.
Qed.

(** ** Genes *)

(** Every gene takes only the values allowed at its position. *)
Definition good (genes : nat) (allowed : nat -> Z -> Prop) (x : genome) : Prop :=
  length x = genes /\ forall j, j < genes -> allowed j (nth j x 0%Z).

Lemma cross_good : forall genes allowed m cut p q c d, good genes allowed p -> good genes allowed q ->
  cross m cut p q = Ok (c, d) -> good genes allowed c /\ good genes allowed d.
Proof.
  intros genes allowed m cut p q c d [LP AP] [LQ AQ] H.
  destruct (cross_genes m cut p q c d ltac:(lia) H) as (LC & LD & G).
  split; (split; [lia|]); intros j J; destruct (G j ltac:(lia)) as [[G1 G2]|[G1 G2]]; first [rewrite G1|rewrite G2]; auto.
Qed.

(** The positions of the selected parents are those of individuals. *)
Definition fair (c : conf) (w : world) : Prop :=
  forall t i scores, length scores = c_size c -> valid_draw (c_select c) scores (w_draw w t i).

Lemma select_inside : forall m scores d s' a b, 2 <= length scores -> valid_draw m scores d ->
  select m scores d = (s', Ok (a, b)) -> a < length scores /\ b < length scores /\ length s' = length scores.
Proof.
  intros m scores d s' a b N V H. destruct m; cbn in H.
  - unfold select in H. destruct (existsb _ _); [discriminate|]. destruct V as (A & B & _).
    assert (d_pair d = (a, b)) by congruence. rewrite H0 in *. cbn in *. split; [assumption|]. split; [assumption|].
    assert (s' = fps_scores scores) as -> by congruence. unfold fps_scores. destruct (_ <? 2); [apply map_length|reflexivity].
  - destruct (select_tournament scores d N V) as (a' & b' & E & [A _] & [B _]). cbn in E.
    assert (a = a' /\ b = b' /\ s' = scores) as (-> & -> & ->) by (split; [|split]; congruence). auto.
  - destruct V as (A & B & _). assert (d_pair d = (a, b) /\ s' = scores) as [E ->] by (split; congruence).
    rewrite E in *. auto.
  - discriminate.
Qed.

Lemma breed_good : forall genes allowed c w t pop, fair c w -> 2 <= c_size c ->
  (forall t i b x, good genes allowed x -> good genes allowed (w_mutate w t i b x)) ->
  (forall k, k < c_size c -> good genes allowed (nth k pop [])) ->
  forall n i scores l, length scores = c_size c -> breed c w t pop scores i n = Ok l -> Forall (good genes allowed) l.
Proof.
  intros genes allowed c w t pop FR SZ GM GP. induction n as [|n IH]; intros i scores l LS H; cbn in H; [injection H; intros <-; constructor|].
  destruct (select (c_select c) scores (w_draw w t i)) as [s' [[a b]|e]] eqn:SE; [|discriminate].
  destruct (cross _ _ _ _) as [[x y]|e] eqn:CR; [|discriminate]. cbn [bind] in H.
  destruct (breed c w t pop s' (S i) n) as [l'|e] eqn:B; [|discriminate]. cbn [bind fst snd] in H.
  destruct (select_inside (c_select c) scores (w_draw w t i) s' a b ltac:(lia) (FR t i scores LS) SE) as (A1 & B1 & L1).
  destruct (cross_good genes allowed _ _ _ _ _ _ (GP a ltac:(lia)) (GP b ltac:(lia)) CR) as [G1 G2].
  apply IH in B; [|lia]. injection H; intros <-. constructor; [now apply GM|]. constructor; [now apply GM|assumption].
Qed.

Lemma next_good : forall genes allowed c w t pop scores pop', well_behaved genes w -> valid_conf c -> fair c w ->
  (forall t i b x, good genes allowed x -> good genes allowed (w_mutate w t i b x)) ->
  (forall t n x, In x (w_populate w t n) -> good genes allowed x) ->
  (forall j, j < genes -> allowed j 0%Z) ->
  length pop = c_size c -> Forall (good genes allowed) pop -> length scores = c_size c ->
  next_generation c w t pop scores = Ok pop' -> Forall (good genes allowed) pop'.
Proof.
  intros genes allowed c w t pop scores pop' (WP & WF & WM & WS) (V1 & V2 & V3) FR GM GPOP GZ LP GP LS H. unfold next_generation in H.
  destruct (WS scores) as [P M]. set (o := w_sort w scores) in *.
  assert (LO : length o = c_size c) by (rewrite <- (Permutation_length P), seq_length; assumption).
  assert (GN : forall k, k < c_size c -> good genes allowed (nth k pop [])).
  { intros k K. rewrite Forall_forall in GP. apply GP, nth_In. lia. }
  set (p' := map (fun i => nth i pop []) (rev o)) in *.
  assert (LP' : length p' = c_size c) by (unfold p'; rewrite map_length, rev_length; assumption).
  assert (GP' : Forall (good genes allowed) p').
  { apply Forall_forall. intros x X. unfold p' in X. apply in_map_iff in X. destruct X as (i & <- & I).
    apply GN. apply in_rev in I. apply (Permutation_in _ (Permutation_sym P)) in I. apply in_seq in I. lia. }
  destruct (breed c w t p' _ 0 (c_size c / 2 - 1)) as [l|e] eqn:B; [|discriminate]. cbn [bind] in H.
  assert (GL : Forall (good genes allowed) l).
  { refine (breed_good genes allowed c w t p' FR V1 GM _ _ _ _ _ _ B).
    - intros k K. rewrite Forall_forall in GP'. apply GP'. apply nth_In. unfold genome in *. lia.
    - rewrite map_length, rev_length. assumption. }
  assert (GR : forall k, Forall (good genes allowed) (repeat (repeat 0%Z (length (nth 0 pop []))) k)).
  { intros k. apply Forall_forall. intros x X. apply repeat_spec in X. subst x.
    destruct (GN 0 ltac:(lia)) as [LG _]. rewrite LG. split; [apply repeat_length|]. intros j J.
    assert (E : nth j (repeat 0%Z genes) 0%Z = 0%Z).
    { clear. revert j. induction genes as [|n IH]; intros [|j]; cbn; auto. }
    rewrite E. now apply GZ. }
  set (rows := firstn 2 p' ++ l) in *.
  assert (GROWS : Forall (good genes allowed) (rows ++ repeat (repeat 0%Z (length (nth 0 pop []))) (c_size c - length rows))).
  { apply Forall_app. split; [|apply GR]. apply Forall_app. split; [|assumption].
    apply Forall_forall. intros x X. rewrite Forall_forall in GP'. apply GP'. rewrite <- (firstn_skipn 2 p'). apply in_or_app. now left. }
  injection H; intros <-. destruct (0 <? c_random c)%Z; [|assumption].
  apply Forall_app. split; [|apply Forall_forall; intros x X; eapply GPOP; exact X].
  apply Forall_forall. intros x X. rewrite Forall_forall in GROWS. apply GROWS.
  rewrite <- (firstn_skipn (c_size c - Z.to_nat (c_random c))). apply in_or_app. now left.
Qed.

Lemma loop_good : forall genes allowed c w, well_behaved genes w -> valid_conf c -> fair c w ->
  (forall t i b x, good genes allowed x -> good genes allowed (w_mutate w t i b x)) ->
  (forall t n x, In x (w_populate w t n) -> good genes allowed x) ->
  (forall j, j < genes -> allowed j 0%Z) ->
  forall fuel t ns pop g g' e, length pop = c_size c -> Forall (good genes allowed) pop ->
  (forall x, ga_genome g = Some x -> good genes allowed x) -> loop fuel c w t ns pop g = (g', e) ->
  forall x, ga_genome g' = Some x -> good genes allowed x.
Proof.
  intros genes allowed c w WB V FR GM GPOP GZ. induction fuel as [|n IH]; intros t ns pop g g' e LP GP GG H; cbn [loop] in H.
  { injection H; intros <- <-. assumption. }
  pose proof WB as (WP & WF & WM & WS).
  set (sc := w_fitness w pop) in *. set (k := argmax sc) in *.
  assert (LS : length sc = c_size c) by (unfold sc; now rewrite WF).
  set (g1 := mkGa _ _ (ga_gen g) (ga_scores g ++ _) _) in H.
  assert (GG1 : forall x, ga_genome g1 = Some x -> good genes allowed x).
  { unfold g1; cbn. intros x X. destruct (Qltb _ _); [|now apply GG]. apply nth_error_In in X. rewrite Forall_forall in GP. now apply GP. }
  destruct (Qle_bool _ _); [injection H; intros <- <-; assumption|].
  destruct ((_ =? _)%Z && _); [injection H; intros <- <-; assumption|].
  destruct (next_generation c w t pop sc) as [pop'|e'] eqn:NG; [|injection H; intros <- <-; assumption].
  eapply IH; [| | |exact H].
  - eapply next_length; eassumption.
  - eapply next_good; eassumption.
  - exact GG1.
Qed.

Lemma evolve_good : forall genes allowed c w g g' e, well_behaved genes w -> valid_conf c -> fair c w ->
  (forall t i b x, good genes allowed x -> good genes allowed (w_mutate w t i b x)) ->
  (forall t n x, In x (w_populate w t n) -> good genes allowed x) ->
  (forall j, j < genes -> allowed j 0%Z) -> evolve c w g = (g', e) ->
  exists x, ga_genome g' = Some x /\ good genes allowed x.
Proof.
  intros genes allowed c w g g' e WB V FR GM GPOP GZ H.
  destruct (evolve_best genes c w g g' e WB V H) as (new & newc & _ & _ & _ & _ & _ & _ & GN).
  assert (X : exists x, ga_genome g' = Some x) by (destruct GN as [(_ & x & E & _)|(_ & x & E & _)]; now exists x).
  destruct X as (x & E). exists x. split; [assumption|].
  rewrite evolve_loop in H by assumption. pose proof WB as (WP & _). destruct (WP 0 (c_size c)) as [LP _].
  eapply (loop_good genes allowed c w WB V FR GM GPOP GZ); [exact LP| | |exact H|exact E].
  - apply Forall_forall. intros y Y. eapply GPOP; exact Y.
  - cbn [ga_genome]. intros y Y. apply nth_error_In in Y. eapply GPOP; exact Y.
Qed.
