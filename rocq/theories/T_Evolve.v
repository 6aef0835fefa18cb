(** Property theorems: the genetic algorithm (C31, C32, C70 to C72). *)
From Coq Require Import List Arith ZArith QArith Bool Lia Sorting.Sorted.
From Verif Require Import Base M_Sched M_Genetic M_Evolve P_Genetic P_Evolve P_Evolve2 P_Evolve3.
Import ListNotations.
Open Scope nat_scope.

(** C31: the children have the genes of the parents, position by position. *)
Theorem C31_genes : forall m cut p q c d, length q = length p -> cross m cut p q = Ok (c, d) -> same_genes p q c d.
Proof. exact cross_genes. Qed.
Print Assumptions C31_genes.

(** C31: a crossover fails only for an unknown method or without gene. *)
Theorem C31_defined : forall m cut p q,
  (exists c d, cross m cut p q = Ok (c, d)) <->
  length p = 1 \/ (m <> CrossOther /\ (length p <> 0 \/ m = UNCO)).
Proof. exact cross_defined. Qed.
Print Assumptions C31_defined.

Theorem C31_error : forall m cut p q e, cross m cut p q = Err e -> e = EValueError.
Proof. exact cross_error. Qed.
Print Assumptions C31_error.

(** C31: the genes exchanged by each method. *)
Theorem C31_single_point : forall cut p q, length q = length p -> 2 <= length p -> valid_cut SPCO (length p) cut ->
  cross SPCO cut p q = Ok (firstn (cut 0) p ++ skipn (cut 0) q, firstn (cut 0) q ++ skipn (cut 0) p).
Proof. exact cross_single. Qed.
Print Assumptions C31_single_point.

Theorem C31_two_points : forall cut p q c d i, length q = length p -> 2 <= length p ->
  cross TPCO cut p q = Ok (c, d) -> i < length p ->
  (Nat.min (cut 0) (cut 1) <= i < Nat.max (cut 0) (cut 1) -> nth i c 0%Z = nth i q 0%Z /\ nth i d 0%Z = nth i p 0%Z) /\
  (~ (Nat.min (cut 0) (cut 1) <= i < Nat.max (cut 0) (cut 1)) -> nth i c 0%Z = nth i p 0%Z /\ nth i d 0%Z = nth i q 0%Z).
Proof. exact cross_double. Qed.
Print Assumptions C31_two_points.

(** C31: the two point crossover never exchanges the last gene. *)
Theorem C31_last_gene : forall cut p q c d, length q = length p -> valid_cut TPCO (length p) cut ->
  cross TPCO cut p q = Ok (c, d) -> last c 0%Z = last p 0%Z /\ last d 0%Z = last q 0%Z.
Proof. exact cross_double_last. Qed.
Print Assumptions C31_last_gene.

Theorem C31_uniform : forall cut p q c d i, length q = length p -> 2 <= length p ->
  cross UNCO cut p q = Ok (c, d) -> i < length p ->
  if cut i =? 0 then nth i c 0%Z = nth i p 0%Z /\ nth i d 0%Z = nth i q 0%Z
  else nth i c 0%Z = nth i q 0%Z /\ nth i d 0%Z = nth i p 0%Z.
Proof. exact cross_uniform. Qed.
Print Assumptions C31_uniform.

Example C31_ex : valid_cut SPCO 4 (fun _ => 1) /\ valid_cut TPCO 4 (fun i => if i =? 0 then 3 else 1) /\
  cross SPCO (fun _ => 1) [1; 2; 3; 4]%Z [5; 6; 7; 8]%Z = Ok ([1; 6; 7; 8], [5; 2; 3; 4])%Z /\
  cross TPCO (fun i => if i =? 0 then 3 else 1) [1; 2; 3; 4]%Z [5; 6; 7; 8]%Z = Ok ([1; 6; 7; 4], [5; 2; 3; 8])%Z /\
  cross UNCO (fun i => i mod 2) [1; 2; 3; 4]%Z [5; 6; 7; 8]%Z = Ok ([1; 6; 3; 8], [5; 2; 7; 4])%Z.
Proof. split; [cbn; lia|]. split; [cbn; lia|]. repeat split. Qed.

(** C32: a call of [evolve] evaluates at most as many populations as there are
    generations left; the score of a generation is the best of its population;
    the best score is the greatest of all of them and of the one before the
    call, so that it never decreases; and the best genome is one that was
    evaluated with this score, or the first individual if there is none. *)
Theorem C32_best : forall genes c w g g' e, well_behaved genes w -> valid_conf c -> evolve c w g = (g', e) ->
  exists new newc, ga_scores g' = ga_scores g ++ new /\ ga_children g' = ga_children g ++ newc /\
    (Z.of_nat (length new) <= Z.max 0 (c_max c - ga_gen g))%Z /\
    Forall2 top new newc /\ Forall (fun sc => length sc = c_size c) newc /\
    greatest (ga_best g) new (ga_best g') /\
    ((ga_best g' = ga_best g /\ exists x, ga_genome g' = Some x /\ nth_error (w_populate w 0 (c_size c)) 0 = Some x) \/
     ((ga_best g < ga_best g')%Q /\ exists x, ga_genome g' = Some x /\ evaluated w newc x (ga_best g'))).
Proof. exact evolve_best. Qed.
Print Assumptions C32_best.

(** C32: the generations are counted from 0. *)
Theorem C32_count : forall c w g' e, valid_conf c -> evolve c w new_ga = (g', e) ->
  (ga_gen g' + 1 = Z.of_nat (length (ga_scores g')))%Z.
Proof. exact evolve_count. Qed.
Print Assumptions C32_count.

(** C32: it stops at the first generation reaching the threshold, or because
    the last generations brought no improvement, or at the last one. *)
Theorem C32_stops : forall c w g g', valid_conf c -> evolve c w g = (g', None) ->
  exists new, ga_scores g' = ga_scores g ++ new /\ stops_because c (ga_best g) new (ga_best g') (c_max c - ga_gen g) /\
    (forall pre s, new = pre ++ [s] -> forall x, In x pre -> (x < c_threshold c)%Q).
Proof. exact evolve_stops. Qed.
Print Assumptions C32_stops.

Theorem C32_refused : forall c w g, 2 <= c_size c -> ~ valid_conf c -> evolve c w g = (g, Some EValueError).
Proof. exact evolve_refused. Qed.
Print Assumptions C32_refused.

Example C32_ex : well_behaved 1 (demo_world 0) /\ valid_conf (demo_conf 1) /\
  exists g, evolve (demo_conf 1) (demo_world 0) new_ga = (g, None) /\
    map Qred (ga_scores g) = [3#10; 2#5; 1#2; 3#5; 7#10; 7#10]%Q /\ ga_genome g = Some [7%Z] /\ ga_gen g = 5%Z.
Proof. split; [apply demo_behaves|]. split; [apply demo_valid; lia|]. exact demo_evolution. Qed.

(** C32: a second call on the same object forgets the genome of the best score,
    and its generations are not counted as the scores are. *)
Theorem C32_second_call_refuted : exists c w w' g1 g2 x, well_behaved 1 w /\ well_behaved 1 w' /\ valid_conf c /\
  evolve c w new_ga = (g1, None) /\ evolve c w' g1 = (g2, None) /\
  ga_best g2 = ga_best g1 /\ ga_genome g2 = Some x /\ (grade x < ga_best g2)%Q /\
  (ga_gen g2 + 1 <> Z.of_nat (length (ga_scores g2)))%Z.
Proof. exact second_call. Qed.
Print Assumptions C32_second_call_refuted.

(** C70: when an individual is always graded the same and the population is not
    entirely replaced, generations are better and better. *)
Theorem C70_elitism : forall genes c w f g g' e, well_behaved genes w -> valid_conf c -> (c_random c < Z.of_nat (c_size c))%Z ->
  (forall pop, w_fitness w pop = map f pop) -> evolve c w g = (g', e) ->
  exists new, ga_scores g' = ga_scores g ++ new /\ StronglySorted Qle new.
Proof. exact evolve_elitist. Qed.
Print Assumptions C70_elitism.

(** C70: one of the best individuals is the first of the next generation. *)
Theorem C70_first : forall genes c w t pop scores pop', well_behaved genes w -> valid_conf c ->
  (c_random c < Z.of_nat (c_size c))%Z ->
  length pop = c_size c -> length scores = c_size c -> next_generation c w t pop scores = Ok pop' ->
  exists k, is_best scores k /\ nth_error pop' 0 = nth_error pop k.
Proof. exact next_first. Qed.
Print Assumptions C70_first.

(** C70: the size of the population does not change. *)
Theorem C70_size : forall c w t pop scores pop' genes, well_behaved genes w -> valid_conf c ->
  length scores = c_size c -> next_generation c w t pop scores = Ok pop' -> length pop' = c_size c.
Proof. exact next_length. Qed.
Print Assumptions C70_size.

Example C70_ex : (c_random (demo_conf 1) < Z.of_nat (c_size (demo_conf 1)))%Z /\
  (forall pop, w_fitness (demo_world 0) pop = map grade pop).
Proof. split; [reflexivity|]. intros pop. reflexivity. Qed.

(** C70: not when it is. *)
Theorem C70_whole_population_refuted : exists w g, well_behaved 1 w /\ evolve (demo_conf 4) w new_ga = (g, None) /\
  map Qred (ga_scores g) = [7#10; 3#5; 1#2; 2#5]%Q.
Proof. exact whole_population. Qed.
Print Assumptions C70_whole_population_refuted.

(** C71: with the functions of a schedule the best genome puts every block
    inside the schedule. *)
Theorem C71_in_range : forall size ns c w g g' e, well_behaved (length ns) w -> valid_conf c -> fair c w ->
  schedule_world size ns w -> (forall n, In n ns -> n < size) -> evolve c w g = (g', e) ->
  exists x, ga_genome g' = Some x /\ genome_ok size ns x.
Proof. exact evolve_in_range. Qed.
Print Assumptions C71_in_range.

(** C71: more generally no gene takes a value that is neither given by the
    population, nor by a mutation, nor zero. *)
Theorem C71_genes : forall genes allowed c w g g' e, well_behaved genes w -> valid_conf c -> fair c w ->
  (forall t i b x, good genes allowed x -> good genes allowed (w_mutate w t i b x)) ->
  (forall t n x, In x (w_populate w t n) -> good genes allowed x) ->
  (forall j, j < genes -> allowed j 0%Z) -> evolve c w g = (g', e) ->
  exists x, ga_genome g' = Some x /\ good genes allowed x.
Proof. exact evolve_good. Qed.
Print Assumptions C71_genes.

Example C71_ex : fair (demo_conf 1) (demo_world 0) /\ schedule_world 10 [2] (demo_world 0).
Proof. split; [apply demo_fair|apply demo_schedule]. Qed.

(** C71: zero comes from the odd populations without random individual. *)
Theorem C71_zero_refuted : exists pop', next_generation (mkConf 3 1 6 3 0 TNS TPCO) (demo_world 5) 0 [[5]; [6]; [7]]%Z [5#10; 6#10; 7#10]%Q = Ok pop' /\
  pop' = [[7]; [6]; [0]]%Z.
Proof. exact zero_individual. Qed.
Print Assumptions C71_zero_refuted.

(** C72: a parent selected by a tournament has a score at least as good as
    those of one tenth of the population, and of two individuals. *)
Theorem C72_tournament : forall scores d, 2 <= length scores -> valid_draw TNS scores d ->
  exists a b, select TNS scores d = (scores, Ok (a, b)) /\
    beats scores (contestants (length scores)) a /\ beats scores (contestants (length scores)) b.
Proof. exact select_tournament. Qed.
Print Assumptions C72_tournament.

Theorem C72_contestants : forall n, 2 <= n -> 2 <= contestants n <= n /\ (n <= 10 * contestants n).
Proof. exact contestants_spec. Qed.
Print Assumptions C72_contestants.

(** C72: the proportionate selection never raises and gives two different
    individuals, of positive scores if there are two. *)
Theorem C72_proportionate : forall scores d, 2 <= length scores -> nonneg scores -> valid_draw FPS scores d ->
  exists s' a b, select FPS scores d = (s', Ok (a, b)) /\ a < length scores /\ b < length scores /\ a <> b /\
    length s' = length scores /\ 2 <= nonzero s' /\ nonneg s' /\
    (2 <= nonzero scores -> s' = scores /\ (0 < nth a scores 0)%Q /\ (0 < nth b scores 0)%Q).
Proof. exact select_fitness. Qed.
Print Assumptions C72_proportionate.

(** C72: the ranks of strictly decreasing scores are [n], ..., 1. *)
Theorem C72_ranks : forall sort l, sorts sort ->
  (forall i j, i < j < length l -> (nth j l 0 < nth i l 0)%Q) ->
  ranks sort l = map (fun i => length l - i) (seq 0 (length l)).
Proof. exact ranks_decreasing. Qed.
Print Assumptions C72_ranks.

Example C72_ex : valid_draw TNS [3; 1; 2; 0]%Q demo_draw /\ valid_draw FPS [3; 1; 0; 0]%Q demo_draw /\
  snd (select TNS [3; 1; 2; 0]%Q demo_draw) = Ok (0, 2) /\ snd (select FPS [3; 1; 0; 0]%Q demo_draw) = Ok (0, 1) /\
  sorts argsort /\ ranks argsort [9; 5; 1]%Q = [3; 2; 1].
Proof.
  split. { apply (demo_fair 1 0%Z 0 0). reflexivity. }
  split. { cbn. repeat split; try lia; intros H; discriminate H. }
  split; [vm_compute; reflexivity|]. split; [vm_compute; reflexivity|]. split; [apply argsort_sorts|vm_compute; reflexivity].
Qed.

(** C72: with equal scores an individual may rank after one of lower score. *)
Theorem C72_ties_refuted : ranks argsort [5; 5; 1]%Q = [3; 1; 2].
Proof. exact ranks_ties. Qed.
Print Assumptions C72_ties_refuted.
