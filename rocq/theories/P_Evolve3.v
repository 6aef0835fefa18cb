(** Lemmas: the genetic algorithm of a schedule, and computed examples. *)
From Coq Require Import List Arith ZArith QArith Bool Lia Lqa Permutation Sorting.Sorted.
From Verif Require Import Base M_Sched M_Genetic M_Evolve P_Cnst2 P_Genetic P_Evolve P_Evolve2.
Import ListNotations.
Open Scope nat_scope.

(** The functions given by a schedule (schedule.py 1809-1850 and 1927-1938):
    genomes that are bounded, and mutations of one gene. *)
Definition schedule_world (size : nat) (ns : list nat) (w : world) : Prop :=
  (forall t n x, In x (w_populate w t n) -> exists y, length y = length ns /\ x = bound_genome size ns y) /\
  (forall t i b x, exists k v, w_mutate w t i b x = mutate size ns k v x).

Lemma genome_ok_good : forall size ns x, genome_ok size ns x <->
  good (length ns) (fun j v => gene_ok size (nth j ns 0) v) x.
Proof.
  intros size ns x. split.
  - intros H. induction H as [|n v ns x A F IH]; [split; [reflexivity|cbn; intros; lia]|].
    destruct IH as [L G]. split; [cbn; lia|]. intros [|j] J; cbn in *; [assumption|]. apply G. lia.
  - revert x. induction ns as [|n ns IH]; intros [|v x] [L G]; cbn in L; try lia; constructor.
    + apply (G 0). cbn. lia.
    + apply IH. split; [lia|]. intros j J. apply (G (S j)). cbn. lia.
Qed.

Lemma evolve_in_range : forall size ns c w g g' e, well_behaved (length ns) w -> valid_conf c -> fair c w ->
  schedule_world size ns w -> (forall n, In n ns -> n < size) -> evolve c w g = (g', e) ->
  exists x, ga_genome g' = Some x /\ genome_ok size ns x.
Proof.
  intros size ns c w g g' e WB V FR [SP SM] SZ H.
  destruct (evolve_good (length ns) (fun j v => gene_ok size (nth j ns 0) v) c w g g' e WB V FR) as (x & E & G); try assumption.
  - intros t i b x X. destruct (SM t i b x) as (k & v & ->). apply genome_ok_good. apply genome_ok_good in X.
    apply mutate_spec; try assumption. now apply genome_ok_good in X as [L _].
  - intros t n x X. destruct (SP t n x X) as (y & LY & ->). apply genome_ok_good. now apply bound_genome_ok.
  - intros j J. assert (nth j ns 0 < size) by (apply SZ, nth_In; assumption). unfold gene_ok. lia.
  - exists x. split; [assumption|]. now apply genome_ok_good.
Qed.

(** ** A stable sort *)

Definition argsort (l : list Q) : list nat := sort_by (fun i => nth i l 0%Q) (seq 0 (length l)).

Lemma sorted_nth : forall (f : nat -> Q) p, StronglySorted (by_score f) p ->
  forall i j, i < j < length p -> (f (nth i p 0%nat) <= f (nth j p 0%nat))%Q.
Proof.
  intros f p H. induction H as [|a t H IH F]; intros i j [I J]; cbn in J; [lia|].
  destruct j as [|j]; [lia|]. destruct i as [|i]; cbn.
  - rewrite Forall_forall in F. apply F. apply nth_In. lia.
  - apply IH. lia.
Qed.

Lemma argsort_sorts : sorts argsort.
Proof.
  intros l. split; [apply sort_by_perm|]. intros i j IJ.
  apply (sorted_nth (fun i => nth i l 0%Q)); [apply sort_by_sorted|].
  pose proof (Permutation_length (sort_by_perm (fun i => nth i l 0%Q) (seq 0 (length l)))) as L. rewrite seq_length in L.
  unfold argsort. lia.
Qed.

(** The ranks do not follow the scores when two of them are equal. *)
Lemma ranks_ties : ranks argsort [5; 5; 1]%Q = [3; 1; 2].
Proof. vm_compute. reflexivity. Qed.

(** ** A small evolution: a block of two slots in a schedule of ten *)

Definition grade (x : genome) : Q := match x with [v] => inject_Z v / 10 | _ => 0%Q end.
Definition demo_draw : draw := mkDraw [0; 1] [2; 3] (0, 1).
Definition demo_world (first : Z) : world :=
  mkWorld (fun t n => map (fun i => bound_genome 10 [2] [(first + Z.of_nat i)%Z]) (seq 0 n))
          (map grade) argsort (fun _ _ => demo_draw) (fun _ _ _ => 0)
          (fun t i b x => mutate 10 [2] 0 (Z.of_nat (4 + t)) x).
Definition demo_conf (r : Z) : conf := mkConf 4 1 6 3 r TNS TPCO.

Lemma demo_behaves : forall first, well_behaved 1 (demo_world first).
Proof.
  intros first. split; [|split; [|split]].
  - intros t n. cbn. rewrite map_length, seq_length. split; [reflexivity|].
    intros x X. apply in_map_iff in X. destruct X as (i & <- & _). reflexivity.
  - intros pop. cbn. apply map_length.
  - intros t i b x L. cbn. destruct x as [|v [|]]; try discriminate. reflexivity.
  - apply argsort_sorts.
Qed.

Lemma demo_schedule : forall first, schedule_world 10 [2] (demo_world first).
Proof.
  intros first. split.
  - intros t n x X. cbn in X. apply in_map_iff in X. destruct X as (i & <- & _). now exists [(first + Z.of_nat i)%Z].
  - intros t i b x. now exists 0, (Z.of_nat (4 + t)).
Qed.

Lemma demo_valid : forall r, (r <= 4)%Z -> valid_conf (demo_conf r).
Proof. intros r R. split; [cbn; lia|]. split; [cbn; lra|assumption]. Qed.

Lemma demo_fair : forall r first, fair (demo_conf r) (demo_world first).
Proof.
  intros r first t i scores L. cbn in *. rewrite L.
  split; (split; [reflexivity|]; split; [repeat constructor; cbn; intuition discriminate|]);
    intros j J; cbn in J; intuition lia.
Qed.

Lemma demo_evolution : exists g, evolve (demo_conf 1) (demo_world 0) new_ga = (g, None) /\
  map Qred (ga_scores g) = [3#10; 2#5; 1#2; 3#5; 7#10; 7#10]%Q /\ ga_genome g = Some [7%Z] /\ ga_gen g = 5%Z.
Proof. eexists. split; [vm_compute; reflexivity|]. repeat split; vm_compute; reflexivity. Qed.

(** Replacing the whole population loses the best individual. *)
Lemma whole_population : exists w g, well_behaved 1 w /\ evolve (demo_conf 4) w new_ga = (g, None) /\
  map Qred (ga_scores g) = [7#10; 3#5; 1#2; 2#5]%Q.
Proof.
  exists (mkWorld (fun t n => map (fun i => [(7 - Z.of_nat t)%Z]) (seq 0 n)) (map grade) argsort
            (fun _ _ => demo_draw) (fun _ _ _ => 0) (fun t i b x => x)).
  eexists. split.
  - split; [|split; [|split]].
    + intros t n. cbn. rewrite map_length, seq_length. split; [reflexivity|].
      intros x X. apply in_map_iff in X. destruct X as (i & <- & _). reflexivity.
    + intros pop. cbn. apply map_length.
    + intros t i b x L. exact L.
    + apply argsort_sorts.
  - split; vm_compute; reflexivity.
Qed.

(** A second call keeps the best score but not the genome that has it. *)
Lemma second_call : exists c w w' g1 g2 x, well_behaved 1 w /\ well_behaved 1 w' /\ valid_conf c /\
  evolve c w new_ga = (g1, None) /\ evolve c w' g1 = (g2, None) /\
  ga_best g2 = ga_best g1 /\ ga_genome g2 = Some x /\ (grade x < ga_best g2)%Q /\
  (ga_gen g2 + 1 <> Z.of_nat (length (ga_scores g2)))%Z.
Proof.
  exists (demo_conf 1), (demo_world 5), (demo_world 0). eexists. eexists. exists [0%Z].
  split; [apply demo_behaves|]. split; [apply demo_behaves|]. split; [apply demo_valid; lia|].
  split; [vm_compute; reflexivity|]. split; [vm_compute; reflexivity|]. split; [reflexivity|].
  split; [reflexivity|]. split; [reflexivity|]. vm_compute. discriminate.
Qed.

(** An odd population without random individual gets a genome of zeros. *)
Lemma zero_individual : exists pop', next_generation (mkConf 3 1 6 3 0 TNS TPCO) (demo_world 5) 0 [[5]; [6]; [7]]%Z [5#10; 6#10; 7#10]%Q = Ok pop' /\
  pop' = [[7]; [6]; [0]]%Z.
Proof. eexists. split; vm_compute; reflexivity. Qed.
