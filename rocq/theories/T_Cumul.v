(** C253: data volumes added up over time. *)
From Coq Require Import String List Arith ZArith QArith Bool Lia Lqa Permutation Sorted.
From Verif Require Import Base M_Parset M_Config M_Cumul P_Cumul.
Import ListNotations.
Open Scope nat_scope.
Open Scope list_scope.

Theorem C253_sums : forall argsort, sorts argsort -> forall unit now o name times cums, ~ (unit == 0)%Q -> cumulative argsort unit now o name = Ok (times, cums) ->
  exists b l, name = receiver_key b /\ Permutation l (map (dated now) (receivers o b)) /\ StronglySorted Qle times /\ times = map fst l /\ length cums = length times /\
    forall k, k < length l -> exists x, nth_error cums k = Some x /\ same_sum (firstn (S k) (map snd l)) x unit.
Proof. exact cumulative_spec. Qed.
Print Assumptions C253_sums.
Theorem C253_total : forall argsort, sorts argsort -> forall unit now o b times cums, ~ (unit == 0)%Q -> cumulative argsort unit now o (receiver_key b) = Ok (times, cums) ->
  exists x, nth_error cums (length cums - 1) = Some x /\
    match x, obs_volume o b with Some q, Some v => (q * unit == v)%Q | None, None => True | _, _ => False end.
Proof. exact cumulative_total. Qed.
Print Assumptions C253_total.
Theorem C253_error : forall argsort unit now o name e, cumulative argsort unit now o name = Err e <->
  e = EValueError /\ ((forall b, name <> receiver_key b) \/ exists b, name = receiver_key b /\ receivers o b = []).
Proof. exact cumulative_error. Qed.
Print Assumptions C253_error.
Theorem C253_grows : forall argsort, sorts argsort -> forall unit now o b times cums, (0 < unit)%Q -> cumulative argsort unit now o (receiver_key b) = Ok (times, cums) ->
  (forall r, In r (receivers o b) -> exists v, receiver_volume r = Some v /\ (0 <= v)%Q) ->
  forall k x y, nth_error cums k = Some (Some x) -> nth_error cums (S k) = Some (Some y) -> (x <= y)%Q.
Proof. exact cumulative_grows. Qed.
Print Assumptions C253_grows.
Theorem C253_units : forall argsort u u' now o name times times' cums cums', ~ (u == 0)%Q -> ~ (u' == 0)%Q ->
  cumulative argsort u now o name = Ok (times, cums) -> cumulative argsort u' now o name = Ok (times', cums') ->
  times = times' /\ forall k x y, nth_error cums k = Some x -> nth_error cums' k = Some y ->
    match x, y with Some p, Some q => (p * u == q * u')%Q | None, None => True | _, _ => False end.
Proof. exact cumulative_units. Qed.
Print Assumptions C253_units.
Theorem C253_names : forall argsort unit now o name,
  (forall b, In (name, b) listed -> receivers o b <> [] -> exists r, cumulative argsort unit now o name = Ok r) /\
  (~ In name (map fst listed) -> cumulative argsort unit now o name = Err EValueError).
Proof. exact cumulative_names. Qed.
Print Assumptions C253_names.
(** Three observations of beamlets, in bytes of a unit of four. *)
Definition demo_beam (d t : Q) : receiver := One (mkConfig Bst [(NPolars, 2%Q); (NSubBands, 3%Q)] d (Some t)).
Definition demo_obs : list (backend * list receiver) := [(Bst, [demo_beam 10 5; demo_beam 20 2; demo_beam 1 9])].
Example C253_ex : sorts order /\ exists x y z, cumulative order 4 0 demo_obs "bst" = Ok ([2; 5; 9]%Q, [Some x; Some y; Some z]) /\ x == 120 /\ y == 180 /\ z == 186 /\
  (exists v, obs_volume demo_obs Bst = Some v /\ v == 744)%Q /\ (forall r, In r (receivers demo_obs Bst) -> exists v, receiver_volume r = Some v /\ (0 <= v)%Q) /\
  cumulative order 4 0 demo_obs "tf" = Err EValueError /\ cumulative order 4 0 demo_obs "sst" = Err EValueError.
Proof.
  split; [exact order_sorts|]. do 3 eexists. split; [vm_compute; reflexivity|]. repeat split; try (vm_compute; reflexivity); [eexists; split; vm_compute; reflexivity|].
  intros r [<-|[<-|[<-|[]]]]; eexists; (split; [vm_compute; reflexivity|]); vm_compute; discriminate.
Qed.
(** Raw configurations of the shortest duration: their volumes are negative and the sums fall. *)
Theorem C253_raw_refuted : exists r times x y, make Raw [] None = Ok r /\ cumulative order 1 0 [(Raw, [r; r])] "raw" = Ok (times, [Some x; Some y]) /\ (y < x)%Q.
Proof. do 4 eexists. split; [vm_compute; reflexivity|]. split; [vm_compute; reflexivity|]. vm_compute. reflexivity. Qed.
Print Assumptions C253_raw_refuted.
