(** C38, C39, C76 and C77: Stokes parameters, Faraday rotation, polarisation angle
    and parallactic rotation. *)
From Coq Require Import ZArith QArith Reals Lra String Bool List Arith Lia.
From Verif Require Import Base M_Nd P_Nd M_Polar P_Polar P_Polar2.
Import ListNotations.
Open Scope nat_scope.
Open Scope list_scope.

(** ** C38 *)
Theorem C38_fields : forall fft0 fft1 lead p es, sh fft0 = lead ++ [2] -> length p = length lead ->
  recorded fft0 fft1 p es -> let d := mat_at (spectra_data_to_matrix fft0 fft1) p in
  sh (spectra_data_to_matrix fft0 fft1) = lead ++ [2; 2] /\ d = coherency es /\ hermitian d /\
  sI d = SI es /\ sQ d = SQ es /\ sU d = SU es /\ sV d = SV es.
Proof. exact recorded_stokes. Qed.
Print Assumptions C38_fields.
Theorem C38_values : forall data lead names canon, sh data = lead ++ [2; 2] -> names <> [] ->
  Forall2 (fun s n => In n known_names /\ spelled s n) names canon ->
  exists r, compute_stokes data names = Ok (Some r) /\ sh r = lead ++ [length names] /\
    forall p k n, length p = length lead -> nth_error canon k = Some n ->
      is_stokes (mat_at data p) n (get r (p ++ [k])).
Proof. exact stokes_values. Qed.
Print Assumptions C38_values.
Theorem C38_polarised_part : forall es,
  (0 <= SI es)%R /\ (SQ es ^ 2 + SU es ^ 2 + SV es ^ 2 <= SI es ^ 2)%R.
Proof. exact polarised_part. Qed.
Print Assumptions C38_polarised_part.
Theorem C38_fully_polarised : forall e, (SQ [e] ^ 2 + SU [e] ^ 2 + SV [e] ^ 2 = SI [e] ^ 2)%R.
Proof. exact fully_polarised. Qed.
Print Assumptions C38_fully_polarised.
Theorem C38_ratios : forall es n v, In n ["Q/I"; "U/I"; "V/I"; "L/I"]%string ->
  is_stokes (coherency es) n (Some v) -> (-1 <= v <= 1)%R.
Proof. exact ratios_bounded. Qed.
Print Assumptions C38_ratios.
Theorem C38_unknown : forall data lead names s, sh data = lead ++ [2; 2] -> In s names ->
  (forall n, In n known_names -> ~ spelled s n) -> compute_stokes data names = Err ENotImplementedError.
Proof. exact stokes_unknown. Qed.
Print Assumptions C38_unknown.
Theorem C38_shape_refused : forall data names,
  (forall lead, sh data <> lead ++ [2; 2]) -> compute_stokes data names = Err EException.
Proof. exact stokes_shape. Qed.
Print Assumptions C38_shape_refused.
Theorem C38_no_name : forall data lead, sh data = lead ++ [2; 2] -> compute_stokes data [] = Ok None.
Proof. exact stokes_empty. Qed.
Print Assumptions C38_no_name.

Example C38_ex : sh demo_fft0 = [3] ++ [2] /\ recorded demo_fft0 demo_fft1 [2] demo_fields /\
  SI demo_fields = 6%R /\ SQ demo_fields = 4%R /\ SU demo_fields = 0%R /\ SV demo_fields = 2%R /\
  Forall2 (fun s n => In n known_names /\ spelled s n) [" v / i "; "q"; "I"]%string ["V/I"; "Q"; "I"]%string /\
  (forall n, In n known_names -> ~ spelled "I/Q" n).
Proof.
  split; [reflexivity|]. split; [exact demo_recorded|]. destruct demo_stokes as (A & B & C & D).
  repeat (split; [assumption|]). split; [exact demo_spelled|exact demo_unknown].
Qed.

(** ** C39 *)
Theorem C39_turns : forall data nt freq rm, sh data = [nt; length freq; 2; 2] ->
  exists r, de_faraday data freq rm = Ok r /\ sh r = [nt; length freq; 2; 2] /\
    forall t f, mat_at r [t; f] = turned (- (rm * wavelength (nth f freq 0%R) ^ 2)) (mat_at data [t; f]).
Proof. exact faraday_turns. Qed.
Print Assumptions C39_turns.
Theorem C39_stokes : forall data nt freq rm r, sh data = [nt; length freq; 2; 2] ->
  de_faraday data freq rm = Ok r -> forall t f, hermitian (mat_at data [t; f]) ->
  let d := mat_at data [t; f] in let d' := mat_at r [t; f] in
  let a := (- (rm * wavelength (nth f freq 0%R) ^ 2))%R in
  hermitian d' /\ sI d' = sI d /\ sV d' = sV d /\ sL d' = sL d /\
  sQ d' = (cos (2 * a) * sQ d - sin (2 * a) * sU d)%R /\ sU d' = (sin (2 * a) * sQ d + cos (2 * a) * sU d)%R.
Proof. exact faraday_stokes. Qed.
Print Assumptions C39_stokes.
Theorem C39_undoes : forall data nt freq rm r (es : nat -> nat -> list field),
  sh data = [nt; length freq; 2; 2] -> de_faraday data freq rm = Ok r ->
  (forall t f, t < nt -> f < length freq -> mat_at data [t; f] =
     coherency (map (turn_field (rm * wavelength (nth f freq 0%R) ^ 2)) (es t f))) ->
  forall t f, t < nt -> f < length freq -> mat_at r [t; f] = coherency (es t f).
Proof. exact faraday_undoes. Qed.
Print Assumptions C39_undoes.
Theorem C39_composes : forall data nt freq rm1 rm2 r1 r2, sh data = [nt; length freq; 2; 2] ->
  de_faraday data freq rm1 = Ok r1 -> de_faraday r1 freq rm2 = Ok r2 ->
  exists r, de_faraday data freq (rm1 + rm2) = Ok r /\ forall t f, mat_at r2 [t; f] = mat_at r [t; f].
Proof. exact faraday_composes. Qed.
Print Assumptions C39_composes.
Theorem C39_back : forall data nt freq rm r, sh data = [nt; length freq; 2; 2] ->
  de_faraday data freq rm = Ok r -> exists b, de_faraday r freq (- rm) = Ok b /\ sh b = sh data /\
    forall t f, mat_at b [t; f] = mat_at data [t; f].
Proof. exact faraday_back. Qed.
Print Assumptions C39_back.
Theorem C39_refused : forall data freq rm,
  (forall nt, sh data <> [nt; length freq; 2; 2]) <-> de_faraday data freq rm = Err EException.
Proof. exact faraday_refused. Qed.
Print Assumptions C39_refused.

Definition demo_data : nd cpx := mkNd [1; 2; 2; 2] (fun idx =>
  match idx with [_; _; i; j] => mget (coherency (map (turn_field (3 * wavelength (nth (nth 1 idx 0) [30000000; 60000000]%R 0%R) ^ 2)) demo_fields)) i j | _ => creal 0 end).
Example C39_ex : sh demo_data = [1; length [30000000; 60000000]%R; 2; 2] /\
  (forall t f, t < 1 -> f < 2 -> mat_at demo_data [t; f] =
    coherency (map (turn_field (3 * wavelength (nth f [30000000; 60000000]%R 0%R) ^ 2)) demo_fields)) /\
  hermitian (mat_at demo_data [0; 1]).
Proof.
  assert (H : forall t f, mat_at demo_data [t; f] =
    coherency (map (turn_field (3 * wavelength (nth f [30000000; 60000000]%R 0%R) ^ 2)) demo_fields))
    by (intros; apply mat_of_get).
  split; [reflexivity|]. split; [intros; apply H|]. rewrite H. apply coherency_hermitian.
Qed.

(** ** C76 *)
Theorem C76_near_x : forall a psi, a <> 0%R -> (- (PI / 4) < psi < PI / 4)%R ->
  polarization_angle (SU [linear a psi]) (SQ [linear a psi]) = Some psi.
Proof. exact angle_linear. Qed.
Print Assumptions C76_near_x.
Theorem C76_diagonal : forall a, a <> 0%R ->
  polarization_angle (SU [linear a (PI / 4)]) (SQ [linear a (PI / 4)]) = Some (PI / 4)%R.
Proof. exact angle_diagonal. Qed.
Print Assumptions C76_diagonal.
Theorem C76_near_y_refuted : forall a psi, a <> 0%R -> (PI / 4 < psi < 3 * (PI / 4))%R ->
  polarization_angle (SU [linear a psi]) (SQ [linear a psi]) = Some (psi - PI / 2)%R.
Proof. exact angle_lost. Qed.
Print Assumptions C76_near_y_refuted.
Theorem C76_range : forall u q v, polarization_angle u q = Some v -> (- (PI / 4) <= v <= PI / 4)%R.
Proof. exact angle_range. Qed.
Print Assumptions C76_range.
Theorem C76_unpolarised : forall u q, polarization_angle u q = None <-> u = 0%R /\ q = 0%R.
Proof. exact angle_unpolarised. Qed.
Print Assumptions C76_unpolarised.
Example C76_ex : (- (PI / 4) < PI / 6 < PI / 4)%R /\ (PI / 4 < PI / 2 < 3 * (PI / 4))%R.
Proof. pose proof PI_RGT_0. lra. Qed.

(** ** C77 *)
Theorem C77_groups : forall angle time F data dt step n g,
  sh data = [length time; F] -> 0 < length time -> 0 < n -> F mod n = 0 ->
  nearest (step / dt) (Z.of_nat g) -> 0 < g ->
  exists r, correct_parallactic angle time F data dt step n = Ok r /\ sh r = [length time; F] /\
    forall t f, t < length time -> f < F ->
      get r [t; f] = turned (- angle (solution_time (nth 0 time 0%Q) dt g t)) (get data [t; f]).
Proof. exact parallactic_spec. Qed.
Print Assumptions C77_groups.
Theorem C77_uniform_times : forall time dt g t, 0 < g -> t < length time ->
  (forall k, k < length time -> (nth k time 0 == nth 0%nat time 0 + inject_Z (Z.of_nat k) * dt)%Q) ->
  Qeq (solution_time (nth 0 time 0%Q) dt g t) (nth (t / g * g) time 0%Q).
Proof. exact solution_uniform. Qed.
Print Assumptions C77_uniform_times.
Theorem C77_stokes : forall angle time F data dt step n g r,
  sh data = [length time; F] -> 0 < length time -> 0 < n -> F mod n = 0 ->
  nearest (step / dt) (Z.of_nat g) -> 0 < g ->
  correct_parallactic angle time F data dt step n = Ok r ->
  forall t f, t < length time -> f < F -> hermitian (get data [t; f]) ->
  let a := (- angle (solution_time (nth 0 time 0%Q) dt g t))%R in
  let d := get data [t; f] in let d' := get r [t; f] in
  hermitian d' /\ sI d' = sI d /\ sV d' = sV d /\ sL d' = sL d /\
  sQ d' = (cos (2 * a) * sQ d - sin (2 * a) * sU d)%R /\ sU d' = (sin (2 * a) * sQ d + cos (2 * a) * sU d)%R.
Proof. exact parallactic_stokes. Qed.
Print Assumptions C77_stokes.
Theorem C77_undoes : forall angle time F data dt step n g r (es : nat -> nat -> list field),
  sh data = [length time; F] -> 0 < length time -> 0 < n -> F mod n = 0 ->
  nearest (step / dt) (Z.of_nat g) -> 0 < g ->
  correct_parallactic angle time F data dt step n = Ok r ->
  (forall t f, t < length time -> f < F -> get data [t; f] =
     coherency (map (turn_field (angle (solution_time (nth 0 time 0%Q) dt g t))) (es t f))) ->
  forall t f, t < length time -> f < F -> get r [t; f] = coherency (es t f).
Proof. exact parallactic_undoes. Qed.
Print Assumptions C77_undoes.
Theorem C77_refused : forall angle time F data dt step n a b, sh data = [a; b] ->
  (a <> length time -> correct_parallactic angle time F data dt step n = Err EValueError) /\
  (b <> F -> correct_parallactic angle time F data dt step n = Err EValueError) /\
  (n <> 0 -> F mod n <> 0 -> correct_parallactic angle time F data dt step n = Err EValueError) /\
  (a = length time -> b = F -> n = 0 -> correct_parallactic angle time F data dt step n = Err EZeroDivisionError) /\
  (a = length time -> b = F -> n <> 0 -> F mod n = 0 -> (- (1 # 2) <= step / dt <= 1 # 2)%Q ->
     correct_parallactic angle time F data dt step n = Err EZeroDivisionError).
Proof. exact parallactic_refused. Qed.
Print Assumptions C77_refused.
(** Times with a gap: the solutions are not those of the times of the samples. *)
Theorem C77_gap_refuted : exists angle time data dt step g r es,
  sh data = [length time; 1] /\ nearest (step / dt) (Z.of_nat g) /\ 0 < g /\
  correct_parallactic angle time 1 data dt step 1 = Ok r /\
  (forall t, t < length time ->
    get data [t; 0] = coherency (map (turn_field (angle (nth (t / g * g) time 0%Q))) es)) /\
  get r [2; 0] <> coherency es.
Proof. exact parallactic_gap. Qed.
Print Assumptions C77_gap_refuted.
Example C77_ex : let time := [0; 1; 2; 3; 4; 5; 6]%Q in
  nearest ((29 # 10) / 1) (Z.of_nat 3) /\ length time = 7 /\ 8 mod 4 = 0 /\
  map (fun t => Qred (solution_time (nth 0 time 0%Q) 1 3 t)) (seq 0 7) = [0; 0; 0; 3; 3; 3; 6]%Q.
Proof. cbv zeta. split; [left; vm_compute; reflexivity|]. repeat split; reflexivity. Qed.
