(** C255 and C256: optional tasks of the pipeline, and its result. *)
From Coq Require Import String List Arith ZArith QArith Bool Lia.
From Verif Require Import Base M_Pipeline M_Corrtasks P_Pipeline P_Pipeline2 P_Corrtasks.
Import ListNotations.
Open Scope nat_scope.
Open Scope list_scope.

Theorem C255_polarization_off : forall T F D (dreambeam : pyval -> pyval -> pyval -> pyval -> pyval -> T -> F -> D -> res D) ps (t : task T F D) ch dt sky step par, like t (correct_polarization dreambeam) ->
    get_item ps "channels" = Ok ch -> get_item ps "dt" = Ok dt -> get_item ps "skycoord" = Ok sky -> get_item ps "calib_dt" = Ok step -> get_item ps "dreambeam_parallactic" = Ok par ->
    sky = VNone \/ step = VNone \/ par = VNone -> idle ps t.
Proof. exact @polarization_off. Qed.
Print Assumptions C255_polarization_off.
Theorem C255_polarization_on : forall T F D (dreambeam : pyval -> pyval -> pyval -> pyval -> pyval -> T -> F -> D -> res D) ps (t : task T F D) ch dt sky step par, like t (correct_polarization dreambeam) ->
    get_item ps "channels" = Ok ch -> get_item ps "dt" = Ok dt -> get_item ps "skycoord" = Ok sky -> get_item ps "calib_dt" = Ok step -> get_item ps "dreambeam_parallactic" = Ok par ->
    sky <> VNone -> step <> VNone -> par <> VNone -> acts ps t (dreambeam ch dt step sky par).
Proof. exact @polarization_on. Qed.
Print Assumptions C255_polarization_on.
Theorem C255_parallactic_off : forall T F D (parallactic : pyval -> pyval -> pyval -> pyval -> T -> F -> D -> res D) ps (t : task T F D) ch dt sky step, like t (correct_parallactic parallactic) ->
    get_item ps "channels" = Ok ch -> get_item ps "dt" = Ok dt -> get_item ps "skycoord" = Ok sky -> get_item ps "calib_dt" = Ok step -> sky = VNone \/ step = VNone -> idle ps t.
Proof. exact @parallactic_off. Qed.
Print Assumptions C255_parallactic_off.
Theorem C255_parallactic_on : forall T F D (parallactic : pyval -> pyval -> pyval -> pyval -> T -> F -> D -> res D) ps (t : task T F D) ch dt sky step, like t (correct_parallactic parallactic) ->
    get_item ps "channels" = Ok ch -> get_item ps "dt" = Ok dt -> get_item ps "skycoord" = Ok sky -> get_item ps "calib_dt" = Ok step -> sky <> VNone -> step <> VNone -> acts ps t (parallactic ch dt step sky).
Proof. exact @parallactic_on. Qed.
Print Assumptions C255_parallactic_on.
Theorem C255_faraday_off : forall T F D (faraday : pyval -> F -> D -> res D) ps (t : task T F D), like t (correct_faraday faraday) -> get_item ps "rotation_measure" = Ok VNone -> idle ps t.
Proof. exact @faraday_off. Qed.
Print Assumptions C255_faraday_off.
Theorem C255_faraday_on : forall T F D (faraday : pyval -> F -> D -> res D) ps (t : task T F D) rm, like t (correct_faraday faraday) -> get_item ps "rotation_measure" = Ok rm -> rm <> VNone -> acts ps t (fun _ => faraday rm).
Proof. exact @faraday_on. Qed.
Print Assumptions C255_faraday_on.
Theorem C255_disperse_off : forall T F D (disperse : pyval -> pyval -> F -> D -> res D) (too_large : D -> bool) ps (t : task T F D) dt ig, like t (de_disperse disperse too_large) -> get_item ps "dt" = Ok dt -> get_item ps "dispersion_measure" = Ok VNone -> get_item ps "ignore_volume_warning" = Ok ig -> idle ps t.
Proof. exact @disperse_off. Qed.
Print Assumptions C255_disperse_off.
Theorem C255_disperse_on : forall T F D (disperse : pyval -> pyval -> F -> D -> res D) (too_large : D -> bool) ps (t : task T F D) dt dm ig, like t (de_disperse disperse too_large) -> get_item ps "dt" = Ok dt -> get_item ps "dispersion_measure" = Ok dm -> dm <> VNone ->
    get_item ps "ignore_volume_warning" = Ok (VBool ig) -> acts ps t (fun _ fr d => if too_large d && negb ig then Ok d else disperse dt dm fr d).
Proof. exact @disperse_on. Qed.
Print Assumptions C255_disperse_on.
Theorem C255_disperse_unset : forall T F D (disperse : pyval -> pyval -> F -> D -> res D) (too_large : D -> bool) ps (t : task T F D) dt dm, like t (de_disperse disperse too_large) -> get_item ps "dt" = Ok dt -> get_item ps "dispersion_measure" = Ok dm -> dm <> VNone ->
    get_item ps "ignore_volume_warning" = Ok VNone -> acts ps t (fun _ fr d => if too_large d then Ok d else disperse dt dm fr d).
Proof. exact @disperse_unset. Qed.
Print Assumptions C255_disperse_unset.
(** A dispersion measure is given and the data are not de-dispersed: they are above the threshold. *)
Theorem C255_large_refuted : forall T F D (disperse : pyval -> pyval -> F -> D -> res D) (too_large : D -> bool) ps (t : task T F D) dt dm, like t (de_disperse disperse too_large) ->
  get_item ps "dt" = Ok dt -> get_item ps "dispersion_measure" = Ok dm -> dm <> VNone -> get_item ps "ignore_volume_warning" = Ok (VBool false) ->
  forall later tm fr d, too_large d = true -> snd (run ps (t :: later) (tm, fr, d)) = snd (run ps later (tm, fr, d)).
Proof. exact @disperse_large_refuted. Qed.
Print Assumptions C255_large_refuted.
Theorem C255_mitigate_on : forall T F D (mitigate : nat -> D -> res D) ps s (t : task T F D), (like t (mitigate_frequency mitigate s) -> acts ps t (fun _ _ => mitigate 0)) /\ (like t (mitigate_time mitigate s) -> acts ps t (fun _ _ => mitigate 1)).
Proof. exact @mitigate_on. Qed.
Print Assumptions C255_mitigate_on.
Theorem C255_added : forall T F D (mitigate : nat -> D -> res D) dreambeam parallactic faraday disperse too_large s (ts : list (task T F D)),
  fst (M_Pipeline.append ts (OTask (mitigate_frequency mitigate s))) = ts ++ [mitigate_frequency mitigate s] /\
  fst (M_Pipeline.append ts (OTask (mitigate_time mitigate s))) = ts ++ [mitigate_time mitigate s] /\
  forall t, In t [correct_polarization dreambeam; correct_parallactic parallactic; correct_faraday faraday; de_disperse disperse too_large] ->
    (In (tname t) (map tname ts) -> fst (M_Pipeline.append ts (OTask t)) = ts) /\ (~ In (tname t) (map tname ts) -> fst (M_Pipeline.append ts (OTask t)) = ts ++ [t]).
Proof. exact added. Qed.
Print Assumptions C255_added.
Theorem C255_unknown : forall T F D ps (t : task T F D) k x, In k (targs t) -> unknown (now ps) k -> forall later, snd (run ps (t :: later) x) = Err EKeyError.
Proof. exact @acts_refused. Qed.
Print Assumptions C255_unknown.
Definition demo_params (sky rm : pyval) : params :=
  make_params [mkParam "channels" KBool None (VNum (Some 16%Q)); mkParam "dt" KBool None (VNum (Some 1%Q)); mkParam "skycoord" KBool None sky; mkParam "calib_dt" KBool None (VNum (Some 20%Q));
    mkParam "dreambeam_parallactic" KBool None (VBool true); mkParam "rotation_measure" KBool None rm; mkParam "dispersion_measure" KBool None (VNum (Some 3%Q)); mkParam "ignore_volume_warning" KBool None (VBool false);
    mkParam "stokes" KBool None (VStr "I")]%string.
Definition demo_beam : pyval -> pyval -> pyval -> pyval -> pyval -> nat -> nat -> nat -> res nat := fun _ _ _ _ _ _ _ d => Ok (2 * d).
Definition demo_tasks : list (task nat nat nat) := [correct_polarization demo_beam; correct_faraday (fun _ _ d => Ok (d + 1)); de_disperse (fun _ _ _ d => Ok (d + 100)) (fun d => 50 <=? d); mitigate_time (fun axis d => Ok (d + 1000 * axis)) "2.00"].
Example C255_ex : let off := demo_params VNone VNone in let on := demo_params (VStr "Sun") (VNum (Some 5%Q)) in
  like (correct_polarization demo_beam) (correct_polarization demo_beam) /\ get_item off "skycoord" = Ok VNone /\ get_item on "skycoord" = Ok (VStr "Sun") /\
  get_item on "channels" = Ok (VNum (Some 16%Q)) /\ get_item on "dispersion_measure" = Ok (VNum (Some 3%Q)) /\
  snd (run off demo_tasks (0, 0, 7)) = Ok (0, 0, 1107) /\ snd (run on demo_tasks (0, 0, 7)) = Ok (0, 0, 1115) /\ snd (run on demo_tasks (0, 0, 30)) = Ok (0, 0, 1061) /\
  snd (run off (fst (run on demo_tasks (0, 0, 7))) (0, 0, 7)) = Ok (0, 0, 1107) /\ snd (run no_params demo_tasks (0, 0, 7)) = Err EKeyError.
Proof. repeat split. Qed.

Theorem C256_jones : forall T F D V (ts : list (task T F D)) ps nt nf (a : array V), (forall t, In t ts -> tname t <> stokes_task) -> a_shape a = [nt; nf; 2; 2] -> 0 < nt -> 0 < nf ->
  exists b, to_sdata ts ps nt nf a = Ok (b, [VStr "XX"; VStr "XY"; VStr "YX"; VStr "YY"]%string) /\ a_shape b = [nt; nf; 4] /\
    forall t f i j, i < 2 -> j < 2 -> a_at b [t; f; 2 * i + j] = a_at a [t; f; i; j].
Proof. exact @result_jones. Qed.
Print Assumptions C256_jones.
Theorem C256_size : forall T F D V (ts : list (task T F D)) ps nt nf rest (a : array V), (forall t, In t ts -> tname t <> stokes_task) -> a_shape a = nt :: nf :: rest -> 0 < nt -> 0 < nf ->
  (fold_right Nat.mul 1 rest = 4 -> exists b, to_sdata ts ps nt nf a = Ok (b, [VStr "XX"; VStr "XY"; VStr "YX"; VStr "YY"]%string)) /\
  (fold_right Nat.mul 1 rest <> 4 -> to_sdata ts ps nt nf a = Err EAssertionError).
Proof. exact @result_size. Qed.
Print Assumptions C256_size.
Theorem C256_axes : forall T F D V (ts : list (task T F D)) ps times freqs (a b : array V) p, to_sdata ts ps times freqs a = Ok (b, p) -> a_shape b = [times; freqs; length p].
Proof. exact @result_axes. Qed.
Print Assumptions C256_axes.
Theorem C256_stokes : forall T F D V (ts : list (task T F D)) ps nt nf l (a : array V), (exists t, In t ts /\ tname t = stokes_task) -> get_item ps "stokes" = Ok (VList l) -> a_shape a = [nt; nf; length l] -> to_sdata ts ps nt nf a = Ok (a, l).
Proof. exact @result_stokes. Qed.
Print Assumptions C256_stokes.
Theorem C256_stokes_one : forall T F D V (ts : list (task T F D)) ps nt nf s (a : array V), (exists t, In t ts /\ tname t = stokes_task) -> get_item ps "stokes" = Ok (VStr s) -> a_shape a = [nt; nf; 1] -> to_sdata ts ps nt nf a = Ok (a, [VStr s]).
Proof. exact @result_stokes_one. Qed.
Print Assumptions C256_stokes_one.
(** The Stokes task with no Stokes parameter: an exception instead of the four products. *)
Theorem C256_no_stokes_refuted : forall T F D V (ts : list (task T F D)) ps nt nf (a : array V), (exists t, In t ts /\ tname t = stokes_task) -> a_shape a = [nt; nf; 2; 2] ->
  (get_item ps "stokes" = Ok VNone -> to_sdata ts ps nt nf a = Err ETypeError) /\ (get_item ps "stokes" = Ok (VList []) -> to_sdata ts ps nt nf a = Err EValueError).
Proof. exact @result_no_stokes_refuted. Qed.
Print Assumptions C256_no_stokes_refuted.
Definition demo_jones : array nat := mkArr [3; 5; 2; 2] (fun i => match i with [t; f; i; j] => 1000 * t + 100 * f + 10 * i + j | _ => 0 end).
Definition demo_stokes : list (task nat nat nat) := [make_task stokes_task (CData (fun _ d => Ok d)) ["stokes"%string] false].
Example C256_ex : (forall t, In t demo_tasks -> tname t <> stokes_task) /\ (exists b, to_sdata demo_tasks no_params 3 5 demo_jones = Ok (b, [VStr "XX"; VStr "XY"; VStr "YX"; VStr "YY"]%string) /\ a_at b [2; 4; 1] = 2401 /\ a_at b [2; 4; 2] = 2410) /\
  (exists t, In t demo_stokes /\ tname t = stokes_task) /\ get_item (demo_params VNone VNone) "stokes" = Ok (VStr "I"%string) /\
  to_sdata demo_stokes (demo_params VNone VNone) 3 5 (mkArr [3; 5; 1] (fun _ => 0)) = Ok (mkArr [3; 5; 1] (fun _ => 0), [VStr "I"%string]) /\
  to_sdata demo_stokes (make_params [mkParam "stokes" KBool None VNone]) 3 5 demo_jones = Err ETypeError /\ to_sdata demo_tasks no_params 3 4 demo_jones = Err EAssertionError.
Proof.
  split; [intros t [<-|[<-|[<-|[<-|[]]]]]; discriminate|]. split; [eexists; split; [reflexivity|split; reflexivity]|]. split; [eexists; split; [now left|reflexivity]|]. repeat split.
Qed.
