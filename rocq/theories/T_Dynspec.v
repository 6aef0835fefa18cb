(** C122 to C124: settings, files and selection of the reader of UnDySPuTeD lanes. *)
From Coq Require Import ZArith QArith Qabs Lqa String Bool List Arith Lia Sorted.
From Verif Require Import Base M_Nd M_Pipeline M_TFArray P_TFArray M_Select M_Lane P_Lane M_Dynspec P_Dynspec P_Dynspec2.
Import ListNotations.
Open Scope nat_scope.
Open Scope list_scope.

(** Two lanes: eight steps of half a second, sub-bands of two channels. *)
Definition demo_lane (i : nat) (start f : Q) (beams : list (Z * (nat * nat))) (nf : nat) : lane nat :=
  mkLane i (1 # 2) 10 2 (map (fun k => start + qn k * (1 # 2))%Q (seq 0 8)) (map (fun k => f + qn k * 10)%Q (seq 0 nf))
    f (f + qn nf * 10) beams (mkNd [8; nf] (fun p => 100 * nth 0 p 0 + nth 1 p 0)).
Definition demo_read (name : string) : res (lane nat) :=
  if String.eqb name "0" then Ok (demo_lane 0 100 1000 [(0%Z, (0, 4)); (2%Z, (4, 10))] 10)
  else if String.eqb name "1" then Ok (demo_lane 1 101 2000 [(1%Z, (0, 6))] 6)
  else Err EValueError.

(** * C122: settings *)
Theorem C122_sound : forall A (read : string -> res (lane A)) names d l,
  dynspec_new read names = Ok d -> sound (assigns read d l).
Proof. exact settings_sound. Qed.
Print Assumptions C122_sound.
Theorem C122_refused : forall A (read : string -> res (lane A)) d s a d' e,
  assign read d (s, a) = (d', Some e) -> s <> SFiles -> d' = d.
Proof. exact settings_refused. Qed.
Print Assumptions C122_refused.
Theorem C122_apart : forall A (read : string -> res (lane A)) d s a s', s' <> s ->
  view s' (fst (assign read d (s, a))) = view s' d.
Proof. exact settings_apart. Qed.
Print Assumptions C122_apart.
Theorem C122_quantities : forall A (read : string -> res (lane A)) d s a u, unit_of s = Some u ->
  match assign read d (s, a) with
  | (d', None) => exists v, view s d' = VQ v /\ standing u a v
  | (d', Some e) => d' = d /\ e = ETypeError /\ forall v, ~ standing u a v
  end.
Proof. exact settings_optional. Qed.
Print Assumptions C122_quantities.
Theorem C122_switches : forall A (read : string -> res (lane A)) d a,
  (forall b, a = ABool b -> snd (assign read d (SJump, a)) = None /\ d_jump (fst (assign read d (SJump, a))) = b) /\
  ((forall b, a <> ABool b) -> assign read d (SJump, a) = (d, Some ETypeError)) /\
  (forall q, number_given a q -> snd (assign read d (SRfi, a)) = None /\ d_rfi (fst (assign read d (SRfi, a))) = q) /\
  ((forall q, ~ number_given a q) -> assign read d (SRfi, a) = (d, Some ETypeError)).
Proof. exact settings_switches. Qed.
Print Assumptions C122_switches.
Theorem C122_held : forall A (read : string -> res (lane A)) d a,
  (forall r, new_time_range (d_lanes d) a = Ok r -> d_time_range (fst (assign read d (STimeRange, a))) = Some r) /\
  (forall r, new_freq_range a = Ok r -> d_freq_range (fst (assign read d (SFreqRange, a))) = Some r) /\
  (forall b, new_beam (d_lanes d) a = Ok b -> d_beam (fst (assign read d (SBeam, a))) = b) /\
  (forall s, new_bp a = Ok s -> d_bp (fst (assign read d (SBp, a))) = s) /\
  (forall n, new_edge (d_lanes d) a = Ok n -> d_edge (fst (assign read d (SEdge, a))) = n).
Proof. exact settings_held. Qed.
Print Assumptions C122_held.
Theorem C122_time_range : forall A (lanes : list (lane A)) a t0 t1 u v,
  obs_tmin lanes = Ok u -> obs_tmax lanes = Ok v ->
  (new_time_range lanes a = Ok (t0, t1) <->
   exists x y, a = AList [x; y] /\ time_of x t0 /\ time_of y t1 /\ (t0 < t1)%Q).
Proof. exact time_range_accepted. Qed.
Print Assumptions C122_time_range.
Theorem C122_freq_range : forall a f g, new_freq_range a = Ok (f, g) <->
  exists x y, a = AList [x; y] /\ two_hertz x y f g /\ (f < g)%Q.
Proof. exact freq_range_accepted. Qed.
Print Assumptions C122_freq_range.
Theorem C122_beam : forall A (lanes : list (lane A)) z b, In b (obs_beams lanes) ->
  exists m, hd_error (obs_beams lanes) = Some m /\
    new_beam lanes (AInt z) = Ok (if in_dec Z.eq_dec z (obs_beams lanes) then z else m).
Proof. exact beam_accepted. Qed.
Print Assumptions C122_beam.
Theorem C122_edge : forall A (l0 : lane A) rest n,
  new_edge (l0 :: rest) (AInt n) = Ok (if (0 <=? n)%Z && (2 * n <=? Z.of_nat (l_nchan l0))%Z then n else 0%Z).
Proof. exact edge_accepted. Qed.
Print Assumptions C122_edge.
Theorem C122_bandpass : forall s t b, new_bp (AText s t) = Ok b <->
  b = lower s /\ In (lower s) ["standard"; "median"; "none"; "adjusted"]%string.
Proof. exact bp_accepted. Qed.
Print Assumptions C122_bandpass.

Example C122_units_ex : standing 1000000 (AInt 3) (Some 3000000%Q) /\ standing 1 (AQuantity 5) (Some 5%Q) /\ unit_of SRebinDf = Some 1000000%Q /\ number_given (ABool true) 1.
Proof.
  split; [right; right; exists 3%Q, 3000000%Q; split; [right; left; exists 3%Z; split; reflexivity|split; reflexivity]|].
  split; [right; left; exists 5%Q; split; reflexivity|]. split; [reflexivity|]. left. exists true. split; reflexivity.
Qed.
Example C122_ex : exists d, dynspec_new demo_read ["0"; "1"]%string = Ok d /\ d_beam d = 0%Z /\
  (let e := assigns demo_read d [(SBeam, AInt 2); (SEdge, AInt 1); (SFreqRange, AList [AInt 20; AFloat (41 # 2)]); (SFreqRange, AList [AInt 3; AInt 2]); (SBp, AText "Median" None); (SBp, AText "other" None)] in
   d_beam e = 2%Z /\ d_edge e = 1%Z /\ d_bp e = "median"%string /\ exists f g, d_freq_range e = Some (f, g) /\ (f == 20000000)%Q /\ (g == 20500000)%Q) /\
  snd (assign demo_read d (STimeRange, AList [ATime 102; ATime 101])) = Some EValueError /\
  fst (assign demo_read d (SBeam, AInt 7)) = d /\ obs_tmin (d_lanes d) = Ok (100 + qn 0 * (1 # 2))%Q /\ (exists v, obs_tmax (d_lanes d) = Ok v).
Proof.
  eexists. split; [vm_compute; reflexivity|]. split; [reflexivity|]. split.
  - cbv zeta. repeat split; try (vm_compute; reflexivity). eexists. eexists. split; [vm_compute; reflexivity|]. split; reflexivity.
  - split; [vm_compute; reflexivity|]. split; [reflexivity|]. split; [vm_compute; reflexivity|]. eexists. vm_compute. reflexivity.
Qed.

(** * C123: files and properties of the observation *)
Theorem C123_files : forall A (read : string -> res (lane A)) d a names new,
  names_of a = Ok names -> Forall2 (fun n l => read n = Ok l) names new ->
  exists d', assign read d (SFiles, a) = (d', None) /\ d_lanes d' = d_lanes d ++ new /\ d_files d' = names.
Proof. exact files_accumulate. Qed.
Print Assumptions C123_files.
Theorem C123_files_refused : forall A (read : string -> res (lane A)) d a names good new bad rest e,
  names_of a = Ok names -> names = good ++ bad :: rest -> Forall2 (fun n l => read n = Ok l) good new -> read bad = Err e ->
  exists d', assign read d (SFiles, a) = (d', Some e) /\ d_lanes d' = d_lanes d ++ new /\ d_files d' = d_files d.
Proof. exact files_refused. Qed.
Print Assumptions C123_files_refused.
Theorem C123_times : forall A (lanes : list (lane A)),
  (forall a, obs_tmin lanes = Ok a -> (exists l, In l lanes /\ tmin l = Ok a) /\
     forall l, In l lanes -> exists t, tmin l = Ok t /\ (a <= t)%Q) /\
  (forall a, obs_tmax lanes = Ok a -> (exists l, In l lanes /\ tmax l = Ok a) /\
     forall l, In l lanes -> exists t, tmax l = Ok t /\ (t <= a)%Q).
Proof. exact obs_times. Qed.
Print Assumptions C123_times.
Theorem C123_frequencies : forall A (lanes : list (lane A)), lanes <> [] -> exists a b,
  obs_fmin lanes = Ok a /\ obs_fmax lanes = Ok b /\
  (exists l, In l lanes /\ l_fmin l = a) /\ (exists l, In l lanes /\ l_fmax l = b) /\
  forall l, In l lanes -> (a <= l_fmin l)%Q /\ (l_fmax l <= b)%Q.
Proof. exact obs_frequencies. Qed.
Print Assumptions C123_frequencies.
Theorem C123_beams : forall A (lanes : list (lane A)), StronglySorted Z.lt (obs_beams lanes) /\
  forall b, In b (obs_beams lanes) <-> exists l, In l lanes /\ In b (map fst (l_beams l)).
Proof. exact obs_beams_spec. Qed.
Print Assumptions C123_beams.

(** Files assigned twice are there twice; those before a wrong one stay. *)
Example C123_ex : exists d, dynspec_new demo_read ["0"; "1"]%string = Ok d /\ obs_beams (d_lanes d) = [0; 1; 2]%Z /\
  (let e := fst (assign demo_read d (SFiles, AList [AText "0" None; AText "1" None])) in map l_index (d_lanes e) = [0; 1; 0; 1] /\ d_files e = ["0"; "1"]%string) /\
  (let e := assign demo_read d (SFiles, AList [AText "0" None; AText "x" None; AText "1" None]) in snd e = Some EValueError /\ map l_index (d_lanes (fst e)) = [0; 1; 0] /\ d_files (fst e) = ["0"; "1"]%string).
Proof. eexists. split; [vm_compute; reflexivity|]. repeat split; vm_compute; reflexivity. Qed.

(** * C124: selection *)
Theorem C124_nearest : forall l x, l <> [] -> exists i, nearest_index l x = Ok i /\ nearest l x i.
Proof. exact nearest_ok. Qed.
Print Assumptions C124_nearest.
Theorem C124_unique : forall l x i j, nearest l x i -> nearest l x j -> i = j.
Proof. exact nearest_unique. Qed.
Print Assumptions C124_unique.
Theorem C124_monotone : forall l x y i j, increasing l -> (x <= y)%Q -> nearest l x i -> nearest l y j -> i <= j.
Proof. exact nearest_monotone. Qed.
Print Assumptions C124_monotone.
Theorem C124_selection : forall A (d : dynspec A) l p b0 b1 t0 t1 f0 f1 i0 i1 j0 j1,
  fits l p -> lookup_beam (d_beam d) (l_beams l) = Some (b0, b1) -> b0 < b1 -> b1 <= length (l_freq l) ->
  (exists k, b1 - b0 = k * l_nchan l) ->
  time_range d = Ok (t0, t1) -> freq_range d = Ok (f0, f1) ->
  nearest (l_time l) t0 i0 -> nearest (l_time l) t1 i1 ->
  nearest (band_of l b0 b1) f0 j0 -> nearest (band_of l b0 b1) f1 j1 ->
  (i0 = i1 \/ j0 = j1 -> select_data d l = Ok None) /\
  (i0 <> i1 -> j0 <> j1 -> exists r, select_data d l = Ok (Some r) /\
     selection l p b0 i0 i1 (j0 / l_nchan l * l_nchan l) ((j1 / l_nchan l + 1) * l_nchan l) r).
Proof. exact select_spec. Qed.
Print Assumptions C124_selection.
Theorem C124_window : forall (l : list Q) a dt t0 t1 i0 i1, uniform l a dt -> (0 < dt)%Q -> (t0 < t1)%Q ->
  (a - dt * (1 # 2) <= t0)%Q -> (t1 <= a + (qn (length l) - (1 # 2)) * dt)%Q ->
  nearest l t0 i0 -> nearest l t1 i1 -> i0 <= i1 /\ forall k, k < length l ->
  ((i0 <= k < i1) -> (t0 - dt * (1 # 2) <= nth k l 0 /\ nth k l 0 <= t1 - dt * (1 # 2))%Q) /\
  ((t0 + dt * (1 # 2) <= nth k l 0)%Q -> (nth k l 0 < t1 - dt * (1 # 2))%Q -> i0 <= k < i1).
Proof. exact select_window. Qed.
Print Assumptions C124_window.
Theorem C124_subbands : forall n j0 j1 k, 0 < n -> j0 <= j1 -> j1 < k * n ->
  let a := j0 / n * n in let b := (j1 / n + 1) * n in
  a <= j0 /\ j1 < b /\ b <= k * n /\
  forall j, a <= j < b <-> j0 / n <= j / n <= j1 / n.
Proof. exact select_subbands. Qed.
Print Assumptions C124_subbands.
Theorem C124_no_beam : forall A (d : dynspec A) l, ~ In (d_beam d) (map fst (l_beams l)) -> select_data d l = Ok None.
Proof. exact select_no_beam. Qed.
Print Assumptions C124_no_beam.
Theorem C124_outside : forall A (d : dynspec A) l b t0 t1, increasing (l_time l) -> l_time l <> [] ->
  lookup_beam (d_beam d) (l_beams l) = Some b -> time_range d = Ok (t0, t1) -> (t0 < t1)%Q ->
  (t1 <= nth 0 (l_time l) 0)%Q \/ (nth (length (l_time l) - 1) (l_time l) 0 <= t0)%Q ->
  select_data d l = Ok None.
Proof. exact select_outside. Qed.
Print Assumptions C124_outside.
Theorem C124_default : forall (l : list Q) i0 i1, increasing l -> l <> [] ->
  nearest l (nth 0 l 0%Q) i0 -> nearest l (nth (length l - 1) l 0%Q) i1 -> i0 = 0 /\ i1 = length l - 1.
Proof. exact select_default_times. Qed.
Print Assumptions C124_default.
Theorem C124_loaded : forall idx c B S T h l, holds c B S T h -> 0 < T -> 0 < h_nfft2int (c_header c) -> load idx c = Ok l ->
  fits l [2; 2] /\ l_time l <> [] /\ increasing (l_time l) /\ (0 < l_dt l)%Q /\ uniform (l_time l) (start_time c) (l_dt l) /\
  forall b b0 b1, lookup_beam b (l_beams l) = Some (b0, b1) ->
    b0 < b1 /\ b1 <= length (l_freq l) /\ (exists k, b1 - b0 = k * l_nchan l).
Proof. exact select_loaded. Qed.
Print Assumptions C124_loaded.

(** With nothing set, the last time of a single lane is left out. *)
Theorem C124_last_refuted : ~ forall names (d : dynspec nat) l f t x, dynspec_new demo_read names = Ok d -> d_lanes d = [l] ->
  select_data d l = Ok (Some (f, t, x)) -> length t = length (l_time l).
Proof.
  intros H. specialize (H ["0"]%string). 
  assert (E : exists d l f t x, dynspec_new demo_read ["0"]%string = Ok d /\ d_lanes d = [l] /\ select_data d l = Ok (Some (f, t, x)) /\ length t <> length (l_time l)).
  { eexists. eexists. eexists. eexists. eexists. split; [vm_compute; reflexivity|]. split; [reflexivity|]. split; [vm_compute; reflexivity|]. vm_compute. discriminate. }
  destruct E as (d & l & f & t & x & E1 & E2 & E3 & E4). apply E4. exact (H d l f t x E1 E2 E3).
Qed.
Print Assumptions C124_last_refuted.
Example C124_ex : exists d l f t x, dynspec_new demo_read ["0"; "1"]%string = Ok d /\ nth_error (d_lanes d) 0 = Some l /\
  (let e := assigns demo_read d [(SBeam, AInt 2); (STimeRange, AList [ATime 101; ATime (205 # 2)]); (SFreqRange, AList [AQuantity 1060; AQuantity 1076])] in
   select_data e l = Ok (Some (f, t, x)) /\ length t = 3 /\ length f = 4 /\ sh x = [3; 4] /\ get x [1; 2] = 308 /\
   (nth 1 t 0 == 203 # 2)%Q /\ (nth 2 f 0 == 1080)%Q) /\
  fits l [] /\ increasing (l_time l) /\ uniform (l_time l) 100 (1 # 2) /\ lookup_beam 2 (l_beams l) = Some (4, 10) /\
  nearest (l_time l) 101 2 /\ nearest (band_of l 4 10) 1060 2 /\ nearest (band_of l 4 10) 1076 4.
Proof.
  eexists. eexists. eexists. eexists. eexists. split; [vm_compute; reflexivity|]. split; [reflexivity|]. split.
  - split; [vm_compute; reflexivity|]. repeat split; reflexivity.
  - assert (U : uniform [(200 # 2)%Q; (201 # 2)%Q; (202 # 2)%Q; (203 # 2)%Q; (204 # 2)%Q; (205 # 2)%Q; (206 # 2)%Q; (207 # 2)%Q] 100 (1 # 2)).
    { intros k K. cbn [length] in K. do 8 (destruct k as [|k]; [reflexivity|]). lia. }
    split; [split; [reflexivity|cbn; lia]|]. split; [|split; [|split; [reflexivity|]]].
    + eapply (uniform_increasing _ 100 (1 # 2)); [|reflexivity]. exact U.
    + exact U.
    + repeat split; try (cbn; lia); intros j J; cbn in J |- *; do 8 (destruct j as [|j]; [try lia; try (vm_compute; congruence)|]); lia.
Qed.
