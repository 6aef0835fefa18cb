(** C113 to C117: configurations of the receivers and data volumes. *)
From Coq Require Import Ascii String List Arith ZArith QArith Qround Qabs Bool Lia Lqa Permutation Sorted.
From Verif Require Import Base M_Polar M_Dedisperse M_Pipeline M_PText M_POptions M_Parset P_PText M_Config P_Config P_Config2 P_Config3 P_Config4 P_Config5 P_Config6 P_Config7.
Import ListNotations.
Open Scope list_scope.

(** * C113: properties *)
Theorem C113_power : forall n, is2pow n = true <-> exists k, (0 <= k)%Z /\ n = (2 ^ k)%Z.
Proof. exact pow2_spec. Qed.
Print Assumptions C113_power.
Theorem C113_set : forall c a x v r, stands a x v -> In (a, r) (props (c_backend c)) -> (binary a -> power_of_two v) ->
  exists c' w, set_attr c a x = Ok c' /\ get c' a = Some w /\ kept r v w /\ (forall b, b <> a -> get c' b = get c b) /\
    c_backend c' = c_backend c /\ c_duration c' = c_duration c /\ c_start c' = c_start c.
Proof. exact set_value. Qed.
Print Assumptions C113_set.
Theorem C113_error : forall c a x e, set_attr c a x = Err e <->
  (e = ETypeError /\ forall v, ~ stands a x v) \/
  (exists v, stands a x v /\ e = EValueError /\ binary a /\ ~ power_of_two v) \/
  (exists v, stands a x v /\ e = EKeyError /\ (forall r, ~ In (a, r) (props (c_backend c))) /\ (binary a -> power_of_two v)).
Proof. exact set_error. Qed.
Print Assumptions C113_error.
Theorem C113_duration : forall c x, match duration_of x with
  | Ok d => exists c', set_duration c x = Ok c' /\ c_duration c' = d /\ c_values c' = c_values c /\ c_backend c' = c_backend c
  | Err e => e = ETypeError /\ set_duration c x = Err ETypeError end.
Proof. exact duration_any. Qed.
Print Assumptions C113_duration.
Theorem C113_duration_given : forall c x, (forall d, lasting x d -> exists c', set_duration c x = Ok c' /\ c_duration c' = d /\ c_values c' = c_values c /\ c_backend c' = c_backend c) /\
  ((forall d, ~ lasting x d) -> set_duration c x = Err ETypeError).
Proof. exact duration_given. Qed.
Print Assumptions C113_duration_given.
Theorem C113_init : forall public b k s c, init public b k s = Ok c ->
  c_backend c = b /\ asked_duration k = Ok (c_duration c) /\ c_start c = s /\ (forall a r, In (a, r) (props b) -> exists w, get c a = Some w /\ given k a r w) /\
  (forall a, (forall r, ~ In (a, r) (props b)) -> get c a = None).
Proof. exact init_spec. Qed.
Print Assumptions C113_init.
Theorem C113_always : forall public b k s c ops, init public b k s = Ok c -> let c' := fold_left apply ops c in c_backend c' = b /\ valid c'.
Proof. exact always_valid. Qed.
Print Assumptions C113_always.
Theorem C113_refused : forall public b k s d, asked_duration k = Ok d -> (exists n, In n (map fst k) /\ refused public n) -> init public b k s = Err EAttributeError.
Proof. exact init_refused. Qed.
Print Assumptions C113_refused.
Theorem C113_made : forall public b k s d, asked_duration k = Ok d -> (forall n, In n (map fst k) -> ~ refused public n) ->
  (forall a r x, In (a, r) (props b) -> kw (attr_name a) k = Some x -> exists v, stands a x v /\ (binary a -> power_of_two v)) -> exists c, init public b k s = Ok c.
Proof. exact init_made. Qed.
Print Assumptions C113_made.
Theorem C113_ignored : forall public b k s n x, ~ refused public n -> n <> "durationSec"%string -> (forall a r, In (a, r) (props b) -> n <> attr_name a) ->
  init public b ((n, x) :: k) s = init public b k s.
Proof. exact init_ignored. Qed.
Print Assumptions C113_ignored.

Example C113_ex : exists c c', init true Single [("nSubBands", AInt 1000); ("dsTime", AInt 64); ("durationSec", AOther (Some 3600))]%string None = Ok c /\
  get c NSubBands = Some (inject_Z 192) /\ get c DsTime = Some (inject_Z 64) /\ c_duration c = 3600 /\ set_attr c NBits (AInt 16) = Ok c' /\ get c' NBits = Some (inject_Z 16) /\
  set_attr c NBits (AInt 12) = Err EValueError /\ set_attr c NBits (AFloat 16) = Err ETypeError /\ set_attr c NMAs (AInt 10) = Err EKeyError /\ stands NBits (AInt 16) (inject_Z 16) /\ power_of_two (inject_Z 16) /\ refused true "nMinis" /\ refused true "_beam".
Proof.
  eexists. eexists. split; [vm_compute; reflexivity|]. split; [reflexivity|]. split; [reflexivity|]. split; [reflexivity|]. split; [vm_compute; reflexivity|]. split; [reflexivity|]. split; [reflexivity|]. split; [reflexivity|]. split; [reflexivity|]. split; [apply stands_int|].
  split; [exists 4%Z; split; [lia|reflexivity]|]. split; [right; cbn; repeat split; try discriminate; intuition discriminate|left; eexists; reflexivity].
Qed.

(** * C114: time and frequency resolutions *)
Theorem C114_allowed : forall dt df, allowed (fst (effective dt df)) (snd (effective dt df)).
Proof. exact effective_allowed. Qed.
Print Assumptions C114_allowed.
Theorem C114_idempotent : forall dt df, allowed dt df -> fst (effective dt df) == dt /\ snd (effective dt df) == df.
Proof. exact effective_idempotent. Qed.
Print Assumptions C114_idempotent.
Theorem C114_frequency : forall dt df, tf_freq df -> (3 # 4) * df <= snd (effective dt df) <= (3 # 2) * df.
Proof. exact effective_frequency. Qed.
Print Assumptions C114_frequency.
Theorem C114_bounds : forall dt df, tf_time dt -> tf_time (fst (effective dt df)) /\ tf_freq (snd (effective dt df)).
Proof. exact effective_bounds. Qed.
Print Assumptions C114_bounds.
Theorem C114_product : forall dt df, allowed dt df -> 4 <= dt * df <= 1024.
Proof. exact effective_product. Qed.
Print Assumptions C114_product.
Theorem C114_made : forall k s r, make Tf k s = Ok r -> exists c beam dt df,
  r = Beams (mkDev (Some c) [beam] s) /\ given k TimeRes tf_time_range dt /\ given k FreqRes tf_freq_range df /\
  get c TimeRes = Some (fst (effective dt df)) /\ get c FreqRes = Some (snd (effective dt df)) /\ (forall a, get beam a = get c a) /\
  c_backend beam = Tf /\ c_duration beam = c_duration c /\ asked_duration k = Ok (c_duration c).
Proof. exact tf_made. Qed.
Print Assumptions C114_made.
Theorem C114_slow_refuted : exists c, beam_from half_clock some_floats Tf slow_beam = Ok (Some c) /\ value c TimeRes == 5 # 1000 /\ ~ allowed (value c TimeRes) (value c FreqRes).
Proof. exact tf_slow_refuted. Qed.
Print Assumptions C114_slow_refuted.

(** The example of the documentation: 1 ms and 200 Hz. *)
Example C114_ex : fst (effective (1 # 1000) 200) == 2097152 # 100000000 /\ snd (effective (1 # 1000) 200) == 19073486328125 # 100000000000 /\ tf_time (1 # 1000) /\ tf_freq 200 /\
  exists c beam, make Tf [("timeRes", AFloat (1 # 1000)); ("freqRes", AInt 200)]%string None = Ok (Beams (mkDev (Some c) [beam] None)) /\ value beam TimeRes == 2097152 # 100000000.
Proof.
  split; [reflexivity|]. split; [reflexivity|]. split; [split; vm_compute; discriminate|]. split; [split; vm_compute; discriminate|]. eexists. eexists. split; [vm_compute; reflexivity|reflexivity].
Qed.

(** * C115: data volumes *)
Theorem C115_finite : forall c, valid c -> ((exists v, config_volume c = Some v) <-> (c_backend c = Nickel -> 0 < value c TimeRes)).
Proof. exact volume_finite. Qed.
Print Assumptions C115_finite.
Theorem C115_sign : forall c v u, valid c -> config_volume c = Some v -> useful (c_backend c) (c_duration c) u -> (0 <= v <-> 0 <= u) /\ (v == 0 <-> u == 0).
Proof. exact volume_sign. Qed.
Print Assumptions C115_sign.
Theorem C115_time : forall c c' v v' u u', c_backend c' = c_backend c -> (forall a, get c' a = get c a) -> config_volume c = Some v -> config_volume c' = Some v' ->
  useful (c_backend c) (c_duration c) u -> useful (c_backend c) (c_duration c') u' -> v * u' == v' * u.
Proof. exact volume_time. Qed.
Print Assumptions C115_time.
Theorem C115_scales : forall c c' a q v v', scaled c c' a q -> ~ q == 0 -> config_volume c = Some v -> config_volume c' = Some v' ->
  (In a (proportional (c_backend c)) -> v' == q * v) /\ (In a (inverse (c_backend c)) -> v' * q == v).
Proof. exact volume_scales. Qed.
Print Assumptions C115_scales.
Theorem C115_nickel : forall c n v, c_backend c = Nickel -> value c NMAs == inject_Z (Z.of_nat n) -> config_volume c = Some v ->
  v * value c TimeRes == 8 * value c NPolars * value c NChannels * value c NSubBands * inject_Z (Z.of_nat (length (pairs n))) * c_duration c.
Proof. exact nickel_pairs. Qed.
Print Assumptions C115_nickel.
Theorem C115_capacity : forall c v u k, valid c -> capacity (c_backend c) = Some k -> (c_backend c = Tf -> allowed (value c TimeRes) (value c FreqRes)) ->
  config_volume c = Some v -> useful (c_backend c) (c_duration c) u -> 0 <= u -> v <= k * u.
Proof. exact volume_capacity. Qed.
Print Assumptions C115_capacity.
Theorem C115_no_capacity : forall k, exists c, c_backend c = Nickel /\ valid c /\ c_duration c == 1 /\ exists v, config_volume c = Some v /\ k < v.
Proof. exact nickel_no_capacity. Qed.
Print Assumptions C115_no_capacity.
Theorem C115_stale : forall d a x r, receiver_set (Beams d) a x = Ok r \/ receiver_set_duration (Beams d) x = Ok r -> receiver_volume r = receiver_volume (Beams d).
Proof. exact settings_stale. Qed.
Print Assumptions C115_stale.
Theorem C115_fresh : forall c x q r v v' u u', duration_of x = Ok q -> receiver_set_duration (One c) x = Ok r ->
  receiver_volume (One c) = Some v -> receiver_volume r = Some v' -> useful (c_backend c) (c_duration c) u -> useful (c_backend c) q u' -> v * u' == v' * u.
Proof. exact settings_fresh. Qed.
Print Assumptions C115_fresh.
Theorem C115_raw_refuted : exists r v, make Raw [] None = Ok r /\ receiver_volume r = Some v /\ v < 0.
Proof. exact raw_volume_refuted. Qed.
Print Assumptions C115_raw_refuted.

(** The greatest rate is reached. *)
Example C115_ex : exists r c, make Tf [("durationSec", AInt 10); ("timeRes", AFloat (32 # 100000)); ("freqRes", AInt 12000)]%string None = Ok r /\ (exists v, receiver_volume r = Some v /\ v == 6000000000) /\
  r = Beams (mkDev (Some c) [c] None) /\ useful Tf (c_duration c) 10 /\ capacity Tf = Some 600000000 /\
  (exists r', receiver_set_duration r (AInt 20) = Ok r' /\ exists v, receiver_volume r' = Some v /\ v == 6000000000) /\
  (exists o o' v v', make Bst [("durationSec", AInt 10)]%string None = Ok o /\ receiver_set_duration o (AInt 20) = Ok o' /\ receiver_volume o = Some v /\ receiver_volume o' = Some v' /\ v == 61440 /\ v' == 122880) /\
  length (pairs 3) = 6%nat /\ (exists c0, init true Nickel [("timeRes", AInt 0)]%string None = Ok c0 /\ config_volume c0 = None).
Proof.
  eexists. eexists. split; [vm_compute; reflexivity|]. split; [eexists; split; vm_compute; reflexivity|]. split; [reflexivity|]. split; [reflexivity|]. split; [reflexivity|].
  split; [eexists; split; [vm_compute; reflexivity|eexists; split; vm_compute; reflexivity]|].
  split; [eexists; eexists; eexists; eexists; split; [vm_compute; reflexivity|]; split; [vm_compute; reflexivity|]; split; [vm_compute; reflexivity|]; split; [vm_compute; reflexivity|]; split; reflexivity|].
  split; [reflexivity|]. eexists. split; [vm_compute; reflexivity|]. vm_compute. reflexivity.
Qed.

(** * C116: receivers of a parset *)
Theorem C116_tf_text : forall text mode l, lower text = tf_text mode l -> plain mode -> Forall (fun p => plain (fst p) /\ plain (snd p)) l ->
  fst (parse_parameters text false) = mode /\
  forall k, plain k -> (forall v, dict_get String.eqb k (snd (parse_parameters text false)) = Some v <-> exists s, v = DText s /\ last_given k l s).
Proof. exact tf_parameters. Qed.
Print Assumptions C116_tf_text.
Theorem C116_pulsar_text : forall text mode l, lower text = pulsar_text mode l -> plain mode -> Forall plain_option l -> Forall (fun o => fst o <> EmptyString) l ->
  fst (parse_parameters text true) = mode /\
  forall k, plain k -> (dict_get String.eqb k (snd (parse_parameters text true)) = Some DTrue <-> In (k, None) l) /\
    forall s, dict_get String.eqb k (snd (parse_parameters text true)) = Some (DText s) <-> ~ In (k, None) l /\ exists v, s = (v ++ " ")%string /\ last_given k (valued l) v.
Proof. exact pulsar_parameters. Qed.
Print Assumptions C116_pulsar_text.
Theorem C116_kept : forall ck pf b (db : property ck) c, computer b -> beam_from ck pf b db = Ok (Some c) ->
  c_backend c = b /\ valid c /\ (exists n, lasts db n /\ c_duration c = inject_Z n) /\ (exists n, elements db "subbandList" n /\ kept (sub_band_range b) (inject_Z n) (value c NSubBands)) /\
  (exists t, has_text db "toDo" t /\ lower t = purpose b) /\
  (b <> Raw -> exists s, has_text db "parameters" s /\ fst (parse_parameters s (match b with Tf => false | _ => true end)) = recorder b).
Proof. exact beam_kept. Qed.
Print Assumptions C116_kept.
Theorem C116_passed : forall ck pf b (db : property ck) t, computer b -> has_text db "toDo" t ->
  (lower t <> purpose b \/ (b <> Raw /\ dict_get String.eqb "parameters"%string db = None) \/
   (b <> Raw /\ exists s, has_text db "parameters" s /\ fst (parse_parameters s (match b with Tf => false | _ => true end)) <> recorder b)) ->
  beam_from ck pf b db = Ok None.
Proof. exact beam_passed. Qed.
Print Assumptions C116_passed.
Theorem C116_tf : forall ck pf (db : property ck) t text l x y dt df n m, has_text db "toDo" t -> lower t = "dynamicspectrum"%string -> has_text db "parameters" text ->
  lower text = tf_text "tf" l -> Forall (fun p => plain (fst p) /\ plain (snd p)) l -> last_given "dt" l x -> last_given "df" l y -> pf x = Some dt -> pf y = Some df ->
  lasts db n -> elements db "subbandList" m ->
  exists c, beam_from ck pf Tf db = Ok (Some c) /\ c_duration c = inject_Z n /\ kept (ints 1 768 768) (inject_Z m) (value c NSubBands) /\ value c NPolars = 4 /\
    (tf_time (dt / 1000) -> value c TimeRes = fst (effective (dt / 1000) (df * 1000)) /\ value c FreqRes = snd (effective (dt / 1000) (df * 1000))).
Proof. exact tf_beam. Qed.
Print Assumptions C116_tf.
Theorem C116_tf_missing : forall ck pf (db : property ck) t text l, has_text db "toDo" t -> lower t = "dynamicspectrum"%string -> has_text db "parameters" text ->
  lower text = tf_text "tf" l -> Forall (fun p => plain (fst p) /\ plain (snd p)) l ->
  (~ In "dt"%string (map fst l) \/ (exists x dt, last_given "dt" l x /\ pf x = Some dt) /\ ~ In "df"%string (map fst l)) -> beam_from ck pf Tf db = Err EKeyError.
Proof. exact tf_missing. Qed.
Print Assumptions C116_tf_missing.
Theorem C116_fold : forall ck pf (db : property ck) t text l n m, has_text db "toDo" t -> lower t = "pulsar"%string -> has_text db "parameters" text ->
  lower text = pulsar_text "fold" l -> Forall plain_option l -> Forall (fun o => fst o <> EmptyString) l ->
  (forall v, last_given "tfold" (valued l) v -> pf (v ++ " ")%string <> None) -> (forall v, last_given "nbin" (valued l) v -> py_int (v ++ " ")%string <> None) ->
  ~ In ("tfold"%string, None) l -> ~ In ("nbin"%string, None) l -> lasts db n -> elements db "subbandList" m ->
  exists c, beam_from ck pf Fold db = Ok (Some c) /\ c_duration c = inject_Z n /\ kept (ints 1 192 192) (inject_Z m) (value c NSubBands) /\
    (In "onlyi"%string (map fst l) -> value c NPolars = 1) /\ (~ In "onlyi"%string (map fst l) -> value c NPolars = 4) /\
    (forall v x, last_given "tfold" (valued l) v -> pf (v ++ " ")%string = Some x -> kept fold_range x (value c TFold)) /\ (~ In "tfold"%string (map fst (valued l)) -> value c TFold = (1073741824 # 100000000)) /\
    (forall v x, last_given "nbin" (valued l) v -> py_int (v ++ " ")%string = Some x -> kept (ints 16 8096 2048) (inject_Z x) (value c NBins)) /\ (~ In "nbin"%string (map fst (valued l)) -> value c NBins = 2048).
Proof. exact fold_beam. Qed.
Print Assumptions C116_fold.
Theorem C116_computer : forall ck secs pf b (p : parset ck) r, computer b -> from_parset secs pf b p = Ok r ->
  exists v cs t, dict_get String.eqb "hd_receivers"%string (p_output ck p) = Some v /\ r = Beams (mkDev None cs t) /\
    (mentions "undysputed" v -> chosen (beam_from ck pf b) (map snd (p_digibeams ck p)) cs) /\ (~ mentions "undysputed" v -> cs = []) /\
    (forall s, adds_up (map config_volume cs) s -> exists q, receiver_volume r = Some q /\ q == s).
Proof. exact computer_made. Qed.
Print Assumptions C116_computer.
Theorem C116_computer_missing : forall ck secs pf b (p : parset ck) t, computer b -> dict_get String.eqb "startTime"%string (p_observation ck p) = Some t ->
  dict_get String.eqb "hd_receivers"%string (p_output ck p) = None -> from_parset secs pf b p = Err EKeyError.
Proof. exact computer_missing. Qed.
Print Assumptions C116_computer_missing.
Theorem C116_nickel_unused : forall ck secs pf (p : parset ck) t, dict_get String.eqb "startTime"%string (p_observation ck p) = Some t ->
  (dict_get String.eqb "nri_receivers"%string (p_output ck p) = None \/ exists s l, (dict_get String.eqb "nri_receivers"%string (p_output ck p) = Some s) /\ (s = PList ck l \/ exists x, s = PStr ck x) /\ ~ mentions "nickel" s) ->
  exists r v, from_parset secs pf Nickel p = Ok r /\ receiver_volume r = Some v /\ v == 0.
Proof. exact nickel_unused. Qed.
Print Assumptions C116_nickel_unused.
Theorem C116_nickel : forall ck secs pf (p : parset ck) t v a n dt nsb nch nma, dict_get String.eqb "startTime"%string (p_observation ck p) = Some t ->
  dict_get String.eqb "nri_receivers"%string (p_output ck p) = Some v -> mentions "nickel" v -> dict_get Z.eqb 0%Z (p_anabeams ck p) = Some a -> lasts a n ->
  dict_get String.eqb "nri_dumpTime"%string (p_output ck p) = Some (PInt ck dt) -> elements (p_output ck p) "nri_subbandList" nsb ->
  dict_get String.eqb "nri_channelization"%string (p_output ck p) = Some (PInt ck nch) -> elements a "maList" nma ->
  exists c, from_parset secs pf Nickel p = Ok (One c) /\ c_duration c = inject_Z n /\ kept (mkRange 0 10 1) (inject_Z dt) (value c TimeRes) /\
    kept (ints 1 384 384) (inject_Z nsb) (value c NSubBands) /\ kept (ints 1 64 64) (inject_Z nch) (value c NChannels) /\ kept (ints 2 102 96) (inject_Z nma) (value c NMAs) /\ value c NPolars = 4.
Proof. exact nickel_made. Qed.
Print Assumptions C116_nickel.
Theorem C116_nickel_missing : forall ck secs pf (p : parset ck) v, dict_get String.eqb "nri_receivers"%string (p_output ck p) = Some v -> mentions "nickel" v ->
  dict_get Z.eqb 0%Z (p_anabeams ck p) = None -> from_parset secs pf Nickel p = Err EKeyError.
Proof. exact nickel_missing. Qed.
Print Assumptions C116_nickel_missing.
Theorem C116_nickel_fraction_refuted : forall ck secs pf (p : parset ck) t v a n s nsb nch nma, dict_get String.eqb "startTime"%string (p_observation ck p) = Some t ->
  dict_get String.eqb "nri_receivers"%string (p_output ck p) = Some v -> mentions "nickel" v -> dict_get Z.eqb 0%Z (p_anabeams ck p) = Some a -> lasts a n ->
  has_text (p_output ck p) "nri_dumpTime" s -> elements (p_output ck p) "nri_subbandList" nsb ->
  dict_get String.eqb "nri_channelization"%string (p_output ck p) = Some (PInt ck nch) -> elements a "maList" nma -> from_parset secs pf Nickel p = Err ETypeError.
Proof. exact nickel_fraction_refuted. Qed.
Print Assumptions C116_nickel_fraction_refuted.

Definition demo_ten (s : string) : option Q := if String.eqb (strip s) "10" then Some 10 else if String.eqb (strip s) "3.05" then Some (305 # 100) else None.
Definition demo_beam (todo parameters : string) : property half_clock :=
  [("toDo"%string, PStr half_clock todo); ("parameters"%string, PStr half_clock parameters); ("duration"%string, PStr half_clock "12s"); ("subbandList"%string, PList half_clock [IInt half_clock 200; IInt half_clock 201]); ("startTime"%string, PTime half_clock 0%Z);
   ("maList"%string, PList half_clock [IInt half_clock 0; IInt half_clock 1; IInt half_clock 2])].
Definition demo_output (dump : string) (receivers : string) : property half_clock :=
  [("hd_receivers"%string, PList half_clock [IStr half_clock receivers]); ("nri_receivers"%string, PList half_clock [IStr half_clock "nickel"]); ("nri_subbandList"%string, PList half_clock [IInt half_clock 200; IInt half_clock 201]);
   ("nri_dumpTime"%string, match py_int dump with Some n => PInt half_clock n | None => PStr half_clock dump end); ("nri_channelization"%string, PInt half_clock 64)].
Definition demo_parset (dump receivers : string) : parset half_clock :=
  mkParset half_clock [("startTime"%string, PTime half_clock 0%Z)] (demo_output dump receivers) [(0%Z, demo_beam "" "")]
    [(0%Z, demo_beam "Dynamicspectrum" "TF: DF=3.05 DT=10"); (1%Z, demo_beam "Pulsar" "fold: --tfold=10 --onlyi "); (2%Z, demo_beam "Waveform" "")] [].
Example C116_ex : lower "TF: DF=3.05 DT=10"%string = tf_text "tf" [("df", "3.05"); ("dt", "10")]%string /\ Forall (fun p => plain (fst p) /\ plain (snd p)) [("df", "3.05"); ("dt", "10")]%string /\
  last_given "dt" [("df", "3.05"); ("dt", "10")]%string "10"%string /\
  lower "fold: --tfold=10 --onlyi "%string = pulsar_text "fold" [("tfold", Some "10"); ("onlyi", None)]%string /\ Forall plain_option [("tfold", Some "10"); ("onlyi", None)]%string /\
  lasts (demo_beam "" "") 12 /\ elements (demo_beam "" "") "subbandList" 2 /\ mentions "undysputed" (PList half_clock [IStr half_clock "undysputed"]) /\
  (exists c, from_parset half_secs demo_ten Tf (demo_parset "1" "undysputed") = Ok (Beams (mkDev None [c] (Some (0 # 2)))) /\ value c TimeRes == (512 # 100000000) * 64 * 32) /\
  (exists c, from_parset half_secs demo_ten Fold (demo_parset "1" "undysputed") = Ok (Beams (mkDev None [c] (Some (0 # 2)))) /\ value c TFold == 10 /\ value c NPolars == 1) /\
  from_parset half_secs demo_ten Single (demo_parset "1" "undysputed") = Ok (Beams (mkDev None [] (Some (0 # 2)))) /\ from_parset half_secs demo_ten Tf (demo_parset "1" "none") = Ok (Beams (mkDev None [] (Some (0 # 2)))) /\
  (exists c, from_parset half_secs demo_ten Nickel (demo_parset "1" "undysputed") = Ok (One c) /\ value c NMAs == 3) /\ from_parset half_secs demo_ten Nickel (demo_parset "0.5" "undysputed") = Err ETypeError.
Proof.
  split; [reflexivity|]. split; [repeat constructor; cbn; repeat split; discriminate|]. split; [apply last_later; apply last_here; cbn; tauto|]. split; [reflexivity|].
  split. { constructor; [|constructor; [|constructor]]; (split; [cbn; repeat split; discriminate|]); cbn; intros v E; [injection E as <-; cbn; repeat split; discriminate|discriminate]. }
  split; [exists "12s"%string; split; reflexivity|]. split; [left; eexists; split; reflexivity|]. split; [right; eexists; split; [reflexivity|now left]|].
  split; [eexists; split; [vm_compute; reflexivity|reflexivity]|]. split; [eexists; split; [vm_compute; reflexivity|split; reflexivity]|]. split; [vm_compute; reflexivity|]. split; [vm_compute; reflexivity|]. split; [eexists; split; [vm_compute; reflexivity|reflexivity]|]. vm_compute. reflexivity.
Qed.
Example C116_missing_ex : let p := mkParset half_clock [("startTime"%string, PTime half_clock 0%Z)] (demo_output "1" "undysputed") [] [] [] in
  dict_get String.eqb "nri_receivers"%string (p_output half_clock p) = Some (PList half_clock [IStr half_clock "nickel"]) /\ mentions "nickel" (PList half_clock [IStr half_clock "nickel"]) /\
  dict_get Z.eqb 0%Z (p_anabeams half_clock p) = None /\ lasting (ADelta 12) 12 /\ (forall d, ~ lasting (AFreq 12) d).
Proof.
  split; [reflexivity|]. split; [right; eexists; split; [reflexivity|now left]|]. split; [reflexivity|]. split; [right; right; now left|].
  intros d [(n & H & _)|[H|[H|H]]]; discriminate H.
Qed.

(** * C117: durations and totals *)
Theorem C117_bst : forall ck secs pf (p : parset ck) t, dict_get String.eqb "startTime"%string (p_observation ck p) = Some t ->
  Forall (fun db => exists s n, window secs db s n) (map snd (p_digibeams ck p)) ->
  exists c l, from_parset secs pf Bst p = Ok (One c) /\ NoDup l /\ (forall z, In z l <-> covered secs (map snd (p_digibeams ck p)) z) /\ c_duration c = inject_Z (Z.of_nat (length l)).
Proof. exact bst_duration. Qed.
Print Assumptions C117_bst.
Theorem C117_bst_refuted : exists ck (secs : date ck -> Q) pf p c, from_parset secs pf Bst p = Ok (One c) /\ c_duration c == 20 /\
  forall db, In db (map snd (p_digibeams ck p)) -> lasts db 10 /\ exists t, dict_get String.eqb "startTime"%string db = Some (PTime ck t) /\ 0 <= secs t <= 1 # 2.
Proof. exact bst_duration_refuted. Qed.
Print Assumptions C117_bst_refuted.
Theorem C117_monoid : forall a b c k, receivers (obs_add obs_empty a) k = receivers a k /\ receivers (obs_add a obs_empty) k = receivers a k /\ receivers (obs_add (obs_add a b) c) k = receivers (obs_add a (obs_add b c)) k.
Proof. exact obs_monoid. Qed.
Print Assumptions C117_monoid.
Theorem C117_add : forall a b k s t, adds_up (map receiver_volume (receivers a k)) s -> adds_up (map receiver_volume (receivers b k)) t ->
  exists v, obs_volume (obs_add a b) k = Some v /\ v == s + t.
Proof. exact obs_volume_add. Qed.
Print Assumptions C117_add.
Theorem C117_one : forall ck (secs : date ck -> Q) pf p o b, obs_from secs pf p = Ok o -> exists r, from_parset secs pf b p = Ok r /\ receivers o b = [r].
Proof. exact obs_one. Qed.
Print Assumptions C117_one.
Theorem C117_list : forall ck (secs : date ck -> Q) pf l o b, obs_from_list secs pf obs_empty l = Ok o ->
  exists rs, Forall2 (fun p r => from_parset secs pf b p = Ok r) l rs /\ receivers o b = rs /\ forall s, adds_up (map receiver_volume rs) s -> exists v, obs_volume o b = Some v /\ v == s.
Proof. exact obs_list. Qed.
Print Assumptions C117_list.
Theorem C117_list_error : forall ck (secs : date ck -> Q) pf l p l' e t o, obs_from_list secs pf t l = Ok o -> obs_from secs pf p = Err e -> obs_from_list secs pf t (l ++ p :: l') = Err e.
Proof. exact obs_list_error. Qed.
Print Assumptions C117_list_error.
Theorem C117_cumulative : forall l, exists s, Permutation s l /\ fst (cumulative l) = map fst s /\ StronglySorted Qle (fst (cumulative l)) /\ length (snd (cumulative l)) = length l /\
  forall i, (i < length l)%nat -> nth i (snd (cumulative l)) 0 == fold_right Qplus 0 (map snd (firstn (Datatypes.S i) s)).
Proof. exact cumulative_spec. Qed.
Print Assumptions C117_cumulative.
Theorem C117_cumulative_grows : forall l, (forall x, In x l -> 0 <= snd x) -> StronglySorted Qle (snd (cumulative l)).
Proof. exact cumulative_grows. Qed.
Print Assumptions C117_cumulative_grows.

Example C117_ex : window half_secs (demo_beam "" "") 0 12 /\ (exists o v, obs_from_list half_secs demo_ten obs_empty [demo_parset "1" "undysputed"; demo_parset "1" "none"] = Ok o /\ length (receivers o Tf) = 2%nat /\ obs_volume o Bst = Some v /\ v == 2 * (2 * 12 * 768 * 4)) /\
  obs_from half_secs demo_ten (demo_parset "0.5" "undysputed") = Err ETypeError /\ fst (cumulative [(5, 1); (2, 3); (4, 10)]) = [2; 4; 5] /\ Forall2 Qeq (snd (cumulative [(5, 1); (2, 3); (4, 10)])) [3; 13; 14].
Proof.
  split; [split; [exists "12s"%string; split; reflexivity|exists 0%Z; split; reflexivity]|]. split; [eexists; eexists; split; [vm_compute; reflexivity|]; split; [reflexivity|]; split; [vm_compute; reflexivity|reflexivity]|].
  split; [vm_compute; reflexivity|]. split; [reflexivity|]. repeat constructor.
Qed.
