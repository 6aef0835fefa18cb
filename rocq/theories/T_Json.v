(** Properties of the description of a parset (C171 to C178). *)
From Coq Require Import Ascii String List Arith ZArith QArith Qabs Qround Bool Lia Permutation.
From Verif Require Import Base M_Polar M_Pipeline M_Subbands M_PText P_PText M_Parset M_Config P_Config4 M_Json P_Json P_Json2 P_Json3 P_Json4 P_Json5.
Import ListNotations.
Open Scope nat_scope.
Open Scope list_scope.

(** Dates are seconds, written "t:" and a number; the sky turns by a degree in ten seconds. *)
Definition demo_clock : clock :=
  mkClock Q Q (fun s => match split_once ":" s with Some ("t"%string, n) => option_map inject_Z (py_int n) | _ => None end)
    (fun t => ("t:" ++ show_int (Qfloor t))%string) (fun t => ("t:" ++ show_int (Qfloor t))%string) (fun s => option_map inject_Z (py_int s)) (fun a => show_int (Qfloor a)).
Definition demo_world : world demo_clock :=
  mkWorld demo_clock (fun a => a) (fun v => match v with PStr _ s => match py_int (but_last s) with Some n => Ok (inject_Z n) | None => Err EValueError end | PInt _ n => Ok (inject_Z n) | _ => Err EValueError end)
    (fun t d => Qred (t + d)) (fun a b => Qred (a - b)) (fun t az alt => (Qred (az + t / 10), Qred (alt - 40)))%Q (fun t ra dec => (Qred (ra - t / 10), Qred (dec + 40)))%Q
    (fun k t => if String.eqb k "sun" then Ok ((10, 20), (30, 40))%Q else Err EValueError) (fun s => option_map inject_Z (py_int s)).
Definition demo_obs (version : string) : property demo_clock :=
  [("name"%string, PStr demo_clock "run"); ("startTime"%string, PTime demo_clock 0%Q); ("stopTime"%string, PTime demo_clock 600%Q); ("parsetVersion"%string, PStr demo_clock version)].
Definition ints (l : list Z) : pval demo_clock := PList demo_clock (map (IInt demo_clock) l).
Definition ana0 : property demo_clock :=
  [("target"%string, PStr demo_clock "casa"); ("startTime"%string, PTime demo_clock 0%Q); ("duration"%string, PStr demo_clock "600s"); ("directionType"%string, PStr demo_clock "J2000");
   ("angle1"%string, PAngle demo_clock 350%Q); ("angle2"%string, PAngle demo_clock 58%Q); ("decal_ra"%string, PInt demo_clock 20); ("maList"%string, ints [0; 1; 2; 95; 101]%Z);
   ("antList"%string, ints [1; 2; 3]%Z); ("filter"%string, ints [5; 6]%Z); ("filterTime"%string, PList demo_clock [ITime demo_clock 0%Q; ITime demo_clock 300%Q])].
Definition ana1 : property demo_clock :=
  [("target"%string, PStr demo_clock "zenith"); ("startTime"%string, PTime demo_clock 300%Q); ("duration"%string, PStr demo_clock "100s"); ("directionType"%string, PStr demo_clock "azelgeo");
   ("angle1"%string, PAngle demo_clock 0%Q); ("angle2"%string, PAngle demo_clock 80%Q); ("decal_el"%string, PInt demo_clock 30); ("maList"%string, ints [3]%Z);
   ("antList"%string, ints [1]%Z); ("filter"%string, ints [1]%Z); ("filterTime"%string, PList demo_clock [ITime demo_clock 300%Q])].
Definition beam (parent : Z) : property demo_clock :=
  [("target"%string, PStr demo_clock "psr"); ("startTime"%string, PTime demo_clock 10%Q); ("duration"%string, PStr demo_clock "50s"); ("directionType"%string, PStr demo_clock "sun");
   ("noBeam"%string, PInt demo_clock parent); ("toDo"%string, PStr demo_clock "tbd"); ("subbandList"%string, ints [200; 201; 202; 203]%Z)].
Definition demo_out : property demo_clock :=
  [("xst_userfile"%string, PBool demo_clock true); ("xst_sbList"%string, ints [100; 101]%Z); ("nri_receivers"%string, PList demo_clock [IStr demo_clock "nickel"]);
   ("nri_channelization"%string, PInt demo_clock 64); ("nri_dumpTime"%string, PInt demo_clock 1); ("nri_subbandList"%string, ints [150; 151]%Z)].
Definition demo_parset (version : string) (beams centers : list (Z * property demo_clock)) : parset demo_clock :=
  mkParset demo_clock (demo_obs version) demo_out [(0%Z, ana0); (1%Z, ana1)] beams centers.
Definition run (p : parset demo_clock) := to_json demo_world p.

Definition told (f : fov (ck := demo_clock)) := (f_idx f, f_name f, f_center f, f_mas f, map (fun g => (g_idx g, g_name g, g_receiver g, g_inlined g)) (f_pointings f)).
Definition shown r := match r with Ok (m, l) => Ok (@m_topic demo_clock m, m_duration m, map told l) | Err e => Err e end.

Definition new_parset : parset demo_clock := demo_parset "1.0" [(0%Z, beam 1)] [(0%Z, beam 0)].
Definition old_parset : parset demo_clock := demo_parset "0.9" [(0%Z, beam 1)] [(0%Z, beam 0)].
Definition bare_parset : parset demo_clock := demo_parset "1.0" [] [(0%Z, beam 0)].
(** A file of a single analog beam *)
Definition small_text : string := "Observation.parsetVersion=0.9
Output.nri_receivers=[nickel]
Anabeam[0].duration=600s
Beam[0].toDo=TBD
".

(** ** C171: the centre of a pointing *)
Theorem C171_tracked : forall (ck : clock) (W : world ck) p t d ra dec dr dd, lacks p "azelFile" -> lasting W p t d -> directs p "j2000" -> has_angles W p ra dec ->
  lacks p "decal_az" -> lacks p "decal_el" -> asked W p "decal_ra" dr -> asked W p "decal_dec" dd ->
  exists c, center_of W p = Ok c /\ clamped_to 0 360 (ra + dr) (c_ra c) /\ clamped_to (-90) 90 (dec + dd) (c_dec c) /\ c_type c = "j2000"%string.
Proof. exact @center_tracked. Qed.
Print Assumptions C171_tracked.
Theorem C171_tracked_horizon : forall (ck : clock) (W : world ck) p t d ra dec, lacks p "azelFile" -> lasting W p t d -> directs p "j2000" -> has_angles W p ra dec ->
  (exists v, holds p "decal_az" v \/ holds p "decal_el" v) -> shifts_read W p ->
  exists c, center_of W p = Ok c /\ c_type c = "j2000"%string /\
    let m := w_add ck W t (d / 2)%Q in sky_shifted W p m (fst (w_altaz ck W m ra dec)) (snd (w_altaz ck W m ra dec)) c.
Proof. exact @center_tracked_horizon. Qed.
Print Assumptions C171_tracked_horizon.
Theorem C171_transit : forall (ck : clock) (W : world ck) p t d az alt, lacks p "azelFile" -> lasting W p t d -> directs p "azelgeo" -> has_angles W p az alt -> shifts_read W p ->
  exists c, center_of W p = Ok c /\ c_type c = "azelgeo"%string /\ sky_shifted W p (w_add ck W t (d / 2)%Q) az alt c.
Proof. exact @center_transit. Qed.
Print Assumptions C171_transit.
Theorem C171_file : forall (ck : clock) (W : world ck) p t d v, holds p "azelFile" v -> lasting W p t d ->
  let z := w_icrs ck W (w_add ck W t (d / 2)%Q) 0 90 in center_of W p = Ok (mkCenter (Some (fst z)) (Some (snd z)) "azelgeo_azelfile").
Proof. exact @center_file. Qed.
Print Assumptions C171_file.
Theorem C171_natif : forall (ck : clock) (W : world ck) p t d, lacks p "azelFile" -> lasting W p t d -> directs p "natif" -> center_of W p = Ok (mkCenter None None "natif").
Proof. exact @center_natif. Qed.
Print Assumptions C171_natif.
Theorem C171_solar : forall (ck : clock) (W : world ck) p t d k, lacks p "azelFile" -> lasting W p t d -> directs p k -> other_kind k ->
  let m := w_add ck W t (d / 2)%Q in
  (forall e, w_solar ck W k m = Err e -> center_of W p = Err e) /\
  (forall radec altaz, w_solar ck W k m = Ok (radec, altaz) -> shifts_read W p ->
     exists c, center_of W p = Ok c /\ c_type c = k /\
       ((exists v, holds p "decal_az" v \/ holds p "decal_el" v) -> sky_shifted W p m (fst altaz) (snd altaz) c) /\
       (lacks p "decal_az" -> lacks p "decal_el" -> forall dr dd, asked W p "decal_ra" dr -> asked W p "decal_dec" dd ->
          clamped_to 0 360 (fst radec + dr) (c_ra c) /\ clamped_to (-90) 90 (snd radec + dd) (c_dec c))).
Proof. exact @center_solar. Qed.
Print Assumptions C171_solar.
Theorem C171_range : forall (ck : clock) (W : world ck) p c, center_of W p = Ok c -> c_type c <> "azelgeo_azelfile"%string ->
  (c_type c = "natif"%string /\ c_ra c = None /\ c_dec c = None) \/
  exists ra dec, c_ra c = Some ra /\ c_dec c = Some dec /\ (0 <= ra <= 360)%Q /\ (-90 <= dec <= 90)%Q.
Proof. exact @center_range. Qed.
Print Assumptions C171_range.
Theorem C171_again : forall (ck : clock) (W : world ck) p, center_of W (directed p) = center_of W p /\ directed (directed p) = directed p.
Proof. exact @center_again. Qed.
Print Assumptions C171_again.
Theorem C171_wrap_refuted : forall (ck : clock) (W : world ck) p t d ra dec dr dd, lacks p "azelFile" -> lasting W p t d -> directs p "j2000" -> has_angles W p ra dec ->
  lacks p "decal_az" -> lacks p "decal_el" -> asked W p "decal_ra" dr -> asked W p "decal_dec" dd -> (360 < ra + dr < 720 \/ -360 < ra + dr < 0)%Q ->
  exists c x, center_of W p = Ok c /\ c_ra c = Some x /\ forall k : Z, ~ (x == ra + dr + 360 * inject_Z k)%Q.
Proof. exact @center_wrap_refuted. Qed.
Print Assumptions C171_wrap_refuted.
Theorem C171_refused : forall (ck : clock) (W : world ck) p,
  (lacks p "duration" -> center_of W p = Err EKeyError) /\
  (forall v d, holds p "duration" v -> w_delta ck W v = Ok d -> lacks p "startTime" -> center_of W p = Err EKeyError) /\
  (forall t d, lasting W p t d -> lacks p "azelFile" -> lacks p "directionType" -> center_of W p = Err EKeyError) /\
  (forall v e, holds p "duration" v -> w_delta ck W v = Err e -> center_of W p = Err e).
Proof. exact @center_refused. Qed.
Print Assumptions C171_refused.
Definition beam0 (l : property demo_clock) : property demo_clock := [("startTime"%string, PTime demo_clock 10%Q); ("duration"%string, PStr demo_clock "60s")] ++ l.
Definition at_ (kind : string) (a b : Q) (l : property demo_clock) : property demo_clock :=
  beam0 ([("directionType"%string, PStr demo_clock kind); ("angle1"%string, PAngle demo_clock a); ("angle2"%string, PAngle demo_clock b)] ++ l).
Example C171_ex :
  center_of demo_world (at_ "J2000" 350%Q 58%Q [("decal_ra"%string, PStr demo_clock "5"); ("decal_dec"%string, PInt demo_clock 40)]) = Ok (mkCenter (Some (350 + 5)%Q) (Some 90%Q) "j2000") /\
  center_of demo_world (at_ "J2000" 350%Q 58%Q [("decal_ra"%string, PInt demo_clock 20)]) = Ok (mkCenter (Some 360%Q) (Some (58 + 0)%Q) "j2000") /\
  center_of demo_world (at_ "j2000" 350%Q 30%Q [("decal_az"%string, PInt demo_clock 2)]) = Ok (mkCenter (Some (352 + 0)%Q) (Some (30 + 0)%Q) "j2000") /\
  center_of demo_world (at_ "azelgeo" 0%Q 80%Q [("decal_el"%string, PInt demo_clock 30)]) = Ok (mkCenter (Some (4 + 0)%Q) (Some (50 + 0)%Q) "azelgeo") /\
  center_of demo_world (at_ "azelgeo" 0%Q 80%Q [("azelFile"%string, PStr demo_clock "f")]) = Ok (mkCenter (Some 4%Q) (Some 50%Q) "azelgeo_azelfile") /\
  center_of demo_world (at_ "NATIF" 0%Q 80%Q []) = Ok (mkCenter None None "natif") /\
  center_of demo_world (at_ "Sun" 0%Q 80%Q [("decal_ra"%string, PInt demo_clock 1)]) = Ok (mkCenter (Some (10 + 1)%Q) (Some (20 + 0)%Q) "sun") /\
  center_of demo_world (at_ "vulcan" 0%Q 80%Q []) = Err EValueError /\ center_of demo_world [] = Err EKeyError.
Proof. repeat split; reflexivity. Qed.
Example C171_met : let p := at_ "J2000" 350%Q 58%Q [("decal_ra"%string, PInt demo_clock 20)] in
  lacks p "azelFile" /\ lasting demo_world p 10%Q 60%Q /\ directs p "j2000" /\ has_angles demo_world p 350%Q 58%Q /\ lacks p "decal_az" /\ lacks p "decal_el" /\
  asked demo_world p "decal_ra" 20%Q /\ asked demo_world p "decal_dec" 0%Q /\ (360 < 350 + 20 < 720)%Q /\ shifts_read demo_world p /\ other_kind "sun".
Proof.
  cbv zeta. repeat apply conj; try reflexivity.
  - eexists. split; [reflexivity|reflexivity].
  - eexists. split; [reflexivity|reflexivity].
  - exists 350%Q, 58%Q. repeat split; reflexivity.
  - change 20%Q with (inject_Z 20). apply asked_int. reflexivity.
  - apply asked_none. reflexivity.
  - intros k K. cbn in K. destruct K as [<-|[<-|[<-|[<-|[]]]]].
    + exists 0%Q. apply asked_none. reflexivity.
    + exists 0%Q. apply asked_none. reflexivity.
    + exists (inject_Z 20). apply asked_int. reflexivity.
    + exists 0%Q. apply asked_none. reflexivity.
  - intro H. cbn in H. decompose [or] H; try discriminate; assumption.
Qed.

(** ** C172: dates and receivers *)
Theorem C172_time : forall (ck : clock) (W : world ck) p t d, lasting W p t d ->
  exists s, time_of W p = Ok s /\ t_start s = t /\ t_stop s = w_add ck W t d /\ (Qabs (t_duration s - d) <= 1 # 2000)%Q /\ exists n, (t_duration s * 1000 == inject_Z n)%Q.
Proof. exact @time_spec. Qed.
Print Assumptions C172_time.
Theorem C172_default : forall (ck : clock) (W : world ck) p o v f, lacks p "toDo" \/ does p "none" -> bands p "subbandList" f -> setting_of W p o v = Ok (SDefault f).
Proof. exact @setting_default. Qed.
Print Assumptions C172_default.
Theorem C172_waveform : forall (ck : clock) (W : world ck) p o v f, does p "waveform" -> bands p "subbandList" f -> setting_of W p o v = Ok (SWaveform f).
Proof. exact @setting_waveform. Qed.
Print Assumptions C172_waveform.
Theorem C172_unknown : forall (ck : clock) (W : world ck) p o v k, does p k -> ~ In k kinds -> setting_of W p o v = Err EKeyError.
Proof. exact @setting_unknown. Qed.
Print Assumptions C172_unknown.
Theorem C172_pulsar : forall (ck : clock) (W : world ck) p o v mode l, does p "pulsar" -> options_of p mode l ->
  (forall s f n, given_once "src" l s -> bands p "subbandList" f -> polarisations l n ->
     (mode = "fold"%string -> setting_of W p o v = Ok (SFold s n f)) /\
     (mode = "waveolaf"%string -> setting_of W p o v = Ok (SWaveolaf s f)) /\
     (mode = "wave"%string -> setting_of W p o v = Ok (SWave s f)) /\
     (forall x d, mode = "single"%string -> given_once "dstime" l x -> py_int (x ++ " ") = Some d -> setting_of W p o v = Ok (SSingle s d n f))) /\
  (In mode ["fold"; "single"; "waveolaf"; "wave"]%string -> ~ In "src"%string (map fst l) -> setting_of W p o v = Err EKeyError) /\
  (~ In mode ["fold"; "single"; "waveolaf"; "wave"]%string -> setting_of W p o v = Ok SEmpty).
Proof. exact @setting_pulsar. Qed.
Print Assumptions C172_pulsar.
Theorem C172_pulsar_bare : forall (ck : clock) (W : world ck) p o v, does p "pulsar" -> lacks p "parameters" ->
  (forall b, holds p "noBeam" b -> setting_of W p o v = Ok SEmpty) /\ (lacks p "noBeam" -> setting_of W p o v = Err EKeyError).
Proof. exact @setting_pulsar_bare. Qed.
Print Assumptions C172_pulsar_bare.
Theorem C172_dynspec : forall (ck : clock) (W : world ck) p o v mode l, does p "dynamicspectrum" -> pairs_of p mode l -> l <> [] ->
  (forall dt df f, number_of W l "dt" dt -> number_of W l "df" df -> bands p "subbandList" f -> setting_of W p o v = Ok (STf dt df f)) /\
  (~ In "dt"%string (map fst l) -> setting_of W p o v = Ok SEmpty) /\
  (forall dt, number_of W l "dt" dt -> ~ In "df"%string (map fst l) -> setting_of W p o v = Ok SEmpty) /\
  (forall dt df, number_of W l "dt" dt -> number_of W l "df" df -> lacks p "subbandList" -> setting_of W p o v = Ok SEmpty).
Proof. exact @setting_dynspec. Qed.
Print Assumptions C172_dynspec.
Theorem C172_dynspec_bare : forall (ck : clock) (W : world ck) p o v f, does p "dynamicspectrum" -> lacks p "parameters" -> bands p "subbandList" f ->
  (forall b, holds p "noBeam" b -> setting_of W p o v = Ok (STf 5 (61 # 10) f)) /\ (lacks p "noBeam" -> setting_of W p o v = Err EKeyError).
Proof. exact @setting_dynspec_bare. Qed.
Print Assumptions C172_dynspec_bare.
Theorem C172_rawrt : forall (ck : clock) (W : world ck) p o v text f, does p "dynamicspectrum" -> holds p "parameters" (PStr ck text) -> lower text = "tf: rawrt"%string -> bands p "subbandList" f ->
  setting_of W p o v = Ok (SWaveform f).
Proof. exact @setting_rawrt. Qed.
Print Assumptions C172_rawrt.
Theorem C172_nickel : forall (ck : clock) (W : world ck) p o v ch dump, does p "nickel" -> holds o "nri_channelization" ch -> holds o "nri_dumpTime" dump ->
  (before_1 v -> forall f, bands o "nri_subbandList" f -> setting_of W p o v = Ok (SNickel ch dump f)) /\
  (~ before_1 v -> forall f b, bands p "subbandList" f -> holds p "noBeam" b -> (lacks p "parameters" \/ exists s, holds p "parameters" (PStr ck s)) -> setting_of W p o v = Ok (SNickel ch dump f)).
Proof. exact @setting_nickel. Qed.
Print Assumptions C172_nickel.
Theorem C172_tbd : forall (ck : clock) (W : world ck) p o v, does p "tbd" ->
  (before_1 v -> nickel_named o -> forall ch dump f, holds o "nri_channelization" ch -> holds o "nri_dumpTime" dump -> bands o "nri_subbandList" f -> setting_of W p o v = Ok (SNickel ch dump f)) /\
  (forall f, lacks o "nri_receivers" \/ (~ before_1 v /\ nickel_named o) -> bands p "subbandList" f -> setting_of W p o v = Ok (SDefault f)).
Proof. exact @setting_tbd. Qed.
Print Assumptions C172_tbd.
Definition with_sb (l : property demo_clock) : property demo_clock := [("subbandList"%string, PList demo_clock [IInt demo_clock 200; IInt demo_clock 201])] ++ l.
Definition sb : list (Q * Q) := match freqs_of (with_sb []) "subbandList" with Ok f => f | Err _ => [] end.
Definition nri : property demo_clock := [("nri_receivers"%string, PList demo_clock [IStr demo_clock "nickel"]); ("nri_channelization"%string, PInt demo_clock 64); ("nri_dumpTime"%string, PInt demo_clock 1);
  ("nri_subbandList"%string, PList demo_clock [IInt demo_clock 200; IInt demo_clock 201])].
Definition todo (s : string) : string * pval demo_clock := ("toDo"%string, PStr demo_clock s).
Definition par (s : string) : string * pval demo_clock := ("parameters"%string, PStr demo_clock s).
Definition nob : string * pval demo_clock := ("noBeam"%string, PInt demo_clock 0).
Example C172_ex : let s p := setting_of demo_world (with_sb p) in
  time_of demo_world (beam0 []) = Ok (mkSpan (10%Q : date demo_clock) (70%Q : date demo_clock) (60000 # 1000)) /\ length sb = 1 /\
  s [] nri [1; 0]%Z = Ok (SDefault sb) /\ s [todo "None"] [] [0]%Z = Ok (SDefault sb) /\ s [todo "Waveform"] [] [0]%Z = Ok (SWaveform sb) /\ s [todo "imaging"] [] [0]%Z = Err EKeyError /\
  s [todo "Pulsar"; par "FOLD: --SRC=B1919+21 --ONLYI"] [] [0]%Z = Ok (SFold "b1919+21" 1 sb) /\ s [todo "Pulsar"; par "SINGLE: --SRC=B1919+21 --dstime=4"] [] [0]%Z = Ok (SSingle "b1919+21" 4 4 sb) /\
  s [todo "pulsar"; nob] [] [0]%Z = Ok SEmpty /\ s [todo "pulsar"] [] [0]%Z = Err EKeyError /\
  s [todo "dynamicspectrum"; par "TF: DF=3 DT=21 HAMM"; nob] [] [0]%Z = Ok (STf 21 3 sb) /\ s [todo "dynamicspectrum"; nob] [] [0]%Z = Ok (STf 5 (61 # 10) sb) /\ s [todo "dynamicspectrum"; par "TF: RAWRT"] [] [0]%Z = Ok (SWaveform sb) /\
  s [todo "nickel"; nob] nri [1; 0]%Z = Ok (SNickel (PInt demo_clock 64) (PInt demo_clock 1) sb) /\ s [todo "tbd"] nri [0; 9]%Z = Ok (SNickel (PInt demo_clock 64) (PInt demo_clock 1) sb) /\
  s [todo "tbd"] nri [1; 0]%Z = Ok (SDefault sb) /\ s [todo "tbd"] [] [0; 9]%Z = Ok (SDefault sb).
Proof. cbv zeta. repeat apply conj; reflexivity. Qed.
Example C172_met : lasting demo_world (beam0 []) 10%Q 60%Q /\ does (with_sb [todo "Pulsar"]) "pulsar" /\ bands (with_sb []) "subbandList" sb /\
  options_of (with_sb [par "FOLD: --SRC=B1919+21 --ONLYI "]) "fold" [("src", Some "b1919+21"); ("onlyi", None)]%string /\ given_once "src" [("src", Some "b1919+21"); ("onlyi", None)]%string "b1919+21" /\
  polarisations [("src", Some "b1919+21"); ("onlyi", None)]%string 1 /\ pairs_of (with_sb [par "TF: DF=3 DT=21"]) "tf" [("df", "3"); ("dt", "21")]%string /\
  number_of demo_world [("df", "3"); ("dt", "21")]%string "dt" 21%Q /\ before_1 [0; 9]%Z /\ ~ before_1 [1; 0]%Z /\ nickel_named nri /\ ~ In "imaging"%string kinds.
Proof.
  repeat apply conj.
  - reflexivity.
  - eexists. split; reflexivity.
  - eexists. split; reflexivity.
  - exists [200; 201]%Z. split; reflexivity.
  - eexists. split; [reflexivity|]. split; [reflexivity|]. repeat split; repeat constructor; try reflexivity; try discriminate.
    intros v E. injection E as <-. repeat split; discriminate.
  - apply last_here. intros [].
  - intro H. cbn in H. decompose [or] H; try discriminate; assumption.
  - left. split; [cbn; tauto|reflexivity].
  - eexists. split; [reflexivity|]. split; [reflexivity|]. repeat split; repeat constructor; try discriminate.
  - exists "21"%string. split; [|reflexivity]. apply last_later, last_here. intros [].
  - cbn. lia.
  - cbn. lia.
  - eexists. split; reflexivity.
  - intro H. cbn in H. decompose [or] H; try discriminate; assumption.
Qed.

(** ** C173: fields of view and pointings *)
Theorem C173_described : forall (ck : clock) (W : world ck) p m fovs, to_json W p = Ok (m, fovs) ->
  exists v beams centers xst extra, version_of (p_observation ck p) = Ok v /\ metadata_of W (p_observation ck p) = Ok m /\ described W p v beams centers xst extra fovs.
Proof. exact @to_json_spec. Qed.
Print Assumptions C173_described.
Theorem C173_orphan : forall (ck : clock) (W : world ck) i p o v fovs name c t s n, holds p "target" name -> center_of W p = Ok c -> time_of W p = Ok t -> setting_of W p o v = Ok s -> parent p n ->
  ~ In n (map (@f_idx ck) fovs) -> pointing_of W i p o v fovs = Err EIndexError.
Proof. exact @pointing_orphan. Qed.
Print Assumptions C173_orphan.
Theorem C173_every_once : forall (ck : clock) (W : world ck) p v beams centers xst extra fovs, described W p v beams centers xst extra fovs ->
  Permutation (all_pointings fovs) (map snd (beams ++ centers ++ xst ++ extra)).
Proof. exact @every_once. Qed.
Print Assumptions C173_every_once.
Theorem C173_distinct : forall (ck : clock) text p, decode ck text = Ok p -> NoDup (map fst (p_anabeams ck p)) /\ NoDup (map fst (p_digibeams ck p)) /\ NoDup (map fst (p_centers ck p)).
Proof. exact @parents_read. Qed.
Print Assumptions C173_distinct.
Definition idx_of (p : parset demo_clock) := match run p with Ok (_, l) => map (fun f => (f_idx f, map g_idx (f_pointings f))) l | Err _ => [] end.
Example C173_ex : idx_of new_parset = [(0, [1; 2]); (1, [0; 3])]%Z /\ idx_of old_parset = [(0, [1; 3]); (1, [0; 2])]%Z /\
  match run new_parset with Ok (_, f :: _) => Some (f_filters f, length (f_ants f), f_name f, f_squint f) | _ => None end =
    Some ([(5%Z, 0%Q : date demo_clock); (6%Z, 300%Q : date demo_clock)], 3, PStr demo_clock "casa", PBool demo_clock false) /\
  run (demo_parset "1.0" [(0%Z, beam 7)] []) = Err EIndexError /\ (exists p, decode demo_clock small_text = Ok p /\ map fst (p_anabeams demo_clock p) = [0%Z]).
Proof. repeat (split; [reflexivity|]). eexists. split; reflexivity. Qed.

(** ** C174: indices of the pointings *)
Theorem C174_indices : forall (ck : clock) (W : world ck) p m fovs, to_json W p = Ok (m, fovs) -> numbered (p_digibeams ck p) -> numbered (p_centers ck p) -> p_digibeams ck p <> [] ->
  exists n, Permutation (map g_idx (all_pointings fovs)) (map Z.of_nat (List.seq 0 n)).
Proof. exact @indices_spec. Qed.
Print Assumptions C174_indices.
Theorem C174_indices_refuted : forall (ck : clock) (W : world ck) p m fovs v, to_json W p = Ok (m, fovs) -> version_of (p_observation ck p) = Ok v -> ~ before_1 v -> p_digibeams ck p = [] -> numbered (p_centers ck p) ->
  p_centers ck p <> [] -> asks_xst (p_output ck p) -> p_anabeams ck p <> [] -> ~ NoDup (map g_idx (all_pointings fovs)).
Proof. exact @indices_refuted. Qed.
Print Assumptions C174_indices_refuted.
Example C174_ex : (exists m fovs, to_json demo_world new_parset = Ok (m, fovs)) /\ numbered (p_digibeams demo_clock new_parset) /\ numbered (p_centers demo_clock new_parset) /\ p_digibeams demo_clock new_parset <> [].
Proof. split; [eexists; eexists; reflexivity|]. split; [reflexivity|]. split; [reflexivity|discriminate]. Qed.
Example C174_refuted_ex : idx_of bare_parset = [(0, [1; 1]); (1, [2])]%Z /\ version_of (p_observation demo_clock bare_parset) = Ok [1; 0]%Z /\ p_digibeams demo_clock bare_parset = [] /\
  numbered (p_centers demo_clock bare_parset) /\ p_centers demo_clock bare_parset <> [] /\ p_anabeams demo_clock bare_parset <> [] /\ asks_xst (p_output demo_clock bare_parset).
Proof. repeat apply conj; try reflexivity; try discriminate. exists (PBool demo_clock true). repeat split; try discriminate; reflexivity. Qed.

(** ** C175: NICKEL before version 1.0 *)
Theorem C175_extra : forall (ck : clock) (W : world ck) text p m fovs v, decode ck text = Ok p -> to_json W p = Ok (m, fovs) -> version_of (p_observation ck p) = Ok v -> before_1 v -> nickel_named (p_output ck p) ->
  exists a g f, dict_get Z.eqb 0%Z (p_anabeams ck p) = Some a /\ nth_error fovs 0 = Some f /\ nickel_made W a (p_output ck p) (length (all_pointings fovs) - 1) (0, g) /\
    (exists l, f_pointings f = l ++ [g]) /\ g_receiver g = None.
Proof. exact @nickel_read. Qed.
Print Assumptions C175_extra.
Theorem C175_refused : forall (ck : clock) (W : world ck) p v, version_of (p_observation ck p) = Ok v -> before_1 v -> nickel_named (p_output ck p) ->
  (exists b, In b (p_digibeams ck p) /\ lacks (snd b) "toDo") \/ (dict_get Z.eqb 0%Z (p_anabeams ck p) = None /\ ~ Exists says_tbd (p_digibeams ck p)) -> forall r, to_json W p <> Ok r.
Proof. exact @nickel_refused. Qed.
Print Assumptions C175_refused.
Example C175_ex : nickel_named (p_output demo_clock old_parset) /\ version_of (p_observation demo_clock old_parset) = Ok [0; 9]%Z /\
  match run old_parset with Ok (_, f :: g :: _) => (map g_name (f_pointings f), map (fun x => match g_receiver x with Some s => receiver_name s | None => None end) (f_pointings f ++ f_pointings g)) | _ => ([], []) end =
    ([PStr demo_clock ""; PStr demo_clock "nickel"], [Some "LaNewBa"; None; Some "nickel"; Some "LaNewBa"]%string) /\
  run (demo_parset "0.9" [(0%Z, [])] []) = Err EKeyError /\ (exists p, decode demo_clock small_text = Ok p /\ nickel_named (p_output demo_clock p) /\ version_of (p_observation demo_clock p) = Ok [0; 9]%Z).
Proof. split; [eexists; split; reflexivity|]. split; [reflexivity|]. split; [reflexivity|]. split; [reflexivity|]. eexists. split; [reflexivity|]. split; [eexists; split; reflexivity|reflexivity]. Qed.

(** ** C176: remote mini-arrays *)
Theorem C176_remote : forall (ck : clock) (W : world ck) p m fovs f, to_json W p = Ok (m, fovs) -> In f fovs -> Forall (fun x => exists n, x = IInt ck n /\ (n <= 96)%Z) (f_mas f).
Proof. exact @remote_removed. Qed.
Print Assumptions C176_remote.
Example C176_ex : match run old_parset with Ok (_, f :: _) => f_mas f = map (IInt demo_clock) [0; 1; 2; 95]%Z /\ existsb (fun g => match g_inlined g with Some (SNickel _ _ _) => true | _ => false end) (f_pointings f) = true | _ => False end /\
  holds ana0 "maList" (PList demo_clock (map (IInt demo_clock) [0; 1; 2; 95; 101]%Z)).
Proof. split; [split; reflexivity|reflexivity]. Qed.

(** ** C177: reading the description again *)
Theorem C177_again_refuted : forall (ck : clock) (W : world ck) p e, to_entry W p = Ok e ->
  let '(m, fovs, e') := data_of e in let '(m', fovs', _) := data_of e' in
  m' = m /\ length fovs' = length fovs /\ forall k f, nth_error fovs k = Some f -> exists f', nth_error fovs' k = Some f' /\ f_idx f' = f_idx f /\ f_pointings f' = f_pointings f ++ f_pointings f.
Proof. exact @data_again_refuted. Qed.
Print Assumptions C177_again_refuted.
Example C177_ex : match to_entry demo_world new_parset with
  | Ok e => let '(_, l, e') := data_of e in let '(_, l', _) := data_of e' in map (fun f => map g_idx (f_pointings f)) l = [[1; 2]; [0; 3]]%Z /\ map (fun f => map g_idx (f_pointings f)) l' = [[1; 2; 1; 2]; [0; 3; 0; 3]]%Z
  | Err _ => False end.
Proof. split; reflexivity. Qed.

(** ** C178: versions, metadata, durations *)
Theorem C178_old : forall v, old_version v = true <-> before_1 v.
Proof. exact @old_spec. Qed.
Print Assumptions C178_old.
Theorem C178_version : forall (ck : clock) (o : property ck) v, version_of o = Ok v <->
  lacks o "parsetVersion" /\ v = [0%Z] \/ holds o "parsetVersion" (PStr ck "") /\ v = [1; 0]%Z \/
  exists s, s <> ""%string /\ holds o "parsetVersion" (PStr ck s) /\ Forall2 (fun part n => py_int part = Some n) (split_char "." s) v.
Proof. exact @version_spec. Qed.
Print Assumptions C178_version.
Theorem C178_version_refused : forall (ck : clock) (W : world ck) (p : parset ck) w, holds (p_observation ck p) "parsetVersion" w -> (forall s, w <> PStr ck s) -> to_json W p = Err EAttributeError.
Proof. exact @version_refused. Qed.
Print Assumptions C178_version_refused.
Theorem C178_topic : forall s t, match_topic s = Some t <-> topic_of s t.
Proof. exact @topic_spec. Qed.
Print Assumptions C178_topic.
Theorem C178_metadata : forall (ck : clock) (W : world ck) (o : property ck) a b, holds o "startTime" (PTime ck a) -> holds o "stopTime" (PTime ck b) -> (forall v, holds o "topic" v -> exists s, v = PStr ck s) ->
  exists m, metadata_of W o = Ok m /\ m_start m = a /\ m_stop m = b /\ (Qabs (m_duration m - w_sub ck W b a) <= 1 # 2000)%Q /\ (exists n, m_duration m * 1000 == inject_Z n)%Q /\
    m_title m = dict_get String.eqb "title"%string o /\ m_contact m = dict_get String.eqb "contactName"%string o /\ m_name m = dict_get String.eqb "name"%string o /\
    ((exists s, holds o "topic" (PStr ck s) /\ topic_of s (m_topic m)) \/ (~ (exists s t, holds o "topic" (PStr ck s) /\ topic_of s t)) /\ m_topic m = ("LT00", "DEBUG")%string).
Proof. exact @metadata_spec. Qed.
Print Assumptions C178_metadata.
Theorem C178_topic_read_refuted : forall (ck : clock) (W : world ck) text p m fovs, decode ck text = Ok p -> to_json W p = Ok (m, fovs) -> m_topic m = ("LT00", "DEBUG")%string.
Proof. exact @topic_read_refuted. Qed.
Print Assumptions C178_topic_read_refuted.
Theorem C178_duration_read_refuted : forall (ck : clock) (W : world ck) text p b s, (forall q, exists e, w_delta ck W (PStr ck (q ++ "s")) = Err e) -> decode ck text = Ok p -> In b (p_anabeams ck p ++ p_digibeams ck p) ->
  holds (snd b) "duration" (PStr ck s) -> forall r, to_json W p <> Ok r.
Proof. exact @duration_read_refuted. Qed.
Print Assumptions C178_duration_read_refuted.
Definition strict_world : world demo_clock :=
  mkWorld demo_clock (w_deg demo_clock demo_world) (fun v => match v with PInt _ n => Ok (inject_Z n) | PStr _ s => match py_int s with Some n => Ok (inject_Z n) | None => Err EValueError end | _ => Err EValueError end)
    (w_add demo_clock demo_world) (w_sub demo_clock demo_world) (w_icrs demo_clock demo_world) (w_altaz demo_clock demo_world) (w_solar demo_clock demo_world) (w_float demo_clock demo_world).
Example C178_ex : version_of (p_observation demo_clock new_parset) = Ok [1; 0]%Z /\ version_of [("parsetVersion"%string, PStr demo_clock "")] = Ok [1; 0]%Z /\ version_of ([] : property demo_clock) = Ok [0]%Z /\
  to_json demo_world (mkParset demo_clock [("parsetVersion"%string, PInt demo_clock 1)] [] [] [] []) = Err EAttributeError /\
  match_topic "LT03 PULSARS" = Some ("LT03", "PULSARS")%string /\ match_topic "ES9 SUN" = Some ("ES9", "SUN")%string /\ match_topic "LT08 X" = None /\ match_topic "LT14 X" = None /\ match_topic "RP3A TEST" = Some ("RP3A", "TEST")%string /\ match_topic "lt03 pulsars" = None /\
  metadata_of demo_world [("startTime"%string, PTime demo_clock 5%Q); ("stopTime"%string, PTime demo_clock (20001 # 10000)%Q); ("topic"%string, PStr demo_clock "SP16 SUN")] =
    Ok (mkMeta (5%Q : date demo_clock) ((20001 # 10000)%Q : date demo_clock) (-3000 # 1000)%Q ("SP16", "SUN")%string None None None) /\
  (exists b, In b (p_anabeams demo_clock new_parset) /\ holds (snd b) "duration" (PStr demo_clock "600s")) /\ to_json strict_world new_parset = Err EValueError.
Proof. repeat apply conj; try reflexivity. exists (0%Z, ana0). split; [now left|reflexivity]. Qed.
