(** C216 to C220: replayed parsets. *)
From Coq Require Import Ascii String List Arith ZArith QArith Bool Lia.
From Verif Require Import Base M_Polar M_Dedisperse M_Pipeline M_PText M_POptions M_Parset P_Parset P_Parset2 P_Parset3 M_Replay P_Replay P_Replay2 P_Replay3 P_Replay4.
Import ListNotations.
Open Scope nat_scope.
Open Scope list_scope.

Section Statements.
Variable ck : clock.
Variable ms : date ck -> Z.
Variable plus : date ck -> Z -> date ck.
Variable target : Type.
Variable fixed : property ck -> res (target * (string * string)).
Variable solar : pval ck -> date ck -> res target.
Variable next_transit : target -> date ck -> date ck.
Notation get := (dict_get String.eqb).
Notation replay := (replay ck ms plus target fixed solar next_transit).

Theorem C216_replay : forall text p from duration same u, decode ck text = Ok p -> replay p from duration same = Ok u ->
  same = false /\ exists start d, first_start p (PTime ck start) /\ shift (ms from) (ms start) d /\ (0 <= d)%Z /\ replay_of ck plus target fixed solar next_transit p d duration u.
Proof. exact (@replay_whole ck plus target fixed solar next_transit ms). Qed.
Theorem C216_days : forall text p from duration u start, decode ck text = Ok p -> replay p from duration false = Ok u -> first_start p (PTime ck start) -> (ms start mod 1000 = 0)%Z ->
  exists n, (0 <= n)%Z /\ replay_of ck plus target fixed solar next_transit p (n * 86400000) duration u
    /\ ((forall t d, ms (plus t d) = ms t + d)%Z ->
        (ms (plus start (n * 86400000)) / 86400000 = ms from / 86400000 /\ ms (plus start (n * 86400000)) mod 86400000 = ms start mod 86400000)%Z).
Proof. exact (@replay_days ck ms plus target fixed solar next_transit). Qed.
Theorem C217_direction_refuted : forall text p b, decode ck text = Ok p -> In b (p_anabeams ck p ++ p_digibeams ck p ++ p_centers ck p) -> get "directionType"%string (snd b) <> Some (PStr ck "J2000").
Proof. exact (@direction_refuted ck). Qed.
Theorem C217_written : read_value ck "directionType" "J2000" = Ok (PStr ck "j2000") /\ read_value ck "directionType" "j2000" = Ok (PStr ck "j2000").
Proof. exact (@direction_written ck). Qed.
Theorem C217_j2000_refuted : forall text p b, decode ck text = Ok p -> In b (p_anabeams ck p ++ p_digibeams ck p ++ p_centers ck p) ->
  get "trackingType"%string (snd b) <> None -> get "directionType"%string (snd b) = Some (PStr ck "j2000") -> (forall t x, solar (PStr ck "j2000") t <> Ok x) ->
  forall from duration same u, replay p from duration same <> Ok u.
Proof. exact (@j2000_refuted ck ms plus target fixed solar next_transit). Qed.
Theorem C218_transit : forall text p from duration u i b c, decode ck text = Ok p -> replay p from duration false = Ok u ->
  nth_error (p_anabeams ck p) i = Some b -> nth_error (contents u) i = Some c -> get "trackingType"%string (snd b) <> None ->
  exists start d t tg, first_start p (PTime ck start) /\ shift (ms from) (ms start) d /\ get "startTime"%string (snd b) = Some (PTime ck t)
    /\ ((exists angles, fixed (snd b) = Ok (tg, angles)) \/ exists v, get "directionType"%string (snd b) = Some v /\ solar v (plus t d) = Ok tg)
    /\ value (fst (fst c)) "transitDate" = Some (SStr (show_isot ck (next_transit tg (plus t d)) ++ "Z")%string).
Proof. exact (@transit_kept ck ms plus target fixed solar next_transit). Qed.
Theorem C219_errors : forall p from duration same,
  ((forall v, ~ first_start p v) -> replay p from duration same = Err EKeyError)
  /\ (forall v, first_start p v -> same = true -> replay p from duration same = Err ETypeError)
  /\ (forall v, first_start p v -> same = false -> (forall t, v <> PTime ck t) -> replay p from duration same = Err EAttributeError)
  /\ (forall t d, first_start p (PTime ck t) -> same = false -> shift (ms from) (ms t) d -> (d < 0)%Z -> replay p from duration same = Err EValueError).
Proof. exact (@replay_errors ck ms plus target fixed solar next_transit). Qed.
Theorem C219_past : forall p from duration t, first_start p (PTime ck t) -> (ms t mod 1000 = 0)%Z -> (ms from / 86400000 < ms t / 86400000)%Z -> replay p from duration false = Err EValueError.
Proof. exact (@replay_past ck ms plus target fixed solar next_transit). Qed.
Theorem C219_fraction_refuted : forall p from duration t, first_start p (PTime ck t) -> (0 < ms t mod 1000 < 500)%Z -> (ms from / 86400000 = ms t / 86400000)%Z -> replay p from duration false = Err EValueError.
Proof. exact (@replay_fraction_refuted ck ms plus target fixed solar next_transit). Qed.
Theorem C219_before_refuted : forall from start d, (forall t e, ms (plus t e) = ms t + e)%Z -> (ms start mod 1000 = 0)%Z -> shift (ms from) (ms start) d ->
  (ms (plus start d) < ms from <-> ms start mod 86400000 < ms from mod 86400000)%Z.
Proof. exact (@replay_before_refuted ck ms plus). Qed.
Theorem C219_needs : forall p from duration same u b, replay p from duration same = Ok u -> In b (p_anabeams ck p ++ p_digibeams ck p ++ p_centers ck p) ->
  (forall v, get "startTime"%string (snd b) = Some v -> exists t, v = PTime ck t) /\
  (forall v, get "trackingType"%string (snd b) = Some v -> v = PStr ck "tracking" /\ exists t, get "startTime"%string (snd b) = Some (PTime ck t)).
Proof. exact (@replay_needs ck ms plus target fixed solar next_transit). Qed.
Theorem C220_receivers : forall text p from duration u, decode ck text = Ok p -> replay p from duration false = Ok u ->
  match get "hd_receivers"%string (p_output ck p) with
  | None => value (u_output u) "hd_receivers" = Some (SStr "[undysputed]")
  | Some (PList _ l) => at_most_once "seti" l -> at_most_once "codalema" l ->
      value (u_output u) "hd_receivers" = Some (SStr (list_text (filter (fun x => negb (named "seti" x || named "codalema" x)) l)))
  | Some _ => False
  end.
Proof. exact (@receivers ck ms plus target fixed solar next_transit). Qed.
Theorem C220_space_refuted : forall text p from duration u v, decode ck text = Ok p -> replay p from duration false = Ok u ->
  read_value ck "hd_receivers" "[undysputed, seti]" = Ok v -> get "hd_receivers"%string (p_output ck p) = Some v -> value (u_output u) "hd_receivers" = Some (SStr "[undysputed, seti]").
Proof. exact (@receiver_space_refuted ck ms plus target fixed solar next_transit). Qed.
End Statements.
Print Assumptions C216_replay.
Print Assumptions C216_days.
Print Assumptions C217_direction_refuted.
Print Assumptions C217_written.
Print Assumptions C217_j2000_refuted.
Print Assumptions C218_transit.
Print Assumptions C219_errors.
Print Assumptions C219_past.
Print Assumptions C219_fraction_refuted.
Print Assumptions C219_before_refuted.
Print Assumptions C219_needs.
Print Assumptions C220_receivers.
Print Assumptions C220_space_refuted.

(** Dates for the examples: [T:] and a number of milliseconds. *)
Definition demo_time (s : string) : option Z := match s with String "T" (String ":" r) => py_int (rstrip "Z" r) | _ => None end.
Definition demo_show (t : Z) : string := ("T:" ++ show_int t)%string.
Definition demo_clock : clock := mkClock Z string demo_time demo_show demo_show Some (fun a => a).
Definition demo_next (_ : string) (t : Z) : Z := ((t / 86164091 + 1) * 86164091)%Z.
Definition demo_fixed (q : property demo_clock) : res (string * (string * string)) :=
  match dict_get String.eqb "angle1"%string q, dict_get String.eqb "angle2"%string q with Some (PAngle _ a), Some (PAngle _ b) => Ok ("source"%string, (a, b)) | _, _ => Err EKeyError end.
Definition demo_solar (v : pval demo_clock) (_ : Z) : res string := match v with PStr _ "jupiter" => Ok "jupiter"%string | _ => Err EKeyError end.
Definition demo_replay (p : parset demo_clock) := replay demo_clock (fun t => t) Z.add string demo_fixed demo_solar demo_next p.
Definition demo_lines (l : list string) : string := String.concat (String newline EmptyString) l.
Definition demo_text : string := demo_lines
  ["Observation.name=one"; "AnaBeam[0].target=JUPITER"; "AnaBeam[0].trackingType=tracking"; "AnaBeam[0].directionType=JUPITER"; "AnaBeam[0].startTime=T:86165000Z"; "AnaBeam[0].duration=60s"; "AnaBeam[0].filterTime=[T:86165000Z,T:86195000Z]";
   "AnaBeam[1].target=X"; "AnaBeam[1].trackingType=tracking"; "AnaBeam[1].angle1=10"; "AnaBeam[1].angle2=20"; "AnaBeam[1].startTime=T:86465000Z"; "AnaBeam[1].duration=30s";
   "Beam[0].target=Y"; "Beam[0].noBeam=1"; "Beam[0].startTime=T:86470000Z"; "PhaseCenter[0].noBeam=0"; "Output.hd_receivers=[undysputed,seti]"; "Output.hd_bitMode=16"]%string.
Definition demo_parset : parset demo_clock := match decode demo_clock demo_text with Ok p => p | Err _ => empty_parset demo_clock end.
Definition demo_user : puser := match demo_replay demo_parset 1000000000%Z (Some 90%Q) false with Ok u => u | Err _ => new_user end.

Definition is_ok {A} (x : res A) : bool := match x with Ok _ => true | Err _ => false end.
Definition holds_text (q : property demo_clock) (k s : string) : bool := match dict_get String.eqb k q with Some (PStr _ t) => String.eqb t s | _ => false end.
Definition starts_at (q : property demo_clock) (z : Z) : bool := match dict_get String.eqb "startTime"%string q with Some (PTime _ t) => Z.eqb t z | _ => false end.
Lemma demo_read : forall text, is_ok (decode demo_clock text) = true -> decode demo_clock text = Ok (match decode demo_clock text with Ok p => p | Err _ => empty_parset demo_clock end).
Proof. intros text H. destruct (decode demo_clock text); [reflexivity|discriminate]. Qed.
Lemma holds_text_ok : forall q k s, holds_text q k s = true -> dict_get String.eqb k q = Some (PStr demo_clock s).
Proof. intros q k s H. unfold holds_text in H. destruct (dict_get String.eqb k q) as [[]|]; try discriminate. apply String.eqb_eq in H. now subst. Qed.
Lemma starts_at_ok : forall (p : parset demo_clock) z, (match dict_get Z.eqb 0%Z (p_anabeams demo_clock p) with Some a => starts_at a z | None => false end) = true -> first_start p (PTime demo_clock z).
Proof. intros p z H. unfold first_start, starts_at in *. destruct (dict_get Z.eqb 0%Z (p_anabeams demo_clock p)) as [a|]; [|discriminate]. exists a. split; [reflexivity|]. destruct (dict_get String.eqb "startTime"%string a) as [[]|]; try discriminate. apply Z.eqb_eq in H. now subst. Qed.

Example C216_ex : decode demo_clock demo_text = Ok demo_parset /\ demo_replay demo_parset 1000000000%Z (Some 90%Q) false = Ok demo_user
  /\ first_start demo_parset (PTime demo_clock 86165000%Z) /\ (86165000 mod 1000 = 0)%Z /\ shift 1000000000%Z 86165000%Z 950400000%Z
  /\ map (fun c => value (fst (fst c)) "startTime") (contents demo_user) = [Some (SStr "T:1036565000Z"); Some (SStr "T:1036865000Z")]
  /\ map (fun c => value (fst (fst c)) "duration") (contents demo_user) = [Some (SStr "90s"); Some (SStr "90s")]
  /\ map (fun c => value (fst (fst c)) "filterTime") (contents demo_user) = [Some (SStr "[T:1036565000,T:1036595000]"); Some (SStr "filter_time")]
  /\ map (fun c => value (fst (fst c)) "ra") (contents demo_user) = [Some (SStr "right_ascension"); Some (SStr "'10'")]
  /\ map (fun c => map (fun b => value b "startTime") (num_blocks c)) (contents demo_user) = [[]; [Some (SStr "T:1036870000Z")]]
  /\ map (fun c => length (pc_blocks c)) (contents demo_user) = [1; 0].
Proof.
  split; [apply demo_read; vm_compute; reflexivity|]. split; [vm_compute; reflexivity|]. split; [apply starts_at_ok; vm_compute; reflexivity|]. split; [reflexivity|]. split; [exists 11%Z, 0%Z, 86165%Z, 86165000%Z; lia|]. vm_compute. repeat split.
Qed.
Definition j2000_text : string := demo_lines ["AnaBeam[0].target=X"; "AnaBeam[0].trackingType=tracking"; "AnaBeam[0].directionType=J2000"; "AnaBeam[0].angle1=10"; "AnaBeam[0].angle2=20"; "AnaBeam[0].startTime=T:86165000Z"]%string.
Definition j2000_parset : parset demo_clock := match decode demo_clock j2000_text with Ok p => p | Err _ => empty_parset demo_clock end.
Example C217_ex : decode demo_clock j2000_text = Ok j2000_parset /\ (exists b, In b (p_anabeams demo_clock j2000_parset)
    /\ dict_get String.eqb "trackingType"%string (snd b) = Some (PStr demo_clock "tracking") /\ dict_get String.eqb "directionType"%string (snd b) = Some (PStr demo_clock "j2000") /\ is_ok (demo_fixed (snd b)) = true)
  /\ (forall t x, demo_solar (PStr demo_clock "j2000") t <> Ok x) /\ demo_replay j2000_parset 1000000000%Z None false = Err EKeyError.
Proof.
  split; [apply demo_read; vm_compute; reflexivity|]. split; [|split; [discriminate|vm_compute; reflexivity]].
  assert (H : (match p_anabeams demo_clock j2000_parset with b :: _ => holds_text (snd b) "trackingType" "tracking" && holds_text (snd b) "directionType" "j2000" && is_ok (demo_fixed (snd b)) | [] => false end) = true) by (vm_compute; reflexivity).
  destruct (p_anabeams demo_clock j2000_parset) as [|b l]; [discriminate|]. apply andb_true_iff in H as (H & H3). apply andb_true_iff in H as (H1 & H2). exists b. split; [now left|]. split; [now apply holds_text_ok|]. split; [now apply holds_text_ok|exact H3].
Qed.
(** The transit before the new start is less than a second away; the one kept is almost a sidereal
    day later. *)
Theorem C218_closest_refuted :
  let u := match demo_replay demo_parset 86200000%Z None false with Ok u => u | Err _ => new_user end in
  demo_replay demo_parset 86200000%Z None false = Ok u
  /\ nth_error (map (fun c => (value (fst (fst c)) "startTime", value (fst (fst c)) "transitDate")) (contents u)) 0 = Some (Some (SStr "T:86165000Z"), Some (SStr "T:172328182Z"))
  /\ (demo_next "jupiter" 86165000 = 172328182 /\ demo_next "jupiter" 86164090 = 86164091 /\ 86165000 - 86164091 < 172328182 - 86165000)%Z.
Proof. cbv zeta. split; [vm_compute; reflexivity|]. split; [vm_compute; reflexivity|]. split; [reflexivity|]. split; [reflexivity|]. lia. Qed.
Print Assumptions C218_closest_refuted.
Example C218_ex : length (p_anabeams demo_clock demo_parset) = 2 /\ nth_error (contents demo_user) 0 <> None /\ map (fun c => value (fst (fst c)) "transitDate") (contents demo_user) = [Some (SStr "T:1120133183Z"); Some (SStr "T:1120133183Z")].
Proof. vm_compute. repeat split; discriminate. Qed.
Example C219_ex : demo_replay demo_parset (-5)%Z None false = Err EValueError /\ demo_replay demo_parset 100000000%Z None true = Err ETypeError /\ demo_replay (empty_parset demo_clock) 0%Z None false = Err EKeyError
  /\ (-5 / 86400000 < 86165000 / 86400000)%Z.
Proof. vm_compute. repeat split. Qed.
Definition fraction_parset : parset demo_clock := mkParset demo_clock [] [] [(0%Z, [("startTime"%string, PTime demo_clock 5400%Z)])] [] [].
Example C219_fraction_ex : first_start fraction_parset (PTime demo_clock 5400%Z) /\ demo_replay fraction_parset 9000%Z None false = Err EValueError.
Proof. split; [eexists; split; reflexivity|reflexivity]. Qed.
Definition transit_parset : parset demo_clock := mkParset demo_clock [] [] [(0%Z, [("startTime"%string, PTime demo_clock 5000%Z); ("trackingType"%string, PStr demo_clock "transit")])] [] [].
Definition text_parset : parset demo_clock := mkParset demo_clock [] [] [(0%Z, [("startTime"%string, PTime demo_clock 5000%Z)]); (1%Z, [("startTime"%string, PStr demo_clock "soon")])] [] [].
Example C219_needs_ex : demo_replay transit_parset 9000%Z None false = Err ENotImplementedError /\ demo_replay text_parset 9000%Z None false = Err ETypeError.
Proof. split; reflexivity. Qed.
Example C220_ex : value (u_output demo_user) "hd_receivers" = Some (SStr "[undysputed]") /\ value (u_output demo_user) "hd_bitMode" = Some (SInt 16).
Proof. vm_compute. repeat split. Qed.
