(** Properties of files of calendars (C239 to C242). *)
From Coq Require Import ZArith Bool Ascii String List Lia.
From Verif Require Import Base M_PText M_Open M_Calfile P_Calfile.
Import ListNotations.
Open Scope Z_scope.
Open Scope list_scope.

(** ** C239: what is written is read *)
Theorem C239_round_trip : forall iso parse valid f l ex, dates iso parse valid -> good_name f -> Forall named l -> Forall (writable valid) l ->
  exists t, write_summary iso f l = (Some t, None) /\
    (length l <> 1%nat -> kept ex l <> [] -> from_vcr parse t ex = Ok (map reserved (kept ex l))) /\
    (length l = 1%nat \/ kept ex l = [] -> from_vcr parse t ex = Err ETypeError).
Proof. exact round_trip. Qed.
Print Assumptions C239_round_trip.
Theorem C239_comma_refuted : forall iso parse valid f l e ex, dates iso parse valid -> good_name f -> Forall named l -> In e l -> Forall (fun e => dated valid e /\ has_char newline (e_name e) = false /\ has_char newline (e_kp e) = false) l ->
  has_char "," (e_kp e) = false -> has_char "#" (e_kp e) = false -> has_char "," (cut (e_name e)) = true ->
  exists t, write_summary iso f l = (Some t, None) /\ from_vcr parse t ex = Err EValueError.
Proof. exact comma_refuted. Qed.
Print Assumptions C239_comma_refuted.
(** Three minutes *)
Definition demo_valid (t : Z) : Prop := t = 0 \/ t = 60 \/ t = 120.
Definition demo_iso (t : Z) : string := if t =? 0 then "2024-01-01 00:00:00" else if t =? 60 then "2024-01-01 00:01:00" else "2024-01-01 00:02:00".
Definition demo_parse (s : string) : option Z := if String.eqb s "2024-01-01 00:00:00" then Some 0 else if String.eqb s "2024-01-01 00:01:00" then Some 60 else if String.eqb s "2024-01-01 00:02:00" then Some 120 else None.
Definition ev1 := mkEvent 0 60000000 "ES03 survey" "ES03". Definition ev2 := mkEvent 60000000 120000000 "obs of RP3A # a, b" "RP3A". Definition ev3 := mkEvent 0 60000000 "LT02 one, two" "LT02". Definition ev4 := mkEvent 0 60000000 "ES03 survey" "ES04".
Definition read_back (l : list event) ex := match write_summary demo_iso "a.csv" l with (Some t, x) => (from_vcr demo_parse t ex, x) | (None, x) => (Err EException, x) end.
Example C239_ex : dates demo_iso demo_parse demo_valid /\ Forall named [ev1; ev2] /\ Forall (writable demo_valid) [ev1; ev2] /\ good_name "a.csv" /\ kept ["rp3a"%string] [ev1; ev2] = [ev1]
  /\ read_back [ev1; ev2] [] = (Ok [mkBooking 0 60 "ES03"; mkBooking 60 120 "RP3A"], None) /\ read_back [ev1; ev2] ["rp3a"%string] = (Ok [mkBooking 0 60 "ES03"], None)
  /\ read_back [ev1] [] = (Err ETypeError, None) /\ read_back [ev1; ev2] ["rp3a"%string; "Es03"%string] = (Err ETypeError, None) /\ read_back [ev1; ev3] [] = (Err EValueError, None) /\ named ev3 /\ dated demo_valid ev3.
Proof.
  split; [split; intros t [ -> | [ -> | -> ] ]; reflexivity|]. split; [repeat constructor|]. split; [repeat constructor; unfold demo_valid; vm_compute; tauto|]. split; [right; now exists "a"%string|]. repeat split; unfold demo_valid; vm_compute; tauto.
Qed.
(** ** C240: interrupted writings *)
Theorem C240_interrupted_refuted : forall iso parse valid f a b c ex, dates iso parse valid -> good_name f -> Forall named a -> Forall (writable valid) a -> ~ named b -> length a <> 1%nat -> kept ex a <> [] ->
  exists t, write_summary iso f (a ++ b :: c) = (Some t, Some EException) /\ from_vcr parse t ex = Ok (map reserved (kept ex a)).
Proof. exact interrupted_refuted. Qed.
Print Assumptions C240_interrupted_refuted.
Theorem C240_name : forall iso f l, f <> EmptyString -> (forall stem, f <> (stem ++ ".csv")%string) -> write_summary iso f l = (None, Some EAssertionError).
Proof. exact refused_name. Qed.
Print Assumptions C240_name.
Example C240_ex : ~ named ev4 /\ read_back ([ev1; ev2] ++ ev4 :: [ev1]) [] = (Ok [mkBooking 0 60 "ES03"; mkBooking 60 120 "RP3A"], Some EException)
  /\ write_summary demo_iso "a.txt" [ev1] = (None, Some EAssertionError) /\ write_summary demo_iso "csv" [] = (None, Some EAssertionError).
Proof. split; [intro H; discriminate H|repeat split]. Qed.

(** ** C241: one calendar per key project *)
Theorem C241_csv_all : forall l es, from_csv l = Ok es -> forall e, In e es <-> exists f e0, In f l /\ with_kp (e_kp e) f /\ In e0 (f_events f) /\ same e e0.
Proof. exact csv_all. Qed.
Print Assumptions C241_csv_all.
Theorem C241_ics_last : forall l es, from_ics l = Ok es -> forall e, In e es <-> exists f e0, last_of (e_kp e) l f /\ In e0 (f_events f) /\ same e e0.
Proof. exact ics_last. Qed.
Print Assumptions C241_ics_last.
Theorem C241_ics_lost_refuted : forall a f b g c es e0 k, from_ics (a ++ f :: b ++ g :: c) = Ok es -> with_kp k f -> with_kp k g -> In e0 (f_events f) ->
  Forall (fun h => with_kp k h -> forall e1, In e1 (f_events h) -> ~ same e0 e1) (g :: c) -> forall e, In e es -> e_kp e = k -> ~ same e e0.
Proof. exact ics_lost_refuted. Qed.
Print Assumptions C241_ics_lost_refuted.
Theorem C241_names : forall l, (from_ics l = Err EValueError <-> exists f, In f l /\ find_kp (f_name f) = None) /\ (from_csv l = Err EValueError <-> exists f, In f l /\ find_kp (f_name f) = None) /\
  (Forall (fun f => find_kp (f_name f) <> None) l -> (exists a, from_ics l = Ok a) /\ exists b, from_csv l = Ok b).
Proof. exact files_named. Qed.
Print Assumptions C241_names.
Definition fa := mkFile "ES03_june" [ev1]. Definition fb := mkFile "ES03_july" [ev2]. Definition fc := mkFile "LT02" [ev3]. Definition fd := mkFile "june" [ev3].
Example C241_ex : from_ics [fa; fc; fb] = Ok [mkEvent 60000000 120000000 "obs of RP3A # a, b" "ES03"; ev3]
  /\ from_csv [fa; fc; fb] = Ok [ev1; mkEvent 60000000 120000000 "obs of RP3A # a, b" "ES03"; ev3]
  /\ from_ics [fa; fd; fb] = Err EValueError /\ from_csv [fd] = Err EValueError
  /\ with_kp "ES03" fa /\ with_kp "ES03" fb /\ (forall e1, In e1 (f_events fb) -> ~ same ev1 e1).
Proof. repeat split. intros e1 [<-|[]] (H & _). discriminate H. Qed.

(** ** C242: workbooks, and the file for the control room *)
Theorem C242_xls_last : forall l, Forall (fun c => NoDup (map fst c)) l -> forall e, In e (from_xls l) <-> exists es e0, last_book (e_kp e) l es /\ In e0 es /\ same e e0.
Proof. exact xls_last. Qed.
Print Assumptions C242_xls_last.
Theorem C242_headerless_refuted : forall iso parse valid b bs ex, dates iso parse valid ->
  Forall (fun b => (valid (b_start b) /\ valid (b_stop b)) /\ String.length (b_kp b) = 4%nat /\ has_char "," (b_kp b) = false /\ has_char "#" (b_kp b) = false /\ has_char newline (b_kp b) = false) (b :: bs) ->
  from_vcr parse (vcr_text iso (b :: bs)) ex = outcome bs ex.
Proof. exact headerless_refuted. Qed.
Print Assumptions C242_headerless_refuted.
Example C242_ex : from_xls [[("ES03"%string, [ev1]); ("LT02"%string, [ev3])]; [("ES03"%string, [ev2])]] = [mkEvent 60000000 120000000 "obs of RP3A # a, b" "ES03"; ev3]
  /\ from_vcr demo_parse (vcr_text demo_iso [mkBooking 0 60 "ES03"; mkBooking 60 120 "RP3A"; mkBooking 0 120 "LT02"]) [] = Ok [mkBooking 60 120 "RP3A"; mkBooking 0 120 "LT02"]
  /\ outcome [mkBooking 60 120 "RP3A"; mkBooking 0 120 "LT02"] [] = Ok [mkBooking 60 120 "RP3A"; mkBooking 0 120 "LT02"].
Proof. repeat split. Qed.
