(** C254: workbooks of bookings. *)
From Coq Require Import ZArith Bool Ascii String List Lia.
From Verif Require Import Base M_Open M_Workbook P_Workbook.
Import ListNotations.
Open Scope list_scope.

Theorem C254_sheets : forall wb l, read_sheets wb = Ok l <-> picked wb l /\ length l = 6%nat.
Proof. exact sheets_iff. Qed.
Print Assumptions C254_sheets.
Theorem C254_sheets_error : forall wb e, read_sheets wb = Err e <-> e = EValueError /\ exists l, picked wb l /\ length l <> 6%nat.
Proof. exact sheets_error. Qed.
Print Assumptions C254_sheets_error.
Theorem C254_month : forall s t, parse_month (s_rows s) = Ok t <-> exists l, month_of s l /\ t = (map fst l, map snd l).
Proof. exact month_iff. Qed.
Print Assumptions C254_month.
Theorem C254_month_error : forall rows e, parse_month rows = Err e <->
  e = EValueError /\ exists days hours d rest l, rows = days ++ mkRow (Some d) hours :: rest /\ booked days l /\ length hours <> 24%nat.
Proof. exact month_error. Qed.
Print Assumptions C254_month_error.
(** Days below a row without a date are lost. *)
Theorem C254_gap_refuted : forall days hours more l, booked days l -> parse_month (days ++ mkRow None hours :: more) = parse_month days.
Proof. exact month_gap_refuted. Qed.
Print Assumptions C254_gap_refuted.
Theorem C254_workbook : forall wb sheets ms, picked wb sheets -> length sheets = 6%nat -> NoDup (map s_title wb) -> Forall2 month_of sheets ms ->
  read_workbook wb = Ok (map (fun p => (s_title (fst p), (map fst (snd p), map snd (snd p)))) (combine sheets ms)).
Proof. exact workbook_read. Qed.
Print Assumptions C254_workbook.
Theorem C254_days : forall wb sheets ms, picked wb sheets -> length sheets = 6%nat -> NoDup (map s_title wb) -> Forall2 month_of sheets ms ->
  exists data, read_workbook wb = Ok data /\ ((forall l, In l ms -> l <> []) -> gather data = Ok (concat ms)) /\
    (In [] ms -> concat ms <> [] -> gather data = Err EValueError) /\ (concat ms = [] -> gather data = Ok []).
Proof. exact workbook_days. Qed.
Print Assumptions C254_days.
(** One month without a day is enough for no calendar to be made. *)
Theorem C254_empty_refuted : forall ts ms l, length ts = length ms -> In [] ms -> In l ms -> l <> [] -> gather (stored ts ms) = Err EValueError.
Proof. exact gather_empty_refuted. Qed.
Print Assumptions C254_empty_refuted.

Definition demo_hours (v : string) : list cell := Plain (Some v) :: Merged :: repeat (Plain None) 22.
Definition demo_values (v : string) : values := Some v :: Some v :: repeat None 22.
Definition demo_month (t : string) (d : Z) : sheet := mkSheet t [mkRow (Some d) (demo_hours "ES01 0-2"); mkRow (Some (d + 1)%Z) (demo_hours "SP05 0-2"); mkRow None []; mkRow (Some 99%Z) []].
Definition demo_list (d : Z) : list (Z * values) := [(d, demo_values "ES01 0-2"); ((d + 1)%Z, demo_values "SP05 0-2")].
Definition demo_six : list sheet := [demo_month "June" 1; demo_month "July" 31; demo_month "August" 62; demo_month "September" 93; demo_month "October" 123; demo_month "November" 154].
Definition demo_book : list sheet := mkSheet "EXample" [mkRow (Some 7%Z) []] :: demo_six.
Lemma demo_month_of t d : month_of (demo_month t d) (demo_list d).
Proof.
  exists [mkRow (Some d) (demo_hours "ES01 0-2"); mkRow (Some (d + 1)%Z) (demo_hours "SP05 0-2")], [mkRow None []; mkRow (Some 99%Z) []].
  split; [reflexivity|]. split; [reflexivity|]. unfold demo_list. repeat constructor.
Qed.
Example C254_ex : picked demo_book demo_six /\ NoDup (map s_title demo_book) /\ Forall2 month_of demo_six (map demo_list [1; 31; 62; 93; 123; 154]%Z) /\
  (exists data, read_workbook demo_book = Ok data /\ gather data = Ok (concat (map demo_list [1; 31; 62; 93; 123; 154]%Z))) /\
  read_workbook demo_six = read_workbook demo_book /\ read_workbook (tl demo_six) = Err EValueError.
Proof.
  split; [constructor; [reflexivity|]; unfold demo_six; repeat (constructor; [discriminate|]); constructor|].
  split; [cbn; repeat constructor; cbn; intuition discriminate|].
  split; [unfold demo_six; cbn [map]; repeat (constructor; [apply demo_month_of|]); constructor|].
  split; [eexists; split; vm_compute; reflexivity|]. split; vm_compute; reflexivity.
Qed.
