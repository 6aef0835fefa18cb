(** Model of files of calendars: [NenuCalendar.write_summary_csv] (nenupy/schedule/open_time.py
    753-792), the lines of [write_vcr_csv] (863-867, the bookings are those of M_Open),
    [ReservedBlock.from_VCR] (nenupy/schedule/obsblocks.py 949-1006), [NenuCalendar.from_ics],
    [from_csv] and [from_xls] (open_time.py 608-704).
    A time is written and read by [iso] and [parse] (astropy), in whole seconds. *)
From Coq Require Import ZArith Bool Ascii String List.
From Verif Require Import Base M_PText M_Open.
From Verif Require M_Parset.
Import ListNotations.
Open Scope Z_scope.
Open Scope list_scope.

Definition newline : ascii := ascii_of_nat 10.
Definition line_end : string := String newline EmptyString.

Section Calfile.
Variable iso : Z -> string.
Variable parse : string -> option Z.

(** ** Writing *)
Definition header : string := "start_iso,stop_iso,kp_code,name".
(** 788-790; 863: the last field is the text of each line *)
Definition line (start stop : Z) (kp name : string) : string := (iso start ++ "," ++ iso stop ++ "," ++ kp ++ "," ++ name)%string.
(** 772-790, on the sorted events: what is in the file, and the error that stopped it *)
Fixpoint summary_lines (l : list event) : string * option err :=
  match l with
  | [] => (EmptyString, None)
  | e :: r =>
    match find_kp (e_name e) with
    | None => (EmptyString, Some EException)
    | Some kp =>
      if String.eqb kp (e_kp e) then
        let (t, x) := summary_lines r in ((line (iso_second (e_begin e)) (iso_second (e_end e)) kp (e_name e) ++ line_end ++ t)%string, x)
      else (EmptyString, Some EException)
    end
  end.
(** [filename.endswith(".csv")] *)
Definition is_csv (name : string) : bool :=
  let n := String.length name in (4 <=? n)%nat && String.eqb (substring (n - 4) 4 name) ".csv".
(** 763-790: the content of the file, if it is written. Its path is not modelled. *)
Definition write_summary (filename : string) (sorted : list event) : option string * option err :=
  if negb (String.eqb filename "") && negb (is_csv filename) then (None, Some EAssertionError)
  else let (t, x) := summary_lines sorted in (Some (header ++ line_end ++ t)%string, x).
(** The text of [write_vcr_csv] for its bookings, 863-867 *)
Definition vcr_text (l : list booking) : string :=
  fold_right (fun b t => (line (b_start b) (b_stop b) (b_kp b) "NenuFAR booking" ++ line_end ++ t)%string) EmptyString l.

(** ** Reading the bookings *)
(** [np.loadtxt]: what follows a sharp is a comment, empty lines are skipped. Lines end with a line
    feed only, here. *)
Fixpoint cut (s : string) : string := match s with EmptyString => EmptyString | String c r => if Ascii.eqb c "#" then EmptyString else String c (cut r) end.
Definition truncate (n : nat) (s : string) : string := substring 0 n s.
Definition row_of (s : string) : res (string * string * string) :=
  match split_char "," s with
  | [a; b; k; _] => Ok (truncate 19 a, truncate 19 b, truncate 4 k)
  | _ => Err EValueError
  end.
Fixpoint collect {A} (l : list (res A)) : res (list A) :=
  match l with [] => Ok [] | x :: r => bind x (fun x => bind (collect r) (fun r => Ok (x :: r))) end.
Definition rows_of (text : string) : res (list (string * string * string)) :=
  collect (map row_of (filter (fun s => negb (String.eqb s "")) (map cut (tl (split_char newline text))))).
Definition date (s : string) : res Z := match parse s with Some t => Ok t | None => Err EValueError end.
(** 971-1006. One booking gives an array without dimension, whose times cannot be iterated
    (TypeError); without any booking, [reduce] raises TypeError
    (that astropy accepts an empty array of dates is assumed). *)
Definition from_vcr (text : string) (exclude : list string) : res (list booking) :=
  bind (rows_of text) (fun rows =>
  bind (collect (map (fun r => date (fst (fst r))) rows)) (fun starts =>
  bind (collect (map (fun r => date (snd (fst r))) rows)) (fun stops =>
  match rows with
  | [_] => Err ETypeError
  | _ =>
    match filter (fun b => negb (existsb (String.eqb (lower (b_kp b))) (map lower exclude)))
                 (map (fun x => mkBooking (fst (fst x)) (snd (fst x)) (snd x)) (combine (combine starts stops) (map snd rows))) with
    | [] => Err ETypeError
    | l => Ok l
    end
  end))).
End Calfile.

(** ** Calendars read from files *)
Notation get_key := (M_Parset.dict_get String.eqb).
Notation set_key := (M_Parset.dict_set String.eqb).
(** The events of a calendar are a set, here the list of the events added. A file has a name
    and events. *)
Record file := mkFile { f_name : string; f_events : list event }.
(** 612-626 *)
Fixpoint ics_calendars (l : list file) (cal : list (string * list event)) : res (list (string * list event)) :=
  match l with
  | [] => Ok cal
  | f :: r => match find_kp (f_name f) with
              | None => Err EValueError
              | Some kp => ics_calendars r (set_key kp (f_events f) cal)
              end
  end.
(** 642-667 *)
Fixpoint csv_calendars (l : list file) (cal : list (string * list event)) : res (list (string * list event)) :=
  match l with
  | [] => Ok cal
  | f :: r => match find_kp (f_name f) with
              | None => Err EValueError
              | Some kp => csv_calendars r (set_key kp (match get_key kp cal with Some es => es ++ f_events f | None => f_events f end) cal)
              end
  end.
(** 682-696: the calendars of each file, whose names are not used *)
Definition xls_calendars (l : list (list (string * list event))) : list (string * list event) :=
  fold_left (fun cal c => fold_left (fun cal ke => set_key (fst ke) (snd ke) cal) c cal) l [].
(** 628-635, 669-675, 698-704 *)
Definition events_of (cal : list (string * list event)) : list event :=
  flat_map (fun ke => map (fun e => mkEvent (e_begin e) (e_end e) (e_name e) (fst ke)) (snd ke)) cal.
Definition from_ics (l : list file) : res (list event) := bind (ics_calendars l []) (fun c => Ok (events_of c)).
Definition from_csv (l : list file) : res (list event) := bind (csv_calendars l []) (fun c => Ok (events_of c)).
Definition from_xls (l : list (list (string * list event))) : list event := events_of (xls_calendars l).
