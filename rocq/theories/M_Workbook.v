(** Model of the reading of a workbook of bookings, nenupy/schedule/open_time.py 105-118
    ([XLSFile.__init__]), 320-330 ([_read_sheet]), 332-349 ([_parse_month]) and 120-126 (the
    days and rows put together by [to_ical]). Rows of cells are those of M_Open; a sheet is its
    rows from the third one on. Days are numbers. Sheet names are ASCII; a workbook has no two
    sheets of one name (openpyxl), which is a hypothesis of the theorems that need it. *)
From Coq Require Import ZArith Bool Ascii String List.
From Verif Require Import Base M_Open.
Import ListNotations.
Open Scope list_scope.

(** A row of 25 cells: the first is a date or not, the others are the hours. *)
Record row := mkRow { r_day : option Z; r_hours : list cell }.
Record sheet := mkSheet { s_title : string; s_rows : list row }.
Notation values := (list (option string)).

(** 320-330 *)
Definition read_sheets (workbook : list sheet) : res (list sheet) :=
  let sheets := filter (fun s => negb (String.eqb (lower (s_title s)) "example")) workbook in
  if Nat.eqb (List.length sheets) 6 then Ok sheets else Err EValueError.
(** 332-349: the loop ends at the first row without a date. *)
Fixpoint parse_month (rows : list row) : res (list Z * list values) :=
  match rows with
  | [] => Ok ([], [])
  | r :: rest => match r_day r with
                 | None => Ok ([], [])
                 | Some d => bind (row_to_list (r_hours r)) (fun v =>
                             bind (parse_month rest) (fun t => Ok (d :: fst t, v :: snd t)))
                 end
  end.
(** 112-117: [self.data[title] = ...], in the order of a dictionary. *)
Notation month := (list Z * list values)%type.
Fixpoint store_month (k : string) (m : month) (data : list (string * month)) : list (string * month) :=
  match data with
  | [] => [(k, m)]
  | (k', m') :: r => if String.eqb k k' then (k', m) :: r else (k', m') :: store_month k m r
  end.
Fixpoint read_months (sheets : list sheet) (data : list (string * month)) : res (list (string * month)) :=
  match sheets with
  | [] => Ok data
  | s :: r => bind (parse_month (s_rows s)) (fun m => read_months r (store_month (s_title s) m data))
  end.
(** 105-118 *)
Definition read_workbook (workbook : list sheet) : res (list (string * month)) :=
  bind (read_sheets workbook) (fun sheets => read_months sheets []).
(** 125-126: [functools.reduce(operator.add, ...)] and [np.vstack]. The array of a month without
    a day has the shape (0,): it is one row of no column for [vstack], which raises ValueError
    beside rows of 24 columns. When no month has a day there is nothing to loop over. *)
Definition gather (data : list (string * month)) : res (list (Z * values)) :=
  let days := concat (map (fun p => fst (snd p)) data) in
  let rows := concat (map (fun p => snd (snd p)) data) in
  let empty := filter (fun p => match snd (snd p) with [] => true | _ => false end) data in
  match data with
  | [] => Err ETypeError
  | _ => match empty, rows with
         | _ :: _, _ :: _ => Err EValueError
         | _, _ => Ok (combine days rows)
         end
  end.
