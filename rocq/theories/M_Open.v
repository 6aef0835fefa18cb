(** Model of the calendars of bookings of nenupy/schedule/open_time.py: rows of the Excel
    sheets ([XLSFile._row_to_list], 352-380), bookings around midnight ([XLSFile.to_ical],
    150-173), overlaps and moves of events ([NenuEvent], 396-565), hours of a calendar
    ([NenuCalendar.info], 706-751) and the file of bookings ([write_vcr_csv], 795-867). *)
From Coq Require Import ZArith Bool Ascii String List.
From Verif Require Import Base M_Night.
Import ListNotations.
Open Scope Z_scope.
Open Scope list_scope.

(** * Rows of a sheet *)
(** A cell with its value, or a cell hidden by a merged one ([MergedCell], whose value is
    [None]). [None] is the value of an empty cell. *)
Inductive cell := Plain (v : option string) | Merged.
Definition is_merged (c : cell) : bool := match c with Merged => true | Plain _ => false end.
Definition cell_value (c : cell) : option string := match c with Plain v => v | Merged => None end.
(** 354-357: [merged_mask.nonzero()[0]] *)
Fixpoint merged_indices (i : Z) (row : list cell) : list Z :=
  match row with [] => [] | c :: r => if is_merged c then i :: merged_indices (i + 1) r else merged_indices (i + 1) r end.
(** 359: the first of each group of following indices, minus one. *)
Fixpoint first_cells (previous : option Z) (indices : list Z) : list Z :=
  match indices with
  | [] => []
  | i :: r => match previous with
              | Some p => if i - p =? 1 then first_cells (Some i) r else i - 1 :: first_cells (Some i) r
              | None => i - 1 :: first_cells (Some i) r
              end
  end.
(** [row[i]] with an index of Python, negative from the end. *)
Definition py_nth (row : list cell) (i : Z) : option cell :=
  if i <? 0 then nth_error row (Z.to_nat (Z.of_nat (List.length row) + i)) else nth_error row (Z.to_nat i).
(** 364-374, one cell; [[...][-1]] of an empty array raises IndexError. *)
Definition row_value (row : list cell) (firsts : list Z) (i : nat) (c : cell) : res (option string) :=
  if is_merged c then
    match List.rev (List.filter (fun f => f <? Z.of_nat i) firsts) with
    | [] => Err EIndexError
    | f :: _ => match py_nth row f with Some c => Ok (cell_value c) | None => Err EIndexError end
    end
  else Ok (cell_value c).
Fixpoint row_values (row : list cell) (firsts : list Z) (i : nat) (l : list cell) : res (list (option string)) :=
  match l with
  | [] => Ok []
  | c :: l => bind (row_value row firsts i c) (fun v => bind (row_values row firsts (S i) l) (fun t => Ok (v :: t)))
  end.
(** 352-380 *)
Definition row_to_list (row : list cell) : res (list (option string)) :=
  bind (row_values row (first_cells None (merged_indices 0 row)) 0 row) (fun values =>
  if Nat.eqb (List.length values) 24 then Ok values else Err EValueError).

(** * Events *)
(** Times are those of M_Night; [e_kp] is the [kp_name] of a [NenuEvent]. *)
Record event := mkEvent { e_begin : Z; e_end : Z; e_name : string; e_kp : string }.

(** ** Bookings around midnight, 150-173 *)
(** [re.search(r"\((?P<comment>.+)\)", name)]: from the first opening parenthesis to the
    last closing one, with a character between at least. Names have no line break. *)
Fixpoint until_last_paren (s : string) : option string :=
  match s with
  | EmptyString => None
  | String c r => match until_last_paren r with
                  | Some t => Some (String c t)
                  | None => if Ascii.eqb c ")" then Some EmptyString else None
                  end
  end.
Fixpoint comment_of (s : string) : string :=
  match s with
  | EmptyString => EmptyString
  | String c r => if Ascii.eqb c "(" then match until_last_paren r with Some t => t | None => EmptyString end else comment_of r
  end.
(** The events of a key project in their order; [e] is the current one, which a merge
    replaces by the next one with its start and both names. *)
Fixpoint merge_from (e : event) (l : list event) : list event :=
  match l with
  | [] => [e]
  | n :: r => if (e_begin n =? e_end e) && String.eqb (comment_of (e_name n)) (comment_of (e_name e))
              then merge_from (mkEvent (e_begin e) (e_end n) (e_name e ++ "*" ++ e_name n) (e_kp n)) r
              else e :: merge_from n r
  end.
Definition merge_events (l : list event) : list event := match l with [] => [] | e :: r => merge_from e r end.

(** ** Order and overlap *)
(** [__lt__], 412-413 *)
Definition event_lt (a b : event) : bool := e_begin a <? e_end b.
(** [__contains__], 415-434: [other in self]. *)
Definition event_contains (self other : event) : bool :=
  let dt_1 := e_end self - e_begin self in
  let dt_2 := e_end other - e_begin other in
  let diff_1 := Z.abs (e_end self - e_begin other) in
  let diff_2 := Z.abs (e_end other - e_begin self) in
  Z.max diff_1 diff_2 <? dt_1 + dt_2.
(** [_time_intersection], 1067-1095 *)
Definition time_intersection (time1 time2 : Z * Z) : bool :=
  let duration1 := snd time1 - fst time1 in
  let duration2 := snd time2 - fst time2 in
  let time_min := Z.min (fst time1) (fst time2) in
  let time_max := Z.max (snd time1) (snd time2) in
  time_max - time_min <? duration1 + duration2.

(** [sorted(events)] for fewer than 64 events (CPython, Objects/listobject.c): a first run,
    descending or not, and the following elements inserted after a binary search. From 64,
    sorted runs are merged; see the theorems, which hold for any such sort. *)
Fixpoint bsearch (fuel : nat) (pivot : event) (l : list event) (lo hi : nat) : nat :=
  match fuel with
  | O => lo
  | S fuel =>
    if (lo <? hi)%nat then
      let p := (lo + (hi - lo) / 2)%nat in
      match nth_error l p with
      | Some x => if event_lt pivot x then bsearch fuel pivot l lo p else bsearch fuel pivot l (S p) hi
      | None => lo
      end
    else lo
  end.
Definition binsert (l : list event) (pivot : event) : list event :=
  let i := bsearch (S (List.length l)) pivot l 0 (List.length l) in
  firstn i l ++ pivot :: skipn i l.
(** The longest first run, [up] without [x < previous] or [down] with it: its elements, the
    last one first, and the others. *)
Fixpoint run (down : bool) (acc : list event) (previous : event) (l : list event) : list event * list event :=
  match l with
  | [] => (previous :: acc, [])
  | x :: r => if Bool.eqb (event_lt x previous) down then run down (previous :: acc) x r else (previous :: acc, x :: r)
  end.
Definition py_sort (l : list event) : list event :=
  match l with
  | [] => []
  | [x] => [x]
  | x :: (y :: _) as r =>
    let down := event_lt y x in
    let (reversed, rest) := run down [] x (List.tl l) in
    fold_left binsert rest (if down then reversed else List.rev reversed)
  end.

(** ** Moves with the keyboard *)
(** [SIDEREAL_DAY_TIMEDELTA], 394 *)
Definition sidereal_day : Z := 23 * hour + 56 * 60 * second + 4090500.
(** The setters of [ics.Event]: the start is at the end at most. *)
Definition set_begin (e : event) (t : Z) : res event := if e_end e <? t then Err EValueError else Ok (mkEvent t (e_end e) (e_name e) (e_kp e)).
Definition set_end (e : event) (t : Z) : res event := if t <? e_begin e then Err EValueError else Ok (mkEvent (e_begin e) t (e_name e) (e_kp e)).
(** 511-519 and 521-529 *)
Definition earlier (e : event) : res event := bind (set_begin e (e_begin e - sidereal_day)) (fun e => set_end e (e_end e - sidereal_day)).
Definition later (e : event) : res event := bind (set_end e (e_end e + sidereal_day)) (fun e => set_begin e (e_begin e + sidereal_day)).
(** What the user does: a click out of the axes, in them but not on the event, on the
    event; a key. *)
Inductive action := ClickOut | ClickElsewhere | ClickOn | Key (name : string).
Record drawn := mkDrawn { d_event : event; d_selected : bool }.
(** [_on_click], 531-548, and [_on_key_press], 550-565, which calls [_update_draw()] without
    its argument [background] (572) once the event has moved. The drawing is not modelled.
    The state after the call, and what it raises. *)
Definition on_action (d : drawn) (a : action) : drawn * option err :=
  match a with
  | ClickOut => (d, None)                                                          (* 535-536 *)
  | ClickElsewhere => (mkDrawn (d_event d) false, None)                            (* 538-544 *)
  | ClickOn => (mkDrawn (d_event d) true, None)                                    (* 546-548 *)
  | Key k =>
    if negb (d_selected d) || negb (String.eqb k "up" || String.eqb k "down") then (d, None)    (* 551-552 *)
    else match (if String.eqb k "up" then earlier (d_event d) else later (d_event d)) with
         | Ok e => (mkDrawn e (d_selected d), Some ETypeError)                     (* 565 *)
         | Err x => (d, Some x)
         end
  end.

(** ** Hours of a calendar, 706-751 *)
(** [start.hour + start.minute / 60 + start.second / 3600], 714-717: microseconds are lost. *)
Definition hour_of (t : Z) : Z := (t mod day_length) / second * second.
(** One event: day, night and total hours, in microseconds; [td.days * 24 + td.seconds / 3600],
    741, is without the microseconds. *)
Definition event_hours (e : event) : Z * Z * Z :=
  let start := hour_of (e_begin e) in
  let stop := hour_of (e_end e) in
  let '(d, n) :=
    if stop <=? start then
      let '(d1, n1) := sort_night_time start (24 * hour) (e_begin e) in
      let '(d2, n2) := sort_night_time 0 stop (e_begin e) in
      (d1 + d2, n1 + n2)
    else sort_night_time start stop (e_begin e) in
  (d, n, (e_end e - e_begin e) / second * second).
Definition calendar_hours (l : list event) : Z * Z * Z :=
  fold_left (fun acc e => let '(d, n, t) := acc in let '(d', n', t') := event_hours e in (d + d', n + n', t + t')) l (0, 0, 0).

(** ** The file of bookings, 795-867 *)
(** [r"\S"]: not one of the white spaces of Python among the first 256 characters. *)
Definition is_space (c : ascii) : bool :=
  let n := nat_of_ascii c in
  ((9 <=? n)%nat && (n <=? 13)%nat) || ((28 <=? n)%nat && (n <=? 32)%nat) || (n =? 133)%nat || (n =? 160)%nat.
(** [re.search(r"(ES|SP|RP|LT)\S{2}", s).group()] *)
Definition kp_here (s : string) : option string :=
  match s with
  | String a (String b (String c (String d _))) =>
    if existsb (String.eqb (String a (String b EmptyString))) ["ES"; "SP"; "RP"; "LT"]%string && negb (is_space c) && negb (is_space d)
    then Some (String a (String b (String c (String d EmptyString)))) else None
  | _ => None
  end.
Fixpoint find_kp (s : string) : option string :=
  match kp_here s with
  | Some k => Some k
  | None => match s with EmptyString => None | String _ r => find_kp r end
  end.
(** [sub in s], and [s.replace(old, new)] for [old] of four characters and [new] as well. *)
Fixpoint contains_str (sub s : string) : bool :=
  String.prefix sub s || match s with EmptyString => false | String _ r => contains_str sub r end.
Fixpoint replace4 (old new s : string) : string :=
  match s with
  | String a t =>
    match t with
    | String b (String c (String d r)) =>
      if String.eqb (String a (String b (String c (String d EmptyString)))) old then (new ++ replace4 old new r)%string
      else String a (replace4 old new t)
    | _ => s
    end
  | EmptyString => s
  end.
(** [str.lower()], ASCII letters. *)
Definition lower_ascii (c : ascii) : ascii :=
  let n := nat_of_ascii c in if ((65 <=? n)%nat && (n <=? 90)%nat) then ascii_of_nat (n + 32) else c.
Fixpoint lower (s : string) : string := match s with EmptyString => EmptyString | String c r => String (lower_ascii c) (lower r) end.
(** 847-853 *)
Definition booked_name (name : string) : string :=
  let event_name := if String.eqb (lower name) "filler" || String.eqb (lower name) "filer" then "LT02 filler"%string else name in
  let event_name := if contains_str "LT00" name then replace4 "LT00" "ES00" event_name else event_name in
  if contains_str "RP5A" name then replace4 "RP5A" "RP3A" event_name else event_name.
(** 820-822, 845: [iso] at the precision of a second, rounded to the closest. *)
Definition iso_second (t : Z) : Z := (t + 500000) / second.
Record booking := mkBooking { b_start : Z; b_stop : Z; b_kp : string }.
(** 833-843: [e] is the event and [l] the following ones, the first of which is [next_event]
    ([None] without any: its attribute [kp_name] is missing). The last event merged, the
    ones left and the stop time. *)
Fixpoint gather (e : event) (l : list event) : res (event * list event) :=
  match l with
  | [] => Err EAttributeError                                                       (* 833 *)
  | n :: r =>
    if String.eqb (e_kp e) (e_kp n) && (e_end e =? e_begin n) then
      if event_contains n e then Err EException                                     (* 835-836 *)
      else gather n r                                                               (* 841-843 *)
    else Ok (e, l)
  end.
(** 847-863 *)
Definition booking_of (start : Z) (e : event) : res booking :=
  match find_kp (booked_name (e_name e)) with
  | None => Err EException                                                          (* 856-857 *)
  | Some kp => if String.eqb kp (e_kp e) then Ok (mkBooking (iso_second start) (iso_second (e_end e)) kp) else Err EException   (* 859-860 *)
  end.
(** The lines written, and what has been raised after them. *)
Fixpoint write_lines (fuel : nat) (l : list event) : list booking * option err :=
  match fuel, l with
  | O, _ | _, [] => ([], None)
  | S fuel, e :: r =>
    let gathered := match r with
                    | [] => Ok (e, [])                                              (* 824 *)
                    | n :: _ => if event_contains n e then Err EException else gather e r     (* 828-843 *)
                    end in
    match gathered with
    | Err x => ([], Some x)
    | Ok (g, rest) =>
      match booking_of (e_begin e) g with
      | Err x => ([], Some x)
      | Ok b => let (lines, x) := write_lines fuel rest in (b :: lines, x)
      end
    end
  end.
(** 807-867 on the sorted events; without any, 811 raises IndexError and no file is made. *)
Definition write_vcr (sorted : list event) (add_error : bool) : list booking * option err :=
  match sorted with
  | [] => ([], Some EIndexError)
  | _ => let (lines, x) := write_lines (List.length sorted) sorted in
         match x with
         | Some _ => (lines, x)
         | None => (if add_error then lines ++ match List.rev lines with b :: _ => [b] | [] => [] end else lines, None)
         end
  end.
