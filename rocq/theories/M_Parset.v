(** Model of nenupy/observation/parset.py: [_ParsetProperty] 52-157, [Parset]
    (reading a file, 775-823 and 1189-1247) and [ParsetUser] 1546-2538 with its
    blocks.  Dates are any type with the four functions of [clock]: they are
    astropy [Time] objects.  Log messages are not modelled, nor file names and the
    text of the [parset_user] file kept beside a parset. *)
From Coq Require Import Ascii String List Arith ZArith QArith Bool.
From Verif Require Import Base M_Polar M_Dedisperse M_Pipeline M_PText M_POptions.
Import ListNotations.
Open Scope nat_scope.

(** [Time(s)] (None: ValueError), [t.isot] with a precision of one second, [str(t)];
    [float(s) * u.deg] (None: ValueError) and its text. *)
Record clock := mkClock {
  date : Type;
  angle : Type;
  read_time : string -> option date;
  show_isot : date -> string;
  show_time : date -> string;
  read_angle : string -> option angle;
  show_angle : angle -> string }.

Section WithClock.
Variable ck : clock.

(** ** Values read from a parset *)
(** Elements of a list. *)
Inductive item :=
| IInt (n : Z)
| IStr (s : string)
| ITime (t : date ck).
Inductive pval :=
| PInt (n : Z)
| PStr (s : string)
| PBool (b : bool)
| PTime (t : date ck)
| PAngle (a : angle ck)
| PList (l : list item).

(** [range(a, b)] *)
Definition zrange (a b : Z) : list Z := map (fun k => (a + Z.of_nat k)%Z) (seq 0 (Z.to_nat (b - a))).

(** 84-109: one element of a list, which may stand for several. *)
Definition read_item (s : string) : res (list item) :=
  if has_sub ".." s then
    match split_dots s with
    | [a; b] =>
        match py_int a, py_int b with
        | Some x, Some y => Ok (map IInt (zrange x (y + 1)))
        | _, _ => Err EValueError
        end
    | _ => Err EValueError
    end
  else if has_char ":" s then
    match read_time ck (strip s) with
    | Some t => Ok [ITime t]
    | None => Ok [IStr s]
    end
  else if isdigit s then Ok [IInt (digits_value 0 s)]
  else Ok [IStr s].
Fixpoint read_items (l : list string) : res (list item) :=
  match l with
  | [] => Ok []
  | s :: r => bind (read_item s) (fun x => bind (read_items r) (fun y => Ok (x ++ y)))
  end.

(** 71-149, [_ParsetProperty.__setitem__]: the value kept for a text. *)
Definition read_value (key text : string) : res pval :=
  let s := drop_char quote (drop_char newline text) in
  if starts_with "[" s && ends_with "]" s then
    bind (read_items (split_char "," (inner s))) (fun l => Ok (PList l))
  else if String.eqb (lower s) "true" then Ok (PBool true)
  else if String.eqb (lower s) "false" then Ok (PBool false)
  else if has_sub "angle" (lower key) then
    match read_angle ck s with Some a => Ok (PAngle a) | None => Err EValueError end
  else if has_sub "duration" (lower key) then
    Ok (PStr ((if ends_with "s" s then rstrip "s" s else s) ++ "s")%string)
  else if isdigit s then Ok (PInt (digits_value 0 s))
  else if has_char ":" s then
    match read_time ck (strip s) with
    | Some t => Ok (PTime t)
    | None => Ok (PStr s)
    end
  else Ok (PStr (lower s)).

(** A dictionary in order of insertion. *)
Fixpoint dict_set {K V} (eqb : K -> K -> bool) (k : K) (v : V) (d : list (K * V)) : list (K * V) :=
  match d with
  | [] => [(k, v)]
  | (k', v') :: r => if eqb k k' then (k', v) :: r else (k', v') :: dict_set eqb k v r
  end.
Fixpoint dict_get {K V} (eqb : K -> K -> bool) (k : K) (d : list (K * V)) : option V :=
  match d with
  | [] => None
  | (k', v) :: r => if eqb k k' then Some v else dict_get eqb k r
  end.

Definition property := list (string * pval).
Definition set_property (p : property) (key text : string) : res property :=
  bind (read_value key text) (fun v => Ok (dict_set String.eqb key v p)).

(** ** [Parset] *)
(** 778-786 *)
Record parset := mkParset {
  p_observation : property;
  p_output : property;
  p_anabeams : list (Z * property);
  p_digibeams : list (Z * property);
  p_centers : list (Z * property) }.
Definition empty_parset := mkParset [] [] [] [] [].

(** 1212-1216 and the like: the beam of the index in brackets, created if it is
    not known, receives the value. *)
Definition set_beam (label : string) (beams : list (Z * property)) (name key text : string)
  : res (list (Z * property)) :=
  match search_bracket name with
  | None => Err EAttributeError
  | Some d =>
      match py_int d with
      | None => Err EValueError
      | Some i =>
          bind (match dict_get Z.eqb i beams with
                | Some b => Ok b
                | None => set_property [] label (show_int i)
                end) (fun b =>
          bind (set_property b key text) (fun b' => Ok (dict_set Z.eqb i b' beams)))
      end
  end.

(** One turn of the loop 1196-1231.  [mem] holds [dicoName] and [content], which a
    line without a dot leaves as they are. *)
Definition read_line (st : option (string * string) * parset) (line : string)
  : res (option (string * string) * parset) :=
  let '(mem, p) := st in
  let mem' := match split_once "." line with Some x => Some x | None => mem end in
  match mem' with
  | None => Err EUnboundLocalError
  | Some (name, content) =>
      match split_once "=" content with
      | None => Err EValueError
      | Some (key, value) =>
          let low := lower line in
          bind (if String.prefix "Observation" line then
                  bind (set_property (p_observation p) key value) (fun o =>
                  Ok (mkParset o (p_output p) (p_anabeams p) (p_digibeams p) (p_centers p)))
                else if String.prefix "Output" line then
                  bind (set_property (p_output p) key value) (fun o =>
                  Ok (mkParset (p_observation p) o (p_anabeams p) (p_digibeams p) (p_centers p)))
                else if String.prefix "anabeam" low then
                  bind (set_beam "anaIdx" (p_anabeams p) name key value) (fun b =>
                  Ok (mkParset (p_observation p) (p_output p) b (p_digibeams p) (p_centers p)))
                else if String.prefix "beam" low then
                  bind (set_beam "digiIdx" (p_digibeams p) name key value) (fun b =>
                  Ok (mkParset (p_observation p) (p_output p) (p_anabeams p) b (p_centers p)))
                else if String.prefix "phasecenter" low then
                  bind (set_beam "pcIdx" (p_centers p) name key value) (fun b =>
                  Ok (mkParset (p_observation p) (p_output p) (p_anabeams p) (p_digibeams p) b))
                else Ok p) (fun p' => Ok (Some (name, content), p'))
      end
  end.
Fixpoint read_lines (st : option (string * string) * parset) (l : list string) : res parset :=
  match l with
  | [] => Ok (snd st)
  | x :: r => bind (read_line st x) (fun st' => read_lines st' r)
  end.
(** 1189-1247, [_decodeParset], on the text of the file. *)
Definition decode (text : string) : res parset := read_lines (None, empty_parset) (lines text).

(** ** Blocks of a user parset *)
(** Values given by the user.  [UOther] is any other object, by its text. *)
Inductive uval :=
| UStr (s : string)
| UInt (n : Z)
| UBool (b : bool)
| UTime (t : date ck)
| UDelta (seconds : Q)
| UList (l : list item)
| UOther (s : string).
(** Values kept in a block: a text or an integer. *)
Inductive sval :=
| SStr (s : string)
| SInt (n : Z).
(** [str] of an element of a list, of a value kept. *)
Definition show_item (x : item) : string :=
  match x with IInt n => show_int n | IStr s => s | ITime t => show_time ck t end.
Definition show_sval (v : sval) : string :=
  match v with SStr s => s | SInt n => show_int n end.

(** 1581-1598 *)
Definition store (v : uval) : sval :=
  match v with
  | UTime t => SStr (show_isot ck t ++ "Z")%string
  | UDelta x => SStr (show_int (round_even x) ++ "s")%string
  | UBool b => SStr (if b then "true" else "false")%string
  | UList l => SStr ("[" ++ join "," (map show_item l) ++ "]")%string
  | UInt n => SInt n
  | UStr s => SStr s
  | UOther s => SStr s
  end.

(** 1550-1552: one field of a block. *)
Record entry := mkEntry {
  e_key : string;
  e_required : bool;
  e_value : sval;
  e_modified : bool;
  e_syntax : option string }.
Definition block := list entry.
Definition new_block (o : list option_entry) : block :=
  map (fun e => mkEntry (o_key e) (o_required e) (SStr (o_value e)) false (o_syntax e)) o.

(** 1600-1602; 1605-1608: a name that is not a field changes nothing. *)
Definition set_entry (key : string) (v : sval) (b : block) : block :=
  map (fun e => if String.eqb (e_key e) key
                then mkEntry (e_key e) (e_required e) v true (e_syntax e) else e) b.
(** 1573-1608, [_modify_properties]. *)
Definition modify_properties (kwargs : list (string * uval)) (b : block) : block :=
  fold_left (fun c kv => set_entry (fst kv) (store (snd kv)) c) kwargs b.

(** 1620-1623, [_write_block_list]. *)
Definition written (e : entry) : bool := e_modified e || e_required e.
Definition write_block (field counter : string) (b : block) : string :=
  join (String newline EmptyString)
    (map (fun e => field ++ counter ++ "." ++ e_key e ++ "=" ++ show_sval (e_value e))%string
         (filter written b)).

(** 1627-1634: a numerical beam or a phase center. *)
Record beam := mkBeam {
  b_index : nat;
  b_conf : block }.
(** 1696-1701 *)
Record anabeam := mkAna {
  a_index : nat;
  a_conf : block;
  a_nums : list beam;
  a_pcs : list beam }.
Definition new_beam (o : list option_entry) (kwargs : list (string * uval)) : beam :=
  mkBeam 0 (modify_properties kwargs (new_block o)).
Definition new_ana (kwargs : list (string * uval)) : anabeam :=
  mkAna 0 (modify_properties kwargs (new_block anabeam_options)) [] [].

(** 1728-1735, [_propagate_index]. *)
Definition set_parent (i : nat) (b : beam) : beam :=
  mkBeam (b_index b) (modify_properties [("noBeam"%string, UInt (Z.of_nat i))] (b_conf b)).
Definition propagate (a : anabeam) : anabeam :=
  mkAna (a_index a) (a_conf a) (map (set_parent (a_index a)) (a_nums a))
        (map (set_parent (a_index a)) (a_pcs a)).

(** ** [ParsetUser] *)
(** 1806-1809 *)
Record puser := mkUser {
  u_observation : block;
  u_output : block;
  u_anabeams : list anabeam }.
Definition new_user : puser :=
  mkUser (new_block observation_options) (new_block output_options) [].

(** 2503-2509 and 2512-2518: the beams are numbered along the analog beams. *)
Fixpoint number_beams (k : nat) (l : list beam) : list beam :=
  match l with
  | [] => []
  | b :: r => mkBeam k (b_conf b) :: number_beams (S k) r
  end.
Fixpoint number_nums (k : nat) (l : list anabeam) : list anabeam :=
  match l with
  | [] => []
  | a :: r =>
      mkAna (a_index a) (a_conf a) (number_beams k (a_nums a)) (a_pcs a)
        :: number_nums (k + length (a_nums a)) r
  end.
Fixpoint number_pcs (k : nat) (l : list anabeam) : list anabeam :=
  match l with
  | [] => []
  | a :: r =>
      mkAna (a_index a) (a_conf a) (a_nums a) (number_beams k (a_pcs a))
        :: number_pcs (k + length (a_pcs a)) r
  end.
(** 2521-2528, [_updates_anabeams_indices]. *)
Definition number_anas (l : list anabeam) : list anabeam :=
  number_nums 0 (imap (fun i a => propagate (mkAna i (a_conf a) (a_nums a) (a_pcs a))) l).

Definition with_anas (u : puser) (l : list anabeam) : puser :=
  mkUser (u_observation u) (u_output u) l.

(** 2034-2053 and 2056-2076 *)
Definition set_observation_config (kwargs : list (string * uval)) (u : puser) : puser :=
  mkUser (modify_properties kwargs (u_observation u)) (u_output u) (u_anabeams u).
Definition set_output_config (kwargs : list (string * uval)) (u : puser) : puser :=
  mkUser (u_observation u) (modify_properties kwargs (u_output u)) (u_anabeams u).

(** 2079-2103 *)
Definition add_analog_beam (kwargs : list (string * uval)) (u : puser) : puser :=
  with_anas u (number_anas (u_anabeams u ++ [new_ana kwargs])).
(** 2106-2125 *)
Definition modify_analog_beam (k : Z) (kwargs : list (string * uval)) (u : puser) : res puser :=
  bind (py_index (length (u_anabeams u)) k) (fun i =>
  Ok (with_anas u (imap (fun j a =>
    if j =? i then mkAna (a_index a) (modify_properties kwargs (a_conf a)) (a_nums a) (a_pcs a)
    else a) (u_anabeams u)))).
(** 2128-2163; [del l[i]]. *)
Definition del_nth {A} (i : nat) (l : list A) : list A := firstn i l ++ skipn (S i) l.
Definition remove_analog_beam (k : Z) (u : puser) : res puser :=
  bind (py_index (length (u_anabeams u)) k) (fun i =>
  Ok (with_anas u (number_anas (del_nth i (u_anabeams u))))).

(** 2166-2199 and 2285-2318; the negative indices of Python lists are accepted. *)
Definition attach (k : Z) (f : anabeam -> anabeam) (u : puser) : res (list anabeam) :=
  if (k >=? Z.of_nat (length (u_anabeams u)))%Z then Err EIndexError
  else bind (py_index (length (u_anabeams u)) k) (fun i =>
       Ok (imap (fun j a => if j =? i then propagate (f a) else a) (u_anabeams u))).
Definition add_numerical_beam (k : Z) (kwargs : list (string * uval)) (u : puser) : res puser :=
  bind (attach k (fun a => mkAna (a_index a) (a_conf a)
                             (a_nums a ++ [new_beam beam_options kwargs]) (a_pcs a)) u) (fun l =>
  Ok (with_anas u (number_nums 0 l))).
Definition add_phase_center (k : Z) (kwargs : list (string * uval)) (u : puser) : res puser :=
  bind (attach k (fun a => mkAna (a_index a) (a_conf a) (a_nums a)
                             (a_pcs a ++ [new_beam phasecenter_options kwargs])) u) (fun l =>
  Ok (with_anas u (number_pcs 0 l))).

(** 2220-2231, 2269-2281 and the like: the loops with a counter.  [f] is applied to
    the list holding the beam and to its place in that list, as soon as the counter
    reaches [k]; the counter is not compared again after that. *)
Fixpoint at_counter (sel : anabeam -> list beam) (put : anabeam -> list beam -> anabeam)
    (f : nat -> list beam -> list beam) (k : Z) (counter : Z) (l : list anabeam) : list anabeam :=
  match l with
  | [] => []
  | a :: r =>
      let n := Z.of_nat (length (sel a)) in
      if ((counter <=? k) && (k <? counter + n))%Z
      then put a (f (Z.to_nat (k - counter)) (sel a)) :: r
      else a :: at_counter sel put f k (counter + n) r
  end.
Definition put_nums (a : anabeam) (l : list beam) := mkAna (a_index a) (a_conf a) l (a_pcs a).
Definition put_pcs (a : anabeam) (l : list beam) := mkAna (a_index a) (a_conf a) (a_nums a) l.
Definition change_at (kwargs : list (string * uval)) (i : nat) (l : list beam) : list beam :=
  imap (fun j b => if j =? i then mkBeam (b_index b) (modify_properties kwargs (b_conf b)) else b) l.

(** 2202-2231 *)
Definition modify_numerical_beam (k : Z) (kwargs : list (string * uval)) (u : puser) : puser :=
  with_anas u (at_counter a_nums put_nums (change_at kwargs) k 0 (u_anabeams u)).
(** 2234-2282 *)
Definition remove_numerical_beam (k : Z) (u : puser) : puser :=
  with_anas u (number_nums 0 (at_counter a_nums put_nums (@del_nth beam) k 0 (u_anabeams u))).
(** 2321-2350 *)
Definition modify_phase_center (k : Z) (kwargs : list (string * uval)) (u : puser) : puser :=
  with_anas u (at_counter a_pcs put_pcs (change_at kwargs) k 0 (u_anabeams u)).
(** 2353-2401 *)
Definition remove_phase_center (k : Z) (u : puser) : puser :=
  with_anas u (number_pcs 0 (at_counter a_pcs put_pcs (@del_nth beam) k 0 (u_anabeams u))).

(** 2531-2538, [_update_beam_numbers]. *)
Definition sum_list (l : list nat) : nat := fold_left Nat.add l 0.
Definition update_beam_numbers (u : puser) : puser :=
  let n := length (u_anabeams u) in
  let m := sum_list (map (fun a => length (a_nums a)) (u_anabeams u)) in
  let c := sum_list (map (fun a => length (a_pcs a)) (u_anabeams u)) in
  let o := modify_properties [("nrAnabeams"%string, UStr (show_int (Z.of_nat n)))] (u_observation u) in
  let o := modify_properties [("nrBeams"%string, UStr (show_int (Z.of_nat m)))] o in
  let o := modify_properties [("nrPhaseCenters"%string, UStr (show_int (Z.of_nat c)))] o in
  mkUser o (u_output u) (u_anabeams u).

(** 1614-1615 *)
Definition counter_text (i : nat) : string := ("[" ++ show_int (Z.of_nat i) ++ "]")%string.
Definition blank_line : string := String newline (String newline EmptyString).
(** 1812-1825 with 1853-1883; the object is changed as well. *)
Definition user_text (u : puser) : string :=
  join blank_line
    [write_block "Observation" "" (u_observation u);
     join blank_line (map (fun a => write_block "Anabeam" (counter_text (a_index a)) (a_conf a)) (u_anabeams u));
     join blank_line (flat_map (fun a => map (fun b =>
        write_block "Beam" (counter_text (b_index b)) (b_conf b)) (a_nums a)) (u_anabeams u));
     join blank_line (flat_map (fun a => map (fun b =>
        write_block "PhaseCenter" (counter_text (b_index b)) (b_conf b)) (a_pcs a)) (u_anabeams u));
     write_block "Output" "" (u_output u)].
Definition to_text (u : puser) : puser * string :=
  let u' := update_beam_numbers u in (u', user_text u').

(** ** [load_from_parset], 1885-1924 *)
(** The value read, given to [_modify_properties]. *)
Definition uval_of (v : pval) : uval :=
  match v with
  | PInt n => UInt n
  | PStr s => UStr s
  | PBool b => UBool b
  | PTime t => UTime t
  | PAngle a => UOther (show_angle ck a)
  | PList l => UList l
  end.
(** 1888-1890 *)
Definition copy_fields (p : property) (o : list option_entry) : list (string * uval) :=
  map (fun kv => (fst kv, uval_of (snd kv)))
      (filter (fun kv => existsb (String.eqb (fst kv)) (map o_key o)) p).
(** [digital_beam.get("noBeam", 0)] used as the index of a list: [True] is 1; a text,
    a list or a date cannot be compared with an integer (TypeError). *)
Definition parent_index (p : property) : res Z :=
  match dict_get String.eqb "noBeam"%string p with
  | None => Ok 0%Z
  | Some (PInt n) => Ok n
  | Some (PBool b) => Ok (if b then 1%Z else 0%Z)
  | Some _ => Err ETypeError
  end.
Fixpoint load_beams (add : Z -> list (string * uval) -> puser -> res puser) (o : list option_entry)
    (l : list (Z * property)) (u : puser) : res puser :=
  match l with
  | [] => Ok u
  | (_, p) :: r => bind (parent_index p) (fun k => bind (add k (copy_fields p o) u) (load_beams add o r))
  end.
Definition load_from_parset (p : parset) : res puser :=
  let u := set_observation_config (copy_fields (p_observation p) observation_options) new_user in
  let u := fold_left (fun u b => add_analog_beam (copy_fields (snd b) anabeam_options) u) (p_anabeams p) u in
  bind (load_beams add_numerical_beam beam_options (p_digibeams p) u) (fun u =>
  bind (load_beams add_phase_center phasecenter_options (p_centers p) u) (fun u =>
  Ok (set_output_config (copy_fields (p_output p) output_options) u))).

(** ** [validate], 2404-2483 *)
(** [matches pattern text]: [re.fullmatch(...) is not None]; an invalid pattern
    raises [re.error], here EException.  2431-2459, [check_keys]. *)
Variable matches : string -> string -> res bool.
Fixpoint check_keys (b : block) : res bool :=
  match b with
  | [] => Ok true
  | e :: r =>
      match e_syntax e with
      | None => check_keys r
      | Some p =>
          if negb (e_modified e) then check_keys r
          else bind (matches p (show_sval (e_value e))) (fun m =>
               bind (check_keys r) (fun ok => Ok (m && ok)))
      end
  end.
Fixpoint check_all (l : list block) : res bool :=
  match l with
  | [] => Ok true
  | b :: r => bind (check_keys b) (fun x => bind (check_all r) (fun y => Ok (x && y)))
  end.
Definition all_blocks (u : puser) : list block :=
  u_observation u :: u_output u
  :: flat_map (fun a => a_conf a :: map b_conf (a_nums a) ++ map b_conf (a_pcs a)) (u_anabeams u).
Definition validate (u : puser) : puser * res bool :=
  let u' := update_beam_numbers u in (u', check_all (all_blocks u')).

(** 2486-2500, [write]: the text written in the file. *)
Definition write (file_name : string) (u : puser) : puser * res string :=
  let n := String.length file_name in
  let suffix := ".parset_user"%string in
  if (String.length suffix <=? n)
     && String.eqb (substring (n - String.length suffix) (String.length suffix) file_name) suffix
  then let '(u', s) := to_text u in (u', Ok s)
  else (u, Err EValueError).

End WithClock.
