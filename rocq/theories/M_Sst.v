(** Model of the sets of statistics files, nenupy/beamlet/sstdata.py: [SST_Data] 206-316 (creation,
    [__add__], [__radd__], [__sub__], [__eq__]), 321-517 (files, selections, ranges), the first part
    of [select] 535-579 and [_intervalBoundaries] 661-688.
    The file system is a function [fs] that does not change. Pointing files are not modelled
    ([altazA] is empty). Times and frequencies are rational numbers. *)
From Coq Require Import ZArith QArith Bool Ascii String List.
From Verif Require Import Base M_PText.
From Verif Require M_Parset.
Import ListNotations.
Open Scope nat_scope.
Open Scope list_scope.

Notation get_key := (M_Parset.dict_get String.eqb).
Notation set_key := (M_Parset.dict_set String.eqb).
(** 640-650. The mini-arrays are not modelled. *)
Record props := mkProps { p_tmin : Q; p_tmax : Q; p_fmin : Q; p_fmax : Q; p_polars : list string }.
(** [_filename] and [obsProperties] *)
Record sst := mkSst { s_files : list string; s_props : list (string * props) }.
(** [os.path.basename] *)
Definition base (s : string) : string := last (split_char "/" s) EmptyString.
(** [sorted] *)
Fixpoint insert (s : string) (l : list string) : list string :=
  match l with [] => [s] | x :: r => if String.leb s x then s :: l else x :: insert s r end.
Definition sort (l : list string) : list string := fold_right insert [] l.
(** 336 *)
Definition names (s : sst) : list string := sort (s_files s).

Section Sst.
Variable fs : string -> option props.
(** 338-347, 632-650: a file that does not exist is FileNotFoundError, here [EException]. *)
Fixpoint fill (update : bool) (l : list string) (d : list (string * props)) : res (list (string * props)) :=
  match l with
  | [] => Ok d
  | f :: r => match fs f with None => Err EException | Some p => fill update r (if update then set_key f p d else d) end
  end.
(** 206-215 *)
Definition create (update : bool) (l : list string) : res sst := bind (fill update l []) (fun d => Ok (mkSst l d)).
(** 243-252 *)
Definition merge (x y : list (string * props)) : list (string * props) := fold_left (fun d kv => set_key (fst kv) (snd kv) d) y x.
Definition add (a b : sst) : res sst := bind (create false (names a ++ names b)) (fun n => Ok (mkSst (s_files n) (merge (s_props a) (s_props b)))).
(** [sum([a, ...])]: 255-259 for the first *)
Fixpoint sum_from (a : sst) (l : list sst) : res sst := match l with [] => Ok a | b :: r => bind (add a b) (fun c => sum_from c r) end.
(** 262-293: the first element of this base name is removed, from both *)
Fixpoint remove_first {A} (p : A -> bool) (l : list A) : list A := match l with [] => [] | x :: r => if p x then r else x :: remove_first p r end.
Definition drop (l : list string) (f : string) : list string := remove_first (fun x => String.eqb (base x) f) l.
Definition drop_key (d : list (string * props)) (f : string) : list (string * props) := remove_first (fun kv => String.eqb (base (fst kv)) f) d.
Definition sub (a b : sst) : res sst :=
  let gone := map base (names b) in
  bind (create false (fold_left drop gone (names a))) (fun n => Ok (mkSst (s_files n) (fold_left drop_key gone (s_props a)))).
End Sst.
(** 296-316 *)
Definition eq (a b : sst) : bool := forallb (fun f => existsb (String.eqb (base f)) (map base (names a))) (names b).
(** 653-657, [min] and [max] *)
Definition list_of {A} (f : props -> A) (s : sst) : list A := map (fun kv => f (snd kv)) (s_props s).
Definition less (a b : Q) : bool := negb (Qle_bool b a).
Definition lowest (l : list Q) : res Q := match l with [] => Err EValueError | x :: r => Ok (fold_left (fun m y => if less y m then y else m) r x) end.
Definition highest (l : list Q) : res Q := match l with [] => Err EValueError | x :: r => Ok (fold_left (fun m y => if less m y then y else m) r x) end.
(** 477-517 *)
Definition t_min s := lowest (list_of p_tmin s). Definition t_max s := highest (list_of p_tmax s).
Definition f_min s := lowest (list_of p_fmin s). Definition f_max s := highest (list_of p_fmax s).

(** ** Selections *)
Fixpoint insert_q (x : Q) (l : list Q) : list Q := match l with [] => [x] | y :: r => if Qle_bool x y then x :: l else y :: insert_q x r end.
(** 661-688, for one value or a list *)
Definition boundaries (l : list Q) : res (list Q) :=
  let l := fold_right insert_q [] l in
  match l with [x] => Ok [x; x] | _ => if 2 <? length l then Err EIndexError else Ok l end.
Record selection := mkSel { e_freq : option (list Q); e_time : option (list Q); e_ma : option Z; e_polar : option string }.
Definition nothing : selection := mkSel None None None None.
(** Keywords of [select]; a mini-array or a polarization of another type is [None]. *)
Inductive keyword := KFreq (l : option (list Q)) | KTime (l : option (list Q)) | KMa (m : option Z) | KPolar (p : option string) | KOther.
(** [p.upper()] *)
Definition up (c : ascii) : ascii := let n := nat_of_ascii c in if (97 <=? n) && (n <=? 122) then ascii_of_nat (n - 32) else c.
Fixpoint upper (s : string) : string := match s with EmptyString => EmptyString | String c r => String (up c) (upper r) end.
Definition range (lo hi : res Q) (l : option (list Q)) : res (list Q) :=
  match l with Some l => boundaries l | None => bind lo (fun a => bind hi (fun b => boundaries [a; b])) end.
(** The setters 383-390, 407-414, 431-440, 458-472. [m in mas] takes the elements of the array one
    after the other, none of which is [m], and ends in AntennaIndexError (interferometer.py
    227-228), unless there is no file. *)
Definition set_keyword (s : sst) (e : selection) (k : keyword) : res selection :=
  match k with
  | KFreq l => bind (range (f_min s) (f_max s) l) (fun r => Ok (mkSel (Some r) (e_time e) (e_ma e) (e_polar e)))
  | KTime l => bind (range (t_min s) (t_max s) l) (fun r => Ok (mkSel (e_freq e) (Some r) (e_ma e) (e_polar e)))
  | KMa None => Err ETypeError
  | KMa (Some m) => match s_props s with [] => Ok (mkSel (e_freq e) (e_time e) (Some m) (e_polar e)) | _ => Err EAntennaIndex end
  | KPolar None => Err ETypeError
  | KPolar (Some p) =>
    if forallb (fun ps => existsb (String.eqb (upper p)) ps) (list_of p_polars s) then Ok (mkSel (e_freq e) (e_time e) (e_ma e) (Some (upper p))) else Err EIndexError
  | KOther => Ok e
  end.
Fixpoint set_keywords (s : sst) (e : selection) (l : list keyword) : selection * option err :=
  match l with
  | [] => (e, None)
  | k :: r => match set_keyword s e k with Err x => (e, Some x) | Ok e => set_keywords s e r end
  end.
(** The getters in the order of 562-568. An array has no attribute [names] (455). *)
Definition get_selection (s : sst) (e : selection) : selection * option err :=
  match (match e_freq e with Some l => Ok l | None => bind (f_min s) (fun a => bind (f_max s) (fun b => Ok [a; b])) end) with
  | Err x => (e, Some x)
  | Ok f =>
    let e := mkSel (Some f) (e_time e) (e_ma e) (e_polar e) in
    match (match e_time e with Some l => Ok l | None => bind (t_min s) (fun a => bind (t_max s) (fun b => Ok [a; b])) end) with
    | Err x => (e, Some x)
    | Ok t =>
      let e := mkSel (Some f) (Some t) (e_ma e) (e_polar e) in
      match e_ma e with
      | None => (e, Some (match s_props s with [] => EIndexError | _ => EAttributeError end))
      | Some _ =>
        match e_polar e with
        | Some _ => (e, None)
        | None => match list_of p_polars s with (p :: _) :: _ => (mkSel (Some f) (Some t) (e_ma e) (Some p), None) | _ => (e, Some EIndexError) end
        end
      end
    end
  end.
(** 574-577: the files not read *)
Definition skipped (p : props) (t0 t1 f0 f1 : Q) : bool := less (p_tmax p) t0 || less t1 (p_tmin p) || less (p_fmax p) f0 || less (p_fmax p) f1.
(** [select] up to the first file. [Ok tt] is the empty selection. The reading of the data, 581-625,
    is not modelled: [ENotImplementedError] stands for it. *)
Definition select (s : sst) (e : selection) (l : list keyword) : selection * res unit :=
  let (e, x) := set_keywords s e l in
  match x with
  | Some x => (e, Err x)
  | None =>
    let (e, x) := get_selection s e in
    match x with
    | Some x => (e, Err x)
    | None =>
      (e, match names s with
          | [] => Ok tt
          | f :: _ => match e_time e with
                      | Some (_ :: _) => match get_key f (s_props s) with None => Err EKeyError | Some _ => Err ENotImplementedError end
                      | _ => Err EIndexError
                      end
          end)
    end
  end.
