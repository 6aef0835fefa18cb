(** Model of the time-frequency pipeline: nenupy/io/tf.py 62-207, 800-881
    ([TFTask]), 886-1154 ([TFPipeline]), 1361-1485 ([Spectra.get]) and
    nenupy/io/tf_utils.py 2487-3017 ([_TFParameter] and [TFPipelineParameters]).
    The functions embedded in the tasks are arbitrary; log messages and printed
    texts are not modelled. *)
From Coq Require Import Ascii String List Arith ZArith QArith Bool.
From Verif Require Import Base.
Import ListNotations.
Open Scope nat_scope.

(** ** Python values held by the parameters.
    Numbers stand for int, float, Quantity and Time alike (in the unit of the
    parameter), [VNum None] is NaN; other objects are not modelled. *)
Inductive pyval :=
| VNone
| VBool (b : bool)
| VNum (x : option Q)
| VStr (s : string)
| VList (l : list pyval).

Definition is_none (v : pyval) : bool := match v with VNone => true | _ => false end.

(** bool is a subclass of int. *)
Definition num_of (v : pyval) : option Q :=
  match v with
  | VBool b => Some (if b then 1%Q else 0%Q)
  | VNum x => x
  | _ => None
  end.

(** [a == b]; the available values are scalars, comparing a list with a scalar
    gives False. *)
Definition py_eq (a b : pyval) : bool :=
  match num_of a, num_of b with
  | Some x, Some y => Qeq_bool x y
  | _, _ => match a, b with VStr s, VStr t => String.eqb s t | VNone, VNone => true | _, _ => false end
  end.

(** Iteration over a value, a scalar being wrapped in a list
    (nenupy/io/tf_utils.py 2638-2640). *)
Fixpoint chars (s : string) : list pyval :=
  match s with EmptyString => [] | String c r => VStr (String c EmptyString) :: chars r end.
Definition elements (v : pyval) : list pyval :=
  match v with VList l => l | VStr s => chars s | _ => [v] end.

(** ** Parameters *)
(** The four classes of parameters (2557-2658). *)
Inductive kind :=
| KFixed
| KRange (min_val max_val : option Q) (resolution : Q)
| KChoice (available : list pyval)
| KBool.

(** [param_type]: [isinstance] and the constructor, [None] when it raises. *)
Record ptype := mkType { pt_is : pyval -> bool; pt_conv : pyval -> option pyval }.

Record param := mkParam { pname : string; pkind : kind; pty : option ptype; pvalue : pyval }.

(** nenupy/io/tf_utils.py 2529-2549, [_type_check]. *)
Definition type_check (p : param) (v : pyval) : res pyval :=
  match pty p with
  | None => Ok v                                                        (* 2530-2532 *)
  | Some t => if pt_is t v then Ok v                                    (* 2533-2535 *)
              else match pt_conv t v with Some w => Ok w | None => Err ETypeError end (* 2541-2552 *)
  end.

(** [value < x] and [value > x]: NaN compares false, text and lists do not
    compare with numbers. *)
Definition below (v : pyval) (x : Q) : res bool :=
  match v with
  | VNum None => Ok false
  | _ => match num_of v with Some y => Ok (negb (Qle_bool x y)) | None => Err ETypeError end
  end.
Definition above (v : pyval) (x : Q) : res bool :=
  match v with
  | VNum None => Ok false
  | _ => match num_of v with Some y => Ok (negb (Qle_bool y x)) | None => Err ETypeError end
  end.

(** nenupy/io/tf_utils.py 2606-2619, 2637-2646, 2654-2658: [is_expected_value]. *)
Definition is_expected (k : kind) (v : pyval) : res bool :=
  match k with
  | KFixed => Err EException                                            (* 2572-2573 *)
  | KRange mn mx r =>
      bind (match mn with None => Ok false | Some m => below v (m - r / 2)%Q end) (fun lo =>
      if lo then Ok false                                               (* 2607-2612 *)
      else bind (match mx with None => Ok false | Some m => above v (m + r / 2)%Q end) (fun hi =>
      Ok (negb hi)))                                                    (* 2613-2619 *)
  | KChoice av => Ok (forallb (fun e => existsb (py_eq e) av) (elements v))  (* 2638-2646 *)
  | KBool => match v with VBool _ => Ok true | _ => Ok false end        (* 2655-2658 *)
  end.

Definition with_value (p : param) (v : pyval) : param := mkParam (pname p) (pkind p) (pty p) v.

(** nenupy/io/tf_utils.py 2508-2524 (2568-2570 for a fixed parameter): the
    setter of [value]. *)
Definition set_value (p : param) (v : pyval) : param * option err :=
  match pkind p with
  | KFixed => (p, Some EException)                                      (* 2569-2570 *)
  | k =>
    if is_none v then (with_value p VNone, None)                        (* 2510-2513 *)
    else match type_check p v with                                      (* 2516 *)
         | Err e => (p, Some e)
         | Ok w => match is_expected k w with                           (* 2519 *)
                   | Err e => (p, Some e)
                   | Ok false => (p, Some EValueError)                  (* 2520 *)
                   | Ok true => (with_value p w, None)                  (* 2523 *)
                   end
         end
  end.

(** The constructors (2557-2561, 2577-2604, 2623-2635, 2650-2653): the default
    goes through the setter, except for a fixed parameter. *)
Definition make_param (name : string) (k : kind) (t : option ptype) (default : pyval) : res param :=
  match k with
  | KFixed => Ok (mkParam name KFixed None default)
  | _ => match set_value (mkParam name k t VNone) default with
         | (p, None) => Ok p
         | (_, Some e) => Err e
         end
  end.

(** nenupy/io/tf_utils.py 2698-2708: [TFPipelineParameters.__init__]. *)
Record params := mkParams { now : list param; original : list param }.
Definition make_params (l : list param) : params := mkParams l l.

(** [str.lower], on ASCII letters. *)
Definition low_char (c : ascii) : ascii :=
  let n := nat_of_ascii c in if (65 <=? n) && (n <=? 90) then ascii_of_nat (n + 32) else c.
Fixpoint lower (s : string) : string :=
  match s with EmptyString => EmptyString | String c r => String (low_char c) (lower r) end.

(** nenupy/io/tf_utils.py 2750-2758, [_get_parameter]: position of the first
    parameter of that name. *)
Fixpoint position {A} (f : A -> bool) (l : list A) : option nat :=
  match l with
  | [] => None
  | x :: r => if f x then Some 0 else option_map S (position f r)
  end.
Definition find_param (l : list param) (name : string) : option nat :=
  position (fun p => String.eqb (pname p) (lower name)) l.

(** nenupy/io/tf_utils.py 2723-2724, [__getitem__]. *)
Definition get_item (ps : params) (name : string) : res pyval :=
  match find_param (now ps) name with
  | None => Err EKeyError
  | Some i => match nth_error (now ps) i with Some p => Ok (pvalue p) | None => Err EKeyError end
  end.

(** nenupy/io/tf_utils.py 2710-2721, [__setitem__]. *)
Definition set_item (ps : params) (name : string) (v : pyval) : params * option err :=
  match find_param (now ps) name with
  | None => (ps, Some EKeyError)
  | Some i => match nth_error (now ps) i with
              | None => (ps, Some EKeyError)
              | Some p => let '(p', e) := set_value p v in (mkParams (upd i p' (now ps)) (original ps), e)
              end
  end.

(** nenupy/io/tf_utils.py 2760-2780, [reset]. *)
Definition reset (ps : params) : params := mkParams (original ps) (original ps).

(** nenupy/io/tf_utils.py 2795-3017, [set_default]: the types of times,
    quantities, integers, lists and coordinates are given by the caller. *)
Record types := mkTypes { ty_time : ptype; ty_quantity : ptype; ty_int : ptype; ty_list : ptype; ty_coord : ptype }.
Definition num (x : Q) : pyval := VNum (Some x).
Definition zrange (a b : Z) : list pyval :=
  map (fun i => num (inject_Z (a + Z.of_nat i))) (seq 0 (Z.to_nat (b - a))).
Definition default_params (ty : types) (time_min time_max freq_min freq_max : Q) (beams : list Z)
    (channels : Z) (dt df : Q) : res params :=
  match beams with
  | [] => Err EIndexError                                               (* 2920 *)
  | b0 :: _ =>
    let q n := make_param n (KRange None None 0%Q) (Some (ty_quantity ty)) VNone in
    let bool n b := make_param n KBool None (VBool b) in
    bind (make_param "channels" KFixed None (num (inject_Z channels))) (fun p0 =>
    bind (make_param "dt" KFixed None (num dt)) (fun p1 =>
    bind (make_param "df" KFixed None (num df)) (fun p2 =>
    bind (make_param "tmin" (KRange (Some time_min) (Some time_max) dt) (Some (ty_time ty)) (num time_min)) (fun p3 =>
    bind (make_param "tmax" (KRange (Some time_min) (Some time_max) dt) (Some (ty_time ty)) (num time_max)) (fun p4 =>
    bind (make_param "fmin" (KRange (Some freq_min) (Some freq_max) df) (Some (ty_quantity ty)) (num freq_min)) (fun p5 =>
    bind (make_param "fmax" (KRange (Some freq_min) (Some freq_max) df) (Some (ty_quantity ty)) (num freq_max)) (fun p6 =>
    bind (make_param "beam" (KChoice (map (fun b => num (inject_Z b)) beams)) (Some (ty_int ty)) (num (inject_Z b0))) (fun p7 =>
    bind (q "dispersion_measure"%string) (fun p8 =>
    bind (q "rotation_measure"%string) (fun p9 =>
    bind (make_param "rebin_dt" (KRange (Some dt) None 0%Q) (Some (ty_quantity ty)) VNone) (fun p10 =>
    bind (make_param "rebin_df" (KRange (Some df) None 0%Q) (Some (ty_quantity ty)) VNone) (fun p11 =>
    bind (make_param "remove_channels" (KChoice (zrange (- channels) channels)) (Some (ty_list ty)) VNone) (fun p12 =>
    bind (make_param "skycoord" (KRange None None 0%Q) (Some (ty_coord ty)) VNone) (fun p13 =>
    bind (q "calib_dt"%string) (fun p14 =>
    bind (bool "dreambeam_parallactic"%string true) (fun p15 =>
    bind (make_param "stokes" (KRange None None 0%Q) None (VStr "I")) (fun p16 =>
    bind (bool "ignore_volume_warning"%string false) (fun p17 =>
    bind (bool "overwrite"%string false) (fun p18 =>
    bind (bool "smooth_frequency_profile"%string false) (fun p19 =>
    bind (make_param "lna_filter" (KRange None None 0%Q) (Some (ty_int ty)) VNone) (fun p20 =>
    Ok (make_params [p0; p1; p2; p3; p4; p5; p6; p7; p8; p9; p10; p11; p12; p13; p14; p15; p16; p17; p18; p19; p20])
    )))))))))))))))))))))
  end.

(** ** Tasks *)
Section Tasks.
Context {T F D : Type}.
(** The keyword arguments passed to the embedded function: every argument of
    [args_to_update] with its value, [None] when it was never updated. *)
Definition keywords := list (string * option pyval).

(** The embedded function, by the arguments it takes (859-880). *)
Inductive call :=
| CData (g : keywords -> D -> res D)
| CFreq (g : keywords -> F -> D -> res (F * D))
| CTime (g : keywords -> T -> D -> res (T * D))
| CAll (g : keywords -> T -> F -> D -> res (T * F * D)).

(** nenupy/io/tf.py 119-152, [TFTask]. *)
Record task := mkTask { tname : string; trepeat : bool; targs : list string; tcall : call;
                        textra : list (string * pyval); tactive : bool }.
Definition make_task (name : string) (c : call) (args : list string) (repeatable : bool) : task :=
  mkTask name repeatable args c [] false.

Fixpoint dict_set (k : string) (v : pyval) (l : list (string * pyval)) : list (string * pyval) :=
  match l with
  | [] => [(k, v)]
  | (k', v') :: r => if String.eqb k k' then (k, v) :: r else (k', v') :: dict_set k v r
  end.
Fixpoint dict_get (k : string) (l : list (string * pyval)) : option pyval :=
  match l with
  | [] => None
  | (k', v) :: r => if String.eqb k k' then Some v else dict_get k r
  end.

(** nenupy/io/tf.py 819-827: the loop of [update]. *)
Fixpoint update_args (ps : params) (keys : list string) (extra : list (string * pyval))
  : list (string * pyval) * option err :=
  match keys with
  | [] => (extra, None)
  | k :: r => match get_item ps k with
              | Err e => (extra, Some e)
              | Ok v => update_args ps r (dict_set k v extra)
              end
  end.
(** nenupy/io/tf.py 800-833, [update]. *)
Definition update (ps : params) (t : task) : task * option err :=
  match update_args ps (targs t) (textra t) with
  | (x, Some e) => (mkTask (tname t) (trepeat t) (targs t) (tcall t) x (tactive t), Some e)
  | (x, None) => (mkTask (tname t) (trepeat t) (targs t) (tcall t) x
                    (if existsb (fun kv => is_none (snd kv)) x then tactive t else true), None)
  end.

Definition keywords_of (t : task) : keywords := map (fun k => (k, dict_get k (textra t))) (targs t).

(** nenupy/io/tf.py 835-881, [__call__]. *)
Definition call_task (t : task) (x : T * F * D) : res (T * F * D) :=
  let '(tm, fr, d) := x in
  match tcall t with
  | CData g => bind (g (keywords_of t) d) (fun d' => Ok (tm, fr, d'))                       (* 861-863 *)
  | CFreq g => bind (g (keywords_of t) fr d) (fun r => Ok (tm, fst r, snd r))               (* 864-868 *)
  | CTime g => bind (g (keywords_of t) tm d) (fun r => Ok (fst r, fr, snd r))               (* 869-871 *)
  | CAll g => g (keywords_of t) tm fr d                                                     (* 872-876 *)
  end.

(** ** The pipeline *)
(** nenupy/io/tf.py 1128-1154, [run]: the tasks after the call, and the result. *)
Fixpoint run (ps : params) (ts : list task) (x : T * F * D) : list task * res (T * F * D) :=
  match ts with
  | [] => ([], Ok x)
  | t :: r =>
    match update ps t with                                              (* 1150 *)
    | (t', Some e) => (t' :: r, Err e)
    | (t', None) =>
      match call_task t' x with                                         (* 1151-1152 *)
      | Err e => (t' :: r, Err e)
      | Ok y => let '(r', z) := run ps r y in (t' :: r', z)
      end
    end
  end.

(** nenupy/io/tf.py 940-983, [info]: the name of each task and whether it is
    shown as activated (without parentheses). *)
Fixpoint info (ps : params) (ts : list task) : list task * res (list (string * bool)) :=
  match ts with
  | [] => ([], Ok [])
  | t :: r =>
    match update ps t with
    | (t', Some e) => (t' :: r, Err e)
    | (t', None) => let '(r', z) := info ps r in
                    (t' :: r', bind z (fun l => Ok ((tname t', tactive t') :: l)))
    end
  end.

(** nenupy/io/tf.py 1103-1126, [contains]. *)
Definition contains (name : string) (ts : list task) : bool := existsb (fun t => String.eqb (tname t) name) ts.

(** [list.insert]. *)
Definition insert_at {A} (i : Z) (x : A) (l : list A) : list A :=
  let n := Z.of_nat (length l) in
  let j := if (i <? 0)%Z then Z.max 0 (i + n) else Z.min i n in
  firstn (Z.to_nat j) l ++ x :: skipn (Z.to_nat j) l.
(** [del l[i]]. *)
Definition delete_at {A} (i : Z) (l : list A) : res (list A) :=
  let n := Z.of_nat (length l) in
  let j := if (i <? 0)%Z then (i + n)%Z else i in
  if (0 <=? j)%Z && (j <? n)%Z then Ok (firstn (Z.to_nat j) l ++ skipn (S (Z.to_nat j)) l)
  else Err EIndexError.

(** An argument of [insert] or [append] is a task or something else. *)
Inductive operand := OTask (t : task) | OOther.
(** An argument of [remove]. *)
Inductive rarg := RName (s : string) | RIndex (i : Z) | ROther.

(** nenupy/io/tf.py 1006-1028, [insert]. *)
Definition insert (ts : list task) (o : operand) (i : Z) : list task * option err :=
  match o with
  | OOther => (ts, Some ETypeError)                                     (* 1021-1022 *)
  | OTask t => if contains (tname t) ts && negb (trepeat t) then (ts, None)   (* 1023-1027 *)
               else (insert_at i t ts, None)                            (* 1028 *)
  end.
(** nenupy/io/tf.py 1030-1050, [append]. *)
Definition append (ts : list task) (o : operand) : list task * option err :=
  match o with
  | OOther => (ts, Some ETypeError)
  | OTask t => if contains (tname t) ts && negb (trepeat t) then (ts, None) else (ts ++ [t], None)
  end.
(** nenupy/io/tf.py 1052-1101, [remove]. *)
Fixpoint remove (ts : list task) (args : list rarg) : list task * option err :=
  match args with
  | [] => (ts, None)
  | a :: r =>
    match a with
    | RName s => match position (fun t => String.eqb (tname t) s) ts with
                 | None => remove ts r                                  (* 1093-1095 *)
                 | Some i => match delete_at (Z.of_nat i) ts with
                             | Ok ts' => remove ts' r
                             | Err e => (ts, Some e)
                             end
                 end
    | RIndex i => match delete_at i ts with                             (* 1096-1101 *)
                  | Ok ts' => remove ts' r
                  | Err e => (ts, Some e)
                  end
    | ROther => (ts, Some ETypeError)                                   (* 1098-1099 *)
    end
  end.

Inductive edit := EInsert (o : operand) (i : Z) | EAppend (o : operand) | ERemove (args : list rarg).
Definition apply_edit (ts : list task) (e : edit) : list task * option err :=
  match e with
  | EInsert o i => insert ts o i
  | EAppend o => append ts o
  | ERemove args => remove ts args
  end.
(** Edits made one after the other, exceptions being caught by the caller. *)
Definition edits (ts : list task) (l : list edit) : list task := fold_left (fun ts e => fst (apply_edit ts e)) l ts.

(** nenupy/io/tf.py 986-1004, [set_default]: the parameters are reset and the
    tasks replaced; the embedded functions are given. *)
Definition default_tasks (bandpass channels rebin_t rebin_f stokes : call) : list task :=
  [ make_task "Correct bandpass" bandpass ["channels"; "lna_filter"]%string false;
    make_task "Remove subband channels" channels ["channels"; "remove_channels"]%string false;
    make_task "Rebin in time" rebin_t ["dt"; "rebin_dt"]%string true;
    make_task "Rebin in frequency" rebin_f ["df"; "rebin_df"]%string true;
    make_task "Compute Stokes parameters" stokes ["stokes"]%string false ].
End Tasks.
Arguments task : clear implicits.
Arguments call : clear implicits.
Arguments operand : clear implicits.
Arguments edit : clear implicits.

(** ** [Spectra.get] *)
(** The parameters are objects: [heap] holds them, [cur] is the one which
    [sp.pipeline.parameters] refers to. *)
Record spectra := mkSp { heap : list params; cur : nat }.
Definition no_params : params := mkParams [] [].
Definition parameters_of (s : spectra) : params := nth (cur s) (heap s) no_params.

(** nenupy/io/tf.py 1424-1425: the overrides, one after the other. *)
Fixpoint override (ps : params) (kw : list (string * pyval)) : params * option err :=
  match kw with
  | [] => (ps, None)
  | (k, v) :: r => match set_item ps k v with
                   | (ps', Some e) => (ps', Some e)
                   | (ps', None) => override ps' r
                   end
  end.

(** What the body (1427-1479) does with the parameters it reads: returns data,
    returns because the volume threshold is reached, writes a file, raises an
    exception, or is interrupted by an exception which is not an [Exception]
    (KeyboardInterrupt). *)
Inductive outcome (R : Type) := OResult (r : R) | OTooLarge | OStored | OFails (e : err) | OInterrupted.
Arguments OResult {R}. Arguments OTooLarge {R}. Arguments OStored {R}. Arguments OFails {R}. Arguments OInterrupted {R}.
Inductive answer (R : Type) := AResult (r : R) | ANone | ARaise (e : err) | AInterrupted.
Arguments AResult {R}. Arguments ANone {R}. Arguments ARaise {R}. Arguments AInterrupted {R}.

(** nenupy/io/tf.py 1361-1485, [get]. *)
Definition get_data {R} (body : params -> outcome R) (s : spectra) (kw : list (string * pyval)) : spectra * answer R :=
  let copy := length (heap s) in
  let h := heap s ++ [parameters_of s] in                               (* 1422: deep copy *)
  match override (parameters_of s) kw with                              (* 1424-1425 *)
  | (ps, Some e) => (mkSp (upd (cur s) ps h) (cur s), ARaise e)
  | (ps, None) =>
    let h' := upd (cur s) ps h in
    match body ps with
    | OResult r => (mkSp h' copy, AResult r)                            (* 1459-1460 *)
    | OTooLarge => (mkSp h' (cur s), ANone)                             (* 1452-1455 *)
    | OStored => (mkSp h' copy, ANone)                                  (* 1478-1479 *)
    | OFails e => (mkSp h' copy, ARaise e)                              (* 1481-1484 *)
    | OInterrupted => (mkSp h' (cur s), AInterrupted)
    end
  end.
