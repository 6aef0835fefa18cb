(** Model of the selections of beamformed statistics: nenupy/beamlet/beamlet.py 33-110 ([Beamlet])
    and nenupy/beamlet/bstdata.py 104-676 ([BST_Data]).
    Times are numbers of days and frequencies of MHz, exact; units of measure, formats of times,
    files and log messages are not modelled. A file is what [_load] reads from it. *)
From Coq Require Import Ascii String List Arith ZArith QArith Qabs Bool.
From Verif Require Import Base M_Nd M_Select M_SData.
Import ListNotations.
Open Scope nat_scope.
Open Scope list_scope.

(** A line of the table of beams: [NoAnaBeam], [nbBeamlet], [BeamletList] and [freqList]. *)
Record beam := mkBeam { b_ana : Z; b_nb : nat; b_beamlets : list nat; b_freqs : list Q }.
(** A line of the tables of pointings: beam, [timestamp], [AZ] and [EL]. *)
Record pointing := mkPointing { p_beam : Z; p_time : Q; p_az : Q; p_el : Q }.
(** beamlet.py 88-108. [f_ana]: [nbMRUsed] and [MRList] of each analog beam; [f_data] has the axes of
    times, polarizations and beamlets. *)
Record file (A : Type) := mkFile {
  f_times : list Q; f_n_ana : Z; f_n_beam : Z; f_bea : list beam; f_pols : list string;
  f_ana : list (nat * list nat); f_pan : list pointing; f_pbe : list pointing; f_data : nd A }.
Arguments mkFile {A}. Arguments f_times {A}. Arguments f_n_ana {A}. Arguments f_n_beam {A}. Arguments f_bea {A}. Arguments f_pols {A}.
Arguments f_ana {A}. Arguments f_pan {A}. Arguments f_pbe {A}. Arguments f_data {A}.

(** A value of [timerange] or [freqrange]: one number, or an array. *)
Inductive range := One (x : Q) | Many (l : list Q).
(** The object: the attributes that select data. Boolean masks of times are kept as the indices of
    their true values. *)
Record bst := mkBst {
  s_dbeam : Z; s_abeam : Z; s_polar : string; s_polar_idx : list nat;
  s_timerange : range; s_time_idx : list nat; s_freqrange : range; s_freq_idx : list nat }.

Section File.
Context {A : Type}.
Variable f : file A.

(** beamlet.py 45-81 *)
Definition t_min : res Q := qmin_list (f_times f).
Definition t_max : res Q := qmax_list (f_times f).
Definition listed : list Q := filter (fun x => negb (Qeq_bool x 0)) (flat_map b_freqs (f_bea f)).
Definition f_min : res Q := qmin_list listed.
Definition f_max : res Q := qmax_list listed.

(** A row of a table: IndexError beyond, from the end when negative. *)
Definition row {B} (l : list B) (i : Z) : res B :=
  match nth_error l (Z.to_nat (if (i <? 0)%Z then i + Z.of_nat (length l) else i)%Z) with
  | Some b => if (i + Z.of_nat (length l) <? 0)%Z then Err EIndexError else Ok b
  | None => Err EIndexError
  end.
(** [mas], 189-199 *)
Definition mas (s : bst) : res (list nat) := bind (row (f_ana f) (s_abeam s)) (fun r => Ok (firstn (fst r) (snd r))).
(** [beamlets], 229-239, and [freqs], 243-255 *)
Definition hbw : Q := 0.09765625.
Definition beamlets_of (b : beam) : list nat := firstn (b_nb b) (b_beamlets b).
Definition freqs_of (b : beam) : list Q := map (fun x => x - hbw)%Q (firstn (b_nb b) (b_freqs b)).
Definition beamlets (s : bst) : res (list nat) := bind (row (f_bea f) (s_dbeam s)) (fun b => Ok (beamlets_of b)).
Definition freqs (s : bst) : res (list Q) := bind (row (f_bea f) (s_dbeam s)) (fun b => Ok (freqs_of b)).
(** [l[mask]] *)
Fixpoint masked {B} (mask : list bool) (l : list B) : list B :=
  match mask, l with m :: mask, x :: l => if m then x :: masked mask l else masked mask l | _, _ => [] end.
Definition true_at (mask : list bool) : list nat := masked mask (seq 0 (length mask)).
(** [freq], 259-271 *)
Definition freq (s : bst) : res (list Q) :=
  bind (beamlets s) (fun b => bind (freqs s) (fun fr =>
  Ok (masked (map (fun x => existsb (Nat.eqb x) (s_freq_idx s)) b) fr))).
(** [time], 275-286 *)
Definition time (s : bst) : list Q := map (fun i => nth i (f_times f) 0%Q) (s_time_idx s).

(** [azana], [elana] and [utana], 290-335: without the last line of the table. *)
Definition without_last {B} (l : list B) : list B := removelast l.
Definition of_beam (n : Z) (l : list pointing) : list pointing := filter (fun p => p_beam p =? n)%Z l.
Definition azana (s : bst) : list Q := map p_az (of_beam (s_abeam s) (without_last (f_pan f))).
Definition elana (s : bst) : list Q := map p_el (of_beam (s_abeam s) (without_last (f_pan f))).
(** The start times, then the following ones and the last time: the lengths differ without any
    pointing ([np.vstack], ValueError). *)
Definition spans (ti : list Q) (last : Q) : res (list (Q * Q)) :=
  match ti with [] => Err EValueError | _ :: r => Ok (combine ti (r ++ [last])) end.
Definition last_time : res Q := match rev (f_pan f) with [] => Err EIndexError | p :: _ => Ok (p_time p) end.
Definition utana (s : bst) : res (list (Q * Q)) :=
  bind last_time (fun t => spans (map p_time (of_beam (s_abeam s) (without_last (f_pan f)))) t).
(** [azdig], [eldig] and [utdig], 339-384 *)
Definition azdig (s : bst) : list Q := map p_az (of_beam (s_dbeam s) (f_pbe f)).
Definition eldig (s : bst) : list Q := map p_el (of_beam (s_dbeam s) (f_pbe f)).
Definition utdig (s : bst) : res (list (Q * Q)) :=
  bind last_time (fun t => spans (map p_time (of_beam (s_dbeam s) (f_pbe f))) t).

(** ** Setters: the object after, and what has been raised. *)
Definition step := bst -> bst * option err.
Definition fail (e : err) : step := fun s => (s, Some e).
Definition index (n : Z) (z : Z) : bool := (0 <=? z)%Z && (z <? n)%Z.
(** [abeam], 401-415; [None] is not an integer. *)
Definition set_abeam (a : option Z) : step := fun s =>
  match a with
  | None => (s, Some ETypeError)
  | Some a => if negb (index (f_n_ana f) a) then (s, Some EIndexError)
              else (mkBst (s_dbeam s) a (s_polar s) (s_polar_idx s) (s_timerange s) (s_time_idx s) (s_freqrange s) (s_freq_idx s), None)
  end.
(** [dbeam], 432-448 *)
Definition set_dbeam (d : option Z) : step := fun s =>
  match d with
  | None => (s, Some ETypeError)
  | Some d =>
    if negb (index (f_n_beam f) d) then (s, Some EIndexError)
    else let s := mkBst d (s_abeam s) (s_polar s) (s_polar_idx s) (s_timerange s) (s_time_idx s) (s_freqrange s) (s_freq_idx s) in
         match row (f_bea f) d with
         | Err e => (s, Some e)
         | Ok b => set_abeam (Some (b_ana b)) s                                     (* 447 *)
         end
  end.
Definition upper_ascii (c : ascii) : ascii :=
  let n := nat_of_ascii c in if (97 <=? n) && (n <=? 122) then ascii_of_nat (n - 32) else c.
Fixpoint upper (s : string) : string := match s with EmptyString => EmptyString | String c r => String (upper_ascii c) (upper r) end.
(** [polar], 463-476; [None] is not a string. *)
Definition set_polar (p : option string) : step := fun s =>
  match p with
  | None => (s, Some ETypeError)
  | Some p =>
    let p := upper p in
    let found := map (String.eqb p) (f_pols f) in
    if negb (existsb (fun b => b) found) then (s, Some EValueError)
    else (mkBst (s_dbeam s) (s_abeam s) p (true_at found) (s_timerange s) (s_time_idx s) (s_freqrange s) (s_freq_idx s), None)
  end.
(** [np.argmin], the first of the smallest *)
Fixpoint arg (i best : nat) (v : Q) (l : list Q) : nat :=
  match l with [] => best | x :: r => if negb (Qle_bool v x) then arg (S i) i x r else arg (S i) best v r end.
Definition qargmin (l : list Q) : res nat := match l with [] => Err EValueError | x :: r => Ok (arg 1 0 x r) end.
(** The indices selected by a range: the closest, or all between, bounds included. *)
Definition chosen (l : list Q) (r : range) : res (list nat) :=
  match r with
  | One x => bind (qargmin (map (fun y => Qabs (y - x)) l)) (fun i => Ok [i])
  | Many [a; b] => Ok (true_at (map (fun y => Qle_bool a y && Qle_bool y b) l))
  | Many _ => Err EValueError
  end.
(** [timerange], 523-547 *)
Definition set_timerange (r : range) : step := fun s =>
  match chosen (f_times f) r with
  | Err e => (s, Some e)
  | Ok idx => (mkBst (s_dbeam s) (s_abeam s) (s_polar s) (s_polar_idx s) r idx (s_freqrange s) (s_freq_idx s), None)
  end.
(** [freqrange], 585-610: the beamlets are kept, those of the beam selected at that time. *)
Definition set_freqrange (r : range) : step := fun s =>
  match bind (freqs s) (fun l => chosen l r) with
  | Err e => (s, Some e)
  | Ok idx =>
    match beamlets s with
    | Err e => (s, Some e)
    | Ok b => if forallb (fun i => i <? length b) idx
              then (mkBst (s_dbeam s) (s_abeam s) (s_polar s) (s_polar_idx s) (s_timerange s) (s_time_idx s) r (map (fun i => nth i b 0) idx), None)
              else (s, Some EIndexError)
    end
  end.
Definition seq_ (a b : step) : step := fun s => match a s with (s, None) => b s | r => r end.
(** [__init__], 111-120: an object without attributes first. *)
Definition blank : bst := mkBst 0 0 "" [] (Many []) [] (Many []) [].
Definition opened : res bst :=
  match seq_ (set_dbeam (Some 0%Z)) (set_polar (Some "NW"%string)) blank with
  | (_, Some e) => Err e
  | (s, None) =>
    bind t_min (fun a => bind t_max (fun b =>
    match set_timerange (Many [a; b]) s with
    | (_, Some e) => Err e
    | (s, None) =>
      bind f_min (fun a => bind f_max (fun b =>
      match set_freqrange (Many [a; b]) s with (_, Some e) => Err e | (s, None) => Ok s end))
    end))
  end.

(** ** [select], 615-648, and [_fill_attr], 653-676: names other than these four are ignored. *)
Record selection := mkSel { k_dbeam : option (option Z); k_freq : option range; k_time : option range; k_polar : option (option string) }.
Definition maybe {B} (o : option B) (g : B -> step) : step := match o with None => fun s => (s, None) | Some v => g v end.
Definition fill_attr (k : selection) : step :=
  seq_ (maybe (k_dbeam k) set_dbeam) (seq_ (maybe (k_freq k) set_freqrange) (seq_ (maybe (k_time k) set_timerange) (maybe (k_polar k) set_polar))).
(** [data[np.ix_(t, p, b)]], then the last two axes exchanged *)
Definition picked (t p b : list nat) : res (nd A) :=
  match sh (f_data f) with
  | [nt; np; nb] =>
    if forallb (fun i => i <? nt) t && forallb (fun i => i <? np) p && forallb (fun i => i <? nb) b
    then Ok (mkNd [length t; length b; length p]
               (fun idx => match idx with [i; j; k] => get (f_data f) [nth i t 0; nth k p 0; nth j b 0] | _ => get (f_data f) idx end))
    else Err EIndexError
  | _ => Err EIndexError
  end.
Definition current (s : bst) : res (sdata A string) :=
  bind (picked (s_time_idx s) (s_polar_idx s) (s_freq_idx s)) (fun d =>
  bind (freq s) (fun fr => sdata_new (time s) fr [s_polar s] d)).
Definition select (k : selection) (s : bst) : bst * res (sdata A string) :=
  match fill_attr k s with
  | (s, Some e) => (s, Err e)
  | (s, None) => (s, current s)
  end.
End File.
