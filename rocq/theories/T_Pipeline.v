(** C42, C43, C44, C78, C79: the time-frequency pipeline and its parameters. *)
From Coq Require Import Ascii String List Arith ZArith QArith Bool Lia.
From Verif Require Import Base M_Slots M_Nd P_Nd M_Rebin P_Rebin P_Rebin2 M_Pipeline P_Pipeline P_Pipeline2 M_PipeTasks P_PipeTasks.
Import ListNotations.
Open Scope nat_scope.

(** ** C42: editing and running *)
Theorem C42_once : forall T F D (l : list (edit T F D)) ts, once ts -> once (edits ts l).
Proof. exact @once_edits. Qed.
Print Assumptions C42_once.
Theorem C42_default : forall T F D b c rt rf s, once (default_tasks b c rt rf s : list (task T F D)).
Proof. exact @default_once. Qed.
Print Assumptions C42_default.
Theorem C42_insert : forall T F D (ts : list (task T F D)) t i ts' o, insert ts (OTask t) i = (ts', o) ->
  o = None /\
  ((exists u, In u ts /\ tname u = tname t) -> trepeat t = false -> ts' = ts) /\
  (((forall u, In u ts -> tname u <> tname t) \/ trepeat t = true) ->
   exists k l m, insert_place i (length ts) k /\ ts = l ++ m /\ length l = k /\ ts' = l ++ t :: m).
Proof. exact @insert_effect. Qed.
Print Assumptions C42_insert.
Theorem C42_append : forall T F D (ts : list (task T F D)) t ts' o, append ts (OTask t) = (ts', o) ->
  o = None /\
  ((exists u, In u ts /\ tname u = tname t) -> trepeat t = false -> ts' = ts) /\
  (((forall u, In u ts -> tname u <> tname t) \/ trepeat t = true) -> ts' = ts ++ [t]).
Proof. exact @append_effect. Qed.
Print Assumptions C42_append.
Theorem C42_not_a_task : forall T F D (ts : list (task T F D)) i,
  insert ts OOther i = (ts, Some ETypeError) /\ append ts OOther = (ts, Some ETypeError).
Proof. exact @not_a_task. Qed.
Print Assumptions C42_not_a_task.
(** Removing: each argument in turn, on the list left by the previous ones. *)
Theorem C42_remove : forall T F D args (ts : list (task T F D)) r o, remove ts args = (r, o) <-> removes_all ts args r o.
Proof.
  exact (fun T F D args ts r o => conj
    (fun H => eq_ind (remove ts args) (fun p => removes_all ts args (fst p) (snd p)) (remove_effect args ts) (r, o) H)
    (removes_all_det args ts r o)).
Qed.
Print Assumptions C42_remove.
(** Running: the tasks in order, with the current values of the parameters,
    whatever was read before. *)
Theorem C42_run : forall T F D ps (ts : list (task T F D)) x y, snd (run ps ts x) = Ok y <-> applies ps ts x y.
Proof. exact @run_applies. Qed.
Print Assumptions C42_run.
Theorem C42_run_fails : forall T F D ps (ts : list (task T F D)) x e, snd (run ps ts x) = Err e <->
  exists before t after y, ts = before ++ t :: after /\ applies ps before x y /\
    ((exists k, In k (targs t) /\ unknown (now ps) k) /\ e = EKeyError \/
     (exists kw, reads ps t kw /\ fails (tcall t) kw y e)).
Proof. exact @run_fails. Qed.
Print Assumptions C42_run_fails.
Theorem C42_run_keeps_tasks : forall T F D ps (ts : list (task T F D)) x, Forall2 same_task (fst (run ps ts x)) ts.
Proof. exact @run_tasks. Qed.
Print Assumptions C42_run_keeps_tasks.

(** A small pipeline on natural numbers: times, frequencies, data. *)
Definition tk (n : string) (r : bool) (k : nat) : task nat nat nat := make_task n (CData (fun _ d => Ok (d * 4 + k))) [] r.
Definition plan := [tk "a" false 1; tk "b" true 2; tk "c" false 3].
Example C42_ex :
  map tname (edits plan [EAppend (OTask (tk "a" false 4)); EInsert (OTask (tk "b" true 5)) (-1); EInsert (OTask (tk "d" false 6)) 9;
                         ERemove [RName "b"; RName "z"; RIndex (-1)]]%Z)%string = ["a"; "b"; "c"]%string /\
  snd (run no_params (edits plan [EInsert (OTask (tk "b" true 5)) 0%Z]) (0, 0, 0)) = Ok (0, 0, 347) /\
  snd (remove plan [RIndex 7%Z]) = Some EIndexError.
Proof. repeat split. Qed.
(** The constructor makes no check. *)
Theorem C42_constructor_refuted : exists ts : list (task nat nat nat), ~ once ts.
Proof.
  exists [tk "a" false 1; tk "a" false 2]. intro O.
  apply (O 0 1 (tk "a" false 1) (tk "a" false 2)); auto.
Qed.
Print Assumptions C42_constructor_refuted.
(** Several positions given to one call do not all refer to the list as it was,
    and a failing call has already removed tasks. *)
Theorem C42_remove_shift_refuted :
  map tname (fst (remove plan [RIndex 0; RIndex 1]%Z)) = ["b"]%string /\
  map tname (fst (remove plan [RName "b"; RIndex 2]%Z)) = ["a"; "c"]%string /\
  snd (remove plan [RName "b"; RIndex 2]%Z) = Some EIndexError.
Proof. repeat split. Qed.
Print Assumptions C42_remove_shift_refuted.

(** ** C43: parameters *)
Theorem C43_values : forall l cs, constructed l -> let ps := changes (make_params l) cs in
  length (now ps) = length l /\
  forall i p q, nth_error (now ps) i = Some p -> nth_error l i = Some q ->
    declared p q /\ holds p /\ (fixed q -> p = q).
Proof. exact values_held. Qed.
Print Assumptions C43_values.
Theorem C43_refused : forall ps name v ps' e, set_item ps name v = (ps', Some e) -> ps' = ps.
Proof. exact set_item_refused. Qed.
Print Assumptions C43_refused.
Theorem C43_accepted : forall ps name v ps', set_item ps name v = (ps', None) <->
  exists i p w, named (now ps) name i /\ nth_error (now ps) i = Some p /\ ~ fixed p /\
    ((v = VNone /\ w = VNone) \/ (v <> VNone /\ becomes (pty p) v w /\ allowed (pkind p) w)) /\
    original ps' = original ps /\ length (now ps') = length (now ps) /\
    nth_error (now ps') i = Some (with_value p w) /\
    (forall j, j <> i -> nth_error (now ps') j = nth_error (now ps) j).
Proof. exact set_item_accepted. Qed.
Print Assumptions C43_accepted.
Theorem C43_errors : forall ps name v e, snd (set_item ps name v) = Some e <->
  (unknown (now ps) name /\ e = EKeyError) \/
  (exists i p, named (now ps) name i /\ nth_error (now ps) i = Some p /\ refusal p v e).
Proof. exact set_item_errors. Qed.
Print Assumptions C43_errors.
Theorem C43_read : forall ps name v, get_item ps name = Ok v <->
  exists i p, named (now ps) name i /\ nth_error (now ps) i = Some p /\ v = pvalue p.
Proof. exact get_item_ok. Qed.
Print Assumptions C43_read.
Theorem C43_read_unknown : forall ps name e, get_item ps name = Err e <-> unknown (now ps) name /\ e = EKeyError.
Proof. exact get_item_err. Qed.
Print Assumptions C43_read_unknown.
Theorem C43_reset : forall l cs, constructed l -> now (reset (changes (make_params l) cs)) = l.
Proof. exact reset_restores. Qed.
Print Assumptions C43_reset.
Theorem C43_case : forall ps s t v, same_letters s t ->
  get_item ps s = get_item ps t /\ set_item ps s v = set_item ps t v.
Proof. exact case_lookup. Qed.
Print Assumptions C43_case.
Theorem C43_capital_refuted : forall ps i p c, nth_error (now ps) i = Some p -> char_in c (pname p) -> capital c ->
  forall name, ~ named (now ps) name i.
Proof. exact capital_unreachable. Qed.
Print Assumptions C43_capital_refuted.

(** The predefined parameters, with plain types. *)
Definition is_num (v : pyval) : bool := match v with VNum _ => true | _ => false end.
Definition num_type : ptype := mkType is_num (fun v => match v with VBool b => Some (num (if b then 1 else 0)%Q) | _ => None end).
Definition int_type : ptype := mkType (fun v => match v with VNum (Some x) => Qeq_bool x (inject_Z (Qround.Qfloor x)) | VBool _ => true | _ => false end)
  (fun v => match v with VNum (Some x) => Some (num (inject_Z (Qround.Qfloor x))) | _ => None end).
Definition list_type : ptype := mkType (fun v => match v with VList _ => true | _ => false end)
  (fun v => match v with VStr s => Some (VList (chars s)) | _ => None end).
Definition plain : types := mkTypes num_type num_type int_type list_type num_type.
Definition predefined : params := match default_params plain 0 100 20 80 [0; 2]%Z 4 2 1 with Ok ps => ps | Err _ => no_params end.
Lemma predefined_constructed : constructed (now predefined).
Proof.
  exists (map (fun p => (pname p, pkind p, pty p, pvalue p)) (now predefined)). vm_compute. reflexivity.
Qed.
Definition after (l : list change) (name : string) := get_item (changes predefined l) name.
Example C43_ex :
  length (now predefined) = 21 /\
  after [Assign "TMin" (num 5)] "tmin" = Ok (num 5) /\
  after [Assign "tmin" (num 5); Assign "tmin" (num (- (3#2)))] "tmin" = Ok (num 5) /\
  after [Assign "tmin" (num (- (1)))] "tmin" = Ok (num (- (1))) /\
  after [Assign "tmin" (VStr "now")] "tmin" = Ok (num 0) /\
  after [Assign "beam" (num (5#2))] "beam" = Ok (num 2) /\
  after [Assign "remove_channels" (VList [num 0; num (- (1))])] "remove_channels" = Ok (VList [num 0; num (- (1))]) /\
  after [Assign "remove_channels" (VList [num 4])] "remove_channels" = Ok VNone /\
  after [Assign "dt" (num 1)] "dt" = Ok (num 2) /\
  after [Assign "overwrite" (num 1); Assign "stokes" (VStr "V"); Reset] "stokes" = Ok (VStr "I").
Proof. vm_compute. repeat split; reflexivity. Qed.
(** NaN passes the range checks; a lower edge above the upper edge is accepted. *)
Theorem C43_nan_refuted :
  after [Assign "fmin" (VNum None)] "fmin" = Ok (VNum None) /\
  after [Assign "fmin" (num 70); Assign "fmax" (num 30)] "fmin" = Ok (num 70) /\
  after [Assign "fmin" (num 70); Assign "fmax" (num 30)] "fmax" = Ok (num 30).
Proof. vm_compute. repeat split; reflexivity. Qed.
Print Assumptions C43_nan_refuted.

(** ** C44: [Spectra.get] *)
Theorem C44_undone : forall R (body : params -> outcome R) s kw ps, valid s -> overridden (parameters_of s) kw ps -> clean (body ps) ->
  let s' := fst (get_data body s kw) in
  valid s' /\ parameters_of s' = parameters_of s /\
  (cur s' <> cur s /\ seen s' (cur s) = ps) /\ (forall r, r < length (heap s) -> r <> cur s -> seen s' r = seen s r).
Proof. exact @get_undone. Qed.
Print Assumptions C44_undone.
Theorem C44_history : forall R s (l : list ((params -> outcome R) * list (string * pyval))) s',
  valid s -> clean_calls s l s' -> parameters_of s' = parameters_of s.
Proof. exact @gets_undone. Qed.
Print Assumptions C44_history.
Theorem C44_answer : forall R (body : params -> outcome R) s kw ps, overridden (parameters_of s) kw ps ->
  snd (get_data body s kw) = match body ps with
                             | OResult r => AResult r | OTooLarge | OStored => ANone
                             | OFails e => ARaise e | OInterrupted => AInterrupted
                             end.
Proof. exact @get_answer. Qed.
Print Assumptions C44_answer.
(** The overrides survive when the volume threshold ends the call or when it is
    interrupted, and those made before a refused one survive too. *)
Theorem C44_left_refuted : forall R (body : params -> outcome R) s kw ps, valid s -> overridden (parameters_of s) kw ps -> ~ clean (body ps) ->
  let s' := fst (get_data body s kw) in valid s' /\ parameters_of s' = ps /\ cur s' = cur s.
Proof. exact @get_left. Qed.
Print Assumptions C44_left_refuted.
Theorem C44_partly_overridden_refuted : forall R (body : params -> outcome R) s done k v rest ps e, valid s ->
  overridden (parameters_of s) done ps -> snd (set_item ps k v) = Some e ->
  let r := get_data body s (done ++ (k, v) :: rest) in
  valid (fst r) /\ parameters_of (fst r) = ps /\ cur (fst r) = cur s /\ snd r = ARaise e.
Proof. exact @get_refused. Qed.
Print Assumptions C44_partly_overridden_refuted.

Definition sp : spectra := mkSp [predefined] 0.
Definition tmin_of (s : spectra) := get_item (parameters_of s) "tmin".
Example C44_ex :
  let good := fun _ : params => OResult 7 in
  let bad := fun _ : params => @OTooLarge nat in
  valid sp /\
  tmin_of (fst (get_data good sp [("tmin", num 5)]%string)) = Ok (num 0) /\
  snd (get_data good sp [("tmin", num 5)]%string) = AResult 7 /\
  tmin_of (fst (get_data bad sp [("tmin", num 5)]%string)) = Ok (num 5) /\
  tmin_of (fst (get_data good sp [("tmin", num 5); ("tmax", num 500)]%string)) = Ok (num 5) /\
  snd (get_data good sp [("tmin", num 5); ("tmax", num 500)]%string) = ARaise EValueError.
Proof. vm_compute. repeat split; try reflexivity. Qed.

(** ** C78: activity shown by the pipeline *)
Theorem C78_update : forall T F D ps (t t' : task T F D), reached t -> update ps t = (t', None) ->
  (tactive t' = true <-> tactive t = true \/ all_given ps t).
Proof. exact @update_active. Qed.
Print Assumptions C78_update.
Theorem C78_info : forall T F D ps (ts ts' : list (task T F D)) l, (forall t, In t ts -> reached t) -> info ps ts = (ts', Ok l) ->
  length l = length ts /\
  forall i t, nth_error ts i = Some t -> exists b, nth_error l i = Some (tname t, b) /\
    (b = true <-> tactive t = true \/ all_given ps t).
Proof. exact @info_shows. Qed.
Print Assumptions C78_info.
(** A task stays shown as active once its parameter is None again, and a task
    shown as inactive is run. *)
Definition bandpass : task nat nat nat := make_task "Correct bandpass" (CFreq (fun _ f d => Ok (f, d + 1))) ["channels"; "lna_filter"]%string false.
Definition dt_task : task nat nat nat := make_task "Rebin in time" (CTime (fun _ t d => Ok (t, d))) ["dt"; "rebin_dt"]%string true.
Theorem C78_stale_refuted :
  snd (info predefined [dt_task]) = Ok [("Rebin in time", false)]%string /\
  (let ts := fst (info (changes predefined [Assign "rebin_dt" (num 4)]) [dt_task]) in
   snd (info predefined ts) = Ok [("Rebin in time", true)]%string).
Proof. vm_compute. split; reflexivity. Qed.
Print Assumptions C78_stale_refuted.
Theorem C78_inactive_runs_refuted :
  snd (info predefined [bandpass]) = Ok [("Correct bandpass", false)]%string /\
  snd (run predefined [bandpass] (0, 0, 0)) = Ok (0, 0, 1).
Proof. vm_compute. split; reflexivity. Qed.
Print Assumptions C78_inactive_runs_refuted.

(** ** C79: the rebinning tasks *)
Theorem C79_none : forall ps x, get_item ps "rebin_dt" = Ok VNone -> (exists v, get_item ps "dt" = Ok v) ->
  snd (run ps [time_rebin] x) = Ok x.
Proof. exact time_rebin_none. Qed.
Print Assumptions C79_none.
Theorem C79_time : forall ps dt w times freqs data ax d, get_item ps "dt" = Ok (num dt) -> get_item ps "rebin_dt" = Ok (num w) ->
  (snd (run ps [time_rebin] (times, freqs, data)) = Ok (ax, freqs, d) <-> rebin_along data times 0 dt w = Ok (ax, d)).
Proof. exact time_rebin_once. Qed.
Print Assumptions C79_time.
Theorem C79_frequency : forall ps df w times freqs data ax d, get_item ps "df" = Ok (num df) -> get_item ps "rebin_df" = Ok (num w) ->
  (snd (run ps [frequency_rebin] (times, freqs, data)) = Ok (times, ax, d) <-> rebin_along data freqs 1 df w = Ok (ax, d)).
Proof. exact frequency_rebin_once. Qed.
Print Assumptions C79_frequency.
(** The task is repeatable, but the second one rebins again by the same factor. *)
Theorem C79_twice_refuted : forall ps dt w times freqs data n rest a,
  get_item ps "dt" = Ok (num dt) -> get_item ps "rebin_dt" = Ok (num w) ->
  sh data = n :: rest -> length times = n -> 0 < a -> a * a <= n -> (0 < dt)%Q -> (w == inject_Z (Z.of_nat a) * dt)%Q ->
  (forall j, j < n -> nth j times None <> None) -> (forall idx, inside (sh data) idx -> get data idx <> None) ->
  exists ax2 d2 ax3 d3,
    snd (run ps [time_rebin; time_rebin] (times, freqs, data)) = Ok (ax2, freqs, d2) /\
    rebin_along data times 0 dt (inject_Z (Z.of_nat a) * w) = Ok (ax3, d3) /\
    length ax3 = n / (a * a) /\
    length ax2 = length ax3 /\ (forall i, i < length ax3 -> same (nth i ax2 None) (nth i ax3 None)) /\
    sh d2 = sh d3 /\ (forall idx, inside (sh d3) idx -> same (get d2 idx) (get d3 idx)).
Proof. exact time_rebin_twice. Qed.
Print Assumptions C79_twice_refuted.
Example C79_ex :
  let ps := changes predefined [Assign "rebin_dt" (num 4)] in
  let data := mkNd [8; 1] (fun idx => match idx with [i; 0] => Some (inject_Z (Z.of_nat i)) | _ => None end) in
  match snd (run ps [time_rebin; time_rebin] (coords 8, [Some 50%Q], data)) with
  | Ok (ax, f, d) => map (option_map Qred) ax = [Some (3#2)%Q; Some (11#2)%Q] /\ f = [Some 50%Q] /\ sh d = [2; 1]
  | Err _ => False
  end.
Proof. vm_compute. repeat split; reflexivity. Qed.
