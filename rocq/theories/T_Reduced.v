(** Properties of the files of reduced spectra (C226 to C231). *)
From Coq Require Import Ascii String List Arith ZArith QArith Bool Lia Lqa Permutation Sorting.Sorted.
From Verif Require Import Base M_Nd P_Nd M_PText M_Reduced P_Reduced P_Reduced2 P_Reduced3 P_Reduced4.
From Verif Require M_Pipeline M_Bst M_Parset.
Import ListNotations.
Open Scope nat_scope.
Open Scope list_scope.

(** ** C226: what was stored is read back *)
Theorem C226_round_trip : forall A unit_of a l r k s h ops, good A unit_of a l r k -> store A unit_of a s = (Some h, None) -> Forall (fun o => a_mode A o <> "w"%string) ops ->
  exists h' z, run A unit_of ops (Some h) = Some h' /\ open_beam A unit_of h' [0%Z; a_beam A a] = Ok z /\ delivers A a l r z.
Proof. exact round_trip. Qed.
Print Assumptions C226_round_trip.
Theorem C226_accepted : forall A unit_of a l r k s, good A unit_of a l r k ->
  (snd (store A unit_of a s) = None <-> a_mode A a = "w"%string \/ (auto A a /\ s = None) \/
     ((auto A a \/ a_mode A a = "a"%string) /\ exists h bs, s = Some h /\ h_sap A h = Some bs /\ beam_of A h (a_beam A a) = None)).
Proof. exact accepted. Qed.
Print Assumptions C226_accepted.
Theorem C226_name_refused : forall A unit_of a s, ~ extension (a_name A a) -> store A unit_of a s = (s, Some EValueError).
Proof. exact name_refused. Qed.
Print Assumptions C226_name_refused.
Theorem C226_name_accepted : forall A unit_of a s n, extension (a_name A a) -> extension n -> snd (store A unit_of (rename A a n) s) = snd (store A unit_of a s).
Proof. exact name_accepted. Qed.
Print Assumptions C226_name_accepted.
Theorem C226_distinct : forall A unit_of a s h l nt nf r, store A unit_of a s = (Some h, None) -> a_pols A a = PList l -> sh (a_data A a) = nt :: nf :: r -> Forall plain (names l r) -> size r <= length l /\ NoDup (names l r).
Proof. exact distinct. Qed.
Print Assumptions C226_distinct.
Definition demo_unit (s : string) : option (option Q) :=
  if String.eqb s "MHz" then Some (Some 1%Q) else if String.eqb s "kHz" then Some (Some (1 # 1000)%Q) else if String.eqb s "s" then Some None else None.
Definition demo_data : nd nat := mkNd [2; 2; 2] (fun i => 100 * nth 0 i 0 + 10 * nth 1 i 0 + nth 2 i 0).
Definition demo (l : list string) (b : Z) (mode : string) : args nat :=
  mkArgs nat "obs.hdf5" demo_data [2459000 # 1; 4918001 # 2]%Q [30; 31]%Q (PList l) b "kHz" mode [("OBJECT", AText "Jupiter")]%string.
Lemma demo_good : forall l b mode, Forall plain (names l [2]) -> NoDup (names l [2]) -> 2 <= length l -> good nat demo_unit (demo l b mode) l [2] (1 # 1000).
Proof. intros l b mode P N L. constructor; try reflexivity; try assumption; try discriminate; [now exists "obs"%string|cbn; lia]. Qed.
Definition file_of (ops : list (args nat)) : option (h5 nat) := run nat demo_unit ops None.
(** The polarizations and data of the beam [b] *)
Definition shown (s : option (h5 nat)) (b : Z) : option (list string * list nat * list nat) :=
  match s with None => None | Some h => match open_beam nat demo_unit h [0%Z; b] with
    Ok z => Some (z_pol nat z, sh (z_data nat z), map (get (z_data nat z)) [[0;0;0]; [0;0;1]; [0;1;0]; [1;0;1]]) | Err _ => None end end.
Example C226_ex : good nat demo_unit (demo ["v"; "i"]%string 3 "auto") ["v"; "i"]%string [2] (1 # 1000)
  /\ shown (file_of [demo ["v"; "i"]%string 3 "auto"; demo ["I"; "Q"]%string 12 "auto"; demo ["I"; "Q"]%string 3 "auto"]) 3 = Some (["I"; "V"]%string, [2; 2; 2], [1; 0; 11; 100])
  /\ shown (file_of [demo ["v"; "i"]%string 3 "auto"; demo ["I"; "Q"]%string 12 "auto"; demo ["I"; "Q"]%string 3 "auto"]) 12 = Some (["I"; "Q"]%string, [2; 2; 2], [0; 1; 10; 101]).
Proof.
  split; [|split; vm_compute; reflexivity]. apply demo_good; [| |cbn; lia].
  - vm_compute. repeat constructor; discriminate.
  - vm_compute. repeat constructor; cbn; intuition discriminate.
Qed.

(** ** C227: names of the polarizations *)
Theorem C227_one_key : forall A unit_of a l r k s h ops, good A unit_of a l r k -> store A unit_of a s = (Some h, None) -> Forall (fun o => a_mode A o <> "w"%string) ops ->
  exists h', run A unit_of ops (Some h) = Some h' /\
  (forall n p, nth_error (names l r) p = Some n -> exists f d, read A unit_of h' (Some n) 0 (a_beam A a) = Ok (a_time A a, f, [n], d) /\ Forall2 Qeq f (a_freq A a) /\
     sh d = [length (a_time A a); length (a_freq A a); 1] /\ forall i j, get d [i; j; 0] = get (a_data A a) (i :: j :: unravel r p)) /\
  (forall n, ~ In n (names l r) -> read A unit_of h' (Some n) 0 (a_beam A a) = Err EKeyError).
Proof. exact one_key. Qed.
Print Assumptions C227_one_key.
Theorem C227_order_refuted : forall A unit_of a l r k s h z, good A unit_of a l r k -> store A unit_of a s = (Some h, None) -> open_beam A unit_of h [0%Z; a_beam A a] = Ok z ->
  ~ Sorted (fun x y => String.leb x y = true) (names l r) -> z_pol A z <> names l r.
Proof. exact order_refuted. Qed.
Print Assumptions C227_order_refuted.
Theorem C227_missing : forall A unit_of h key sap b, (sap <> 0%Z \/ beam_of A h b = None) -> read A unit_of h key sap b = Err EKeyError.
Proof. exact read_missing. Qed.
Print Assumptions C227_missing.
Definition key_of (s : option (h5 nat)) (n : string) : res (list string * list nat) :=
  match s with None => Err EException | Some h => bind (read nat demo_unit h (Some n) 0 3) (fun x => let '(t, f, p, d) := x in Ok (p, map (get d) [[0;0;0]; [1;1;0]])) end.
Example C227_ex : key_of (file_of [demo ["v"; "i"]%string 3 "auto"]) "V" = Ok (["V"%string], [0; 110])
  /\ key_of (file_of [demo ["v"; "i"]%string 3 "auto"]) "v" = Err EKeyError /\ names ["v"; "i"]%string [2] = ["V"; "I"]%string /\ String.leb "V" "I" = false.
Proof. repeat split; vm_compute; reflexivity. Qed.

(** ** C228: stores that fail *)
Theorem C228_overwritten : forall A unit_of a s, ready A unit_of a -> a_mode A a = "w"%string ->
  exists h, fst (store A unit_of a s) = Some h /\ forall b, b <> a_beam A a -> beam_of A h b = None.
Proof. exact overwritten. Qed.
Print Assumptions C228_overwritten.
Theorem C228_append_refuted : forall A unit_of a, ready A unit_of a -> a_mode A a = "a"%string -> store A unit_of a None = (Some (empty_file A), Some EKeyError).
Proof. exact append_nothing. Qed.
Print Assumptions C228_append_refuted.
Theorem C228_stuck_refuted : forall A unit_of ops h, h_sap A h = None -> Forall (fun o => a_mode A o <> "w"%string) ops ->
  run A unit_of ops (Some h) = Some h /\ forall o, In o ops -> snd (store A unit_of o (Some h)) <> None.
Proof. exact stuck. Qed.
Print Assumptions C228_stuck_refuted.
Theorem C228_blocked : forall A unit_of a h m, ready A unit_of a -> (auto A a \/ a_mode A a = "a"%string) -> beam_of A h (a_beam A a) = Some m ->
  store A unit_of a (Some h) = (Some h, Some EException).
Proof. exact blocked. Qed.
Print Assumptions C228_blocked.
Theorem C228_too_few_refuted : forall A unit_of a l nt nf r, ready A unit_of a -> a_mode A a = "w"%string \/ auto A a -> a_pols A a = PList l ->
  sh (a_data A a) = nt :: nf :: r -> length l < size r -> a_time A a <> [] -> (exists k, unit_of (a_unit A a) = Some (Some k)) ->
  exists h e m, store A unit_of a None = (Some h, Some e) /\ beam_of A h (a_beam A a) = Some m /\
    forall a', ready A unit_of a' -> (auto A a' \/ a_mode A a' = "a"%string) -> a_beam A a' = a_beam A a -> store A unit_of a' (Some h) = (Some h, Some EException).
Proof. exact too_few_refuted. Qed.
Print Assumptions C228_too_few_refuted.
Theorem C228_partial_refuted : forall A unit_of a l nt nf r k, ready A unit_of a -> a_mode A a = "w"%string \/ auto A a -> a_pols A a = PList l -> sh (a_data A a) = nt :: nf :: r -> 0 < nt * nf -> length l < size r -> a_time A a <> [] ->
  unit_of (a_unit A a) = Some (Some k) -> ~ (k == 0)%Q -> NoDup (map M_Bst.upper l) -> Forall plain (map M_Bst.upper l) ->
  exists h, store A unit_of a None = (Some h, Some EIndexError) /\
    forall p n, nth_error (map M_Bst.upper l) p = Some n -> exists f d, read A unit_of h (Some n) 0 (a_beam A a) = Ok (a_time A a, f, [n], d) /\ Forall2 Qeq f (a_freq A a) /\ sh d = [nt; nf; 1] /\ forall i j, get d [i; j; 0] = get (a_data A a) (i :: j :: unravel r p).
Proof. exact partial_refuted. Qed.
Print Assumptions C228_partial_refuted.
Example C228_partial_ex : option_map fst (shown (file_of [demo ["I"%string] 3 "auto"]) 3) = Some (["I"%string], [2; 2; 1])
  /\ snd (store nat demo_unit (demo ["I"; "i"]%string 3 "auto") None) = Some EValueError
  /\ extension "obs.HDF5" /\ is_hdf5 "obs.h5" = false.
Proof. split; [vm_compute; reflexivity|]. split; [vm_compute; reflexivity|]. split; [|reflexivity]. exists "obs"%string, ".HDF5"%string. split; reflexivity. Qed.
Example C228_ex : snd (store nat demo_unit (demo ["I"%string] 3 "auto") None) = Some EIndexError
  /\ snd (store nat demo_unit (demo ["I"; "Q"]%string 3 "auto") (file_of [demo ["I"%string] 3 "auto"])) = Some EException
  /\ snd (store nat demo_unit (demo ["I"; "Q"]%string 3 "a") None) = Some EKeyError
  /\ snd (store nat demo_unit (demo ["I"; "Q"]%string 3 "auto") (file_of [demo ["I"; "Q"]%string 3 "a"])) = Some EKeyError
  /\ shown (file_of [demo ["I"; "Q"]%string 3 "auto"; demo ["I"%string] 4 "w"]) 3 = None
  /\ ready nat demo_unit (demo ["I"%string] 3 "auto").
Proof. do 5 (split; [vm_compute; reflexivity|]). split; [now exists "obs"%string|]. split; discriminate. Qed.

(** ** C229: names with a slash, polarizations given as a text *)
Theorem C229_slash_refuted : forall A unit_of a s h nt nf r p n x y, store A unit_of a s = (Some h, None) -> sh (a_data A a) = nt :: nf :: r -> p < size r -> pol_at (a_pols A a) p = Ok n ->
  M_Bst.upper n = (x ++ "/" ++ y)%string -> has_char "/" x = false -> has_char "/" y = false -> x <> EmptyString -> y <> EmptyString ->
  open_beam A unit_of h [0%Z; a_beam A a] = Err EValueError /\ read A unit_of h (Some (M_Bst.upper n)) 0 (a_beam A a) = Err EKeyError.
Proof. exact slash_refuted. Qed.
Print Assumptions C229_slash_refuted.
Theorem C229_text_refuted : forall A unit_of a s f, a_pols A a = PText s -> store A unit_of a f = store A unit_of (with_pols A a (PList (letters s))) f.
Proof. exact text_refuted. Qed.
Print Assumptions C229_text_refuted.
Example C229_ex : snd (store nat demo_unit (demo ["I"; "Q/I"]%string 3 "auto") None) = None
  /\ match fst (store nat demo_unit (demo ["I"; "Q/I"]%string 3 "auto") None) with Some h => open_beam nat demo_unit h [0; 3]%Z = Err EValueError | None => False end
  /\ letters "V/I" = ["V"; "/"; "I"]%string
  /\ let a := mkArgs nat "obs.hdf5" (mkNd [2; 2; 1] (fun i => 10 * nth 0 i 0 + nth 1 i 0)) [2459000 # 1; 4918001 # 2]%Q [30; 31]%Q (PText "V/I") 3 "kHz" "auto" [] in
     option_map (fun x => fst (fst x)) (shown (fst (store nat demo_unit a None)) 3) = Some ["V"%string].
Proof. repeat split; vm_compute; reflexivity. Qed.

(** ** C230: slices of reduced spectra *)
Theorem C230_opened : forall A unit_of h ids z, open_beam A unit_of h ids = Ok z -> sound A z.
Proof. exact opened_sound. Qed.
Print Assumptions C230_opened.
Theorem C230_slice : forall A (z : part A) l p, sound A z -> slice_part A z l = Ok p ->
  sound A p /\ exists ts fs ps, StronglySorted lt ts /\ StronglySorted lt fs /\ StronglySorted lt ps /\
    (forall k, In k ts <-> chosen (length (z_time A z)) (axis l 0) k) /\ (forall k, In k fs <-> chosen (length (z_freq A z)) (axis l 1) k) /\ (forall k, In k ps <-> chosen (length (z_pol A z)) (axis l 2) k) /\
    z_time A p = map (fun i => nth i (z_time A z) 0%Q) ts /\ z_freq A p = map (fun i => nth i (z_freq A z) 0%Q) fs /\ z_pol A p = map (fun i => nth i (z_pol A z) EmptyString) ps /\
    forall i j k, i < length ts -> j < length fs -> k < length ps -> get (z_data A p) [i; j; k] = get (z_data A z) [nth i ts 0; nth j fs 0; nth k ps 0].
Proof. exact slice_exact. Qed.
Print Assumptions C230_slice.
Theorem C230_errors : forall A (z : part A) l, sound A z ->
  (forall e, slice_part A z l = Err e -> e = EIndexError) /\
  ((exists p, slice_part A z l = Ok p) <-> 1 <= length l <= 3 /\ length (filter is_ellipsis l) <= 1 /\
     (exists k, chosen (length (z_time A z)) (axis l 0) k) /\ (exists k, chosen (length (z_freq A z)) (axis l 1) k) /\ (exists k, chosen (length (z_pol A z)) (axis l 2) k)).
Proof. exact slice_errors. Qed.
Print Assumptions C230_errors.
Definition demo_part : part nat := mkPart nat [0; 1; 2]%Q [30; 31]%Q ["I"; "Q"]%string (mkNd [3; 2; 2] (fun i => 100 * nth 0 i 0 + 10 * nth 1 i 0 + nth 2 i 0)).
Definition cut (l : list index) : res (list Q * list Q * list string * list nat * nat) :=
  bind (slice_part nat demo_part l) (fun p => Ok (z_time nat p, z_freq nat p, z_pol nat p, sh (z_data nat p), get (z_data nat p) [0; 0; 0])).
Example C230_ex : sound nat demo_part
  /\ cut [ISlice (Some (-2)%Z) None; IInt (-1)] = Ok ([1; 2]%Q, [31]%Q, ["I"; "Q"]%string, [2; 1; 2], 110)
  /\ cut [IEllipsis; ISlice None (Some 1%Z); IInt 1] = Ok ([0; 1; 2]%Q, [30]%Q, ["Q"%string], [3; 1; 1], 1)
  /\ cut [ISlice (Some 3%Z) None] = Err EIndexError /\ cut [IEllipsis; IEllipsis] = Err EIndexError /\ cut [IInt 3] = Err EIndexError.
Proof. split; [repeat split; discriminate|]. repeat split; vm_compute; reflexivity. Qed.

(** ** C231: the attributes of the file *)
Theorem C231_root : forall A unit_of a l r k s h ops, good A unit_of a l r k -> a_mode A a = "w"%string \/ (auto A a /\ s = None) -> store A unit_of a s = (Some h, None) ->
  Forall (fun o => a_mode A o <> "w"%string) ops ->
  exists h' t0 ts lo hi, run A unit_of ops (Some h) = Some h' /\ a_time A a = t0 :: ts /\
    In lo (a_freq A a) /\ In hi (a_freq A a) /\ (forall f, In f (a_freq A a) -> (lo <= f <= hi)%Q) /\
    let at_ n := get_key n (h_attrs A h') in
    at_ "OBSERVATION_FREQUENCY_MIN"%string = Some (ANum (lo / k)) /\ at_ "OBSERVATION_FREQUENCY_MAX"%string = Some (ANum (hi / k)) /\
    at_ "OBSERVATION_FREQUENCY_CENTER"%string = Some (ANum ((hi + lo) / 2 / k)) /\ at_ "OBSERVATION_FREQUENCY_UNIT"%string = Some (AText (a_unit A a)) /\
    at_ "OBSERVATION_START_MJD"%string = Some (ANum (t0 - (4800001 # 2))) /\ at_ "OBSERVATION_END_MJD"%string = Some (ANum (last ts t0 - (4800001 # 2))) /\
    at_ "TOTAL_INTEGRATION_TIME"%string = Some (ANum ((last ts t0 - t0) * 86400)) /\ at_ "FILENAME"%string = Some (AText (a_name A a)) /\
    forall n, ~ In n reserved -> at_ n = get_key n (a_meta A a).
Proof. exact root_kept. Qed.
Print Assumptions C231_root.
Definition attr_of (s : option (h5 nat)) (n : string) : option attr :=
  match s with None => None | Some h => match get_key n (h_attrs nat h) with Some (ANum q) => Some (ANum (Qred q)) | x => x end end.
Definition demo_later : args nat := mkArgs nat "obs.hdf5" demo_data [2459010; 2459011]%Q [40; 41]%Q (PList ["I"; "Q"]%string) 4 "MHz" "auto" [("OBJECT", AText "Sun")]%string.
Example C231_ex : let s := file_of [demo ["I"; "Q"]%string 3 "auto"; demo_later] in
  attr_of s "OBSERVATION_FREQUENCY_MAX" = Some (ANum 31000) /\ attr_of s "OBSERVATION_END_MJD" = Some (ANum (59000 # 1)) /\ attr_of s "TOTAL_INTEGRATION_TIME" = Some (ANum 43200) /\
  attr_of s "OBJECT" = Some (AText "Jupiter") /\ option_map (fun x => fst (fst x)) (shown s 4) = Some ["I"; "Q"]%string.
Proof. repeat split; vm_compute; reflexivity. Qed.
