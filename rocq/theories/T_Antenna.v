(** Properties of the models of antennas (C202 to C210). *)
From Coq Require Import Ascii String List Arith ZArith QArith Bool Permutation Sorting.Sorted Lia Lqa.
From Verif Require Import Base M_Antenna P_Antenna P_Antenna2 P_Antenna3 P_Antenna4.
Import ListNotations.
Open Scope nat_scope.
Open Scope list_scope.

(** ** C202: names of files and headers *)
Theorem C202_frequency : forall float name q,
  infer_frequency float name = Ok q <-> exists t, first_mark name t /\ float t = Some q.
Proof. exact frequency_of_name. Qed.
Print Assumptions C202_frequency.
Theorem C202_absent : forall float name,
  infer_frequency float name = Err EIndexError <-> forall a t b, ~ marked name a t b.
Proof. exact frequency_absent. Qed.
Print Assumptions C202_absent.
Theorem C202_text : forall float a t b q, ~ char_in "("%char a -> ~ char_in ")"%char t -> ~ char_in "010"%char t -> float t = Some q ->
  infer_frequency float (a ++ "(f=" ++ t ++ ")" ++ b)%string = Ok q.
Proof. exact frequency_text. Qed.
Print Assumptions C202_text.
Theorem C202_columns : forall U (unit : string -> option U) l e r,
  Forall (fun c => plain (fst c) /\ plain (snd c)) l -> ~ char_in "]" e ->
  (columns unit (header_text l e) = Ok r <->
   map fst r = map (fun c => spaceless (fst c)) l /\ map (fun c => Some (snd c)) r = map (fun c => unit (snd c)) l).
Proof. exact header_columns. Qed.
Print Assumptions C202_columns.
Theorem C202_refused : forall U (unit : string -> option U) header col,
  In col (removelast (split_on "]" header)) -> length (split_on "[" col) <> 2 -> exists e, columns unit header = Err e.
Proof. exact header_refused. Qed.
Print Assumptions C202_refused.
Definition demo_float (s : string) : option Q :=
  if String.eqb s "30" then Some 30%Q else if String.eqb s "50" then Some 50%Q else if String.eqb s "70" then Some 70%Q else None.
Definition demo_unit (s : string) : option nat := if String.eqb s "deg." then Some 1 else if String.eqb s "" then Some 2 else None.
Example C202_ex : infer_frequency demo_float "farfield (f=30) [1].txt" = Ok 30%Q /\ infer_frequency demo_float "farfield f=30.txt" = Err EIndexError /\
  infer_frequency demo_float "farfield (f=abc).txt" = Err EValueError /\
  columns demo_unit (header_text [("Theta ", "deg."); ("Phi ", "deg."); ("Abs(Dir.)", "")]%string "") = Ok [("Theta", 1); ("Phi", 1); ("Abs(Dir.)", 2)]%string /\
  columns demo_unit "Theta deg.] Phi [deg.]" = Err EValueError /\ first_mark "a(f=30)" "30".
Proof.
  repeat (split; [reflexivity|]). destruct (proj1 (C202_frequency demo_float "a(f=30)" 30%Q) eq_refl) as (t & M & F).
  unfold demo_float in F. destruct (String.eqb_spec t "30"); [now subst|]. destruct (String.eqb t "50"); [discriminate|]. destruct (String.eqb t "70"); discriminate.
Qed.

(** ** C203: tables *)
Theorem C203_columns : forall names x y g rows, ~ known_columns names x y g -> cst names x y g rows = Err EValueError.
Proof. exact cst_columns. Qed.
Print Assumptions C203_columns.
Theorem C203_size : forall names x y g rows, known_columns names x y g ->
  (rows = [] -> cst names x y g rows = Err EZeroDivisionError) /\
  (rows <> [] -> length rows <> size (map r_x rows) * size (map r_y rows) -> cst names x y g rows = Err EAssertionError) /\
  (rows <> [] -> length rows = size (map r_x rows) * size (map r_y rows) -> exists m, cst names x y g rows = Ok m).
Proof. exact cst_size. Qed.
Print Assumptions C203_size.
Theorem C203_grid : forall names x y g xs ys f, known_columns names x y g -> NoDup xs -> NoDup ys -> xs <> [] -> ys <> [] ->
  cst names x y g (grid_x xs ys f) = Ok (mkModel xs (y_axis y ys) (map (fun a => map (f a) ys) xs) (String.eqb x "Phi")).
Proof. exact cst_grid. Qed.
Print Assumptions C203_grid.
Theorem C203_transposed_refuted : forall names x y g xs ys f, known_columns names x y g -> NoDup xs -> NoDup ys -> 2 <= length xs -> 2 <= length ys ->
  exists m, cst names x y g (grid_y xs ys f) = Ok m /\ interpolator m = Err EValueError /\ forall nside e, to_healpix m nside e = Err EValueError.
Proof. exact cst_transposed. Qed.
Print Assumptions C203_transposed_refuted.
Definition names := ["Theta"; "Phi"; "Abs(Dir.)"]%string.
Definition demo_gain (x y : Z) : Q := inject_Z ((x + 2 * y) / degree).
Definition demo_x : list Z := map (fun d => d * degree)%Z [0; 120; 240]%Z.
Definition demo_y : list Z := map (fun d => d * degree)%Z [0; 45; 90]%Z.
Definition demo_model : model := mkModel demo_x (map (fun t => 90 * degree - t)%Z demo_y) (map (fun a => map (demo_gain a) demo_y) demo_x) true.
Example C203_ex : cst names "Phi" "Theta" "Abs(Dir.)" (grid_x demo_x demo_y demo_gain) = Ok demo_model /\
  cst names "Phi" "Teta" "Abs(Dir.)" (grid_x demo_x demo_y demo_gain) = Err EValueError /\
  cst names "Phi" "Theta" "Abs(Dir.)" (removelast (grid_x demo_x demo_y demo_gain)) = Err EAssertionError /\
  known_columns names "Phi" "Theta" "Abs(Dir.)" /\ NoDup demo_x /\ 2 <= length demo_y /\
  (exists m, cst names "Phi" "Theta" "Abs(Dir.)" (grid_y demo_x demo_y demo_gain) = Ok m /\ interpolator m = Err EValueError).
Proof.
  do 3 (split; [reflexivity|]). split; [repeat split; unfold names; cbn [In]; auto 6|]. split; [repeat constructor; cbn; intuition discriminate|]. split; [cbn; lia|].
  eexists. split; reflexivity.
Qed.

(** ** C204: interpolation of a table *)
Theorem C204_accepts : forall m, (exists f, interpolator m = Ok f) <-> sense (fst (closed m)) /\ sense (m_y m).
Proof. exact interpolator_accepts. Qed.
Print Assumptions C204_accepts.
Theorem C204_knots : forall m f i j, well_formed m -> interpolator m = Ok f ->
  i < length (fst (closed m)) -> j < length (m_y m) ->
  exists v, f (knot (fst (closed m)) i) (knot (m_y m) j) = Some v /\ (v == entry (snd (closed m)) i j)%Q.
Proof. exact interpolator_knots. Qed.
Print Assumptions C204_knots.
Theorem C204_bounds : forall m f x y v lo hi, well_formed m -> interpolator m = Ok f -> f x y = Some v ->
  (forall i j, i < length (fst (closed m)) -> j < length (m_y m) -> (lo <= entry (snd (closed m)) i j <= hi)%Q) -> (lo <= v <= hi)%Q.
Proof. exact interpolator_bounds. Qed.
Print Assumptions C204_bounds.
Theorem C204_nan : forall m f x y, well_formed m -> interpolator m = Ok f ->
  (f x y = None <-> outside (fst (closed m)) x \/ outside (m_y m) y).
Proof. exact interpolator_nan. Qed.
Print Assumptions C204_nan.
Theorem C204_closed : forall m f j, well_formed m -> m_phi m = true -> nth 0 (m_x m) 1%Z = 0%Z -> length (m_gain m) = length (m_x m) ->
  interpolator m = Ok f -> j < length (m_y m) ->
  exists v w, f 0%Q (knot (m_y m) j) = Some v /\ f (inject_Z (360 * degree)) (knot (m_y m) j) = Some w /\ (v == w)%Q.
Proof. exact interpolator_closed. Qed.
Print Assumptions C204_closed.
Definition shown (o : option Q) : option Q := option_map Qred o.
Example C204_ex : well_formed demo_model /\ (exists f, interpolator demo_model = Ok f /\
  shown (f (inject_Z (120 * degree)) (inject_Z (45 * degree))) = Some 210%Q /\ shown (f (inject_Z (60 * degree)) (inject_Z (45 * degree))) = Some 150%Q /\
  shown (f (inject_Z (300 * degree)) (inject_Z (90 * degree))) = Some 120%Q /\ f (inject_Z 0) (inject_Z (- degree)) = None).
Proof.
  split; [|eexists; split; [reflexivity|]; repeat split].
  unfold well_formed. repeat (split; [cbn; lia|]). split; [left; reflexivity|right; reflexivity].
Qed.

(** ** C205: maps *)
Theorem C205_map : forall m nside elevation f, interpolator m = Ok f ->
  exists l, to_healpix m nside elevation = Ok l /\ length l = 12 * nside * nside /\
    forall p, p < length l -> nth_error l p = Some (f (micro (read_azimuth nside p)) (micro (elevation p))).
Proof. exact healpix_map. Qed.
Print Assumptions C205_map.
Theorem C205_ring : forall n p, p < 12 * n * n -> exists r j, 1 <= r <= 4 * n - 1 /\ j < ring_size n r /\ p = first_pixel n r + j.
Proof. exact pixel_ring. Qed.
Print Assumptions C205_ring.
Theorem C205_azimuth : forall n r j, 1 <= r <= 4 * n - 1 -> j < ring_size n r ->
  (azimuth n (first_pixel n r + j) == (inject_Z (Z.of_nat j) + (if half_shift n r then 1 # 2 else 0)) * width n r)%Q.
Proof. exact azimuth_value. Qed.
Print Assumptions C205_azimuth.
Theorem C205_mirror : forall n r j, 1 <= r <= 4 * n - 1 -> j < ring_size n r ->
  (read_azimuth n (first_pixel n r + j) ==
   360 - azimuth n (first_pixel n r + j) - (if half_shift n r then 0 else width n r))%Q.
Proof. exact azimuth_mirror. Qed.
Print Assumptions C205_mirror.
Theorem C205_mirror_refuted : forall n, 1 <= n ->
  exists p, (azimuth n p == 0)%Q /\ (read_azimuth n p == 360 - 360 / inject_Z (4 * Z.of_nat n))%Q.
Proof. exact azimuth_mirror_refuted. Qed.
Print Assumptions C205_mirror_refuted.
Example C205_ex : map Qred (azgrid 1) = [45; 135; 225; 315; 0; 90; 180; 270; 45; 135; 225; 315]%Q /\
  Qred (read_azimuth 1 4) = 270%Q /\ Qred (read_azimuth 1 5) = 180%Q /\ Qred (read_azimuth 1 0) = 315%Q /\
  bind (to_healpix demo_model 1 (fun _ => 45%Q)) (fun l => Ok (map shown l)) =
    Ok [Some 180; Some 315; Some 225; Some 135; Some 270; Some 270; Some 180; Some 90; Some 180; Some 315; Some 225; Some 135]%Q.
Proof. repeat split. Qed.

(** ** C206: files of maps *)
Theorem C206_columns : forall (F : Type) (read : F -> res (Q * list Q)) (show : Q -> string) nw ne cols, write_file read show nw ne = Ok (Some cols) ->
  exists a b, cols = a ++ b /\
    match nw with Some l => columns_of read show "NW" l a | None => a = [] end /\
    match ne with Some l => columns_of read show "NE" l b | None => b = [] end.
Proof. exact @file_columns. Qed.
Print Assumptions C206_columns.
Theorem C206_none : forall (F : Type) (read : F -> res (Q * list Q)) (show : Q -> string), write_file read show None None = Ok None.
Proof. exact @file_none. Qed.
Print Assumptions C206_none.
Theorem C206_empty : forall (F : Type) (read : F -> res (Q * list Q)) (show : Q -> string) nw ne, nw = Some [] \/ (ne = Some [] /\ nw = None) -> write_file read show nw ne = Err EException.
Proof. exact @file_empty. Qed.
Print Assumptions C206_empty.
Theorem C206_written : forall (F : Type) (read : F -> res (Q * list Q)) (show : Q -> string) nw ne, nw <> Some [] -> ne <> Some [] -> (nw <> None \/ ne <> None) ->
  (forall f, (exists l, nw = Some l /\ In f l) \/ (exists l, ne = Some l /\ In f l) -> exists c, read f = Ok c) ->
  exists cols, write_file read show nw ne = Ok (Some cols) /\
    length cols = length (match nw with Some l => l | None => [] end) + length (match ne with Some l => l | None => [] end).
Proof. exact @file_written. Qed.
Print Assumptions C206_written.
Theorem C206_load : forall (float : string -> option Q) file pol maps, load_file float file pol = Ok maps ->
  exists names m, Forall2 (fun c n => label float (fst c) = Ok n) file names /\
    (forall k v, In (k, v) (chosen pol file names) -> fst k = pol) /\
    m = largest (flat_map snd (chosen pol file names)) /\
    maps = map (fun p => (snd (fst p), map (divided m) (snd p))) (chosen pol file names) /\ maps <> [].
Proof. exact load_spec. Qed.
Print Assumptions C206_load.
Theorem C206_scaled : forall (float : string -> option Q) file pol maps, load_file float file pol = Ok maps ->
  forall names, Forall2 (fun c n => label float (fst c) = Ok n) file names ->
  (exists v, In v (flat_map snd (chosen pol file names)) /\ 0 < v)%Q ->
  (forall f g x, In (f, g) maps -> In x g -> exists v, x = Some v /\ v <= 1)%Q /\
  (exists f g v, In (f, g) maps /\ In (Some v) g /\ v == 1)%Q.
Proof. exact load_scaled. Qed.
Print Assumptions C206_scaled.
Theorem C206_missing : forall (float : string -> option Q) file pol names, Forall2 (fun c n => label float (fst c) = Ok n) file names ->
  ((forall n, In n names -> fst n <> pol) <-> load_file float file pol = Err EException).
Proof. exact load_missing. Qed.
Print Assumptions C206_missing.
Theorem C206_round_trip : forall F (read : F -> res (Q * list Q)) show float nw cols,
  (forall q, ~ char_in "_" (show q) /\ float (show q) = Some q) -> write_file read show (Some nw) None = Ok (Some cols) ->
  exists contents maps m, Forall2 (fun f c => read f = Ok c) nw contents /\ load_file float cols "NW" = Ok maps /\
    m = largest (flat_map snd (fsort contents)) /\
    map fst maps = map fst (fsort contents) /\ map snd maps = map (fun c => map (divided m) (snd c)) (fsort contents).
Proof. exact file_round_trip. Qed.
Print Assumptions C206_round_trip.
Definition demo_read (f : Z) : res (Q * list Q) := if (f =? 0)%Z then Err EException else Ok (inject_Z f, [inject_Z f; 10]%Q).
Definition demo_show (q : Q) : string := if Qeq_bool q 30 then "30"%string else if Qeq_bool q 50 then "50"%string else "70"%string.
Definition shown_maps (r : res (list (Q * list (option Q)))) := bind r (fun l => Ok (map (fun p => (fst p, map shown (snd p))) l)).
Example C206_ex : write_file demo_read demo_show (Some [50; 30]%Z) (Some [70]%Z) =
    Ok (Some [("NW_30", [30; 10]%Q); ("NW_50", [50; 10]%Q); ("NE_70", [70; 10]%Q)]%string) /\
  write_file demo_read demo_show (Some [50; 0]%Z) None = Err EException /\ write_file demo_read demo_show (Some []) (Some [70]%Z) = Err EException /\
  shown_maps (load_file demo_float [("NW_30", [30; 10]%Q); ("NW_50", [50; 10]%Q); ("NE_70", [70; 10]%Q)]%string "NW") =
    Ok [(30, [Some (3 # 5); Some (1 # 5)]); (50, [Some 1; Some (1 # 5)])]%Q /\
  load_file demo_float [("NE_70", [70; 10]%Q)]%string "NW" = Err EException /\ load_file demo_float [("NE70", [70; 10]%Q)]%string "NW" = Err EValueError.
Proof. repeat split. Qed.

(** ** C207: interpolation of maps in frequency *)
Theorem C207_node : forall nodes values i, distinct nodes -> i < length nodes -> (lagrange nodes values (nth i nodes 0) == nth i values 0)%Q.
Proof. exact lagrange_node. Qed.
Print Assumptions C207_node.
Example C207_ex : distinct [30; 50; 70]%Q /\ Qred (lagrange [30; 50; 70] [9; 25; 49] 50)%Q = 25%Q /\ Qred (lagrange [30; 50; 70] [9; 25; 49] 60)%Q = 36%Q.
Proof.
  split; [|split; reflexivity]. intros i j I J N. cbn in I, J.
  destruct i as [|[|[|]]]; try lia; destruct j as [|[|[|]]]; try lia; cbn; intro E; apply Qeq_bool_iff in E; discriminate.
Qed.

(** ** C208: reference dipoles *)
Theorem C208_errors : forall (known : Z -> bool) (pos : Z -> list (Z * Z)) (tol : Z) ma antenna polarization,
  (polarization <> "NW"%string -> polarization <> "NE"%string -> ant_pol_to_ref known pos tol ma antenna polarization = Err EValueError) /\
  (polarization = "NW"%string \/ polarization = "NE"%string ->
     (known ma = false -> ant_pol_to_ref known pos tol ma antenna polarization = Err EKeyError) /\
     (known ma = true -> ~ In antenna antenna_names -> ant_pol_to_ref known pos tol ma antenna polarization = Err EValueError) /\
     (known ma = true -> In antenna antenna_names -> exists l, ant_pol_to_ref known pos tol ma antenna polarization = Ok l)).
Proof. exact ref_errors. Qed.
Print Assumptions C208_errors.
Theorem C208_measured : forall (known : Z -> bool) (pos : Z -> list (Z * Z)) (tol : Z) ma antenna pol l, ant_pol_to_ref known pos tol ma antenna pol = Ok l ->
  sublist l candidates /\ NoDup l /\ forall d, In d l -> is_measured d.
Proof. exact ref_sublist. Qed.
Print Assumptions C208_measured.
Theorem C208_exact : forall (known : Z -> bool) (pos : Z -> list (Z * Z)) (tol : Z) ma antenna pol i l p d, (forall m, length (pos m) = length antenna_names) ->
  (pol = "NW" /\ p = NW \/ pol = "NE" /\ p = NE)%string -> nth_error antenna_names i = Some antenna -> ant_pol_to_ref known pos tol ma antenna pol = Ok l ->
  (In d l <-> is_measured d /\ exists k, nth_error antenna_names k = Some (p_antenna d) /\
     (close_to tol (seen pos ma p i) (seen pos (p_ma d) (p_polar d) k) \/ close_to tol (seen pos ma p i) (map Z.opp (seen pos (p_ma d) (p_polar d) k)))).
Proof. exact ref_exact. Qed.
Print Assumptions C208_exact.
Theorem C208_reflexive : forall (known : Z -> bool) (pos : Z -> list (Z * Z)) (tol : Z) d, (0 <= tol)%Z -> is_measured d -> known (p_ma d) = true ->
  exists l, ant_pol_to_ref known pos tol (p_ma d) (p_antenna d) (polar_name (p_polar d)) = Ok l /\ In d l.
Proof. exact ref_reflexive. Qed.
Print Assumptions C208_reflexive.
Theorem C208_depends : forall (known : Z -> bool) (pos : Z -> list (Z * Z)) (tol : Z) ma ma' p p' i i' a a', known ma = true -> known ma' = true ->
  nth_error antenna_names i = Some a -> nth_error antenna_names i' = Some a' ->
  (forall m, length (pos m) = length antenna_names) ->
  Permutation (seen pos ma p i) (seen pos ma' p' i') \/ Permutation (seen pos ma p i) (map Z.opp (seen pos ma' p' i')) ->
  ant_pol_to_ref known pos tol ma a (polar_name p) = ant_pol_to_ref known pos tol ma' a' (polar_name p').
Proof. exact ref_depends. Qed.
Print Assumptions C208_depends.
Theorem C208_moved : forall (known : Z -> bool) (pos : Z -> list (Z * Z)) (tol : Z) ma ma' a p (u : Z * Z), known ma = true -> known ma' = true -> In a antenna_names -> (forall m, length (pos m) = length antenna_names) ->
  pos ma' = map (fun v => (fst v + fst u, snd v + snd u)%Z) (pos ma) -> ant_pol_to_ref known pos tol ma' a (polar_name p) = ant_pol_to_ref known pos tol ma a (polar_name p).
Proof. exact ref_moved. Qed.
Print Assumptions C208_moved.
Theorem C208_half_turn : forall (known : Z -> bool) (pos : Z -> list (Z * Z)) (tol : Z) ma ma' a p, known ma = true -> known ma' = true -> In a antenna_names -> (forall m, length (pos m) = length antenna_names) ->
  pos ma' = map (fun v => (- fst v, - snd v)%Z) (pos ma) -> ant_pol_to_ref known pos tol ma' a (polar_name p) = ant_pol_to_ref known pos tol ma a (polar_name p).
Proof. exact ref_half_turn. Qed.
Print Assumptions C208_half_turn.
Theorem C208_quarter_turn : forall (known : Z -> bool) (pos : Z -> list (Z * Z)) (tol : Z) ma ma' a p, known ma = true -> known ma' = true -> In a antenna_names -> (forall m, length (pos m) = length antenna_names) ->
  pos ma' = map (fun v => (- snd v, fst v)%Z) (pos ma) -> ant_pol_to_ref known pos tol ma' a (polar_name (other p)) = ant_pol_to_ref known pos tol ma a (polar_name p).
Proof. exact ref_quarter_turn. Qed.
Print Assumptions C208_quarter_turn.
Example C208_ex : ant_pol_to_ref (fun _ => true) positions 1000 88 "Ant01" "NW" = Ok [mkDipole 88 NW "Ant01"] /\
  ant_pol_to_ref (fun _ => true) positions 1000 88 "Ant01" "N" = Err EValueError /\ ant_pol_to_ref (fun _ => true) positions 1000 88 "Ant20" "NW" = Err EValueError /\
  ant_pol_to_ref (fun m => m <? 96)%Z positions 1000 100 "Ant01" "NW" = Err EKeyError /\ is_measured (mkDipole 88 NW "Ant01") /\
  length (positions 88) = length antenna_names.
Proof.
  split; [vm_compute; reflexivity|]. repeat (split; [reflexivity|]). split; [|reflexivity]. eexists. split; [left; reflexivity|left; reflexivity].
Qed.
Definition turned (ma : Z) : list (Z * Z) := if (ma =? 1)%Z then map (fun v => (- snd v, fst v)%Z) (positions 0) else positions ma.
Example C208_turned_ex : ant_pol_to_ref (fun _ => true) turned 1000 1 "Ant01" "NE" = Ok [mkDipole 95 NE "Ant01"] /\ (forall m, length (turned m) = length antenna_names).
Proof.
  split; [vm_compute; reflexivity|]. intros m. unfold turned. destruct (m =? 1)%Z; [reflexivity|]. unfold positions.
  repeat (match goal with |- context [match ?x with _ => _ end] => destruct x end; try reflexivity).
Qed.

(** ** C209: the model read for an antenna *)
Theorem C209_source : forall (known : Z -> bool) (pos : Z -> list (Z * Z)) (tol : Z) pol a m filename,
  (forall f, filename = Some f -> (a = None \/ m = None) -> antenna_gain known pos tol pol a m filename = Ok (Named f, pol)) /\
  (filename = None -> (a = None \/ m = None) -> antenna_gain known pos tol pol a m filename = Ok (Default, pol)).
Proof. exact gain_source. Qed.
Print Assumptions C209_source.
Theorem C209_reference : forall (known : Z -> bool) (pos : Z -> list (Z * Z)) (tol : Z) pol a m s, antenna_gain known pos tol pol (Some a) (Some m) None = Ok s ->
  exists d l, ant_pol_to_ref known pos tol m a pol = Ok (d :: l) /\ is_measured d /\ s = (Reference (p_ma d) (p_antenna d), pol).
Proof. exact gain_reference. Qed.
Print Assumptions C209_reference.
Theorem C209_errors : forall (known : Z -> bool) (pos : Z -> list (Z * Z)) (tol : Z) pol a m filename e, ant_pol_to_ref known pos tol m a pol = Err e -> antenna_gain known pos tol pol (Some a) (Some m) filename = Err e.
Proof. exact gain_errors. Qed.
Print Assumptions C209_errors.
Theorem C209_no_reference : forall (known : Z -> bool) (pos : Z -> list (Z * Z)) (tol : Z) pol a m filename, ant_pol_to_ref known pos tol m a pol = Ok [] -> antenna_gain known pos tol pol (Some a) (Some m) filename = Err EIndexError.
Proof. exact gain_no_reference. Qed.
Print Assumptions C209_no_reference.
Theorem C209_polarization_refuted : exists d, ant_pol_to_ref (fun _ => true) positions 1000 0%Z "Ant01" "NW" = Ok [d] /\ p_polar d = NE /\
  antenna_gain (fun _ => true) positions 1000 "NW" (Some "Ant01"%string) (Some 0%Z) None = Ok (Reference (p_ma d) (p_antenna d), "NW"%string) /\
  ant_pol_to_ref (fun _ => true) positions 1000 (p_ma d) (p_antenna d) "NW" <> Ok [d].
Proof. exact polarization_refuted. Qed.
Print Assumptions C209_polarization_refuted.
Example C209_ex : antenna_gain (fun _ => true) positions 1000 "NW" (Some "Ant01"%string) (Some 88%Z) None = Ok (Reference 88 "Ant01", "NW"%string) /\
  antenna_gain (fun _ => true) positions 1000 "NW" (Some "Ant21"%string) (Some 88%Z) (Some "my.fits"%string) = Err EValueError /\
  antenna_gain (fun _ => true) positions 1000 "NW" None (Some 88%Z) (Some "my.fits"%string) = Ok (Named "my.fits", "NW"%string).
Proof. split; [vm_compute; reflexivity|]. split; reflexivity. Qed.

(** ** C210: temperature of the instrument of LOFAR *)
Theorem C210_temperature : forall l empty, length empty = length l ->
  length (lofar_instrument_temperature l empty) = length l /\
  forall k f, nth_error l k = Some f -> exists o, nth_error (lofar_instrument_temperature l empty) k = Some o /\
    (o = None <-> 90 < f /\ f < 110)%Q /\
    forall v, o = Some v -> ((f <= 90)%Q /\ v == poly fit_low f)%Q \/ ((110 <= f)%Q /\ v == poly fit_high f)%Q.
Proof. exact temperature_array. Qed.
Print Assumptions C210_temperature.
Example C210_ex : match lofar_instrument_temperature [50; 100; 150]%Q [Some 1; Some 2; None]%Q with [Some a; None; Some b] => (263 < a)%Q /\ (a < 264)%Q /\ (0 < b)%Q | _ => False end.
Proof. vm_compute. repeat split. Qed.
