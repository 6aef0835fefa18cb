(** Model of nenupy/instru/antenna.py: [CSTModel] (45-198), [write_healpix_antenna_file]
    (206-270), [ant_pol_to_ref] (278-392), and of nenupy/instru/nenufar.py, [_AntennaGain]
    (73-178), except the interpolation of a map at horizontal coordinates (101-131).

    Angles of the tables are whole millionths of degree, gains are rational numbers; [float],
    the units of astropy and the text of a number are functions given. The positions of the
    antennas (340-353) are whole numbers of a small unit: they are [float32] numbers. Their
    differences are exact here, rounded in numpy. *)
From Coq Require Import Ascii String List Arith ZArith QArith Qabs Bool.
From Verif Require Import Base.
Import ListNotations.
Open Scope nat_scope.
Open Scope list_scope.

(** * The name of a file *)
(** The text before the first [c]; [.] does not match a line break. *)
Fixpoint upto (c : ascii) (s : string) : option string :=
  match s with
  | EmptyString => None
  | String a r => if Ascii.eqb a c then Some EmptyString
                  else if Ascii.eqb a "010" then None
                  else match upto c r with Some t => Some (String a t) | None => None end
  end.
(** What follows [p] in a text that starts with it *)
Fixpoint after (p s : string) : option string :=
  match p, s with
  | EmptyString, _ => Some s
  | String a p, String b s => if Ascii.eqb a b then after p s else None
  | String _ _, EmptyString => None
  end.
(** [re.findall(r"\(f=(.*?)\)", s)], 144: the first group found *)
Fixpoint found (s : string) : option string :=
  match s with
  | EmptyString => None
  | String a r =>
    match (match after "(f=" s with Some r => upto ")" r | None => None end) with
    | Some t => Some t
    | None => found r
    end
  end.
(** [_infer_frequency_from_name], 142-147, in MHz: the list found is never [None]. *)
Definition infer_frequency (float : string -> option Q) (name : string) : res Q :=
  match found name with
  | None => Err EIndexError
  | Some t => match float t with Some q => Ok q | None => Err EValueError end
  end.

(** * The header of a file, 168-174 *)
(** [s.split(c)], always one part at least *)
Fixpoint split_on (c : ascii) (s : string) : list string :=
  match s with
  | EmptyString => [EmptyString]
  | String a r => if Ascii.eqb a c then EmptyString :: split_on c r
                  else match split_on c r with x :: l => String a x :: l | [] => [String a EmptyString] end
  end.
(** [s.replace(c, "")] *)
Fixpoint without (c : ascii) (s : string) : string :=
  match s with EmptyString => EmptyString | String a r => if Ascii.eqb a c then without c r else String a (without c r) end.
(** [unit] reads [u.Unit(text.strip().replace(".", ""))]. *)
Definition column {U} (unit : string -> option U) (col : string) : res (string * U) :=
  match split_on "[" col with
  | [name; text] => match unit text with Some u => Ok (without " " name, u) | None => Err EValueError end
  | _ => Err EValueError
  end.
Fixpoint collect {A} (l : list (res A)) : res (list A) :=
  match l with [] => Ok [] | r :: l => bind r (fun a => bind (collect l) (fun t => Ok (a :: t))) end.
Definition columns {U} (unit : string -> option U) (header : string) : res (list (string * U)) :=
  collect (map (column unit) (removelast (split_on "]" header))).

(** * The table of a file *)
Definition degree : Z := 1000000.
(** The columns of the coordinates and of the gain, row by row *)
Record row := mkRow { r_x : Z; r_y : Z; r_gain : Q }.
Definition no_row : row := mkRow 0 0 0.
Definition size (l : list Z) : nat := length (nodup Z.eq_dec l).
(** [_infer_2d_shape], 184-189 *)
Definition shape (rows : list row) : res (nat * nat) :=
  let nx := size (map r_x rows) in
  let ny := size (map r_y rows) in
  if ny =? 0 then Err EZeroDivisionError
  else if length rows =? nx * ny then Ok (nx, ny) else Err EAssertionError.
Record model := mkModel { m_x : list Z; m_y : list Z; m_gain : list (list Q); m_phi : bool }.
(** The setters of the columns, 68-90, then [_get_coordinate_axes], 191-198, and the matrix of
    110. [rows] are those of the chosen columns. *)
Definition cst (names : list string) (x y g : string) (rows : list row) : res model :=
  let known c := existsb (String.eqb c) names in
  if negb (known x && known y && known g) then Err EValueError
  else bind (shape rows) (fun '(nx, ny) =>
    let at_ i j := nth (i * ny + j) rows no_row in
    let ys := map (fun j => r_y (at_ 0 j)) (seq 0 ny) in
    Ok (mkModel (map (fun i => r_x (at_ i 0)) (seq 0 nx))
                (if String.eqb y "Theta" then map (fun t => 90 * degree - t)%Z ys else ys)
                (map (fun i => map (fun j => r_gain (at_ i j)) (seq 0 ny)) (seq 0 nx))
                (String.eqb x "Phi"))).

(** ** [to_healpix], 105-137 *)
(** [RegularGridInterpolator]: axes increase, or decrease, strictly (ValueError otherwise). The
    place of [x] in an increasing axis: an interval and the fraction of it; [None] outside,
    which gives NaN. A decreasing axis is that of the opposite numbers. *)
Fixpoint increasing (l : list Z) : bool :=
  match l with x :: ((y :: _) as r) => (x <? y)%Z && increasing r | _ => true end.
Definition knot (l : list Z) (i : nat) : Q := inject_Z (nth i l 0%Z).
Definition place (l : list Z) (x : Q) : option (nat * Q) :=
  if Qle_bool (knot l 0) x && Qle_bool x (knot l (length l - 1)) then
    let i := Nat.min (length l - 2) (length (filter (fun k => Qle_bool (inject_Z k) x) l) - 1) in
    Some (i, (x - knot l i) / (knot l (S i) - knot l i))%Q
  else None.
Definition axis (l : list Z) : res (Q -> option (nat * Q)) :=
  if increasing l then Ok (place l)
  else if increasing (map Z.opp l) then Ok (fun x => place (map Z.opp l) (- x)%Q)
  else Err EValueError.
Definition entry (g : list (list Q)) (i j : nat) : Q := nth j (nth i g []) 0%Q.
Definition bilinear (g : list (list Q)) (a b : nat * Q) : Q :=
  let '(i, u) := a in let '(j, v) := b in
  ((1 - u) * ((1 - v) * entry g i j + v * entry g i (S j)) + u * ((1 - v) * entry g (S i) j + v * entry g (S i) (S j)))%Q.
(** 112-114: the first line again, at 360 degrees *)
Definition closed (m : model) : list Z * list (list Q) :=
  if m_phi m then (m_x m ++ [360 * degree]%Z, m_gain m ++ [nth 0 (m_gain m) []]) else (m_x m, m_gain m).
Definition interpolator (m : model) : res (Q -> Q -> option Q) :=
  let '(xs, g) := closed m in
  bind (axis xs) (fun px => bind (axis (m_y m)) (fun py =>
  Ok (fun x y => match px x, py y with Some a, Some b => Some (bilinear g a b) | _, _ => None end))).
(** The azimuths of the pixels in the ring scheme of HEALPix ([hp.pix2ang], degrees): 4 nside - 1
    rings; in the belt, one ring out of two has a pixel at 0, in the caps the first pixel is
    half a pixel away. *)
Definition ring_size (nside r : nat) : nat := 4 * Nat.min (Nat.min r nside) (4 * nside - r).
Definition half_shift (nside r : nat) : bool := (r <? nside) || (3 * nside <? r) || Nat.even (r + nside).
Definition ring (nside r : nat) : list Q :=
  let n := ring_size nside r in
  map (fun j => (inject_Z (Z.of_nat j) + (if half_shift nside r then 1 # 2 else 0)) * (360 / inject_Z (Z.of_nat n)))%Q (seq 0 n).
Definition azgrid (nside : nat) : list Q := flat_map (ring nside) (seq 1 (4 * nside - 1)).
(** 134: [azgrid[::-1]]. [elevation] of the pixels, degrees, is not modelled. *)
Definition micro (q : Q) : Q := (q * inject_Z degree)%Q.
Definition to_healpix (m : model) (nside : nat) (elevation : nat -> Q) : res (list (option Q)) :=
  bind (interpolator m) (fun f =>
  Ok (map (fun p => f (micro (snd p)) (micro (elevation (fst p)))) (combine (seq 0 (length (azgrid nside))) (rev (azgrid nside))))).

(** * Files of maps *)
(** [write_healpix_antenna_file], 232-270: [read] opens a file and gives its frequency and map.
    [np.argsort] of the frequencies: equal ones keep their order here. A column is its name and
    its map; nothing is written without any. FileNotFoundError is EException here. *)
Section Files.
Context {F : Type}.
Variable read : F -> res (Q * list Q).
Variable show : Q -> string.
Fixpoint finsert (x : Q * list Q) (l : list (Q * list Q)) : list (Q * list Q) :=
  match l with [] => [x] | y :: r => if Qle_bool (fst x) (fst y) then x :: l else y :: finsert x r end.
Definition fsort (l : list (Q * list Q)) : list (Q * list Q) := fold_right finsert [] l.
Definition column_name (pol : string) (f : Q) : string := (pol ++ "_" ++ show f)%string.
Definition polarized (pol : string) (files : option (list F)) : res (list (string * list Q)) :=
  match files with
  | None => Ok []
  | Some [] => Err EException
  | Some l => bind (collect (map read l)) (fun c => Ok (map (fun x => (column_name pol (fst x), snd x)) (fsort c)))
  end.
Definition write_file (nw ne : option (list F)) : res (option (list (string * list Q))) :=
  bind (polarized "NW" nw) (fun a => bind (polarized "NE" ne) (fun b =>
  match a ++ b with [] => Ok None | l => Ok (Some l) end)).
End Files.

(** [_AntennaGain.load_file], nenufar.py 135-178: the polarization and the frequency of each column,
    the maps of the polarization divided by the largest of their values ([None] when it is
    zero). Maps have a pixel at least and no NaN. *)
Definition label (float : string -> option Q) (name : string) : res (string * Q) :=
  match split_on "_" name with
  | [pol; f] => match float f with Some q => Ok (pol, q) | None => Err EValueError end
  | _ => Err EValueError
  end.
Definition qmax (a b : Q) : Q := if Qle_bool a b then b else a.
Definition largest (l : list Q) : Q := match l with [] => 0%Q | x :: r => fold_left qmax r x end.
Definition divided (m v : Q) : option Q := if Qeq_bool m 0 then None else Some (v / m)%Q.
Definition load_file (float : string -> option Q) (file : list (string * list Q)) (pol : string) : res (list (Q * list (option Q))) :=
  bind (collect (map (fun c => label float (fst c)) file)) (fun names =>
  let fields := filter (fun p => String.eqb (fst (fst p)) pol) (combine names (map snd file)) in
  match fields with
  | [] => Err EException
  | _ => let m := largest (flat_map snd fields) in
         Ok (map (fun p => (snd (fst p), map (divided m) (snd p))) fields)
  end).
(** [BarycentricInterpolator]: the polynomial of least degree through the values, of a pixel *)
Fixpoint product (l : list Q) : Q := match l with [] => 1%Q | x :: r => (x * product r)%Q end.
Definition basis (nodes : list Q) (k : nat) (x : Q) : Q :=
  product (map (fun j => if j =? k then 1 else (x - nth j nodes 0) / (nth k nodes 0 - nth j nodes 0))%Q (seq 0 (length nodes))).
Definition lagrange (nodes values : list Q) (x : Q) : Q :=
  fold_right Qplus 0%Q (map (fun k => nth k values 0 * basis nodes k x)%Q (seq 0 (length nodes))).

(** * [ant_pol_to_ref], 278-392 *)
Definition antenna_names : list string :=
  ["Ant01"; "Ant02"; "Ant03"; "Ant04"; "Ant05"; "Ant06"; "Ant07"; "Ant08"; "Ant09"; "Ant10"; "Ant11"; "Ant12"; "Ant13";
   "Ant14"; "Ant15"; "Ant16"; "Ant17"; "Ant18"; "Ant19"]%string.
Inductive polar := NW | NE.
Definition polar_of (s : string) : option polar :=
  if String.eqb s "NW" then Some NW else if String.eqb s "NE" then Some NE else None.
Definition scalar (p : polar) (v : Z * Z) : Z := match p with NW => (- fst v + snd v)%Z | NE => (fst v + snd v)%Z end.
(** 324-330 *)
Definition references : list (Z * list string) :=
  [(88, ["Ant01"; "Ant02"; "Ant03"; "Ant05"]); (91, ["Ant02"; "Ant08"; "Ant09"]); (93, ["Ant01"; "Ant02"; "Ant05"; "Ant10"]);
   (94, ["Ant02"; "Ant06"]); (95, ["Ant01"; "Ant02"; "Ant05"; "Ant10"])]%string%Z.
Record dipole := mkDipole { p_ma : Z; p_polar : polar; p_antenna : string }.
Definition candidates : list dipole :=
  flat_map (fun m => flat_map (fun p => map (mkDipole (fst m) p) (snd m)) [NW; NE]) references.
Fixpoint index_of (s : string) (l : list string) : option nat :=
  match l with [] => None | x :: r => if String.eqb x s then Some 0 else option_map S (index_of s r) end.
(** [np.sort] *)
Fixpoint insert (x : Z) (l : list Z) : list Z := match l with [] => [x] | y :: r => if (x <=? y)%Z then x :: l else y :: insert x r end.
Definition sort (l : list Z) : list Z := fold_right insert [] l.
Section Positions.
(** [known]: the Mini-Arrays of the file, [pos] their antennas after the rotation; [tol] is the
    absolute tolerance of [np.isclose], 1e-8, times 1e5, in the unit of the positions. *)
Variable known : Z -> bool.
Variable pos : Z -> list (Z * Z).
Variable tol : Z.
Definition isclose (a b : Z) : bool := (100000 * Z.abs (a - b) <=? tol + Z.abs b)%Z.
Definition all_close (a b : list Z) : bool := forallb (fun p => isclose (fst p) (snd p)) (combine a b).
Definition scalars (ma : Z) (p : polar) (i : nat) : list Z :=
  let o := nth i (pos ma) (0, 0)%Z in map (fun v => scalar p (fst v - fst o, snd v - snd o)%Z) (pos ma).
Definition equivalent (desired reference : list Z) : bool :=
  all_close (sort desired) (sort reference) || all_close (sort desired) (sort (map Z.opp reference)).
Definition ant_pol_to_ref (ma : Z) (antenna : string) (polarization : string) : res (list dipole) :=
  match polar_of polarization with
  | None => Err EValueError                                                           (* 336-337 *)
  | Some p =>
    if negb (known ma) then Err EKeyError                                             (* 343 *)
    else match index_of antenna antenna_names with
         | None => Err EValueError                                                    (* 360-361 *)
         | Some i =>
           Ok (filter (fun d => match index_of (p_antenna d) antenna_names with
                                | Some k => equivalent (scalars ma p i) (scalars (p_ma d) (p_polar d) k)
                                | None => false
                                end) candidates)
         end
  end.

(** The file read by [_AntennaGain.__init__], nenufar.py 77-97, and the polarization of the columns
    read: the default file, one given by its name, or the model of a reference antenna. *)
Inductive source := Default | Named (f : string) | Reference (ma : Z) (antenna : string).
Definition antenna_gain (polarization : string) (antenna : option string) (ma : option Z) (filename : option string) : res (source * string) :=
  bind (match antenna, ma with
        | Some a, Some m => bind (ant_pol_to_ref m a polarization) (fun l =>
                              match l with [] => Err EIndexError | d :: _ => Ok (Reference (p_ma d) (p_antenna d)) end)
        | _, _ => Ok Default
        end) (fun s =>
  Ok (match filename with Some f => Named f | None => s end, polarization)).
End Positions.

(** * [lofar_instrument_temperature], instrument_tools.py 386-431: frequencies in MHz of an array,
    flattened (a scalar is an array of one value, that a boolean indexes as well); [empty] is
    the content of [np.empty]; [None] is NaN. *)
Fixpoint horner (c : list Q) (acc x : Q) : Q := match c with [] => acc | a :: r => horner r (acc * x + a)%Q x end.
Definition lba : list Q :=
  [62699888333 # 1000000000000000; (-19932340239) # 1000000000000; 260625093843 # 100000000000; (-179560314268) # 1000000000;
   689014953844 # 100000000; (-140196209123) # 1000000; 118984207708 # 100000]%Q.
Definition hba : list Q :=
  [664031379234 # 10000000000000000000; (-627815750717) # 10000000000000000; 246844426766 # 10000000000000; (-516281033712) # 100000000000;
   605474082663 # 1000000000; (-377303913315) # 10000000; 975867990312 # 1000000]%Q.
Definition assign (mask : Q -> bool) (v : Q -> option Q) (l : list Q) (t : list (option Q)) : list (option Q) :=
  map (fun p => if mask (fst p) then v (fst p) else snd p) (combine l t).
Definition lofar_instrument_temperature (l : list Q) (empty : list (option Q)) : list (option Q) :=
  let lba_mask f := Qle_bool f 90 in
  let hba_mask f := Qle_bool 110 f in
  let t := assign lba_mask (fun f => Some (horner lba 0 f)) l empty in
  let t := assign hba_mask (fun f => Some (horner hba 0 f)) l t in
  assign (fun f => negb (lba_mask f || hba_mask f)) (fun _ => None) l t.
