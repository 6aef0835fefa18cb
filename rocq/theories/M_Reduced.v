(** Model of the HDF5 files of reduced spectra: [store_dask_tf_data], nenupy/io/tf_utils.py 2283-2480,
    [ReducedSpectraSlice], 3022-3055, and [ReducedSpectra], 3194-3214 and 3282-3376.
    Times are Julian days, frequencies are in MHz, numbers are rational. The texts of dates (the
    attributes _TAI and _UTC), chunks, types and scales are not modelled. A unit is the MHz it is
    worth; FileNotFoundError and FileExistsError are [EException]. The groups of h5py are sorted by
    name when their keys are read. *)
From Coq Require Import Ascii String List Arith ZArith QArith Bool.
From Verif Require Import Base M_Nd M_PText.
From Verif Require M_Pipeline M_Bst M_Parset.
Import ListNotations.
Open Scope nat_scope.
Open Scope list_scope.

Notation get_key := (M_Parset.dict_get String.eqb).
Notation set_key := (M_Parset.dict_set String.eqb).

(** [f"{z:03}"] *)
Fixpoint zeros (k : nat) : string := match k with 0 => EmptyString | S k => String "0" (zeros k) end.
Definition pad (w : nat) (s : string) : string := (zeros (w - String.length s) ++ s)%string.
Definition fmt03 (z : Z) : string := if (z <? 0)%Z then String "-" (pad 2 (show_int (- z))) else pad 3 (show_int z).
Definition beam_name (z : Z) : string := ("BEAM_" ++ fmt03 z)%string.
Definition sap_name (z : Z) : string := ("SUB_ARRAY_POINTING_" ++ fmt03 z)%string.

Inductive attr := ANum (q : Q) | AText (s : string).
(** Polarizations: a list of names; a text, of which every character is an item; [None]. *)
Inductive pols := PList (l : list string) | PText (s : string) | PNone.

Section Reduced.
Variable A : Type.
(** [u.Unit]: [None] for an unknown unit, [Some None] if it is not a frequency *)
Variable unit_of : string -> option (option Q).

(** An object in a group: a data set or a group *)
Inductive node := Dset (d : nd A) | Group (g : list (string * node)).
Record beam := mkBeam {
  b_attrs : list (string * attr);
  b_coords : option (list Q * list Q * string);
  b_sets : list (string * node) }.
(** [h_sap]: the only group of the file, "SUB_ARRAY_POINTING_000" *)
Record h5 := mkH5 { h_attrs : list (string * attr); h_sap : option (list (string * beam)) }.
Definition empty_file : h5 := mkH5 [] None.
Definition empty_beam : beam := mkBeam [] None [].

Record args := mkArgs {
  a_name : string; a_data : nd A; a_time : list Q; a_freq : list Q; a_pols : pols;
  a_beam : Z; a_unit : string; a_mode : string; a_meta : list (string * attr) }.

(** ** Writing *)
(** [create_dataset(name)] with h5py: the parents are required groups, then the last name must be
    new. Names starting with a slash, which h5py takes from the root, are not modelled. *)
Fixpoint put (path : list string) (d : nd A) (g : list (string * node)) : res (list (string * node)) :=
  match path with
  | [] => Err EValueError
  | n :: r =>
    match r with
    | [] => match get_key n g with None => Ok (g ++ [(n, Dset d)]) | Some _ => Err EValueError end
    | _ => match get_key n g with
           | None => bind (put r d []) (fun g' => Ok (g ++ [(n, Group g')]))
           | Some (Group g') => bind (put r d g') (fun g' => Ok (set_key n (Group g') g))
           | Some (Dset _) => Err ETypeError
           end
    end
  end.
Definition path_of (name : string) : list string := filter (fun s => negb (String.eqb s "")) (split_char "/" name).
(** The group "COORDINATES" is apart: a name in it is refused here. *)
Definition create_dataset (name : string) (d : nd A) (b : beam) : res beam :=
  match path_of name with
  | n :: _ => if String.eqb n "COORDINATES" then Err EValueError
              else bind (put (path_of name) d (b_sets b)) (fun g => Ok (mkBeam (b_attrs b) (b_coords b) g))
  | [] => Err EValueError
  end.
(** [polarization[pi]] *)
Definition pol_at (p : pols) (k : nat) : res string :=
  match p with
  | PList l => match nth_error l k with Some s => Ok s | None => Err EIndexError end
  | PText s => match String.get k s with Some c => Ok (String c EmptyString) | None => Err EIndexError end
  | PNone => Err ETypeError
  end.
(** 2459, 2465: the data with one axis of polarizations, and the data of one of them. With less
    than two axes, or no cell, an error is raised. *)
Definition flatten (d : nd A) : res (list nat * nat) :=
  match sh d with
  | nt :: nf :: r => if nt * nf =? 0 then Err EValueError else Ok (r, size r)
  | _ => Err EIndexError
  end.
Definition plane (d : nd A) (r : list nat) (p : nat) : nd A :=
  mkNd (firstn 2 (sh d)) (fun idx => get d (nth 0 idx 0 :: nth 1 idx 0 :: unravel r p)).
(** 2461-2478 *)
Fixpoint write_sets (d : nd A) (r : list nat) (p : pols) (ks : list nat) (b : beam) : beam * option err :=
  match ks with
  | [] => (b, None)
  | k :: ks =>
    match bind (pol_at p k) (fun n => create_dataset (M_Bst.upper n) (plane d r k) b) with
    | Err e => (b, Some e)
    | Ok b => write_sets d r p ks b
    end
  end.
Definition mjd (jd : Q) : Q := (jd - (4800001 # 2))%Q.
Definition qmin (x : Q) (l : list Q) : Q := fold_left (fun m y => if Qle_bool m y then m else y) l x.
Definition qmax (x : Q) (l : list Q) : Q := fold_left (fun m y => if Qle_bool y m then m else y) l x.
(** 2439-2478, on a new group. [k] is [None] if the unit is not a frequency. *)
Definition fill_beam (a : args) (k : option Q) (f0 : Q) (fs : list Q) : beam * option err :=
  match a_time a with
  | [] => (empty_beam, Some EIndexError)
  | t0 :: ts =>
    let times := [("TIME_START_MJD"%string, ANum (mjd t0)); ("TIME_END_MJD"%string, ANum (mjd (last ts t0)))] in
    match k with
    | None => (mkBeam times None [], Some EValueError)
    | Some k =>
      let b := mkBeam (times ++ [("FREQUENCY_MIN"%string, ANum (qmin f0 fs / k)%Q); ("FREQUENCY_MAX"%string, ANum (qmax f0 fs / k)%Q); ("FREQUENCY_UNIT"%string, AText (a_unit a))])
                      (Some (a_time a, map (fun f => f / k)%Q (a_freq a), a_unit a)) [] in
      match flatten (a_data a) with
      | Err e => (b, Some e)
      | Ok (r, n) => write_sets (a_data a) r (a_pols a) (seq 0 n) b
      end
    end
  end.
(** 2404-2427: the attributes of a new file, and the error that stops them *)
Definition root_attrs (a : args) (k : option Q) (f0 : Q) (fs : list Q) : list (string * attr) * option err :=
  let l := set_key "FILENAME"%string (AText (a_name a)) (set_key "SOFTWARE_MAINTAINER"%string (AText "alan.loh@obspm.fr") (set_key "SOFTWARE_NAME"%string (AText "nenupy") (a_meta a))) in
  match a_time a with
  | [] => (l, Some EIndexError)
  | t0 :: ts =>
    let t1 := last ts t0 in
    let l := set_key "TOTAL_INTEGRATION_TIME"%string (ANum ((t1 - t0) * 86400)%Q) (set_key "OBSERVATION_END_MJD"%string (ANum (mjd t1)) (set_key "OBSERVATION_START_MJD"%string (ANum (mjd t0)) l)) in
    match k with
    | None => (l, Some EValueError)
    | Some k =>
      let lo := qmin f0 fs in let hi := qmax f0 fs in
      (set_key "OBSERVATION_FREQUENCY_UNIT"%string (AText (a_unit a)) (set_key "OBSERVATION_FREQUENCY_CENTER"%string (ANum ((hi + lo) / 2 / k)%Q)
        (set_key "OBSERVATION_FREQUENCY_MAX"%string (ANum (hi / k)%Q) (set_key "OBSERVATION_FREQUENCY_MIN"%string (ANum (lo / k)%Q) l))), None)
    end
  end.
Definition new_beam (a : args) (k : option Q) (f0 : Q) (fs : list Q) (at_ : list (string * attr)) (bs : list (string * beam)) : h5 * option err :=
  let '(b, e) := fill_beam a k f0 fs in (mkH5 at_ (Some (bs ++ [(beam_name (a_beam a), b)])), e).
(** [file_name.lower().endswith(".hdf5")] *)
Definition is_hdf5 (name : string) : bool :=
  let n := String.length name in (5 <=? n) && String.eqb (M_Pipeline.lower (substring (n - 5) 5 name)) ".hdf5".
(** 2383-2393: [s] is the file, if it exists. *)
Definition mode_of (m : string) (s : option h5) : string :=
  if String.eqb (M_Pipeline.lower m) "auto" then match s with Some _ => "a"%string | None => "w"%string end else m.
(** [h5py.File(file_name, mode)] *)
Definition open_file (m : string) (s : option h5) : res h5 :=
  if String.eqb m "w" then Ok empty_file
  else if String.eqb m "a" then Ok (match s with Some h => h | None => empty_file end)
  else if String.eqb m "r" || String.eqb m "r+" then match s with Some h => Ok h | None => Err EException end
  else if String.eqb m "x" || String.eqb m "w-" then match s with Some _ => Err EException | None => Ok empty_file end
  else Err EValueError.
Definition store (a : args) (s : option h5) : option h5 * option err :=
  if negb (is_hdf5 (a_name a)) then (s, Some EValueError)
  else
    let m := mode_of (a_mode a) s in
    match unit_of (a_unit a), a_freq a with
    | None, _ | _, [] => (s, Some EValueError)
    | Some k, f0 :: fs =>
      match open_file m s with
      | Err e => (s, Some e)
      | Ok h =>
        let '(h, e) :=
          if String.eqb m "w" then
            match root_attrs a k f0 fs with
            | (l, Some e) => (mkH5 l None, Some e)
            | (l, None) => new_beam a k f0 fs l []
            end
          else if String.eqb m "a" then
            match h_sap h with
            | None => (h, Some EKeyError)
            | Some bs => match get_key (beam_name (a_beam a)) bs with
                         | Some _ => (h, Some EException)
                         | None => new_beam a k f0 fs (h_attrs h) bs
                         end
            end
          else (h, Some EKeyError) in
        (Some h, e)
      end
    end.

(** ** Reading *)
Fixpoint insert (s : string) (l : list string) : list string :=
  match l with [] => [s] | x :: r => if String.leb s x then s :: l else x :: insert s r end.
Definition sort (l : list string) : list string := fold_right insert [] l.
(** [available_keys.remove("COORDINATES")], 3310; the keys are sorted without it here. *)
Definition available (b : beam) : res (list string) :=
  match b_coords b with Some _ => Ok (sort (map fst (b_sets b))) | None => Err EValueError end.
(** [np.stack(..., axis=-1)]. A group among the data sets is an error here; with nothing but groups,
    numpy would stack their keys. *)
Fixpoint planes (b : beam) (l : list string) : res (list (nd A)) :=
  match l with
  | [] => Ok []
  | n :: r => match get_key n (b_sets b) with
              | Some (Dset d) => bind (planes b r) (fun q => Ok (d :: q))
              | Some (Group _) => Err EValueError
              | None => Err EKeyError
              end
  end.
Definition stack (l : list (nd A)) : res (nd A) :=
  match l with
  | [] => Err EValueError
  | d :: r => if forallb (fun x => if list_eq_dec Nat.eq_dec (sh x) (sh d) then true else false) r
              then Ok (mkNd (sh d ++ [length l]) (fun idx => get (nth (last idx 0) l d) (removelast idx)))
              else Err EValueError
  end.
(** 3282-3331 and 3362-3376 *)
Definition read (h : h5) (key : option string) (sap b : Z) : res (list Q * list Q * list string * nd A) :=
  match (if String.eqb (sap_name sap) "SUB_ARRAY_POINTING_000" then h_sap h else None) with
  | None => Err EKeyError
  | Some bs =>
    match get_key (beam_name b) bs with
    | None => Err EKeyError
    | Some b =>
      bind (available b) (fun keys =>
      bind (match key with
            | None => Ok keys
            | Some k => if existsb (String.eqb k) keys then Ok [k] else Err EKeyError
            end) (fun pol =>
      match b_coords b with
      | None => Err EKeyError
      | Some (t, f, u) =>
        match unit_of u with
        | Some (Some k) => bind (planes b pol) (fun l => bind (stack l) (fun d => Ok (t, map (fun x => x * k)%Q f, pol, d)))
        | _ => Err EValueError
        end
      end))
    end
  end.

(** ** Slices, 3022-3055 *)
Record part := mkPart { z_time : list Q; z_freq : list Q; z_pol : list string; z_data : nd A }.
Definition make_part (t f : list Q) (p : list string) (d : nd A) : res part :=
  if (length t =? 0) || (length f =? 0) || (length p =? 0) then Err EIndexError
  else bind (reshape [length t; length f; length p] d) (fun d => Ok (mkPart t f p d)).
(** [ReducedSpectra.__getitem__] *)
Definition open_beam (h : h5) (ids : list Z) : res part :=
  match ids with
  | [sap; b] => bind (read h None sap b) (fun '(t, f, p, d) => make_part t f p d)
  | _ => Err EIndexError
  end.
(** An integer, a slice without step, an ellipsis *)
Inductive index := IInt (z : Z) | ISlice (a b : option Z) | IEllipsis.
Definition positions (n : nat) (i : index) : res (list nat) :=
  match i with
  | IInt z => if (- Z.of_nat n <=? z)%Z && (z <? Z.of_nat n)%Z then Ok [Z.to_nat (z mod Z.of_nat n)] else Err EIndexError
  | ISlice a b => let lo := match a with None => 0 | Some a => slice_bound n a end in
                  let hi := match b with None => n | Some b => slice_bound n b end in Ok (seq lo (hi - lo))
  | IEllipsis => Ok (seq 0 n)
  end.
Definition is_ellipsis (i : index) : bool := match i with IEllipsis => true | _ => false end.
Definition pick {B} (d : B) (l : list B) (ps : list nat) : list B := map (fun i => nth i l d) ps.
Definition slice_part (z : part) (l : list index) : res part :=
  match l with
  | [] => Err EIndexError
  | ti :: r =>
    if 3 <? length l then Err EIndexError
    else
      let fi := nth 0 r (ISlice None None) in let pi := nth 1 r (ISlice None None) in
      bind (positions (length (z_time z)) ti) (fun ts => bind (positions (length (z_freq z)) fi) (fun fs => bind (positions (length (z_pol z)) pi) (fun ps =>
      if 1 <? length (filter is_ellipsis [ti; fi; pi]) then Err EIndexError
      else make_part (pick 0%Q (z_time z) ts) (pick 0%Q (z_freq z) fs) (pick EmptyString (z_pol z) ps)
             (mkNd [length ts; length fs; length ps] (fun idx => get (z_data z) [nth (nth 0 idx 0) ts 0; nth (nth 1 idx 0) fs 0; nth (nth 2 idx 0) ps 0])))))
  end.
End Reduced.
