(** Model of pointings: intervals, selection at given times and constructors
    (nenupy/astro/pointing.py 101-198, 255-282, 386-446, 490-590, 646-762, 820-862).
    Times are seconds as rationals. Equatorial coordinates [C] and horizontal
    coordinates [H] are of any type, conversions between them are parameters. *)
From Coq Require Import ZArith QArith Qround Bool List Arith.
From Verif Require Import Base M_Analog.
Import ListNotations.
Open Scope nat_scope.
Open Scope list_scope.

Inductive coordinates (C : Type) := One (c : C) | Many (l : list C).
Arguments One {C}. Arguments Many {C}.
(** A pointing. [pt_custom] is [custom_ho_coordinates] if set, with one dimension; shape
    (1, 1) is that of one element. *)
Record pt (C H : Type) := mkPt { pt_coords : coordinates C; pt_times : list Q; pt_durs : list Q; pt_custom : option (list H) }.
Arguments mkPt {C H}. Arguments pt_coords {C H}. Arguments pt_times {C H}. Arguments pt_durs {C H}. Arguments pt_custom {C H}.

(** 101-110, 237-241, 259-274: a scalar time is a list of one; without duration it is one
    second. *)
Definition new_pointing {C H} (c : coordinates C) (times : list Q) (dur : option (list Q)) (custom : option (list H)) : res (pt C H) :=
  match dur with
  | None => Ok (mkPt c times [1%Q] custom)
  | Some d => if negb (length d =? 1) && negb (length d =? length times) then Err EIndexError
              else Ok (mkPt c times d custom)
  end.

(** 120-121: [time + duration], one duration is that of all. *)
Definition durations {C H} (p : pt C H) : list Q :=
  match pt_durs p with [d] => repeat d (length (pt_times p)) | l => l end.
Definition Qltb (a b : Q) : bool := negb (Qle_bool b a).
(** 144 *)
Definition mask {C H} (p : pt C H) (t : Q) : list bool :=
  map (fun sd => Qle_bool (fst sd) t && Qltb t (fst sd + snd sd)) (combine (pt_times p) (durations p)).
(** [a[mask][-1]] where some element is selected; a list of another length raises. *)
Fixpoint last_true {A} (m : list bool) (l : list A) : option A :=
  match m, l with
  | b :: m, x :: l => match last_true m l with Some y => Some y | None => if b then Some x else None end
  | _, _ => None
  end.
Definition pick_last {A} (m : list bool) (l : list A) : res A :=
  if length l =? length m then match last_true m l with Some x => Ok x | None => Err EIndexError end else Err EIndexError.

(** 142-179 for one time. [zen t] is the zenith at [t], [up] is (0, 90). *)
Definition at_time {C H} (zen : Q -> C) (up : H) (p : pt C H) (t : Q) : res (C * option H) :=
  let m := mask p t in
  if forallb negb m then Ok (zen t, option_map (fun _ => up) (pt_custom p))         (* 145-163 *)
  else
    let cs := match pt_coords p with One c => repeat c (length (pt_times p)) | Many l => l end in  (* 126-134 *)
    bind (pick_last m cs) (fun c =>                                                 (* 166-167 *)
    match pt_custom p with
    | None => Ok (c, None)
    | Some [h] => Ok (c, Some h)                                                    (* 169-176 *)
    | Some hs => bind (pick_last m hs) (fun h => Ok (c, Some h))                    (* 178-179 *)
    end).
Fixpoint all_times {A} (f : Q -> res A) (ts : list Q) : res (list A) :=
  match ts with [] => Ok [] | t :: r => bind (f t) (fun x => bind (all_times f r) (fun l => Ok (x :: l))) end.
(** 117-200: the duration of what is returned is not given. *)
Definition getitem {C H} (zen : Q -> C) (up : H) (p : pt C H) (ts : list Q) : res (pt C H) :=
  bind (all_times (at_time zen up p) ts) (fun l =>
  new_pointing (Many (map fst l)) ts None
    (match pt_custom p with None => None | Some _ => Some (flat_map (fun x => match snd x with Some h => [h] | None => [] end) l) end)).

(** * Pointing files *)
(** A line: time, beam and horizontal coordinates as read. *)
Definition line (H : Type) := (Q * Z * H)%type.
Definition of_beam {H} (b : Z) (lines : list (line H)) : list (Q * H) :=
  map (fun x => (fst (fst x), snd x)) (filter (fun x => Z.eqb (snd (fst x)) b) lines).
Fixpoint diffs (l : list Q) : list Q :=
  match l with a :: ((b :: _) as r) => (b - a)%Q :: diffs r | _ => [] end.
(** Files in altazA, 526-553: the last line only ends the one before; a single line lasts
    one second. *)
Definition from_altaz_a {C H} (radec : Q -> H -> C) (b : Z) (lines : list (line H)) : res (pt C H) :=
  match of_beam b lines with
  | [] => Err EValueError                                                       (* 526-530 *)
  | [(t, h)] => new_pointing (Many [radec t h]) [t] (Some [((t + 1) - t)%Q]) (Some [h])
  | l => let kept := removelast l in
         new_pointing (Many (map (fun x => radec (fst x) (snd x)) kept)) (map fst kept) (Some (diffs (map fst l))) (Some (map snd kept))
  end.
(** [duration.insert(-1, d)]: before the last element; raises on nothing. *)
Definition insert_before_last (d : Q) (l : list Q) : res (list Q) :=
  match l with [] => Err EIndexError | _ => Ok (removelast l ++ [d; last l 0%Q]) end.
(** Files in altazB, 554-582. *)
Definition from_altaz_b {C H} (radec : Q -> H -> C) (b : Z) (lines : list (line H)) : res (pt C H) :=
  match of_beam b lines with
  | [] => Err EValueError
  | l => bind (insert_before_last 10 (diffs (map fst l))) (fun d =>
         new_pointing (Many (map (fun x => radec (fst x) (snd x)) l)) (map fst l) (Some d) (Some (map snd l)))
  end.
(** 497-592, by the end of the name; with another one nothing was read when the
    coordinates are used. Which of the three layouts an altazA file has is not modelled. *)
Inductive extension := AltazA | AltazB | Other.
Definition from_file {C H} (radec : Q -> H -> C) (e : extension) (b : Z) (lines : list (line H)) : res (pt C H) :=
  match e with AltazA => from_altaz_a radec b lines | AltazB => from_altaz_b radec b lines | Other => Err EUnboundLocalError end.

(** * Pointings of a BST file *)
(** [np.linspace(a, b, n)] *)
Definition linspace (a b : Q) (n : nat) : list Q :=
  map (fun i => (a + inject_Z (Z.of_nat i) * ((b - a) / inject_Z (Z.of_nat (n - 1))))%Q) (seq 0 n).
Fixpoint mapr {A B} (f : A -> res B) (l : list A) : res (list B) :=
  match l with [] => Ok [] | x :: r => bind (f x) (fun y => bind (mapr f r) (fun m => Ok (y :: m))) end.
(** 414-443; [recs] are the times, azimuths and elevations of the beam, [last_time] the
    last time of the data. *)
Definition from_bst {C} (radec : Q -> Q * Q -> C) (max_points : nat) (last_time : Q) (recs : list (Q * (Q * Q))) : res (pt C (Q * Q)) :=
  bind (match recs with
        | [(t, h)] => Ok [(t, h); (last_time, (0%Q, 90%Q))]                           (* 421-425 *)
        | _ => if max_points <? length recs then                                      (* 426-431 *)
                 let ts := map fst recs in
                 let grid := linspace (hd 0%Q ts) (last ts 0%Q) max_points in
                 bind (mapr (fun t => interp t (combine ts (map (fun r => fst (snd r)) recs))) grid) (fun az =>
                 bind (mapr (fun t => interp t (combine ts (map (fun r => snd (snd r)) recs))) grid) (fun el =>
                 Ok (combine grid (combine az el))))
               else Ok recs
        end) (fun l =>
  let kept := removelast l in                                                         (* 433-444 *)
  new_pointing (Many (map (fun x => radec (fst x) (snd x)) kept)) (map fst kept) (Some (diffs (map fst l))) (Some (map snd kept))).

(** * Transits and drift scans *)
(** 741-746: number of steps and start times around the transit. *)
Definition transit_steps (duration dt : Q) : Z :=
  let n := Qfloor (duration / dt) in if Z.even n then (n + 1)%Z else n.
Definition transit_times (transit duration dt : Q) : list Q :=
  let n := transit_steps duration dt in
  map (fun i => (transit + (inject_Z (Z.of_nat i) - inject_Z (n - 1) / 2) * dt)%Q) (seq 0 (Z.to_nat n)).
(** 728-762: the first of the transits found. *)
Definition target_transit {C H} (radec : Q -> H -> C) (altaz : Q -> H) (transits : list Q) (duration dt : Q) : res (pt C H) :=
  match transits with
  | [] => Err EValueError
  | t :: _ => let h := altaz t in
              let times := transit_times t duration dt in
              new_pointing (Many (map (fun s => radec s h) times)) times (Some [dt]) (Some [h])
  end.
(** 838-862, list of times. *)
Definition driftscan {C H} (radec : Q -> H -> C) (times : list Q) (h : H) (dur : option (list Q)) : res (pt C H) :=
  new_pointing (Many (map (fun t => radec t h) times)) times dur (Some (map (fun _ => h) times)).
