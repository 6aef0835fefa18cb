(** Model of the reader of UnDySPuTeD lanes: nenupy/undysputed/dynspec.py 533-1104
    ([Dynspec]: lanes and settings) and 1528-1575 ([_select_data]).  Times are numbers
    of seconds and frequencies numbers of hertz, exact.  Log messages, the
    DreamBeam inputs and the rotation measure are not modelled. *)
From Coq Require Import String List Arith ZArith QArith Qabs Bool.
From Verif Require Import Base M_Nd M_Pipeline M_TFArray M_Select M_Lane.
Import ListNotations.
Open Scope nat_scope.

(** A Python value given to a setting.  [AQuantity] is a quantity of the expected
    kind, in seconds, hertz or pc/cm3; [AText s t] is a string and the time it
    reads as, if any. *)
Inductive arg :=
| ANone
| ABool (b : bool)
| AInt (z : Z)
| AFloat (q : Q)
| AText (s : string) (t : option Q)
| AQuantity (q : Q)
| ATime (t : Q)
| AList (l : list arg)
| AOther.

Record dynspec (A : Type) := mkDs {
  d_lanes : list (lane A); d_files : list string;
  d_time_range : option (Q * Q); d_freq_range : option (Q * Q);   (* hasattr(self, "_time_range") *)
  d_beam : Z; d_dm : option Q; d_rebin_dt : option Q; d_rebin_df : option Q;
  d_jump : bool; d_bp : string; d_edge : Z; d_rfi : Q }.
Arguments mkDs {A}. Arguments d_lanes {A}. Arguments d_files {A}. Arguments d_time_range {A}. Arguments d_freq_range {A}.
Arguments d_beam {A}. Arguments d_dm {A}. Arguments d_rebin_dt {A}. Arguments d_rebin_df {A}. Arguments d_jump {A}.
Arguments d_bp {A}. Arguments d_edge {A}. Arguments d_rfi {A}.

Section Read.
Context {A : Type}.
(** [_Lane(name)]: an existing file with a right name and content, or an exception. *)
Variable read : string -> res (lane A).

(** ** Properties of the observation: 994-1104 *)
Fixpoint all_ok {X} (l : list (res X)) : res (list X) :=
  match l with
  | [] => Ok []
  | x :: r => bind x (fun a => bind (all_ok r) (fun t => Ok (a :: t)))
  end.
Definition obs_tmin (lanes : list (lane A)) : res Q := bind (all_ok (map tmin lanes)) qmin_list.
Definition obs_tmax (lanes : list (lane A)) : res Q := bind (all_ok (map tmax lanes)) qmax_list.
Definition obs_fmin (lanes : list (lane A)) : res Q := qmin_list (map l_fmin lanes).
Definition obs_fmax (lanes : list (lane A)) : res Q := qmax_list (map l_fmax lanes).
Definition obs_dt (lanes : list (lane A)) : res Q :=
  match lanes with [] => Err EIndexError | l :: _ => Ok (l_dt l) end.
Definition obs_df (lanes : list (lane A)) : res Q :=
  match lanes with [] => Err EIndexError | l :: _ => Ok (l_df l) end.
Definition obs_nchan (lanes : list (lane A)) : res nat :=
  match lanes with [] => Err EIndexError | l :: _ => Ok (l_nchan l) end.
(** 1090-1104 *)
Definition obs_beams (lanes : list (lane A)) : list Z := unique (concat (map (fun l => map fst (l_beams l)) lanes)).

(** ** The files: 596-622.  The lanes read before a refused file stay. *)
Fixpoint add_lanes (lanes : list (lane A)) (names : list string) : list (lane A) * option err :=
  match names with
  | [] => (lanes, None)
  | n :: r => match read n with
              | Ok l => add_lanes (lanes ++ [l]) r
              | Err e => (lanes, Some e)
              end
  end.

Inductive setting := SFiles | STimeRange | SFreqRange | SBeam | SDm | SRebinDt | SRebinDf | SJump | SBp | SEdge | SRfi.

Definition set_files (d : dynspec A) (names : list string) : dynspec A * option err :=
  match add_lanes (d_lanes d) names with
  | (ls, None) => (mkDs ls names (d_time_range d) (d_freq_range d) (d_beam d) (d_dm d) (d_rebin_dt d) (d_rebin_df d)
                     (d_jump d) (d_bp d) (d_edge d) (d_rfi d), None)
  | (ls, Some e) => (mkDs ls (d_files d) (d_time_range d) (d_freq_range d) (d_beam d) (d_dm d) (d_rebin_dt d) (d_rebin_df d)
                     (d_jump d) (d_bp d) (d_edge d) (d_rfi d), Some e)
  end.
Definition with_time (d : dynspec A) x := mkDs (d_lanes d) (d_files d) x (d_freq_range d) (d_beam d) (d_dm d) (d_rebin_dt d) (d_rebin_df d) (d_jump d) (d_bp d) (d_edge d) (d_rfi d).
Definition with_freq (d : dynspec A) x := mkDs (d_lanes d) (d_files d) (d_time_range d) x (d_beam d) (d_dm d) (d_rebin_dt d) (d_rebin_df d) (d_jump d) (d_bp d) (d_edge d) (d_rfi d).
Definition with_beam (d : dynspec A) x := mkDs (d_lanes d) (d_files d) (d_time_range d) (d_freq_range d) x (d_dm d) (d_rebin_dt d) (d_rebin_df d) (d_jump d) (d_bp d) (d_edge d) (d_rfi d).
Definition with_dm (d : dynspec A) x := mkDs (d_lanes d) (d_files d) (d_time_range d) (d_freq_range d) (d_beam d) x (d_rebin_dt d) (d_rebin_df d) (d_jump d) (d_bp d) (d_edge d) (d_rfi d).
Definition with_rdt (d : dynspec A) x := mkDs (d_lanes d) (d_files d) (d_time_range d) (d_freq_range d) (d_beam d) (d_dm d) x (d_rebin_df d) (d_jump d) (d_bp d) (d_edge d) (d_rfi d).
Definition with_rdf (d : dynspec A) x := mkDs (d_lanes d) (d_files d) (d_time_range d) (d_freq_range d) (d_beam d) (d_dm d) (d_rebin_dt d) x (d_jump d) (d_bp d) (d_edge d) (d_rfi d).
Definition with_jump (d : dynspec A) x := mkDs (d_lanes d) (d_files d) (d_time_range d) (d_freq_range d) (d_beam d) (d_dm d) (d_rebin_dt d) (d_rebin_df d) x (d_bp d) (d_edge d) (d_rfi d).
Definition with_bp (d : dynspec A) x := mkDs (d_lanes d) (d_files d) (d_time_range d) (d_freq_range d) (d_beam d) (d_dm d) (d_rebin_dt d) (d_rebin_df d) (d_jump d) x (d_edge d) (d_rfi d).
Definition with_edge (d : dynspec A) x := mkDs (d_lanes d) (d_files d) (d_time_range d) (d_freq_range d) (d_beam d) (d_dm d) (d_rebin_dt d) (d_rebin_df d) (d_jump d) (d_bp d) x (d_rfi d).
Definition with_rfi (d : dynspec A) x := mkDs (d_lanes d) (d_files d) (d_time_range d) (d_freq_range d) (d_beam d) (d_dm d) (d_rebin_dt d) (d_rebin_df d) (d_jump d) (d_bp d) (d_edge d) x.

(** ** Time range: 640-656

    [Time(x)] of a string which does not read as a time, or of a number, is a ValueError. *)
Definition as_time (a : arg) : res Q :=
  match a with
  | ATime t => Ok t
  | AText _ (Some t) => Ok t
  | _ => Err EValueError
  end.
Definition qge (a b : Q) : bool := Qle_bool b a.
Definition new_time_range (lanes : list (lane A)) (a : arg) : res (Q * Q) :=
  match a with
  | AList [x; y] =>
      bind (as_time x) (fun t0 => bind (as_time y) (fun t1 =>
      if qge t0 t1 then Err EValueError                                  (* 648-649 *)
      else bind (obs_tmin lanes) (fun a0 => if negb (Qle_bool a0 t1) then Ok (t0, t1) (* 651: or *)
           else bind (obs_tmax lanes) (fun _ => Ok (t0, t1)))))
  | AList _ => Err EValueError                                           (* 644-645 *)
  | _ => Err ETypeError                                                  (* 642-643 *)
  end.

(** ** Frequency range: 675-690

    Numbers are megahertz; a quantity beside a number is multiplied by a unit too,
    and the comparison is refused (UnitConversionError, a TypeError). *)
Definition number (a : arg) : option Q :=
  match a with
  | ABool b => Some (if b then 1 else 0)%Q
  | AInt z => Some (inject_Z z)
  | AFloat q => Some q
  | _ => None
  end.
Definition new_freq_range (a : arg) : res (Q * Q) :=
  match a with
  | AList [x; y] =>
      bind (match x, y with
            | AQuantity f, AQuantity g => Ok (f, g)
            | _, _ => match number x, number y with
                      | Some f, Some g => Ok (f * 1000000, g * 1000000)%Q
                      | _, _ => Err ETypeError
                      end
            end) (fun fg => if qge (fst fg) (snd fg) then Err EValueError else Ok fg)
  | AList _ => Err EValueError
  | _ => Err ETypeError
  end.

(** ** Beam: 704-716.  A bool, which is an integer, is not modelled. *)
Definition new_beam (lanes : list (lane A)) (a : arg) : res Z :=
  match a with
  | AInt z =>
      if existsb (Z.eqb z) (obs_beams lanes) then Ok z
      else match obs_beams lanes with
           | [] => Err EIndexError                                       (* 711 *)
           | b :: _ => Ok b
           end
  | _ => Err ETypeError
  end.

(** ** Dispersion measure and averages: 768-776, 805-813, 828-836 *)
Definition optional (unit : Q) (a : arg) : res (option Q) :=
  match a with
  | ANone => Ok None
  | AQuantity q => Ok (Some q)
  | _ => match number a with
         | Some q => Ok (Some (q * unit)%Q)
         | None => Err ETypeError
         end
  end.

(** ** Bandpass: 863-874 *)
Definition corrections : list string := ["standard"; "median"; "none"; "adjusted"]%string.
Definition new_bp (a : arg) : res string :=
  match a with
  | AText s _ => if existsb (String.eqb (lower s)) corrections then Ok (lower s) else Err EValueError
  | _ => Err ETypeError
  end.

(** ** Edge channels: 947-972 *)
Definition new_edge (lanes : list (lane A)) (a : arg) : res Z :=
  match a with
  | AInt _ | ABool _ =>
      let n := match a with AInt z => z | ABool true => 1%Z | _ => 0%Z end in
      bind (obs_nchan lanes) (fun c =>
      if (Z.of_nat c <? n * 2)%Z then Ok 0%Z
      else if (n <? 0)%Z then Ok 0%Z
      else Ok n)
  | _ => Ok 0%Z
  end.

(** 984-990 and 743-748 *)
Definition new_jump (a : arg) : res bool := match a with ABool b => Ok b | _ => Err ETypeError end.
Definition new_rfi (a : arg) : res Q := match number a with Some q => Ok q | None => Err ETypeError end.

(** The names of a list of files. *)
Definition names_of (a : arg) : res (list string) :=
  let one x := match x with AText s _ => Ok s | _ => Err ETypeError end in
  match a with
  | AList l => all_ok (map one l)                                        (* 600: abspath *)
  | x => bind (one x) (fun s => Ok [s])
  end.

Definition put {X} (d : dynspec A) (r : res X) (f : X -> dynspec A) : dynspec A * option err :=
  match r with Ok x => (f x, None) | Err e => (d, Some e) end.
Definition assign (d : dynspec A) (sa : setting * arg) : dynspec A * option err :=
  let '(s, a) := sa in
  match s with
  | SFiles => match names_of a with Ok l => set_files d l | Err e => (d, Some e) end
  | STimeRange => put d (new_time_range (d_lanes d) a) (fun x => with_time d (Some x))
  | SFreqRange => put d (new_freq_range a) (fun x => with_freq d (Some x))
  | SBeam => put d (new_beam (d_lanes d) a) (with_beam d)
  | SDm => put d (optional 1 a) (with_dm d)
  | SRebinDt => put d (optional 1 a) (with_rdt d)
  | SRebinDf => put d (optional 1000000 a) (with_rdf d)
  | SJump => put d (new_jump a) (with_jump d)
  | SBp => put d (new_bp a) (with_bp d)
  | SEdge => put d (new_edge (d_lanes d) a) (with_edge d)
  | SRfi => put d (new_rfi a) (with_rfi d)
  end.
Definition assigns (d : dynspec A) (l : list (setting * arg)) : dynspec A := fold_left (fun d sa => fst (assign d sa)) l d.

(** ** The constructor: 540-563 *)
Definition dynspec_new (names : list string) : res (dynspec A) :=
  match add_lanes [] names with
  | (_, Some e) => Err e
  | (ls, None) =>
      bind (obs_tmin ls) (fun _ => bind (obs_tmax ls) (fun _ =>          (* 544-549 *)
      bind (new_beam ls (AInt 0)) (fun b =>
      Ok (mkDs ls names None None b None None None false "none" 0 0))))
  end.

(** 634-636 and 669-671 *)
Definition time_range (d : dynspec A) : res (Q * Q) :=
  match d_time_range d with
  | Some r => Ok r
  | None => bind (obs_tmin (d_lanes d)) (fun a => bind (obs_tmax (d_lanes d)) (fun b => Ok (a, b)))
  end.
Definition freq_range (d : dynspec A) : res (Q * Q) :=
  match d_freq_range d with
  | Some r => Ok r
  | None => bind (obs_fmin (d_lanes d)) (fun a => bind (obs_fmax (d_lanes d)) (fun b => Ok (a, b)))
  end.

(** ** Selection: 1528-1575, before the polarisation is processed *)
Fixpoint argmin_q (i best : nat) (v : Q) (l : list Q) : nat :=
  match l with
  | [] => best
  | x :: r => if negb (Qle_bool v x) then argmin_q (S i) i x r else argmin_q (S i) best v r
  end.
(** [np.argmin(np.abs(l - x))] *)
Definition nearest_index (l : list Q) (x : Q) : res nat :=
  match map (fun y => Qabs (y - x)) l with
  | [] => Err EValueError
  | v :: r => Ok (argmin_q 1 0 v r)
  end.
Fixpoint lookup_beam (b : Z) (l : list (Z * (nat * nat))) : option (nat * nat) :=
  match l with
  | [] => None
  | (k, v) :: r => if (k =? b)%Z then Some v else lookup_beam b r
  end.
Definition select_data (d : dynspec A) (l : lane A) : res (option (list Q * list Q * nd A)) :=
  match lookup_beam (d_beam d) (l_beams l) with
  | None => Ok None                                                      (* 1532-1534 *)
  | Some (b0, b1) =>
      bind (time_range d) (fun tr =>
      bind (nearest_index (l_time l) (fst tr)) (fun i0 =>                (* 1540 *)
      bind (nearest_index (l_time l) (snd tr)) (fun i1 =>
      if i0 =? i1 then Ok None                                           (* 1542-1544 *)
      else
        bind (freq_range d) (fun fr =>
        let band := slice b0 b1 (l_freq l) in
        bind (nearest_index band (fst fr)) (fun j0 =>
        bind (nearest_index band (snd fr)) (fun j1 =>
        if j0 =? j1 then Ok None                                         (* 1554-1556 *)
        else
          let n := l_nchan l in
          let j0 := j0 / n * n in                                        (* 1560 *)
          let j1 := (j1 / n + 1) * n in
          let data := slice_nd 0 (length (l_time l)) b0 b1 (l_data l) in
          Ok (Some (slice j0 j1 band, slice i0 i1 (l_time l), slice_nd i0 i1 j0 j1 data))))))))
  end.
End Read.
