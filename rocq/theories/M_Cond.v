(** Selection of beam and subband statistics: nenupy/io/io_tools.py 48-55,
    141-176 (selection strings), nenupy/io/bst.py 150-160, 184-303 ([BST.get])
    and nenupy/io/sst.py 99-195 ([SST.get]). *)
From Coq Require Import List Arith ZArith QArith Qabs Bool String Ascii.
From Verif Require Import Base M_Slots M_Nd.
Import ListNotations.
Open Scope nat_scope.
Open Scope list_scope.

(** ** Strings *)
Definition chr (n : nat) : ascii := ascii_of_nat n.
Definition c_space : ascii := " "%char.
Definition c_amp : ascii := "&"%char.
Definition c_nl : ascii := chr 10.

(** [s.replace(" ", "")]. *)
Fixpoint no_space (s : string) : string :=
  match s with
  | EmptyString => EmptyString
  | String c t => if Ascii.eqb c c_space then no_space t else String c (no_space t)
  end.

(** [s.split("&")]. *)
Fixpoint split_amp (s : string) : list string :=
  match s with
  | EmptyString => [EmptyString]
  | String c t =>
      if Ascii.eqb c c_amp then EmptyString :: split_amp t
      else match split_amp t with
           | p :: r => String c p :: r
           | [] => [String c EmptyString]
           end
  end.

(** [s.replace("==", k + "==")]: occurrences from the left, not overlapping. *)
Fixpoint mark_eq (k : ascii) (s : string) : string :=
  match s with
  | String a ((String b t) as s') =>
      if Ascii.eqb a "=" && Ascii.eqb b "="
      then String k (String "=" (String "=" (mark_eq k t)))
      else String a (mark_eq k s')
  | _ => s
  end.

(** ** Operators: lines 48-55 *)
Inductive op := OpGe | OpLe | OpTeq | OpFeq | OpLt | OpGt.
Definition op_text (o : op) : string :=
  (match o with
   | OpGe => ">=" | OpLe => "<=" | OpTeq => "t==" | OpFeq => "f==" | OpLt => "<" | OpGt => ">"
   end)%string.

(** [np.isclose]/[u.isclose]: |a - b| <= rtol |b|, with the default 1e-5 for the
    frequencies and 1e-12 for the times. *)
Definition isclose (rtol a b : Q) : bool := Qle_bool (Qabs (a - b)) (rtol * Qabs b).
Definition op_fun (o : op) (x v : Q) : bool :=
  match o with
  | OpGe => Qle_bool v x
  | OpLe => Qle_bool x v
  | OpGt => negb (Qle_bool x v)
  | OpLt => negb (Qle_bool v x)
  | OpFeq => isclose (1 # 100000) x v
  | OpTeq => isclose (1 # 1000000000000) x v
  end.

(** Line 149: the alternatives of the regular expression in their order, at the
    leftmost position where one matches. *)
Definition alternatives : list op := [OpGe; OpLe; OpTeq; OpFeq; OpLt; OpGt].
Fixpoint search_op (s : string) : option op :=
  match find (fun o => prefix (op_text o) s) alternatives with
  | Some o => Some o
  | None => match s with EmptyString => None | String _ t => search_op t end
  end.

(** Line 150: the text after the first occurrence of the
    operator, up to the end of the line. *)
Fixpoint skip_str (n : nat) (s : string) : string :=
  match n, s with S n', String _ t => skip_str n' t | _, _ => s end.
Fixpoint to_newline (s : string) : string :=
  match s with
  | EmptyString => EmptyString
  | String c t => if Ascii.eqb c c_nl then EmptyString else String c (to_newline t)
  end.
Fixpoint after_op (o : string) (s : string) : option string :=
  if prefix o s then Some (to_newline (skip_str (String.length o) s))
  else match s with EmptyString => None | String _ t => after_op o t end.

(** Lines 147-158: one condition; [conv] is the conversion of the text to a
    number, which may raise. *)
Definition one_condition (conv : string -> res Q) (s : string) : res (Q -> bool) :=
  match search_op s with
  | None => Err EAttributeError
  | Some o =>
      match after_op (op_text o) s with
      | None => Err EAttributeError
      | Some t => bind (conv t) (fun v => Ok (fun x => op_fun o x v))
      end
  end.

Fixpoint all_conditions (conv : string -> res Q) (l : list string) : res (list (Q -> bool)) :=
  match l with
  | [] => Ok []
  | s :: t => bind (one_condition conv s) (fun p => bind (all_conditions conv t) (fun r => Ok (p :: r)))
  end.

(** Lines 141-164. *)
Definition parse_condition (conv : string -> res Q) (s : string) : res (Q -> bool) :=
  bind (all_conditions conv (split_amp (no_space s))) (fun l =>
    match l with
    | [p] => Ok p
    | [p; q] => Ok (fun x => p x && q x)
    | _ => Err EException
    end).

(** Lines 167-176; the two conversions are [Time(t).jd] and [u.Quantity(f)]. *)
Definition parse_time (conv : string -> res Q) (s : string) : res (Q -> bool) :=
  parse_condition conv (mark_eq "t" s).
Definition parse_freq (conv : string -> res Q) (s : string) : res (Q -> bool) :=
  parse_condition conv (mark_eq "f" s).

(** ** BST.get and SST.get *)

(** [np.where(mask)[0]] and [x[mask]]. *)
Definition where_ {A} (p : A -> bool) (d : A) (l : list A) : list nat :=
  filter (fun i => p (nth i l d)) (seq 0 (List.length l)).
Definition picks {A} (d : A) (idx : list nat) (l : list A) : list A := map (fun i => nth i l d) idx.

(** What is read of a file: times (Julian days), data [time, pol, beamlet],
    polarisations, and for each digital beam its frequencies and beamlets.
    [show_time] and [show_freq] print a value as the default selection does. *)
Record bst := mkBst {
  bst_time : list Q; bst_data : nd Q; bst_pols : list string;
  bst_freqs : list (list Q); bst_lets : list (list nat); bst_beam : nat }.
Record printer := mkPrinter { show_time : Q -> string; show_freq : Q -> string;
  read_time : string -> res Q; read_freq : string -> res Q }.

(** A data sub-set: its axes and its values before [np.squeeze]. *)
Record subset := mkSubset { ss_time : list Q; ss_freq : list Q; ss_pol : string; ss_value : nd Q }.

(** [frequencies.min()] and [frequencies.max()]. *)
Definition qmin (l : list Q) : Q := fold_right (fun a b => if Qle_bool a b then a else b) (hd 0%Q l) l.
Definition qmax (l : list Q) : Q := fold_right (fun a b => if Qle_bool a b then b else a) (hd 0%Q l) l.

(** bst.py 261-262, 269-270: the default selections. *)
Definition default_freq (pr : printer) (freqs : list Q) (sel : option string) : string :=
  match sel with
  | Some s => s
  | None => (">=" ++ show_freq pr (qmin freqs) ++ " & <= " ++ show_freq pr (qmax freqs))%string
  end.
Definition default_time (pr : printer) (times : list Q) (sel : option string) : string :=
  match sel with
  | Some s => s
  | None => (">=" ++ show_time pr (hd 0%Q times) ++ " & <= " ++ show_time pr (last times 0%Q))%string
  end.

(** bst.py 273-280: an unknown polarisation is replaced by NW. *)
Definition choose_pol (pols : list string) (p : string) : string :=
  if existsb (String.eqb p) pols then p else "NW"%string.

(** [data[np.ix_(a, b, c)]]: an index out of an axis raises. *)
Definition ix3 (data : nd Q) (a b c : list nat) : res (nd Q) :=
  if forallb (fun i => i <? nth 0 (sh data) 0) a && forallb (fun i => i <? nth 1 (sh data) 0) b
     && forallb (fun i => i <? nth 2 (sh data) 0) c
  then Ok (mkNd [List.length a; List.length b; List.length c]
                (fun idx => match idx with
                            | [i; j; k] => get data [nth i a 0; nth j b 0; nth k c 0]
                            | _ => 0%Q
                            end))
  else Err EIndexError.

(** bst.py 206-303.  The beam is set first and stays set: the state is returned
    with the result.  A file has at least one time and each beam one beamlet
    ([min] of an empty array is a ValueError). *)
Definition bst_get (pr : printer) (fsel tsel : option string) (pol : string) (beam : Z) (b : bst)
  : bst * res subset :=
  if negb ((0 <=? beam)%Z && (beam <? Z.of_nat (List.length (bst_freqs b)))%Z) then (b, Err EIndexError)
  else
    let k := Z.to_nat beam in
    let b' := mkBst (bst_time b) (bst_data b) (bst_pols b) (bst_freqs b) (bst_lets b) k in
    let freqs := nth k (bst_freqs b) [] in
    let lets := nth k (bst_lets b) [] in
    (b',
     if (List.length freqs =? 0) && match fsel with None => true | Some _ => false end then Err EValueError
     else
     bind (parse_freq (read_freq pr) (default_freq pr freqs fsel)) (fun fp =>
     let fidx := where_ fp 0%Q freqs in
     bind (parse_time (read_time pr) (default_time pr (bst_time b) tsel)) (fun tp =>
     let tidx := where_ tp 0%Q (bst_time b) in
     let p := choose_pol (bst_pols b) pol in
     let pidx := where_ (String.eqb p) EmptyString (bst_pols b) in
     bind (ix3 (bst_data b) tidx pidx (picks 0 fidx lets)) (fun v =>
     Ok (mkSubset (picks 0%Q tidx (bst_time b)) (picks 0%Q fidx freqs) p v))))).

(** sst.py 99-195: data [time, mini-array, pol, frequency]. *)
Record sst := mkSst {
  sst_time : list Q; sst_freq : list Q; sst_pols : list string; sst_mas : list Z; sst_data : nd Q }.
Definition ix4 (data : nd Q) (a b c d : list nat) : res (nd Q) :=
  if forallb (fun i => i <? nth 0 (sh data) 0) a && forallb (fun i => i <? nth 1 (sh data) 0) b
     && forallb (fun i => i <? nth 2 (sh data) 0) c && forallb (fun i => i <? nth 3 (sh data) 0) d
  then Ok (mkNd [List.length a; List.length b; List.length c; List.length d]
                (fun idx => match idx with
                            | [i; j; k; l] => get data [nth i a 0; nth j b 0; nth k c 0; nth l d 0]
                            | _ => 0%Q
                            end))
  else Err EIndexError.
Definition sst_get (pr : printer) (ma : Z) (fsel tsel : option string) (pol : string) (s : sst) : res subset :=
  if (List.length (sst_freq s) =? 0) && match fsel with None => true | Some _ => false end then Err EValueError
  else
  bind (parse_freq (read_freq pr) (default_freq pr (sst_freq s) fsel)) (fun fp =>
  let fidx := where_ fp 0%Q (sst_freq s) in
  bind (parse_time (read_time pr) (default_time pr (sst_time s) tsel)) (fun tp =>
  let tidx := where_ tp 0%Q (sst_time s) in
  let midx := where_ (Z.eqb ma) 0%Z (sst_mas s) in
  if List.length midx =? 0 then Err EValueError                         (* 164-167 *)
  else if negb (List.length midx =? 1) then Err EIndexError             (* 168-171 *)
  else
    let p := choose_pol (sst_pols s) pol in
    let pidx := where_ (String.eqb p) EmptyString (sst_pols s) in
    bind (ix4 (sst_data s) tidx midx pidx fidx) (fun v =>
    Ok (mkSubset (picks 0%Q tidx (sst_time s)) (picks 0%Q fidx (sst_freq s)) p v)))).
