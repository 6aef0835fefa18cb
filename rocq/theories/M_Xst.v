(** Model of the cross-correlation statistics of nenupy/io/xst.py: [Crosslet.get]
    (702-759), [_select_mini_arrays] (1111-1119), [_get_freq_mask] (1121-1136),
    [_get_time_mask] (1138-1150), [_get_cross_idx] (1152-1172), [_get]
    (1174-1234), [get_stokes] (841-940) and the correlation matrix of
    [XST_Slice.plot_correlaton_matrix] (194-206).
    Mini-Array selections are numpy arrays of integers (a list has no [size]).
    Visibilities belong to any type with a conjugation: their storage (complex64)
    and units are not modelled. *)
From Coq Require Import ZArith QArith Bool String List Arith.
From Verif Require Import Base M_Nd M_Cond.
Import ListNotations.
Open Scope nat_scope.
Open Scope list_scope.

(** ** Indices *)
(** [np.isin(x, l)] for one [x]. *)
Definition isin (x : nat) (l : list nat) : bool := existsb (Nat.eqb x) l.

(** [np.tril_indices(n, 0)]: the pairs (row, column), row by row. *)
Definition tril (n : nat) : list (nat * nat) :=
  flat_map (fun i => map (fun j => (i, j)) (seq 0 (S i))) (seq 0 n).

(** 1163: [np.array(["X", "Y"] * mini_arrays_size)], element [k]. *)
Inductive feed := X | Y.
Definition feed_of (k : nat) : feed := if Nat.even k then X else Y.
Definition feed_eqb (a b : feed) : bool :=
  match a, b with X, X => true | Y, Y => true | _, _ => false end.

(** 1158-1160: positions, in the file, of the Mini-Arrays selected. *)
Definition ma_indices (file sel : list nat) : list nat :=
  filter (fun k => isin (nth k file 0) sel) (seq 0 (length file)).

(** 1152-1172: [_get_cross_idx(c1, c2, sel)]. *)
Definition cross_idx (file sel : list nat) (c1 c2 : feed) : list nat :=
  let ants := tril (length file * 2) in
  let mas := ma_indices file sel in
  filter (fun v =>
    let a := fst (nth v ants (0, 0)) in
    let b := snd (nth v ants (0, 0)) in
    feed_eqb (feed_of a) c1 && feed_eqb (feed_of b) c2
    && (isin (a / 2) mas && isin (b / 2) mas))
    (seq 0 (length ants)).

(** ** Data files *)
(** The frequency axis: XST files record the subbands at each time
    (io_tools.py 127-133), NenuFAR TV files once (xst.py 2172-2197). *)
Inductive freq_axis := ByTime (rows : list (list Q)) | Common (row : list Q).

Record xst (A : Type) := mkXst {
  x_mas : list nat; x_time : list Q; x_freq : freq_axis; x_data : nd A }.
Arguments mkXst {A}. Arguments x_mas {A}. Arguments x_time {A}. Arguments x_freq {A}. Arguments x_data {A}.

(** All the frequencies, for [min()] and [max()]. *)
Definition freq_values (a : freq_axis) : list Q :=
  match a with ByTime rows => concat rows | Common row => row end.

(** [frequencies[mask]], the mask being [p] on each value: one dimension. *)
Definition freq_kept (p : Q -> bool) (a : freq_axis) : list Q := filter p (freq_values a).

(** Number of columns. *)
Definition freq_size (a : freq_axis) : nat :=
  match a with ByTime rows => length (hd [] rows) | Common row => length row end.
Definition freq_at (a : freq_axis) (t f : nat) : Q :=
  match a with ByTime rows => nth f (nth t rows []) 0%Q | Common row => nth f row 0%Q end.

(** 1195: [time_mask[:, None] * frequency_mask]. *)
Definition tf_mask {A} (tp fp : Q -> bool) (x : xst A) (t f : nat) : bool :=
  tp (nth t (x_time x) 0%Q) && fp (freq_at (x_freq x) t f).

(** [data[time_freq_mask]]: the selected (time, frequency) positions, row by
    row; a mask of another shape than the data raises IndexError. *)
Definition selected (m : nat -> nat -> bool) (nt nf : nat) : list (nat * nat) :=
  filter (fun tf => m (fst tf) (snd tf)) (list_prod (seq 0 nt) (seq 0 nf)).
Definition data_selected {A} (m : nat -> nat -> bool) (x : xst A) : res (nd A) :=
  let nt := length (x_time x) in
  let nf := freq_size (x_freq x) in
  match sh (x_data x) with
  | [a; b; v] =>
      if (a =? nt) && (b =? nf)
      then let l := selected m nt nf in
           Ok (mkNd [length l; v] (fun idx =>
             let tf := nth (nth 0 idx 0) l (0, 0) in
             get (x_data x) [fst tf; snd tf; nth 1 idx 0]))
      else Err EIndexError
  | _ => Err EIndexError
  end.

(** 1203-1207: [np.any(time_freq_mask, axis=1).sum()] and [axis=0]. *)
Definition rows_kept (m : nat -> nat -> bool) (nt nf : nat) : list nat :=
  filter (fun t => existsb (m t) (seq 0 nf)) (seq 0 nt).
Definition cols_kept (m : nat -> nat -> bool) (nt nf : nat) : list nat :=
  filter (fun f => existsb (fun t => m t f) (seq 0 nt)) (seq 0 nf).

(** [a[:, ..., idx]], a list of indices on axis [k] ([k] slices before it). *)
Definition take_idx {A} (k : nat) (idx : list nat) (a : nd A) : res (nd A) :=
  if length (sh a) <=? k then Err EIndexError
  else if forallb (fun v => v <? nth k (sh a) 0) idx
  then Ok (mkNd (firstn k (sh a) ++ length idx :: skipn (S k) (sh a))
                (fun ix => get a (firstn k ix ++ nth (nth k ix 0) idx 0 :: skipn (S k) ix)))
  else Err EIndexError.

(** [np.expand_dims(a, axis=k)]. *)
Definition expand_dims {A} (k : nat) (a : nd A) : nd A :=
  mkNd (firstn k (sh a) ++ 1 :: skipn k (sh a))
       (fun ix => get a (firstn k ix ++ skipn (S k) ix)).

(** Rank of [m] among the pairs of distinct Mini-Arrays, i.e. the position from
    which [a[:, :, cross_mask] = b] takes the value of element [m]. *)
Definition is_auto (p : nat * nat) : bool := fst p =? snd p.
Definition cross_rank (pairs : list (nat * nat)) (m : nat) : nat :=
  length (filter (fun p => negb (is_auto p)) (firstn m pairs)).

Inductive pol := XX | XY | YX | YY.
Definition feeds (p : pol) : feed * feed :=
  match p with XX => (X, X) | XY => (X, Y) | YX => (Y, X) | YY => (Y, Y) end.

(** 1211-1230: the XY branch, from the selected data.  [cross_mask] and the
    second selection have the same size when the first assignment is accepted,
    or the broadcast fails. *)
Definition get_xy {A} (conj : A -> A) (file sel : list nat) (nt nf : nat) (d : nd A) : res (nd A) :=
  let pairs := tril (length sel) in
  let d := if nt =? 1 then expand_dims 0 d else d in
  let d := if nf =? 1 then expand_dims 1 d else d in
  bind (take_idx 2 (cross_idx file sel Y X) d) (fun yx =>
  (* 1224-1225: the mask must have the size of axis 2 of both arrays. *)
  let shape := removelast (sh yx) ++ [length pairs] in
  if negb ((nth 2 shape 0 =? length pairs) && (nth 2 (sh yx) 0 =? length pairs)) then Err EIndexError
  else
  bind (take_idx 2 (cross_idx file sel X Y) d) (fun xy =>
  if negb (nth 2 (sh xy) 0 =? cross_rank pairs (length pairs)) then Err EValueError
  else
  reshape [nt; nf; length pairs] (mkNd shape (fun ix =>
    let m := nth 2 ix 0 in
    if is_auto (nth m pairs (0, 0)) then conj (get yx ix)
    else get xy (firstn 2 ix ++ cross_rank pairs m :: skipn 3 ix))))).

(** 1174-1234.  [p] is [None] for any other text than the four products; the
    conditions are already parsed. *)
Definition get_vis {A} (conj : A -> A) (tp fp : Q -> bool) (p : option pol) (sel : list nat) (x : xst A)
  : res (nd A) :=
  match p with
  | None => Err EValueError
  | Some p =>
      let m := tf_mask tp fp x in
      let nt := length (rows_kept m (length (x_time x)) (freq_size (x_freq x))) in
      let nf := length (cols_kept m (length (x_time x)) (freq_size (x_freq x))) in
      bind (data_selected m x) (fun d =>
      match p with
      | XY => get_xy conj (x_mas x) sel nt nf d
      | _ => bind (take_idx 1 (cross_idx (x_mas x) sel (fst (feeds p)) (snd (feeds p))) d) (fun v =>
             reshape [nt; nf; length (tril (length sel))] v)
      end)
  end.

(** The result of a selection; [XST_Slice.__init__] (120-138) reads the first
    time when there is no phase center. *)
Record xslice (A : Type) := mkXSlice {
  xs_mas : list nat; xs_time : list Q; xs_freq : list Q; xs_value : nd A }.
Arguments mkXSlice {A}. Arguments xs_mas {A}. Arguments xs_time {A}. Arguments xs_freq {A}. Arguments xs_value {A}.
Definition new_slice {A} (mas : list nat) (t f : list Q) (v : nd A) : res (xslice A) :=
  match t with [] => Err EIndexError | _ => Ok (mkXSlice mas t f v) end.

(** 1111-1119. *)
Definition select_mini_arrays (file : list nat) (sel : option (list nat)) : res (list nat) :=
  let sel := match sel with None => file | Some s => s end in
  if existsb (fun m => negb (isin m file)) sel then Err EIndexError else Ok sel.

(** 1121-1150: the two conditions, default ones included ([min()] of nothing is a
    ValueError, [self.time[0]] an IndexError). *)
Definition masks {A} (pr : printer) (fsel tsel : option string) (x : xst A) : res ((Q -> bool) * (Q -> bool)) :=
  let fs := freq_values (x_freq x) in
  match fsel, fs with
  | None, [] => Err EValueError
  | _, _ =>
      bind (parse_freq (read_freq pr) (default_freq pr fs fsel)) (fun fp =>
      match tsel, x_time x with
      | None, [] => Err EIndexError
      | _, _ =>
          bind (parse_time (read_time pr) (default_time pr (x_time x) tsel)) (fun tp => Ok (tp, fp))
      end)
  end.

(** 702-759, with [value] computed by [f] from the masks and the Mini-Arrays. *)
Definition crosslet_get {A} (pr : printer) (sel : option (list nat)) (fsel tsel : option string) (x : xst A)
  (value : (Q -> bool) -> (Q -> bool) -> list nat -> res (nd A)) : res (xslice A) :=
  bind (select_mini_arrays (x_mas x) sel) (fun mas =>
  bind (masks pr fsel tsel x) (fun tf =>
  let '(tp, fp) := tf in
  bind (value tp fp mas) (fun v =>
  new_slice mas (filter tp (x_time x)) (freq_kept fp (x_freq x)) v))).
Definition xst_get {A} (conj : A -> A) (pr : printer) (p : option pol)
  (sel : option (list nat)) (fsel tsel : option string) (x : xst A) : res (xslice A) :=
  crosslet_get pr sel fsel tsel x (fun tp fp mas => get_vis conj tp fp p mas x).

(** ** Stokes parameters, 841-940 *)
(** What the formulas need of numbers: halved sums and differences, product by
    the imaginary unit, squares, square root, modulus and quotient. *)
Record complex_ops (A : Type) := mkComplex {
  c_conj : A -> A; c_zero : A; c_add : A -> A -> A; c_sub : A -> A -> A; c_half : A -> A;
  c_minus_i : A -> A; c_sq : A -> A; c_sqrt : A -> A; c_abs : A -> A; c_div : A -> A -> A }.
Arguments mkComplex {A}. Arguments c_conj {A}. Arguments c_zero {A}. Arguments c_add {A}. Arguments c_sub {A}.
Arguments c_half {A}. Arguments c_minus_i {A}. Arguments c_sq {A}. Arguments c_sqrt {A}. Arguments c_abs {A}. Arguments c_div {A}.

(** Lines 899-918: products used and formula, from a function giving the product. *)
Inductive stokes := SI | SQ | SU | SV | SFL | SFV.
Definition stokes_cross (s : stokes) : list pol :=
  match s with SI | SQ => [XX; YY] | SU | SV => [XY; YX] | SFL | SFV => [XX; YY; XY; YX] end.
Definition stokes_compute {A} (C : complex_ops A) (s : stokes) (g : pol -> A) : A :=
  let i := c_half C (c_add C (g XX) (g YY)) in
  let q := c_half C (c_sub C (g XX) (g YY)) in
  let u := c_half C (c_add C (g XY) (g YX)) in
  let v := c_minus_i C (c_half C (c_sub C (g XY) (g YX))) in
  match s with
  | SI => i | SQ => q | SU => u | SV => v
  | SFL => c_div C (c_sqrt C (c_add C (c_sq C q) (c_sq C u))) i
  | SFV => c_div C (c_abs C v) i
  end.

(** Lines 924-938: each product is read in turn, then combined element by
    element (they have the same shape). *)
Fixpoint all_products {A} (g : pol -> res (nd A)) (l : list pol) : res (list (pol * nd A)) :=
  match l with
  | [] => Ok []
  | p :: l' => bind (g p) (fun v => bind (all_products g l') (fun r => Ok ((p, v) :: r)))
  end.
Definition pol_eqb (a b : pol) : bool :=
  match a, b with XX, XX => true | XY, XY => true | YX, YX => true | YY, YY => true | _, _ => false end.
Fixpoint lookup_pol {A} (p : pol) (l : list (pol * nd A)) : option (nd A) :=
  match l with [] => None | (q, v) :: l' => if pol_eqb p q then Some v else lookup_pol p l' end.
Definition get_stokes {A} (C : complex_ops A) (pr : printer) (s : option stokes)
  (sel : option (list nat)) (fsel tsel : option string) (x : xst A) : res (xslice A) :=
  bind (select_mini_arrays (x_mas x) sel) (fun _ =>
  bind (masks pr fsel tsel x) (fun _ =>
  match s with
  | None => Err EKeyError                                                   (* 919-923 *)
  | Some s =>
      crosslet_get pr sel fsel tsel x (fun tp fp mas =>
        bind (all_products (fun p => get_vis (c_conj C) tp fp (Some p) mas x) (stokes_cross s)) (fun l =>
        match l with
        | [] => Err EValueError
        | (_, v0) :: _ =>
            Ok (mkNd (sh v0) (fun ix => stokes_compute C s (fun p =>
              match lookup_pol p l with Some v => get v ix | None => c_zero C end)))
        end))
  end)).

(** ** Correlation matrix, 194-206 *)
(** 198-201: the loop over all the numbers up to the largest one, on one index. *)
Definition lmax (l : list nat) : nat := fold_right Nat.max 0 l.
Definition relabel (mas : list nat) (k : nat) : nat :=
  fold_left (fun x ma => if isin ma mas then x else if ma <=? x then S x else x)
            (seq 0 (S (lmax mas))) k.

(** 203-206: [matrix[ma2[mask], ma1[mask]] = mean[mask]] on a matrix of NaN
    ([None]); later assignments win.  [mean] holds one value per pair: a single value,
    which numpy would broadcast to several pairs, is not accepted here. *)
Definition assign {A} (m : nat -> nat -> option A) (r c : nat) (v : A) : nat -> nat -> option A :=
  fun i j => if (i =? r) && (j =? c) then Some v else m i j.
Definition corr_matrix {A} (d : A) (mask_auto : bool) (mas : list nat) (mean : list A) : res (nat * (nat -> nat -> option A)) :=
  match mas with
  | [] => Err EValueError
  | _ =>
      let n := S (lmax mas) in
      let pairs := map (fun p => (relabel mas (fst p), relabel mas (snd p))) (tril (length mas)) in
      let ks := filter (fun k => negb mask_auto || negb (is_auto (nth k pairs (0, 0)))) (seq 0 (length pairs)) in
      if negb (length mean =? length pairs) then Err (if mask_auto then EIndexError else EValueError)
      else if forallb (fun k => (fst (nth k pairs (0, 0)) <? n) && (snd (nth k pairs (0, 0)) <? n)) ks
      then Ok (n, fold_left (fun m k => assign m (snd (nth k pairs (0, 0))) (fst (nth k pairs (0, 0))) (nth k mean d))
                            ks (fun _ _ => None))
      else Err EIndexError
  end.
