(** Array operations on time-frequency data: nenupy/io/tf_utils.py 335-411
    ([blocks_to_tf_data]), 416-468 ([compute_spectra_frequencies]), 473-534
    ([compute_spectra_time]), 844-931 ([crop_subband_edges]), 1301-1431
    ([flatten_subband]), 2064-2191 ([remove_channels_per_subband],
    [reshape_to_subbands]) and 2196-2219 ([sort_beam_edges]).
    Numbers are exact; sizes and numbers of channels are natural numbers. *)
From Coq Require Import List Arith ZArith QArith Bool.
From Verif Require Import Base M_Slots M_Nd M_Rebin.
Import ListNotations.
Open Scope nat_scope.

(** ** blocks_to_tf_data: 335-411 *)

(** [np.swapaxes(a, 1, 2)]. *)
Definition swap12 (l : list nat) : list nat :=
  match l with a :: b :: c :: t => a :: c :: b :: t | _ => l end.
Definition swapaxes12 {A} (a : nd A) : nd A := mkNd (swap12 (sh a)) (fun idx => get a (swap12 idx)).
(** [a[:, :, ::-1, ...]]. *)
Definition reverse2 {A} (a : nd A) : nd A :=
  mkNd (sh a) (fun idx => match idx with
                          | i :: j :: k :: t => get a (i :: j :: (nth 2 (sh a) 0 - 1 - k) :: t)
                          | _ => get a idx
                          end).

Definition blocks_to_tf {A} (data : nd A) (n_block_times n_channels : nat) : res (nd A) :=
  match sh data with
  | ntb :: nfb :: _ =>
      let n_times := ntb * n_block_times in
      let n_freqs := nfb * n_channels in
      if negb (n_channels mod 2 =? 0) then Err EValueError               (* 389-390 *)
      else if n_channels =? 0 then Err EZeroDivisionError                (* 393 *)
      else
        bind (match length (sh data) with                                (* 397-403 *)
              | 4 => Ok []
              | 6 => Ok [2; 2]
              | _ => Err EIndexError
              end) (fun pol =>
        bind (reshape ([n_times; n_freqs / n_channels; 2; n_channels / 2] ++ pol) (swapaxes12 data)) (fun d =>
        reshape ([n_times; n_freqs] ++ pol) (reverse2 d)))
  | _ => Err EValueError                                                 (* 386: unpacking *)
  end.

(** ** Axes: 416-468 and 473-534 *)
Definition qn (n : nat) : Q := inject_Z (Z.of_nat n).

(** [da.tile(np.arange(n) - n / 2, size)], reshaped by sub-band, scaled and shifted. *)
Definition spectra_frequencies (starts : list Q) (n : nat) (df : Q) : res (nd Q) :=
  let ramp := map (fun c => qn c - qn n / 2)%Q (seq 0 n) in
  let tiled := of_list 0%Q (concat (repeat ramp (length starts))) in
  bind (reshape [length starts; n] tiled) (fun f =>
  let f := nmap (fun x => x * df)%Q f in
  let f := mkNd (sh f) (fun idx => get f idx + nth (hd 0%nat idx) starts 0)%Q in
  reshape [length starts * n] f).

Definition spectra_time (starts : list Q) (n : nat) (dt : Q) : res (nd Q) :=
  let ramp := map (fun c => qn c * dt)%Q (seq 0 n) in
  let t := mkNd [length starts; n]
                (fun idx => nth (nth 1 idx 0%nat) ramp 0 + nth (hd 0%nat idx) starts 0)%Q in
  reshape [length starts * n] t.

(** ** Sub-bands: 2146-2191 *)
Definition reshape_to_subbands {A} (data : nd A) (n_channels : nat) : res (nd A) :=
  match sh data with
  | nt :: nf :: rest =>
      if n_channels =? 0 then Err EZeroDivisionError                     (* 2184 *)
      else if negb (nf mod n_channels =? 0) then Err EValueError         (* 2184-2187 *)
      else reshape ([nt; nf / n_channels; n_channels] ++ rest) data
  | _ => Err EIndexError                                                 (* 2183 *)
  end.

(** [a[:, :, sel, ...] = v]. *)
Definition fill2 {A} (sel : nat -> bool) (v : A) (a : nd A) : nd A :=
  mkNd (sh a) (fun idx => if sel (nth 2 idx 0) then v else get a idx).

(** 844-931.  The reshaped array is a view of a numpy array: what is assigned is
    seen in the array of the caller ([inplace]), returned first.  A Dask array is
    not modified.  The data are floats ([nan] can be assigned). *)
Definition crop_edges {A} (inplace : bool) (nan : A) (data : nd A) (n_channels : nat) (lower higher : Z)
  : nd A * res (nd A) :=
  if (Z.of_nat n_channels <=? lower + higher)%Z then (data, Err EValueError)  (* 911-914 *)
  else if length (sh data) <? 2 then (data, Err EIndexError)            (* 917-918 *)
  else
    match reshape_to_subbands data n_channels with
    | Err e => (data, Err e)
    | Ok d =>
        let d := fill2 (fun c => c <? slice_bound n_channels lower) nan d in
        let d := fill2 (fun c => slice_bound n_channels (Z.of_nat n_channels - higher) <=? c) nan d in
        let r := reshape (sh data) d in
        (match r with Ok d' => if inplace then d' else data | Err _ => data end, r)
    end.

(** 2064-2141; [None] for [channels_to_remove = None].  An index [c < 0] counts
    from the end. *)
Definition removed (n_channels : nat) (channels : list Z) (c : nat) : bool :=
  existsb (fun k => (k mod Z.of_nat n_channels =? Z.of_nat c)%Z) channels.
Definition remove_channels {A} (inplace : bool) (nan : A) (data : nd A) (n_channels : nat)
  (channels : option (list Z)) : nd A * res (nd A) :=
  match channels with
  | None => (data, Ok data)                                             (* 2113-2115 *)
  | Some [] => (data, Ok data)                                          (* 2122-2124 *)
  | Some l =>
      if negb (forallb (fun k => (- Z.of_nat n_channels <=? k)%Z && (k <? Z.of_nat n_channels)%Z) l)
      then (data, Err EIndexError)                                      (* 2125-2128 *)
      else
        match reshape_to_subbands data n_channels with
        | Err e => (data, Err e)
        | Ok d =>
            let d := fill2 (removed n_channels l) nan d in
            let r := reshape (sh data) d in
            (match r with Ok d' => if inplace then d' else data | Err _ => data end, r)
        end
  end.

(** ** sort_beam_edges: 2196-2219

    [np.unique] gives the sorted distinct beams; the keys [str(b)] of the result
    are represented by the numbers. *)
Fixpoint insert_u (x : Z) (l : list Z) : list Z :=
  match l with
  | [] => [x]
  | y :: t => if (x <? y)%Z then x :: l else if (x =? y)%Z then l else y :: insert_u x t
  end.
Definition unique (l : list Z) : list Z := fold_right insert_u [] l.
Definition beam_edges (beams : list Z) (n_channels : nat) : list (Z * (nat * nat)) :=
  map (fun b =>
         let idx := filter (fun i => (nth i beams 0 =? b)%Z) (seq 0 (length beams)) in
         (b, (hd 0 idx * n_channels, (last idx 0 + 1) * n_channels - 1)))
      (unique beams).

(** ** flatten_subband: 1301-1431

    Samples are numbers or NaN ([None]).  A division by zero, infinite or NaN in
    numpy, is [None] as well. *)
Definition sop (f : Q -> Q -> Q) (x y : sample) : sample :=
  match x, y with Some a, Some b => Some (f a b) | _, _ => None end.
Definition sdiv (x y : sample) : sample :=
  match x, y with
  | Some a, Some b => if Qeq_bool b 0 then None else Some (a / b)%Q
  | _, _ => None
  end.
(** [a[:, i:j, ...]]. *)
Definition cut1 {A} (i j : nat) (a : nd A) : nd A :=
  mkNd (firstn 1 (sh a) ++ (Nat.min j (nth 1 (sh a) 0) - i) :: skipn 2 (sh a))
       (fun idx => match idx with s :: c :: p => get a (s :: (i + c) :: p) | _ => get a idx end).

Definition flatten_subband (data : nd sample) (channels : nat) : res (nd sample) :=
  match sh data with
  | nt :: nf :: pol =>
      if channels =? 0 then Err EZeroDivisionError                        (* 1372 *)
      else if negb (nf mod channels =? 0) then Err EValueError            (* 1372-1377 *)
      else
        let n_subbands := nf / channels in
        let profile := reduce nanmedian 0 data in                         (* 1382 *)
        bind (reshape ([n_subbands; channels] ++ pol) profile) (fun msp => (* 1383-1385 *)
        let half := channels / 2 in
        let uhalf := (channels + 1) / 2 in
        let ind1 := (qn half / 2)%Q in                                    (* 1395-1398 *)
        let ind2 := (qn channels - qn half / 2)%Q in
        let y1 := reduce nanmedian 1 (cut1 0 half msp) in                 (* 1399-1401 *)
        let y2 := reduce nanmedian 1 (cut1 uhalf channels msp) in         (* 1402-1404 *)
        (* 1416-1420: shape (channels, subbands, polarisations) *)
        let slope := mkNd (sh y1) (fun idx =>
            sop (fun d e => d / e)%Q (sop Qminus (get y2 idx) (get y1 idx)) (Some (ind2 - ind1)%Q)) in
        let linear := mkNd (channels :: sh y1) (fun idx =>
            match idx with
            | x :: r => sop Qplus (sop Qmult (Some (qn x - ind1)%Q) (get slope r)) (get y1 r)
            | [] => None
            end) in
        let mean := reduce nanmedian 0 linear in                          (* 1423-1425 *)
        let norm := mkNd (sh linear) (fun idx => sdiv (get linear idx) (get mean (tl idx))) in
        let swapped := mkNd (match sh norm with c :: s :: t => s :: c :: t | l => l end)
                            (fun idx => match idx with s :: c :: t => get norm (c :: s :: t) | _ => get norm idx end) in
        bind (reshape (nf :: pol) swapped) (fun nrm =>                    (* 1426-1428 *)
        Ok (mkNd (sh data) (fun idx => sdiv (get data idx) (get nrm (tl idx))))))  (* 1431 *)
  | _ => Err EIndexError                                                  (* 1372 *)
  end.
