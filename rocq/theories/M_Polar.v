(** Model of the polarisation functions of nenupy/io/tf_utils.py:
    [spectra_data_to_matrix] (2223-2269), [compute_stokes_parameters] (539-665),
    [de_faraday_data] (1079-1208), [polarization_angle] (1931-1951),
    [correct_parallactic] (743-839), and of [faraday_angle]
    (nenupy/astro/astro_tools.py 1294-1324).
    Samples are exact reals and pairs of reals: floating point rounding, overflow
    and NaN are not modelled.  A division by zero, which numpy answers with an
    infinity or a NaN, is [None].  Units are not modelled: frequencies are in Hz,
    rotation measures in rad/m2, angles in radians. *)
From Coq Require Import ZArith QArith Qround Reals Ascii String Bool List Arith.
From Verif Require Import Base M_Cond M_Nd.
Import ListNotations.
Open Scope nat_scope.
Open Scope list_scope.

(** ** Complex numbers and 2x2 matrices *)
Definition cpx : Type := (R * R)%type.
Definition re (z : cpx) : R := fst z.
Definition im (z : cpx) : R := snd z.
Definition cplus (a b : cpx) : cpx := (re a + re b, im a + im b)%R.
Definition cmult (a b : cpx) : cpx := (re a * re b - im a * im b, re a * im b + im a * re b)%R.
Definition cconj (a : cpx) : cpx := (re a, - im a)%R.
Definition creal (x : R) : cpx := (x, 0%R).

(** A 2x2 matrix: [mRC] is the element of row R and column C. *)
Record mat := mkMat { m00 : cpx; m01 : cpx; m10 : cpx; m11 : cpx }.
Definition mget (a : mat) (i j : nat) : cpx :=
  match i, j with 0, 0 => m00 a | 0, _ => m01 a | _, 0 => m10 a | _, _ => m11 a end.
Definition mat_of (f : nat -> nat -> cpx) : mat := mkMat (f 0 0) (f 0 1) (f 1 0) (f 1 1).
(** [np.matmul] on the last two axes. *)
Definition mmul (a b : mat) : mat := mat_of (fun i j =>
  cplus (cmult (mget a i 0) (mget b 0 j)) (cmult (mget a i 1) (mget b 1 j))).
(** [np.swapaxes(a, -2, -1)] and [np.conjugate]. *)
Definition mtrans (a : mat) : mat := mat_of (fun i j => mget a j i).
Definition mconj (a : mat) : mat := mat_of (fun i j => cconj (mget a i j)).

(** ** [spectra_data_to_matrix], 2254-2269
    The last axis of [fft0] and [fft1] has the two values; the result has two
    more axes (row, column) in its place. *)
Definition spectra_data_to_matrix (fft0 fft1 : nd R) : nd cpx :=
  mkNd (removelast (sh fft0) ++ [2; 2]) (fun idx =>
    let p := firstn (length (sh fft0) - 1) idx in
    let xx := creal (get fft0 (p ++ [0])) in
    let yy := creal (get fft0 (p ++ [1])) in
    let xy := (get fft1 (p ++ [0]), Ropp (get fft1 (p ++ [1]))) in
    let yx := (get fft1 (p ++ [0]), get fft1 (p ++ [1])) in
    (* 2267-2269: stack [xx, yx] and [xy, yy], then both, on the last axis. *)
    let row1 := [xx; yx] in
    let row2 := [xy; yy] in
    match skipn (length (sh fft0) - 1) idx with
    | [i; j] => nth i (nth j [row1; row2] []) (0%R, 0%R)
    | _ => (0%R, 0%R)
    end).

(** ** [compute_stokes_parameters] *)
(** [str.upper], on ASCII characters. *)
Definition up_char (c : ascii) : ascii :=
  let n := nat_of_ascii c in
  if (97 <=? n) && (n <=? 122) then ascii_of_nat (n - 32) else c.
Fixpoint upper (s : string) : string :=
  match s with EmptyString => EmptyString | String c t => String (up_char c) (upper t) end.

(** A real division, [None] when numpy gives an infinity or a NaN. *)
Definition rdiv (a b : R) : option R :=
  if Req_EM_T b 0%R then None else Some (a / b)%R.

(** Lines 616-652: the value of the parameter [name] (already without spaces and
    upper case) for one sample [d]. *)
Definition stokes_value (name : string) (d : mat) : res (option R) :=
  let i := (re (m00 d) + re (m11 d))%R in
  let q := (re (m00 d) - re (m11 d))%R in
  let u := (re (m01 d) * 2)%R in
  let v := (- im (m01 d) * 2)%R in
  let l := sqrt (q ^ 2 + u ^ 2)%R in
  if String.eqb name "I" then Ok (Some i)
  else if String.eqb name "Q" then Ok (Some q)
  else if String.eqb name "U" then Ok (Some u)
  else if String.eqb name "V" then Ok (Some v)
  else if String.eqb name "L" then Ok (Some l)
  else if String.eqb name "Q/I" then Ok (rdiv q i)
  else if String.eqb name "U/I" then Ok (rdiv u i)
  else if String.eqb name "V/I" then Ok (rdiv v i)
  else if String.eqb name "L/I" then Ok (rdiv l i)
  else Err ENotImplementedError.

(** The sample of a data array at the leading indices [p]. *)
Definition mat_at (data : nd cpx) (p : list nat) : mat :=
  mat_of (fun i j => get data (p ++ [i; j])).

(** Lines 654-659: [result] is [None] or an array whose last axis is extended by
    [data_i]. *)
Definition stack_last (result : option (nd (option R))) (lead : list nat)
    (data_i : list nat -> option R) : nd (option R) :=
  match result with
  | None => mkNd (lead ++ [1]) (fun idx => data_i (firstn (length lead) idx))
  | Some r =>
      let n := last (sh r) 0 in
      mkNd (lead ++ [S n]) (fun idx =>
        if last idx 0 <? n then get r idx else data_i (firstn (length lead) idx))
  end.

(** Lines 613-661.  [stokes_value] refuses a name without looking at the data, so
    the refusal is decided on an arbitrary sample. *)
Definition zero_mat : mat := mat_of (fun _ _ => (0%R, 0%R)).
Fixpoint stokes_loop (data : nd cpx) (lead : list nat) (names : list string)
    (result : option (nd (option R))) : res (option (nd (option R))) :=
  match names with
  | [] => Ok result
  | s :: rest =>
      let name := upper (no_space s) in
      bind (stokes_value name zero_mat) (fun _ =>
      stokes_loop data lead rest
        (Some (stack_last result lead (fun p =>
           match stokes_value name (mat_at data p) with Ok v => v | Err _ => None end))))
  end.

(** Lines 601-663; a single string is the one-element list (609-611). *)
Definition compute_stokes (data : nd cpx) (names : list string) : res (option (nd (option R))) :=
  let lead := firstn (length (sh data) - 2) (sh data) in
  if list_eq_dec Nat.eq_dec (skipn (length (sh data) - 2) (sh data)) [2; 2]
  then stokes_loop data lead names None
  else Err EException.

(** ** Faraday rotation *)
(** astro_tools.py 1318-1324; the wavelength is c / frequency. *)
Definition speed_of_light : R := 299792458%R.
Definition faraday_angle (frequency rotation_measure : R) (inverse : bool) : R :=
  let wavelength := (speed_of_light / frequency)%R in
  let angle := (rotation_measure * wavelength ^ 2)%R in
  if inverse then (angle * (-1))%R else angle.

(** Line 1204: [[cosa, -sina], [sina, cosa]]. *)
Definition rotation (a : R) : mat :=
  mkMat (creal (cos a)) (creal (- sin a)) (creal (sin a)) (creal (cos a)).

(** Lines 1190-1208. *)
Definition de_faraday (data : nd cpx) (frequency : list R) (rotation_measure : R) : res (nd cpx) :=
  match sh data with
  | [nt; nf; n1; n2] =>
      if (nf =? length frequency) && (n1 =? 2) && (n2 =? 2) then
        Ok (mkNd [nt; nf; 2; 2] (fun idx =>
          match idx with
          | [t; f; i; j] =>
              let jones := rotation (faraday_angle (nth f frequency 0%R) rotation_measure true) in
              mget (mmul (mmul jones (mat_at data [t; f])) (mtrans jones)) i j
          | _ => (0%R, 0%R)
          end))
      else Err EException
  | _ => Err EException
  end.

(** ** [polarization_angle], one sample
    [U / 0] is an infinity of the sign of [U], whose arctan is +-pi/2 ([Q] = -0.0
    is not modelled); [0 / 0] is NaN. *)
Definition polarization_angle (u q : R) : option R :=
  if Req_EM_T q 0%R then
    (if Req_EM_T u 0%R then None
     else if Rlt_dec 0%R u then Some (1 / 2 * (PI / 2))%R else Some (1 / 2 * (- (PI / 2)))%R)
  else Some (1 / 2 * atan (u / q))%R.

(** ** [correct_parallactic] *)
(** [int(np.round(x))]: to the nearest integer, ties to the even one. *)
Definition round_even (x : Q) : Z :=
  let f := Qfloor x in
  let d := (x - inject_Z f)%Q in
  match Qcompare d (1 # 2) with
  | Lt => f
  | Gt => (f + 1)%Z
  | Eq => if Z.even f then f else (f + 1)%Z
  end.

(** The data has the shape (time, frequency, 2, 2); the last two axes are one
    matrix here.  [angle t] is the parallactic angle of the target at the time [t]
    (astropy).  The time step is not negative and the sampling time is positive.
    Times are exact, so the first Jones time, the first time sample, is the first
    one that is not below it (784, 798: [time_start_idx] is 0).
    Lines 754-839. *)
Section Parallactic.
Context (angle : Q -> R).

(** Lines 801-806: [np.swapaxes(_, 2, 0)] puts the time first and exchanges rows
    and columns. *)
Definition parallactic_jones (t : Q) : mat := mtrans (rotation (angle t)).
(** Lines 816-818, 834. *)
Definition jones_apply (j d : mat) : mat := mmul j (mmul d (mconj (mtrans j))).

Definition correct_parallactic (time : list Q) (freq_size : nat) (data : nd mat)
    (dt step : Q) (n_channels : nat) : res (nd mat) :=
  let time_size := length time in
  match sh data with
  | [dim0; dim1] =>
      if negb (time_size =? dim0) then Err EValueError
      else if negb (freq_size =? dim1) then Err EValueError
      else if n_channels =? 0 then Err EZeroDivisionError
      else if negb (freq_size mod n_channels =? 0) then Err EValueError
      else
        let n_subbands := freq_size / n_channels in
        let group := Z.to_nat (round_even (step / dt)%Q) in
        if group =? 0 then Err EZeroDivisionError
        else if time_size =? 0 then Err EIndexError   (* 770: time_unix[0] *)
        else
          let small := time_size / group =? 0 in
          let n_groups := if small then 1 else time_size / group in
          let size := if small then time_size else group in
          let leftover := if small then 0 else time_size mod group in
          let jones_time := fun k => (nth 0 time 0 + inject_Z (Z.of_nat (k * size)) * dt)%Q in
          let main := time_size - leftover in
          bind (reshape [n_groups; size; n_subbands; n_channels] (take_axis 0 main data)) (fun d =>
          bind (reshape [main; freq_size] (mkNd (sh d) (fun idx =>
             jones_apply (parallactic_jones (jones_time (hd 0 idx))) (get d idx)))) (fun head =>
          if leftover =? 0 then Ok head
          else
            (* 789: data[-leftover:]; 811: the last of the n_groups + 1 solutions. *)
            bind (reshape [leftover; n_subbands; n_channels]
                    (mkNd [leftover; dim1] (fun idx =>
                       get data ((hd 0 idx + main) :: tl idx)))) (fun dl =>
            bind (reshape [leftover; freq_size]
                    (nmap (jones_apply (parallactic_jones (jones_time n_groups))) dl)) (fun tail =>
            Ok (mkNd [time_size; freq_size] (fun idx =>
              if hd 0 idx <? main then get head idx
              else get tail ((hd 0 idx - main) :: tl idx)))))))
  | _ => Err EValueError
  end.
End Parallactic.
