(** Model of nenupy/io/tf_utils.py: theoretical response of a sub-band ([get_bandpass],
    1213-1264), correction coefficients by high-pass filter
    ([bandpass_correction_coefficients], 249-331) and correction of the data
    ([correct_bandpass], 670-738). Numbers are real, [None] is a NaN or an infinity. The file
    bandpass_coeffs.dat (16384 numbers) is the argument [kaiser]. *)
From Coq Require Import Reals ZArith Bool List.
From Verif Require Import Base.
Import ListNotations.
Open Scope list_scope.

(** * Theoretical response *)
Definition rsum (f : nat -> R) (l : list nat) : R := fold_right (fun j s => (f j + s)%R) 0%R l.
(** [np.abs(np.fft.fft(x, n))[k] ** 2]: numbers missing in [x] are zero, those beyond [n] are
    dropped. *)
Definition angle (n j k : nat) : R := (2 * PI * INR j * INR k / INR n)%R.
Definition fft_power (x : list R) (n k : nat) : R :=
  let re := rsum (fun j => nth j x 0 * cos (angle n j k))%R (seq 0 n) in
  let im := rsum (fun j => nth j x 0 * - sin (angle n j k))%R (seq 0 n) in
  (re ^ 2 + im ^ 2)%R.
(** Python slices [l[a:b]] with negative indices *)
Definition bound (n i : Z) : Z := if (i <? 0)%Z then Z.max 0 (i + n) else Z.min i n.
Definition slice {A} (l : list A) (a b : Z) : list A :=
  let n := Z.of_nat (length l) in
  firstn (Z.to_nat (bound n b - bound n a)) (skipn (Z.to_nat (bound n a)) l).
(** Sums of arrays of the same size (one-element arrays are not broadcast here). *)
Fixpoint add_all (a b c : list R) : res (list R) :=
  match a, b, c with
  | [], [], [] => Ok []
  | x :: a', y :: b', z :: c' => bind (add_all a' b' c') (fun r => Ok ((x + y + z)%R :: r))
  | _, _, _ => Err EValueError
  end.
(** 1260-1262 for one channel; a null power gives an infinity. *)
Definition gain (s : R) : option R := if Req_EM_T s 0 then None else Some ((2 ^ 25 / sqrt s) ^ 2)%R.
(** 1213-1264. The squares of the moduli are taken before the slices. *)
Definition get_bandpass (kaiser : list R) (n_channels : Z) : res (list (option R)) :=
  if (n_channels <? 16)%Z || negb (n_channels mod 2 =? 0)%Z then Err EValueError      (* 1242-1243 *)
  else
    let over_sampling := (n_channels / 16)%Z in                                        (* 1246 *)
    let n_fft := Z.to_nat (over_sampling * Z.of_nat (length kaiser)) in                (* 1247 *)
    if (n_fft =? 0)%nat then Err EValueError                                           (* 1249 *)
    else
      let g := map (fft_power kaiser n_fft) (seq 0 n_fft) in
      let mid := (n_channels / 2)%Z in
      let middle := slice g (- mid) (Z.of_nat n_fft) ++ slice g 0 mid in               (* 1251 *)
      let right := slice g mid (mid + n_channels) in                                   (* 1252 *)
      let left := slice g (- mid - n_channels) (- mid) in                              (* 1253 *)
      bind (add_all middle left right) (fun s => Ok (map gain s)).

(** * Correction coefficients *)
(** 283-291 *)
Definition sigmoid (x a b c k : R) : R := (b / (1 + exp (k * (x - a))) + c)%R.
Definition non_constant_sigmoid (x a b c k d : R) : R := (b / (1 + exp (k * (x - a))) + c + d * x)%R.
(** 293-307, one frequency *)
Definition to_fit_sig_sig (x threshold a b c k a2 b2 c2 k2 d2 : R) : R :=
  if Rlt_dec x threshold then sigmoid x a b c k else non_constant_sigmoid x a2 b2 c2 k2 d2.
Definition to_fit_const_sig (x threshold a a2 b2 c2 k2 d2 : R) : R :=
  if Rlt_dec x threshold then a else non_constant_sigmoid x a2 b2 c2 k2 d2.
(** 276-331: slope and intercept at [x] MHz *)
Definition coefficients (x : R) (lna_filter : Z) : res (R * R) :=
  match lna_filter with
  | 0%Z => Ok (to_fit_const_sig x 50 1.03693912 88.9487679 1.02863838 0.0909061184 0.381796685 (-0.00162453382),
               to_fit_const_sig x 50 0.00823885830 88.4722442 (-0.875842286) 0.803931674 0.388727164 0.00157796172)%R
  | 1%Z => Ok (to_fit_const_sig x 50 1.03621147 86.4336414 0.527969788 0.595808501 0.422370139 (-0.00170520031),
               to_fit_const_sig x 50 0.00891418553 86.2446152 (-0.487074122) 0.411469802 0.427254949 0.00164909055)%R
  | 2%Z => Ok (to_fit_sig_sig x 50 13.0641911 0.584742703 0.451767374 (-1.02227093) 88.8508007 1.06722835 0.0550610398 0.392651498 (-0.00166074012),
               to_fit_sig_sig x 50 13.0006330 0.551584657 0.00878717949 1.06913377 88.2938870 (-0.881479279) 0.807125303 0.400112386 0.00160945820)%R
  | 3%Z => Ok (to_fit_sig_sig x 50 17.9766585 0.626219238 0.409338837 (-0.941265763) 86.7626131 0.583615866 0.540245636 0.415807316 (-0.00173087766),
               to_fit_sig_sig x 50 17.9888717 0.601638449 0.00968806278 0.937583260 86.4853961 (-0.525922533) 0.449999393 0.422993203 0.00167795904)%R
  | _ => Err EValueError
  end.

(** * Correction of the data *)
(** A sample holds the numbers of a Jones matrix; [data] is by time and frequency. *)
Notation cell := (list (option R)).
Definition omul (a b : option R) : option R := match a, b with Some x, Some y => Some (x * y)%R | _, _ => None end.
Definition odiv (a b : option R) : option R :=
  match a, b with Some x, Some y => if Req_EM_T y 0 then None else Some (x / y)%R | _, _ => None end.
(** 719-721: a spectrum as sub-bands of [n] channels; [k] sub-bands. *)
Fixpoint subbands {A} (k n : nat) (row : list A) : list (list A) :=
  match k with O => [] | S k' => firstn n row :: subbands k' n (skipn n row) end.
Fixpoint map2 {A B C} (f : A -> B -> C) (a : list A) (b : list B) : list C :=
  match a, b with x :: a', y :: b' => f x y :: map2 f a' b' | _, _ => [] end.
(** 725, and 731-732 *)
Definition multiply (bp : list (option R)) (sb : list cell) : list cell := map2 (fun b c => map (fun x => omul x b) c) bp sb.
Definition corrected (co : R * R) (b : option R) : option R :=
  match odiv (Some (fst co)) b with Some v => Some (v + snd co)%R | None => None end.
Definition divide (bp : list (option R)) (co : R * R) (sb : list cell) : list cell :=
  map2 (fun b c => map (fun x => odiv x (corrected co b)) c) bp sb.
Fixpoint all_ok {A} (l : list (res A)) : res (list A) :=
  match l with [] => Ok [] | x :: r => bind x (fun v => bind (all_ok r) (fun t => Ok (v :: t))) end.
(** 670-738. [n_freqs] is the second dimension of [data], [frequency] in MHz. An infinite value of the
    bandpass is [None], the quotient of a number by it also (numpy gives zero). The filter is
    refused even without any sub-band. *)
Definition correct_bandpass (kaiser : list R) (n_freqs : nat) (data : list (list cell)) (n_channels : Z)
    (lna_filter : option Z) (frequency : option (list R)) : res (list (list cell)) :=
  bind (get_bandpass kaiser n_channels) (fun bp =>                                     (* 712 *)
    if negb (Z.of_nat n_freqs mod n_channels =? 0)%Z then Err EValueError              (* 716-719 *)
    else
      let n := Z.to_nat n_channels in
      let k := (n_freqs / n)%nat in
      match lna_filter with
      | None => Ok (map (fun row => concat (map (multiply bp) (subbands k n row))) data)
      | Some lna =>
        match frequency with
        | None => Err EAttributeError                                                  (* 729 *)
        | Some fr =>
          if negb (length fr =? k * n)%nat then Err EValueError                        (* 729 *)
          else
            bind (coefficients 0 lna) (fun _ => bind (all_ok (map (fun sb => coefficients (nth 0 sb 0%R) lna) (subbands k n fr))) (fun co =>
              Ok (map (fun row => concat (map2 (divide bp) co (subbands k n row))) data)))
        end
      end).
(** [data *= ...] and [data /= ...] act on a view of a contiguous array of floats: the array of the
    caller then holds the result. [view] tells that the reshape is a view (not for Dask arrays). *)
Definition caller_after (view : bool) (data : list (list cell)) (r : res (list (list cell))) : list (list cell) :=
  match r with Ok d => if view then d else data | Err _ => data end.
