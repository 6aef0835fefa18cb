(** C36, C37, C41, C74 and C75: time-frequency arrays. *)
From Coq Require Import List Arith ZArith QArith Bool Sorted.
From Verif Require Import Base M_Slots M_Nd P_Nd M_Rebin P_Rebin M_TFArray P_TFArray P_TFArray2 P_Flatten.
Import ListNotations.
Open Scope nat_scope.

(** ** C36 *)
Theorem C36_position : forall A (data : nd A) B S T h pol, pols_ok pol -> 0 < h ->
  sh data = [B; S; T; 2 * h] ++ pol ->
  exists r, blocks_to_tf data T (2 * h) = Ok r /\ sh r = [B * T; S * (2 * h)] ++ pol /\
    forall b s t c p, b < B -> s < S -> t < T -> c < 2 * h -> inside pol p ->
      get r ((b * T + t) :: (s * (2 * h) + half_swap h c) :: p) = get data (b :: s :: t :: c :: p).
Proof. exact blocks_spec. Qed.
Print Assumptions C36_position.
Theorem C36_bijection : forall B S T h i f, i < B * T -> f < S * (2 * h) ->
  exists! q, match q with (b, s, t, c) =>
    b < B /\ s < S /\ t < T /\ c < 2 * h /\ i = b * T + t /\ f = s * (2 * h) + half_swap h c end.
Proof. exact blocks_bijection. Qed.
Print Assumptions C36_bijection.
Theorem C36_twice : forall A (data : nd A) B S T h pol, pols_ok pol -> 0 < h ->
  sh data = [B; S; T; 2 * h] ++ pol ->
  exists r r1 r2, blocks_to_tf data T (2 * h) = Ok r /\
    reshape ([B * T; S; 1; 2 * h] ++ pol) r = Ok r1 /\ blocks_to_tf r1 1 (2 * h) = Ok r2 /\
    forall b s t c p, b < B -> s < S -> t < T -> c < 2 * h -> inside pol p ->
      get r2 ((b * T + t) :: (s * (2 * h) + c) :: p) = get data (b :: s :: t :: c :: p).
Proof. exact blocks_twice. Qed.
Print Assumptions C36_twice.
Theorem C36_odd_refused : forall A (data : nd A) T n ntb nfb rest, sh data = ntb :: nfb :: rest ->
  Nat.odd n = true -> blocks_to_tf data T n = Err EValueError.
Proof. exact blocks_odd. Qed.
Print Assumptions C36_odd_refused.
Theorem C36_dimensions_refused : forall A (data : nd A) T n ntb nfb rest, sh data = ntb :: nfb :: rest ->
  n mod 2 = 0 -> 0 < n -> length (sh data) <> 4 -> length (sh data) <> 6 ->
  blocks_to_tf data T n = Err EIndexError.
Proof. exact blocks_dims. Qed.
Print Assumptions C36_dimensions_refused.
Theorem C36_sizes_refused : forall A (data : nd A) B S T T' m h pol, pols_ok pol ->
  sh data = [B; S; T; m] ++ pol -> 0 < h -> 0 < B -> 0 < S -> T * m <> T' * (2 * h) ->
  blocks_to_tf data T' (2 * h) = Err EValueError.
Proof. exact blocks_sizes. Qed.
Print Assumptions C36_sizes_refused.

Definition demo_raw : nd nat := mkNd [2; 2; 3; 4] (fun idx =>
  match idx with [b; s; t; c] => 1000 * b + 100 * s + 10 * t + c | _ => 0 end).
Example C36_ex : pols_ok [] /\ match blocks_to_tf demo_raw 3 4 with
  | Ok r => sh r = [6; 8] /\ map (fun f => get r [4; f]) (seq 0 8) = [1012; 1013; 1010; 1011; 1112; 1113; 1110; 1111]
  | Err _ => False
  end.
Proof. split; [now left|]. vm_compute. split; reflexivity. Qed.

(** ** C37 *)
Theorem C37_frequencies : forall starts n df,
  exists r, spectra_frequencies starts n df = Ok r /\ sh r = [length starts * n] /\
    forall s c, s < length starts -> c < n ->
      (get r [(s * n + c)%nat] == nth s starts 0 + (qn c - qn n / 2) * df)%Q.
Proof. exact frequencies_spec. Qed.
Print Assumptions C37_frequencies.
Theorem C37_times : forall starts n dt,
  exists r, spectra_time starts n dt = Ok r /\ sh r = [length starts * n] /\
    forall s c, s < length starts -> c < n -> (get r [(s * n + c)%nat] == nth s starts 0 + qn c * dt)%Q.
Proof. exact time_spec. Qed.
Print Assumptions C37_times.
Theorem C37_frequencies_uniform : forall starts n df r, spectra_frequencies starts n df = Ok r ->
  adjacent starts (qn n * df)%Q -> forall k, S k < length starts * n -> (get r [S k] == get r [k] + df)%Q.
Proof. exact frequencies_uniform. Qed.
Print Assumptions C37_frequencies_uniform.
Theorem C37_times_uniform : forall starts n dt r, spectra_time starts n dt = Ok r ->
  adjacent starts (qn n * dt)%Q -> forall k, S k < length starts * n -> (get r [S k] == get r [k] + dt)%Q.
Proof. exact time_uniform. Qed.
Print Assumptions C37_times_uniform.
Theorem C37_frequencies_increasing : forall starts n df r, spectra_frequencies starts n df = Ok r ->
  (0 < df)%Q -> 0 < n ->
  (forall k, S k < length starts * n -> (get r [k] < get r [S k])%Q) <-> spaced starts ((qn n - 1) * df)%Q.
Proof. exact frequencies_increasing. Qed.
Print Assumptions C37_frequencies_increasing.
Theorem C37_times_increasing : forall starts n dt r, spectra_time starts n dt = Ok r ->
  (0 < dt)%Q -> 0 < n ->
  (forall k, S k < length starts * n -> (get r [k] < get r [S k])%Q) <-> spaced starts ((qn n - 1) * dt)%Q.
Proof. exact time_increasing. Qed.
Print Assumptions C37_times_increasing.
Theorem C37_centre : forall starts n df r s, spectra_frequencies starts n df = Ok r -> s < length starts -> 0 < n ->
  (qtotal (fun c => get r [(s * n + c)%nat]) n / qn n == nth s starts 0 - df / 2)%Q /\
  (forall h, n = 2 * h -> (get r [(s * n + h)%nat] == nth s starts 0)%Q).
Proof. exact frequencies_centre. Qed.
Print Assumptions C37_centre.
Example C37_ex : adjacent [10; 14; 18]%Q (qn 4 * 1)%Q /\
  match spectra_frequencies [10; 14; 18]%Q 4 1 with
  | Ok r => map (fun k => Qred (get r [k])) (seq 0 12) = [8; 9; 10; 11; 12; 13; 14; 15; 16; 17; 18; 19]%Q
  | Err _ => False
  end /\
  match spectra_time [10; 14; 18]%Q 4 1 with
  | Ok r => map (fun k => Qred (get r [k])) (seq 0 12) = [10; 11; 12; 13; 14; 15; 16; 17; 18; 19; 20; 21]%Q
  | Err _ => False
  end.
Proof.
  split; [|vm_compute; split; reflexivity].
  intros [|[|s]] H; cbn in *; try reflexivity. exfalso. do 3 apply Nat.succ_lt_mono in H. inversion H.
Qed.

(** ** C41 *)
Theorem C41_remove : forall A inplace (nan : A) data n l nt m rest,
  Forall (valid_channel n) l -> 0 < n -> sh data = nt :: m * n :: rest ->
  exists r, snd (remove_channels inplace nan data n (Some l)) = Ok r /\
    blanked nan n (designated n l) data r /\
    fst (remove_channels inplace nan data n (Some l)) = (if inplace then r else data).
Proof. exact remove_spec. Qed.
Print Assumptions C41_remove.
Theorem C41_remove_none : forall A inplace (nan : A) data n,
  remove_channels inplace nan data n None = (data, Ok data).
Proof. exact remove_none. Qed.
Print Assumptions C41_remove_none.
Theorem C41_remove_refused : forall A inplace (nan : A) data n l,
  (Exists (fun k => ~ valid_channel n k) l ->
     remove_channels inplace nan data n (Some l) = (data, Err EIndexError)) /\
  (l <> [] -> Forall (valid_channel n) l -> length (sh data) < 2 ->
     remove_channels inplace nan data n (Some l) = (data, Err EIndexError)) /\
  (forall nt nf rest, l <> [] -> Forall (valid_channel n) l -> sh data = nt :: nf :: rest ->
     nf mod n <> 0 -> remove_channels inplace nan data n (Some l) = (data, Err EValueError)).
Proof. exact remove_refused. Qed.
Print Assumptions C41_remove_refused.
Theorem C41_remove_twice : forall A inplace (nan : A) data n l r,
  2 <= length (sh data) ->
  snd (remove_channels inplace nan data n (Some l)) = Ok r ->
  exists r', snd (remove_channels inplace nan r n (Some l)) = Ok r' /\ same r r'.
Proof. exact remove_twice. Qed.
Print Assumptions C41_remove_twice.
Theorem C41_crop : forall A inplace (nan : A) data n lower higher nt m rest,
  (0 <= lower)%Z -> (0 <= higher)%Z -> (lower + higher < Z.of_nat n)%Z -> sh data = nt :: m * n :: rest ->
  exists r, snd (crop_edges inplace nan data n lower higher) = Ok r /\
    blanked nan n (edge n lower higher) data r /\
    fst (crop_edges inplace nan data n lower higher) = (if inplace then r else data).
Proof. exact crop_spec. Qed.
Print Assumptions C41_crop.
Theorem C41_crop_refused : forall A inplace (nan : A) data n lower higher,
  ((Z.of_nat n <= lower + higher)%Z ->
     crop_edges inplace nan data n lower higher = (data, Err EValueError)) /\
  ((lower + higher < Z.of_nat n)%Z -> length (sh data) < 2 ->
     crop_edges inplace nan data n lower higher = (data, Err EIndexError)) /\
  (forall nt nf rest, (lower + higher < Z.of_nat n)%Z -> sh data = nt :: nf :: rest ->
     0 < n -> nf mod n <> 0 -> crop_edges inplace nan data n lower higher = (data, Err EValueError)).
Proof. exact crop_refused. Qed.
Print Assumptions C41_crop_refused.
Theorem C41_crop_is_remove : forall A (nan : A) data n lower higher nt m rest,
  lower + higher < n -> sh data = nt :: m * n :: rest ->
  exists r r', snd (crop_edges false nan data n (Z.of_nat lower) (Z.of_nat higher)) = Ok r /\
    snd (remove_channels false nan data n (Some (edge_channels lower higher))) = Ok r' /\ same r r'.
Proof. exact crop_is_remove. Qed.
Print Assumptions C41_crop_is_remove.
(** A negative width is accepted. *)
Theorem C41_negative_refuted : exists r, snd (crop_edges false None demo 4 (-1) 0) = Ok r /\
  map (fun f => get r [0; f]) [0; 1; 2; 3] = [None; None; None; Some 3%Q].
Proof. exact crop_negative. Qed.
Print Assumptions C41_negative_refuted.
Example C41_ex : Forall (valid_channel 4) [1; -1]%Z /\
  match snd (remove_channels true None (mkNd [2; 8] (fun idx => Some (nth 1 idx 0))) 4 (Some [1; -1]%Z)),
        snd (crop_edges true None (mkNd [2; 8] (fun idx => Some (nth 1 idx 0))) 4 1 2) with
  | Ok r, Ok q => map (fun f => get r [1; f]) (seq 0 8) =
                    [Some 0; None; Some 2; None; Some 4; None; Some 6; None] /\
                  map (fun f => get q [1; f]) (seq 0 8) =
                    [None; Some 1; None; None; None; Some 5; None; None]
  | _, _ => False
  end.
Proof. split; [repeat constructor; discriminate|]. vm_compute. split; reflexivity. Qed.

(** ** C74 *)
Theorem C74_edges : forall beams n,
  StronglySorted Z.lt (map fst (beam_edges beams n)) /\
  (forall b, In b (map fst (beam_edges beams n)) <-> In b beams) /\
  forall b start stop, In (b, (start, stop)) (beam_edges beams n) ->
    exists lo hi, first_sub beams b lo /\ last_sub beams b hi /\ start = lo * n /\ stop = (hi + 1) * n - 1.
Proof. exact beam_edges_spec. Qed.
Print Assumptions C74_edges.
Theorem C74_partition : forall beams n, grouped beams -> 0 < n ->
  forall f, f < length beams * n ->
  forall b start stop, In (b, (start, stop)) (beam_edges beams n) ->
    (start <= f <= stop <-> nth_error beams (f / n) = Some b).
Proof. exact beam_edges_partition. Qed.
Print Assumptions C74_partition.
Theorem C74_interleaved_refuted :
  beam_edges [0; 1; 0; 1]%Z 2 = [(0%Z, (0, 5)); (1%Z, (2, 7))].
Proof. exact beam_edges_interleaved. Qed.
Print Assumptions C74_interleaved_refuted.
Example C74_ex : beam_edges [3; 3; 1; 1; 1]%Z 2 = [(1%Z, (4, 9)); (3%Z, (0, 3))].
Proof. reflexivity. Qed.

(** ** C75 *)
Theorem C75_factor : forall data n nt m pol r, 0 < n -> sh data = nt :: m * n :: pol ->
  flatten_subband data n = Ok r ->
  sh r = sh data /\
  exists g : nat -> list nat -> sample, forall t f p, inside (sh data) (t :: f :: p) ->
    quotient (get data (t :: f :: p)) (g f p) (get r (t :: f :: p)).
Proof. exact flatten_factor. Qed.
Print Assumptions C75_factor.
Theorem C75_local : forall data data' n nt m pol r r' s p, 0 < n ->
  sh data = nt :: m * n :: pol -> sh data' = nt :: m * n :: pol ->
  flatten_subband data n = Ok r -> flatten_subband data' n = Ok r' -> s < m -> inside pol p ->
  (forall t c, t < nt -> c < n -> get data (t :: (s * n + c) :: p) = get data' (t :: (s * n + c) :: p)) ->
  forall t c, t < nt -> c < n -> get r (t :: (s * n + c) :: p) = get r' (t :: (s * n + c) :: p).
Proof. exact flatten_local. Qed.
Print Assumptions C75_local.
Theorem C75_flat : forall data n nt m pol r s p a, 2 <= n -> sh data = nt :: m * n :: pol ->
  flatten_subband data n = Ok r -> s < m -> inside pol p ->
  (forall c, c < n -> exists q, median_of (column data nt (s * n + c) p) (Some q) /\ (q == a)%Q) -> ~ (a == 0)%Q ->
  forall t c v, t < nt -> c < n -> get data (t :: (s * n + c) :: p) = Some v ->
  exists w, get r (t :: (s * n + c) :: p) = Some w /\ (w == v)%Q.
Proof. exact flatten_flat. Qed.
Print Assumptions C75_flat.
Theorem C75_affine : forall data n nt m pol r s p a b, 2 <= n -> sh data = nt :: m * n :: pol ->
  flatten_subband data n = Ok r -> s < m -> inside pol p ->
  (forall c, c < n -> exists q, median_of (column data nt (s * n + c) p) (Some q) /\ (q == a + b * qn c)%Q) ->
  ~ (a + b * (qn n / 2 - 1) == 0)%Q ->
  forall t c v, t < nt -> c < n -> get data (t :: (s * n + c) :: p) = Some v -> ~ (a + b * (qn c - 1 / 2) == 0)%Q ->
  exists w, get r (t :: (s * n + c) :: p) = Some w /\
    (w * (a + b * (qn c - 1 / 2)) == v * (a + b * (qn n / 2 - 1)))%Q.
Proof. exact flatten_affine. Qed.
Print Assumptions C75_affine.
(** A linear sub-band is not flattened: half a channel is missing. *)
Theorem C75_affine_refuted : exists r, flatten_subband ramp4 4 = Ok r /\
  map (fun f => option_map Qred (get r [0; f])) [0; 1; 2; 3] = [Some 4; Some (8 # 3); Some (12 # 5); Some (16 # 7)]%Q.
Proof. exact flatten_ramp. Qed.
Print Assumptions C75_affine_refuted.
Theorem C75_single_channel : forall data nt m pol r t s p, sh data = nt :: m * 1 :: pol ->
  flatten_subband data 1 = Ok r -> t < nt -> s < m -> inside pol p -> get r (t :: s :: p) = None.
Proof. exact flatten_single. Qed.
Print Assumptions C75_single_channel.
Theorem C75_refused : forall data n,
  (length (sh data) < 2 -> flatten_subband data n = Err EIndexError) /\
  (forall nt nf pol, sh data = nt :: nf :: pol -> 0 < n -> nf mod n <> 0 -> flatten_subband data n = Err EValueError).
Proof. exact flatten_refused. Qed.
Print Assumptions C75_refused.
Definition flat2 : nd sample := mkNd [3; 4] (fun idx =>
  match idx with [t; f] => Some (inject_Z (Z.of_nat (if f <? 2 then 2 + t * (1 + f) else 5 + t + f))) | _ => None end).
Example C75_ex : match flatten_subband flat2 2 with
  | Ok r => map (fun f => option_map Qred (get r [2; f])) [0; 1; 2; 3] =
            [Some (24 # 5); Some (36 # 7); Some (48 # 5); Some (160 # 17)]%Q
  | Err _ => False
  end /\
  (forall c, c < 2 -> exists q, median_of (column flat2 3 (0 * 2 + c) []) (Some q) /\ (q == 3 + 1 * qn c)%Q).
Proof.
  split; [vm_compute; reflexivity|]. intros c C.
  pose proof (nanmedian_spec (column flat2 3 (0 * 2 + c) [])) as M.
  destruct c as [|[|c]].
  - eexists. split; [exact M|]. vm_compute. reflexivity.
  - eexists. split; [exact M|]. vm_compute. reflexivity.
  - exfalso. do 2 apply Nat.succ_lt_mono in C. inversion C.
Qed.
