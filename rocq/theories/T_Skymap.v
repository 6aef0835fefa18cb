(** Properties of maps of skies (C186 to C190). *)
From Coq Require Import ZArith QArith Qround Qabs Bool List Lia Lqa Permutation.
From Verif Require Import Base M_Skymap P_Skymap P_Skymap2.
Import ListNotations.
Open Scope nat_scope.
Open Scope list_scope.

(** ** C186: the image *)
Theorem C186_pixel : forall c r d w s, compute_wcs c r d = Ok (w, s) -> (0 < r)%Q -> (r <= 675 # 1000)%Q -> (r <= size w < 2 * r)%Q.
Proof. exact wcs_pixel. Qed.
Print Assumptions C186_pixel.
Theorem C186_full : forall c r w s, compute_wcs c r None = Ok (w, s) ->
  (inject_Z (fst s) * size w == 324 /\ inject_Z (snd s) * size w == 162)%Q.
Proof. exact wcs_full. Qed.
Print Assumptions C186_full.
Theorem C186_radius : forall c r d w s, compute_wcs c r (Some d) = Ok (w, s) -> (0 <= d)%Q ->
  fst s = snd s /\ (0 <= fst s)%Z /\ (inject_Z (fst s) * size w <= 2 * d < (inject_Z (fst s) + 1) * size w)%Q.
Proof. exact wcs_radius. Qed.
Print Assumptions C186_radius.
Theorem C186_center : forall c r d w s, compute_wcs c r d = Ok (w, s) ->
  w_val w = c /\ (fst (w_pix w) == (1 + inject_Z (fst s)) / 2 /\ snd (w_pix w) == (1 + inject_Z (snd s)) / 2)%Q /\
  (fst (w_delt w) == - size w)%Q /\ (0 < size w)%Q.
Proof. exact wcs_center. Qed.
Print Assumptions C186_center.
Theorem C186_healpix : forall c r d w s, compute_wcs c r d = Ok (w, s) <-> compute_wcs_hpx c r d = Ok (w, (snd s, fst s)).
Proof. exact wcs_hpx. Qed.
Print Assumptions C186_healpix.
Theorem C186_defined : forall c r d, ~ (r == 0)%Q -> exists w s, compute_wcs c r d = Ok (w, s).
Proof. exact wcs_total. Qed.
Print Assumptions C186_defined.
Theorem C186_refused : forall c r d, (r == 0)%Q -> compute_wcs c r d = Err EOverflowError.
Proof. exact wcs_refused. Qed.
Print Assumptions C186_refused.
Theorem C186_threshold_refuted : forall c r d, (27 # 80 < r)%Q \/ (r < 0)%Q -> compute_wcs c r d = compute_wcs c 1 d.
Proof. exact wcs_threshold_refuted. Qed.
Print Assumptions C186_threshold_refuted.
Definition told (r : res (wcs * (Z * Z))) : res (Q * (Z * Z)) := bind r (fun r => Ok (Qred (size (fst r)), snd r)).
Example C186_ex : told (compute_wcs (0, 0)%Q (1 # 5)%Q None) = Ok ((9 # 40)%Q, (1440, 720)%Z) /\
  told (compute_wcs (10, 20)%Q (1 # 5)%Q (Some 25%Q)) = Ok ((9 # 40)%Q, (222, 222)%Z) /\
  told (compute_wcs (0, 0)%Q (1 # 2)%Q None) = Ok ((27 # 40)%Q, (480, 240)%Z) /\ told (compute_wcs (0, 0)%Q 5%Q None) = Ok ((27 # 40)%Q, (480, 240)%Z) /\
  told (compute_wcs_hpx (0, 0)%Q 5%Q None) = Ok ((27 # 40)%Q, (240, 480)%Z) /\ (27 # 80 < 1 # 2)%Q.
Proof. repeat split; reflexivity. Qed.

(** ** C187: each pixel *)
Theorem C187_mean : forall (nx ny : nat) only l, exists img, image nx ny only l = Ok img /\ length img = ny /\ Forall (fun r => length r = nx) img /\
  forall i j, i < nx -> j < ny -> average (here only i j l) (pixel img i j).
Proof. exact image_pixel. Qed.
Print Assumptions C187_mean.
Theorem C187_refused : forall nx ny points values hidden, length values <> length points -> project nx ny points values hidden = Err EIndexError.
Proof. exact image_refused. Qed.
Print Assumptions C187_refused.
Theorem C187_half_refuted : forall nx ny only k x y v b img, nearest k x -> (x < inject_Z (Z.of_nat k))%Q ->
  let l := [mkSpot (Some x, Some y) v b] in image nx ny only l = Ok img ->
  (forall j, k < nx -> j < ny -> pixel img k j = None) /\ (forall j, 0 < k -> here only (k - 1) j l = if within j y then [show only (mkSpot (Some x, Some y) v b)] else []) /\
  (k = 0 -> forall i j, i < nx -> j < ny -> pixel img i j = None).
Proof. exact image_half_refuted. Qed.
Print Assumptions C187_half_refuted.
Definition spots : list spot :=
  [mkSpot (Some (1 # 4), Some (1 # 2))%Q (Some 2%Q) false; mkSpot (Some (3 # 4), Some (1 # 4))%Q (Some 4%Q) false;
   mkSpot (Some (3 # 2), Some (1 # 4))%Q (Some 8%Q) true; mkSpot (Some (3 # 2), Some (5 # 4))%Q (Some 5%Q) false;
   mkSpot (Some (- (1 # 4)), Some (1 # 4))%Q (Some 7%Q) false; mkSpot (None, Some (1 # 4))%Q (Some 9%Q) false].
Definition reduced (r : res (list (list (option Q)))) : res (list (list (option Q))) := bind r (fun r => Ok (map (map (option_map Qred)) r)).
Example C187_ex : reduced (image 2 2 false spots) = Ok [[Some 3%Q; Some 8%Q]; [None; Some 5%Q]] /\
  reduced (image 2 2 true spots) = Ok [[Some 3%Q; None]; [None; Some 5%Q]] /\
  here false 0 0 spots = [Some 2%Q; Some 4%Q] /\ here true 1 0 spots = [None] /\
  project 2 2 [] [None] None = Err EIndexError /\
  nearest 1 (3 # 4) /\ (3 # 4 < inject_Z (Z.of_nat 1))%Q /\ reduced (image 2 1 false [mkSpot (Some (3 # 4), Some 0)%Q (Some 5%Q) false]) = Ok [[Some 5%Q; None]] /\
  reduced (image 2 1 false [mkSpot (Some (- (1 # 4)), Some 0)%Q (Some 5%Q) false]) = Ok [[None; None]].
Proof. repeat (split; [reflexivity|]). split; [split; reflexivity || discriminate|]. repeat split; reflexivity. Qed.

(** ** C188: the whole image *)
Theorem C188_order : forall nx ny only l l' img img', Permutation l l' -> image nx ny only l = Ok img -> image nx ny only l' = Ok img' ->
  forall i j, i < nx -> j < ny -> close (pixel img i j) (pixel img' i j).
Proof. exact image_order. Qed.
Print Assumptions C188_order.
Theorem C188_sum : forall nx ny only l img, image nx ny only l = Ok img -> (forall s, In s l -> in_image nx ny s = true -> show only s <> None) ->
  (total (map (fun p => or_zero (pixel img (fst p) (snd p)) * inject_Z (Z.of_nat (length (here only (fst p) (snd p) l)))) (every nx ny)) ==
   total (map (fun s => or_zero (show only s)) (filter (in_image nx ny) l)))%Q.
Proof. exact image_sum. Qed.
Print Assumptions C188_sum.
Example C188_ex : (forall s, In s spots -> in_image 2 2 s = true -> show false s <> None) /\ map (in_image 2 2) spots = [true; true; true; true; false; false] /\
  reduced (image 2 2 false (rev spots)) = reduced (image 2 2 false spots).
Proof. split; [intros s H _; repeat (destruct H as [<-|H]; [discriminate|]); destruct H|]. split; reflexivity. Qed.

(** ** C189: resolution of HEALPix *)
Theorem C189_nearest : forall (base : Q) r, exists k, k < 30 /\ resol2nside base r = ((2 ^ Z.of_nat k)%Z, (base / inject_Z (2 ^ Z.of_nat k))%Q) /\
  (forall j, j < 30 -> (Qabs (base / inject_Z (2 ^ Z.of_nat k) - r) <= Qabs (base / inject_Z (2 ^ Z.of_nat j) - r))%Q).
Proof. exact nside_nearest. Qed.
Print Assumptions C189_nearest.
Theorem C189_factor : forall (base : Q), (0 < base)%Q -> forall r, (base / inject_Z (2 ^ 29) <= r <= base)%Q ->
  let e := snd (resol2nside base r) in ((3 # 4) * e <= r <= (3 # 2) * e)%Q.
Proof. exact nside_factor. Qed.
Print Assumptions C189_factor.
Theorem C189_monotone : forall (base : Q), (0 < base)%Q -> forall r r', (r <= r')%Q -> (fst (resol2nside base r') <= fst (resol2nside base r))%Z.
Proof. exact nside_monotone. Qed.
Print Assumptions C189_monotone.
Theorem C189_negative_refuted : forall (base : Q), (0 < base)%Q -> forall r, (r <= base / inject_Z (2 ^ 29))%Q -> fst (resol2nside base r) = (2 ^ 29)%Z.
Proof. exact nside_negative. Qed.
Print Assumptions C189_negative_refuted.
Definition degrees : Q := 5863 # 100.
Example C189_ex : (let r := resol2nside degrees 1 in (fst r, Qred (snd r))) = (64%Z, Qred (5863 # 6400)) /\ fst (resol2nside degrees (1 # 10)) = 512%Z /\
  fst (resol2nside degrees 0) = 536870912%Z /\ fst (resol2nside degrees 90) = 1%Z /\ (0 < degrees)%Q /\ (degrees / inject_Z (2 ^ 29) <= 1 <= degrees)%Q.
Proof. repeat split; vm_compute; (reflexivity || discriminate). Qed.

(** ** C190: skies of the same pixels *)
Theorem C190_again : forall (base : Q), (0 < base)%Q -> forall r, resol2nside base (snd (resol2nside base r)) = resol2nside base r.
Proof. exact nside_again. Qed.
Print Assumptions C190_again.
Theorem C190_like : forall (base : Q), (0 < base)%Q -> forall h, built base h -> exists h', shaped_like base (Some h) = Ok h' /\ h_nside h' = h_nside h /\ h_resolution h' = h_resolution h /\
  npix h' = npix h /\ h_time h' = h_time h /\ h_freq h' = h_freq h /\ h_pol h' = h_pol h /\ h_observer h' = h_observer h /\ h_value h' = 0%Q.
Proof. exact shaped_like_same. Qed.
Print Assumptions C190_like.
Theorem C190_chain : forall (base : Q), (0 < base)%Q -> forall n h, built base h -> exists h', copies base n h = Ok h' /\ h_nside h' = h_nside h /\ built base h'.
Proof. exact shaped_like_chain. Qed.
Print Assumptions C190_chain.
Theorem C190_refused : forall (base : Q), shaped_like base None = Err ETypeError.
Proof. exact shaped_like_refused. Qed.
Print Assumptions C190_refused.
Example C190_ex : built degrees (new_hpx degrees 1 [7]%Z [30]%Z [0]%Z 5%Z 3%Q) /\
  (match copies degrees 3 (new_hpx degrees 1 [7]%Z [30]%Z [0]%Z 5%Z 3%Q) with Ok h => (h_nside h, npix h, h_value h) | Err _ => (0%Z, 0%Z, 0%Q) end) = (64%Z, 49152%Z, 0%Q).
Proof. split; [unfold built; eauto 10|vm_compute; reflexivity]. Qed.
