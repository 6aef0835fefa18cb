(** C88 to C91: analog pointing. *)
From Coq Require Import ZArith QArith Qabs Lqa Bool List Arith Lia Sorting.Sorted.
From Verif Require Import Base M_Analog P_Analog P_Analog2.
Import ListNotations.
Open Scope nat_scope.
Open Scope list_scope.

(** For the examples: coordinates in steps, and the square of the distance. *)
Definition flat_place (d : dir) : Q * Q := match d with Steps a b => (inject_Z a, inject_Z b) | Nadir => (1000 # 1, 1000 # 1)%Q end.
Definition flat_sep (c : Q * Q) (d : dir) : Q :=
  (let p := flat_place d in (fst c - fst p) * (fst c - fst p) + (snd c - snd p) * (snd c - snd p))%Q.
Lemma flat_faithful : forall d d', on_grid d -> on_grid d' -> d' <> d -> (flat_sep (flat_place d) d < flat_sep (flat_place d) d')%Q.
Proof.
  intros d d' G G' N. apply grid_directions in G, G'.
  assert (X : forall a b a' b' : Z, (a <> a' \/ b <> b') -> ((inject_Z a - inject_Z a) * (inject_Z a - inject_Z a) + (inject_Z b - inject_Z b) * (inject_Z b - inject_Z b)
    < (inject_Z a - inject_Z a') * (inject_Z a - inject_Z a') + (inject_Z b - inject_Z b') * (inject_Z b - inject_Z b'))%Q).
  { intros a b a' b' H. unfold Qminus. rewrite <- !inject_Z_opp, <- !inject_Z_plus, <- !inject_Z_mult, <- !inject_Z_plus, <- Zlt_Qlt. rewrite !Z.add_opp_diag_r.
    pose proof (Z.square_nonneg (a + - a')). pose proof (Z.square_nonneg (b + - b')).
    assert (a + - a' <> 0 \/ b + - b' <> 0)%Z by lia. destruct H2; nia. }
  unfold flat_sep. cbv zeta.
  destruct G as [(a & b & -> & Ba & Bb & _)| ->], G' as [(a' & b' & -> & Ba' & Bb' & _)| ->]; cbn [flat_place fst snd].
  - apply X. destruct (Z.eq_dec a a') as [->|]; [|auto]. destruct (Z.eq_dec b b') as [->|]; [congruence|auto].
  - apply (X a b 1000%Z 1000%Z). lia.
  - apply (X 1000%Z 1000%Z a' b'). lia.
  - congruence.
Qed.

(** * C88: orders and directions *)
Theorem C88_grid : forall d, on_grid d <->
  (exists k1 k2, d = Steps k1 k2 /\ (-63 <= k1 <= 63)%Z /\ (-63 <= k2 <= 63)%Z /\ ((3 # 200) ^ 2 * inject_Z (k1 * k1 + k2 * k2) <= 1)%Q) \/ d = Nadir.
Proof. exact @grid_directions. Qed.
Print Assumptions C88_grid.
Theorem C88_nearest : forall (C : Type) (sep : C -> dir -> Q), forall l, exists orders dirs,
  pointing_order sep false (Vector l) = Ok orders /\ pointing_coordinates orders = Ok dirs /\
  Forall (fun o => fst o < 128 /\ snd o < 128 /\ fst o <> 64 /\ snd o <> 64) orders /\
  Forall2 (nearest sep) l dirs.
Proof. exact @orders_nearest. Qed.
Print Assumptions C88_nearest.
Theorem C88_scalar : forall (C : Type) (sep : C -> dir -> Q), forall c, pointing_order sep false (Scalar c) = pointing_order sep false (Vector [c]).
Proof. exact @order_one. Qed.
Print Assumptions C88_scalar.
Theorem C88_round_trip : forall (C : Type) (sep : C -> dir -> Q), forall o c d, fst o <> 64 -> snd o <> 64 -> pointing_coordinates [o] = Ok [d] -> d <> Nadir ->
  nearest_alone sep c d -> pointing_order sep false (Scalar c) = Ok [o].
Proof. exact @order_back. Qed.
Print Assumptions C88_round_trip.
Theorem C88_dimensions : forall (C : Type) (sep : C -> dir -> Q), forall w, pointing_order sep w Higher = Err EException.
Proof. exact @order_higher. Qed.
Print Assumptions C88_dimensions.
Theorem C88_out_of_range : forall orders, Exists (fun o => 128 <= fst o \/ 128 <= snd o) orders -> pointing_coordinates orders = Err EIndexError.
Proof. exact @coordinates_out. Qed.
Print Assumptions C88_out_of_range.

Lemma flat_alone : forall a b, on_grid (Steps a b) -> nearest_alone flat_sep (inject_Z a, inject_Z b) (Steps a b).
Proof. intros a b G. split; [exact G|]. intros d' G' N. exact (flat_faithful (Steps a b) d' G G' N). Qed.
Example C88_ex : pointing_order flat_sep false (Scalar (5 # 1, (-7) # 1)%Q) = Ok [(71, 69)] /\
  pointing_coordinates [(71, 69); (59, 74)] = Ok [Steps 5 (-7); Steps 10 4] /\
  nearest_alone flat_sep (5 # 1, (-7) # 1)%Q (Steps 5 (-7)) /\ on_grid (Steps 5 (-7)) /\
  pointing_order flat_sep false (Scalar (0, 0)%Q) = Ok [(63, 63)] /\ pointing_coordinates [(3, 128)] = Err EIndexError.
Proof.
  assert (G : on_grid (Steps 5 (-7))) by (apply grid_directions; left; exists 5%Z, (-7)%Z; repeat split; try lia; discriminate).
  split; [apply (C88_round_trip _ flat_sep (71, 69) (5 # 1, (-7) # 1)%Q (Steps 5 (-7))); [discriminate|discriminate|reflexivity|discriminate|exact (flat_alone 5 (-7) G)]|].
  split; [reflexivity|]. split; [exact (flat_alone 5 (-7) G)|]. split; [exact G|]. split; [vm_compute; reflexivity|reflexivity].
Qed.

(** * C89: the direction of a Mini-Array *)
Theorem C89_pulled : forall (C : Type) (sep : C -> dir -> Q), forall c, exists d, nearest sep c d /\ (d = Nadir \/ snap sep c = Ok (pulled d)).
Proof. exact @snap_pulled. Qed.
Print Assumptions C89_pulled.
Theorem C89_exact : forall (C : Type) (sep : C -> dir -> Q), forall c d, nearest_alone sep c d -> d <> Nadir -> snap sep c = Ok (pulled d).
Proof. exact @snap_alone. Qed.
Print Assumptions C89_exact.
Theorem C89_right : forall (C : Type) (sep : C -> dir -> Q), forall c k1 k2, nearest_alone sep c (Steps k1 k2) -> (k1 <= 0)%Z -> (0 <= k2)%Z -> snap sep c = Ok (Steps k1 k2).
Proof. exact @snap_right. Qed.
Print Assumptions C89_right.
Theorem C89_nearest_refuted : forall (C : Type) (sep : C -> dir -> Q), forall c k1 k2, nearest_alone sep c (Steps k1 k2) -> (0 < k1)%Z \/ (k2 < 0)%Z ->
  exists d, snap sep c = Ok d /\ on_grid d /\ d <> Steps k1 k2 /\ (sep c (Steps k1 k2) < sep c d)%Q.
Proof. exact @snap_refuted. Qed.
Print Assumptions C89_nearest_refuted.
Theorem C89_same_as_wrong : forall (C : Type) (sep : C -> dir -> Q), forall c, exists o, pointing_order sep true (Scalar c) = Ok [o] /\
  (forall d, nearest_alone sep c d -> d <> Nadir -> pointing_coordinates [o] = Ok [pulled d] /\ snap sep c = Ok (pulled d)).
Proof. exact @wrong_is_snap. Qed.
Print Assumptions C89_same_as_wrong.
Theorem C89_one_only : forall (C : Type) (sep : C -> dir -> Q), forall l, length l <> 1 -> skycoord_to_order sep l = Err EValueError.
Proof. exact @snap_size. Qed.
Print Assumptions C89_one_only.
Theorem C89_drift : forall (C : Type) (sep : C -> dir -> Q) (place : dir -> C), (forall d d', on_grid d -> on_grid d' -> d' <> d -> (sep (place d) d < sep (place d) d')%Q) -> forall n k1 k2 p, on_grid (Steps k1 k2) -> horizontal p = [place (Steps k1 k2)] ->
  horizontal (times n (analog_pointing (adjust sep place)) p) = [place (Steps (toward1 n k1) (toward2 n k2))] /\
  p_sky (times n (analog_pointing (adjust sep place)) p) = p_sky p.
Proof. exact @pointing_drifts. Qed.
Print Assumptions C89_drift.

Example C89_ex : snap flat_sep (5 # 1, (-7) # 1)%Q = Ok (Steps 4 (-6)) /\ snap flat_sep ((-5) # 1, 7 # 1)%Q = Ok (Steps (-5) 7) /\
  horizontal (times 3 (analog_pointing (adjust flat_sep flat_place)) (mkPointing [(5 # 1, (-7) # 1)%Q] None)) = [(2 # 1, (-4) # 1)%Q] /\
  flat_place (Steps 5 (-7)) = (5 # 1, (-7) # 1)%Q.
Proof.
  assert (G : on_grid (Steps 5 (-7))) by (apply grid_directions; left; exists 5%Z, (-7)%Z; repeat split; try lia; discriminate).
  assert (G2 : on_grid (Steps (-5) 7)) by (apply grid_directions; left; exists (-5)%Z, 7%Z; repeat split; try lia; discriminate).
  split; [vm_compute; reflexivity|]. split; [exact (C89_right _ flat_sep _ (-5) 7 (flat_alone (-5) 7 G2) ltac:(lia) ltac:(lia))|].
  split; [|reflexivity]. exact (proj1 (C89_drift _ flat_sep flat_place flat_faithful 3 5 (-7) (mkPointing [(5 # 1, (-7) # 1)%Q] None) G eq_refl)).
Qed.

(** * C90: beams of the array *)
Theorem C90_directions : forall C (adjusts : list (C -> C)) p numeric used p', nenufar_beam adjusts p = (numeric, used, p') ->
  numeric = horizontal p /\
  (length used = length adjusts /\ forall i, i < length adjusts ->
     nth_error used i = Some (map (compose (firstn (S i) adjusts)) (horizontal p))) /\
  p_sky p' = p_sky p /\ (adjusts <> [] -> p_custom p' = Some (map (compose adjusts) (horizontal p))).
Proof. exact @beam_directions. Qed.
Print Assumptions C90_directions.
Theorem C90_independent : forall C (adjusts : list (C -> C)) p, (forall a a' c, In a adjusts -> In a' adjusts -> a' (a c) = a' c) ->
  snd (fst (nenufar_beam adjusts p)) = map (fun a => map a (horizontal p)) adjusts.
Proof. exact @beam_independent. Qed.
Print Assumptions C90_independent.
Theorem C90_one_rotation : forall C (a : C -> C) p, snd (fst (nenufar_beam [a] p)) = [map a (horizontal p)].
Proof. exact @beam_one_rotation. Qed.
Print Assumptions C90_one_rotation.
Theorem C90_independent_refuted : exists (adjusts : list (Q * Q -> Q * Q)) p,
  snd (fst (nenufar_beam adjusts p)) <> map (fun a => map a (horizontal p)) adjusts.
Proof. exact @beam_independent_refuted. Qed.
Print Assumptions C90_independent_refuted.
Theorem C90_sinks : forall C (el : C -> Q) (adjusts : list (C -> C)) p c i u v, (forall a c, In a adjusts -> (el (a c) < el c)%Q) ->
  horizontal p = [c] -> nth_error (snd (fst (nenufar_beam adjusts p))) i = Some [u] -> nth_error (snd (fst (nenufar_beam adjusts p))) (S i) = Some [v] ->
  (el v < el u)%Q.
Proof. exact @beam_sinks. Qed.
Print Assumptions C90_sinks.
Theorem C90_second_call : forall C (adjusts adjusts' : list (C -> C)) p, adjusts <> [] ->
  fst (fst (nenufar_beam adjusts' (snd (nenufar_beam adjusts p)))) = map (compose adjusts) (horizontal p).
Proof. exact @beam_again. Qed.
Print Assumptions C90_second_call.

Example C90_ex : nenufar_beam [lower; twist; lower] (mkPointing [(180 # 1, 40 # 1)%Q] None) =
  ([(180 # 1, 40 # 1)%Q], [[lower (180 # 1, 40 # 1)%Q]; [twist (lower (180 # 1, 40 # 1)%Q)]; [lower (twist (lower (180 # 1, 40 # 1)%Q))]],
   mkPointing [(180 # 1, 40 # 1)%Q] (Some [lower (twist (lower (180 # 1, 40 # 1)%Q))])) /\
  (forall c, (snd (lower c) < snd c)%Q).
Proof. split; [reflexivity|]. intros [a e]. cbn. lra. Qed.

(** * C91: the beam squint correction *)
Theorem C91_squint : forall freqs wanted to_point f az el az' el', beamsquint freqs wanted to_point f (az, el) = Ok (az', el') ->
  az' = az /\ exists k row, nearest_row freqs f = Ok k /\ nth_error wanted k = Some row /\ interp el (combine row to_point) = Ok el'.
Proof. exact @squint_ok. Qed.
Print Assumptions C91_squint.
Theorem C91_row : forall freqs f k, nearest_row freqs f = Ok k -> exists x, nth_error freqs k = Some x /\
  (forall y, In y freqs -> (Qabs (x - f) <= Qabs (y - f))%Q) /\
  forall m y, m < k -> nth_error freqs m = Some y -> (Qabs (x - f) < Qabs (y - f))%Q.
Proof. exact @nearest_row_spec. Qed.
Print Assumptions C91_row.
Theorem C91_linear : forall x table l1 x0 y0 x1 y1 l2, increasing table -> table = l1 ++ (x0, y0) :: (x1, y1) :: l2 -> (x0 <= x <= x1)%Q ->
  exists v, interp x table = Ok v /\ (v * (x1 - x0) == y0 * (x1 - x) + y1 * (x - x0))%Q.
Proof. exact @interp_linear. Qed.
Print Assumptions C91_linear.
Theorem C91_ends : forall x a b l, increasing ((a, b) :: l) ->
  ((x <= a)%Q -> interp x ((a, b) :: l) = Ok b) /\
  ((fst (last l (a, b)) <= x)%Q -> exists v, interp x ((a, b) :: l) = Ok v /\ (v == snd (last l (a, b)))%Q).
Proof. exact @interp_ends. Qed.
Print Assumptions C91_ends.
Theorem C91_monotone : forall x x' table v v', increasing table -> rising table -> (x <= x')%Q ->
  interp x table = Ok v -> interp x' table = Ok v' -> (v <= v')%Q.
Proof. exact @interp_monotone. Qed.
Print Assumptions C91_monotone.

Definition squint_table : list (Q * Q) := [(20 # 1, 18 # 1); (50 # 1, 47 # 1); (90 # 1, 90 # 1)]%Q.
Example C91_ex : increasing squint_table /\ rising squint_table /\
  (exists e, beamsquint [20 # 1; 50 # 1; 80 # 1]%Q [[]; [20 # 1; 50 # 1; 90 # 1]; []]%Q [18 # 1; 47 # 1; 90 # 1]%Q (41 # 1)%Q (180 # 1, 35 # 1)%Q = Ok (180 # 1, e)%Q /\ (e == 65 # 2)%Q) /\
  nearest_row [20 # 1; 50 # 1; 80 # 1]%Q (65 # 1)%Q = Ok 1.
Proof.
  split; [repeat constructor|]. split; [repeat constructor; discriminate|]. split; [eexists; split; vm_compute; reflexivity|reflexivity].
Qed.
