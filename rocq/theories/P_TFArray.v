(** Time-frequency arrays: blocks, axes, channels and beams. *)
From Coq Require Import List Arith ZArith QArith Lqa Lia Bool Sorted.
From Verif Require Import Base M_Slots M_Nd P_Nd M_Rebin M_TFArray.
Import ListNotations.
Open Scope nat_scope.

(** ** Reshaping *)
Lemma reshape_at : forall A (a r : nd A) s idx jdx, reshape s a = Ok r -> inside (sh a) jdx ->
  ravel s idx = ravel (sh a) jdx -> get r idx = get a jdx.
Proof.
  intros A a r s idx jdx H J E. unfold reshape in H. destruct (size s =? size (sh a)); [|discriminate].
  injection H as <-. cbn [get]. rewrite E, unravel_ravel by exact J. reflexivity.
Qed.
Lemma reshape_ok : forall A (a : nd A) s, size s = size (sh a) -> exists r, reshape s a = Ok r /\ sh r = s.
Proof.
  intros A a s E. unfold reshape. rewrite E, Nat.eqb_refl. eexists. split; reflexivity.
Qed.
Lemma size1 : forall n, size [n] = n.
Proof. intros. cbn. lia. Qed.
Lemma inside2 : forall a b t i j p, i < a -> j < b -> inside t p -> inside (a :: b :: t) (i :: j :: p).
Proof. intros. now repeat (apply Forall2_cons; [assumption|]). Qed.

(** ** Blocks *)

(** The two halves of a beamlet are swapped. *)
Definition half_swap (h c : nat) : nat := if c <? h then c + h else c - h.
Lemma half_swap_lt : forall h c, c < 2 * h -> half_swap h c < 2 * h.
Proof. intros h c H. unfold half_swap. destruct (Nat.ltb_spec c h); lia. Qed.
Lemma half_swap_twice : forall h c, c < 2 * h -> half_swap h (half_swap h c) = c.
Proof.
  intros h c H. unfold half_swap. destruct (Nat.ltb_spec c h).
  - destruct (Nat.ltb_spec (c + h) h); lia.
  - destruct (Nat.ltb_spec (c - h) h); lia.
Qed.

Definition pols_ok (pol : list nat) : Prop := pol = [] \/ pol = [2; 2].

Theorem blocks_spec : forall A (data : nd A) B S T h pol, pols_ok pol -> 0 < h ->
  sh data = [B; S; T; 2 * h] ++ pol ->
  exists r, blocks_to_tf data T (2 * h) = Ok r /\ sh r = [B * T; S * (2 * h)] ++ pol /\
    forall b s t c p, b < B -> s < S -> t < T -> c < 2 * h -> inside pol p ->
      get r ((b * T + t) :: (s * (2 * h) + half_swap h c) :: p) = get data (b :: s :: t :: c :: p).
Proof.
  intros A data B S T h pol PK H E. unfold blocks_to_tf. rewrite E. cbn [app].
  assert (E0 : (2 * h) mod 2 = 0) by (rewrite Nat.mul_comm; apply Nat.mod_mul; lia).
  assert (E1 : 2 * h / 2 = h) by (rewrite Nat.mul_comm; apply Nat.div_mul; lia).
  assert (E2 : S * (2 * h) / (2 * h) = S) by (apply Nat.div_mul; lia).
  rewrite E0, E1, E2. cbn [Nat.eqb negb]. destruct (Nat.eqb_spec (2 * h) 0); [lia|].
  assert (PL : match Datatypes.length (B :: S :: T :: 2 * h :: pol) with 4 => Ok [] | 6 => Ok [2; 2] | _ => Err EIndexError end = Ok pol).
  { destruct PK as [-> | ->]; reflexivity. }
  rewrite PL. cbn [bind].
  assert (SW : sh (swapaxes12 data) = B :: T :: S :: 2 * h :: pol) by (unfold swapaxes12; cbn [sh]; now rewrite E).
  destruct (reshape_ok _ (swapaxes12 data) (B * T :: S :: 2 :: h :: pol)) as (d & D1 & D2).
  { rewrite SW, !size_cons. ring. }
  rewrite D1. cbn [bind].
  assert (RV : sh (reverse2 d) = B * T :: S :: 2 :: h :: pol) by exact D2.
  destruct (reshape_ok _ (reverse2 d) (B * T :: S * (2 * h) :: pol)) as (r & R1 & R2).
  { rewrite RV, !size_cons. ring. }
  exists r. split; [exact R1|]. split; [exact R2|].
  intros b s t c p Hb Hs Ht Hc Hp.
  set (k := if c <? h then 1 else 0). set (j := if c <? h then c else c - h).
  assert (K : k < 2) by (subst k; destruct (c <? h); lia).
  assert (J : j < h) by (subst j; destruct (Nat.ltb_spec c h); lia).
  assert (BT : b * T + t < B * T) by nia.
  rewrite (reshape_at _ _ _ _ _ (b * T + t :: s :: k :: j :: p) R1).
  - unfold reverse2. cbn [get]. rewrite D2. cbn [nth].
    rewrite (reshape_at _ _ _ _ _ (b :: t :: s :: c :: p) D1).
    + reflexivity.
    + rewrite SW. now repeat (apply Forall2_cons; [assumption|]).
    + rewrite SW. cbn [ravel]. rewrite !size_cons.
      assert (CC : (2 - 1 - k) * h + j = c).
      { subst k j. destruct (Nat.ltb_spec c h); lia. }
      rewrite <- CC. ring.
  - rewrite RV. now repeat (apply Forall2_cons; [assumption|]).
  - rewrite RV. cbn [ravel]. rewrite !size_cons.
    assert (CC : half_swap h c = k * h + j).
    { unfold half_swap. subst k j. destruct (Nat.ltb_spec c h); lia. }
    rewrite CC. ring.
Qed.

(** Every sample of the plane comes from exactly one raw sample. *)
Theorem blocks_bijection : forall B S T h i f, i < B * T -> f < S * (2 * h) ->
  exists! q, match q with (b, s, t, c) =>
    b < B /\ s < S /\ t < T /\ c < 2 * h /\ i = b * T + t /\ f = s * (2 * h) + half_swap h c end.
Proof.
  intros B S T h i f I F.
  assert (T0 : T <> 0) by nia. assert (H0 : 2 * h <> 0) by nia.
  exists (i / T, f / (2 * h), i mod T, half_swap h (f mod (2 * h))). split.
  - pose proof (Nat.div_mod i T T0). pose proof (Nat.div_mod f (2 * h) H0).
    pose proof (Nat.mod_upper_bound i T T0). pose proof (Nat.mod_upper_bound f (2 * h) H0).
    repeat split; try assumption.
    + apply Nat.div_lt_upper_bound; nia.
    + apply Nat.div_lt_upper_bound; nia.
    + now apply half_swap_lt.
    + nia.
    + rewrite half_swap_twice by assumption. nia.
  - intros [[[b s] t] c] (Hb & Hs & Ht & Hc & E1 & E2).
    pose proof (half_swap_lt h c Hc) as L.
    assert (D1 : i / T = b) by (rewrite E1; rewrite Nat.div_add_l by exact T0; rewrite Nat.div_small by exact Ht; lia).
    assert (M1 : i mod T = t) by (rewrite E1, Nat.add_comm, Nat.mod_add by exact T0; now apply Nat.mod_small).
    assert (D2 : f / (2 * h) = s) by (rewrite E2; rewrite Nat.div_add_l by exact H0; rewrite Nat.div_small by exact L; lia).
    assert (M2 : f mod (2 * h) = half_swap h c) by (rewrite E2, Nat.add_comm, Nat.mod_add by exact H0; now apply Nat.mod_small).
    rewrite D1, M1, D2, M2, half_swap_twice by exact Hc. reflexivity.
Qed.

(** Converting twice, seeing the plane as blocks of one time, gives the channels
    in the recorded order. *)
Theorem blocks_twice : forall A (data : nd A) B S T h pol, pols_ok pol -> 0 < h ->
  sh data = [B; S; T; 2 * h] ++ pol ->
  exists r r1 r2, blocks_to_tf data T (2 * h) = Ok r /\
    reshape ([B * T; S; 1; 2 * h] ++ pol) r = Ok r1 /\ blocks_to_tf r1 1 (2 * h) = Ok r2 /\
    forall b s t c p, b < B -> s < S -> t < T -> c < 2 * h -> inside pol p ->
      get r2 ((b * T + t) :: (s * (2 * h) + c) :: p) = get data (b :: s :: t :: c :: p).
Proof.
  intros A data B S T h pol PK H E.
  destruct (blocks_spec A data B S T h pol PK H E) as (r & R1 & R2 & R3).
  destruct (reshape_ok _ r ([B * T; S; 1; 2 * h] ++ pol)) as (r1 & Q1 & Q2).
  { rewrite R2. cbn [app]. rewrite !size_cons. ring. }
  destruct (blocks_spec A r1 (B * T) S 1 h pol PK H Q2) as (r2 & P1 & P2 & P3).
  exists r, r1, r2. split; [exact R1|]. split; [exact Q1|]. split; [exact P1|].
  intros b s t c p Hb Hs Ht Hc Hp.
  assert (BT : b * T + t < B * T) by nia.
  pose proof (half_swap_lt h c Hc) as L.
  specialize (P3 (b * T + t) s 0 (half_swap h c) p BT Hs ltac:(lia) L Hp).
  rewrite half_swap_twice in P3 by exact Hc.
  replace ((b * T + t) * 1 + 0) with (b * T + t) in P3 by lia. rewrite P3.
  rewrite <- (R3 b s t c p) by assumption.
  apply (reshape_at _ _ _ _ _ (b * T + t :: s * (2 * h) + half_swap h c :: p) Q1).
  - rewrite R2. cbn [app]. apply inside2; auto. nia.
  - rewrite R2. cbn [app ravel]. rewrite !size_cons. ring.
Qed.

Theorem blocks_odd : forall A (data : nd A) T n ntb nfb rest, sh data = ntb :: nfb :: rest ->
  Nat.odd n = true -> blocks_to_tf data T n = Err EValueError.
Proof.
  intros A data T n ntb nfb rest E O. unfold blocks_to_tf. rewrite E.
  assert (M : n mod 2 = 1).
  { apply Nat.odd_spec in O. destruct O as [k ->]. rewrite Nat.add_comm, Nat.mul_comm.
    rewrite Nat.mod_add by lia. reflexivity. }
  rewrite M. reflexivity.
Qed.
Theorem blocks_dims : forall A (data : nd A) T n ntb nfb rest, sh data = ntb :: nfb :: rest ->
  n mod 2 = 0 -> 0 < n -> length (sh data) <> 4 -> length (sh data) <> 6 ->
  blocks_to_tf data T n = Err EIndexError.
Proof.
  intros A data T n ntb nfb rest E M P L4 L6. unfold blocks_to_tf. rewrite E in *. rewrite M.
  cbn [Nat.eqb negb]. destruct (Nat.eqb_spec n 0); [lia|].
  destruct (length (ntb :: nfb :: rest)) as [|[|[|[|[|[|[|k]]]]]]]; cbn [bind]; congruence.
Qed.
(** A size which does not fit is refused, another split of the same size is not. *)
Theorem blocks_sizes : forall A (data : nd A) B S T T' m h pol, pols_ok pol ->
  sh data = [B; S; T; m] ++ pol -> 0 < h -> 0 < B -> 0 < S -> T * m <> T' * (2 * h) ->
  blocks_to_tf data T' (2 * h) = Err EValueError.
Proof.
  intros A data B S T T' m h pol PK E H HB HS N. unfold blocks_to_tf. rewrite E. cbn [app].
  assert (E0 : (2 * h) mod 2 = 0) by (rewrite Nat.mul_comm; apply Nat.mod_mul; lia).
  assert (E1 : 2 * h / 2 = h) by (rewrite Nat.mul_comm; apply Nat.div_mul; lia).
  assert (E2 : S * (2 * h) / (2 * h) = S) by (apply Nat.div_mul; lia).
  rewrite E0, E1, E2. cbn [Nat.eqb negb]. destruct (Nat.eqb_spec (2 * h) 0); [lia|].
  assert (PL : match Datatypes.length (B :: S :: T :: m :: pol) with 4 => Ok [] | 6 => Ok [2; 2] | _ => Err EIndexError end = Ok pol).
  { destruct PK as [-> | ->]; reflexivity. }
  rewrite PL. cbn [bind]. unfold reshape at 1.
  assert (SW : sh (swapaxes12 data) = B :: T :: S :: m :: pol) by (unfold swapaxes12; cbn [sh]; now rewrite E).
  rewrite SW. destruct (Nat.eqb_spec (size (B * T' :: S :: 2 :: h :: pol)) (size (B :: T :: S :: m :: pol))) as [X|X]; [|reflexivity].
  exfalso. rewrite !size_cons in X.
  assert (P0 : 0 < size pol) by (destruct PK as [-> | ->]; cbn; lia).
  apply N. assert ((B * S * size pol) * (T' * (2 * h)) = (B * S * size pol) * (T * m)) by (rewrite <- X || idtac; nia).
  apply Nat.mul_cancel_l in H0; [lia|]. nia.
Qed.

(** ** Axes *)
Lemma qn_add : forall a b, (qn (a + b) == qn a + qn b)%Q.
Proof. intros. unfold qn. rewrite Nat2Z.inj_add, inject_Z_plus. reflexivity. Qed.
Lemma qn_S : forall a, (qn (S a) == qn a + 1)%Q.
Proof. intros. unfold qn. rewrite Nat2Z.inj_succ. unfold Z.succ. rewrite inject_Z_plus. reflexivity. Qed.

Lemma nth_tile : forall A (l : list A) d k s c, s < k -> c < length l ->
  nth (s * length l + c) (concat (repeat l k)) d = nth c l d.
Proof.
  intros A l d. induction k as [|k IH]; intros s c L C; [lia|].
  cbn [repeat concat]. destruct s as [|s].
  - cbn [Nat.mul Nat.add]. now apply app_nth1.
  - rewrite app_nth2 by (cbn [Nat.mul]; lia).
    replace (S s * length l + c - length l) with (s * length l + c) by (cbn [Nat.mul]; lia).
    apply IH; lia.
Qed.
Lemma length_tile : forall A (l : list A) k, length (concat (repeat l k)) = k * length l.
Proof. induction k as [|k IH]; [reflexivity|]. cbn [repeat concat]. rewrite app_length, IH. reflexivity. Qed.
Lemma nth_map_seq : forall A (f : nat -> A) n i d, i < n -> nth i (map f (seq 0 n)) d = f i.
Proof.
  intros A f n i d H. rewrite (nth_indep _ d (f 0)) by (now rewrite map_length, seq_length).
  rewrite map_nth, seq_nth by exact H. reflexivity.
Qed.

Theorem frequencies_spec : forall starts n df,
  exists r, spectra_frequencies starts n df = Ok r /\ sh r = [length starts * n] /\
    forall s c, s < length starts -> c < n ->
      (get r [(s * n + c)%nat] == nth s starts 0 + (qn c - qn n / 2) * df)%Q.
Proof.
  intros starts n df. unfold spectra_frequencies.
  set (ramp := map (fun c => (qn c - qn n / 2)%Q) (seq 0 n)).
  assert (RL : length ramp = n) by (unfold ramp; now rewrite map_length, seq_length).
  set (tiled := of_list 0%Q (concat (repeat ramp (length starts)))).
  assert (TS : sh tiled = [length starts * n]) by (unfold tiled, of_list; cbn [sh]; now rewrite length_tile, RL).
  destruct (reshape_ok _ tiled [length starts; n]) as (d & D1 & D2).
  { rewrite TS, !size_cons. cbn [size fold_right]. lia. }
  rewrite D1. cbn [bind].
  set (f := mkNd (sh (nmap (fun x => (x * df)%Q) d))
     (fun idx => (get (nmap (fun x => (x * df)%Q) d) idx + nth (hd 0%nat idx) starts 0)%Q)).
  assert (FS : sh f = [length starts; n]) by exact D2.
  destruct (reshape_ok _ f [length starts * n]) as (r & R1 & R2).
  { rewrite FS, !size_cons. cbn. lia. }
  exists r. split; [exact R1|]. split; [exact R2|]. intros s c Hs Hc.
  rewrite (reshape_at _ _ _ _ _ [s; c] R1).
  - unfold f, nmap. cbn [get hd].
    rewrite (reshape_at _ _ _ _ _ [s * n + c] D1).
    + unfold tiled, of_list. cbn [get hd].
      replace (s * n + c) with (s * length ramp + c) by (now rewrite RL).
      rewrite nth_tile by (rewrite ?RL; assumption).
      unfold ramp. rewrite nth_map_seq by exact Hc. lra.
    + rewrite TS. constructor; [nia|constructor].
    + rewrite TS. cbn [ravel size fold_right]. lia.
  - rewrite FS. repeat (apply Forall2_cons; [assumption|]). constructor.
  - rewrite FS. cbn [ravel size fold_right]. lia.
Qed.

Theorem time_spec : forall starts n dt,
  exists r, spectra_time starts n dt = Ok r /\ sh r = [length starts * n] /\
    forall s c, s < length starts -> c < n -> (get r [(s * n + c)%nat] == nth s starts 0 + qn c * dt)%Q.
Proof.
  intros starts n dt. unfold spectra_time.
  set (t := mkNd _ _).
  assert (FS : sh t = [length starts; n]) by reflexivity.
  destruct (reshape_ok _ t [length starts * n]) as (r & R1 & R2).
  { rewrite FS, !size_cons. cbn. lia. }
  exists r. split; [exact R1|]. split; [exact R2|]. intros s c Hs Hc.
  rewrite (reshape_at _ _ _ _ _ [s; c] R1).
  - unfold t. cbn [get hd nth]. rewrite nth_map_seq by exact Hc. lra.
  - rewrite FS. repeat (apply Forall2_cons; [assumption|]). constructor.
  - rewrite FS. cbn [ravel size fold_right]. lia.
Qed.

(** An axis of ramps of step [d] (offset [o]) starting at the given values. *)
Definition ramps (starts : list Q) (n : nat) (d o : Q) (r : nd Q) : Prop :=
  forall s c, s < length starts -> c < n -> (get r [(s * n + c)%nat] == nth s starts 0 + (qn c + o) * d)%Q.
Definition adjacent (starts : list Q) (w : Q) : Prop :=
  forall s, S s < length starts -> (nth (S s) starts 0 == nth s starts 0 + w)%Q.

Lemma ramps_uniform : forall starts n d o r, ramps starts n d o r -> adjacent starts (qn n * d)%Q ->
  forall k, S k < length starts * n -> (get r [S k] == get r [k] + d)%Q.
Proof.
  intros starts n d o r R A k K.
  assert (N0 : n <> 0) by nia.
  pose proof (Nat.div_mod k n N0) as DM. pose proof (Nat.mod_upper_bound k n N0) as MU.
  set (s := k / n) in *. set (c := k mod n) in *.
  assert (Hs : s < length starts) by (apply Nat.div_lt_upper_bound; nia).
  assert (RK := R s c Hs MU). replace (s * n + c) with k in RK by lia. rewrite RK.
  destruct (Nat.eq_dec (S c) n) as [E|E].
  - assert (HS : S s < length starts) by nia.
    assert (RS := R (S s) 0 HS ltac:(lia)). replace (S s * n + 0) with (S k) in RS by nia.
    rewrite RS, (A s HS). rewrite <- E. rewrite qn_S. change (qn 0) with 0%Q. ring.
  - assert (RS := R s (S c) Hs ltac:(lia)). replace (s * n + S c) with (S k) in RS by nia.
    rewrite RS, qn_S. ring.
Qed.

(** The axis increases if and only if each ramp starts after the end of the
    preceding one. *)
Definition spaced (starts : list Q) (w : Q) : Prop :=
  forall s, S s < length starts -> (nth s starts 0 + w < nth (S s) starts 0)%Q.
Lemma ramps_increasing : forall starts n d o r, ramps starts n d o r -> (0 < d)%Q -> 0 < n ->
  (forall k, S k < length starts * n -> (get r [k] < get r [S k])%Q) <-> spaced starts ((qn n - 1) * d)%Q.
Proof.
  intros starts n d o r R D N0. split.
  - intros H s HS.
    assert (R1 := R s (n - 1) ltac:(lia) ltac:(lia)). assert (R2 := R (S s) 0 HS N0).
    specialize (H (s * n + (n - 1)) ltac:(nia)).
    replace (S (s * n + (n - 1))) with (S s * n + 0) in H by nia.
    rewrite R1, R2 in H. change (qn 0) with 0%Q in H.
    assert (Q1 : (qn n == qn (n - 1) + 1)%Q) by (rewrite <- qn_S; replace (S (n - 1)) with n by lia; reflexivity).
    rewrite Q1. nra.
  - intros A k K.
    assert (N1 : n <> 0) by lia.
    pose proof (Nat.div_mod k n N1) as DM. pose proof (Nat.mod_upper_bound k n N1) as MU.
    set (s := k / n) in *. set (c := k mod n) in *.
    assert (Hs : s < length starts) by (apply Nat.div_lt_upper_bound; nia).
    assert (RK := R s c Hs MU). replace (s * n + c) with k in RK by lia. rewrite RK.
    destruct (Nat.eq_dec (S c) n) as [E|E].
    + assert (HS : S s < length starts) by nia.
      assert (RS := R (S s) 0 HS ltac:(lia)). replace (S s * n + 0) with (S k) in RS by nia.
      rewrite RS. specialize (A s HS). rewrite <- E, qn_S in A. change (qn 0) with 0%Q. nra.
    + assert (RS := R s (S c) Hs ltac:(lia)). replace (s * n + S c) with (S k) in RS by nia.
      rewrite RS, qn_S. nra.
Qed.

Lemma freq_ramps : forall starts n df r, spectra_frequencies starts n df = Ok r ->
  ramps starts n df (- (qn n / 2))%Q r.
Proof.
  intros starts n df r H s c Hs Hc. destruct (frequencies_spec starts n df) as (r' & H' & _ & E).
  rewrite H in H'. injection H' as <-. rewrite (E s c Hs Hc). ring.
Qed.
Lemma time_ramps : forall starts n dt r, spectra_time starts n dt = Ok r -> ramps starts n dt 0 r.
Proof.
  intros starts n dt r H s c Hs Hc. destruct (time_spec starts n dt) as (r' & H' & _ & E).
  rewrite H in H'. injection H' as <-. rewrite (E s c Hs Hc). ring.
Qed.

Theorem frequencies_uniform : forall starts n df r, spectra_frequencies starts n df = Ok r ->
  adjacent starts (qn n * df)%Q -> forall k, S k < length starts * n -> (get r [S k] == get r [k] + df)%Q.
Proof. intros. eapply ramps_uniform; eauto using freq_ramps. Qed.
Theorem time_uniform : forall starts n dt r, spectra_time starts n dt = Ok r ->
  adjacent starts (qn n * dt)%Q -> forall k, S k < length starts * n -> (get r [S k] == get r [k] + dt)%Q.
Proof. intros. eapply ramps_uniform; eauto using time_ramps. Qed.
Theorem frequencies_increasing : forall starts n df r, spectra_frequencies starts n df = Ok r ->
  (0 < df)%Q -> 0 < n ->
  (forall k, S k < length starts * n -> (get r [k] < get r [S k])%Q) <-> spaced starts ((qn n - 1) * df)%Q.
Proof. intros. eapply ramps_increasing; eauto using freq_ramps. Qed.
Theorem time_increasing : forall starts n dt r, spectra_time starts n dt = Ok r ->
  (0 < dt)%Q -> 0 < n ->
  (forall k, S k < length starts * n -> (get r [k] < get r [S k])%Q) <-> spaced starts ((qn n - 1) * dt)%Q.
Proof. intros. eapply ramps_increasing; eauto using time_ramps. Qed.

(** The mean frequency of a sub-band is half a channel below its starting
    frequency: the middle channel is the starting frequency. *)
Fixpoint qtotal (f : nat -> Q) (n : nat) : Q := match n with 0 => 0%Q | S m => (qtotal f m + f m)%Q end.
Lemma qtotal_affine : forall (f : nat -> Q) (n : nat) (a b : Q), (forall c, c < n -> (f c == a + qn c * b)%Q) ->
  (qtotal f n == qn n * a + qn n * (qn n - 1) / 2 * b)%Q.
Proof.
  intros f n a b. induction n as [|n IH]; intros H.
  - cbn [qtotal]. change (qn 0) with 0%Q. field.
  - cbn [qtotal]. rewrite IH by (intros; apply H; lia). rewrite (H n) by lia. rewrite qn_S. field.
Qed.
Theorem frequencies_centre : forall starts n df r s, spectra_frequencies starts n df = Ok r -> s < length starts -> 0 < n ->
  (qtotal (fun c => get r [(s * n + c)%nat]) n / qn n == nth s starts 0 - df / 2)%Q /\
  (forall h, n = 2 * h -> (get r [(s * n + h)%nat] == nth s starts 0)%Q).
Proof.
  intros starts n df r s H Hs N0. pose proof (freq_ramps _ _ _ _ H) as R. split.
  - rewrite (qtotal_affine _ n (nth s starts 0 - qn n / 2 * df) df)%Q.
    + assert (0 < qn n)%Q. { unfold qn. change 0%Q with (inject_Z 0). rewrite <- Zlt_Qlt. lia. }
      field. lra.
    + intros c Hc. rewrite (R s c Hs Hc). ring.
  - intros h E. rewrite (R s h Hs ltac:(lia)). rewrite E.
    replace (2 * h) with (h + h) by lia. rewrite qn_add. field.
Qed.
