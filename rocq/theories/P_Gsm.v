(** Point sources added to the map of the sky. *)
From Coq Require Import ZArith QArith Qabs Bool List Lia Lqa.
From Verif Require Import Base M_Gsm.
Import ListNotations.
Open Scope nat_scope.
Open Scope list_scope.

(** Where the source really is at the [t]-th time of the map *)
Definition place (s : target) (g : gsm) (t : nat) : option nat :=
  if t_moving s then option_map (t_track s) (nth_error (g_time g) t)
  else match t_coord s with One p => Some p | Many _ => None end.
(** The target holds its own positions: one for a single time, or one for each time. *)
Definition coherent (s : target) : Prop :=
  if t_moving s then t_coord s = Many (map (t_track s) (t_time s)) \/ (exists t, t_time s = [t] /\ t_coord s = One (t_track s t))
  else exists p, t_coord s = One p.
(** 1e-5 of a Julian day, more than 24 days nowadays *)
Definition near (a b : Q) : Prop := (Qabs (a - b) <= (1 # 100000000) + (1 # 100000) * Qabs b)%Q.
(** What is added at [t, i, j] *)
Definition given (a : amount) (t i j : nat) : Q := match a with Scalar v => v | Array _ v => v t i j end.
Definition accepted (g : gsm) (a : amount) : Prop :=
  match a with Scalar _ => True | Array sh _ => sh = [length (g_time g); g_nf g; g_np g] end.
(** The times of both can be compared: the same number, or a single one. *)
Definition comparable (s : target) (g : gsm) : Prop :=
  length (t_time s) = length (g_time g) \/ length (t_time s) = 1 \/ length (g_time g) = 1.
(** The target is certain to be updated, or needs not be: fixed, at the very times of the map, or
    far from it in time. *)
Definition fresh (s : target) (g : gsm) : Prop :=
  t_moving s = false \/ (t_time s = g_time g) \/
  (comparable s g /\ exists a b, In a (t_time s) /\ In b (g_time g) /\ (forall x y, In x (t_time s) -> In y (g_time g) -> ~ near x y)).

Lemma isclose_near : forall a b, isclose a b = true <-> near a b.
Proof. intros a b. unfold isclose, near. apply Qle_bool_iff. Qed.

Definition same_frame (g g' : gsm) : Prop := g_time g' = g_time g /\ g_nf g' = g_nf g /\ g_np g' = g_np g /\ g_npix g' = g_npix g.

Section Model.
Variable smooth : Q -> (nat -> Q) -> nat -> Q.

Lemma step_frame : forall g t p v size, same_frame g (step smooth g t p v size).
Proof. intros. unfold step, same_frame. destruct size; cbn; auto. Qed.
Definition increase (size : option Q) (p : nat) (v : Q) (k : nat) : Q :=
  match size with None => spot p v k | Some s => Qabs (smooth s (spot p v) k) end.
Lemma loop_spec : forall n g t pix v size, t + n <= length pix ->
  exists g', loop smooth g t n pix v size = (g', Ok tt) /\ same_frame g g' /\
    forall t' i j k, g_value g' t' i j k =
      if (t <=? t') && (t' <? t + n) then (g_value g t' i j k + increase size (nth t' pix 0%nat) (v t' i j) k)%Q else g_value g t' i j k.
Proof.
  induction n as [|n IH]; intros g t pix v size L; cbn [loop].
  - exists g. split; [reflexivity|]. split; [unfold same_frame; auto|]. intros. destruct (Nat.leb_spec t t'), (Nat.ltb_spec t' (t + 0)); cbn; try reflexivity. lia.
  - rewrite (nth_error_nth' pix 0) by lia.
    destruct (IH (step smooth g t (nth t pix 0) v size) (S t) pix v size ltac:(lia)) as (g' & E & F & V). exists g'. split; [exact E|].
    pose proof (step_frame g t (nth t pix 0) v size) as SF. split; [unfold same_frame in *; intuition congruence|].
    intros t' i j k. rewrite V. unfold step, increase, add_row. destruct size; cbn [g_value];
    destruct (Nat.eqb_spec t' t) as [->|N].
    + destruct (Nat.leb_spec (S t) t), (Nat.leb_spec t t), (Nat.ltb_spec t (S t + n)), (Nat.ltb_spec t (t + S n)); cbn; try lia; reflexivity.
    + destruct (Nat.leb_spec (S t) t'), (Nat.leb_spec t t'), (Nat.ltb_spec t' (S t + n)), (Nat.ltb_spec t' (t + S n)); cbn; try lia; reflexivity.
    + destruct (Nat.leb_spec (S t) t), (Nat.leb_spec t t), (Nat.ltb_spec t (S t + n)), (Nat.ltb_spec t (t + S n)); cbn; try lia; reflexivity.
    + destruct (Nat.leb_spec (S t) t'), (Nat.leb_spec t t'), (Nat.ltb_spec t' (S t + n)), (Nat.ltb_spec t' (t + S n)); cbn; try lia; reflexivity.
Qed.
Lemma loop_short : forall n g t pix v size, length pix < t + n -> t <= length pix ->
  exists g', loop smooth g t n pix v size = (g', Err EIndexError) /\ same_frame g g' /\
    forall t' i j k, g_value g' t' i j k =
      if (t <=? t') && (t' <? length pix) then (g_value g t' i j k + increase size (nth t' pix 0%nat) (v t' i j) k)%Q else g_value g t' i j k.
Proof.
  induction n as [|n IH]; intros g t pix v size L L2; cbn [loop]; [lia|].
  destruct (Nat.eq_dec t (length pix)) as [E|N].
  - rewrite (proj2 (nth_error_None pix t)) by lia. exists g. split; [reflexivity|]. split; [unfold same_frame; auto|].
    intros. destruct (Nat.leb_spec t t'), (Nat.ltb_spec t' (length pix)); cbn; try reflexivity. lia.
  - rewrite (nth_error_nth' pix 0) by lia.
    destruct (IH (step smooth g t (nth t pix 0) v size) (S t) pix v size ltac:(lia) ltac:(lia)) as (g' & E & F & V). exists g'. split; [exact E|].
    pose proof (step_frame g t (nth t pix 0) v size) as SF. split; [unfold same_frame in *; intuition congruence|].
    intros t' i j k. rewrite V. unfold step, increase, add_row. destruct size; cbn [g_value];
    destruct (Nat.eqb_spec t' t) as [->|N'].
    + destruct (Nat.leb_spec (S t) t), (Nat.leb_spec t t), (Nat.ltb_spec t (length pix)); cbn; try lia; reflexivity.
    + destruct (Nat.leb_spec (S t) t'), (Nat.leb_spec t t'), (Nat.ltb_spec t' (length pix)); cbn; try lia; reflexivity.
    + destruct (Nat.leb_spec (S t) t), (Nat.leb_spec t t), (Nat.ltb_spec t (length pix)); cbn; try lia; reflexivity.
    + destruct (Nat.leb_spec (S t) t'), (Nat.leb_spec t t'), (Nat.ltb_spec t' (length pix)); cbn; try lia; reflexivity.
Qed.

Lemma all_close_comparable : forall a b, length a = length b \/ length a = 1 \/ length b = 1 -> exists r, all_close a b = Ok r.
Proof.
  intros a b H. unfold all_close. destruct (Nat.eqb_spec (length a) (length b)); [eauto|].
  destruct a as [|x [|]], b as [|y [|]]; cbn in *; eauto; lia.
Qed.
Lemma all_close_far : forall a b x y, In x a -> In y b -> (forall x y, In x a -> In y b -> ~ near x y) -> all_close a b <> Ok true.
Proof.
  intros a b x y X Y H. unfold all_close. destruct (Nat.eqb_spec (length a) (length b)) as [E|E].
  - destruct a as [|u a], b as [|w b]; try contradiction; try discriminate. cbn [combine forallb fst snd].
    destruct (isclose u w) eqn:C; [|discriminate]. apply isclose_near in C. exfalso. apply (H u w); [now left|now left|exact C].
  - destruct a as [|u [|u' a]]; [contradiction| |].
    + destruct b as [|w b]; [contradiction|]. cbn [forallb]. destruct (isclose u w) eqn:C; [|discriminate].
      apply isclose_near in C. exfalso. apply (H u w); [now left|now left|exact C].
    + destruct b as [|w [|w' b]]; [contradiction| |discriminate]. cbn [forallb]. destruct (isclose u w) eqn:C; [|discriminate].
      apply isclose_near in C. exfalso. apply (H u w); [now left|now left|exact C].
Qed.
Lemma all_close_same : forall a, all_close a a = Ok true.
Proof.
  intros a. unfold all_close. rewrite Nat.eqb_refl. f_equal. induction a as [|x a IH]; [reflexivity|]. cbn [combine forallb fst snd]. rewrite IH.
  rewrite andb_true_r. apply isclose_near. unfold near. assert (E : (x - x == 0)%Q) by ring. rewrite E.
  pose proof (Qabs_nonneg x). change (Qabs 0) with 0%Q. lra.
Qed.

(** ** C191: what is added *)

Lemma value_ok : forall g a, accepted g a -> match a with
               | Scalar v => Ok (fun _ _ _ => v)
               | Array sh v => if shape_eqb sh [length (g_time g); g_nf g; g_np g] then Ok v else Err EAssertionError
               end = Ok (given a).
Proof.
  intros g [v|sh v] A; [reflexivity|]. cbn in A. subst sh. unfold shape_eqb. destruct (list_eq_dec _ _ _); [reflexivity|congruence].
Qed.
Lemma add_run : forall g s a size b s', accepted g a -> all_close (t_time s) (g_time g) = Ok b -> s' = (if b then s else update_time s (g_time g)) ->
  add_point_source smooth g s a size =
  (let pix := match t_coord s' with One p => repeat p (length (g_time g)) | Many l => l end in
   let r := loop smooth g 0 (length (g_time g)) pix (given a) size in (fst r, s', snd r)).
Proof.
  intros g s a size b s' A C ->. unfold add_point_source. cbv zeta. rewrite (value_ok g a A), C. reflexivity.
Qed.

Lemma pixels_right : forall s g, coherent s -> fresh s g -> comparable s g -> exists b,
  all_close (t_time s) (g_time g) = Ok b /\
  let s' := if b then s else update_time s (g_time g) in
  exists pix, match t_coord s' with One p => repeat p (length (g_time g)) | Many l => l end = pix /\ length pix = length (g_time g) /\
    forall t, t < length (g_time g) -> place s g t = Some (nth t pix 0).
Proof.
  intros s g C F K. destruct (all_close_comparable _ _ K) as [b B]. exists b. split; [exact B|]. cbv zeta. unfold coherent in C. unfold place.
  destruct (t_moving s) eqn:M.
  - destruct F as [F|[F|(_ & x & y & X & Y & F)]]; [congruence| |].
    + rewrite F, all_close_same in B. injection B as <-. destruct C as [C|(t0 & T & C)].
      * rewrite C. eexists. split; [reflexivity|]. rewrite map_length. split; [now rewrite F|]. intros t T. rewrite F.
        rewrite (nth_error_nth' (g_time g) 0%Q T). cbn [option_map]. f_equal. rewrite (nth_indep _ 0 (t_track s 0%Q)) by (now rewrite map_length).
        now rewrite map_nth.
      * rewrite C. eexists. split; [reflexivity|]. split; [apply repeat_length|]. rewrite F in T. rewrite T. cbn. intros t L.
        assert (t = 0) as -> by lia. reflexivity.
    + pose proof (all_close_far _ _ x y X Y F) as NB. rewrite B in NB. destruct b; [congruence|].
      unfold update_time. rewrite M. cbn [t_coord]. eexists. split; [reflexivity|]. rewrite map_length. split; [reflexivity|]. intros t T.
      rewrite (nth_error_nth' (g_time g) 0%Q T). cbn [option_map]. f_equal. rewrite (nth_indep _ 0 (t_track s 0%Q)) by (now rewrite map_length).
      now rewrite map_nth.
  - destruct C as [p C]. assert (E : t_coord (if b then s else update_time s (g_time g)) = One p).
    { destruct b; [exact C|]. unfold update_time. rewrite M. exact C. }
    rewrite E, C. eexists. split; [reflexivity|]. split; [apply repeat_length|]. intros t T. f_equal.
    symmetry. apply repeat_spec with (n := length (g_time g)). rewrite <- (repeat_length p (length (g_time g))) in T.
    apply nth_In. exact T.
Qed.

Theorem add_right : forall g s a, accepted g a -> coherent s -> comparable s g -> fresh s g ->
  exists g' s', add_point_source smooth g s a None = (g', s', Ok tt) /\ same_frame g g' /\
    forall t i j k, g_value g' t i j k =
      if t <? length (g_time g) then (g_value g t i j k + (if match place s g t with Some p => k =? p | None => false end then given a t i j else 0))%Q
      else g_value g t i j k.
Proof.
  intros g s a A C K F. destruct (pixels_right s g C F K) as (b & B & pix & P & L & W).
  rewrite (add_run g s a None b _ A B eq_refl). cbv zeta. rewrite P.
  destruct (loop_spec (length (g_time g)) g 0 pix (given a) None ltac:(lia)) as (g' & E & SF & V). rewrite E. cbn [fst snd].
  exists g'. eexists. split; [reflexivity|]. split; [exact SF|]. intros t i j k. rewrite V. cbn [Nat.leb Nat.add andb].
  destruct (Nat.ltb_spec t (length (g_time g))) as [T|T]; [|reflexivity]. rewrite (W t T). reflexivity.
Qed.

(** Sources added one after the other: the contributions add up, whatever their order. *)
Definition fixed (s : target) : Prop := t_moving s = false /\ length (t_time s) = 1.
Definition adds (g : gsm) (l : list (target * Q)) : gsm :=
  fold_left (fun g x => fst (fst (add_point_source smooth g (fst x) (Scalar (snd x)) None))) l g.
Definition contribution (k : nat) (x : target * Q) : Q :=
  match t_coord (fst x) with One p => if k =? p then snd x else 0%Q | Many _ => 0%Q end.
Theorem adds_sum : forall l g, Forall (fun x => fixed (fst x) /\ coherent (fst x)) l ->
  same_frame g (adds g l) /\
  forall t i j k, t < length (g_time g) -> (g_value (adds g l) t i j k == g_value g t i j k + qsum (map (contribution k) l))%Q.
Proof.
  induction l as [|x l IH]; intros g H.
  - split; [unfold same_frame; auto|]. intros. cbn. ring.
  - inversion H as [|? ? [[M T] C] H' E]; subst. cbn [adds fold_left].
    destruct (add_right g (fst x) (Scalar (snd x)) I C) as (g1 & s1 & E1 & F1 & V1); [unfold comparable; auto|now left|].
    fold (adds (fst (fst (add_point_source smooth g (fst x) (Scalar (snd x)) None))) l). rewrite E1. cbn [fst].
    destruct (IH g1 H') as [F2 V2]. split; [unfold same_frame in *; intuition congruence|].
    intros t i j k L. rewrite V2 by (destruct F1 as [-> _]; exact L). rewrite V1. rewrite (proj2 (Nat.ltb_lt _ _) L).
    unfold coherent in C. rewrite M in C. destruct C as [p C]. unfold place. rewrite M, C. cbn [map qsum fold_right given].
    unfold contribution at 2. rewrite C. unfold qsum. destruct (k =? p); ring.
Qed.

(** ** C192: positions of other days *)

Theorem stale_refuted : forall g s a t0, accepted g a -> t_moving s = true -> t_time s = [t0] -> t_coord s = One (t_track s t0) ->
  (forall t, In t (g_time g) -> near t0 t) ->
  exists g', add_point_source smooth g s a None = (g', s, Ok tt) /\
    forall t i j k, t < length (g_time g) -> g_value g' t i j k = (g_value g t i j k + (if k =? t_track s t0 then given a t i j else 0))%Q.
Proof.
  intros g s a t0 A M T C N.
  assert (B : all_close (t_time s) (g_time g) = Ok true).
  { rewrite T. unfold all_close. destruct (Nat.eqb_spec (length [t0]) (length (g_time g))) as [E|E].
    - destruct (g_time g) as [|u [|]]; try discriminate. cbn. rewrite (proj2 (isclose_near t0 u)); [reflexivity|apply N; now left].
    - f_equal. apply forallb_forall. intros x X. apply isclose_near. now apply N. }
  rewrite (add_run g s a None true _ A B eq_refl). cbv zeta. rewrite C.
  destruct (loop_spec (length (g_time g)) g 0 (repeat (t_track s t0) (length (g_time g))) (given a) None) as (g' & E & SF & V); [rewrite repeat_length; lia|].
  rewrite E. cbn [fst snd]. exists g'. split; [reflexivity|]. intros t i j k L. rewrite V. cbn [Nat.leb andb Nat.add].
  rewrite (proj2 (Nat.ltb_lt _ _) L).
  assert (R : nth t (repeat (t_track s t0) (length (g_time g))) 0 = t_track s t0).
  { apply repeat_spec with (n := length (g_time g)). apply nth_In. now rewrite repeat_length. }
  rewrite R. reflexivity.
Qed.
(** The same for a target built on an array of one time: only the first time is done. *)
Theorem stale_array_refuted : forall g s a t0, accepted g a -> t_moving s = true -> t_time s = [t0] -> t_coord s = Many [t_track s t0] ->
  (forall t, In t (g_time g) -> near t0 t) -> 1 < length (g_time g) ->
  exists g', add_point_source smooth g s a None = (g', s, Err EIndexError) /\
    (forall i j, g_value g' 0 i j (t_track s t0) = (g_value g 0%nat i j (t_track s t0) + given a 0%nat i j)%Q) /\
    (forall t i j k, 0 < t -> g_value g' t i j k = g_value g t i j k).
Proof.
  intros g s a t0 A M T C N L.
  assert (B : all_close (t_time s) (g_time g) = Ok true).
  { rewrite T. unfold all_close. destruct (Nat.eqb_spec (length [t0]) (length (g_time g))) as [E|E]; [cbn in E; lia|].
    f_equal. apply forallb_forall. intros x X. apply isclose_near. now apply N. }
  rewrite (add_run g s a None true _ A B eq_refl). cbv zeta. rewrite C.
  destruct (loop_short (length (g_time g)) g 0 [t_track s t0] (given a) None) as (g' & E & SF & V); [cbn; lia|cbn; lia|].
  rewrite E. cbn [fst snd]. exists g'. split; [reflexivity|]. split.
  - intros i j. rewrite V. cbn. unfold spot. now rewrite Nat.eqb_refl.
  - intros t i j k P. rewrite V. destruct (Nat.ltb_spec t (length [t_track s t0])) as [X|X]; [cbn in X; lia|]. now rewrite andb_false_r.
Qed.
(** Julian days of the same month are all near. *)
Theorem near_days : forall a b, (2400000 <= b)%Q -> (Qabs (a - b) <= 24)%Q -> near a b.
Proof. intros a b B D. unfold near. rewrite (Qabs_pos b) by lra. lra. Qed.

(** ** C193: refusals, which change nothing *)
Theorem add_refused : forall g s sh v size, sh <> [length (g_time g); g_nf g; g_np g] ->
  add_point_source smooth g s (Array sh v) size = (g, s, Err EAssertionError).
Proof. intros g s sh v size H. unfold add_point_source. cbv zeta. unfold shape_eqb. destruct (list_eq_dec _ _ _); [contradiction|reflexivity]. Qed.
Theorem add_times : forall g s a size, accepted g a -> ~ comparable s g -> add_point_source smooth g s a size = (g, s, Err EValueError).
Proof.
  intros g s a size A H. unfold add_point_source. cbv zeta. rewrite (value_ok g a A). unfold comparable in H.
  assert (C : all_close (t_time s) (g_time g) = Err EValueError).
  { unfold all_close. destruct (Nat.eqb_spec (length (t_time s)) (length (g_time g))); [tauto|].
    destruct (t_time s) as [|x [|]], (g_time g) as [|y [|]]; cbn in *; try reflexivity; tauto. }
  now rewrite C.
Qed.
Theorem add_frame : forall g s a size g' s' r, add_point_source smooth g s a size = (g', s', r) -> same_frame g g' /\ t_moving s' = t_moving s /\ t_track s' = t_track s.
Proof.
  intros g s a size g' s' r H. unfold add_point_source in H. cbv zeta in H.
  destruct (match a with Scalar v => _ | Array sh v => _ end) as [v|e]; [|injection H as <- <- <-; unfold same_frame; auto].
  destruct (all_close _ _) as [b|e]; [|injection H as <- <- <-; unfold same_frame; auto].
  injection H as <- <- <-. split; [|destruct b; auto].
  set (pix := match _ with One p => _ | Many l => l end). destruct (le_lt_dec (length (g_time g)) (length pix)).
  - destruct (loop_spec (length (g_time g)) g 0 pix v size ltac:(lia)) as (g1 & E & F & _). now rewrite E.
  - destruct (loop_short (length (g_time g)) g 0 pix v size ltac:(lia) ltac:(lia)) as (g1 & E & F & _). now rewrite E.
Qed.

(** ** C195: extended sources *)
Theorem smooth_right : forall g s a size, accepted g a -> coherent s -> comparable s g -> fresh s g ->
  exists g' s', add_point_source smooth g s a (Some size) = (g', s', Ok tt) /\ same_frame g g' /\
    forall t i j k, t < length (g_time g) -> exists p, place s g t = Some p /\
      g_value g' t i j k = (g_value g t i j k + Qabs (smooth size (fun q => if q =? p then given a t i j else 0%Q) k))%Q.
Proof.
  intros g s a size A C K F. destruct (pixels_right s g C F K) as (b & B & pix & P & L & W).
  rewrite (add_run g s a (Some size) b _ A B eq_refl). cbv zeta. rewrite P.
  destruct (loop_spec (length (g_time g)) g 0 pix (given a) (Some size) ltac:(lia)) as (g' & E & SF & V). rewrite E. cbn [fst snd].
  exists g'. eexists. split; [reflexivity|]. split; [exact SF|]. intros t i j k T. exists (nth t pix 0). split; [now apply W|].
  rewrite V. cbn [Nat.leb Nat.add andb]. rewrite (proj2 (Nat.ltb_lt _ _) T). reflexivity.
Qed.
(** The opposite value adds the same: values are never subtracted. *)
Definition opposite (a : amount) : amount := match a with Scalar v => Scalar (- v) | Array sh v => Array sh (fun t i j => - v t i j)%Q end.
Theorem smooth_sign_refuted : forall g s a size, accepted g a -> coherent s -> comparable s g -> fresh s g ->
  (forall f h, (forall k, h k == - f k)%Q -> forall k, (smooth size h k == - smooth size f k)%Q) ->
  exists g' s' g'' s'', add_point_source smooth g s a (Some size) = (g', s', Ok tt) /\ add_point_source smooth g s (opposite a) (Some size) = (g'', s'', Ok tt) /\
    forall t i j k, t < length (g_time g) -> (g_value g t i j k <= g_value g' t i j k /\ g_value g'' t i j k == g_value g' t i j k)%Q.
Proof.
  intros g s a size A C K F Od. destruct (smooth_right g s a size A C K F) as (g' & s' & E & SF & V).
  assert (A' : accepted g (opposite a)) by (destruct a; exact A).
  destruct (smooth_right g s (opposite a) size A' C K F) as (g'' & s'' & E' & SF' & V').
  exists g', s', g'', s''. split; [exact E|]. split; [exact E'|]. intros t i j k T.
  destruct (V t i j k T) as (p & P & ->). destruct (V' t i j k T) as (p' & P' & ->). rewrite P in P'. injection P' as <-. split.
  - pose proof (Qabs_nonneg (smooth size (fun q => if q =? p then given a t i j else 0%Q) k)). lra.
  - rewrite (Od (fun q => if q =? p then given a t i j else 0%Q)).
    + rewrite Qabs_opp. reflexivity.
    + intros q. destruct a; cbn; destruct (q =? p); reflexivity.
Qed.

(** ** C194: signal to noise ratio *)
Variable std : list Q -> Q.
Theorem snr_right : forall g s snr, coherent s -> comparable s g -> fresh s g ->
  exists g' s', add_point_source_snr smooth std g s snr None = (g', s', Ok tt) /\
    forall t i j k, t < length (g_time g) -> exists p, place s g t = Some p /\
      g_value g' t i j k = (g_value g t i j k + (if k =? p then qsum (map (g_value g t i j) (seq 0%nat (g_npix g))) / inject_Z (Z.of_nat (g_npix g)) + snr * std (map (g_value g t i j) (seq 0%nat (g_npix g))) else 0))%Q.
Proof.
  intros g s snr C K F. unfold add_point_source_snr.
  destruct (add_right g s (Array [length (g_time g); g_nf g; g_np g] (fun t i j => (mean (row g t i j) + snr * std (row g t i j))%Q)) eq_refl C K F) as (g' & s' & E & SF & V).
  exists g', s'. split; [exact E|]. intros t i j k T. destruct (pixels_right s g C F K) as (b & B & pix & P & L & W).
  exists (nth t pix 0). split; [now apply W|]. rewrite V, (proj2 (Nat.ltb_lt _ _) T), (W t T). unfold given, mean, row. rewrite map_length, seq_length. reflexivity.
Qed.
End Model.

(** The documentation of [add_point_source_snr] tells the median; the mean is used. *)
Definition median_of (m : Q) (l : list Q) : Prop :=
  length l <= 2 * length (filter (fun x => Qle_bool x m) l) /\ length l <= 2 * length (filter (fun x => Qle_bool m x) l).
Definition three : gsm := mkGsm [2460000%Q] 1 1 3 (fun _ _ _ k => if k =? 2 then 3%Q else 0%Q).
Definition still (p : nat) : target := mkTarget false [2460000%Q] (One p) (fun _ => p).
Theorem snr_median_refuted : forall smooth std m g' s', median_of m [0; 0; 3]%Q -> add_point_source_snr smooth std three (still 0) 0 None = (g', s', Ok tt) ->
  ~ (g_value g' 0%nat 0%nat 0%nat 0%nat == g_value three 0%nat 0%nat 0%nat 0%nat + m)%Q.
Proof.
  intros smooth std m g' s' [M1 M2] H E. destruct (snr_right smooth std three (still 0) 0%Q) as (g1 & s1 & H1 & V).
  - exists 0. reflexivity.
  - now left.
  - now left.
  - rewrite H in H1. injection H1 as <- <-. destruct (V 0 0 0 0) as (p & P & V0); [cbn; lia|]. injection P as <-.
    rewrite E in V0 || (rewrite V0 in E). cbn [Nat.eqb three g_value g_npix seq map] in E. cbn in M1, M2.
    unfold qsum in E. cbn [fold_right] in E. change (Z.of_nat 3) with 3%Z in E.
    destruct (Qle_bool 0 m) eqn:A, (Qle_bool m 0) eqn:B, (Qle_bool 3 m) eqn:C, (Qle_bool m 3) eqn:D; cbn in M1, M2; try lia;
      repeat match goal with H : Qle_bool _ _ = true |- _ => apply Qle_bool_iff in H end;
      assert (W : ((0 + (0 + (3 + 0))) / inject_Z 3 == 1)%Q) by reflexivity; rewrite W in E; try lra.
Qed.
