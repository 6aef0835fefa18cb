(** Skies: the value given, the states reached, selections, differences and visible parts. *)
From Coq Require Import ZArith QArith Bool List Lia.
From Verif Require Import Base M_Sky P_Sky P_Sky2.
Import ListNotations.
Open Scope nat_scope.
Open Scope list_scope.

Section Ops.
Context {V : Type} (mul div : V -> V -> V) (one zero : V).
Notation run := (run mul div one zero).
Notation runs := (runs mul div one zero).

(** ** C179: the value of a new sky *)

Lemma nth_error_repeat_lt : forall A (x : A) n k, k < n -> nth_error (repeat x n) k = Some x.
Proof. induction n; intros k K; [lia|]. destruct k; cbn; [reflexivity|]. apply IHn. lia. Qed.

Theorem new_scalar : forall (st : state V) t f p c b cx v,
  let s := mkSky t f p c b (length (heap st)) in
  exists st', run st (NewSky t f p c b (Scalar cx v)) = (st', Ok (length (objects st))) /\ object st' (length (objects st)) = s /\
    forall i j k l, in_sky s i j k l -> value_at st' (length (objects st)) i j k l = Some (mul v one).
Proof.
  intros st t f p c b cx v s. cbn [M_Sky.run assign]. unfold set_scalar. cbn [s_time s_freq s_pol s_coord s_observer].
  eexists. split; [reflexivity|]. split; [apply object_new|].
  intros i j k l In. rewrite value_at_elem; unfold value_of; rewrite object_new; cbn [s_value heap]; rewrite array_at_new; [|reflexivity].
  unfold elem. cbn [a_shape a_data]. apply expected_inside in In. apply offset_lt in In.
  change (expected s) with (expected (mkSky t f p c b 0)) in In.
  rewrite nth_error_map, nth_error_repeat_lt by exact In. reflexivity.
Qed.

(** An array is taken when its shape is the one of the axes, and only then. *)
Theorem new_array : forall (st : state V) t f p c b l, l < length (heap st) ->
  let a := array_at (heap st) l in
  a_shape a = [length t; length f; length p; length c] ->
  exists st', run st (NewSky t f p c b (Array l)) = (st', Ok (length (objects st))) /\
    same_axes (mkSky t f p c b 0) (object st' (length (objects st))) /\
    a_data (value_of st' (length (objects st))) = a_data a /\
    (a_type a <> Small -> s_value (object st' (length (objects st))) = l) /\
    (a_type a = Small -> s_value (object st' (length (objects st))) = length (heap st) /\ a_type (value_of st' (length (objects st))) = Real).
Proof.
  intros st t f p c b l L a E. cbn [M_Sky.run assign]. unfold set_array. fold a.
  change (expected (mkSky t f p c b 0)) with [length t; length f; length p; length c]. rewrite E.
  rewrite (proj2 (shape_eqb_eq _ _) eq_refl). cbn [s_time s_freq s_pol s_coord s_observer].
  destruct (a_type a) eqn:T.
  - eexists. split; [reflexivity|]. unfold value_of. rewrite !object_new. cbn [s_value heap]. rewrite array_at_new.
    unfold same_axes. cbn. repeat split; auto. congruence.
  - eexists. split; [reflexivity|]. unfold value_of. rewrite !object_new. cbn [s_value heap].
    unfold same_axes. cbn. repeat split; auto; congruence.
  - eexists. split; [reflexivity|]. unfold value_of. rewrite !object_new. cbn [s_value heap].
    unfold same_axes. cbn. repeat split; auto; congruence.
Qed.
Theorem new_array_refused : forall (st : state V) t f p c b l,
  a_shape (array_at (heap st) l) <> [length t; length f; length p; length c] ->
  run st (NewSky t f p c b (Array l)) = (st, Err EValueError).
Proof.
  intros st t f p c b l E. cbn [M_Sky.run assign]. unfold set_array.
  destruct (shape_eqb _ _) eqn:Q; [|reflexivity]. apply shape_eqb_eq in Q. contradiction.
Qed.
Theorem set_value_refused : forall (st : state V) r l, a_shape (array_at (heap st) l) <> expected (object st r) ->
  run st (SetValue r (Array l)) = (st, Err EValueError).
Proof.
  intros st r l E. cbn [M_Sky.run assign]. unfold set_array.
  destruct (shape_eqb _ _) eqn:Q; [|reflexivity]. apply shape_eqb_eq in Q. contradiction.
Qed.
(** What is written later into an array large enough is seen in the sky; into another one it is not. *)
Theorem poke_seen : forall (st : state V) r l k v, r < length (objects st) -> l < length (heap st) -> s_value (object st r) = l ->
  forall t f p c, value_at st r t f p c <> None ->
  value_at (fst (run st (Poke l k v))) r t f p c =
  let s := object st r in
  if ((t * length (s_freq s) + f) * length (s_pol s) + p) * length (s_coord s) + c =? k then Some v else value_at st r t f p c.
Proof.
  intros st r l k v R L E t f p c X. cbn [M_Sky.run fst]. unfold value_at in *. change (object (mkState ?h (objects st)) r) with (object st r).
  rewrite E in *. cbn [heap]. rewrite array_at_upd by assumption. rewrite Nat.eqb_refl. cbn [a_data].
  cbv zeta. rewrite nth_error_upd. destruct (nth_error (a_data _) _) eqn:N; [|congruence]. reflexivity.
Qed.
Theorem poke_unseen : forall (st : state V) r l k v, s_value (object st r) <> l -> s_value (object st r) < length (heap st) ->
  forall t f p c, value_at (fst (run st (Poke l k v))) r t f p c = value_at st r t f p c.
Proof.
  intros st r l k v E L t f p c. cbn [M_Sky.run fst]. unfold value_at. change (object (mkState ?h (objects st)) r) with (object st r).
  cbn [heap]. rewrite array_at_upd by assumption. destruct (Nat.eqb_spec (s_value (object st r)) l); [contradiction|reflexivity].
Qed.

(** ** C182: the states reached *)

Theorem good_start : good (mkState (V := V) [] []).
Proof. split; cbn; intros; lia. Qed.

Lemma good_grow : forall (st : state V) a, good st -> sound a -> good (mkState (heap st ++ [a]) (objects st)).
Proof.
  intros st a [G1 G2] S. split; cbn [heap objects].
  - intros l L. rewrite app_length in L. cbn in L. destruct (Nat.eq_dec l (length (heap st))) as [->|].
    + now rewrite array_at_new.
    + rewrite array_at_app by lia. apply G1. lia.
  - intros r R. destruct (G2 r R) as (B & E & T). unfold value_of in *.
    change (object (mkState (heap st ++ [a]) (objects st)) r) with (object st r). cbn [heap].
    rewrite app_length. rewrite array_at_app by assumption. repeat split; auto. cbn. lia.
Qed.
Lemma good_write : forall (st : state V) l a, good st -> l < length (heap st) -> sound a -> a_shape a = a_shape (array_at (heap st) l) ->
  a_type a = a_type (array_at (heap st) l) -> good (mkState (upd l a (heap st)) (objects st)).
Proof.
  intros st l a [G1 G2] L S E T. split; cbn [heap objects].
  - intros k K. rewrite upd_length in K. rewrite array_at_upd by assumption. destruct (k =? l); auto.
  - intros r R. destruct (G2 r R) as (B & E' & T'). unfold value_of in *.
    change (object (mkState (upd l a (heap st)) (objects st)) r) with (object st r). cbn [heap].
    rewrite upd_length, array_at_upd by assumption. destruct (Nat.eqb_spec (s_value (object st r)) l) as [<-|]; [|auto].
    rewrite E, T. auto.
Qed.
Definition fine (h : list (array V)) (s : sky) : Prop :=
  s_value s < length h /\ a_shape (array_at h (s_value s)) = expected s /\ a_type (array_at h (s_value s)) <> Small.
Lemma good_add : forall (st : state V) s, good st -> fine (heap st) s -> good (mkState (heap st) (objects st ++ [s])).
Proof.
  intros st s [G1 G2] F. split; cbn [heap objects]; [exact G1|].
  intros r R. rewrite app_length in R. cbn in R. destruct (Nat.eq_dec r (length (objects st))) as [->|].
  - unfold value_of. rewrite object_new. exact F.
  - unfold value_of. rewrite object_app by lia. apply G2. lia.
Qed.
Lemma good_replace : forall (st : state V) r s, good st -> fine (heap st) s -> good (mkState (heap st) (upd r s (objects st))).
Proof.
  intros st r s [G1 G2] F. split; cbn [heap objects]; [exact G1|].
  intros k K. rewrite upd_length in K. unfold value_of. rewrite object_upd by assumption. destruct (k =? r); [exact F|now apply G2].
Qed.
Lemma assign_good : forall (st : state V) s o h s', good st -> held st o -> assign mul one (heap st) s o = Ok (h, s') ->
  good (mkState h (objects st)) /\ fine h s'.
Proof.
  intros st s o h s' G H A. destruct o as [cx v|l|r]; cbn [assign] in A; [|unfold set_array in A|discriminate].
  - unfold set_scalar in A. injection A as <- <-. split.
    + apply good_grow; [exact G|]. unfold sound. cbn [a_data a_shape]. now rewrite map_length, repeat_length.
    + unfold fine. cbn [s_value]. rewrite array_at_new, app_length. cbn. repeat split; [lia|]. destruct cx; discriminate.
  - cbn in H. destruct (shape_eqb _ _) eqn:Q; [|discriminate]. apply shape_eqb_eq in Q.
    assert (S : sound (array_at (heap st) l)) by (apply G; exact H).
    destruct (a_type (array_at (heap st) l)) eqn:T; injection A as <- <-.
    + split; [apply good_grow; [exact G|exact S]|]. unfold fine. cbn [s_value]. rewrite array_at_new, app_length. cbn [length a_shape a_type].
      repeat split; [lia|exact Q|discriminate].
    + split; [destruct st; exact G|]. unfold fine. cbn [s_value]. rewrite T. repeat split; [exact H|exact Q|discriminate].
    + split; [destruct st; exact G|]. unfold fine. cbn [s_value]. rewrite T. repeat split; [exact H|exact Q|discriminate].
Qed.

Lemma suits_dec : forall (st : state V) r o, good st -> r < length (objects st) -> suits st r o \/ ~ suits st r o.
Proof.
  intros st r o G R. unfold suits. cbv zeta.
  assert (D : forall s t, fits s t \/ ~ fits s t).
  { intros s t. rewrite fits_iff, <- bcast_fits. destruct (bcast (rev t) (rev s)) as [u|]; [|right; discriminate].
    destruct (shape_eqb u (rev t)) eqn:E; [left; apply shape_eqb_eq in E; congruence|right; intros X; injection X as ->].
    assert (shape_eqb (rev t) (rev t) = true) by (now apply shape_eqb_eq). congruence. }
  destruct (D (a_shape (of_operand st o)) (expected (object st r))); [|tauto].
  destruct (a_lazy (value_of st r)), (a_lazy (of_operand st o)), (is_cplx (a_type (of_operand st o))), (is_cplx (a_type (value_of st r))); intuition discriminate.
Qed.

Lemma step_good : forall op st r o, good st -> r < length (objects st) -> held st o -> suits st r o ->
  exists h s, combine_step zero op st r o = Ok (h, s) /\ good (mkState h (objects st)) /\ fine h s.
Proof.
  intros op st r o G R H Su. pose proof G as [G1 G2]. destruct (G2 r R) as (B & E & T).
  destruct (a_lazy (value_of st r)) eqn:N.
  - destruct (step_dask zero op st r o G R H Su N) as (a' & Ev & Sh & Ty & La & So & _).
    eexists. eexists. split; [exact Ev|]. split; [now apply good_grow|].
    unfold fine. cbn [moved s_value]. rewrite array_at_new, app_length. cbn. repeat split; [lia|exact Sh|exact Ty].
  - destruct (step_numpy zero op st r o G R H Su N) as (a' & Ev & Sh & Ty & La & So & _).
    eexists. eexists. split; [exact Ev|]. unfold value_of in *. split.
    + apply good_write; auto. now rewrite Sh, E.
    + unfold fine. rewrite upd_length, array_at_upd by assumption. rewrite Nat.eqb_refl. rewrite Ty. auto.
Qed.

(** Every operation a program can do keeps every sky coherent, even when it is refused. *)
Theorem good_step : forall (st : state V) o, good st -> allowed st o -> good (fst (run st o)).
Proof.
  intros st o G A. destruct o as [a|l k v|t f p c b o|r o|r l|r l|r l|r o|r o]; cbn in A.
  - cbn. now apply good_grow.
  - cbn. apply good_write; auto. unfold sound. cbn. rewrite upd_length. now apply G.
  - cbn [M_Sky.run]. destruct (assign _ _ _ _ _) as [[h s]|e] eqn:E; [|exact G]. cbn [fst].
    destruct (assign_good _ _ _ _ _ G A E) as [G' F]. exact (good_add _ _ G' F).
  - cbn [M_Sky.run]. destruct (assign _ _ _ _ _) as [[h s]|e] eqn:E; [|exact G]. cbn [fst].
    destruct (assign_good _ _ _ _ _ G (proj2 A) E) as [G' F]. exact (good_replace _ r _ G' F).
  - cbn [M_Sky.run fst]. apply good_replace; [exact G|]. destruct A as [R L]. destruct (proj2 G r R) as (B & E & T).
    unfold fine, value_of, expected in *. cbn. rewrite L. auto.
  - cbn [M_Sky.run fst]. apply good_replace; [exact G|]. destruct A as [R L]. destruct (proj2 G r R) as (B & E & T).
    unfold fine, value_of, expected in *. cbn. rewrite L. auto.
  - cbn [M_Sky.run fst]. apply good_replace; [exact G|]. destruct A as [R L]. destruct (proj2 G r R) as (B & E & T).
    unfold fine, value_of, expected in *. cbn. rewrite L. auto.
  - cbn [M_Sky.run]. destruct A as [R H]. destruct (suits_dec st r o G R) as [Su|Su].
    + destruct (step_good div st r o G R H Su) as (h & s & E & G' & F). rewrite (divide_step _ _ _ _ _ _ _ E). cbn [fst].
      exact (good_replace _ r _ G' F).
    + destruct (step_refused zero div st r o G R Su) as [(e & I & _)|(a & l & I & J)]; unfold divide; rewrite I; [exact G|].
      rewrite J. cbn [fst]. apply good_grow; [exact G|].
      unfold in_place in I. destruct (bcast _ _) as [s|].
      * destruct (a_lazy (array_at _ _)).
        { injection I as I _. apply app_inv_head in I. injection I as <-. unfold sound. cbn. now rewrite elementwise_length, prod_rev. }
        destruct (a_lazy _); [discriminate|]. destruct (_ && _); [discriminate|]. destruct (shape_eqb _ _); [|discriminate].
        injection I as I _. apply (f_equal (@length _)) in I. rewrite upd_length, app_length in I. cbn in I. lia.
      * destruct (a_lazy _); [discriminate|]. destruct (a_lazy _); [discriminate|]. destruct (_ && _); discriminate.
  - cbn [M_Sky.run]. destruct A as [R H]. destruct (suits_dec st r o G R) as [Su|Su].
    + destruct (step_good mul st r o G R H Su) as (h & s & E & G' & F). rewrite (multiply_step _ _ _ _ _ _ _ E). cbn [fst].
      exact (good_add _ _ G' F).
    + destruct (step_refused zero mul st r o G R Su) as [(e & I & _)|(a & l & I & J)]; unfold multiply; rewrite I; [exact G|].
      rewrite J. cbn [fst]. apply good_grow; [exact G|].
      unfold in_place in I. destruct (bcast _ _) as [s|].
      * destruct (a_lazy (array_at _ _)).
        { injection I as I _. apply app_inv_head in I. injection I as <-. unfold sound. cbn. now rewrite elementwise_length, prod_rev. }
        destruct (a_lazy _); [discriminate|]. destruct (_ && _); [discriminate|]. destruct (shape_eqb _ _); [|discriminate].
        injection I as I _. apply (f_equal (@length _)) in I. rewrite upd_length, app_length in I. cbn in I. lia.
      * destruct (a_lazy _); [discriminate|]. destruct (a_lazy _); [discriminate|]. destruct (_ && _); discriminate.
Qed.
Fixpoint all_allowed (st : state V) (l : list (op V)) : Prop :=
  match l with [] => True | o :: r => allowed st o /\ all_allowed (fst (run st o)) r end.
Theorem good_always : forall l st, good st -> all_allowed st l -> good (runs st l).
Proof.
  induction l as [|o l IH]; intros st G A; [exact G|]. destruct A as [A B]. cbn. apply IH; [now apply good_step|exact B].
Qed.

(** Replacing the times by another number of them is accepted, but from then on a division
    of numpy values raises after having divided them. *)
Theorem retimed_refuted : forall (st : state V) r l v, good st -> r < length (objects st) -> a_lazy (value_of st r) = false ->
  length l <> length (s_time (object st r)) ->
  exists st1 st2, run st (SetTime r l) = (st1, Ok r) /\ run st1 (Divide r (Scalar false v)) = (st2, Err EValueError) /\
    forall i, inside (expected (object st r)) i -> elem (value_of st2 r) i = combined div (elem (value_of st r) i) (Some v).
Proof.
  intros st r l v G R N D. pose proof G as [G1 G2]. destruct (G2 r R) as (B & E & T).
  set (s := object st r) in *. set (s1 := mkSky l (s_freq s) (s_pol s) (s_coord s) (s_observer s) (s_value s)).
  exists (mkState (heap st) (upd r s1 (objects st))).
  assert (O : object (mkState (heap st) (upd r s1 (objects st))) r = s1) by (rewrite object_upd by exact R; now rewrite Nat.eqb_refl).
  unfold value_of in *. fold s in E, T, N |- *.
  destruct (in_place_numpy zero div (heap st) (s_value s) (mkArray false Real [] [v])) as (a' & I & Sh & Ty & La & So & El); try reflexivity; auto.
  { discriminate. }
  { exists (a_shape (array_at (heap st) (s_value s))), []. split; [now rewrite app_nil_r|constructor]. }
  exists (mkState (upd (s_value s) a' (heap st)) (upd r s1 (objects st))).
  split; [reflexivity|]. split.
  - cbn [M_Sky.run]. unfold divide. rewrite O. cbn [heap objects of_operand]. change (s_value s1) with (s_value s). rewrite I.
    unfold set_array. rewrite array_at_upd by exact B. rewrite Nat.eqb_refl, Sh, E.
    destruct (shape_eqb _ _) eqn:Q; [|reflexivity]. apply shape_eqb_eq in Q. unfold expected in Q. cbn in Q. congruence.
  - intros i In. assert (O2 : object (mkState (upd (s_value s) a' (heap st)) (upd r s1 (objects st))) r = s1) by (rewrite object_upd by exact R; now rewrite Nat.eqb_refl).
    rewrite O2. change (s_value s1) with (s_value s). cbn [heap]. rewrite array_at_upd by exact B. rewrite Nat.eqb_refl.
    rewrite El by (now rewrite Sh, E). reflexivity.
Qed.

(** ** C183: selections *)

(** The position an integer index means *)
Definition resolves (n : nat) (i : Z) (k : nat) : Prop := k < n /\ (i = Z.of_nat k \/ i = (Z.of_nat k - Z.of_nat n)%Z).
Lemma selected_int : forall n i k, resolves n i k -> selected n (IInt i) = Ok ([k], false).
Proof.
  intros n i k [K E]. unfold selected. cbv zeta. destruct E as [->| ->].
  - destruct (Z.ltb_spec (Z.of_nat k) 0); [lia|]. destruct (Z.leb_spec 0 (Z.of_nat k)); [|lia].
    destruct (Z.ltb_spec (Z.of_nat k) (Z.of_nat n)); [|lia]. cbn. now rewrite Nat2Z.id.
  - destruct (Z.ltb_spec (Z.of_nat k - Z.of_nat n) 0); [|lia]. replace (Z.of_nat k - Z.of_nat n + Z.of_nat n)%Z with (Z.of_nat k) by lia.
    destruct (Z.leb_spec 0 (Z.of_nat k)); [|lia].
    destruct (Z.ltb_spec (Z.of_nat k) (Z.of_nat n)); [|lia]. cbn. now rewrite Nat2Z.id.
Qed.
Lemma selected_int_out : forall n i, ~ (exists k, resolves n i k) -> selected n (IInt i) = Err EIndexError.
Proof.
  intros n i H. unfold selected. cbv zeta. destruct (_ && _) eqn:E; [|reflexivity]. exfalso. apply H.
  apply andb_true_iff in E. destruct E as [E1 E2]. apply Z.leb_le in E1. apply Z.ltb_lt in E2.
  exists (Z.to_nat (if (i <? 0)%Z then i + Z.of_nat n else i)%Z). split; [lia|]. rewrite Z2Nat.id by exact E1.
  destruct (i <? 0)%Z; lia.
Qed.
Lemma pick_int : forall l i k, resolves (length l) i k -> pick l (IInt i) = Ok (One (nth k l 0%Z)).
Proof. intros l i k H. unfold pick. rewrite (selected_int _ _ _ H). reflexivity. Qed.

Lemma selected_all : forall n, selected n (ISlice None None) = Ok (seq 0 n, true).
Proof. intros. unfold selected. cbv zeta. now rewrite Nat.sub_0_r. Qed.
Lemma selected_slice : forall n a b, selected n (ISlice (Some a) (Some b)) = Ok (seq (slice_bound n a) (slice_bound n b - slice_bound n a), true).
Proof. reflexivity. Qed.
Lemma flat_single : forall A B (h : A -> list B) l, (forall x, length (h x) = 1) -> length (flat_map h l) = length l.
Proof. intros A B h l H. induction l; [reflexivity|]. cbn [flat_map length]. rewrite app_length, H, IHl. reflexivity. Qed.
Lemma flat_one : forall A (f : nat -> list A) x, flat_map f [x] = f x.
Proof. intros. cbn. apply app_nil_r. Qed.

Lemma flat_last : forall l, flat_map (fun c => map (fun o => c * prod [] + o) [0]) l = l.
Proof.
  induction l as [|x l IH]; [reflexivity|].
  change (x * prod [] + 0 :: flat_map (fun c => map (fun o => c * prod [] + o) [0]) l = x :: l). rewrite IH. f_equal. cbn. lia.
Qed.

Theorem getitem_pixels : forall (st : state V) r i j k t f p, good st -> r < length (objects st) ->
  let s := object st r in
  resolves (length (s_time s)) i t -> resolves (length (s_freq s)) j f -> resolves (length (s_pol s)) k p ->
  exists x, getitem st r [IInt i; IInt j; IInt k] = Ok x /\
    sl_coord x = s_coord s /\ sl_time x = One (nth t (s_time s) 0%Z) /\ sl_freq x = One (nth f (s_freq s) 0%Z) /\ sl_pol x = One (nth p (s_pol s) 0%Z) /\
    sl_observer x = s_observer s /\ sl_place x = s_value s /\
    map Some (slice_value zero (heap st) x) = map (value_at st r t f p) (seq 0 (length (s_coord s))).
Proof.
  intros st r i j k t f p G R s Hi Hj Hk. destruct (proj2 G r R) as (B & E & T). unfold value_of in E. fold s in E, B.
  unfold getitem. fold s. rewrite E. unfold expected. cbn [selections].
  rewrite (selected_int _ _ _ Hi). cbn [bind]. rewrite (selected_int _ _ _ Hj). cbn [bind]. rewrite (selected_int _ _ _ Hk). cbn [bind].
  cbn [filter snd length Nat.eqb].
  rewrite (pick_int _ _ _ Hi), (pick_int _ _ _ Hj), (pick_int _ _ _ Hk). cbn [bind].
  eexists. split; [reflexivity|]. cbn [sl_coord sl_time sl_freq sl_pol sl_observer sl_place]. repeat (split; [reflexivity|]).
  unfold slice_value. cbn [sl_place sl_positions map fst positions]. rewrite !flat_one.
  rewrite !map_map.
  rewrite flat_last. apply map_ext_in. intros c C. apply in_seq in C.
  destruct Hi as [Hi _], Hj as [Hj _], Hk as [Hk _].
  assert (So : sound (array_at (heap st) (s_value s))) by (apply G; exact B).
  unfold value_at. fold s. set (d := a_data (array_at (heap st) (s_value s))) in *.
  assert (P : t * prod [length (s_freq s); length (s_pol s); length (s_coord s)] + (f * prod [length (s_pol s); length (s_coord s)] + (p * prod [length (s_coord s)] + c)) =
              ((t * length (s_freq s) + f) * length (s_pol s) + p) * length (s_coord s) + c) by (cbn; lia).
  rewrite P. symmetry. apply nth_error_nth'. unfold sound in So. fold d in So. rewrite So, E.
  apply (offset_lt (expected s) [t; f; p; c]). apply expected_inside. unfold in_sky. lia.
Qed.

(** An index out of the axis is refused. *)
Theorem getitem_out : forall (st : state V) r i j k, good st -> r < length (objects st) ->
  let s := object st r in
  ~ ((exists t, resolves (length (s_time s)) i t) /\ (exists f, resolves (length (s_freq s)) j f) /\ (exists p, resolves (length (s_pol s)) k p)) ->
  getitem st r [IInt i; IInt j; IInt k] = Err EIndexError.
Proof.
  intros st r i j k G R s H. destruct (proj2 G r R) as (B & E & T). unfold value_of in E. fold s in E, B.
  unfold getitem. fold s. rewrite E. unfold expected. cbn [selections].
  assert (D : forall n i, (exists k, resolves n i k) \/ ~ exists k, resolves n i k).
  { intros n z. destruct (selected n (IInt z)) as [x|e] eqn:Q.
    - left. unfold selected in Q. cbv zeta in Q. destruct (_ && _) eqn:W; [|discriminate].
      apply andb_true_iff in W. destruct W as [W1 W2]. apply Z.leb_le in W1. apply Z.ltb_lt in W2.
      exists (Z.to_nat (if (z <? 0)%Z then z + Z.of_nat n else z)%Z). split; [lia|]. rewrite Z2Nat.id by exact W1. destruct (z <? 0)%Z; lia.
    - right. intros [m M]. rewrite (selected_int _ _ _ M) in Q. discriminate. }
  destruct (D (length (s_time s)) i) as [[t Ht]|N]; [|now rewrite selected_int_out].
  rewrite (selected_int _ _ _ Ht). cbn [bind].
  destruct (D (length (s_freq s)) j) as [[f Hf]|N]; [|now rewrite selected_int_out].
  rewrite (selected_int _ _ _ Hf). cbn [bind].
  destruct (D (length (s_pol s)) k) as [[p Hp]|N]; [|now rewrite selected_int_out].
  exfalso. apply H. split; [now exists t|]. split; [now exists f|now exists p].
Qed.

(** A result of another number of axes than one is refused; every refusal is an [IndexError]. *)
Definition ints (n : list index) : nat := length (filter (fun i => match i with IInt _ => true | _ => false end) n).
Lemma selections_kept : forall s n x, selections s n = Ok x -> length (filter snd x) + ints n = length s.
Proof.
  induction s as [|k s IH]; intros n x E; destruct n as [|i n]; cbn [selections] in E; try discriminate.
  - injection E as <-. reflexivity.
  - destruct (selections s []) as [y|] eqn:Q; [|discriminate]. cbn [bind] in E. injection E as <-. apply IH in Q. cbn in *. lia.
  - destruct (selected k i) as [y|] eqn:W; [|discriminate]. cbn [bind] in E. destruct (selections s n) as [z|] eqn:Q; [|discriminate].
    cbn [bind] in E. injection E as <-. apply IH in Q. destruct i as [v|a b]; cbn [selected] in W; cbv zeta in W.
    + destruct (_ && _); [|discriminate]. injection W as <-. cbn. unfold ints in *. cbn. lia.
    + injection W as <-. cbn. unfold ints in *. cbn. lia.
Qed.
Theorem getitem_axes : forall (st : state V) r n x, good st -> r < length (objects st) -> getitem st r n = Ok x -> ints n = 3 /\ 3 <= length n <= 4.
Proof.
  intros st r n x G R H. destruct (proj2 G r R) as (B & E & T). unfold value_of in E. unfold getitem in H. rewrite E in H.
  destruct (selections _ n) as [y|] eqn:Q; [|discriminate]. cbn [bind] in H.
  destruct (Nat.eqb_spec (length (filter snd y)) 1) as [L|]; [|discriminate].
  pose proof (selections_kept _ _ _ Q) as K. rewrite L in K. cbn in K. assert (ints n = 3) by lia. split; [assumption|]. split.
  - destruct n as [|? [|? [|]]]; try discriminate. cbn. lia.
  - clear -Q. unfold expected in Q. revert Q. generalize (length (s_time (object st r))) (length (s_freq (object st r))) (length (s_pol (object st r))) (length (s_coord (object st r))).
    intros a b c d Q. destruct n as [|n0 [|n1 [|n2 [|n3 [|n4 n]]]]]; cbn; try lia. exfalso. cbn [selections] in Q.
    destruct (selected a n0); [|discriminate]. cbn [bind] in Q. destruct (selected b n1); [|discriminate]. cbn [bind] in Q.
    destruct (selected c n2); [|discriminate]. cbn [bind] in Q. destruct (selected d n3); discriminate.
Qed.
Lemma selected_err : forall n i e, selected n i = Err e -> e = EIndexError.
Proof. intros n [i|a b] e E; cbn in E; [|discriminate]. destruct (_ && _); congruence. Qed.
Lemma selections_err : forall s n e, selections s n = Err e -> e = EIndexError.
Proof.
  induction s as [|k s IH]; intros n e E; destruct n as [|i n]; cbn [selections] in E; try congruence.
  - destruct (selections s []) eqn:Q; cbn in E; [discriminate|]. injection E as <-. eauto.
  - destruct (selected k i) eqn:W; cbn [bind] in E; [|injection E as <-; eapply selected_err; eauto].
    destruct (selections s n) eqn:Q; cbn in E; [discriminate|]. injection E as <-. eauto.
Qed.
Theorem getitem_refused : forall (st : state V) r n e, getitem st r n = Err e -> e = EIndexError.
Proof.
  intros st r n e E. unfold getitem in E. destruct (selections _ n) eqn:Q; cbn [bind] in E; [|injection E as <-; eapply selections_err; eauto].
  destruct (_ =? 1); [|congruence]. destruct n as [|n0 [|n1 [|n2 n]]]; try congruence. unfold pick in E.
  destruct (selected (length (s_time _)) n0) eqn:W0; cbn [bind] in E; [|injection E as <-; eapply selected_err; eauto].
  destruct (snd a0); cbn [bind] in E;
  (destruct (selected (length (s_freq _)) n1) eqn:W1; cbn [bind] in E; [|injection E as <-; eapply selected_err; eauto];
   destruct (snd a1); cbn [bind] in E;
   (destruct (selected (length (s_pol _)) n2) eqn:W2; cbn [bind] in E; [|injection E as <-; eapply selected_err; eauto];
    destruct (snd a2); discriminate)).
Qed.

(** A spectrum, or a part of the coordinates, is a selection of one axis: it is accepted, with
    all the coordinates of the sky beside it. *)
Theorem getitem_spectrum_refuted : forall (st : state V) r i k l t p c, good st -> r < length (objects st) ->
  let s := object st r in
  resolves (length (s_time s)) i t -> resolves (length (s_pol s)) k p -> resolves (length (s_coord s)) l c ->
  exists x, getitem st r [IInt i; ISlice None None; IInt k; IInt l] = Ok x /\
    sl_coord x = s_coord s /\ length (slice_value zero (heap st) x) = length (s_freq s).
Proof.
  intros st r i k l t p c G R s Hi Hk Hl. destruct (proj2 G r R) as (B & E & T). unfold value_of in E. fold s in E, B.
  unfold getitem. fold s. rewrite E. unfold expected. cbn [selections].
  rewrite (selected_int _ _ _ Hi). cbn [bind]. rewrite selected_all. cbn [bind]. rewrite (selected_int _ _ _ Hk). cbn [bind].
  rewrite (selected_int _ _ _ Hl). cbn [bind filter snd length Nat.eqb].
  rewrite (pick_int _ _ _ Hi), (pick_int _ _ _ Hk). unfold pick. rewrite selected_all. cbn [bind snd].
  eexists. split; [reflexivity|]. cbn [sl_coord]. split; [reflexivity|].
  unfold slice_value. rewrite map_length. cbn [sl_positions map fst positions]. rewrite !flat_one.
  rewrite map_length. generalize (length (s_freq s)) as n. intros n.
  rewrite flat_single; [apply seq_length|reflexivity].
Qed.
Theorem getitem_part_refuted : forall (st : state V) r i j k t f p a b, good st -> r < length (objects st) ->
  let s := object st r in
  resolves (length (s_time s)) i t -> resolves (length (s_freq s)) j f -> resolves (length (s_pol s)) k p ->
  a <= b <= length (s_coord s) ->
  exists x, getitem st r [IInt i; IInt j; IInt k; ISlice (Some (Z.of_nat a)) (Some (Z.of_nat b))] = Ok x /\
    sl_coord x = s_coord s /\ length (slice_value zero (heap st) x) = b - a.
Proof.
  intros st r i j k t f p a b G R s Hi Hj Hk Hab. destruct (proj2 G r R) as (B & E & T). unfold value_of in E. fold s in E, B.
  unfold getitem. fold s. rewrite E. unfold expected. cbn [selections].
  rewrite (selected_int _ _ _ Hi). cbn [bind]. rewrite (selected_int _ _ _ Hj). cbn [bind]. rewrite (selected_int _ _ _ Hk). cbn [bind].
  rewrite selected_slice. cbn [filter snd length Nat.eqb bind].
  rewrite (pick_int _ _ _ Hi), (pick_int _ _ _ Hj), (pick_int _ _ _ Hk). cbn [bind].
  eexists. split; [reflexivity|]. cbn [sl_coord]. split; [reflexivity|].
  unfold slice_value. rewrite map_length. cbn [sl_positions map fst positions]. rewrite !flat_one. rewrite !map_length.
  assert (SB : forall m, m <= length (s_coord s) -> slice_bound (length (s_coord s)) (Z.of_nat m) = m).
  { intros m M. unfold slice_bound. destruct (Z.ltb_spec (Z.of_nat m) 0); [lia|]. rewrite Nat2Z.id. lia. }
  rewrite !SB by lia.
  rewrite flat_single; [apply seq_length|reflexivity].
Qed.

(** A slice is a window on the values of numpy: the slice taken before a division is the one
    taken after, so that it shows the quotients. *)
Theorem slice_follows : forall (st : state V) r o n, good st -> r < length (objects st) -> held st o -> suits st r o ->
  a_lazy (value_of st r) = false ->
  getitem (fst (divide div zero st r o)) r n = getitem st r n.
Proof.
  intros st r o n G R H Su N. destruct (proj2 G r R) as (B & E & _). destruct (step_numpy zero div st r o G R H Su N) as (a' & Ev & Sh & _).
  apply divide_step in Ev. rewrite Ev. cbn [fst]. unfold getitem. rewrite object_upd by exact R. rewrite Nat.eqb_refl.
  unfold value_of in *. cbn [heap]. rewrite array_at_upd by exact B. rewrite Nat.eqb_refl. rewrite Sh, E. reflexivity.
Qed.
Theorem slice_dask : forall (st : state V) r o x, good st -> r < length (objects st) -> held st o -> suits st r o ->
  a_lazy (value_of st r) = true -> sl_place x = s_value (object st r) ->
  slice_value zero (heap (fst (divide div zero st r o))) x = slice_value zero (heap st) x.
Proof.
  intros st r o x G R H Su N P. destruct (proj2 G r R) as (B & _). destruct (step_dask zero div st r o G R H Su N) as (a' & Ev & _).
  apply divide_step in Ev. rewrite Ev. cbn [fst heap]. unfold slice_value. rewrite P, array_at_app by exact B. reflexivity.
Qed.

(** ** C184: differences of slices *)
Variable sub : V -> V -> V.

(** Slices as [getitem_pixels] gives them *)
Definition pixels (h : list (array V)) (x : slice) (t f p : Z) : Prop :=
  sl_time x = One t /\ sl_freq x = One f /\ sl_pol x = One p /\ length (sl_positions x) = length (sl_coord x) /\
  sl_place x < length h.

Lemma zip_same : forall A B C (f : A -> B -> C) a b, length a = length b -> zip_bcast f a b = Ok (map (fun p => f (fst p) (snd p)) (combine a b)).
Proof. intros A B C f a b E. unfold zip_bcast. now rewrite (proj2 (Nat.eqb_eq _ _) E). Qed.
Lemma zip_one : forall (a : list bool) y, exists m, zip_bcast andb a [y] = Ok m /\ length m = length a /\ forallb (fun b => b) m = forallb (fun b => b && y) a.
Proof.
  intros a y. unfold zip_bcast. destruct (Nat.eqb_spec (length a) (length [y])) as [E|E].
  - destruct a as [|x [|]]; try discriminate. cbn. eexists. split; [reflexivity|]. cbn. split; reflexivity.
  - assert (Q : forall c, length c = length a -> forallb (fun b => b) (map (fun x => x && y) c) = forallb (fun b => b && y) c).
    { intros c _. induction c; cbn; [reflexivity|]. now rewrite IHc. }
    destruct a as [|x [|z a]]; [|cbn in E; lia|]; eexists; (split; [reflexivity|]); rewrite map_length; split; auto.
Qed.
Lemma forallb_and : forall (a : list bool) y, a <> [] -> forallb (fun b => b && y) a = forallb (fun b => b) a && y.
Proof.
  induction a as [|x a IH]; intros y N; [congruence|]. cbn. destruct a as [|z a].
  - cbn. now destruct x, y.
  - rewrite IH by discriminate. now destruct x, (forallb (fun b => b) (z :: a)), y.
Qed.

Lemma common_pixels : forall h x y t f p t' f' p', pixels h x t f p -> pixels h y t' f' p' -> sl_coord x <> [] ->
  length (sl_coord x) = length (sl_coord y) ->
  common x y = Ok ((if list_eq_dec Z.eq_dec (sl_coord x) (sl_coord y) then true else false) && (t =? t')%Z && (f =? f')%Z && (p =? p')%Z).
Proof.
  intros h x y t f p t' f' p' (X1 & X2 & X3 & _) (Y1 & Y2 & Y3 & _) N L. unfold common.
  rewrite (zip_same _ _ _ Z.eqb _ _ L). rewrite X1, X2, X3, Y1, Y2, Y3. cbn [bind listed].
  assert (Z1 : forall a b, zip_bcast Z.eqb [a] [b] = Ok [(a =? b)%Z]) by reflexivity. rewrite !Z1. cbn [bind].
  set (c := map (fun p0 => (fst p0 =? snd p0)%Z) (combine (sl_coord x) (sl_coord y))).
  assert (LC : length c = length (sl_coord x)) by (unfold c; rewrite map_length, combine_length; lia).
  destruct (zip_one c (t =? t')%Z) as (m1 & E1 & L1 & F1). rewrite E1. cbn [bind].
  destruct (zip_one m1 (f =? f')%Z) as (m2 & E2 & L2 & F2). rewrite E2. cbn [bind].
  destruct (zip_one m2 (p =? p')%Z) as (m3 & E3 & L3 & F3). rewrite E3. cbn [bind].
  assert (NN : forall m : list bool, length m = length (sl_coord x) -> m <> []).
  { intros m M ->. destruct (sl_coord x); [congruence|discriminate]. }
  rewrite F3, forallb_and by (apply NN; congruence). rewrite F2, forallb_and by (apply NN; congruence).
  rewrite F1, forallb_and by (apply NN; congruence).
  f_equal. f_equal. f_equal. f_equal.
  unfold c. clear -L. revert L. generalize (sl_coord x) (sl_coord y). induction l as [|a l IH]; intros [|b l'] L; try discriminate.
  - destruct (list_eq_dec _ _ _); [reflexivity|congruence].
  - cbn [combine map forallb fst snd]. rewrite IH by (cbn in L; lia).
    destruct (Z.eqb_spec a b); destruct (list_eq_dec Z.eq_dec l l'), (list_eq_dec Z.eq_dec (a :: l) (b :: l')); try reflexivity; congruence.
Qed.

(** Slices described alike are subtracted, pixel by pixel, into a new slice; the values both
    had stay as they were. *)
Theorem subtract_value : forall h x y t f p, pixels h x t f p -> pixels h y t f p -> sl_coord x <> [] -> sl_coord y = sl_coord x ->
  a_lazy (array_at h (sl_place x)) = a_lazy (array_at h (sl_place y)) -> a_type (array_at h (sl_place x)) = a_type (array_at h (sl_place y)) ->
  exists h' z, subtract sub zero h x y = Ok (h', z) /\
    sl_coord z = sl_coord x /\ sl_time z = One t /\ sl_freq z = One f /\ sl_pol z = One p /\ sl_observer z = sl_observer x /\
    slice_value zero h' z = map (fun q => sub (fst q) (snd q)) (combine (slice_value zero h x) (slice_value zero h y)) /\
    (forall l, l < length h -> array_at h' l = array_at h l).
Proof.
  intros h x y t f p X Y N C La Ty.
  assert (Co : common x y = Ok true).
  { rewrite (common_pixels h x y t f p t f p X Y N) by now rewrite C. rewrite C, !Z.eqb_refl.
    destruct (list_eq_dec _ _ _); [reflexivity|congruence]. }
  destruct X as (X1 & X2 & X3 & X4 & X5), Y as (Y1 & Y2 & Y3 & Y4 & Y5).
  unfold subtract. rewrite Co. cbn [bind]. cbv zeta. rewrite <- La, <- Ty.
  set (n := length (sl_positions x)) in *. assert (ny : length (sl_positions y) = n) by (rewrite Y4, C; symmetry; exact X4). rewrite ny.
  set (vx := slice_value zero h x). set (vy := slice_value zero h y).
  assert (Lx : length vx = n) by (unfold vx, slice_value; now rewrite map_length).
  assert (Ly : length vy = n) by (unfold vy, slice_value; now rewrite map_length).
  set (c := mkArray (a_lazy (array_at h (sl_place x))) (a_type (array_at h (sl_place x))) [n] vx).
  set (b := mkArray (a_lazy (array_at h (sl_place x))) (a_type (array_at h (sl_place x))) [n] vy).
  assert (AC : array_at (h ++ [c]) (length h) = c) by apply array_at_new.
  assert (Sc : sound c) by (unfold sound; cbn; lia). assert (Sb : sound b) by (unfold sound; cbn; lia).
  assert (Val : forall a', a_shape a' = [n] -> sound a' -> (forall i, inside (a_shape a') i -> elem a' i = combined sub (elem c i) (elem b (aligned (a_shape b) i))) ->
                a_data a' = map (fun q => sub (fst q) (snd q)) (combine vx vy)).
  { intros a' Sh So El. apply nth_ext with (d := zero) (d' := zero).
    - rewrite map_length, combine_length. unfold sound in So. rewrite So, Sh. cbn. lia.
    - intros k K. unfold sound in So. rewrite So, Sh in K. cbn in K. assert (K' : k < n) by lia.
      assert (I : inside [n] [k]) by (constructor; [exact K'|constructor]).
      assert (Q := El [k]). rewrite Sh in Q. specialize (Q I). change (a_shape b) with [n] in Q. rewrite (aligned_self [n] [k] I) in Q.
      unfold elem in Q. rewrite Sh in Q. cbn [a_shape a_data c b] in Q.
      change (offset [n] [k]) with k in Q. 
      rewrite (nth_error_nth' vx zero), (nth_error_nth' vy zero) in Q by lia. cbn [combined] in Q.
      apply nth_error_nth with (d := zero) in Q. rewrite Q. symmetry.
      change (sub (nth k vx zero) (nth k vy zero)) with ((fun q => sub (fst q) (snd q)) (nth k vx zero, nth k vy zero)).
      rewrite <- combine_nth by lia. rewrite <- (map_nth (fun q => sub (fst q) (snd q))). apply nth_indep.
      rewrite map_length, combine_length. lia. }
  assert (Read : forall d : list V, map (fun k => nth k d zero) (seq 0 (length d)) = d).
  { intros d. apply nth_ext with (d := zero) (d' := zero); [now rewrite map_length, seq_length|].
    intros k K. rewrite map_length, seq_length in K.
    rewrite (nth_indep _ _ ((fun k => nth k d zero) 0)) by (now rewrite map_length, seq_length).
    rewrite (map_nth (fun k => nth k d zero)). now rewrite seq_nth. }
  destruct (a_lazy (array_at h (sl_place x))) eqn:LL.
  - destruct (in_place_dask zero sub (h ++ [c]) (length h) b) as (a' & I & Sh & T' & La' & So & El); rewrite ?AC; auto; [apply fits_refl|].
    rewrite AC in Sh, El. rewrite I. cbn [bind fst snd]. eexists. eexists. split; [reflexivity|].
    cbn [sl_coord sl_time sl_freq sl_pol sl_observer]. repeat (split; [assumption || reflexivity|]). split.
    + unfold slice_value at 1. cbn [sl_place sl_positions]. rewrite array_at_new. rewrite Read. now apply Val.
    + intros l L. rewrite !array_at_app; [reflexivity|exact L|rewrite app_length; lia].
  - destruct (in_place_numpy zero sub (h ++ [c]) (length h) b) as (a' & I & Sh & T' & La' & So & El); rewrite ?AC; auto.
    + rewrite app_length. cbn. lia.
    + apply fits_refl.
    + rewrite AC in Sh, El. rewrite I. cbn [bind fst snd]. eexists. eexists. split; [reflexivity|].
      cbn [sl_coord sl_time sl_freq sl_pol sl_observer]. repeat (split; [assumption || reflexivity|]). split.
      * unfold slice_value at 1. cbn [sl_place sl_positions]. rewrite array_at_upd by (rewrite app_length; cbn; lia). rewrite Nat.eqb_refl.
        rewrite Read. now apply Val.
      * intros l L. rewrite array_at_upd by (rewrite app_length; lia). destruct (Nat.eqb_spec l (length h)); [lia|]. now apply array_at_app.
Qed.

Theorem subtract_refused : forall h x y t f p t' f' p', pixels h x t f p -> pixels h y t' f' p' -> sl_coord x <> [] ->
  length (sl_coord x) = length (sl_coord y) ->
  sl_coord x <> sl_coord y \/ t <> t' \/ f <> f' \/ p <> p' -> subtract sub zero h x y = Err EValueError.
Proof.
  intros h x y t f p t' f' p' X Y N L D. unfold subtract. rewrite (common_pixels h x y t f p t' f' p' X Y N L). cbn [bind].
  destruct (list_eq_dec _ _ _), (Z.eqb_spec t t'), (Z.eqb_spec f f'), (Z.eqb_spec p p'); cbn; try reflexivity.
  exfalso. destruct D as [D|[D|[D|D]]]; congruence.
Qed.

(** The observers are not compared. *)
Theorem subtract_observer_refuted : forall h x y o,
  subtract sub zero h x (mkSlice (sl_coord y) (sl_time y) (sl_freq y) (sl_pol y) o (sl_place y) (sl_positions y)) = subtract sub zero h x y.
Proof. reflexivity. Qed.
End Ops.

(** ** C185: the visible part *)

Section Visible.
Variable alt : Z -> Z -> Z -> Q.

Lemma nth_error_blocks : forall A (l : list (list A)) n i k, (forall x, In x l -> length x = n) -> k < n ->
  nth_error (concat l) (i * n + k) = match nth_error l i with Some x => nth_error x k | None => None end.
Proof.
  intros A l n. induction l as [|x l IH]; intros i k H K.
  - cbn. destruct i; cbn; [now destruct k|]. now destruct (n + i * n + k).
  - cbn [concat]. assert (X : length x = n) by (apply H; now left). destruct i as [|i].
    + cbn [Nat.mul Nat.add nth_error]. apply nth_error_app1. lia.
    + rewrite nth_error_app2 by (cbn; lia). replace (S i * n + k - length x) with (i * n + k) by (cbn; lia).
      cbn [nth_error]. apply IH; [|exact K]. intros. apply H. now right.
Qed.
Lemma concat_length_const : forall A (l : list (list A)) n, (forall x, In x l -> length x = n) -> length (concat l) = length l * n.
Proof.
  induction l; intros n H; cbn; [reflexivity|]. rewrite app_length, (H a) by now left. rewrite (IHl n); [reflexivity|]. intros. apply H. now right.
Qed.

(** Element [t, f, p, c] of the mask: the coordinate [c] is above the horizon at the time [t],
    whatever the frequency and the polarization; the mask has the shape of the value. *)
Theorem mask_at : forall s t f p c, in_sky s t f p c ->
  nth_error (snd (visible_mask alt s)) (((t * length (s_freq s) + f) * length (s_pol s) + p) * length (s_coord s) + c) =
  Some (if Qlt_le_dec 0 (alt (s_observer s) (nth t (s_time s) 0%Z) (nth c (s_coord s) 0%Z)) then true else false).
Proof.
  intros s t f p c (T & F & P & C). unfold visible_mask. cbn [snd].
  rewrite flat_map_concat_map.
  set (row := fun t => map (above alt (s_observer s) t) (s_coord s)).
  set (nf := length (s_freq s)) in *. set (np := length (s_pol s)) in *. set (nc := length (s_coord s)) in *.
  assert (RL : forall t x, In x (repeat (row t) np) -> length x = nc).
  { intros t0 x X. apply repeat_spec in X. subst. unfold row. now rewrite map_length. }
  assert (BL : forall t x, In x (repeat (concat (repeat (row t) np)) nf) -> length x = np * nc).
  { intros t0 x X. apply repeat_spec in X. subst. rewrite (concat_length_const _ _ nc) by apply RL. now rewrite repeat_length. }
  assert (TL : forall x, In x (map (fun t => concat (repeat (concat (repeat (row t) np)) nf)) (s_time s)) -> length x = nf * (np * nc)).
  { intros x X. apply in_map_iff in X. destruct X as (t0 & <- & _). rewrite (concat_length_const _ _ (np * nc)) by apply BL. now rewrite repeat_length. }
  replace (((t * nf + f) * np + p) * nc + c) with (t * (nf * (np * nc)) + (f * (np * nc) + (p * nc + c))) by lia.
  assert (K1 : p * nc + c < np * nc) by nia. assert (K2 : f * (np * nc) + (p * nc + c) < nf * (np * nc)) by nia.
  unfold row in *. rewrite (nth_error_blocks _ _ _ t _ TL K2). rewrite nth_error_map, (nth_error_nth' (s_time s) 0%Z T). cbn [option_map].
  rewrite (nth_error_blocks _ _ _ f _ (BL _) K1). rewrite nth_error_repeat_lt by exact F.
  rewrite (nth_error_blocks _ _ _ p _ (RL _) C). rewrite nth_error_repeat_lt by exact P.
  rewrite nth_error_map, (nth_error_nth' (s_coord s) 0%Z C). cbn [option_map]. f_equal. unfold above.
  destruct (Qlt_le_dec _ _) as [X|X].
  - destruct (Qle_bool _ 0) eqn:W; [|reflexivity]. apply Qle_bool_iff in W. exfalso. now apply (Qlt_not_le _ _ X).
  - apply Qle_bool_iff in X. now rewrite X.
Qed.
Theorem mask_shape : forall s, fst (visible_mask alt s) = expected s /\ length (snd (visible_mask alt s)) = prod (expected s).
Proof.
  intros s. split; [reflexivity|]. unfold visible_mask. cbn [snd]. rewrite flat_map_concat_map.
  rewrite (concat_length_const _ _ (length (s_freq s) * (length (s_pol s) * length (s_coord s)))).
  - rewrite map_length. unfold expected, prod. lia.
  - intros x X. apply in_map_iff in X. destruct X as (t & <- & _).
    rewrite (concat_length_const _ _ (length (s_pol s) * length (s_coord s))); [now rewrite repeat_length|].
    intros y Y. apply repeat_spec in Y. subst. rewrite (concat_length_const _ _ (length (s_coord s))); [now rewrite repeat_length|].
    intros z Z. apply repeat_spec in Z. subst. now rewrite map_length.
Qed.
(** A slice hides the same coordinates. *)
Theorem mask_slice : forall s t f p c, in_sky s t f p c ->
  nth_error (visible_sky alt (s_observer s) (nth t (s_time s) 0%Z) (s_coord s)) c =
  nth_error (snd (visible_mask alt s)) (((t * length (s_freq s) + f) * length (s_pol s) + p) * length (s_coord s) + c).
Proof.
  intros s t f p c I. rewrite mask_at by exact I. destruct I as (T & F & P & C).
  unfold visible_sky. rewrite nth_error_map, (nth_error_nth' (s_coord s) 0%Z C). cbn [option_map]. f_equal. unfold above.
  destruct (Qlt_le_dec _ _) as [X|X].
  - destruct (Qle_bool _ 0) eqn:W; [|reflexivity]. apply Qle_bool_iff in W. exfalso. now apply (Qlt_not_le _ _ X).
  - apply Qle_bool_iff in X. now rewrite X.
Qed.
End Visible.
