(** Skies: their values, the operators, and what they share. *)
From Coq Require Import ZArith Bool List Lia.
From Verif Require Import Base M_Sky P_Sky.
Import ListNotations.
Open Scope nat_scope.
Open Scope list_scope.

(** ** Specification *)

(** [sky.value[t, f, p, c]] *)
Definition value_at {V} (st : state V) (r t f p c : nat) : option V :=
  let s := object st r in
  nth_error (a_data (array_at (heap st) (s_value s)))
    (((t * length (s_freq s) + f) * length (s_pol s) + p) * length (s_coord s) + c).
(** Indices of a sky *)
Definition in_sky (s : sky) (t f p c : nat) : Prop :=
  t < length (s_time s) /\ f < length (s_freq s) /\ p < length (s_pol s) /\ c < length (s_coord s).
(** Two skies described alike *)
Definition same_axes (s s' : sky) : Prop :=
  s_time s' = s_time s /\ s_freq s' = s_freq s /\ s_pol s' = s_pol s /\ s_coord s' = s_coord s /\ s_observer s' = s_observer s.

Definition value_of {V} (st : state V) (r : nat) : array V := array_at (heap st) (s_value (object st r)).
(** The states programs reach: arrays have as many elements as their shape tells, and the value
    of a sky has the shape of its axes and a type large enough. *)
Definition good {V} (st : state V) : Prop :=
  (forall l, l < length (heap st) -> sound (array_at (heap st) l)) /\
  (forall r, r < length (objects st) ->
     s_value (object st r) < length (heap st) /\ a_shape (value_of st r) = expected (object st r) /\ a_type (value_of st r) <> Small).
Definition held {V} (st : state V) (o : operand V) : Prop :=
  match o with Scalar _ _ => True | Array l => l < length (heap st) | Other r => r < length (objects st) end.
(** What a program can do: the references are its own, arrays are sound, and axes are only
    replaced by axes of the same length. *)
Definition allowed {V} (st : state V) (o : op V) : Prop :=
  match o with
  | NewArray a => sound a
  | Poke l _ _ => l < length (heap st)
  | NewSky _ _ _ _ _ o => held st o
  | SetValue r o | Divide r o | Multiply r o => r < length (objects st) /\ held st o
  | SetTime r l => r < length (objects st) /\ length l = length (s_time (object st r))
  | SetFreq r l => r < length (objects st) /\ length l = length (s_freq (object st r))
  | SetPol r l => r < length (objects st) /\ length l = length (s_pol (object st r))
  end.
(** The argument can be combined in the shape of the sky. *)
Definition suits {V} (st : state V) (r : nat) (o : operand V) : Prop :=
  let a := value_of st r in let b := of_operand st o in
  fits (a_shape b) (expected (object st r)) /\
  (a_lazy a = false -> a_lazy b = false /\ (is_cplx (a_type b) = true -> is_cplx (a_type a) = true)).
(** The element of the argument met by [value[t, f, p, c]] *)
Definition met {V} (st : state V) (o : operand V) (t f p c : nat) : option V :=
  let b := of_operand st o in elem b (aligned (a_shape b) [t; f; p; c]).
Definition combined {V} (op : V -> V -> V) (x y : option V) : option V :=
  match x, y with Some x, Some y => Some (op x y) | _, _ => None end.

(** ** Arrays in the heap *)

Lemma array_at_app : forall V (h : list (array V)) g l, l < length h -> array_at (h ++ g) l = array_at h l.
Proof. intros. unfold array_at. now apply app_nth1. Qed.
Lemma array_at_new : forall V (h : list (array V)) a, array_at (h ++ [a]) (length h) = a.
Proof. intros. unfold array_at. rewrite app_nth2 by lia. now rewrite Nat.sub_diag. Qed.
Lemma array_at_upd : forall V (h : list (array V)) l a k, k < length h -> array_at (upd l a h) k = if k =? l then a else array_at h k.
Proof. intros. unfold array_at. now apply nth_upd. Qed.

Lemma expected_inside : forall s t f p c, in_sky s t f p c -> inside (expected s) [t; f; p; c].
Proof. intros s t f p c (T & F & P & C). unfold expected, inside. repeat constructor; assumption. Qed.

Lemma value_at_elem : forall V (st : state V) r t f p c, a_shape (value_of st r) = expected (object st r) ->
  value_at st r t f p c = elem (value_of st r) [t; f; p; c].
Proof. intros V st r t f p c E. unfold value_at, elem. rewrite E. reflexivity. Qed.

Lemma object_upd : forall V (st : state V) (h : list (array V)) r s k, k < length (objects st) ->
  object (mkState h (upd r s (objects st))) k = if k =? r then s else object st k.
Proof. intros. unfold object. cbn. now apply nth_upd. Qed.
Lemma object_app : forall V (st : state V) (h : list (array V)) g k, k < length (objects st) -> object (mkState h (objects st ++ g)) k = object st k.
Proof. intros. unfold object. cbn. now apply app_nth1. Qed.
Lemma object_new : forall V (st : state V) (h : list (array V)) s, object (mkState h (objects st ++ [s])) (length (objects st)) = s.
Proof. intros. unfold object. cbn. rewrite app_nth2 by lia. now rewrite Nat.sub_diag. Qed.

Section Ops.
Context {V : Type} (mul div : V -> V -> V) (one zero : V).

Lemma operand_sound : forall (st : state V) o, good st -> held st o -> sound (of_operand st o).
Proof.
  intros st o [G1 G2] H. destruct o as [b v|l|r]; cbn.
  - reflexivity.
  - now apply G1.
  - cbn in H. apply G1. destruct (G2 r H) as [B _]. unfold object in B.
    rewrite (nth_indep _ _ (dummy)) by exact H. exact B.
Qed.

(** In place operators of numpy *)
Lemma in_place_numpy : forall op (h : list (array V)) l b, l < length h -> sound (array_at h l) -> sound b ->
  a_lazy (array_at h l) = false -> a_lazy b = false -> (is_cplx (a_type b) = true -> is_cplx (a_type (array_at h l)) = true) ->
  fits (a_shape b) (a_shape (array_at h l)) ->
  exists a', in_place zero op h l b = Ok (upd l a' h, l) /\ a_shape a' = a_shape (array_at h l) /\ a_type a' = a_type (array_at h l) /\
    a_lazy a' = false /\ sound a' /\
    (forall i, inside (a_shape a') i -> elem a' i = combined op (elem (array_at h l) i) (elem b (aligned (a_shape b) i))).
Proof.
  intros op h l b Hl Sa Sb La Lb C F. unfold in_place. set (a := array_at h l) in *. rewrite La, Lb.
  assert (E : is_cplx (a_type b) && negb (is_cplx (a_type a)) = false).
  { destruct (is_cplx (a_type b)); [|reflexivity]. now rewrite C. }
  rewrite E. apply fits_iff in F as F'. apply bcast_fits in F'. rewrite F'.
  rewrite (proj2 (shape_eqb_eq _ _) eq_refl).
  eexists. split; [reflexivity|]. cbn [a_shape a_type a_lazy a_data].
  split; [reflexivity|]. split; [reflexivity|]. split; [reflexivity|]. split.
  - unfold sound. cbn. rewrite elementwise_length. apply prod_rev.
  - intros i I. unfold elem at 1. cbn [a_shape a_data].
    rewrite elementwise_elem by (try assumption; apply fits_refl).
    rewrite aligned_self by assumption. reflexivity.
Qed.

(** Operators of dask *)
Lemma in_place_dask : forall op (h : list (array V)) l b, sound (array_at h l) -> sound b -> a_lazy (array_at h l) = true ->
  fits (a_shape b) (a_shape (array_at h l)) ->
  exists a', in_place zero op h l b = Ok (h ++ [a'], length h) /\ a_shape a' = a_shape (array_at h l) /\ a_type a' <> Small /\
    a_lazy a' = true /\ sound a' /\
    (forall i, inside (a_shape a') i -> elem a' i = combined op (elem (array_at h l) i) (elem b (aligned (a_shape b) i))).
Proof.
  intros op h l b Sa Sb La F. unfold in_place. set (a := array_at h l) in *. rewrite La.
  apply fits_iff in F as F'. apply bcast_fits in F'. rewrite F'.
  eexists. split; [reflexivity|]. cbn [a_shape a_type a_lazy a_data]. rewrite rev_involutive.
  split; [reflexivity|]. split; [destruct (_ || _); discriminate|]. split; [reflexivity|]. split.
  - unfold sound. cbn. rewrite elementwise_length. apply prod_rev.
  - intros i I. unfold elem at 1. cbn [a_shape a_data].
    rewrite elementwise_elem by (try assumption; apply fits_refl).
    rewrite aligned_self by assumption. reflexivity.
Qed.

Lemma set_array_keep : forall (h : list (array V)) s l, a_shape (array_at h l) = expected s -> a_type (array_at h l) <> Small ->
  set_array h s l = Ok (h, mkSky (s_time s) (s_freq s) (s_pol s) (s_coord s) (s_observer s) l).
Proof.
  intros h s l E T. unfold set_array. rewrite E. rewrite (proj2 (shape_eqb_eq _ _) eq_refl).
  destruct (a_type (array_at h l)); congruence.
Qed.

Definition moved (s : sky) (l : nat) : sky := mkSky (s_time s) (s_freq s) (s_pol s) (s_coord s) (s_observer s) l.
Lemma moved_axes : forall s l, same_axes s (moved s l).
Proof. intros. unfold same_axes, moved. cbn. tauto. Qed.
Lemma moved_self : forall s, moved s (s_value s) = s.
Proof. now intros []. Qed.

(** The step common to both operators *)
Definition combine_step (op : V -> V -> V) (st : state V) (r : nat) (o : operand V) : res (list (array V) * sky) :=
  bind (in_place zero op (heap st) (s_value (object st r)) (of_operand st o)) (fun x => set_array (fst x) (object st r) (snd x)).

Lemma divide_step : forall st r o h s, combine_step div st r o = Ok (h, s) -> divide div zero st r o = (mkState h (upd r s (objects st)), Ok r).
Proof.
  intros st r o h s. unfold combine_step, divide, bind.
  destruct (in_place _ _ _ _ _) as [[h' l]|e]; [|discriminate]. cbn [fst snd].
  destruct (set_array h' _ l) as [[h'' s']|e]; [|discriminate]. intros E. injection E as -> ->. reflexivity.
Qed.
Lemma multiply_step : forall st r o h s, combine_step mul st r o = Ok (h, s) ->
  multiply mul zero st r o = (mkState h (objects st ++ [s]), Ok (length (objects st))).
Proof.
  intros st r o h s. unfold combine_step, multiply, bind.
  destruct (in_place _ _ _ _ _) as [[h' l]|e]; [|discriminate]. cbn [fst snd].
  destruct (set_array h' _ l) as [[h'' s']|e]; [|discriminate]. intros E. injection E as -> ->. reflexivity.
Qed.

Lemma step_numpy : forall op st r o, good st -> r < length (objects st) -> held st o -> suits st r o -> a_lazy (value_of st r) = false ->
  exists a', combine_step op st r o = Ok (upd (s_value (object st r)) a' (heap st), object st r) /\
    a_shape a' = expected (object st r) /\ a_type a' = a_type (value_of st r) /\ a_lazy a' = false /\ sound a' /\
    (forall t f p c, in_sky (object st r) t f p c -> elem a' [t; f; p; c] = combined op (value_at st r t f p c) (met st o t f p c)).
Proof.
  intros op st r o G R H [F L] N. pose proof G as [G1 G2]. destruct (G2 r R) as (B & E & T).
  destruct (L N) as [Lb C]. unfold value_of in *.
  destruct (in_place_numpy op (heap st) (s_value (object st r)) (of_operand st o)) as (a' & I & S' & T' & Z & SS & EL); try assumption.
  - now apply G1.
  - now apply operand_sound.
  - now rewrite E.
  - exists a'. rewrite E in S'. split; [|repeat split; try assumption; congruence || idtac].
    + unfold combine_step. rewrite I. cbn [bind fst snd].
      rewrite set_array_keep.
      * f_equal. f_equal. now destruct (object st r).
      * rewrite array_at_upd by assumption. rewrite Nat.eqb_refl. assumption.
      * rewrite array_at_upd by assumption. rewrite Nat.eqb_refl. congruence.
    + intros t f p c In. rewrite value_at_elem by exact E. rewrite EL; [reflexivity|]. rewrite S'. now apply expected_inside.
Qed.

Lemma step_dask : forall op st r o, good st -> r < length (objects st) -> held st o -> suits st r o -> a_lazy (value_of st r) = true ->
  exists a', combine_step op st r o = Ok (heap st ++ [a'], moved (object st r) (length (heap st))) /\
    a_shape a' = expected (object st r) /\ a_type a' <> Small /\ a_lazy a' = true /\ sound a' /\
    (forall t f p c, in_sky (object st r) t f p c -> elem a' [t; f; p; c] = combined op (value_at st r t f p c) (met st o t f p c)).
Proof.
  intros op st r o G R H [F L] N. pose proof G as [G1 G2]. destruct (G2 r R) as (B & E & T). unfold value_of in *.
  destruct (in_place_dask op (heap st) (s_value (object st r)) (of_operand st o)) as (a' & I & S' & T' & Z & SS & EL); try assumption.
  - now apply G1.
  - now apply operand_sound.
  - now rewrite E.
  - exists a'. rewrite E in S'. split; [|repeat split; assumption || idtac].
    + unfold combine_step. rewrite I. cbn [bind fst snd].
      rewrite set_array_keep; [reflexivity| |]; rewrite array_at_new; assumption.
    + intros t f p c In. rewrite value_at_elem by exact E. rewrite EL; [reflexivity|]. rewrite S'. now apply expected_inside.
Qed.

(** ** C180: division *)

Lemma in_sky_same : forall s s' t f p c, same_axes s s' -> in_sky s t f p c -> in_sky s' t f p c.
Proof. intros s s' t f p c (A & B & C & D & _). unfold in_sky. now rewrite A, B, C, D. Qed.

(** The result is the sky itself, each element divided by the one of the argument. *)
Theorem divide_value : forall st r o, good st -> r < length (objects st) -> held st o -> suits st r o ->
  exists st', divide div zero st r o = (st', Ok r) /\ same_axes (object st r) (object st' r) /\
    (forall t f p c, in_sky (object st r) t f p c -> value_at st' r t f p c = combined div (value_at st r t f p c) (met st o t f p c)).
Proof.
  intros st r o G R H Su. pose proof G as [G1 G2]. destruct (G2 r R) as (B & E & T).
  destruct (a_lazy (value_of st r)) eqn:N.
  - destruct (step_dask div st r o G R H Su N) as (a' & Ev & Sh & Ty & La & So & El).
    apply divide_step in Ev. eexists. split; [exact Ev|].
    assert (OB : object (mkState (heap st ++ [a']) (upd r (moved (object st r) (length (heap st))) (objects st))) r = moved (object st r) (length (heap st))).
    { rewrite object_upd by assumption. now rewrite Nat.eqb_refl. }
    split; [rewrite OB; apply moved_axes|].
    intros t f p c In. rewrite <- El by assumption. rewrite value_at_elem; unfold value_of; rewrite OB; cbn [moved s_value heap].
    + now rewrite array_at_new.
    + rewrite array_at_new. exact Sh.
  - destruct (step_numpy div st r o G R H Su N) as (a' & Ev & Sh & Ty & La & So & El).
    apply divide_step in Ev. eexists. split; [exact Ev|].
    match goal with |- same_axes _ (object ?s r) /\ _ => assert (OB : object s r = object st r) by (rewrite object_upd by assumption; now rewrite Nat.eqb_refl) end.
    split; [rewrite OB; unfold same_axes; tauto|].
    intros t f p c In. rewrite <- El by assumption. rewrite value_at_elem; unfold value_of; rewrite OB; cbn [heap].
    + rewrite array_at_upd by assumption. now rewrite Nat.eqb_refl.
    + rewrite array_at_upd by assumption. rewrite Nat.eqb_refl. exact Sh.
Qed.

(** Other skies are left alone, but those sharing a numpy value. *)
Theorem divide_others : forall st r o k, good st -> r < length (objects st) -> held st o -> suits st r o ->
  k < length (objects st) -> k <> r ->
  a_lazy (value_of st r) = true \/ s_value (object st k) <> s_value (object st r) ->
  object (fst (divide div zero st r o)) k = object st k /\
  forall t f p c, value_at (fst (divide div zero st r o)) k t f p c = value_at st k t f p c.
Proof.
  intros st r o k G R H Su K D Sh. pose proof G as [G1 G2]. destruct (G2 k K) as (B & E & T).
  destruct (a_lazy (value_of st r)) eqn:N.
  - destruct (step_dask div st r o G R H Su N) as (a' & Ev & _).
    apply divide_step in Ev. rewrite Ev. cbn [fst].
    assert (OB : forall (h : list (array V)) s, object (mkState h (upd r s (objects st))) k = object st k).
    { intros. rewrite object_upd by assumption. now destruct (Nat.eqb_spec k r). }
    split; [apply OB|]. intros. unfold value_at. rewrite OB. cbn [heap]. now rewrite array_at_app by assumption.
  - destruct Sh as [X|Sh]; [discriminate|].
    destruct (step_numpy div st r o G R H Su N) as (a' & Ev & _).
    apply divide_step in Ev. rewrite Ev. cbn [fst].
    assert (OB : forall (h : list (array V)) s, object (mkState h (upd r s (objects st))) k = object st k).
    { intros. rewrite object_upd by assumption. now destruct (Nat.eqb_spec k r). }
    split; [apply OB|]. intros. unfold value_at. rewrite OB. cbn [heap]. rewrite array_at_upd by assumption.
    now destruct (Nat.eqb_spec (s_value (object st k)) (s_value (object st r))).
Qed.

(** Those sharing it show the quotient too. *)
Theorem divide_shared : forall st r o k, good st -> r < length (objects st) -> held st o -> suits st r o -> k < length (objects st) ->
  a_lazy (value_of st r) = false -> s_value (object st k) = s_value (object st r) -> same_axes (object st r) (object st k) ->
  forall t f p c, value_at (fst (divide div zero st r o)) k t f p c = value_at (fst (divide div zero st r o)) r t f p c.
Proof.
  intros st r o k G R H Su K N Sh (A1 & A2 & A3 & A4 & A5) t f p c.
  destruct (step_numpy div st r o G R H Su N) as (a' & Ev & _).
  apply divide_step in Ev. rewrite Ev. cbn [fst].
  unfold value_at. rewrite !object_upd by assumption. rewrite Nat.eqb_refl.
  destruct (Nat.eqb_spec k r); [reflexivity|]. cbn [heap]. rewrite Sh, A2, A3, A4. reflexivity.
Qed.

(** ** C181: multiplication *)

(** The result is a new sky, each element being the product. *)
Theorem multiply_value : forall st r o, good st -> r < length (objects st) -> held st o -> suits st r o ->
  exists st', multiply mul zero st r o = (st', Ok (length (objects st))) /\ length (objects st') = S (length (objects st)) /\
    same_axes (object st r) (object st' (length (objects st))) /\
    (forall t f p c, in_sky (object st r) t f p c ->
       value_at st' (length (objects st)) t f p c = combined mul (value_at st r t f p c) (met st o t f p c)).
Proof.
  intros st r o G R H Su. pose proof G as [G1 G2]. destruct (G2 r R) as (B & E & T).
  destruct (a_lazy (value_of st r)) eqn:N.
  - destruct (step_dask mul st r o G R H Su N) as (a' & Ev & Sh & Ty & La & So & El).
    apply multiply_step in Ev. eexists. split; [exact Ev|]. split; [cbn; rewrite app_length; cbn; lia|].
    split; [rewrite object_new; apply moved_axes|].
    intros t f p c In. rewrite <- El by assumption. rewrite value_at_elem; unfold value_of; rewrite object_new; cbn [moved s_value heap].
    + now rewrite array_at_new.
    + rewrite array_at_new. exact Sh.
  - destruct (step_numpy mul st r o G R H Su N) as (a' & Ev & Sh & Ty & La & So & El).
    apply multiply_step in Ev. eexists. split; [exact Ev|]. split; [cbn; rewrite app_length; cbn; lia|].
    split; [rewrite object_new; unfold same_axes; tauto|].
    intros t f p c In. rewrite <- El by assumption. rewrite value_at_elem; unfold value_of; rewrite object_new; cbn [heap].
    + rewrite array_at_upd by assumption. now rewrite Nat.eqb_refl.
    + rewrite array_at_upd by assumption. rewrite Nat.eqb_refl. exact Sh.
Qed.

(** With numpy values the sky multiplied holds the product as well, for both share it. *)
Theorem multiply_original : forall st r o, good st -> r < length (objects st) -> held st o -> suits st r o ->
  a_lazy (value_of st r) = false ->
  let st' := fst (multiply mul zero st r o) in
  s_value (object st' (length (objects st))) = s_value (object st' r) /\
  forall t f p c, in_sky (object st r) t f p c -> value_at st' r t f p c = combined mul (value_at st r t f p c) (met st o t f p c).
Proof.
  intros st r o G R H Su N. pose proof G as [G1 G2]. destruct (G2 r R) as (B & E & T).
  destruct (step_numpy mul st r o G R H Su N) as (a' & Ev & Sh & Ty & La & So & El).
  apply multiply_step in Ev. cbv zeta. rewrite Ev. cbn [fst]. split.
  - now rewrite object_new, object_app.
  - intros t f p c In. rewrite <- El by assumption. rewrite value_at_elem; unfold value_of; rewrite object_app by assumption; cbn [heap].
    + rewrite array_at_upd by assumption. now rewrite Nat.eqb_refl.
    + rewrite array_at_upd by assumption. rewrite Nat.eqb_refl. exact Sh.
Qed.

(** With dask values no sky changes. *)
Theorem multiply_dask : forall st r o k, good st -> r < length (objects st) -> held st o -> suits st r o ->
  a_lazy (value_of st r) = true -> k < length (objects st) ->
  forall t f p c, value_at (fst (multiply mul zero st r o)) k t f p c = value_at st k t f p c.
Proof.
  intros st r o k G R H Su N K t f p c. pose proof G as [G1 G2]. destruct (G2 k K) as (B & E & T).
  destruct (step_dask mul st r o G R H Su N) as (a' & Ev & _).
  apply multiply_step in Ev. rewrite Ev. cbn [fst]. unfold value_at. rewrite object_app by assumption. cbn [heap].
  now rewrite array_at_app.
Qed.

Theorem multiply_others : forall st r o k, good st -> r < length (objects st) -> held st o -> suits st r o ->
  k < length (objects st) -> s_value (object st k) <> s_value (object st r) ->
  forall t f p c, value_at (fst (multiply mul zero st r o)) k t f p c = value_at st k t f p c.
Proof.
  intros st r o k G R H Su K D t f p c. destruct (a_lazy (value_of st r)) eqn:N; [now apply multiply_dask|].
  pose proof G as [G1 G2]. destruct (G2 k K) as (B & E & T).
  destruct (step_numpy mul st r o G R H Su N) as (a' & Ev & _).
  apply multiply_step in Ev. rewrite Ev. cbn [fst]. unfold value_at. rewrite object_app by assumption. cbn [heap].
  rewrite array_at_upd by assumption. now destruct (Nat.eqb_spec (s_value (object st k)) (s_value (object st r))).
Qed.

(** ** Refusals *)

Lemma in_place_shape : forall op (h : list (array V)) l b h' k, in_place zero op h l b = Ok (h', k) -> l < length h ->
  bcast (rev (a_shape (array_at h l))) (rev (a_shape b)) = Some (rev (a_shape (array_at h' k))).
Proof.
  intros op h l b h' k. unfold in_place. set (a := array_at h l).
  destruct (bcast _ _) as [s|] eqn:B.
  - destruct (a_lazy a).
    + intros E Hl. injection E as <- <-. rewrite array_at_new. cbn. now rewrite rev_involutive.
    + destruct (a_lazy b); [discriminate|]. destruct (_ && _); [discriminate|]. destruct (shape_eqb _ _) eqn:S; [|discriminate].
      intros E Hl. injection E as <- <-. rewrite array_at_upd by assumption. rewrite Nat.eqb_refl. cbn.
      apply shape_eqb_eq in S. congruence.
  - destruct (a_lazy a); [discriminate|]. destruct (a_lazy b); [discriminate|]. destruct (_ && _); discriminate.
Qed.

Lemma step_refused : forall op st r o, good st -> r < length (objects st) -> ~ suits st r o ->
  (exists e, in_place zero op (heap st) (s_value (object st r)) (of_operand st o) = Err e /\ In e [EValueError; ETypeError; ENotImplementedError]) \/
  (exists a l, in_place zero op (heap st) (s_value (object st r)) (of_operand st o) = Ok (heap st ++ [a], l) /\
               set_array (heap st ++ [a]) (object st r) l = Err EValueError).
Proof.
  intros op st r o G R Su. pose proof G as [G1 G2]. destruct (G2 r R) as (B & E & T).
  destruct (in_place zero op (heap st) (s_value (object st r)) (of_operand st o)) as [[h' k]|e] eqn:I.
  - right. pose proof (in_place_shape _ _ _ _ _ _ I B) as Sh.
    assert (NF : ~ fits (a_shape (of_operand st o)) (expected (object st r))).
    { intros F. apply Su. split; [exact F|]. intros N. unfold in_place in I. unfold value_of in N. rewrite N in I.
      destruct (a_lazy (of_operand st o)); [discriminate|]. split; [reflexivity|]. intros C. rewrite C in I.
      unfold value_of. destruct (is_cplx (a_type (array_at _ _))); [reflexivity|discriminate]. }
    unfold value_of in *.
    assert (NE : a_shape (array_at h' k) <> expected (object st r)).
    { intros X. apply NF. rewrite X, <- E in Sh. apply bcast_fits in Sh. apply fits_iff in Sh. congruence. }
    unfold in_place in I. destruct (bcast _ _) as [s|] eqn:Bc.
    + destruct (a_lazy (array_at _ _)).
      * injection I as <- <-. eexists. eexists. split; [reflexivity|]. unfold set_array.
        destruct (shape_eqb _ _) eqn:Q; [|reflexivity]. apply shape_eqb_eq in Q. congruence.
      * destruct (a_lazy (of_operand st o)); [discriminate|]. destruct (_ && _); [discriminate|]. destruct (shape_eqb _ _) eqn:Q; [|discriminate].
        injection I as <- <-. rewrite array_at_upd in NE by assumption. rewrite Nat.eqb_refl in NE. cbn in NE. congruence.
    + destruct (a_lazy (array_at _ _)); [discriminate|]. destruct (a_lazy (of_operand st o)); [discriminate|]. destruct (_ && _); discriminate.
  - left. exists e. split; [reflexivity|]. unfold in_place in I.
    destruct (bcast _ _); repeat (match type of I with context [if ?c then _ else _] => destruct c end); try discriminate; injection I as <-; cbn; auto.
Qed.

(** An argument that does not suit is refused, and no sky changes. *)
Theorem divide_refused : forall st r o, good st -> r < length (objects st) -> ~ suits st r o ->
  exists e st', divide div zero st r o = (st', Err e) /\ In e [EValueError; ETypeError; ENotImplementedError] /\ objects st' = objects st /\
    forall k t f p c, k < length (objects st) -> value_at st' k t f p c = value_at st k t f p c.
Proof.
  intros st r o G R Su. pose proof G as [G1 G2].
  destruct (step_refused div st r o G R Su) as [(e & I & M)|(a & l & I & J)].
  - exists e, st. unfold divide. rewrite I. tauto.
  - exists EValueError, (mkState (heap st ++ [a]) (objects st)). unfold divide. rewrite I, J.
    split; [reflexivity|]. split; [cbn; auto|]. split; [reflexivity|].
    intros k t f p c K. unfold value_at. change (object (mkState (heap st ++ [a]) (objects st)) k) with (object st k). cbn [heap].
    destruct (G2 k K) as (B & _). now rewrite array_at_app.
Qed.
Theorem multiply_refused : forall st r o, good st -> r < length (objects st) -> ~ suits st r o ->
  exists e st', multiply mul zero st r o = (st', Err e) /\ In e [EValueError; ETypeError; ENotImplementedError] /\ objects st' = objects st /\
    forall k t f p c, k < length (objects st) -> value_at st' k t f p c = value_at st k t f p c.
Proof.
  intros st r o G R Su. pose proof G as [G1 G2].
  destruct (step_refused mul st r o G R Su) as [(e & I & M)|(a & l & I & J)].
  - exists e, st. unfold multiply. rewrite I. tauto.
  - exists EValueError, (mkState (heap st ++ [a]) (objects st)). unfold multiply. rewrite I, J.
    split; [reflexivity|]. split; [cbn; auto|]. split; [reflexivity|].
    intros k t f p c K. unfold value_at. change (object (mkState (heap st ++ [a]) (objects st)) k) with (object st k). cbn [heap].
    destruct (G2 k K) as (B & _). now rewrite array_at_app.
Qed.
End Ops.

(** The argument [suits]: scalars always do (real ones in any value), skies do when each of
    their axes has one element or as many. *)
Theorem suits_scalar : forall V (st : state V) r c (v : V), suits st r (Scalar c v) <-> (a_lazy (value_of st r) = false -> c = true -> is_cplx (a_type (value_of st r)) = true).
Proof.
  intros V st r c v. unfold suits. cbn. split.
  - intros [_ H] L ->. apply (H L). reflexivity.
  - intros H. split.
    + exists (expected (object st r)), []. split; [now rewrite app_nil_r|constructor].
    + intros L. split; [reflexivity|]. destruct c; [intros _; now apply H|discriminate].
Qed.
Theorem met_scalar : forall V (st : state V) c (v : V) t f p k, met st (Scalar c v) t f p k = Some v.
Proof. reflexivity. Qed.

Lemma of_other : forall V (st : state V) k, k < length (objects st) -> of_operand st (Other k) = value_of st k.
Proof. intros V st k K. unfold of_operand, value_of, object. now rewrite (nth_indep _ _ dummy) by exact K. Qed.

Definition one_or_same (a b : list Z) : Prop := length a = 1 \/ length a = length b.
Theorem suits_sky : forall V (st : state V) r k, good st -> k < length (objects st) ->
  (suits st r (Other k) <->
   (one_or_same (s_time (object st k)) (s_time (object st r)) /\ one_or_same (s_freq (object st k)) (s_freq (object st r)) /\
    one_or_same (s_pol (object st k)) (s_pol (object st r)) /\ one_or_same (s_coord (object st k)) (s_coord (object st r))) /\
   (a_lazy (value_of st r) = false -> a_lazy (value_of st k) = false /\
      (is_cplx (a_type (value_of st k)) = true -> is_cplx (a_type (value_of st r)) = true))).
Proof.
  intros V st r k [G1 G2] K. destruct (G2 k K) as (B & E & T). unfold suits. rewrite of_other by assumption. rewrite E.
  assert (F : fits (expected (object st k)) (expected (object st r)) <->
    one_or_same (s_time (object st k)) (s_time (object st r)) /\ one_or_same (s_freq (object st k)) (s_freq (object st r)) /\
    one_or_same (s_pol (object st k)) (s_pol (object st r)) /\ one_or_same (s_coord (object st k)) (s_coord (object st r))).
  { rewrite fits_iff. unfold expected, one_or_same. cbn. tauto. }
  rewrite F. tauto.
Qed.
Definition pinned (l : list Z) (k : nat) : nat := if length l =? 1 then 0 else k.
Theorem met_sky : forall V (st : state V) k t f p c, good st -> k < length (objects st) ->
  let s := object st k in
  met st (Other k) t f p c = value_at st k (pinned (s_time s) t) (pinned (s_freq s) f) (pinned (s_pol s) p) (pinned (s_coord s) c).
Proof.
  intros V st k t f p c [G1 G2] K s. destruct (G2 k K) as (B & E & T).
  unfold met. rewrite of_other by assumption. rewrite value_at_elem by exact E. rewrite E. reflexivity.
Qed.
