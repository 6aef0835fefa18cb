(** Properties of skies (C179 to C185). *)
From Coq Require Import ZArith QArith Bool List Lia.
From Verif Require Import Base M_Sky P_Sky P_Sky2 P_Sky3.
Import ListNotations.
Open Scope nat_scope.
Open Scope list_scope.

(** Examples with integers as numbers: an array of one time, two frequencies, one polarization
    and three coordinates, a sky holding it, one of a scalar, one of an array of dask. *)
Notation zrun := (run Z.mul Z.div 1%Z 0%Z).
Notation zruns := (runs Z.mul Z.div 1%Z 0%Z).
Definition empty : state Z := mkState [] [].
Definition six (lazy : bool) (t : dtype) : array Z := mkArray lazy t [1; 2; 1; 3] [2; 4; 6; 8; 10; 12]%Z.
Definition demo_ops : list (op Z) :=
  [NewArray (six false Real); NewSky [7]%Z [30; 40]%Z [0]%Z [100; 101; 102]%Z 5%Z (Array 0); NewSky [7]%Z [30; 40]%Z [0]%Z [100; 101; 102]%Z 5%Z (Scalar false 2%Z);
   NewArray (six true Real); NewSky [7]%Z [30; 40]%Z [0]%Z [100; 101; 102]%Z 5%Z (Array 2); NewSky [7]%Z [30]%Z [0]%Z [100; 101; 102]%Z 6%Z (Scalar false 2%Z)].
Definition demo : state Z := zruns empty demo_ops.
Lemma demo_allowed : all_allowed Z.mul Z.div 1%Z 0%Z empty demo_ops.
Proof. repeat split; cbn; try lia; reflexivity. Qed.
Lemma demo_good : good demo.
Proof. exact (good_always _ _ _ _ demo_ops empty good_start demo_allowed). Qed.
Definition data_of (st : state Z) (r : nat) : list Z := a_data (value_of st r).

(** ** C179: the value of a sky *)
Theorem C179_scalar : forall (V : Type) (mul div : V -> V -> V) (one zero : V) (st : state V) t f p c b cx v,
  let s := mkSky t f p c b (length (heap st)) in
  exists st', run mul div one zero st (NewSky t f p c b (Scalar cx v)) = (st', Ok (length (objects st))) /\ object st' (length (objects st)) = s /\
    forall i j k l, in_sky s i j k l -> value_at st' (length (objects st)) i j k l = Some (mul v one).
Proof. exact @new_scalar. Qed.
Print Assumptions C179_scalar.
Theorem C179_array : forall (V : Type) (mul div : V -> V -> V) (one zero : V) (st : state V) t f p c b l, l < length (heap st) ->
  let a := array_at (heap st) l in
  a_shape a = [length t; length f; length p; length c] ->
  exists st', run mul div one zero st (NewSky t f p c b (Array l)) = (st', Ok (length (objects st))) /\
    same_axes (mkSky t f p c b 0) (object st' (length (objects st))) /\
    a_data (value_of st' (length (objects st))) = a_data a /\
    (a_type a <> Small -> s_value (object st' (length (objects st))) = l) /\
    (a_type a = Small -> s_value (object st' (length (objects st))) = length (heap st) /\ a_type (value_of st' (length (objects st))) = Real).
Proof. exact @new_array. Qed.
Print Assumptions C179_array.
Theorem C179_array_refused : forall (V : Type) (mul div : V -> V -> V) (one zero : V) (st : state V) t f p c b l,
  a_shape (array_at (heap st) l) <> [length t; length f; length p; length c] ->
  run mul div one zero st (NewSky t f p c b (Array l)) = (st, Err EValueError).
Proof. exact @new_array_refused. Qed.
Print Assumptions C179_array_refused.
Theorem C179_set_refused : forall (V : Type) (mul div : V -> V -> V) (one zero : V) (st : state V) r l, a_shape (array_at (heap st) l) <> expected (object st r) ->
  run mul div one zero st (SetValue r (Array l)) = (st, Err EValueError).
Proof. exact @set_value_refused. Qed.
Print Assumptions C179_set_refused.
Theorem C179_shared : forall (V : Type) (mul div : V -> V -> V) (one zero : V) (st : state V) r l k v, r < length (objects st) -> l < length (heap st) -> s_value (object st r) = l ->
  forall t f p c, value_at st r t f p c <> None ->
  value_at (fst (run mul div one zero st (Poke l k v))) r t f p c =
  let s := object st r in
  if ((t * length (s_freq s) + f) * length (s_pol s) + p) * length (s_coord s) + c =? k then Some v else value_at st r t f p c.
Proof. exact @poke_seen. Qed.
Print Assumptions C179_shared.
Theorem C179_apart : forall (V : Type) (mul div : V -> V -> V) (one zero : V) (st : state V) r l k v, s_value (object st r) <> l -> s_value (object st r) < length (heap st) ->
  forall t f p c, value_at (fst (run mul div one zero st (Poke l k v))) r t f p c = value_at st r t f p c.
Proof. exact @poke_unseen. Qed.
Print Assumptions C179_apart.
Example C179_ex : map (data_of demo) [0; 1; 2; 3] = [[2; 4; 6; 8; 10; 12]; [2; 2; 2; 2; 2; 2]; [2; 4; 6; 8; 10; 12]; [2; 2; 2]]%Z /\
  value_at demo 0 0 1 0 2 = Some 12%Z /\ data_of (fst (zrun demo (Poke 0 5 99%Z))) 0 = [2; 4; 6; 8; 10; 99]%Z /\ data_of (fst (zrun demo (Poke 0 5 99%Z))) 2 = [2; 4; 6; 8; 10; 12]%Z /\
  snd (zrun demo (SetValue 3 (Array 0))) = Err EValueError /\
  s_value (object (zruns empty [NewArray (six false Small); NewSky [7]%Z [30; 40]%Z [0]%Z [100; 101; 102]%Z 5%Z (Array 0)]) 0) = 1.
Proof. repeat split; reflexivity. Qed.

(** ** C180: division *)
Theorem C180_quotient : forall (V : Type) (div : V -> V -> V) (zero : V) st r o, good st -> r < length (objects st) -> held st o -> suits st r o ->
  exists st', divide div zero st r o = (st', Ok r) /\ same_axes (object st r) (object st' r) /\
    (forall t f p c, in_sky (object st r) t f p c -> value_at st' r t f p c = combined div (value_at st r t f p c) (met st o t f p c)).
Proof. exact (fun V div zero => divide_value div div zero zero). Qed.
Print Assumptions C180_quotient.
Theorem C180_others : forall (V : Type) (div : V -> V -> V) (zero : V) st r o k, good st -> r < length (objects st) -> held st o -> suits st r o ->
  k < length (objects st) -> k <> r ->
  a_lazy (value_of st r) = true \/ s_value (object st k) <> s_value (object st r) ->
  object (fst (divide div zero st r o)) k = object st k /\
  forall t f p c, value_at (fst (divide div zero st r o)) k t f p c = value_at st k t f p c.
Proof. exact @divide_others. Qed.
Print Assumptions C180_others.
Theorem C180_shared_refuted : forall (V : Type) (div : V -> V -> V) (zero : V) st r o k, good st -> r < length (objects st) -> held st o -> suits st r o -> k < length (objects st) ->
  a_lazy (value_of st r) = false -> s_value (object st k) = s_value (object st r) -> same_axes (object st r) (object st k) ->
  forall t f p c, value_at (fst (divide div zero st r o)) k t f p c = value_at (fst (divide div zero st r o)) r t f p c.
Proof. exact @divide_shared. Qed.
Print Assumptions C180_shared_refuted.
Theorem C180_refused : forall (V : Type) (div : V -> V -> V) (zero : V) st r o, good st -> r < length (objects st) -> ~ suits st r o ->
  exists e st', divide div zero st r o = (st', Err e) /\ In e [EValueError; ETypeError; ENotImplementedError] /\ objects st' = objects st /\
    forall k t f p c, k < length (objects st) -> value_at st' k t f p c = value_at st k t f p c.
Proof. exact (fun V div zero => divide_refused div div zero zero). Qed.
Print Assumptions C180_refused.
Theorem C180_scalars : forall V (st : state V) r c (v : V), suits st r (Scalar c v) <-> (a_lazy (value_of st r) = false -> c = true -> is_cplx (a_type (value_of st r)) = true).
Proof. exact @suits_scalar. Qed.
Print Assumptions C180_scalars.
Theorem C180_scalar : forall V (st : state V) c (v : V) t f p k, met st (Scalar c v) t f p k = Some v.
Proof. exact @met_scalar. Qed.
Print Assumptions C180_scalar.
Theorem C180_skies : forall V (st : state V) r k, good st -> k < length (objects st) ->
  (suits st r (Other k) <->
   (one_or_same (s_time (object st k)) (s_time (object st r)) /\ one_or_same (s_freq (object st k)) (s_freq (object st r)) /\
    one_or_same (s_pol (object st k)) (s_pol (object st r)) /\ one_or_same (s_coord (object st k)) (s_coord (object st r))) /\
   (a_lazy (value_of st r) = false -> a_lazy (value_of st k) = false /\
      (is_cplx (a_type (value_of st k)) = true -> is_cplx (a_type (value_of st r)) = true))).
Proof. exact @suits_sky. Qed.
Print Assumptions C180_skies.
Theorem C180_sky : forall V (st : state V) k t f p c, good st -> k < length (objects st) ->
  let s := object st k in
  met st (Other k) t f p c = value_at st k (pinned (s_time s) t) (pinned (s_freq s) f) (pinned (s_pol s) p) (pinned (s_coord s) c).
Proof. exact @met_sky. Qed.
Print Assumptions C180_sky.
Lemma demo_held : 0 < length (objects demo) /\ held demo (Other 3) /\ suits demo 0 (Other 3) /\ suits demo 2 (Other 3) /\ ~ suits demo 3 (Other 0) /\ ~ suits demo 0 (Scalar true 1%Z).
Proof.
  split; [cbn; lia|]. split; [cbn; lia|]. split; [|split; [|split]].
  - apply suits_sky; [exact demo_good|cbn; lia|]. unfold one_or_same. cbn. repeat split; auto.
  - apply suits_sky; [exact demo_good|cbn; lia|]. unfold one_or_same. cbn. repeat split; auto; discriminate.
  - intros H. apply suits_sky in H; [|exact demo_good|cbn; lia]. unfold one_or_same in H. cbn in H. destruct H as [(_ & [H|H] & _) _]; discriminate.
  - intros H. apply suits_scalar in H; [discriminate H|reflexivity|reflexivity].
Qed.
Example C180_ex : snd (zrun demo (Divide 0 (Other 3))) = Ok 0 /\ data_of (fst (zrun demo (Divide 0 (Other 3)))) 0 = [1; 2; 3; 4; 5; 6]%Z /\
  a_data (array_at (heap (fst (zrun demo (Divide 0 (Other 3))))) 0) = [1; 2; 3; 4; 5; 6]%Z /\
  a_data (array_at (heap (fst (zrun demo (Divide 2 (Other 3))))) 2) = [2; 4; 6; 8; 10; 12]%Z /\ data_of (fst (zrun demo (Divide 2 (Other 3)))) 2 = [1; 2; 3; 4; 5; 6]%Z /\
  snd (zrun demo (Divide 3 (Other 0))) = Err EValueError /\ snd (zrun demo (Divide 0 (Scalar true 1%Z))) = Err ETypeError /\
  snd (zrun demo (Divide 0 (Other 2))) = Err ENotImplementedError /\
  (let st := zruns demo [NewSky [8]%Z [30; 40]%Z [0]%Z [100; 101; 102]%Z 5%Z (Array 0); Divide 0 (Scalar false 2%Z)] in data_of st 4 = [1; 2; 3; 4; 5; 6]%Z).
Proof. repeat split; reflexivity. Qed.

(** ** C181: multiplication *)
Theorem C181_product : forall (V : Type) (mul : V -> V -> V) (zero : V) st r o, good st -> r < length (objects st) -> held st o -> suits st r o ->
  exists st', multiply mul zero st r o = (st', Ok (length (objects st))) /\ length (objects st') = S (length (objects st)) /\
    same_axes (object st r) (object st' (length (objects st))) /\
    (forall t f p c, in_sky (object st r) t f p c ->
       value_at st' (length (objects st)) t f p c = combined mul (value_at st r t f p c) (met st o t f p c)).
Proof. exact (fun V mul zero => multiply_value mul mul zero zero). Qed.
Print Assumptions C181_product.
Theorem C181_others : forall (V : Type) (mul : V -> V -> V) (zero : V) st r o k, good st -> r < length (objects st) -> held st o -> suits st r o ->
  k < length (objects st) -> s_value (object st k) <> s_value (object st r) ->
  forall t f p c, value_at (fst (multiply mul zero st r o)) k t f p c = value_at st k t f p c.
Proof. exact @multiply_others. Qed.
Print Assumptions C181_others.
Theorem C181_dask : forall (V : Type) (mul : V -> V -> V) (zero : V) st r o k, good st -> r < length (objects st) -> held st o -> suits st r o ->
  a_lazy (value_of st r) = true -> k < length (objects st) ->
  forall t f p c, value_at (fst (multiply mul zero st r o)) k t f p c = value_at st k t f p c.
Proof. exact @multiply_dask. Qed.
Print Assumptions C181_dask.
Theorem C181_original_refuted : forall (V : Type) (mul : V -> V -> V) (zero : V) st r o, good st -> r < length (objects st) -> held st o -> suits st r o ->
  a_lazy (value_of st r) = false ->
  let st' := fst (multiply mul zero st r o) in
  s_value (object st' (length (objects st))) = s_value (object st' r) /\
  forall t f p c, in_sky (object st r) t f p c -> value_at st' r t f p c = combined mul (value_at st r t f p c) (met st o t f p c).
Proof. exact @multiply_original. Qed.
Print Assumptions C181_original_refuted.
Theorem C181_refused : forall (V : Type) (mul : V -> V -> V) (zero : V) st r o, good st -> r < length (objects st) -> ~ suits st r o ->
  exists e st', multiply mul zero st r o = (st', Err e) /\ In e [EValueError; ETypeError; ENotImplementedError] /\ objects st' = objects st /\
    forall k t f p c, k < length (objects st) -> value_at st' k t f p c = value_at st k t f p c.
Proof. exact (fun V mul zero => multiply_refused mul mul zero zero). Qed.
Print Assumptions C181_refused.
Example C181_ex : snd (zrun demo (Multiply 0 (Other 3))) = Ok 4 /\ data_of (fst (zrun demo (Multiply 0 (Other 3)))) 4 = [4; 8; 12; 16; 20; 24]%Z /\
  data_of (fst (zrun demo (Multiply 0 (Other 3)))) 0 = [4; 8; 12; 16; 20; 24]%Z /\
  data_of (fst (zrun demo (Multiply 2 (Other 3)))) 4 = [4; 8; 12; 16; 20; 24]%Z /\ data_of (fst (zrun demo (Multiply 2 (Other 3)))) 2 = [2; 4; 6; 8; 10; 12]%Z.
Proof. repeat split; reflexivity. Qed.

(** ** C182: skies always have the shape of their axes *)
Theorem C182_start : forall (V : Type), good (mkState (V := V) [] []).
Proof. exact @good_start. Qed.
Print Assumptions C182_start.
Theorem C182_step : forall (V : Type) (mul div : V -> V -> V) (one zero : V) (st : state V) o, good st -> allowed st o -> good (fst (run mul div one zero st o)).
Proof. exact @good_step. Qed.
Print Assumptions C182_step.
Theorem C182_always : forall (V : Type) (mul div : V -> V -> V) (one zero : V) l st, good st -> all_allowed mul div one zero st l -> good (runs mul div one zero st l).
Proof. exact @good_always. Qed.
Print Assumptions C182_always.
Theorem C182_axes_refuted : forall (V : Type) (mul div : V -> V -> V) (one zero : V) (st : state V) r l v, good st -> r < length (objects st) -> a_lazy (value_of st r) = false ->
  length l <> length (s_time (object st r)) ->
  exists st1 st2, run mul div one zero st (SetTime r l) = (st1, Ok r) /\ run mul div one zero st1 (Divide r (Scalar false v)) = (st2, Err EValueError) /\
    forall i, inside (expected (object st r)) i -> elem (value_of st2 r) i = combined div (elem (value_of st r) i) (Some v).
Proof. exact @retimed_refuted. Qed.
Print Assumptions C182_axes_refuted.
Example C182_ex : good demo /\ all_allowed Z.mul Z.div 1%Z 0%Z empty demo_ops /\
  snd (zrun (fst (zrun demo (SetTime 0 [7; 8]%Z))) (Divide 0 (Scalar false 2%Z))) = Err EValueError /\
  data_of (fst (zrun (fst (zrun demo (SetTime 0 [7; 8]%Z))) (Divide 0 (Scalar false 2%Z)))) 0 = [1; 2; 3; 4; 5; 6]%Z.
Proof. split; [exact demo_good|]. split; [exact demo_allowed|]. repeat split; reflexivity. Qed.

(** ** C183: selections *)
Theorem C183_pixels : forall (V : Type) (zero : V) (st : state V) r i j k t f p, good st -> r < length (objects st) ->
  let s := object st r in
  resolves (length (s_time s)) i t -> resolves (length (s_freq s)) j f -> resolves (length (s_pol s)) k p ->
  exists x, getitem st r [IInt i; IInt j; IInt k] = Ok x /\
    sl_coord x = s_coord s /\ sl_time x = One (nth t (s_time s) 0%Z) /\ sl_freq x = One (nth f (s_freq s) 0%Z) /\ sl_pol x = One (nth p (s_pol s) 0%Z) /\
    sl_observer x = s_observer s /\ sl_place x = s_value s /\
    map Some (slice_value zero (heap st) x) = map (value_at st r t f p) (seq 0 (length (s_coord s))).
Proof. exact @getitem_pixels. Qed.
Print Assumptions C183_pixels.
Theorem C183_out : forall (V : Type) (st : state V) r i j k, good st -> r < length (objects st) ->
  let s := object st r in
  ~ ((exists t, resolves (length (s_time s)) i t) /\ (exists f, resolves (length (s_freq s)) j f) /\ (exists p, resolves (length (s_pol s)) k p)) ->
  getitem st r [IInt i; IInt j; IInt k] = Err EIndexError.
Proof. exact @getitem_out. Qed.
Print Assumptions C183_out.
Theorem C183_one_axis : forall (V : Type) (st : state V) r n x, good st -> r < length (objects st) -> getitem st r n = Ok x -> ints n = 3 /\ 3 <= length n <= 4.
Proof. exact @getitem_axes. Qed.
Print Assumptions C183_one_axis.
Theorem C183_refused : forall (V : Type) (st : state V) r n e, getitem st r n = Err e -> e = EIndexError.
Proof. exact @getitem_refused. Qed.
Print Assumptions C183_refused.
Theorem C183_window : forall (V : Type) (div : V -> V -> V) (zero : V) (st : state V) r o n, good st -> r < length (objects st) -> held st o -> suits st r o ->
  a_lazy (value_of st r) = false ->
  getitem (fst (divide div zero st r o)) r n = getitem st r n.
Proof. exact @slice_follows. Qed.
Print Assumptions C183_window.
Theorem C183_dask : forall (V : Type) (div : V -> V -> V) (zero : V) (st : state V) r o x, good st -> r < length (objects st) -> held st o -> suits st r o ->
  a_lazy (value_of st r) = true -> sl_place x = s_value (object st r) ->
  slice_value zero (heap (fst (divide div zero st r o))) x = slice_value zero (heap st) x.
Proof. exact @slice_dask. Qed.
Print Assumptions C183_dask.
Theorem C183_spectrum_refuted : forall (V : Type) (zero : V) (st : state V) r i k l t p c, good st -> r < length (objects st) ->
  let s := object st r in
  resolves (length (s_time s)) i t -> resolves (length (s_pol s)) k p -> resolves (length (s_coord s)) l c ->
  exists x, getitem st r [IInt i; ISlice None None; IInt k; IInt l] = Ok x /\
    sl_coord x = s_coord s /\ length (slice_value zero (heap st) x) = length (s_freq s).
Proof. exact @getitem_spectrum_refuted. Qed.
Print Assumptions C183_spectrum_refuted.
Theorem C183_part_refuted : forall (V : Type) (zero : V) (st : state V) r i j k t f p a b, good st -> r < length (objects st) ->
  let s := object st r in
  resolves (length (s_time s)) i t -> resolves (length (s_freq s)) j f -> resolves (length (s_pol s)) k p ->
  a <= b <= length (s_coord s) ->
  exists x, getitem st r [IInt i; IInt j; IInt k; ISlice (Some (Z.of_nat a)) (Some (Z.of_nat b))] = Ok x /\
    sl_coord x = s_coord s /\ length (slice_value zero (heap st) x) = b - a.
Proof. exact @getitem_part_refuted. Qed.
Print Assumptions C183_part_refuted.
Definition cut (st : state Z) (n : list index) : res (list Z) := bind (getitem st 0 n) (fun x => Ok (slice_value 0%Z (heap st) x)).
Example C183_ex : cut demo [IInt 0; IInt (-1); IInt 0] = Ok [8; 10; 12]%Z /\ cut demo [IInt 0; IInt 0; IInt 0; ISlice None None] = Ok [2; 4; 6]%Z /\
  resolves 2 (-1) 1 /\ cut demo [IInt 0; IInt 2; IInt 0] = Err EIndexError /\ cut demo [IInt 0; IInt 1] = Err EIndexError /\
  cut demo [IInt 0; ISlice None None; IInt 0; IInt 1] = Ok [4; 10]%Z /\ cut demo [IInt 0; IInt 0; IInt 0; ISlice (Some 1%Z) (Some 3%Z)] = Ok [4; 6]%Z /\
  (bind (getitem demo 0 [IInt 0; ISlice None None; IInt 0; IInt 1]) (fun x => Ok (sl_coord x))) = Ok [100; 101; 102]%Z /\
  (bind (getitem demo 0 [IInt 0; IInt 1; IInt 0]) (fun x => Ok (slice_value 0%Z (heap (fst (zrun demo (Divide 0 (Other 3))))) x))) = Ok [4; 5; 6]%Z.
Proof. split; [reflexivity|]. split; [reflexivity|]. split; [split; [lia|right; reflexivity]|]. repeat split; reflexivity. Qed.

(** ** C184: differences *)
Theorem C184_difference : forall (V : Type) (zero : V) (sub : V -> V -> V) (h : list (array V)) x y t f p, pixels h x t f p -> pixels h y t f p -> sl_coord x <> [] -> sl_coord y = sl_coord x ->
  a_lazy (array_at h (sl_place x)) = a_lazy (array_at h (sl_place y)) -> a_type (array_at h (sl_place x)) = a_type (array_at h (sl_place y)) ->
  exists h' z, subtract sub zero h x y = Ok (h', z) /\
    sl_coord z = sl_coord x /\ sl_time z = One t /\ sl_freq z = One f /\ sl_pol z = One p /\ sl_observer z = sl_observer x /\
    slice_value zero h' z = map (fun q => sub (fst q) (snd q)) (combine (slice_value zero h x) (slice_value zero h y)) /\
    (forall l, l < length h -> array_at h' l = array_at h l).
Proof. exact @subtract_value. Qed.
Print Assumptions C184_difference.
Theorem C184_refused : forall (V : Type) (zero : V) (sub : V -> V -> V) (h : list (array V)) x y t f p t' f' p', pixels h x t f p -> pixels h y t' f' p' -> sl_coord x <> [] ->
  length (sl_coord x) = length (sl_coord y) ->
  sl_coord x <> sl_coord y \/ t <> t' \/ f <> f' \/ p <> p' -> subtract sub zero h x y = Err EValueError.
Proof. exact @subtract_refused. Qed.
Print Assumptions C184_refused.
Theorem C184_observer_refuted : forall (V : Type) (zero : V) (sub : V -> V -> V) (h : list (array V)) x y o,
  subtract sub zero h x (mkSlice (sl_coord y) (sl_time y) (sl_freq y) (sl_pol y) o (sl_place y) (sl_positions y)) = subtract sub zero h x y.
Proof. exact @subtract_observer_refuted. Qed.
Print Assumptions C184_observer_refuted.
Definition slice_of (r : nat) (j : Z) : slice := match getitem demo r [IInt 0; IInt j; IInt 0] with Ok x => x | Err _ => mkSlice [] (One 0%Z) (One 0%Z) (One 0%Z) 0%Z 0 [] end.
Example C184_ex : pixels (heap demo) (slice_of 0 1) 7%Z 40%Z 0%Z /\ pixels (heap demo) (slice_of 1 1) 7%Z 40%Z 0%Z /\
  bind (subtract Z.sub 0%Z (heap demo) (slice_of 0 1) (slice_of 1 1)) (fun r => Ok (slice_value 0%Z (fst r) (snd r))) = Ok [6; 8; 10]%Z /\
  subtract Z.sub 0%Z (heap demo) (slice_of 0 1) (slice_of 1 0) = Err EValueError /\
  bind (subtract Z.sub 0%Z (heap demo) (slice_of 0 0) (slice_of 3 0)) (fun r => Ok (sl_observer (snd r))) = Ok 5%Z /\ sl_observer (slice_of 3 0) = 6%Z.
Proof. split; [repeat split; cbn; lia|]. split; [repeat split; cbn; lia|]. repeat split; reflexivity. Qed.

(** ** C185: what is above the horizon *)
Theorem C185_mask : forall (alt : Z -> Z -> Z -> Q) s t f p c, in_sky s t f p c ->
  nth_error (snd (visible_mask alt s)) (((t * length (s_freq s) + f) * length (s_pol s) + p) * length (s_coord s) + c) =
  Some (if Qlt_le_dec 0 (alt (s_observer s) (nth t (s_time s) 0%Z) (nth c (s_coord s) 0%Z)) then true else false).
Proof. exact @mask_at. Qed.
Print Assumptions C185_mask.
Theorem C185_shape : forall (alt : Z -> Z -> Z -> Q) s, fst (visible_mask alt s) = expected s /\ length (snd (visible_mask alt s)) = prod (expected s).
Proof. exact @mask_shape. Qed.
Print Assumptions C185_shape.
Theorem C185_slice : forall (alt : Z -> Z -> Z -> Q) s t f p c, in_sky s t f p c ->
  nth_error (visible_sky alt (s_observer s) (nth t (s_time s) 0%Z) (s_coord s)) c =
  nth_error (snd (visible_mask alt s)) (((t * length (s_freq s) + f) * length (s_pol s) + p) * length (s_coord s) + c).
Proof. exact @mask_slice. Qed.
Print Assumptions C185_slice.
Definition demo_alt (o t c : Z) : Q := inject_Z (c + t - 108).
Example C185_ex : visible_mask demo_alt (object demo 0) = ([1; 2; 1; 3], [false; false; true; false; false; true]) /\ in_sky (object demo 0) 0 1 0 2 /\
  visible_sky demo_alt 5%Z 7%Z [100; 101; 102]%Z = [false; false; true].
Proof. split; [reflexivity|]. split; [repeat split; cbn; lia|reflexivity]. Qed.
