(** Dynamic spectra: concatenation, arithmetic, slices. *)
From Coq Require Import String List Arith ZArith QArith Qabs Bool Lia Lqa.
From Verif Require Import Base M_Nd M_Select M_SData P_SData P_SData2.
Import ListNotations.
Open Scope nat_scope.

(** ** C46: concatenation in frequency *)
Theorem C46_new : forall A U (t f : list Q) (p : list U) (d : nd A),
  (sh d = [length t; length f; length p] -> sdata_new t f p d = Ok (mkS t f p d)) /\
  (length (sh d) = 3 -> sh d <> [length t; length f; length p] -> sdata_new t f p d = Err EAssertionError) /\
  (length (sh d) <> 3 -> sdata_new t f p d = Err EValueError).
Proof. exact new_valid. Qed.
Print Assumptions C46_new.
Theorem C46_accepted : forall A U (U0 : units U) (a b : sdata A U), valid a -> valid b ->
  and_accepts U0 a b ->
  exists r, s_and U0 a (OSData b) = Ok r /\ valid r /\ s_time r = s_time a /\ s_polar r = s_polar a /\
    (below (s_freq a) (s_freq b) -> joined_freq a b r) /\
    (~ below (s_freq a) (s_freq b) -> joined_freq b a r).
Proof. exact and_accepted. Qed.
Print Assumptions C46_accepted.
Theorem C46_refused : forall A U (U0 : units U) (a b : sdata A U), valid a -> valid b ->
  ~ and_accepts U0 a b -> exists e, s_and U0 a (OSData b) = Err e.
Proof. exact and_refused. Qed.
Print Assumptions C46_refused.
Theorem C46_type : forall A U (U0 : units U) (a : sdata A U) o, (forall b, o <> OSData b) ->
  s_and U0 a o = Err ETypeError /\ s_or U0 a o = Err ETypeError.
Proof. exact and_type. Qed.
Print Assumptions C46_type.
Theorem C46_attached : forall A U (U0 : units U) (a b r : sdata A U), valid a -> valid b ->
  s_and U0 a (OSData b) = Ok r ->
  length (s_freq r) = length (s_freq a) + length (s_freq b) /\
  (forall i j k, j < length (s_freq r) -> exists f v, from r a i j k f v \/ from r b i j k f v) /\
  (forall i j' k, j' < length (s_freq a) -> exists j f, nth_error (s_freq a) j' = Some f /\ nth_error (s_freq r) j = Some f /\
      get (s_data r) [i; j; k] = get (s_data a) [i; j'; k]) /\
  (forall i j' k, j' < length (s_freq b) -> exists j f, nth_error (s_freq b) j' = Some f /\ nth_error (s_freq r) j = Some f /\
      get (s_data r) [i; j; k] = get (s_data b) [i; j'; k]).
Proof. exact and_attached. Qed.
Print Assumptions C46_attached.
Theorem C46_disjoint : forall A U (U0 : units U) (a b : sdata A U), valid a -> valid b ->
  and_accepts U0 a b -> and_accepts U0 b a -> below (s_freq a) (s_freq b) ->
  exists r r', s_and U0 a (OSData b) = Ok r /\ s_and U0 b (OSData a) = Ok r' /\
    joined_freq a b r /\ joined_freq a b r' /\ s_freq r = s_freq r' /\
    s_time r = s_time a /\ s_time r' = s_time b /\
    (increasing (s_freq a) -> increasing (s_freq b) -> increasing (s_freq r)).
Proof. exact and_disjoint. Qed.
Print Assumptions C46_disjoint.

(** Spectra with two times, two frequencies and one polarisation. *)
Definition units_ex : units string := mkUnits string (fun x => x) (fun x y => append x y) (fun x y => append x (append "/" y)).
Definition numbers_ex : numbers Q := mkNumbers Q Qplus Qminus Qmult Qdiv.
Definition s_ex (v : Z) (t f : list Q) : sdata Q string :=
  mkS t f ["NE"%string] (mkNd [length t; length f; 1] (fun idx => inject_Z (v + 10 * Z.of_nat (nth 0 idx 0%nat) + Z.of_nat (nth 1 idx 0%nat)))).
Lemma s_ex_valid : forall v t f, valid (s_ex v t f).
Proof. reflexivity. Qed.
Definition table (r : res (sdata Q string)) :=
  match r with
  | Ok s => Ok (s_time s, s_freq s, s_polar s,
      map (fun i => map (fun j => Qred (get (s_data s) [i; j; 0])) (seq 0 (length (s_freq s)))) (seq 0 (length (s_time s))))
  | Err e => Err e
  end.
Example C46_ex :
  and_accepts units_ex (s_ex 100 [0; 1] [5; 6])%Q (s_ex 200 [0; 1] [8; 9])%Q /\
  and_accepts units_ex (s_ex 200 [0; 1] [8; 9])%Q (s_ex 100 [0; 1] [5; 6])%Q /\
  below [5; 6]%Q [8; 9]%Q /\
  table (s_and units_ex (s_ex 200 [0; 1] [8; 9])%Q (OSData (s_ex 100 [0; 1] [5; 6])%Q)) =
    Ok ([0; 1], [5; 6; 8; 9], ["NE"%string], [[100; 101; 200; 201]; [110; 111; 210; 211]])%Q /\
  s_and units_ex (s_ex 200 [0; 1] [8; 9])%Q OOther = Err ETypeError.
Proof.
  assert (T : times_match [0; 1]%Q [0; 1]%Q).
  { exists 0%Q, 1%Q, []. split; [reflexivity|]. split; [reflexivity|].
    intros [|[|[|i]]] x y X Y; try discriminate; injection X as <-; injection Y as <-; vm_compute; discriminate. }
  split; [split; [reflexivity|]; split; [exact T|split; discriminate]|].
  split; [split; [reflexivity|]; split; [exact T|split; discriminate]|].
  split; [intros x y [<-|[<-|[]]] [<-|[<-|[]]]; reflexivity|].
  split; vm_compute; reflexivity.
Qed.
(** Overlapping bands are accepted and interleaved frequencies are not sorted. *)
Theorem C46_overlap_refuted : exists a b r : sdata Q string, valid a /\ valid b /\
  increasing (s_freq a) /\ increasing (s_freq b) /\ s_and units_ex a (OSData b) = Ok r /\ ~ increasing (s_freq r).
Proof.
  exists (s_ex 0 [0; 1] [5; 7])%Q, (s_ex 0 [0; 1] [6; 8])%Q. eexists. split; [reflexivity|]. split; [reflexivity|].
  split; [intros [|[|i]] [|[|j]] x y L X Y; try lia; cbn in X, Y; try discriminate; try (destruct j; discriminate); injection X as <-; injection Y as <-; reflexivity|].
  split; [intros [|[|i]] [|[|j]] x y L X Y; try lia; cbn in X, Y; try discriminate; try (destruct j; discriminate); injection X as <-; injection Y as <-; reflexivity|].
  split; [reflexivity|]. intros H. specialize (H 1 2 8%Q 5%Q ltac:(lia) eq_refl eq_refl). discriminate.
Qed.
Print Assumptions C46_overlap_refuted.
(** Bands with a common edge: the higher band comes first. *)
Theorem C46_touching_refuted : exists a b r : sdata Q string, valid a /\ valid b /\
  (forall x y, In x (s_freq a) -> In y (s_freq b) -> (x <= y)%Q) /\
  s_and units_ex a (OSData b) = Ok r /\ s_freq r = s_freq b ++ s_freq a /\ s_freq r <> s_freq a ++ s_freq b.
Proof.
  exists (s_ex 0 [0; 1] [5; 6])%Q, (s_ex 0 [0; 1] [6; 7])%Q. eexists. split; [reflexivity|]. split; [reflexivity|].
  split; [intros x y [<-|[<-|[]]] [<-|[<-|[]]]; vm_compute; discriminate|].
  split; [reflexivity|]. split; [reflexivity|discriminate].
Qed.
Print Assumptions C46_touching_refuted.
(** Times shifted by a whole step are taken as the same. *)
Theorem C46_shift_refuted : exists a b r : sdata Q string, valid a /\ valid b /\
  s_and units_ex a (OSData b) = Ok r /\ s_time b = map (fun t => t + 1)%Q (s_time a) /\ s_time r = [0; 1]%Q.
Proof.
  exists (s_ex 0 [0; 1] [5; 6])%Q, (s_ex 0 [0 + 1; 1 + 1] [8; 9])%Q. eexists.
  split; [reflexivity|]. split; [reflexivity|]. split; [reflexivity|]. split; reflexivity.
Qed.
Print Assumptions C46_shift_refuted.
(** A single time, or decreasing times: even the same times are refused. *)
Theorem C46_same_times_refuted : exists a b a' b' : sdata Q string,
  s_time a = s_time b /\ s_and units_ex a (OSData b) = Err EIndexError /\
  s_time a' = s_time b' /\ s_and units_ex a' (OSData b') = Err EValueError.
Proof.
  exists (s_ex 0 [0] [5; 6])%Q, (s_ex 0 [0] [8; 9])%Q, (s_ex 0 [1; 0] [5; 6])%Q, (s_ex 0 [1; 0] [8; 9])%Q.
  split; [reflexivity|]. split; [reflexivity|]. split; reflexivity.
Qed.
Print Assumptions C46_same_times_refuted.

(** ** C47: concatenation in time *)
Theorem C47_accepted : forall A U (U0 : units U) (a b : sdata A U), valid a -> valid b -> or_accepts U0 a b ->
  exists r, s_or U0 a (OSData b) = Ok r /\ valid r /\ s_time r = s_time a ++ s_time b /\
    s_freq r = s_freq a /\ s_polar r = s_polar a /\
    (below (s_time a) (s_time b) -> rows_of a b r) /\
    (~ below (s_time a) (s_time b) -> rows_of b a r).
Proof. exact or_accepted. Qed.
Print Assumptions C47_accepted.
Theorem C47_refused : forall A U (U0 : units U) (a b : sdata A U), valid a -> valid b ->
  ~ or_accepts U0 a b -> exists e, s_or U0 a (OSData b) = Err e.
Proof. exact or_refused. Qed.
Print Assumptions C47_refused.
Theorem C47_attached : forall A U (U0 : units U) (a b r : sdata A U), valid a -> valid b -> or_accepts U0 a b ->
  below (s_time a) (s_time b) -> s_or U0 a (OSData b) = Ok r ->
  (increasing (s_time a) -> increasing (s_time b) -> increasing (s_time r)) /\
  (forall i j k t, nth_error (s_time a) i = Some t ->
     nth_error (s_time r) i = Some t /\ get (s_data r) [i; j; k] = get (s_data a) [i; j; k]) /\
  (forall i j k t, nth_error (s_time b) i = Some t ->
     nth_error (s_time r) (length (s_time a) + i) = Some t /\
     get (s_data r) [length (s_time a) + i; j; k] = get (s_data b) [i; j; k]).
Proof. exact or_attached. Qed.
Print Assumptions C47_attached.
Theorem C47_exchanged : forall A U (U0 : units U) (a b r : sdata A U), valid a -> valid b -> or_accepts U0 a b ->
  ~ below (s_time a) (s_time b) -> length (s_time a) = length (s_time b) -> s_or U0 a (OSData b) = Ok r ->
  (forall i j k t, nth_error (s_time a) i = Some t ->
     nth_error (s_time r) i = Some t /\ get (s_data r) [i; j; k] = get (s_data b) [i; j; k]) /\
  (forall i j k t, nth_error (s_time b) i = Some t ->
     nth_error (s_time r) (length (s_time a) + i) = Some t /\
     get (s_data r) [length (s_time a) + i; j; k] = get (s_data a) [i; j; k]).
Proof. exact or_exchanged. Qed.
Print Assumptions C47_exchanged.
Example C47_ex :
  or_accepts units_ex (s_ex 100 [0; 1] [5; 6])%Q (s_ex 200 [2; 3] [5; 6])%Q /\ below [0; 1]%Q [2; 3]%Q /\
  table (s_or units_ex (s_ex 100 [0; 1] [5; 6])%Q (OSData (s_ex 200 [2; 3] [5; 6])%Q)) =
    Ok ([0; 1; 2; 3], [5; 6], ["NE"%string], [[100; 101]; [110; 111]; [200; 201]; [210; 211]])%Q /\
  or_accepts units_ex (s_ex 200 [2; 3] [5; 6])%Q (s_ex 100 [0; 1] [5; 6])%Q /\ ~ below [2; 3]%Q [0; 1]%Q /\
  table (s_or units_ex (s_ex 200 [2; 3] [5; 6])%Q (OSData (s_ex 100 [0; 1] [5; 6])%Q)) =
    Ok ([2; 3; 0; 1], [5; 6], ["NE"%string], [[100; 101]; [110; 111]; [200; 201]; [210; 211]])%Q.
Proof.
  split; [split; [reflexivity|]; split; [reflexivity|]; split; [|split; discriminate];
          intros j x y X Y; cbn in X, Y; rewrite X in Y; injection Y as ->; reflexivity|].
  split; [intros x y [<-|[<-|[]]] [<-|[<-|[]]]; reflexivity|]. split; [vm_compute; reflexivity|].
  split; [split; [reflexivity|]; split; [reflexivity|]; split; [|split; discriminate];
          intros j x y X Y; cbn in X, Y; rewrite X in Y; injection Y as ->; reflexivity|].
  split; [intros H; specialize (H 2 0 (or_introl eq_refl) (or_introl eq_refl))%Q; discriminate|]. vm_compute; reflexivity.
Qed.
(** The later operand first: samples are attached to other times. *)
Theorem C47_wrong_times_refuted : exists (a b r : sdata Q string) i i' t,
  valid a /\ valid b /\ s_or units_ex a (OSData b) = Ok r /\
  nth_error (s_time a) i = Some t /\ nth_error (s_time r) i' = Some t /\
  (forall j, nth_error (s_time r) j = Some t -> j = i') /\
  get (s_data r) [i'; 0; 0] <> get (s_data a) [i; 0; 0].
Proof.
  exists (s_ex 200 [2; 3] [5; 6])%Q, (s_ex 100 [0; 1] [5; 6])%Q. eexists. exists 0, 0, 2%Q.
  split; [reflexivity|]. split; [reflexivity|]. split; [reflexivity|]. split; [reflexivity|]. split; [reflexivity|].
  split; [intros [|[|[|[|j]]]] H; try discriminate; [reflexivity|destruct j; discriminate]|]. vm_compute. discriminate.
Qed.
Print Assumptions C47_wrong_times_refuted.

(** ** C48: arithmetic *)
Theorem C48_operation : forall A U (U0 : units U) (N : numbers A) o (a b : sdata A U), valid a -> valid b ->
  conforms a b -> (polar_kind o = true -> map (u_str U0) (s_polar a) = map (u_str U0) (s_polar b)) ->
  exists r, s_op U0 N o a (OSData b) = Ok r /\ pointwise (on_numbers N o) a r (get (s_data b)) /\
    (polar_kind o = true -> s_polar r = s_polar a) /\
    (polar_kind o = false -> forall k p q, nth_error (s_polar a) k = Some p -> nth_error (s_polar b) k = Some q ->
       nth_error (s_polar r) k = Some (match o with Mul => u_mul U0 p q | _ => u_div U0 p q end)).
Proof. exact op_sdata. Qed.
Print Assumptions C48_operation.
Theorem C48_refused : forall A U (U0 : units U) (N : numbers A) o (a b : sdata A U), valid a -> valid b ->
  ~ conforms a b \/ (polar_kind o = true /\ map (u_str U0) (s_polar a) <> map (u_str U0) (s_polar b)) ->
  s_op U0 N o a (OSData b) = Err EValueError.
Proof. exact op_refused. Qed.
Print Assumptions C48_refused.
Theorem C48_others : forall A U (U0 : units U) (N : numbers A) o (a : sdata A U), valid a ->
  (forall v, sh v = sh (s_data a) -> exists r, s_op U0 N o a (OArray v) = Ok r /\ pointwise (on_numbers N o) a r (get v) /\ s_polar r = s_polar a) /\
  (forall v, sh v <> sh (s_data a) -> s_op U0 N o a (OArray v) = Err EValueError) /\
  (forall x, exists r, s_op U0 N o a (ONumber x) = Ok r /\ pointwise (on_numbers N o) a r (fun _ => x) /\ s_polar r = s_polar a) /\
  s_op U0 N o a OOther = Err EException.
Proof. exact op_others. Qed.
Print Assumptions C48_others.
Theorem C48_undo : forall A U (U0 : units U) (N : numbers A) o o' (a b : sdata A U), valid a -> valid b ->
  (o = Add /\ o' = Sub \/ o = Sub /\ o' = Add) ->
  (forall x y, on_numbers N o' (on_numbers N o x y) y = x) ->
  conforms a b -> map (u_str U0) (s_polar a) = map (u_str U0) (s_polar b) ->
  exists r r', s_op U0 N o a (OSData b) = Ok r /\ s_op U0 N o' r (OSData b) = Ok r' /\
    s_time r' = s_time a /\ s_freq r' = s_freq a /\ s_polar r' = s_polar a /\ forall idx, get (s_data r') idx = get (s_data a) idx.
Proof. exact op_undo. Qed.
Print Assumptions C48_undo.
Example C48_ex :
  conforms (s_ex 100 [0; 1] [5; 6])%Q (s_ex 200 [0; 1] [5; 6])%Q /\
  table (s_op units_ex numbers_ex Add (s_ex 100 [0; 1] [5; 6])%Q (OSData (s_ex 200 [0; 1] [5; 6])%Q)) =
    Ok ([0; 1], [5; 6], ["NE"%string], [[300; 302]; [320; 322]])%Q /\
  table (s_op units_ex numbers_ex Sub (s_ex 100 [0; 1] [5; 6])%Q (OSData (s_ex 200 [0; 1] [5; 6])%Q)) =
    Ok ([0; 1], [5; 6], ["NE"%string], [[-100; -100]; [-100; -100]])%Q /\
  table (s_op units_ex numbers_ex Mul (s_ex 100 [0; 1] [5; 6])%Q (OSData (s_ex 1 [0; 1] [5; 6])%Q)) =
    Ok ([0; 1], [5; 6], ["NENE"%string], [[100; 202]; [1210; 1332]])%Q /\
  table (s_op units_ex numbers_ex Div (s_ex 100 [0; 1] [5; 6])%Q (ONumber 2%Q)) =
    Ok ([0; 1], [5; 6], ["NE"%string], [[50; 101 # 2]; [55; 111 # 2]])%Q.
Proof.
  split; [split; [reflexivity|]; split; [exists 0, 0%Q, 0%Q|exists 0, 5%Q, 5%Q]; repeat split; reflexivity|].
  repeat split; vm_compute; reflexivity.
Qed.
Example C48_undo_ex : let N := mkNumbers Z Z.add Z.sub Z.mul Z.div in
  (forall x y, on_numbers N Sub (on_numbers N Add x y) y = x) /\ (forall x y, on_numbers N Add (on_numbers N Sub x y) y = x).
Proof. cbn. split; intros; lia. Qed.
(** Axes which share a single value are accepted. *)
Theorem C48_axes_refuted : exists a b r : sdata Q string, valid a /\ valid b /\
  s_op units_ex numbers_ex Add a (OSData b) = Ok r /\
  s_time a = [0; 1; 2]%Q /\ s_time b = [0; 10; 20]%Q /\ s_freq a = [5; 6]%Q /\ s_freq b = [50; 6]%Q.
Proof.
  exists (s_ex 0 [0; 1; 2] [5; 6])%Q, (s_ex 0 [0; 10; 20] [50; 6])%Q. eexists.
  split; [reflexivity|]. split; [reflexivity|]. split; [reflexivity|]. repeat split; reflexivity.
Qed.
Print Assumptions C48_axes_refuted.
(** Nothing can be added to an empty selection, even itself. *)
Theorem C48_empty_refuted : exists a : sdata Q string, valid a /\ s_op units_ex numbers_ex Add a (OSData a) = Err EValueError.
Proof. exists (s_ex 0 [] [5; 6])%Q. split; reflexivity. Qed.
Print Assumptions C48_empty_refuted.

(** ** C82: slices *)
Theorem C82_positions : forall n s l, slice_indices n s = Ok l ->
  step_of s <> 0%Z /\ (forall i, In i l <-> designates n s i) /\
  (forall k i j, nth_error l k = Some i -> nth_error l (S k) = Some j -> Z.of_nat j = (Z.of_nat i + step_of s)%Z).
Proof. exact slice_spec. Qed.
Print Assumptions C82_positions.
Theorem C82_total : forall n s,
  (step_of s = 0%Z -> slice_indices n s = Err EValueError) /\ (step_of s <> 0%Z -> exists l, slice_indices n s = Ok l).
Proof. exact slice_error. Qed.
Print Assumptions C82_total.
Theorem C82_samples : forall A U (d : U) (a : sdata A U) s0 s1 s2, valid a ->
  step_of s0 <> 0%Z -> step_of s1 <> 0%Z -> step_of s2 <> 0%Z ->
  exists r i0 i1 i2, s_getitem d a (Some (s0, s1, s2)) = Ok r /\ valid r /\
    slice_indices (length (s_time a)) s0 = Ok i0 /\ slice_indices (length (s_freq a)) s1 = Ok i1 /\
    slice_indices (length (s_polar a)) s2 = Ok i2 /\
    length (s_time r) = length i0 /\ length (s_freq r) = length i1 /\ length (s_polar r) = length i2 /\
    forall i j k u v w, nth_error i0 i = Some u -> nth_error i1 j = Some v -> nth_error i2 k = Some w ->
      forall t f p x, sample r i j k t f p x <-> sample a u v w t f p x.
Proof. exact getitem_spec. Qed.
Print Assumptions C82_samples.
Theorem C82_refused : forall A U (d : U) (a : sdata A U),
  s_getitem d a None = Err EIndexError /\
  (forall s0 s1 s2, step_of s0 = 0%Z \/ step_of s1 = 0%Z \/ step_of s2 = 0%Z -> s_getitem d a (Some (s0, s1, s2)) = Err EValueError).
Proof. exact getitem_refused. Qed.
Print Assumptions C82_refused.
Example C82_ex :
  slice_indices 5 (mkSlice (Some (-4)) None (Some 2))%Z = Ok [1; 3] /\
  slice_indices 5 (mkSlice (Some 9) (Some 0) (Some (-2)))%Z = Ok [4; 2] /\
  slice_indices 5 (mkSlice None None (Some 0))%Z = Err EValueError /\
  table (s_getitem ""%string (s_ex 100 [0; 1; 2] [5; 6; 7])%Q
           (Some (mkSlice (Some 1) None None, mkSlice None None (Some (-2)), mkSlice None None None)%Z)) =
    Ok ([1; 2], [7; 5], ["NE"%string], [[112; 110]; [122; 120]])%Q.
Proof. repeat split; vm_compute; reflexivity. Qed.
