(** Specification and proofs for the time slots. *)
From Coq Require Import List Arith ZArith Bool Lia Sorted.
From Verif Require Import Base M_Slots.
Import ListNotations.
Open Scope Z_scope.

(** ** Specification *)

(** A slot grid: [n] slots of length [dt] starting at [tmin]. *)
Definition is_grid (tmin dt : Z) (n : nat) (s : slots) : Prop :=
  length (sl_starts s) = n /\ length (sl_stops s) = n /\ length (sl_free s) = n /\
  (forall k, (k < n)%nat ->
     nth k (sl_starts s) 0 = tmin + Z.of_nat k * dt /\
     nth k (sl_stops s) 0 = tmin + (Z.of_nat k + 1) * dt).

(** Slot [k] meets the range between [a] and [b]. *)
Definition meets (s : slots) (k : nat) (a b : Z) : Prop :=
  a < nth k (sl_stops s) 0 /\ nth k (sl_starts s) 0 < b.

Definition free_at (s : slots) (k : nat) : Prop := nth k (sl_free s) false = true.

(** Slot [k] lies inside the window [w]. *)
Definition inside (s : slots) (k : nat) (w : Z * Z) : Prop :=
  fst w <= nth k (sl_starts s) 0 /\ nth k (sl_stops s) 0 <= snd w.

(** Chronological windows: each one stops before the next one starts. *)
Fixpoint chrono (l : list (Z * Z)) : Prop :=
  match l with
  | [] => True
  | w :: t => fst w <= snd w /\ (match t with [] => True | w' :: _ => snd w <= fst w' end) /\ chrono t
  end.

(** ** Proofs *)

Lemma nth_map_seq : forall (f : nat -> Z) n k,
  (k < n)%nat -> nth k (map f (seq 0 n)) 0 = f k.
Proof.
  intros f n k H.
  rewrite nth_indep with (d' := f 0%nat) by now rewrite map_length, seq_length.
  rewrite map_nth, seq_nth by assumption. reflexivity.
Qed.

Lemma slots_error : forall tmin tmax dt,
  tmax <= tmin -> new_slots tmin tmax dt = Err EValueError.
Proof.
  intros; unfold new_slots, slots_time_range.
  destruct (Z.leb_spec tmax tmin); [reflexivity|lia].
Qed.

Lemma slots_tile : forall tmin tmax dt,
  tmin < tmax -> 0 < dt ->
  exists s n, new_slots tmin tmax dt = Ok s /\ is_grid tmin dt n s /\
    Z.of_nat n * dt <= tmax - tmin < (Z.of_nat n + 1) * dt /\
    (forall k, (S k < n)%nat -> nth k (sl_stops s) 0 = nth (S k) (sl_starts s) 0) /\
    (forall k, (k < n)%nat -> nth k (sl_stops s) 0 <= tmax) /\
    (forall k, (k < n)%nat -> free_at s k).
Proof.
  intros tmin tmax dt H Hdt.
  unfold new_slots, slots_time_range.
  destruct (Z.leb_spec tmax tmin); [lia|].
  destruct (Z.eqb_spec dt 0); [lia|]. simpl. clear n.
  set (n := Z.to_nat ((tmax - tmin) / dt)).
  pose proof (Z.div_mod (tmax - tmin) dt ltac:(lia)) as E.
  pose proof (Z.mod_pos_bound (tmax - tmin) dt Hdt) as B.
  assert (0 <= (tmax - tmin) / dt) by (apply Z.div_pos; lia).
  assert (N : Z.of_nat n = (tmax - tmin) / dt) by (unfold n; rewrite Z2Nat.id; lia).
  eexists; exists n; split; [reflexivity|].
  assert (L : length (map (fun i => tmin + Z.of_nat i * dt) (seq 0 n)) = n)
    by now rewrite map_length, seq_length.
  assert (ST : forall k, (k < n)%nat ->
     nth k (map (fun i => tmin + Z.of_nat i * dt) (seq 0 n)) 0 = tmin + Z.of_nat k * dt).
  { intros; now rewrite nth_map_seq. }
  assert (SP : forall k, (k < n)%nat ->
     nth k (map (fun s => s + dt) (map (fun i => tmin + Z.of_nat i * dt) (seq 0 n))) 0
     = tmin + (Z.of_nat k + 1) * dt).
  { intros; rewrite map_map, nth_map_seq by assumption; lia. }
  simpl. repeat split; simpl; try assumption.
  - now rewrite map_length, L.
  - now rewrite repeat_length, L.
  - now apply ST.
  - now apply SP.
  - nia.
  - nia.
  - intros k Hk. rewrite SP, ST by lia. lia.
  - intros k Hk. rewrite SP by lia. nia.
  - intros k Hk. unfold free_at; simpl. rewrite L.
    apply (@repeat_spec bool n true).
    apply nth_In. now rewrite repeat_length.
Qed.

Lemma time2idx1_In : forall s t k,
  In k (time2idx1 s t) <->
  (k < length (sl_starts s))%nat /\ nth k (sl_starts s) 0 <= t < nth k (sl_stops s) 0.
Proof.
  intros; unfold time2idx1; rewrite filter_In, in_seq, andb_true_iff, Z.leb_le, Z.ltb_lt.
  lia.
Qed.

Lemma sorted_single : forall (l : list nat) k,
  StronglySorted lt l -> (forall j, In j l <-> j = k) -> l = [k].
Proof.
  intros [|x [|y t]] k HS H.
  - destruct (proj2 (H k) eq_refl).
  - f_equal. apply H; now left.
  - inversion HS as [|? ? ? F]; subst.
    assert (x = k) by (apply H; now left).
    assert (y = k) by (apply H; right; now left).
    inversion F; subst; lia.
Qed.

Lemma time2idx1_spec : forall tmin dt n s t,
  0 < dt -> is_grid tmin dt n s ->
  (forall k, (k < n)%nat -> nth k (sl_starts s) 0 <= t < nth k (sl_stops s) 0 ->
     time2idx1 s t = [k]) /\
  (t < tmin \/ tmin + Z.of_nat n * dt <= t -> time2idx1 s t = []) /\
  (tmin <= t < tmin + Z.of_nat n * dt ->
     exists k, (k < n)%nat /\ nth k (sl_starts s) 0 <= t < nth k (sl_stops s) 0).
Proof.
  intros tmin dt n s t Hdt (L1 & L2 & L3 & G).
  split; [|split].
  - intros k Hk Ht.
    apply sorted_single.
    + apply StronglySorted_filter, StronglySorted_seq.
    + intros j; rewrite time2idx1_In, L1. split.
      * intros [Hj Hjt]. destruct (G j Hj) as [E1 E2]. destruct (G k Hk) as [E3 E4].
        rewrite E1, E2 in Hjt. rewrite E3, E4 in Ht.
        assert (Z.of_nat j = Z.of_nat k) by nia. lia.
      * intros ->. now split.
  - intros Ht. destruct (time2idx1 s t) as [|x l] eqn:E; [reflexivity|].
    exfalso. assert (I : In x (time2idx1 s t)) by (rewrite E; now left).
    apply time2idx1_In in I. rewrite L1 in I. destruct I as [I1 I2].
    destruct (G x I1) as [E1 E2]. rewrite E1, E2 in I2.
    assert (Z.of_nat x + 1 <= Z.of_nat n) by lia. nia.
  - intros Ht.
    pose proof (Z.div_mod (t - tmin) dt ltac:(lia)) as E.
    pose proof (Z.mod_pos_bound (t - tmin) dt Hdt) as B.
    assert (0 <= (t - tmin) / dt) by (apply Z.div_pos; lia).
    exists (Z.to_nat ((t - tmin) / dt)).
    assert (Hk : (Z.to_nat ((t - tmin) / dt) < n)%nat) by nia.
    split; [assumption|].
    destruct (G _ Hk) as [E1 E2]. rewrite E1, E2, Z2Nat.id by lia. nia.
Qed.

Lemma time2idx2_err : forall s a b, b < a -> time2idx2 s a b = Err EValueError.
Proof. intros; unfold time2idx2; destruct (Z.ltb_spec b a); [reflexivity|lia]. Qed.

Lemma time2idx2_ok : forall s a b, a <= b ->
  exists l, time2idx2 s a b = Ok l /\ StronglySorted lt l /\
    forall k, In k l <-> (k < length (sl_starts s))%nat /\ meets s k a b.
Proof.
  intros s a b H; unfold time2idx2; destruct (Z.ltb_spec b a); [lia|].
  eexists; split; [reflexivity|]. split.
  - apply StronglySorted_filter, StronglySorted_seq.
  - intros k; rewrite filter_In, in_seq, andb_true_iff, !Z.ltb_lt. unfold meets. lia.
Qed.

Lemma existsb_eqb_In : forall k l, existsb (Nat.eqb k) l = true <-> In k l.
Proof.
  intros; rewrite existsb_exists; split.
  - intros (x & Hx & E); apply Nat.eqb_eq in E; now subst.
  - intros; exists k; split; [assumption|apply Nat.eqb_refl].
Qed.

Lemma nth_set_indices : forall idx v l k d, (k < length l)%nat ->
  nth k (set_indices idx v l) d = if existsb (Nat.eqb k) idx then v else nth k l d.
Proof. intros; unfold set_indices; rewrite nth_imap with (d' := d) by assumption; reflexivity. Qed.

Lemma set_indices_length : forall idx v l, length (set_indices idx v l) = length l.
Proof. intros; apply imap_length. Qed.

(** Pointwise effect of the two operations. *)
Lemma add_booking_spec : forall tmin dt n s a b,
  is_grid tmin dt n s -> a <= b ->
  let s' := fst (add_booking s a b) in
  snd (add_booking s a b) = None /\ is_grid tmin dt n s' /\
  sl_starts s' = sl_starts s /\ sl_stops s' = sl_stops s /\
  forall k, (k < n)%nat -> (free_at s' k <-> free_at s k /\ ~ meets s k a b).
Proof.
  intros tmin dt n s a b (L1 & L2 & L3 & G) H.
  unfold add_booking. destruct (time2idx2_ok s a b H) as (l & E & _ & I). rewrite E. simpl.
  split; [reflexivity|]. split.
  { repeat split; simpl; try assumption; try (apply G; assumption).
    now rewrite set_indices_length. }
  split; [reflexivity|]. split; [reflexivity|].
  intros k Hk. unfold free_at; simpl.
  rewrite nth_set_indices by lia.
  destruct (existsb (Nat.eqb k) l) eqn:X.
  - apply existsb_eqb_In, I in X. split; [discriminate|]. intros [_ Y]. now destruct Y.
  - assert (~ meets s k a b).
    { intros M. assert (In k l) by (apply I; split; [lia|assumption]).
      apply existsb_eqb_In in H0. congruence. }
    tauto.
Qed.

Lemma add_booking_err : forall s a b, b < a -> add_booking s a b = (s, Some EValueError).
Proof. intros; unfold add_booking; now rewrite time2idx2_err. Qed.

Lemma remove_booking_err : forall s a b, b < a -> remove_booking s a b = (s, Some EValueError).
Proof. intros; unfold remove_booking; now rewrite time2idx2_err. Qed.

Lemma remove_booking_spec : forall tmin dt n s a b,
  is_grid tmin dt n s -> a <= b ->
  let s' := fst (remove_booking s a b) in
  snd (remove_booking s a b) = None /\ is_grid tmin dt n s' /\
  sl_starts s' = sl_starts s /\ sl_stops s' = sl_stops s /\
  forall k, (k < n)%nat -> (free_at s' k <-> free_at s k \/ meets s k a b).
Proof.
  intros tmin dt n s a b (L1 & L2 & L3 & G) H.
  unfold remove_booking. destruct (time2idx2_ok s a b H) as (l & E & _ & I). rewrite E. simpl.
  split; [reflexivity|]. split.
  { repeat split; simpl; try assumption; try (apply G; assumption).
    now rewrite set_indices_length. }
  split; [reflexivity|]. split; [reflexivity|].
  intros k Hk. unfold free_at; simpl.
  rewrite nth_set_indices by lia.
  destruct (existsb (Nat.eqb k) l) eqn:X.
  - apply existsb_eqb_In, I in X. split; [|reflexivity]. intros _; right; tauto.
  - assert (~ meets s k a b).
    { intros M. assert (In k l) by (apply I; split; [lia|assumption]).
      apply existsb_eqb_In in H0. congruence. }
    tauto.
Qed.

Lemma meets_ext : forall s s' k a b,
  sl_starts s' = sl_starts s -> sl_stops s' = sl_stops s ->
  (meets s' k a b <-> meets s k a b).
Proof. intros s s' k a b E1 E2; unfold meets; now rewrite E1, E2. Qed.

Lemma add_bookings_inv : forall tmin dt n l s,
  is_grid tmin dt n s ->
  let s' := add_bookings s l in
  is_grid tmin dt n s' /\ sl_starts s' = sl_starts s /\ sl_stops s' = sl_stops s /\
  forall k, (k < n)%nat ->
    (free_at s' k <->
     free_at s k /\ forall a b, In (a, b) l -> a <= b -> ~ meets s k a b).
Proof.
  intros tmin dt n. induction l as [|[a b] t IH]; intros s G.
  - simpl; repeat split; try apply G; try tauto.
  - unfold add_bookings in *; simpl.
    destruct (Z_le_gt_dec a b) as [Hab|Hab].
    + destruct (add_booking_spec tmin dt n s a b G Hab) as (_ & G' & E1 & E2 & F).
      set (s1 := fst (add_booking s a b)) in *.
      destruct (IH s1 G') as (G2 & E3 & E4 & F2).
      split; [assumption|]. split; [congruence|]. split; [congruence|].
      intros k Hk. rewrite F2, F by assumption. split.
      * intros [[X Y] Z]. split; [assumption|].
        intros a' b' [Q|Q] Hab'; [injection Q; intros; subst; assumption|].
        intros M. apply (Z a' b' Q Hab'). now apply meets_ext with (s := s).
      * intros [X Y]. split; [split; [assumption|]|].
        -- apply Y; [now left|assumption].
        -- intros a' b' Q Hab' M. apply (Y a' b'); [now right|assumption|].
           now apply meets_ext with (s := s) in M.
    + rewrite add_booking_err by lia. simpl.
      destruct (IH s G) as (G2 & E3 & E4 & F2).
      split; [assumption|]. split; [assumption|]. split; [assumption|].
      intros k Hk. rewrite F2 by assumption. split.
      * intros [X Y]. split; [assumption|].
        intros a' b' [Q|Q] Hab'; [injection Q; intros; subst; lia|]. now apply Y.
      * intros [X Y]. split; [assumption|]. intros a' b' Q; apply Y; now right.
Qed.

Lemma reservations_accumulate : forall tmin tmax dt s l,
  0 < dt -> new_slots tmin tmax dt = Ok s ->
  forall k, (k < length (sl_starts s))%nat ->
   (free_at (add_bookings s l) k <->
    forall a b, In (a, b) l -> a <= b ->
      ~ (a < tmin + (Z.of_nat k + 1) * dt /\ tmin + Z.of_nat k * dt < b)).
Proof.
  intros tmin tmax dt s l Hdt E k Hk.
  destruct (Z_le_gt_dec tmax tmin) as [H|H].
  { rewrite slots_error in E by assumption; discriminate. }
  destruct (slots_tile tmin tmax dt ltac:(lia) Hdt) as (s' & n & E' & G & _ & _ & _ & F).
  rewrite E in E'; injection E'; intros <-.
  destruct (add_bookings_inv tmin dt n l s G) as (_ & _ & _ & F').
  destruct G as (L1 & L2 & L3 & G). rewrite L1 in Hk.
  rewrite F' by assumption. destruct (G k Hk) as [G1 G2].
  unfold meets. rewrite G1, G2. split.
  - intros [_ X]; exact X.
  - intros X; split; [now apply F|exact X].
Qed.

Lemma free_ext : forall tmin dt n s s',
  is_grid tmin dt n s -> is_grid tmin dt n s' ->
  sl_starts s' = sl_starts s -> sl_stops s' = sl_stops s ->
  (forall k, (k < n)%nat -> (free_at s' k <-> free_at s k)) -> s' = s.
Proof.
  intros tmin dt n [a b f] [a' b' f'] (L1 & L2 & L3 & _) (L1' & L2' & L3' & _) E1 E2 F.
  simpl in *; subst a' b'. f_equal.
  apply list_ext_nth with (d := false); [lia|].
  intros k Hk. specialize (F k ltac:(lia)). unfold free_at in F; simpl in F.
  destruct (nth k f' false), (nth k f false); try reflexivity; destruct F as [F1 F2];
    [now rewrite F1 | now rewrite F2].
Qed.

Lemma add_remove : forall tmin dt n s a b,
  is_grid tmin dt n s -> a <= b ->
  (fst (remove_booking (fst (add_booking s a b)) a b) = s <->
   forall k, (k < n)%nat -> meets s k a b -> free_at s k).
Proof.
  intros tmin dt n s a b G H.
  destruct (add_booking_spec tmin dt n s a b G H) as (_ & G1 & E1 & E2 & F1).
  set (s1 := fst (add_booking s a b)) in *.
  destruct (remove_booking_spec tmin dt n s1 a b G1 H) as (_ & G2 & E3 & E4 & F2).
  set (s2 := fst (remove_booking s1 a b)) in *.
  assert (M : forall k, meets s1 k a b <-> meets s k a b) by (intros; now apply meets_ext).
  split.
  - intros E k Hk Mk. specialize (F2 k Hk). rewrite E, M in F2. tauto.
  - intros X. apply free_ext with (tmin := tmin) (dt := dt) (n := n);
      [assumption|assumption|congruence|congruence|].
    intros k Hk. rewrite F2, F1, M by assumption. specialize (X k Hk).
    assert (meets s k a b \/ ~ meets s k a b) by (unfold meets; lia). tauto.
Qed.

(** ** set_free_slots *)

Lemma insert_reserved_ok : forall tmin dt n l s,
  is_grid tmin dt n s -> (forall a b, In (a, b) l -> a <= b) ->
  let s' := fst (insert_reserved s l) in
  snd (insert_reserved s l) = None /\ is_grid tmin dt n s' /\
  sl_starts s' = sl_starts s /\ sl_stops s' = sl_stops s /\
  forall k, (k < n)%nat ->
    (free_at s' k <-> free_at s k /\ forall a b, In (a, b) l -> ~ meets s k a b).
Proof.
  intros tmin dt n. induction l as [|[a b] t IH]; intros s G H.
  - simpl; repeat split; try apply G; try tauto.
  - simpl. assert (Hab : a <= b) by (apply H; now left).
    destruct (add_booking_spec tmin dt n s a b G Hab) as (N & G' & E1 & E2 & F).
    destruct (add_booking s a b) as [s1 o]; simpl in *; subst o.
    destruct (IH s1 G') as (N2 & G2 & E3 & E4 & F2); [intros; apply H; now right|].
    split; [assumption|]. split; [assumption|]. split; [congruence|]. split; [congruence|].
    intros k Hk. rewrite F2, F by assumption. split.
    + intros [[X Y] Z]. split; [assumption|].
      intros a' b' [Q|Q]; [injection Q; intros; subst; assumption|].
      intros M. apply (Z a' b' Q). now apply meets_ext with (s := s).
    + intros [X Y]. split; [split; [assumption|]|].
      * apply Y; now left.
      * intros a' b' Q M. apply (Y a' b'); [now right|].
        now apply meets_ext with (s := s) in M.
Qed.

Lemma insert_reserved_bad : forall l s,
  (exists a b, In (a, b) l /\ b < a) -> snd (insert_reserved s l) = Some EValueError.
Proof.
  induction l as [|[a b] t IH]; intros s (a' & b' & I & H); [destruct I|].
  simpl. destruct (Z_lt_le_dec b a) as [X|X].
  - now rewrite add_booking_err.
  - unfold add_booking.
    destruct (time2idx2_ok s a b X) as (l & E & _ & _). rewrite E.
    apply IH. destruct I as [Q|Q]; [injection Q; intros; subst; lia|]. now exists a', b'.
Qed.

Lemma last_cons : forall (A : Type) (l : list A) x d, last (x :: l) d = last l x.
Proof. induction l as [|y t IH]; intros; [reflexivity|]. change (last (x :: y :: t) d) with (last (y :: t) d). now rewrite !IH. Qed.

Lemma inner_gaps_cons2 : forall w w' t,
  inner_gaps (map fst (w :: w' :: t)) (map snd (w :: w' :: t))
  = (snd w, fst w') :: inner_gaps (map fst (w' :: t)) (map snd (w' :: t)).
Proof. intros; reflexivity. Qed.

(** The gaps leave exactly the inside of the windows. *)
Lemma gaps_inside : forall l w x y,
  chrono (w :: l) -> x < y ->
  ((fst w <= x /\ y <= last (map snd l) (snd w) /\
    forall a b, In (a, b) (inner_gaps (map fst (w :: l)) (map snd (w :: l))) -> ~ (a < y /\ x < b))
   <-> exists v, In v (w :: l) /\ fst v <= x /\ y <= snd v).
Proof.
  induction l as [|w' t IH]; intros w x y C Hxy.
  - simpl. split.
    + intros (A & B & _). exists w; repeat split; [now left|assumption|assumption].
    + intros (v & [<-|[]] & A & B). repeat split; try assumption. intros a b [].
  - rewrite inner_gaps_cons2. change (map snd (w' :: t)) with (snd w' :: map snd t) at 1.
    rewrite last_cons.
    destruct C as (C1 & C2 & C3).
    specialize (IH w' x y C3 Hxy).
    assert (C4 : fst w' <= snd w') by (destruct C3; assumption).
    split.
    + intros (A & B & F).
      destruct (Z_le_gt_dec (fst w') x) as [Q|Q].
      * destruct IH as [IH _]. destruct IH as (v & I & V).
        { split; [assumption|]. split; [assumption|].
          intros a b I; apply F; now right. }
        exists v; split; [now right|assumption].
      * exists w. split; [now left|]. split; [assumption|].
        specialize (F (snd w) (fst w') ltac:(now left)). lia.
    + intros (v & [<-|I] & A & B).
      * (* in the first window *)
        assert (forall u, In u (w' :: t) -> snd w <= snd u /\ snd w <= fst u).
        { clear - C2 C3. revert C2 C3. revert w'. induction t as [|w'' t IH]; intros w' C2 C3 u I.
          - destruct I as [<-|[]]. destruct C3; lia.
          - destruct C3 as (C31 & C32 & C33). destruct I as [<-|I]; [lia|].
            apply (IH w''); [lia|assumption|assumption]. }
        split; [assumption|]. split.
        { enough (Q : In (last (map snd t) (snd w')) (map snd (w' :: t))).
          { apply in_map_iff in Q. destruct Q as (u & E & I). destruct (H u I). lia. }
          rewrite <- last_cons with (d := 0).
          change (snd w' :: map snd t) with (map snd (w' :: t)).
          assert (NE : map snd (w' :: t) <> []) by discriminate.
          destruct (exists_last NE) as (p & z & E). rewrite E, last_last.
          apply in_or_app; right; now left. }
        intros a b [E|I].
        -- injection E; intros; subst. lia.
        -- unfold inner_gaps in I. intros M.
           assert (K : In b (tl (map fst (w' :: t)))) by (now apply in_combine_r in I).
           assert (K' : In a (removelast (map snd (w' :: t)))) by (now apply in_combine_l in I).
           assert (In a (map snd (w' :: t))).
           { clear - K'. revert K'. generalize (map snd (w' :: t)) as q.
             induction q as [|z q IHq]; intros K; [destruct K|].
             destruct q as [|z' q]; [destruct K|]. destruct K as [->|K]; [now left|right; now apply IHq]. }
           apply in_map_iff in H0. destruct H0 as (u & E & Iu). destruct (H u Iu). lia.
      * destruct IH as [_ IH]. destruct IH as (A1 & B1 & F1).
        { exists v; repeat split; assumption. }
        split; [lia|]. split; [assumption|].
        intros a b [E|I']; [|now apply F1]. injection E; intros; subst. lia.
Qed.

Lemma chrono_gaps_ok : forall l w, chrono (w :: l) ->
  forall a b, In (a, b) (inner_gaps (map fst (w :: l)) (map snd (w :: l))) -> a <= b.
Proof.
  induction l as [|w' t IH]; intros w C a b I; [destruct I|].
  rewrite inner_gaps_cons2 in I. destruct C as (C1 & C2 & C3).
  destruct I as [E|I]; [injection E; intros; subst; lia|]. now apply (IH w').
Qed.

Lemma grid_min_max : forall tmin dt n s,
  is_grid tmin dt (S n) s ->
  sched_min s = Ok tmin /\ sched_max s = Ok (tmin + (Z.of_nat n + 1) * dt).
Proof.
  intros tmin dt n s (L1 & L2 & L3 & G). unfold sched_min, sched_max. split.
  - destruct (sl_starts s) as [|x l] eqn:E; [discriminate|].
    destruct (G 0%nat ltac:(lia)) as [E1 _]. rewrite ?E in E1; simpl in E1. f_equal; lia.
  - destruct (sl_stops s) as [|x l] eqn:E; [discriminate|].
    destruct (G n ltac:(lia)) as [_ E1].
    assert (K : forall (l : list Z) x, last l x = nth (length l) (x :: l) 0).
    { clear. induction l as [|y t IH]; intros x; [reflexivity|].
      rewrite last_cons, IH. reflexivity. }
    rewrite K. simpl in L2. injection L2; intros ->. rewrite E1. reflexivity.
Qed.

Lemma set_free_slots_spec : forall tmin dt n s w l,
  0 < dt -> is_grid tmin dt n s -> (0 < n)%nat -> chrono (w :: l) ->
  let r := set_free_slots s (map fst (w :: l)) (map snd (w :: l)) in
  snd r = None /\
  forall k, (k < n)%nat ->
    (free_at (fst r) k <-> free_at s k /\ exists v, In v (w :: l) /\ inside s k v).
Proof.
  intros tmin dt n s w l Hdt G Hn C. destruct n as [|m]; [lia|].
  destruct (grid_min_max _ _ _ _ G) as [Em Ex].
  unfold set_free_slots. rewrite !map_length, Nat.eqb_refl. simpl negb.
  change (map fst (w :: l)) with (fst w :: map fst l) at 1.
  change (map snd (w :: l)) with (snd w :: map snd l) at 1. cbv iota beta.
  rewrite Em, Ex.
  set (tmax := tmin + (Z.of_nat m + 1) * dt).
  set (lst := last (map snd l) (snd w)).
  set (first := if tmin <? fst w then [(tmin, fst w)] else []).
  set (final := if lst <? tmax then [(lst, tmax)] else []).
  set (gaps := inner_gaps (map fst (w :: l)) (map snd (w :: l))).
  cbv zeta. change (fst w :: map fst l) with (map fst (w :: l)).
  change (snd w :: map snd l) with (map snd (w :: l)). fold gaps.
  assert (OK : forall a b, In (a, b) (first ++ gaps ++ final) -> a <= b).
  { intros a b I. rewrite !in_app_iff in I. destruct I as [I|[I|I]].
    - unfold first in I. destruct (Z.ltb_spec tmin (fst w)); [|destruct I].
      destruct I as [E|[]]; injection E; intros; lia.
    - eapply chrono_gaps_ok; eassumption.
    - unfold final in I. destruct (Z.ltb_spec lst tmax); [|destruct I].
      destruct I as [E|[]]; injection E; intros; lia. }
  destruct (insert_reserved_ok tmin dt (S m) _ s G OK) as (N & _ & _ & _ & F).
  split; [exact N|]. intros k Hk.
  match goal with |- free_at ?X k <-> _ =>
    change X with (fst (insert_reserved s (first ++ gaps ++ final))) end.
  rewrite F by assumption.
  destruct G as (L1 & L2 & L3 & G). destruct (G k Hk) as [S1 S2].
  set (x := nth k (sl_starts s) 0) in *. set (y := nth k (sl_stops s) 0) in *.
  assert (Hxy : x < y) by lia.
  pose proof (gaps_inside l w x y C Hxy) as GI. fold gaps lst in GI.
  assert (Y : y <= tmax) by (unfold tmax; nia).
  assert (X : tmin <= x) by nia.
  unfold inside. fold x y. rewrite <- GI.
  split; intros [A B]; (split; [assumption|]).
  - split; [|split].
    + destruct (Z_le_gt_dec (fst w) x); [assumption|exfalso].
      apply (B tmin (fst w)).
      * apply in_or_app; left. unfold first. destruct (Z.ltb_spec tmin (fst w)); [now left|lia].
      * unfold meets. fold x y. lia.
    + destruct (Z_le_gt_dec y lst); [assumption|exfalso].
      apply (B lst tmax).
      * apply in_or_app; right; apply in_or_app; right.
        unfold final. destruct (Z.ltb_spec lst tmax); [now left|lia].
      * unfold meets. fold x y. lia.
    + intros a b I. apply (B a b). apply in_or_app; right; apply in_or_app; now left.
  - destruct B as (B1 & B2 & B3). intros a b I. rewrite !in_app_iff in I.
    destruct I as [I|[I|I]].
    + unfold first in I. destruct (Z.ltb_spec tmin (fst w)); [|destruct I].
      destruct I as [E|[]]; injection E; intros; subst a b. unfold meets. fold x y. lia.
    + apply B3; assumption.
    + unfold final in I. destruct (Z.ltb_spec lst tmax); [|destruct I].
      destruct I as [E|[]]; injection E; intros; subst a b. unfold meets. fold x y. lia.
Qed.

Lemma set_free_slots_bad : forall tmin dt n s starts stops i,
  is_grid tmin dt n s -> (0 < n)%nat -> length starts = length stops ->
  (S i < length starts)%nat -> nth (S i) starts 0 < nth i stops 0 ->
  snd (set_free_slots s starts stops) = Some EValueError.
Proof.
  intros tmin dt n s starts stops i G Hn L Hi H. destruct n as [|m]; [lia|].
  destruct (grid_min_max _ _ _ _ G) as [Em Ex].
  unfold set_free_slots. rewrite L, Nat.eqb_refl. simpl negb.
  destruct starts as [|s0 ss]; [simpl in Hi; lia|].
  destruct stops as [|e0 es]; [discriminate|].
  rewrite Em, Ex. cbv iota beta zeta.
  apply insert_reserved_bad.
  exists (nth i (e0 :: es) 0), (nth (S i) (s0 :: ss) 0). split; [|assumption].
  apply in_or_app; right; apply in_or_app; left.
  unfold inner_gaps. simpl tl. simpl nth at 2.
  simpl in L, Hi. injection L as L.
  clear H G Em Ex. revert e0 es L i Hi. clear s0.
  induction ss as [|s1 ss IH]; intros e0 es L i Hi; [simpl in Hi; lia|].
  destruct es as [|e1 es]; [discriminate|].
  change (removelast (e0 :: e1 :: es)) with (e0 :: removelast (e1 :: es)).
  destruct i as [|i]; [now left|]. right.
  apply (IH e1 es); [now injection L|simpl in Hi; lia].
Qed.

Lemma set_free_slots_len : forall s starts stops,
  length starts <> length stops -> set_free_slots s starts stops = (s, Some EValueError).
Proof.
  intros; unfold set_free_slots. destruct (Nat.eqb_spec (length starts) (length stops)); [contradiction|reflexivity].
Qed.

(** ** match_booking *)

Lemma within_schedule_spec : forall tmin tmax a b, a < b -> tmin < tmax ->
  (within_schedule tmin tmax (a, b) = true <-> a < tmax /\ tmin < b).
Proof.
  intros; unfold within_schedule; simpl.
  rewrite !orb_true_iff, !andb_true_iff, !Z.leb_le, !Z.ltb_lt. lia.
Qed.

Lemma chrono_filter : forall f l, chrono l -> chrono (filter f l).
Proof.
  assert (H : forall l w, chrono (w :: l) -> forall u, In u l -> snd w <= fst u).
  { induction l as [|w' t IH]; intros w (A & B & C) u I; [destruct I|].
    destruct I as [<-|I]; [assumption|]. pose proof (IH w' C u I).
    destruct C; lia. }
  induction l as [|w t IH]; intros C; [exact I|]. simpl.
  assert (C' : chrono t) by (destruct C as (_ & _ & C); exact C).
  specialize (IH C'). destruct (f w); [|assumption].
  simpl. split; [destruct C; assumption|]. split; [|assumption].
  destruct (filter f t) as [|u q] eqn:E; [exact I|].
  apply (H t w C). assert (In u (filter f t)) by (rewrite E; now left).
  apply filter_In in H0; tauto.
Qed.

Definition of_program (kp : nat) (bookings : list (Z * Z * nat)) : list (Z * Z) :=
  map fst (filter (fun b => (snd b =? kp)%nat) bookings).

Lemma match_booking_spec : forall tmin dt n s bookings kp,
  0 < dt -> is_grid tmin dt n s -> (0 < n)%nat ->
  chrono (of_program kp bookings) ->
  (forall w, In w (of_program kp bookings) -> fst w < snd w) ->
  (exists w, In w (of_program kp bookings) /\
     fst w < tmin + Z.of_nat n * dt /\ tmin < snd w) ->
  let r := match_booking s bookings kp in
  snd r = None /\
  forall k, (k < n)%nat ->
    (free_at (fst r) k <->
     free_at s k /\ exists v, In v (of_program kp bookings) /\ inside s k v).
Proof.
  intros tmin dt n s bookings kp Hdt G Hn C NE (w0 & I0 & H0).
  destruct n as [|m]; [lia|]. destruct (grid_min_max _ _ _ _ G) as [Em Ex].
  unfold match_booking.
  assert (EX : existsb (fun b => (snd b =? kp)%nat) bookings = true).
  { unfold of_program in I0. apply in_map_iff in I0. destruct I0 as (b & _ & I0).
    apply filter_In in I0. apply existsb_exists. now exists b. }
  rewrite EX, Em, Ex. cbv zeta. fold (of_program kp bookings).
  set (tmax := tmin + (Z.of_nat m + 1) * dt).
  set (kept := filter (within_schedule tmin tmax) (of_program kp bookings)).
  assert (Htm : tmin < tmax) by (unfold tmax; nia).
  assert (IK : In w0 kept).
  { apply filter_In; split; [assumption|]. destruct w0 as [a b].
    apply within_schedule_spec; [now apply (NE (a, b))|assumption|]. cbn [fst snd] in *. unfold tmax. rewrite Nat2Z.inj_succ in H0. unfold Z.succ in H0. split; [apply H0|apply H0]. }
  assert (CK : chrono kept) by now apply chrono_filter.
  destruct kept as [|w l] eqn:EK; [destruct IK|].
  destruct (set_free_slots_spec tmin dt (S m) s w l Hdt G ltac:(lia) CK) as (N & F).
  split; [assumption|]. intros k Hk. rewrite F by assumption.
  destruct G as (L1 & L2 & L3 & G). destruct (G k Hk) as [S1 S2].
  split; intros (A & v & I & V); (split; [assumption|]); exists v; (split; [|assumption]).
  - rewrite <- EK in I. unfold kept in I. apply filter_In in I; tauto.
  - rewrite <- EK. apply filter_In. split; [assumption|].
    destruct v as [a b]. unfold inside in V; simpl in V. rewrite S1, S2 in V.
    apply within_schedule_spec; [now apply (NE (a, b))|assumption|].
    unfold tmax. nia.
Qed.

Lemma match_booking_unknown : forall s bookings kp,
  (forall a b, ~ In (a, b, kp) bookings) -> match_booking s bookings kp = (s, Some EValueError).
Proof.
  intros s bookings kp H; unfold match_booking.
  destruct (existsb (fun b => (snd b =? kp)%nat) bookings) eqn:E; [|reflexivity].
  apply existsb_exists in E. destruct E as ([[a b] k] & I & E). apply Nat.eqb_eq in E.
  simpl in E; subst. now apply H in I.
Qed.

(** ** Sessions *)

Definition same_grid (s s' : slots) : Prop :=
  sl_starts s' = sl_starts s /\ sl_stops s' = sl_stops s /\
  length (sl_free s') = length (sl_free s).

Lemma same_grid_refl : forall s, same_grid s s.
Proof. now repeat split. Qed.

Lemma same_grid_trans : forall s1 s2 s3, same_grid s1 s2 -> same_grid s2 s3 -> same_grid s1 s3.
Proof. intros s1 s2 s3 (A & B & C) (D & E & F); repeat split; congruence. Qed.

Lemma add_booking_same : forall s a b, same_grid s (fst (add_booking s a b)).
Proof.
  intros; unfold add_booking; destruct (time2idx2 s a b); [|apply same_grid_refl].
  repeat split; simpl; apply set_indices_length.
Qed.

Lemma remove_booking_same : forall s a b, same_grid s (fst (remove_booking s a b)).
Proof.
  intros; unfold remove_booking; destruct (time2idx2 s a b); [|apply same_grid_refl].
  repeat split; simpl; apply set_indices_length.
Qed.

Lemma insert_reserved_same : forall l s, same_grid s (fst (insert_reserved s l)).
Proof.
  induction l as [|[a b] t IH]; intros s; [apply same_grid_refl|]. simpl.
  pose proof (add_booking_same s a b) as A.
  destruct (add_booking s a b) as [s' [e|]]; [exact A|].
  eapply same_grid_trans; [exact A|apply IH].
Qed.

Lemma set_free_slots_same : forall s l m, same_grid s (fst (set_free_slots s l m)).
Proof.
  intros; unfold set_free_slots.
  destruct (negb _); [apply same_grid_refl|].
  destruct l; [apply same_grid_refl|]. destruct m; [apply same_grid_refl|].
  destruct (sched_min s); [|apply same_grid_refl].
  destruct (sched_max s); [|apply same_grid_refl].
  apply insert_reserved_same.
Qed.

Lemma slot_step_same : forall o s, same_grid s (slot_step s o).
Proof.
  intros [a b|a b|l m|l kp] s; unfold slot_step.
  - apply add_booking_same.
  - apply remove_booking_same.
  - apply set_free_slots_same.
  - unfold match_booking. destruct (existsb _ l); [|apply same_grid_refl].
    destruct (sched_min s); [|apply same_grid_refl].
    destruct (sched_max s); [|apply same_grid_refl].
    apply set_free_slots_same.
Qed.

Lemma slot_run_same : forall ops s, same_grid s (slot_run s ops).
Proof.
  induction ops as [|o t IH]; intros s; [apply same_grid_refl|].
  eapply same_grid_trans; [apply slot_step_same|apply IH].
Qed.

Lemma grid_same : forall tmin dt n s s', same_grid s s' -> is_grid tmin dt n s -> is_grid tmin dt n s'.
Proof.
  intros tmin dt n s s' (A & B & C) (L1 & L2 & L3 & G).
  unfold is_grid. rewrite A, B, C. tauto.
Qed.

Lemma slot_run_grid : forall tmin tmax dt s ops,
  tmin < tmax -> 0 < dt -> new_slots tmin tmax dt = Ok s ->
  exists n, Z.of_nat n * dt <= tmax - tmin < (Z.of_nat n + 1) * dt /\
            is_grid tmin dt n (slot_run s ops).
Proof.
  intros tmin tmax dt s ops H Hdt E.
  destruct (slots_tile tmin tmax dt H Hdt) as (s' & n & E' & G & B & _).
  rewrite E in E'; injection E'; intros <-.
  exists n; split; [assumption|]. eapply grid_same; [apply slot_run_same|assumption].
Qed.

(** The last reservation or release that concerns slot [k] decides. *)
Definition add_remove_only (o : slot_op) : Prop :=
  match o with OpAdd _ _ | OpRemove _ _ => True | _ => False end.

Definition books (s : slots) (k : nat) (o : slot_op) : Prop :=
  match o with OpAdd a b => a <= b /\ meets s k a b | _ => False end.
Definition releases (s : slots) (k : nat) (o : slot_op) : Prop :=
  match o with OpRemove a b => a <= b /\ meets s k a b | _ => False end.

Lemma last_word : forall tmin dt n s ops k,
  is_grid tmin dt n s -> (k < n)%nat -> Forall add_remove_only ops ->
  (free_at (slot_run s ops) k <->
   (free_at s k /\ forall o, In o ops -> ~ books s k o) \/
   (exists pre o post, ops = pre ++ o :: post /\ releases s k o /\
      forall o', In o' post -> ~ books s k o')).
Proof.
  intros tmin dt n s ops k G Hk FO.
  induction ops as [|o t IH] using rev_ind.
  - simpl. split; [intros X; left; split; [exact X|intros o []]|].
    intros [[X _]|(pre & o & post & E & _)]; [exact X|]. destruct pre; discriminate.
  - apply Forall_app in FO. destruct FO as [FO Fo]. specialize (IH FO).
    inversion Fo as [|? ? Fo' _]; subst.
    unfold slot_run in *. rewrite fold_left_app. simpl.
    set (s1 := fold_left slot_step t s) in *.
    assert (SG : same_grid s s1) by apply slot_run_same.
    assert (G1 : is_grid tmin dt n s1) by (eapply grid_same; eassumption).
    assert (ME : forall a b, meets s1 k a b <-> meets s k a b)
      by (intros; apply meets_ext; apply SG).
    assert (DEC : forall a b, meets s k a b \/ ~ meets s k a b) by (intros; unfold meets; lia).
    assert (SN : forall (P : slot_op -> Prop) x, (forall o', In o' (t ++ [x]) -> P o') <->
                 (forall o', In o' t -> P o') /\ P x).
    { intros P x; split.
      - intros H; split; [intros; apply H, in_or_app; now left|apply H, in_or_app; right; now left].
      - intros [H1 H2] o' I; apply in_app_or in I; destruct I as [I|[<-|[]]]; [now apply H1|assumption]. }
    assert (EX : forall x,
      (exists pre o post, t ++ [x] = pre ++ o :: post /\ releases s k o /\
         forall o', In o' post -> ~ books s k o') <->
      releases s k x \/ (~ books s k x /\
        exists pre o post, t = pre ++ o :: post /\ releases s k o /\
         forall o', In o' post -> ~ books s k o')).
    { intros x; split.
      - intros (pre & o' & post & E & R & B).
        destruct post as [|z post] using rev_ind.
        + apply app_inj_tail in E. destruct E as [_ <-]. now left.
        + clear IHpost. right.
          rewrite app_comm_cons, app_assoc in E. apply app_inj_tail in E. destruct E as [-> <-].
          split; [apply B, in_or_app; right; now left|].
          exists pre, o', post. repeat split; try assumption.
          intros; apply B, in_or_app; now left.
      - intros [R|[NB (pre & o' & post & E & R & B)]].
        + exists t, x, []. repeat split; try assumption. intros o' [].
        + exists pre, o', (post ++ [x]). rewrite E, <- app_assoc. repeat split; try assumption.
          intros y I; apply in_app_or in I; destruct I as [I|[<-|[]]]; [now apply B|assumption]. }
    rewrite SN, EX.
    destruct o as [a b|a b|l m|l kp]; try contradiction; unfold slot_step.
    + destruct (Z_le_gt_dec a b) as [Hab|Hab].
      * destruct (add_booking_spec tmin dt n s1 a b G1 Hab) as (_ & _ & _ & _ & F).
        rewrite F, IH, ME by assumption. simpl. tauto.
      * rewrite add_booking_err by lia. simpl fst. rewrite IH. simpl.
        assert (~ a <= b) by lia. tauto.
    + destruct (Z_le_gt_dec a b) as [Hab|Hab].
      * destruct (remove_booking_spec tmin dt n s1 a b G1 Hab) as (_ & _ & _ & _ & F).
        rewrite F, IH, ME by assumption. simpl. tauto.
      * rewrite remove_booking_err by lia. simpl fst. rewrite IH. simpl.
        assert (~ a <= b) by lia. tauto.
Qed.
