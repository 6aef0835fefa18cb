(** Lemmas on n-dimensional arrays. *)
From Coq Require Import List Arith Lia.
From Verif Require Import Base M_Nd.
Import ListNotations.

(** A multi-index inside a shape. *)
Definition inside (s idx : list nat) : Prop := Forall2 (fun i n => i < n) idx s.

Lemma inside_length : forall s idx, inside s idx -> length idx = length s.
Proof. intros s idx H. induction H; cbn; congruence. Qed.

Lemma size_app : forall s t, size (s ++ t) = size s * size t.
Proof. 
  induction s as [|n s IH]; intros t; cbn [app].
  - change (size []) with 1. lia.
  - change (n * size (s ++ t) = n * size s * size t). rewrite IH. lia.
 Qed.

Lemma size_cons : forall n s, size (n :: s) = n * size s.
Proof. reflexivity. Qed.

Lemma inside_size : forall s idx, inside s idx -> 0 < size s.
Proof.
  intros s idx H. induction H as [|i n idx s L _ IH]; [cbn; lia|].
  rewrite size_cons. nia.
Qed.

Lemma ravel_lt : forall s idx, inside s idx -> ravel s idx < size s.
Proof.
  intros s idx H. induction H as [|i n idx s L _ IH]; [cbn; lia|].
  rewrite size_cons. cbn [ravel]. nia.
Qed.

Lemma unravel_ravel : forall s idx, inside s idx -> unravel s (ravel s idx) = idx.
Proof.
  intros s idx H. induction H as [|i n idx s L F IH]; [reflexivity|].
  cbn [ravel unravel].
  pose proof (ravel_lt _ _ F) as R. pose proof (inside_size _ _ F) as Z.
  rewrite Nat.div_add_l by lia. rewrite (Nat.div_small _ _ R), Nat.add_0_r.
  rewrite Nat.add_comm, Nat.mod_add by lia. rewrite Nat.mod_small by exact R.
  now rewrite IH.
Qed.

Lemma unravel_inside : forall s k, k < size s -> inside s (unravel s k).
Proof.
  induction s as [|n s IH]; intros k L; cbn [unravel]; [constructor|].
  rewrite size_cons in L.
  assert (Z : size s <> 0) by nia.
  constructor.
  - apply Nat.div_lt_upper_bound; [exact Z|]. lia.
  - apply IH. now apply Nat.mod_upper_bound.
Qed.

Lemma ravel_unravel : forall s k, k < size s -> ravel s (unravel s k) = k.
Proof.
  induction s as [|n s IH]; intros k L; cbn [unravel ravel]; [cbn in L; lia|].
  rewrite size_cons in L. assert (Z : size s <> 0) by nia.
  rewrite IH by (now apply Nat.mod_upper_bound).
  rewrite (Nat.div_mod k (size s)) at 3 by exact Z. lia.
Qed.

Lemma ravel_app : forall s idx t jdx, length idx = length s ->
  ravel (s ++ t) (idx ++ jdx) = ravel s idx * size t + ravel t jdx.
Proof.
  induction s as [|n s IH]; intros [|i idx] t jdx L; cbn in L; try discriminate; cbn [app ravel]; [lia|].
  rewrite IH by congruence. rewrite size_app. nia.
Qed.

Lemma inside_app : forall s idx t jdx, inside s idx -> inside t jdx -> inside (s ++ t) (idx ++ jdx).
Proof. intros. now apply Forall2_app. Qed.

Lemma inside_split : forall s n t idx, inside (s ++ n :: t) idx ->
  exists ip i iq, idx = ip ++ i :: iq /\ inside s ip /\ i < n /\ inside t iq.
Proof.
  intros s n t idx H. apply Forall2_app_inv_r in H.
  destruct H as (ip & r & A & B & ->). inversion B as [|i y iq t' L F]; subst.
  exists ip, i, iq. auto.
Qed.

Lemma inside_app_inv : forall s t idx, inside (s ++ t) idx ->
  exists ip iq, idx = ip ++ iq /\ inside s ip /\ inside t iq.
Proof.
  intros s t idx H. apply Forall2_app_inv_r in H.
  destruct H as (ip & iq & A & B & E). exists ip, iq. auto.
Qed.

(** Splitting one axis in two. *)
Lemma ravel_split : forall s t m b ip i j iq, length ip = length s ->
  ravel (s ++ m :: b :: t) (ip ++ i :: j :: iq) = ravel (s ++ m * b :: t) (ip ++ i * b + j :: iq).
Proof.
  intros s t m b ip i j iq L. rewrite !ravel_app by exact L.
  rewrite !size_cons. cbn [ravel]. rewrite !size_cons. ring.
Qed.

Lemma reshape_split : forall A (a : nd A) s t m b,
  sh a = s ++ m * b :: t ->
  exists r, reshape (s ++ m :: b :: t) a = Ok r /\ sh r = s ++ m :: b :: t /\
  forall ip i j iq, inside s ip -> i < m -> j < b -> inside t iq ->
    get r (ip ++ i :: j :: iq) = get a (ip ++ i * b + j :: iq).
Proof.
  intros A a s t m b E. unfold reshape.
  assert (Z : size (s ++ m :: b :: t) = size (sh a)).
  { rewrite E, !size_app, !size_cons. ring. }
  rewrite Z, Nat.eqb_refl. eexists. split; [reflexivity|]. split; [reflexivity|].
  intros ip i j iq P I J Q. cbn [get]. f_equal.
  rewrite ravel_split by (now apply inside_length). rewrite E.
  apply unravel_ravel. apply inside_app; [exact P|]. constructor; [nia|exact Q].
Qed.

(** The reverse: joining two axes. *)
Lemma reshape_join : forall A (a : nd A) s t m b,
  sh a = s ++ m :: b :: t ->
  exists r, reshape (s ++ m * b :: t) a = Ok r /\ sh r = s ++ m * b :: t /\
  forall ip i j iq, inside s ip -> i < m -> j < b -> inside t iq ->
    get r (ip ++ i * b + j :: iq) = get a (ip ++ i :: j :: iq).
Proof.
  intros A a s t m b E. unfold reshape.
  assert (Z : size (s ++ m * b :: t) = size (sh a)).
  { rewrite E, !size_app, !size_cons. ring. }
  rewrite Z, Nat.eqb_refl. eexists. split; [reflexivity|]. split; [reflexivity|].
  intros ip i j iq P I J Q. cbn [get]. f_equal.
  rewrite <- ravel_split by (now apply inside_length). rewrite E.
  apply unravel_ravel. apply inside_app; [exact P|]. constructor; [exact I|]. constructor; [exact J|exact Q].
Qed.

Lemma reshape_size : forall A (a : nd A) s r, reshape s a = Ok r -> size s = size (sh a) /\ sh r = s.
Proof.
  intros A a s r H. unfold reshape in H. destruct (Nat.eqb_spec (size s) (size (sh a))); [|discriminate].
  injection H as <-. auto.
Qed.

Lemma sh_split : forall (s : list nat) k n, nth_error s k = Some n ->
  s = firstn k s ++ n :: skipn (S k) s.
Proof.
  induction s as [|x s IH]; intros [|k] n H; cbn in H; try discriminate.
  - injection H as <-. reflexivity.
  - cbn. f_equal. now apply IH.
Qed.
