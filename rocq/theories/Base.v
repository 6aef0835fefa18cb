(** Common vocabulary of the model: Python exceptions as values, indexed maps
    and numpy slices over lists. *)
From Coq Require Import List Arith ZArith Bool Lia Sorted.
Import ListNotations.

(** Python exception classes raised by the modelled code. *)
Inductive err : Type :=
| ETypeError | EValueError | EIndexError | EKeyError | EAttributeError
| EZeroDivisionError | EOverflowError | ENotImplementedError | EAssertionError
| EUnboundLocalError | EException | EDuplicateAntenna | EAntennaName
| EAntennaIndex | EInconsistentShape.

(** Result of a call: a value or an exception. *)
Inductive res (A : Type) : Type :=
| Ok (a : A)
| Err (e : err).
Arguments Ok {A} a.
Arguments Err {A} e.

Definition bind {A B} (m : res A) (f : A -> res B) : res B :=
  match m with Ok a => f a | Err e => Err e end.

(** [imap f l] applies [f] to each index and element ([enumerate]). *)
Fixpoint imap_from {A B} (f : nat -> A -> B) (k : nat) (l : list A) : list B :=
  match l with
  | [] => []
  | x :: t => f k x :: imap_from f (S k) t
  end.
Definition imap {A B} (f : nat -> A -> B) (l : list A) : list B := imap_from f 0 l.

(** numpy [l[i:j] = v] for natural bounds (bounds beyond the end are clipped). *)
Definition in_range (i j k : nat) : bool := (i <=? k) && (k <? j).
Definition set_range {A} (i j : nat) (v : A) (l : list A) : list A :=
  imap (fun k x => if in_range i j k then v else x) l.

(** numpy [l[i:j] += v] for natural bounds. *)
Definition add_range (i j : nat) (v : Z) (l : list Z) : list Z :=
  imap (fun k x => if in_range i j k then (x + v)%Z else x) l.

(** Python normalisation of a slice bound [i] for a sequence of length [n]:
    negative bounds count from the end, everything is clipped to [0, n]. *)
Definition slice_bound (n : nat) (i : Z) : nat :=
  if (i <? 0)%Z then Z.to_nat (i + Z.of_nat n) else Nat.min (Z.to_nat i) n.

(** numpy [l[i:j] += v] for arbitrary integer bounds. *)
Definition py_add_slice (i j : Z) (v : Z) (l : list Z) : list Z :=
  add_range (slice_bound (length l) i) (slice_bound (length l) j) v l.

(** [l[k] = v] for a natural in-range index (no effect otherwise). *)
Definition upd {A} (k : nat) (v : A) (l : list A) : list A :=
  imap (fun i x => if i =? k then v else x) l.

(** Ceiling division, [int(np.ceil(a / b))] for [b > 0]. *)
Definition cdiv (a b : Z) : Z := (- ((- a) / b))%Z.

(** [np.all] / [np.any] over boolean lists are [forallb]/[existsb]. *)

(** ** Lemmas *)

Lemma imap_from_length : forall A B (f : nat -> A -> B) l k,
  length (imap_from f k l) = length l.
Proof. induction l as [|x t IH]; intros k; simpl; [reflexivity|now rewrite IH]. Qed.

Lemma imap_length : forall A B (f : nat -> A -> B) l, length (imap f l) = length l.
Proof. intros; apply imap_from_length. Qed.

Lemma nth_error_imap_from : forall A B (f : nat -> A -> B) l k i,
  nth_error (imap_from f k l) i = option_map (f (k + i)) (nth_error l i).
Proof.
  induction l as [|x t IH]; intros k [|i]; simpl; try reflexivity.
  - now rewrite Nat.add_0_r.
  - rewrite IH. now replace (S k + i) with (k + S i) by lia.
Qed.

Lemma nth_error_imap : forall A B (f : nat -> A -> B) l i,
  nth_error (imap f l) i = option_map (f i) (nth_error l i).
Proof. intros; unfold imap; now rewrite nth_error_imap_from. Qed.

Lemma nth_imap : forall A B (f : nat -> A -> B) l i d d',
  i < length l -> nth i (imap f l) d = f i (nth i l d').
Proof.
  intros A B f l i d d' H.
  assert (E : nth_error (imap f l) i = Some (f i (nth i l d'))).
  { rewrite nth_error_imap. rewrite (nth_error_nth' l d' H). reflexivity. }
  now apply nth_error_nth with (d := d) in E.
Qed.

Lemma set_range_length : forall A i j (v : A) l, length (set_range i j v l) = length l.
Proof. intros; apply imap_length. Qed.

Lemma add_range_length : forall i j v l, length (add_range i j v l) = length l.
Proof. intros; apply imap_length. Qed.

Lemma nth_set_range : forall A i j (v : A) l k d,
  k < length l ->
  nth k (set_range i j v l) d = if in_range i j k then v else nth k l d.
Proof. intros; unfold set_range. rewrite nth_imap with (d' := d) by assumption. reflexivity. Qed.

Lemma nth_add_range : forall i j v l k d,
  k < length l ->
  nth k (add_range i j v l) d = if in_range i j k then (nth k l d + v)%Z else nth k l d.
Proof. intros; unfold add_range. rewrite nth_imap with (d' := d) by assumption. reflexivity. Qed.

Lemma upd_length : forall A k (v : A) l, length (upd k v l) = length l.
Proof. intros; apply imap_length. Qed.

Lemma nth_upd : forall A k (v : A) l i d,
  i < length l -> nth i (upd k v l) d = if i =? k then v else nth i l d.
Proof. intros; unfold upd. rewrite nth_imap with (d' := d) by assumption. reflexivity. Qed.

Lemma nth_error_upd : forall A k (v : A) l i,
  nth_error (upd k v l) i =
  if i =? k then option_map (fun _ => v) (nth_error l i) else nth_error l i.
Proof.
  intros; unfold upd; rewrite nth_error_imap.
  destruct (i =? k); destruct (nth_error l i); reflexivity.
Qed.

Lemma in_range_true : forall i j k, in_range i j k = true <-> i <= k < j.
Proof.
  intros; unfold in_range; rewrite andb_true_iff, Nat.leb_le, Nat.ltb_lt; lia.
Qed.

Lemma in_range_false : forall i j k, in_range i j k = false <-> ~ (i <= k < j).
Proof.
  intros; rewrite <- not_true_iff_false, in_range_true; reflexivity.
Qed.

Lemma list_ext_nth : forall A (l l' : list A) d,
  length l = length l' ->
  (forall k, k < length l -> nth k l d = nth k l' d) -> l = l'.
Proof. intros; eapply nth_ext; eauto. Qed.

Lemma list_ext_error : forall A (l l' : list A),
  (forall k, nth_error l k = nth_error l' k) -> l = l'.
Proof.
  induction l as [|x t IH]; intros [|y t'] H; try reflexivity.
  - specialize (H 0); discriminate.
  - specialize (H 0); discriminate.
  - f_equal.
    + specialize (H 0); simpl in H; congruence.
    + apply IH; intros k; apply (H (S k)).
Qed.

Lemma cdiv_spec : forall a b, (0 < b)%Z -> (b * (cdiv a b - 1) < a <= b * cdiv a b)%Z.
Proof.
  intros a b Hb; unfold cdiv.
  pose proof (Z.div_mod (-a) b ltac:(lia)).
  pose proof (Z.mod_pos_bound (-a) b Hb).
  nia.
Qed.

Lemma StronglySorted_seq : forall n k, StronglySorted lt (seq k n).
Proof.
  induction n as [|n IH]; intros k; simpl; constructor.
  - apply IH.
  - apply Forall_forall; intros x Hx; apply in_seq in Hx; lia.
Qed.

Lemma StronglySorted_filter : forall A (R : A -> A -> Prop) f l,
  StronglySorted R l -> StronglySorted R (filter f l).
Proof.
  induction l as [|x t IH]; intros H; simpl; [constructor|].
  inversion H as [|? ? H1 H2]; subst.
  destruct (f x).
  - constructor; [now apply IH|].
    rewrite Forall_forall in *; intros y Hy; apply filter_In in Hy; now apply H2.
  - now apply IH.
Qed.
