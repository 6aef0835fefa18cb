(** Proofs about Jones and Mueller matrices: [to_hermitian] (M_Jones.v). *)
From Coq Require Import Reals Bool List Arith Lia Lra Psatz.
From Verif Require Import Base M_Polar M_Beam P_Beam P_Beam2 M_Jones P_Jones P_Jones2 P_Jones3.
Import ListNotations.
Open Scope list_scope.
Open Scope R_scope.

Notation changed k := (mm4 (mm4 unitary_matrix k) unitary_matrix_inv).
Lemma changed_plus r (k k' : mat4) i j : (i < 4)%nat -> (j < 4)%nat ->
  changed (fun a b => cplus (cscale r (k a b)) (k' a b)) i j = cplus (cscale r (changed k i j)) (changed k' i j).
Proof.
  intros I J. rewrite !ucol by exact J. four j J; rewrite !urow by exact I; four i I; unfold half; apply cpx_eq; unf; field.
Qed.
Lemma changed_0 i j : (i < 4)%nat -> (j < 4)%nat -> changed (fun _ _ => (0, 0)) i j = (0, 0).
Proof. intros I J. rewrite !ucol by exact J. four j J; rewrite !urow by exact I; four i I; unfold half; apply cpx_eq; unf; field. Qed.
Lemma changed_sum {X} (c : X -> R) (k : X -> mat4) l i j : (i < 4)%nat -> (j < 4)%nat ->
  changed (fun a b => csum (map (fun x => cscale (c x) (k x a b)) l)) i j = csum (map (fun x => cscale (c x) (changed (k x) i j)) l).
Proof.
  intros I J. induction l as [|x l IH]; [exact (changed_0 i j I J)|]. cbn [map]. rewrite csum_cons, <- IH. rewrite <- (changed_plus (c x) (k x) _ i j I J). reflexivity.
Qed.
(** The matrix before the change of basis. *)
Definition kernel (m : rmat4) : mat4 := fun a b =>
  csum (map (fun p => cscale (m (fst p) (snd p)) (kron (pauli (fst p)) (mconj (pauli (snd p))) a b)) (list_prod (seq 0 4) (seq 0 4))).
Lemma to_hermitian_kernel m i j : (i < 4)%nat -> (j < 4)%nat -> to_hermitian m i j = cscale (1 / 4) (changed (kernel m) i j).
Proof.
  intros I J. unfold to_hermitian. f_equal. symmetry.
  exact (changed_sum (fun p => m (fst p) (snd p)) (fun p => kron (pauli (fst p)) (mconj (pauli (snd p)))) (list_prod (seq 0 4) (seq 0 4)) i j I J).
Qed.
Lemma re_csum l : re (csum l) = rsum (map re l) /\ im (csum l) = rsum (map im l).
Proof. induction l as [|x l [A B]]; [split; reflexivity|]. rewrite csum_cons. cbn [map]. change (rsum (re x :: map re l)) with (re x + rsum (map re l)). change (rsum (im x :: map im l)) with (im x + rsum (map im l)). rewrite <- A, <- B. split; reflexivity. Qed.
Lemma kernel_value (m : rmat4) a b : (a < 4)%nat -> (b < 4)%nat ->
  kernel m a b =
  match a, b with
  | 0%nat, 0%nat => (m 0%nat 0%nat + m 0%nat 1%nat + m 1%nat 0%nat + m 1%nat 1%nat, 0)
  | 1%nat, 1%nat => (m 0%nat 0%nat - m 0%nat 1%nat + m 1%nat 0%nat - m 1%nat 1%nat, 0)
  | 2%nat, 2%nat => (m 0%nat 0%nat + m 0%nat 1%nat - m 1%nat 0%nat - m 1%nat 1%nat, 0)
  | 3%nat, 3%nat => (m 0%nat 0%nat - m 0%nat 1%nat - m 1%nat 0%nat + m 1%nat 1%nat, 0)
  | 0%nat, 1%nat => (m 0%nat 2%nat + m 1%nat 2%nat, m 0%nat 3%nat + m 1%nat 3%nat)
  | 1%nat, 0%nat => (m 0%nat 2%nat + m 1%nat 2%nat, - (m 0%nat 3%nat + m 1%nat 3%nat))
  | 2%nat, 3%nat => (m 0%nat 2%nat - m 1%nat 2%nat, m 0%nat 3%nat - m 1%nat 3%nat)
  | 3%nat, 2%nat => (m 0%nat 2%nat - m 1%nat 2%nat, - (m 0%nat 3%nat - m 1%nat 3%nat))
  | 0%nat, 2%nat => (m 2%nat 0%nat + m 2%nat 1%nat, - (m 3%nat 0%nat + m 3%nat 1%nat))
  | 2%nat, 0%nat => (m 2%nat 0%nat + m 2%nat 1%nat, m 3%nat 0%nat + m 3%nat 1%nat)
  | 1%nat, 3%nat => (m 2%nat 0%nat - m 2%nat 1%nat, - (m 3%nat 0%nat - m 3%nat 1%nat))
  | 3%nat, 1%nat => (m 2%nat 0%nat - m 2%nat 1%nat, m 3%nat 0%nat - m 3%nat 1%nat)
  | 0%nat, 3%nat => (m 2%nat 2%nat + m 3%nat 3%nat, m 2%nat 3%nat - m 3%nat 2%nat)
  | 3%nat, 0%nat => (m 2%nat 2%nat + m 3%nat 3%nat, - (m 2%nat 3%nat - m 3%nat 2%nat))
  | 1%nat, 2%nat => (m 2%nat 2%nat - m 3%nat 3%nat, - (m 2%nat 3%nat + m 3%nat 2%nat))
  | _, _ => (m 2%nat 2%nat - m 3%nat 3%nat, m 2%nat 3%nat + m 3%nat 2%nat)
  end.
Proof.
  intros A B. apply cpx_eq; unfold kernel; [rewrite (proj1 (re_csum _))|rewrite (proj2 (re_csum _))]; cbn [list_prod seq app map fst snd]; unfold rsum; cbn [fold_right].
  all: four a A; four b B; unfold kron, pauli; cbn [Nat.div Nat.modulo Nat.divmod fst snd Nat.sub]; unf; ring.
Qed.
Ltac unfh H := rewrite !to_hermitian_kernel by (clear; lia); repeat rewrite ucol by (clear; lia); repeat rewrite urow by (clear; lia); repeat rewrite kernel_value by (clear; lia); unfold half; unf.
Theorem hermitian_symmetric : forall m a b, (a < 4)%nat -> (b < 4)%nat -> to_hermitian m b a = cconj (to_hermitian m a b).
Proof. intros m a b A B. four a A; four b B; unfh m; apply cpx_eq; cbn [re im fst snd]; field. Qed.
Theorem hermitian_trace : forall m, sum4 (fun k => to_hermitian m k k) = creal (m 0%nat 0%nat).
Proof. intros m. unfold sum4. unfh m. apply cpx_eq; cbn [re im fst snd]; field. Qed.
(** The matrix of a Jones matrix has rank one. *)
Definition jones_state (a : mat) (k : nat) : cpx :=
  match k with
  | O => cplus (m00 a) (m11 a)
  | 1%nat => cplus (m00 a) (cneg (m11 a))
  | 2%nat => cplus (m01 a) (m10 a)
  | _ => cmult ci (cplus (m01 a) (cneg (m10 a)))
  end.
Lemma kernel_pure j a b : (a < 4)%nat -> (b < 4)%nat -> kernel (mueller_of j) a b =
  cscale 2 (cmult (mget j (a / 2) (a mod 2)) (cconj (mget j (b / 2) (b mod 2)))).
Proof.
  intros A B. rewrite kernel_value by assumption. destruct j as [[a1 a2] [a3 a4] [a5 a6] [a7 a8]].
  four a A; four b B; unfold mueller_of; unf4; apply cpx_eq; cbn [re im fst snd]; field.
Qed.
Theorem hermitian_pure : forall j m a b, to_mueller j = Ok m -> (a < 4)%nat -> (b < 4)%nat ->
  to_hermitian m a b = cscale (1 / 4) (cmult (jones_state j a) (cconj (jones_state j b))).
Proof.
  intros j m a b E A B. rewrite to_mueller_of in E. injection E as <-. rewrite to_hermitian_kernel by assumption. f_equal.
  destruct j as [[a1 a2] [a3 a4] [a5 a6] [a7 a8]].
  four a A; four b B; repeat rewrite ucol by (clear; lia); repeat rewrite urow by (clear; lia); rewrite !kernel_pure by (clear; lia); unfold jones_state, half; cbn [Nat.div Nat.modulo Nat.divmod fst snd Nat.sub]; unf; apply cpx_eq; cbn [re im fst snd]; field.
Qed.
(** Nothing is lost. *)
Theorem hermitian_injective : forall m n, (forall a b, (a < 4)%nat -> (b < 4)%nat -> to_hermitian m a b = to_hermitian n a b) -> same4 m n.
Proof.
  intros m n H.
  assert (K : forall a b, (a < 4)%nat -> (b < 4)%nat -> kernel m a b = kernel n a b).
  { assert (C : forall a b, (a < 4)%nat -> (b < 4)%nat -> changed (kernel m) a b = changed (kernel n) a b).
    { intros a b A B. pose proof (H a b A B) as E. rewrite !to_hermitian_kernel in E by assumption. pose proof (f_equal re E) as E1. pose proof (f_equal im E) as E2. unfold cscale in E1, E2. cbn [re im fst snd] in E1, E2. apply cpx_eq; lra. }
    clear H. generalize dependent (kernel m). generalize (kernel n). intros k' k C.
    assert (R : forall a b, (a < 4)%nat -> (b < 4)%nat -> mm4 unitary_matrix k a b = mm4 unitary_matrix k' a b).
    { intros a b A B.
      pose proof (C a 0%nat A ltac:(lia)) as C0. pose proof (C a 1%nat A ltac:(lia)) as C1. pose proof (C a 2%nat A ltac:(lia)) as C2. pose proof (C a 3%nat A ltac:(lia)) as C3.
      rewrite !ucol in C0, C1, C2, C3 by (clear; lia). generalize dependent (mm4 unitary_matrix k a). generalize (mm4 unitary_matrix k' a). intros x' x C0 C1 C2 C3.
      unfold cscale, cmult, cplus, cneg, half in *. cbn [re im fst snd] in *. injection C0 as C0 C0'. injection C1 as C1 C1'. injection C2 as C2 C2'. injection C3 as C3 C3'. unfold re, im in *.
      four b B; apply cpx_eq; unfold re, im; lra. }
    intros a b A B.
    pose proof (R 0%nat b ltac:(lia) B) as C0. pose proof (R 1%nat b ltac:(lia) B) as C1. pose proof (R 2%nat b ltac:(lia) B) as C2. pose proof (R 3%nat b ltac:(lia) B) as C3.
    rewrite !urow in C0, C1, C2, C3 by (clear; lia). clear R C B.
    unfold cmult, cplus, cneg, ci in *. cbn [re im fst snd] in *. injection C0 as C0 C0'. injection C1 as C1 C1'. injection C2 as C2 C2'. injection C3 as C3 C3'. unfold re, im in *.
    four a A; apply cpx_eq; unfold re, im; lra. }
  clear H. intros i j I J.
  pose proof (K 0%nat 0%nat ltac:(lia) ltac:(lia)) as K00. pose proof (K 1%nat 1%nat ltac:(lia) ltac:(lia)) as K11. pose proof (K 2%nat 2%nat ltac:(lia) ltac:(lia)) as K22. pose proof (K 3%nat 3%nat ltac:(lia) ltac:(lia)) as K33.
  pose proof (K 0%nat 1%nat ltac:(lia) ltac:(lia)) as K01. pose proof (K 2%nat 3%nat ltac:(lia) ltac:(lia)) as K23. pose proof (K 2%nat 0%nat ltac:(lia) ltac:(lia)) as K20. pose proof (K 3%nat 1%nat ltac:(lia) ltac:(lia)) as K31.
  pose proof (K 0%nat 3%nat ltac:(lia) ltac:(lia)) as K03. pose proof (K 1%nat 2%nat ltac:(lia) ltac:(lia)) as K12. clear K.
  rewrite !kernel_value in K00, K11, K22, K33, K01, K23, K20, K31, K03, K12 by (clear; lia).
  injection K00 as K00. injection K11 as K11. injection K22 as K22. injection K33 as K33. injection K01 as K01 K01'. injection K23 as K23 K23'. injection K20 as K20 K20'. injection K31 as K31 K31'. injection K03 as K03 K03'. injection K12 as K12 K12'.
  four i I; four j J; lra.
Qed.
