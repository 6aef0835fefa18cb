(** Specification and proofs: matrices and their inverses, positions in the solutions. *)
From Coq Require Import List Arith ZArith QArith Qround Qabs Reals Lra Psatz Bool Lia.
From Verif Require Import Base M_Nd P_Nd M_TFArray P_TFArray M_Polar P_Polar P_Polar2 M_Dream.
Import ListNotations.
Open Scope nat_scope.

(** ** Matrices *)
(** Two sides: products with the unit matrix as result. *)
Definition invertible (a : mat) : Prop := exists b, mmul a b = id2 /\ mmul b a = id2.

Ltac mats := repeat match goal with a : mat |- _ => destruct a as [[? ?] [? ?] [? ?] [? ?]] | z : cpx |- _ => destruct z as [? ?] end.
Ltac opened := unfold jones_apply, mmul, mtrans, mconj, mat_of, mget, id2, det, csub, cneg, cplus, cmult, cconj, re, im in *; cbn [m00 m01 m10 m11 fst snd] in *.
Lemma cpx_eq : forall a b : cpx, fst a = fst b -> snd a = snd b -> a = b.
Proof. intros [a b] [c d]; cbn; intros; now subst. Qed.
Lemma mmul_assoc : forall a b c, mmul a (mmul b c) = mmul (mmul a b) c.
Proof. intros. mats. opened. f_equal; apply cpx_eq; cbn [fst snd]; ring. Qed.
Lemma adjoint_mul : forall a b, mconj (mtrans (mmul a b)) = mmul (mconj (mtrans b)) (mconj (mtrans a)).
Proof. intros. mats. opened. f_equal; apply cpx_eq; cbn [fst snd]; ring. Qed.
Lemma mmul_id_l : forall a, mmul id2 a = a.
Proof. intros. mats. opened. f_equal; apply cpx_eq; cbn [fst snd]; ring. Qed.
Lemma mmul_id_r : forall a, mmul a id2 = a.
Proof. intros. mats. opened. f_equal; apply cpx_eq; cbn [fst snd]; ring. Qed.
Lemma adjoint_id : mconj (mtrans id2) = id2.
Proof. opened. f_equal; apply cpx_eq; cbn [fst snd]; ring. Qed.
Lemma jones_twice : forall a b d, jones_apply a (jones_apply b d) = jones_apply (mmul a b) d.
Proof. intros. unfold jones_apply. rewrite adjoint_mul, !mmul_assoc. reflexivity. Qed.
Lemma jones_id : forall d, jones_apply id2 d = d.
Proof. intro. unfold jones_apply. now rewrite adjoint_id, mmul_id_r, mmul_id_l. Qed.
Lemma det_mul : forall a b, det (mmul a b) = cmult (det a) (det b).
Proof. intros. mats. opened. apply cpx_eq; cbn [fst snd]; ring. Qed.

Lemma singular_false : forall a, singular a = false -> (re (det a) <> 0 \/ im (det a) <> 0)%R.
Proof.
  intros a H. unfold singular in H. destruct (Req_EM_T (re (det a)) 0); [|now left].
  destruct (Req_EM_T (im (det a)) 0); [discriminate|now right].
Qed.
Lemma norm_pos : forall x y : R, (x <> 0 \/ y <> 0 -> x * x + y * y <> 0)%R.
Proof. intros x y [H|H]; nra. Qed.
Lemma cinv_l : forall z, (re z <> 0 \/ im z <> 0)%R -> cmult (cinv z) z = (1, 0)%R.
Proof.
  intros [x y] H. unfold re, im in H; cbn [fst snd] in H. apply norm_pos in H.
  unfold cmult, cinv, re, im; cbn [fst snd]. apply cpx_eq; cbn [fst snd]; field; exact H.
Qed.
Lemma scaled : forall a c, cmult c (det a) = (1, 0)%R ->
  mmul a (mat_of (fun i j => cmult c (mget (adjugate a) i j))) = id2 /\
  mmul (mat_of (fun i j => cmult c (mget (adjugate a) i j))) a = id2.
Proof.
  intros a c H. assert (H1 := f_equal fst H). assert (H2 := f_equal snd H). clear H. mats.
  unfold adjugate in *. opened. split; f_equal; apply cpx_eq; cbn [fst snd]; try (rewrite <- H1; ring); try (rewrite <- H2; ring); ring.
Qed.
Lemma minv_spec : forall a, singular a = false -> mmul a (minv a) = id2 /\ mmul (minv a) a = id2.
Proof. intros a H. apply scaled, cinv_l, singular_false, H. Qed.
Theorem singular_spec : forall a, singular a = false <-> invertible a.
Proof.
  intro a. split; [intro H; exists (minv a); now apply minv_spec|]. intros (b & B & _).
  destruct (singular a) eqn:E; [|reflexivity]. exfalso. unfold singular in E.
  destruct (Req_EM_T (re (det a)) 0) as [R|]; [|discriminate]. destruct (Req_EM_T (im (det a)) 0) as [I|]; [|discriminate].
  assert (D := det_mul a b). rewrite B in D. apply (f_equal fst) in D. unfold cmult in D. rewrite R, I in D.
  cbn [fst] in D. opened. lra.
Qed.
(** What the correction does: the value [e] with [a e aH = d]. *)
Lemma corrected : forall a d, invertible a -> jones_apply a (jones_apply (minv a) d) = d.
Proof. intros a d H. apply singular_spec, minv_spec in H. rewrite jones_twice, (proj1 H). apply jones_id. Qed.
Lemma undone : forall a d, invertible a -> jones_apply (minv a) (jones_apply a d) = d.
Proof. intros a d H. apply singular_spec, minv_spec in H. rewrite jones_twice, (proj2 H). apply jones_id. Qed.
Theorem only_one : forall a d e, invertible a -> jones_apply a d = jones_apply a e -> d = e.
Proof. intros a d e H E. rewrite <- (undone a d H), E. now apply undone. Qed.

(** ** Positions *)
(** Element [i] of the grid is the first one that is not before [v]. *)
Definition first_from (grid : list Q) (v : Q) (i : nat) : Prop :=
  i < length grid /\ (v <= nth i grid 0)%Q /\ forall j, j < i -> (nth j grid 0 < v)%Q.
(** The [n] starts have consecutive elements of the grid, from [k]. *)
Definition located (grid : list Q) (starts : nat -> Q) (n k : nat) : Prop :=
  forall s, s < n -> first_from grid (starts s) (k + s).
Definition ascending (l : list Q) : Prop := forall i j, i < j -> j < length l -> (nth i l 0 < nth j l 0)%Q.

Lemma first_true_spec : forall l k, k < length l -> nth k l false = true -> (forall i, i < k -> nth i l false = false) ->
  first_true l = Some k.
Proof.
  induction l as [|b l IH]; intros k K T F; [cbn in K; lia|]. destruct k.
  - cbn in T. now subst.
  - assert (B := F 0 ltac:(lia)). cbn in B. subst b. cbn. rewrite (IH k); [reflexivity|cbn in K; lia|exact T|].
    intros i I. exact (F (Datatypes.S i) ltac:(lia)).
Qed.
Lemma argmax_at : forall l k, k < length l -> nth k l false = true -> (forall i, i < k -> nth i l false = false) ->
  argmax_bool l = Ok k.
Proof. intros l k K T F. unfold argmax_bool. rewrite (first_true_spec l k K T F). destruct l; [cbn in K; lia|reflexivity]. Qed.
Lemma argmax_none : forall l, 0 < length l -> (forall i, nth i l false = false) -> argmax_bool l = Ok 0.
Proof.
  intros l K F. assert (E : first_true l = None).
  { clear K. induction l as [|b l IH]; [reflexivity|]. assert (B := F 0). cbn in B. subst b. cbn. rewrite IH; [reflexivity|].
    intro i. exact (F (Datatypes.S i)). }
  unfold argmax_bool. rewrite E. destruct l; [cbn in K; lia|reflexivity].
Qed.
Lemma nth_mapb : forall (f : Q -> bool) l i, i < length l -> nth i (map f l) false = f (nth i l 0%Q).
Proof. intros f l i I. rewrite (nth_indep _ false (f 0%Q)) by now rewrite map_length. apply map_nth. Qed.
Lemma qle_true : forall a b, (a <= b)%Q -> Qle_bool a b = true.
Proof. intros. now apply Qle_bool_iff. Qed.
Lemma qle_false : forall a b, (b < a)%Q -> Qle_bool a b = false.
Proof. intros a b H. destruct (Qle_bool a b) eqn:E; [|reflexivity]. apply Qle_bool_iff in E. exfalso. lra. Qed.
Lemma start_at : forall grid v i, first_from grid v i -> window_start grid v = Ok i.
Proof.
  intros grid v i (I & V & B). unfold window_start, at_least. apply argmax_at.
  - now rewrite map_length.
  - rewrite nth_mapb by assumption. now apply qle_true.
  - intros j J. rewrite nth_mapb by lia. apply qle_false. now apply B.
Qed.
Lemma stop_at : forall grid v i, i < length grid -> (nth i grid 0 < v)%Q ->
  (forall j, i < j -> j < length grid -> (v <= nth j grid 0)%Q) -> window_stop grid v = Ok (Datatypes.S i).
Proof.
  intros grid v i I V A. unfold window_stop, under.
  rewrite (argmax_at _ (length grid - 1 - i)).
  - cbn [bind]. f_equal. lia.
  - rewrite map_length, rev_length. lia.
  - rewrite nth_mapb by (rewrite rev_length; lia). rewrite rev_nth by lia.
    replace (length grid - Datatypes.S (length grid - 1 - i)) with i by lia. now rewrite qle_false.
  - intros j J. rewrite nth_mapb by (rewrite rev_length; lia). rewrite rev_nth by lia. rewrite qle_true; [reflexivity|].
    apply A; lia.
Qed.
Lemma stop_none : forall grid v, 0 < length grid -> (forall j, j < length grid -> (v <= nth j grid 0)%Q) ->
  window_stop grid v = Ok (length grid).
Proof.
  intros grid v L A. unfold window_stop, under. rewrite argmax_none.
  - cbn [bind]. f_equal. lia.
  - now rewrite map_length, rev_length.
  - intro i. destruct (Nat.lt_ge_cases i (length grid)) as [I|I].
    + rewrite nth_mapb by (rewrite rev_length; lia). rewrite rev_nth by lia. rewrite qle_true; [reflexivity|]. apply A. lia.
    + apply nth_overflow. rewrite map_length, rev_length. exact I.
Qed.
(** The window of located starts: exactly their elements, except for a single start at the
    first element. *)
Lemma window_spec : forall grid starts n k, ascending grid -> located grid starts n k -> 0 < n -> 1 < k + n ->
  window_start grid (starts 0) = Ok k /\ exists e, window_stop grid (starts (n - 1)) = Ok e /\
  span (length grid) k (e + 1) = n.
Proof.
  intros grid starts n k A L N K. assert (L0 := L 0 N). rewrite Nat.add_0_r in L0. split; [now apply start_at|].
  destruct (L (n - 1) ltac:(lia)) as (I & V & B). exists (k + n - 1). split.
  - rewrite (stop_at grid _ (k + n - 2)); [f_equal; lia|lia|apply B; lia|].
    intros j J1 J2. destruct (Nat.eq_dec j (k + (n - 1))) as [->|D]; [exact V|].
    assert (C := A (k + (n - 1)) j ltac:(lia) J2). lra.
  - unfold span. lia.
Qed.
(** A single start located at the first element: the window is the whole grid. *)
Lemma window_first : forall grid v, ascending grid -> first_from grid v 0 ->
  window_start grid v = Ok 0 /\ window_stop grid v = Ok (length grid).
Proof.
  intros grid v A F. split; [now apply start_at|]. destruct F as (I & V & _). apply stop_none; [exact I|].
  intros j J. destruct j; [exact V|]. assert (C := A 0 (Datatypes.S j) ltac:(lia) J). lra.
Qed.
(** Every element of the grid is before the starts: the window is the whole grid. *)
Lemma window_beyond : forall grid v w, 0 < length grid -> (forall i, i < length grid -> (nth i grid 0 < v)%Q) ->
  (forall i, i < length grid -> (nth i grid 0 < w)%Q) ->
  window_start grid v = Ok 0 /\ window_stop grid w = Ok (length grid).
Proof.
  intros grid v w L B C. split.
  - unfold window_start, at_least. apply argmax_none; [now rewrite map_length|]. intro i.
    destruct (Nat.lt_ge_cases i (length grid)) as [I|I].
    + rewrite nth_mapb by assumption. apply qle_false, B, I.
    + apply nth_overflow. now rewrite map_length.
  - rewrite (stop_at grid w (length grid - 1)); [f_equal; lia|lia|apply C; lia|]. intros j J1 J2. lia.
Qed.
Lemma singular_none : forall j t0 nt f0 nf, (forall t f, t < nt -> f < nf -> invertible (j (t0 + t) (f0 + f))) ->
  any_singular j t0 nt f0 nf = false.
Proof.
  intros j t0 nt f0 nf H. unfold any_singular. apply Bool.not_true_is_false. intro E.
  apply existsb_exists in E as (t & T & E). apply existsb_exists in E as (f & F & E).
  apply in_seq in T. apply in_seq in F. assert (I := H t f ltac:(lia) ltac:(lia)). apply singular_spec in I. congruence.
Qed.
Lemma singular_some : forall j t0 nt f0 nf t f, t < nt -> f < nf -> ~ invertible (j (t0 + t) (f0 + f)) ->
  any_singular j t0 nt f0 nf = true.
Proof.
  intros j t0 nt f0 nf t f T F H. unfold any_singular. apply existsb_exists. exists t. split; [apply in_seq; lia|].
  apply existsb_exists. exists f. split; [apply in_seq; lia|]. destruct (singular (j (t0 + t) (f0 + f))) eqn:E; [reflexivity|].
  apply singular_spec in E. contradiction.
Qed.

(** ** Groups of samples *)
Section Groups.
Variables (data : nd mat) (T sb n : nat).
Hypothesis Sh : sh data = [T; sb * n].
Hypothesis N : 0 < n.
Lemma cut_spec : forall k s, k * s <= T -> 0 < s -> exists d,
  reshape [k; s; sb; n] (take_axis 0 (k * s) data) = Ok d /\ sh d = [k; s; sb; n] /\
  forall t f, t < k * s -> f < sb * n -> get d [t / s; t mod s; f / n; f mod n] = get data [t; f].
Proof.
  intros k s K Sp.
  assert (St : sh (take_axis 0 (k * s) data) = [k * s; sb * n]).
  { unfold take_axis; cbn [sh]. rewrite Sh. cbn. f_equal. lia. }
  destruct (reshape_ok _ (take_axis 0 (k * s) data) [k; s; sb; n]) as (d & Ed & Sd).
  { rewrite St. rewrite size2. unfold size; cbn [fold_right]. lia. }
  exists d. split; [exact Ed|]. split; [exact Sd|]. intros t f Ht Hf.
  destruct (group_ravel k s sb n t f) as [I1 I2]; try lia.
  rewrite (reshape_at _ _ _ _ [t / s; t mod s; f / n; f mod n] [t; f] Ed); [reflexivity| |].
  - rewrite St. apply inside2; [assumption|assumption|constructor].
  - rewrite St. exact I2.
Qed.
Lemma head_spec : forall (J : nat -> nat -> mat) d k s, 0 < s -> sh d = [k; s; sb; n] -> exists h,
  reshape [k * s; sb * n] (mkNd (sh d) (fun idx => jones_apply (J (nth 0 idx 0) (nth 2 idx 0)) (get d idx))) = Ok h /\
  sh h = [k * s; sb * n] /\
  forall t f, t < k * s -> f < sb * n -> get h [t; f] = jones_apply (J (t / s) (f / n)) (get d [t / s; t mod s; f / n; f mod n]).
Proof.
  intros J d k s Sp Sd. set (dj := mkNd (sh d) _).
  destruct (reshape_ok _ dj [k * s; sb * n]) as (h & Eh & Hh).
  { unfold dj; cbn [sh]. rewrite Sd, size2. unfold size; cbn [fold_right]. lia. }
  exists h. split; [exact Eh|]. split; [exact Hh|]. intros t f Ht Hf. destruct (group_ravel k s sb n t f) as [I1 I2]; try lia.
  rewrite (reshape_at _ _ _ _ [t; f] [t / s; t mod s; f / n; f mod n] Eh).
  - reflexivity.
  - unfold dj; cbn [sh]. now rewrite Sd.
  - unfold dj; cbn [sh]. rewrite Sd. now symmetry.
Qed.
Lemma rest_spec : forall l c, exists dl,
  reshape [l; sb; n] (mkNd [l; sb * n] (fun idx => get data ((hd 0 idx + c) :: tl idx))) = Ok dl /\
  sh dl = [l; sb; n] /\
  forall t f, t < l -> f < sb * n -> get dl [t; f / n; f mod n] = get data [t + c; f].
Proof.
  intros l c. set (d0 := mkNd [l; sb * n] _).
  destruct (reshape_ok _ d0 [l; sb; n]) as (dl & El & Sl).
  { unfold d0; cbn [sh]. rewrite size2. unfold size; cbn [fold_right]. lia. }
  exists dl. split; [exact El|]. split; [exact Sl|]. intros t f Ht Hf. destruct (sample_ravel l sb n t f) as [I1 I2]; try lia.
  rewrite (reshape_at _ _ _ _ [t; f / n; f mod n] [t; f] El).
  - reflexivity.
  - unfold d0; cbn [sh]. apply inside2; [lia|lia|constructor].
  - exact I2.
Qed.
Lemma tail_spec : forall (J : nat -> mat) dl l, sh dl = [l; sb; n] -> exists r,
  reshape [l; sb * n] (mkNd (sh dl) (fun idx => jones_apply (J (nth 1 idx 0)) (get dl idx))) = Ok r /\
  sh r = [l; sb * n] /\
  forall t f, t < l -> f < sb * n -> get r [t; f] = jones_apply (J (f / n)) (get dl [t; f / n; f mod n]).
Proof.
  intros J dl l Sl. set (dj := mkNd (sh dl) _).
  destruct (reshape_ok _ dj [l; sb * n]) as (r & Er & Hr).
  { unfold dj; cbn [sh]. rewrite Sl, size2. unfold size; cbn [fold_right]. lia. }
  exists r. split; [exact Er|]. split; [exact Hr|]. intros t f Ht Hf. destruct (sample_ravel l sb n t f) as [I1 I2]; try lia.
  rewrite (reshape_at _ _ _ _ [t; f] [t; f / n; f mod n] Er).
  - reflexivity.
  - unfold dj; cbn [sh]. now rewrite Sl.
  - unfold dj; cbn [sh]. rewrite Sl. now symmetry.
Qed.
End Groups.
