(** Specification and proofs: correction of the polarisation with the solutions of DreamBeam. *)
From Coq Require Import List Arith ZArith QArith Qround Qabs Reals Lra Psatz Bool Lia.
From Verif Require Import Base M_Nd P_Nd M_TFArray P_TFArray M_Polar P_Polar P_Polar2 M_Dream P_Dream.
Import ListNotations.
Open Scope nat_scope.

(** Solution in time of sample [t]: that of its complete group of [g] samples, the last of
    [m] solutions after them; the first one if there is no complete group. *)
Definition in_time (T g m t : nat) : nat :=
  if T <? g then 0 else if t / g <? T / g then t / g else m - 1.
(** Number of samples of a group. *)
Definition group_of (T g : nat) : nat := Nat.min g T.

Lemma nearest_nat : forall x g, nearest x (Z.of_nat g) -> Z.to_nat (round_even x) = g.
Proof. intros x g H. rewrite (round_even_eq _ _ H). apply Nat2Z.id. Qed.
Lemma head_nth : forall (l : list nat), hd 0 l = nth 0 l 0.
Proof. now intros [|]. Qed.

Lemma spread_in : forall m i, i < m -> spread m i = i.
Proof. intros m i H. unfold spread. destruct (Nat.eqb_spec m 1); lia. Qed.
Lemma fits_same : forall m, fits m m = true.
Proof. intro. unfold fits. now rewrite Nat.eqb_refl. Qed.

Section Apply.
Variable dream : Q -> Q -> Q -> res solutions.
Variables (time frequency : list Q) (data : nd mat) (dt step : Q) (n g : nat).
Hypothesis Sh : sh data = [length time; length frequency].
Hypothesis T0 : 0 < length time.
Hypothesis F0 : 0 < length frequency.
Hypothesis N0 : 0 < n.
Hypothesis FN : length frequency mod n = 0.
Hypothesis G0 : 0 < g.
Hypothesis Ng : nearest (step / dt) (Z.of_nat g).
Notation T := (length time).
Notation F := (length frequency).
Notation sb := (F / n).
Notation tstep := (inject_Z (Z.of_nat (group_of T g)) * dt)%Q.
Notation duration := (last time 0%Q - nth 0 time 0%Q)%Q.
Notation start_of := (fun s => nth (s * n) frequency 0%Q).

Lemma F_eq : F = sb * n.
Proof. assert (D := Nat.div_mod F n ltac:(lia)). lia. Qed.
Lemma sb_pos : 0 < sb.
Proof. apply Nat.div_str_pos. split; [assumption|]. assert (D := F_eq). destruct (Nat.eq_dec sb 0) as [E|]; [rewrite E in D; lia|]. nia. Qed.

Lemma apply_short_step : (tstep <= 1)%Q -> apply_dreambeam dream time frequency data dt step n = Err EValueError.
Proof.
  intro H. unfold apply_dreambeam. rewrite Sh, !Nat.eqb_refl. cbn [negb].
  replace (n =? 0) with false by (symmetry; apply Nat.eqb_neq; lia). rewrite FN. cbn [Nat.eqb negb].
  rewrite (nearest_nat _ _ Ng).
  replace (g =? 0) with false by (symmetry; apply Nat.eqb_neq; lia).
  replace (T =? 0) with false by (symmetry; apply Nat.eqb_neq; lia).
  assert (E : (if T / g =? 0 then T else g) = group_of T g).
  { unfold group_of. destruct (Nat.lt_ge_cases T g) as [L|L].
    - rewrite Nat.div_small by assumption. cbn. lia.
    - assert (P := Nat.div_str_pos T g ltac:(lia)). replace (T / g =? 0) with false by (symmetry; apply Nat.eqb_neq; lia). lia. }
  cbv zeta. rewrite E. unfold compute_jones. rewrite qle_true by exact H. reflexivity.
Qed.

Variables (jt jf : list Q) (J : nat -> nat -> mat).
Hypothesis St : (1 < tstep)%Q.
Hypothesis Dr : dream (nth 0 time 0%Q) tstep duration = Ok (jt, jf, J).

(** Everything after the positions of the solutions. *)
Lemma apply_core : forall f0 f1 t0,
  window_start jf (start_of 0) = Ok f0 -> window_stop jf (start_of (sb - 1)) = Ok f1 ->
  window_start jt (nth 0 time 0%Q) = Ok t0 ->
  let groups := if T <? g then 1 else T / g in
  let ht := span (length jt) t0 (t0 + groups) in
  let hf := span (length jf) f0 (f1 + 1) in
  (any_singular J t0 ht f0 hf = true -> apply_dreambeam dream time frequency data dt step n = Err EException) /\
  (any_singular J t0 ht f0 hf = false -> fits ht groups && fits hf sb = false ->
     apply_dreambeam dream time frequency data dt step n = Err EValueError) /\
  (any_singular J t0 ht f0 hf = false -> fits ht groups && fits hf sb = true -> exists r,
     apply_dreambeam dream time frequency data dt step n = Ok r /\ sh r = [T; F] /\
     forall t f, t < T -> f < F -> get r [t; f] =
       if t / g <? groups then jones_apply (minv (J (t0 + spread ht (t / g)) (f0 + spread hf (f / n)))) (get data [t; f])
       else if any_singular J (length jt - 1) 1 f0 hf then get data [t; f]
       else jones_apply (minv (J (length jt - 1) (f0 + spread hf (f / n)))) (get data [t; f])).
Proof.
  intros f0 f1 t0 W0 W1 W2 groups ht hf.
  assert (Fe := F_eq).
  set (size := group_of T g). set (left := if T <? g then 0 else T mod g).
  assert (Mn : T - left = groups * size /\ 0 < size /\ groups * size <= T /\
     (forall t, t < groups * size -> t / g = t / size) /\ (forall t, t < T -> (t / g <? groups) = (t <? groups * size))
     /\ (T / g =? 0) = (T <? g)).
  { unfold groups, size, group_of, left. destruct (Nat.ltb_spec T g) as [L|L].
    - rewrite Nat.min_r by lia. split; [lia|]. split; [lia|]. split; [lia|].
      split; [intros t H; rewrite !Nat.div_small; lia|].
      split; [intros t H; rewrite Nat.div_small by lia; symmetry; apply Nat.ltb_lt; lia|].
      rewrite Nat.div_small by lia. reflexivity.
    - rewrite Nat.min_l by lia. assert (D := Nat.div_mod T g ltac:(lia)). assert (U := Nat.mod_upper_bound T g ltac:(lia)).
      split; [nia|]. split; [lia|]. split; [nia|]. split; [reflexivity|]. split.
      + intros t H. apply Bool.eq_true_iff_eq. rewrite !Nat.ltb_lt. split; intro Q.
        * assert (D1 := Nat.div_mod t g ltac:(lia)). assert (U1 := Nat.mod_upper_bound t g ltac:(lia)). nia.
        * apply Nat.div_lt_upper_bound; nia.
      + assert (P := Nat.div_str_pos T g ltac:(lia)). apply Nat.eqb_neq. lia. }
  destruct Mn as (M1 & M2 & M3 & M4 & M5 & M6).
  assert (Sh' : sh data = [T; sb * n]) by (rewrite Sh; congruence).
  assert (Start : apply_dreambeam dream time frequency data dt step n =
    (if any_singular J t0 ht f0 hf then Err EException
     else if negb (fits ht groups && fits hf sb) then Err EValueError
     else
      bind (reshape [groups; size; sb; n] (take_axis 0 (groups * size) data)) (fun d =>
      bind (reshape [groups * size; sb * n] (mkNd (sh d) (fun idx =>
         jones_apply (minv (J (t0 + spread ht (nth 0 idx 0)) (f0 + spread hf (nth 2 idx 0)))) (get d idx)))) (fun head =>
      if left =? 0 then Ok head
      else
        bind (reshape [left; sb; n] (mkNd [left; sb * n] (fun idx => get data ((hd 0 idx + groups * size) :: tl idx)))) (fun dl =>
        bind (reshape [left; sb * n] (mkNd (sh dl) (fun idx =>
           jones_apply (if any_singular J (length jt - 1) 1 f0 hf then id2 else minv (J (length jt - 1) (f0 + spread hf (nth 1 idx 0)))) (get dl idx)))) (fun tail =>
        Ok (mkNd [T; sb * n] (fun idx =>
          if hd 0 idx <? groups * size then get head idx
          else get tail ((hd 0 idx - groups * size) :: tl idx)))))))
     )).
  { unfold apply_dreambeam. rewrite Sh, !Nat.eqb_refl. cbn [negb].
    replace (n =? 0) with false by (symmetry; apply Nat.eqb_neq; lia). rewrite FN. cbn [Nat.eqb negb].
    rewrite (nearest_nat _ _ Ng).
    replace (g =? 0) with false by (symmetry; apply Nat.eqb_neq; lia).
    replace (T =? 0) with false by (symmetry; apply Nat.eqb_neq; lia).
    cbv zeta. rewrite M6.
    assert (E : (if T <? g then T else g) = size).
    { unfold size, group_of. destruct (Nat.ltb_spec T g); lia. }
    rewrite E. unfold compute_jones. rewrite qle_false by exact St. pose proof Dr as Dr1. fold size in Dr1. rewrite Dr1. cbn [bind].
    replace (F =? 0) with false by (symmetry; apply Nat.eqb_neq; lia).
    cbv beta in W0. rewrite Nat.mul_0_l in W0. rewrite W0. cbn [bind]. rewrite W1. cbn [bind]. rewrite W2. cbn [bind].
    fold groups. fold left. fold ht. fold hf. rewrite M1. rewrite <- Fe. reflexivity. }
  rewrite Start. split; [intros ->; reflexivity|]. split; [intros -> ->; reflexivity|]. intros -> ->. cbn [negb].
  destruct (cut_spec data T sb n Sh' N0 groups size M3 M2) as (d & Ed & Sd & Gd). rewrite Ed. cbn [bind].
  destruct (head_spec sb n N0 (fun a b => minv (J (t0 + spread ht a) (f0 + spread hf b))) d groups size M2 Sd) as (h & Eh & Sh1 & Gh).
  cbv beta in Eh. rewrite Eh. cbn [bind].
  assert (Gh' : forall t f, t < groups * size -> f < F -> get h [t; f] =
     jones_apply (minv (J (t0 + spread ht (t / g)) (f0 + spread hf (f / n)))) (get data [t; f])).
  { intros t f Ht Hf. rewrite Gh by (rewrite <- ?Fe; assumption). rewrite Gd by (rewrite <- ?Fe; assumption). now rewrite (M4 t Ht). }
  destruct (left =? 0) eqn:L0.
  - apply Nat.eqb_eq in L0. exists h. split; [reflexivity|]. split; [rewrite Sh1, Fe at 1; f_equal; [lia|congruence]|].
    intros t f Ht Hf. rewrite M5 by assumption. replace (t <? groups * size) with true by (symmetry; apply Nat.ltb_lt; lia).
    apply Gh'; [lia|assumption].
  - apply Nat.eqb_neq in L0.
    destruct (rest_spec data sb n N0 left (groups * size)) as (dl & El & Sl & Gl). rewrite El. cbn [bind].
    destruct (tail_spec sb n N0 (fun b => if any_singular J (length jt - 1) 1 f0 hf then id2 else minv (J (length jt - 1) (f0 + spread hf b))) dl left Sl)
      as (r & Er & Sr & Gr).
    cbv beta in Er. rewrite Er. cbn [bind]. eexists. split; [reflexivity|]. split; [cbn [sh]; now rewrite <- Fe|].
    intros t f Ht Hf. cbn [get hd tl]. rewrite M5 by assumption. destruct (Nat.ltb_spec t (groups * size)) as [C|C].
    + apply Gh'; assumption.
    + rewrite Gr by (rewrite <- ?Fe; lia). rewrite Gl by (rewrite <- ?Fe; lia).
      replace (t - groups * size + groups * size) with t by lia.
      destruct (any_singular J (length jt - 1) 1 f0 hf); [apply jones_id|reflexivity].
Qed.

Notation groups := (if T <? g then 1 else T / g).
Notation app := (apply_dreambeam dream time frequency data dt step n).
Hypothesis Tb : 0 < length jt /\ (nth 0 time 0 <= nth 0 jt 0)%Q.
Lemma start_time : window_start jt (nth 0 time 0%Q) = Ok 0.
Proof. apply start_at. split; [apply Tb|]. split; [apply Tb|]. intros j H. lia. Qed.
Lemma span_time : groups <= length jt -> span (length jt) 0 (0 + groups) = groups.
Proof. intro H. unfold span. cbn [Nat.add]. lia. Qed.
Lemma groups_pos : 0 < groups.
Proof. destruct (Nat.ltb_spec T g) as [L|L]; [lia|]. apply Nat.div_str_pos. lia. Qed.
Lemma sub_of : forall f, f < F -> f / n < sb.
Proof. intros f H. apply Nat.div_lt_upper_bound; [lia|]. assert (E := F_eq). lia. Qed.
Lemma in_time_eq : forall t, t < T -> in_time T g (length jt) t = if t / g <? groups then t / g else length jt - 1.
Proof.
  intros t H. unfold in_time. destruct (Nat.ltb_spec T g) as [L|L]; [|reflexivity].
  rewrite Nat.div_small by lia. reflexivity.
Qed.

Theorem apply_spec : forall k, ascending jf -> located jf start_of sb k -> 1 < k + sb -> groups <= length jt ->
  (forall i s, i < length jt -> s < sb -> invertible (J i (k + s))) ->
  exists r, app = Ok r /\ sh r = [T; F] /\
    forall t f, t < T -> f < F ->
      jones_apply (J (in_time T g (length jt) t) (k + f / n)) (get r [t; f]) = get data [t; f].
Proof.
  intros k A L K Gr I. destruct (window_spec jf start_of sb k A L sb_pos K) as (W0 & e & W1 & Sp).
  destruct (apply_core k e 0 W0 W1 start_time) as (_ & _ & C). rewrite (span_time Gr), Sp in C.
  destruct C as (r & E & Sr & R).
  - apply singular_none. intros t f Ht Hf. apply I; [cbn [Nat.add]; lia|lia].
  - now rewrite !fits_same.
  - exists r. split; [exact E|]. split; [exact Sr|]. intros t f Ht Hf. rewrite (R t f Ht Hf), in_time_eq by assumption.
    assert (Fs := sub_of f Hf). rewrite (spread_in sb) by assumption. destruct (Nat.ltb_spec (t / g) groups) as [B|B].
    + rewrite spread_in by assumption. cbn [Nat.add]. apply corrected. apply I; lia.
    + rewrite singular_none.
      * apply corrected, I; lia.
      * intros a b Ha Hb. replace a with 0 by lia. rewrite Nat.add_0_r. apply I; lia.
Qed.

(** What was received through the matrices is recovered: one solution per started group. *)
Theorem apply_recovers : forall k (E : nat -> nat -> mat), ascending jf -> located jf start_of sb k -> 1 < k + sb ->
  length jt = (T - 1) / g + 1 -> (forall i s, i < length jt -> s < sb -> invertible (J i (k + s))) ->
  (forall t f, t < T -> f < F -> get data [t; f] = jones_apply (J (t / g) (k + f / n)) (E t f)) ->
  exists r, app = Ok r /\ sh r = [T; F] /\ forall t f, t < T -> f < F -> get r [t; f] = E t f.
Proof.
  intros k E A L K Lj I D.
  assert (D1 := Nat.div_mod (T - 1) g ltac:(lia)). assert (U1 := Nat.mod_upper_bound (T - 1) g ltac:(lia)).
  assert (D2 := Nat.div_mod T g ltac:(lia)). assert (U2 := Nat.mod_upper_bound T g ltac:(lia)).
  assert (Le : forall t, t < T -> t / g <= (T - 1) / g) by (intros; apply Nat.div_le_mono; lia).
  destruct (apply_spec k A L K) as (r & Er & Sr & R).
  - destruct (Nat.ltb_spec T g); [lia|]. nia.
  - exact I.
  - exists r. split; [exact Er|]. split; [exact Sr|]. intros t f Ht Hf. specialize (R t f Ht Hf). rewrite (D t f Ht Hf) in R.
    assert (Q : in_time T g (length jt) t = t / g).
    { rewrite in_time_eq by assumption. destruct (Nat.ltb_spec (t / g) groups) as [B|B]; [reflexivity|]. rewrite Lj.
      specialize (Le t Ht). destruct (Nat.ltb_spec T g) as [C|C].
      - rewrite Nat.div_small in B by lia. lia.
      - assert ((T - 1) / g <= T / g) by (apply Nat.div_le_mono; lia). lia. }
    rewrite Q in R. apply (only_one (J (t / g) (k + f / n))); [|exact R].
    apply I; [rewrite Lj; specialize (Le t Ht); lia|now apply sub_of].
Qed.

(** A singular matrix of the groups is refused; one of the incomplete group leaves all of
    its samples as they are. *)
Theorem apply_singular : forall k i s, ascending jf -> located jf start_of sb k -> 1 < k + sb -> groups <= length jt ->
  i < groups -> s < sb -> ~ invertible (J i (k + s)) -> app = Err EException.
Proof.
  intros k i s A L K Gr Hi Hs I. destruct (window_spec jf start_of sb k A L sb_pos K) as (W0 & e & W1 & Sp).
  destruct (apply_core k e 0 W0 W1 start_time) as (C & _). rewrite (span_time Gr), Sp in C. apply C.
  now apply (singular_some J 0 _ k sb i s).
Qed.
Theorem apply_singular_end : forall k s, ascending jf -> located jf start_of sb k -> 1 < k + sb -> groups < length jt ->
  (forall i s, i < groups -> s < sb -> invertible (J i (k + s))) ->
  s < sb -> ~ invertible (J (length jt - 1) (k + s)) ->
  exists r, app = Ok r /\ sh r = [T; F] /\
    forall t f, t < T -> f < F -> if t / g <? groups then
        jones_apply (J (t / g) (k + f / n)) (get r [t; f]) = get data [t; f] else get r [t; f] = get data [t; f].
Proof.
  intros k s A L K Gr I Hs Si. destruct (window_spec jf start_of sb k A L sb_pos K) as (W0 & e & W1 & Sp).
  destruct (apply_core k e 0 W0 W1 start_time) as (_ & _ & C). rewrite (span_time ltac:(lia)), Sp in C.
  destruct C as (r & E & Sr & R).
  - apply singular_none. intros t f Ht Hf. now apply I.
  - now rewrite !fits_same.
  - exists r. split; [exact E|]. split; [exact Sr|]. intros t f Ht Hf. rewrite (R t f Ht Hf).
    assert (Fs := sub_of f Hf). rewrite (spread_in sb) by assumption. destruct (Nat.ltb_spec (t / g) groups) as [B|B].
    + rewrite spread_in by assumption. cbn [Nat.add]. now apply corrected, I.
    + rewrite (singular_some J (length jt - 1) 1 k sb 0 s); [reflexivity|lia|exact Hs|now rewrite Nat.add_0_r].
Qed.

(** A single sub-band at the first frequency of the solutions is refused. *)
Theorem apply_first : ascending jf -> first_from jf (start_of 0) 0 -> sb = 1 -> 1 < length jf -> groups <= length jt ->
  (forall i s, i < groups -> s < length jf -> invertible (J i s)) -> app = Err EValueError.
Proof.
  intros A L B H Gr I. destruct (window_first jf _ A L) as (W0 & W1).
  assert (W1' : window_stop jf (start_of (sb - 1)) = Ok (length jf)) by (rewrite B; exact W1).
  destruct (apply_core 0 (length jf) 0 W0 W1' start_time) as (_ & C & _). rewrite (span_time Gr) in C.
  assert (Sp : span (length jf) 0 (length jf + 1) = length jf) by (unfold span; lia). rewrite Sp in C. apply C.
  - apply singular_none. intros t f Ht Hf. now apply I.
  - rewrite fits_same, B. unfold fits. destruct (Nat.eqb_spec (length jf) 1); [lia|reflexivity].
Qed.
(** Data above all the frequencies of the solutions: as many solutions as sub-bands are
    applied in order all the same. *)
Theorem apply_beyond : 0 < length jf -> (forall i, i < length jf -> (nth i jf 0 < start_of 0%nat)%Q /\ (nth i jf 0 < start_of (sb - 1)%nat)%Q) ->
  length jf = sb -> groups <= length jt -> (forall i s, i < length jt -> s < sb -> invertible (J i s)) ->
  exists r, app = Ok r /\ sh r = [T; F] /\
    forall t f, t < T -> f < F -> jones_apply (J (in_time T g (length jt) t) (f / n)) (get r [t; f]) = get data [t; f].
Proof.
  intros P B Le Gr I. destruct (window_beyond jf (start_of 0) (start_of (sb - 1)) P) as (W0 & W1); [intros; now apply B|intros; now apply B|].
  destruct (apply_core 0 (length jf) 0 W0 W1 start_time) as (_ & _ & C). rewrite (span_time Gr) in C.
  assert (Sp : span (length jf) 0 (length jf + 1) = sb) by (unfold span; lia). rewrite Sp in C.
  destruct C as (r & E & Sr & R).
  - apply singular_none. intros t f Ht Hf. apply I; cbn [Nat.add]; lia.
  - now rewrite !fits_same.
  - exists r. split; [exact E|]. split; [exact Sr|]. intros t f Ht Hf. rewrite (R t f Ht Hf), in_time_eq by assumption.
    assert (Fs := sub_of f Hf). rewrite (spread_in sb) by assumption. cbn [Nat.add]. destruct (Nat.ltb_spec (t / g) groups) as [Bq|Bq].
    + rewrite spread_in by assumption. apply corrected. apply I; lia.
    + rewrite singular_none.
      * apply corrected, I; lia.
      * intros a b Ha Hb. replace a with 0 by lia. rewrite Nat.add_0_r. apply I; lia.
Qed.
(** Fewer solutions than groups: a single one is used for all, otherwise refused. *)
Theorem apply_few : forall k, ascending jf -> located jf start_of sb k -> 1 < k + sb -> 1 < length jt < groups ->
  (forall i s, i < length jt -> s < sb -> invertible (J i (k + s))) -> app = Err EValueError.
Proof.
  intros k A L K Gr I. destruct (window_spec jf start_of sb k A L sb_pos K) as (W0 & e & W1 & Sp).
  destruct (apply_core k e 0 W0 W1 start_time) as (_ & C & _). rewrite Sp in C.
  assert (Sq : span (length jt) 0 (0 + groups) = length jt) by (unfold span; cbn [Nat.add]; lia). rewrite Sq in C. apply C.
  - apply singular_none. intros t f Ht Hf. now apply I.
  - unfold fits at 1. destruct (Nat.eqb_spec (length jt) groups); [lia|]. destruct (Nat.eqb_spec (length jt) 1); [lia|reflexivity].
Qed.
Theorem apply_single : forall k, ascending jf -> located jf start_of sb k -> 1 < k + sb -> length jt = 1 ->
  (forall s, s < sb -> invertible (J 0 (k + s))) ->
  exists r, app = Ok r /\ sh r = [T; F] /\
    forall t f, t < T -> f < F -> jones_apply (J 0 (k + f / n)) (get r [t; f]) = get data [t; f].
Proof.
  intros k A L K Gr I. destruct (window_spec jf start_of sb k A L sb_pos K) as (W0 & e & W1 & Sp).
  destruct (apply_core k e 0 W0 W1 start_time) as (_ & _ & C). rewrite Sp in C. assert (P := groups_pos).
  assert (Sq : span (length jt) 0 (0 + groups) = 1) by (unfold span; cbn [Nat.add]; lia). rewrite Sq in C. rewrite Gr in C.
  change (1 - 1) with 0 in C. destruct C as (r & E & Sr & R).
  - apply singular_none. intros t f Ht Hf. replace t with 0 by lia. now apply I.
  - rewrite fits_same. unfold fits. now rewrite Nat.eqb_refl, orb_true_r.
  - exists r. split; [exact E|]. split; [exact Sr|]. intros t f Ht Hf. rewrite (R t f Ht Hf).
    assert (Fs := sub_of f Hf). rewrite (spread_in sb) by assumption. change (spread 1 (t / g)) with 0. rewrite Nat.add_0_l.
    rewrite singular_none.
    + destruct (t / g <? groups); now apply corrected, I.
    + intros a b Ha Hb. replace a with 0 by lia. now apply I.
Qed.
End Apply.

Theorem apply_refuses : forall dream time frequency data dt step n d0 d1, sh data = [d0; d1] ->
  (length time <> d0 -> apply_dreambeam dream time frequency data dt step n = Err EValueError) /\
  (length time = d0 -> length frequency <> d1 -> apply_dreambeam dream time frequency data dt step n = Err EValueError) /\
  (length time = d0 -> length frequency = d1 -> n = 0 -> apply_dreambeam dream time frequency data dt step n = Err EZeroDivisionError) /\
  (length time = d0 -> length frequency = d1 -> n <> 0 -> length frequency mod n <> 0 ->
     apply_dreambeam dream time frequency data dt step n = Err EValueError) /\
  (length time = d0 -> length frequency = d1 -> n <> 0 -> length frequency mod n = 0 -> nearest (step / dt) 0 ->
     apply_dreambeam dream time frequency data dt step n = Err EZeroDivisionError).
Proof.
  intros dream time frequency data dt step n d0 d1 Sh. unfold apply_dreambeam. rewrite Sh.
  split; [|split; [|split; [|split]]].
  - intro H. apply Nat.eqb_neq in H. now rewrite H.
  - intros -> H. apply Nat.eqb_neq in H. now rewrite Nat.eqb_refl, H.
  - intros -> -> ->. now rewrite !Nat.eqb_refl.
  - intros -> <- H1 H2. apply Nat.eqb_neq in H1, H2. now rewrite !Nat.eqb_refl, H1, H2.
  - intros -> <- H1 H2 H3. apply Nat.eqb_neq in H1. rewrite !Nat.eqb_refl, H1, H2. cbv zeta.
    rewrite (round_even_eq _ _ H3). reflexivity.
Qed.
