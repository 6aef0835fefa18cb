(** Specification and proofs: correction of the parallactic rotation. *)
From Coq Require Import ZArith QArith Qround Qabs Reals Lra Psatz Bool List Arith Lia.
From Verif Require Import Base M_Nd P_Nd M_TFArray P_TFArray M_Polar P_Polar.
Import ListNotations.
Open Scope nat_scope.
Open Scope list_scope.

(** [z] is the integer nearest to [x], the even one of two equally near. *)
Definition nearest (x : Q) (z : Z) : Prop :=
  (Qabs (x - inject_Z z) < 1 # 2)%Q \/ ((Qabs (x - inject_Z z) == 1 # 2)%Q /\ Z.even z = true).

Lemma round_even_nearest : forall x, nearest x (round_even x).
Proof.
  intro x. unfold round_even, nearest. pose proof (Qfloor_le x) as A. pose proof (Qlt_floor x) as B.
  set (f := Qfloor x) in *. rewrite inject_Z_plus in B.
  destruct (Qcompare_spec (x - inject_Z f) (1 # 2)) as [E|E|E].
  - destruct (Z.even f) eqn:V.
    + right. split; [|exact V]. rewrite E. reflexivity.
    + right. split; [|rewrite Z.even_add, V; reflexivity].
      rewrite inject_Z_plus. assert (K : (x - (inject_Z f + inject_Z 1) == - (1 # 2))%Q) by (change (inject_Z 1) with 1%Q; lra).
      rewrite K. reflexivity.
  - left. apply Qabs_Qlt_condition. change (inject_Z 1) with 1%Q in B. split; lra.
  - left. rewrite inject_Z_plus. apply Qabs_Qlt_condition. change (inject_Z 1) with 1%Q in *. split; lra.
Qed.
Lemma Qabs_le : forall x y, (Qabs x <= y)%Q -> (- y <= x <= y)%Q.
Proof. intros x y H. now apply Qabs_Qle_condition. Qed.
Lemma nearest_le : forall x z, nearest x z -> (- (1 # 2) <= x - inject_Z z <= 1 # 2)%Q.
Proof. intros x z [H|[H _]]; apply Qabs_le; lra. Qed.
Lemma inject_near : forall a b, (inject_Z a - inject_Z b < 1)%Q -> (a <= b)%Z.
Proof.
  intros a b H. unfold Qlt, inject_Z, Qminus, Qplus, Qopp in H. simpl in H. lia.
Qed.
Lemma nearest_unique : forall x y z, nearest x y -> nearest x z -> y = z.
Proof.
  assert (W : forall x y z, nearest x y -> nearest x z -> (y <= z)%Z).
  { intros x y z Y Z. pose proof (nearest_le _ _ Y) as A. pose proof (nearest_le _ _ Z) as B.
    destruct (Qlt_le_dec (inject_Z y - inject_Z z) 1) as [L|L]; [now apply inject_near|].
    (* both at one half: y = z + 1, both even *)
    exfalso. destruct Y as [Y|[_ Y]]; [apply Qabs_Qlt_condition in Y; lra|].
    destruct Z as [Z|[_ Z]]; [apply Qabs_Qlt_condition in Z; lra|].
    assert (E : (inject_Z y == inject_Z (z + 1))%Q) by (rewrite inject_Z_plus; change (inject_Z 1) with 1%Q; lra).
    apply (proj1 (inject_Z_injective _ _)) in E. subst y. rewrite Z.even_add, Z in Y. discriminate. }
  intros x y z Y Z. apply Z.le_antisymm; eapply W; eauto.
Qed.
Lemma round_even_eq : forall x z, nearest x z -> round_even x = z.
Proof. intros x z H. eapply nearest_unique; [apply round_even_nearest|exact H]. Qed.

Lemma jones_turned : forall a d, jones_apply (mtrans (rotation a)) d = turned (- a) d.
Proof.
  intros a [[a1 a2] [b1 b2] [c1 c2] [d1 d2]]. unfold jones_apply. mat_unfold. rewrite cos_neg, sin_neg.
  f_equal; apply injective_projections; cbn [fst snd]; ring.
Qed.

(** The time of the solution applied to the sample [t]: that of the beginning of
    its group of [g] samples, counted from the first sample at the nominal step. *)
Definition solution_time (t0 dt : Q) (g t : nat) : Q :=
  (t0 + inject_Z (Z.of_nat (t / g * g)) * dt)%Q.

Lemma group_ravel : forall k g sb c t f, 0 < g -> 0 < c -> t < k * g -> f < sb * c ->
  inside [k; g; sb; c] [t / g; t mod g; f / c; f mod c] /\
  ravel [k; g; sb; c] [t / g; t mod g; f / c; f mod c] = ravel [k * g; sb * c] [t; f].
Proof.
  intros k g sb c t f G C T F.
  assert (A := Nat.div_mod t g ltac:(lia)). assert (B := Nat.div_mod f c ltac:(lia)).
  assert (A1 := Nat.mod_upper_bound t g ltac:(lia)). assert (B1 := Nat.mod_upper_bound f c ltac:(lia)).
  assert (A2 : t / g < k) by (apply Nat.div_lt_upper_bound; lia).
  assert (B2 : f / c < sb) by (apply Nat.div_lt_upper_bound; lia).
  split; [repeat (apply Forall2_cons; [assumption|]); apply Forall2_nil|].
  cbn [ravel]. unfold size; cbn [fold_right]. rewrite !Nat.mul_1_r, !Nat.add_0_r.
  rewrite A at 3. rewrite B at 3. nia.
Qed.

Lemma size2 : forall a b, size [a; b] = a * b.
Proof. intros. unfold size; cbn [fold_right]. lia. Qed.
Lemma sample_ravel : forall m sb c t f, 0 < c -> t < m -> f < sb * c ->
  inside [m; sb; c] [t; f / c; f mod c] /\ ravel [m; sb; c] [t; f / c; f mod c] = ravel [m; sb * c] [t; f].
Proof.
  intros m sb c t f C T F. assert (B := Nat.div_mod f c ltac:(lia)).
  assert (B1 := Nat.mod_upper_bound f c ltac:(lia)).
  assert (B2 : f / c < sb) by (apply Nat.div_lt_upper_bound; lia).
  split; [repeat (apply Forall2_cons; [assumption|]); apply Forall2_nil|].
  cbn [ravel]. unfold size; cbn [fold_right]. rewrite !Nat.mul_1_r, !Nat.add_0_r. rewrite B at 3. nia.
Qed.
Lemma body : forall (J : nat -> mat) (data : nd mat) T sb n k s l,
  sh data = [T; sb * n] -> T = k * s + l -> l < s -> 0 < n -> exists r,
  bind (reshape [k; s; sb; n] (take_axis 0 (T - l) data)) (fun d =>
  bind (reshape [T - l; sb * n] (mkNd (sh d) (fun idx => jones_apply (J (hd 0 idx)) (get d idx)))) (fun head =>
  if l =? 0 then Ok head else
  bind (reshape [l; sb; n] (mkNd [l; sb * n] (fun idx => get data ((hd 0 idx + (T - l)) :: tl idx)))) (fun dl =>
  bind (reshape [l; sb * n] (nmap (jones_apply (J k)) dl)) (fun tail =>
  Ok (mkNd [T; sb * n] (fun idx => if hd 0 idx <? T - l then get head idx
        else get tail ((hd 0 idx - (T - l)) :: tl idx))))))) = Ok r /\
  sh r = [T; sb * n] /\
  forall t f, t < T -> f < sb * n -> get r [t; f] = jones_apply (J (t / s)) (get data [t; f]).
Proof.
  intros J data T sb n k s l Sh E L N.
  assert (M : T - l = k * s) by lia. rewrite M.
  assert (St : sh (take_axis 0 (k * s) data) = [k * s; sb * n]).
  { unfold take_axis; cbn [sh]. rewrite Sh. cbn. f_equal. lia. }
  destruct (reshape_ok _ (take_axis 0 (k * s) data) [k; s; sb; n]) as (d & Ed & Sd).
  { rewrite St. rewrite size2. unfold size; cbn [fold_right]. lia. }
  rewrite Ed. cbn [bind].
  assert (Gd : forall t f, t < k * s -> f < sb * n ->
    get d [t / s; t mod s; f / n; f mod n] = get data [t; f]).
  { intros t f Ht Hf. destruct (group_ravel k s sb n t f) as [I1 I2]; try lia.
    rewrite (reshape_at _ _ _ _ [t / s; t mod s; f / n; f mod n] [t; f] Ed); [reflexivity| |].
    - rewrite St. apply inside2; [assumption|assumption|constructor].
    - rewrite St. exact I2. }
  set (dj := mkNd (sh d) _).
  destruct (reshape_ok _ dj [k * s; sb * n]) as (head & Eh & Hh).
  { unfold dj; cbn [sh]. rewrite Sd, size2. unfold size; cbn [fold_right]. lia. }
  rewrite Eh. cbn [bind].
  assert (Gh : forall t f, t < k * s -> f < sb * n ->
    get head [t; f] = jones_apply (J (t / s)) (get data [t; f])).
  { intros t f Ht Hf. destruct (group_ravel k s sb n t f) as [I1 I2]; try lia.
    rewrite (reshape_at _ _ _ _ [t; f] [t / s; t mod s; f / n; f mod n] Eh).
    - unfold dj; cbn [get hd]. now rewrite Gd.
    - unfold dj; cbn [sh]. now rewrite Sd.
    - unfold dj; cbn [sh]. rewrite Sd. now symmetry. }
  destruct (l =? 0) eqn:L0.
  - apply Nat.eqb_eq in L0. exists head. split; [reflexivity|]. split; [rewrite Hh; f_equal; lia|].
    intros t f Ht Hf. apply Gh; lia.
  - clear L0. set (dl0 := mkNd [l; sb * n] _).
    destruct (reshape_ok _ dl0 [l; sb; n]) as (dl & El & Sl).
    { unfold dl0; cbn [sh]. rewrite size2. unfold size; cbn [fold_right]. lia. }
    rewrite El. cbn [bind].
    destruct (reshape_ok _ (nmap (jones_apply (J k)) dl) [l; sb * n]) as (tail & Et & Stl).
    { unfold nmap; cbn [sh]. rewrite Sl, size2. unfold size; cbn [fold_right]. lia. }
    rewrite Et. cbn [bind]. eexists. split; [reflexivity|]. split; [reflexivity|].
    intros t f Ht Hf. cbn [get hd tl]. destruct (t <? k * s) eqn:C.
    + apply Nat.ltb_lt in C. now apply Gh.
    + apply Nat.ltb_ge in C. destruct (sample_ravel l sb n (t - k * s) f) as [I1 I2]; try lia.
      rewrite (reshape_at _ _ _ _ [t - k * s; f] [t - k * s; f / n; f mod n] Et).
      * unfold nmap; cbn [get].
        rewrite (reshape_at _ _ _ _ [t - k * s; f / n; f mod n] [t - k * s; f] El).
        -- unfold dl0; cbn [get hd tl]. replace (t / s) with k; [do 3 f_equal; lia|].
           apply Nat.div_unique with (t - k * s); lia.
        -- unfold dl0; cbn [sh]. apply inside2; [lia|lia|constructor].
        -- exact I2.
      * unfold nmap; cbn [sh]. now rewrite Sl.
      * unfold nmap; cbn [sh]. rewrite Sl. now symmetry.
Qed.

Theorem parallactic_spec : forall angle time F data dt step n g,
  sh data = [length time; F] -> 0 < length time -> 0 < n -> F mod n = 0 ->
  nearest (step / dt) (Z.of_nat g) -> 0 < g ->
  exists r, correct_parallactic angle time F data dt step n = Ok r /\ sh r = [length time; F] /\
    forall t f, t < length time -> f < F ->
      get r [t; f] = turned (- angle (solution_time (nth 0 time 0%Q) dt g t)) (get data [t; f]).
Proof.
  intros angle time F data dt step n g Sh Tp N D G Gp. unfold correct_parallactic. rewrite Sh, !Nat.eqb_refl.
  cbn [negb]. destruct (n =? 0) eqn:N0; [apply Nat.eqb_eq in N0; lia|]. rewrite D, Nat.eqb_refl. cbn [negb].
  rewrite (round_even_eq _ _ G), Nat2Z.id. destruct (g =? 0) eqn:G0; [apply Nat.eqb_eq in G0; lia|].
  destruct (length time =? 0) eqn:T0; [apply Nat.eqb_eq in T0; lia|]. clear N0 G0 T0 G.
  set (T := length time) in *.
  assert (EF : F = F / n * n) by (assert (K := Nat.div_mod F n ltac:(lia)); lia).
  assert (DT := Nat.div_mod T g ltac:(lia)). assert (MT := Nat.mod_upper_bound T g ltac:(lia)).
  destruct (T / g =? 0) eqn:Sm.
  - apply Nat.eqb_eq in Sm. assert (T < g) by (rewrite Sm in DT; lia).
    destruct (body (fun k => parallactic_jones angle (nth 0%nat time 0 + inject_Z (Z.of_nat (k * T)) * dt)%Q)
      data T (F / n) n 1 T 0) as (r & R1 & R2 & R3); try lia.
    { rewrite <- EF. exact Sh. }
    rewrite <- EF in R1, R2, R3. rewrite Nat.eqb_refl in *. rewrite R1. exists r. split; [reflexivity|].
    split; [exact R2|]. intros t f Ht Hf. rewrite (R3 t f Ht Hf). unfold parallactic_jones, solution_time.
    rewrite jones_turned, !Nat.div_small by lia. reflexivity.
  - clear Sm.
    destruct (body (fun k => parallactic_jones angle (nth 0%nat time 0 + inject_Z (Z.of_nat (k * g)) * dt)%Q)
      data T (F / n) n (T / g) g (T mod g)) as (r & R1 & R2 & R3); try lia.
    { rewrite <- EF. exact Sh. }
    rewrite <- EF in R1, R2, R3. rewrite R1. exists r. split; [reflexivity|].
    split; [exact R2|]. intros t f Ht Hf. rewrite (R3 t f Ht Hf). unfold parallactic_jones, solution_time.
    now rewrite jones_turned.
Qed.

(** With uniform times the solution is the one of the first sample of the group. *)
Theorem solution_uniform : forall time dt g t, 0 < g -> t < length time ->
  (forall k, k < length time -> (nth k time 0 == nth 0%nat time 0 + inject_Z (Z.of_nat k) * dt)%Q) ->
  Qeq (solution_time (nth 0 time 0%Q) dt g t) (nth (t / g * g) time 0%Q).
Proof.
  intros time dt g t G T U. unfold solution_time. rewrite <- U; [reflexivity|].
  assert (K := Nat.mul_div_le t g ltac:(lia)). lia.
Qed.
Theorem parallactic_stokes : forall angle time F data dt step n g r,
  sh data = [length time; F] -> 0 < length time -> 0 < n -> F mod n = 0 ->
  nearest (step / dt) (Z.of_nat g) -> 0 < g ->
  correct_parallactic angle time F data dt step n = Ok r ->
  forall t f, t < length time -> f < F -> hermitian (get data [t; f]) ->
  let a := (- angle (solution_time (nth 0 time 0%Q) dt g t))%R in
  let d := get data [t; f] in let d' := get r [t; f] in
  hermitian d' /\ sI d' = sI d /\ sV d' = sV d /\ sL d' = sL d /\
  sQ d' = (cos (2 * a) * sQ d - sin (2 * a) * sU d)%R /\ sU d' = (sin (2 * a) * sQ d + cos (2 * a) * sU d)%R.
Proof.
  intros angle time F data dt step n g r Sh Tp N D G Gp E t f Ht Hf H a d d'.
  destruct (parallactic_spec angle time F data dt step n g Sh Tp N D G Gp) as (r0 & E0 & _ & K).
  rewrite E0 in E. injection E as <-. unfold d', d. rewrite (K t f Ht Hf). fold a.
  destruct (turned_stokes a _ H) as (A & B & C & Q & U).
  repeat split; try assumption; try apply A. now apply turned_linear.
Qed.
Theorem parallactic_undoes : forall angle time F data dt step n g r (es : nat -> nat -> list field),
  sh data = [length time; F] -> 0 < length time -> 0 < n -> F mod n = 0 ->
  nearest (step / dt) (Z.of_nat g) -> 0 < g ->
  correct_parallactic angle time F data dt step n = Ok r ->
  (forall t f, t < length time -> f < F -> get data [t; f] =
     coherency (map (turn_field (angle (solution_time (nth 0 time 0%Q) dt g t))) (es t f))) ->
  forall t f, t < length time -> f < F -> get r [t; f] = coherency (es t f).
Proof.
  intros angle time F data dt step n g r es Sh Tp N D G Gp E H t f Ht Hf.
  destruct (parallactic_spec angle time F data dt step n g Sh Tp N D G Gp) as (r0 & E0 & _ & K).
  rewrite E0 in E. injection E as <-. rewrite (K t f Ht Hf), (H t f Ht Hf), <- turned_coherency, turned_twice.
  rewrite Rplus_opp_l. apply turned_0.
Qed.
Theorem parallactic_refused : forall angle time F data dt step n a b, sh data = [a; b] ->
  (a <> length time -> correct_parallactic angle time F data dt step n = Err EValueError) /\
  (b <> F -> correct_parallactic angle time F data dt step n = Err EValueError) /\
  (n <> 0 -> F mod n <> 0 -> correct_parallactic angle time F data dt step n = Err EValueError) /\
  (a = length time -> b = F -> n = 0 -> correct_parallactic angle time F data dt step n = Err EZeroDivisionError) /\
  (a = length time -> b = F -> n <> 0 -> F mod n = 0 -> (- (1 # 2) <= step / dt <= 1 # 2)%Q ->
     correct_parallactic angle time F data dt step n = Err EZeroDivisionError).
Proof.
  intros angle time F data dt step n a b Sh. unfold correct_parallactic. rewrite Sh.
  destruct (Nat.eqb_spec (length time) a) as [E|E]; cbn [negb];
    [|repeat split; intros; try reflexivity; congruence].
  destruct (Nat.eqb_spec F b) as [E'|E']; cbn [negb]; [|repeat split; intros; try reflexivity; congruence].
  destruct (Nat.eqb_spec n 0) as [Z|Z]; [repeat split; intros; try reflexivity; congruence|].
  destruct (Nat.eqb_spec (F mod n) 0) as [M|M]; cbn [negb];
    [|repeat split; intros; try reflexivity; congruence].
  repeat split; intros; try congruence.
  assert (R : round_even (step / dt)%Q = 0%Z).
  { apply round_even_eq. unfold nearest.
    assert (W : (Qabs (step / dt - inject_Z 0) <= 1 # 2)%Q).
    { apply Qabs_Qle_condition. change (inject_Z 0) with 0%Q. lra. }
    destruct (Qlt_le_dec (Qabs (step / dt - inject_Z 0)) (1 # 2)) as [L|L]; [now left|right].
    split; [now apply Qle_antisym|reflexivity]. }
  rewrite R. reflexivity.
Qed.
(** Times with a gap: the third sample, taken at 102, is corrected with the angle of the time 2. *)
Definition gap_angle (t : Q) : R := if Qlt_le_dec t 100 then 0%R else (PI / 2)%R.
Theorem parallactic_gap : exists angle time data dt step g r es,
  sh data = [length time; 1] /\ nearest (step / dt) (Z.of_nat g) /\ 0 < g /\
  correct_parallactic angle time 1 data dt step 1 = Ok r /\
  (forall t, t < length time ->
    get data [t; 0] = coherency (map (turn_field (angle (nth (t / g * g) time 0%Q))) es)) /\
  get r [2; 0] <> coherency es.
Proof.
  pose (time := [0; 1; 102; 103]%Q). pose (es := [linear 1 0]).
  pose (data := mkNd [4; 1] (fun idx =>
    coherency (map (turn_field (gap_angle (nth (hd 0 idx / 2 * 2) time 0%Q))) es))).
  assert (Nr : nearest (2 / 1) (Z.of_nat 2)) by (left; vm_compute; reflexivity).
  destruct (parallactic_spec gap_angle time 1 data 1%Q 2%Q 1 2 eq_refl) as (r & E & _ & G);
    [simpl; lia|lia|reflexivity|exact Nr|lia|].
  exists gap_angle, time, data, 1%Q, 2%Q, 2, r, es.
  split; [reflexivity|]. split; [exact Nr|]. split; [lia|]. split; [exact E|]. split; [reflexivity|].
  rewrite G by (simpl; lia). unfold data; cbn [get hd]. rewrite <- turned_coherency, turned_twice.
  intro K. apply (f_equal sQ) in K.
  assert (A1 : gap_angle (solution_time (nth 0 time 0%Q) 1 2 2) = 0%R).
  { unfold gap_angle. destruct (Qlt_le_dec _ _) as [|Q0]; [reflexivity|]. now elim Q0. }
  assert (A2 : gap_angle (nth (2 / 2 * 2) time 0%Q) = (PI / 2)%R).
  { unfold gap_angle. destruct (Qlt_le_dec _ _) as [Q0|]; [discriminate Q0|reflexivity]. }
  rewrite A1, A2 in K. rewrite Ropp_0, Rplus_0_l in K.
  destruct (turned_stokes (PI / 2) (coherency es) (coherency_hermitian es)) as (_ & _ & _ & Q1 & _).
  rewrite Q1 in K. replace (2 * (PI / 2))%R with PI in K by field. rewrite cos_PI, sin_PI in K.
  destruct (stokes_coherency es) as (_ & Q2 & _ & _). rewrite Q2 in K.
  destruct (linear_stokes 1 0) as [Q3 _]. fold es in Q3. rewrite Q3, Rmult_0_r, cos_0 in K. lra.
Qed.
