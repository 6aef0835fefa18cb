(** Data volumes. *)
From Coq Require Import Ascii String List Arith ZArith QArith Qround Qabs Bool Lia Lqa.
From Verif Require Import Base M_Polar M_Dedisperse M_Pipeline M_PText M_POptions M_Parset M_Config P_Config P_Config2.
Import ListNotations.
Open Scope list_scope.
Open Scope Q_scope.

(** ** Specification *)
(** The seconds recorded: the receivers of pulsars and waveforms lose one minute. *)
Definition useful (b : backend) (d u : Q) : Prop :=
  match b with
  | Bst | Nickel | Tf => u == d
  | Raw => u == d - 60
  | _ => (60 <= d /\ u == d - 60) \/ (d <= 60 /\ u == 0)
  end.
Definition proportional (b : backend) : list attr :=
  match b with
  | Bst => [NSubBands; NPolars] | Nickel => [NSubBands; NPolars; NChannels] | Tf => [NSubBands; NPolars] | Raw => [NSubBands; NPolars; NBits]
  | Fold => [NSubBands; NPolars; NBins] | Wave => [NSubBands] | Single => [NSubBands; NPolars; NBits]
  end.
Definition inverse (b : backend) : list attr :=
  match b with Nickel => [TimeRes] | Tf => [TimeRes; FreqRes] | Fold => [TFold] | Single => [DsTime] | _ => [] end.
(** The same but for one property, multiplied. *)
Definition scaled (c c' : config) (a : attr) (q : Q) : Prop := c_backend c' = c_backend c /\ c_duration c' = c_duration c /\
  (exists v v', get c a = Some v /\ get c' a = Some v' /\ v' == q * v) /\ forall b, b <> a -> get c' b = get c b.
(** Bytes per second at most. *)
Definition capacity (b : backend) : option Q :=
  match b with
  | Bst => Some 6144 | Raw => Some 300000000 | Tf => Some 600000000 | Wave => Some 86705280
  | Fold => Some (24870912 / (536870912 # 100000000)) | Single => Some 1200000000 | Nickel => None
  end.
Definition pairs (n : nat) : list (nat * nat) := flat_map (fun i => map (fun j => (i, j)) (seq 0 (S i))) (seq 0 n).

(** ** Values *)
Lemma clipped_spec d : (0 <= d /\ clipped d = d) \/ (d <= 0 /\ clipped d = 0).
Proof. unfold clipped. destruct (Qgt_bool 0 d) eqn:E; [apply Qgt_bool_iff in E; right; split; [lra|reflexivity]|apply Qgt_bool_false in E; left; auto]. Qed.
Lemma qdiv_some a b : ~ b == 0 -> qdiv a b = Some (a / b).
Proof. intro H. unfold qdiv. destruct (Qeq_bool b 0) eqn:E; [apply Qeq_bool_iff in E; contradiction|reflexivity]. Qed.
Lemma qdiv_none a b : b == 0 -> qdiv a b = None.
Proof. intro H. unfold qdiv. apply Qeq_bool_iff in H. now rewrite H. Qed.
Lemma qdiv_inv a b v : qdiv a b = Some v -> ~ b == 0 /\ v = a / b.
Proof. unfold qdiv. destruct (Qeq_bool b 0) eqn:E; [discriminate|]. intro H. injection H as <-. split; [|reflexivity]. intro Z. apply Qeq_bool_iff in Z. congruence. Qed.
(** The volume as a rate. *)
Definition rate (c : config) : option Q :=
  let v := value c in
  match c_backend c with
  | Bst => Some (v NPolars * v NSubBands * 4)
  | Nickel => option_map (fun x => x * v NSubBands) (qdiv (v NPolars * (v NMAs * (v NMAs - 1) / 2 + v NMAs) * 8 * v NChannels) (v TimeRes))
  | Tf => option_map (fun x => x * v NSubBands) (match qdiv (200000000 / 1024) (v FreqRes) with None => None | Some x => qdiv (v NPolars * 4 * x) (v TimeRes) end)
  | Raw => Some (v NPolars * (v NBits / 8) / tick * v NSubBands)
  | Fold => qdiv (v NSubBands * v NPolars * 4 * v NBins) (v TFold)
  | Wave => Some (451590 * v NSubBands)
  | Single => qdiv (v NSubBands * v NPolars * (v NBits / 8) / tick) (v DsTime)
  end.
Lemma volume_rate c : match rate c with None => config_volume c = None | Some r => exists v u, config_volume c = Some v /\ useful (c_backend c) (c_duration c) u /\ v == r * u end.
Proof.
  unfold rate, config_volume. cbv zeta. set (d := c_duration c). assert (CL : useful Wave d (clipped (d - 60))). { unfold useful. destruct (clipped_spec (d - 60)) as [[A ->]|[A ->]]; [left|right]; split; try lra; reflexivity. }
  destruct (c_backend c); cbn [option_map].
  - destruct (qdiv _ _) as [x|]; cbn [option_map]; [|reflexivity]. eexists. exists d. split; [reflexivity|]. split; [cbn; reflexivity|reflexivity].
  - eexists. exists (d - 60). split; [reflexivity|]. split; [cbn; reflexivity|reflexivity].
  - destruct (match qdiv _ _ with None => None | Some x => _ end) as [x|]; cbn [option_map]; [|reflexivity]. eexists. exists d. split; [reflexivity|]. split; [cbn; reflexivity|reflexivity].
  - eexists. exists d. split; [reflexivity|]. split; [cbn; reflexivity|ring].
  - destruct (qdiv _ _) as [x|]; cbn [option_map]; [|reflexivity]. eexists. exists (clipped (d - 60)). split; [reflexivity|]. split; [exact CL|reflexivity].
  - eexists. exists (clipped (d - 60)). split; [reflexivity|]. split; [exact CL|reflexivity].
  - destruct (qdiv _ _) as [x|]; cbn [option_map]; [|reflexivity]. eexists. exists (clipped (d - 60)). split; [reflexivity|]. split; [exact CL|reflexivity].
Qed.
Lemma useful_unique b d u u' : useful b d u -> useful b d u' -> u == u'.
Proof. destruct b; cbn; intros A B; try (rewrite A, B; reflexivity); destruct A as [[A1 A]|[A1 A]], B as [[B1 B]|[B1 B]]; lra. Qed.
Lemma useful_exists b d : exists u, useful b d u.
Proof. destruct b; cbn; try (eexists; reflexivity); destruct (Qlt_le_dec d 60) as [L|L]; [exists 0; right|exists (d - 60); left|exists 0; right|exists (d - 60); left|exists 0; right|exists (d - 60); left]; split; try lra; reflexivity. Qed.
(** Positive values. *)
Lemma valid_values c : valid c -> forall a r, In (a, r) (props (c_backend c)) -> r_min r <= value c a <= r_max r.
Proof. intros V a r I. destruct (V a r I) as (v & G & B & _). now rewrite (value_get _ _ _ G). Qed.
Ltac range_of V B a r := let H := fresh "B" in assert (H : r_min r <= value _ a <= r_max r) by (apply (valid_values _ V); rewrite B; cbn; auto 8); cbn [r_min r_max ints] in H.
Lemma rate_positive c : valid c -> (c_backend c = Nickel -> 0 < value c TimeRes) -> exists r, rate c = Some r /\ 0 < r.
Proof.
  intros V N. assert (W := valid_values c V). unfold rate. cbv zeta. destruct (c_backend c) eqn:B; cbn [props] in W.
  - assert (P1 := W NSubBands _ (or_introl eq_refl)). assert (P2 := W NChannels _ (or_intror (or_introl eq_refl))). assert (P3 := W NPolars _ (or_intror (or_intror (or_introl eq_refl)))). assert (P4 := W NMAs _ (or_intror (or_intror (or_intror (or_introl eq_refl))))).
    specialize (N eq_refl). cbn [r_min r_max ints] in *. change (inject_Z 1) with 1 in *. change (inject_Z 2) with 2 in *. rewrite qdiv_some by lra. cbn [option_map]. eexists. split; [reflexivity|].
    set (m := value c NMAs) in *. assert (M : m * (m - 1) / 2 + m == m * (m + 1) / 2) by field. assert (M0 : 0 < m * (m - 1) / 2 + m) by (rewrite M; apply Qlt_shift_div_l; [lra|nra]). set (k := m * (m - 1) / 2 + m) in *. clearbody k.
    apply Qmult_lt_0_compat; [|lra]. apply Qlt_shift_div_l; [exact N|]. rewrite Qmult_0_l. repeat apply Qmult_lt_0_compat; lra.
  - assert (P1 := W NPolars _ (or_introl eq_refl)). assert (P2 := W NSubBands _ (or_intror (or_introl eq_refl))). assert (P3 := W NBits _ (or_intror (or_intror (or_introl eq_refl)))). cbn [r_min r_max ints] in *. change (inject_Z 1) with 1 in *. change (inject_Z 8) with 8 in *.
    eexists. split; [reflexivity|]. apply Qmult_lt_0_compat; [|lra]. apply Qlt_shift_div_l; [reflexivity|]. rewrite Qmult_0_l. apply Qmult_lt_0_compat; [lra|]. apply Qlt_shift_div_l; lra.
  - assert (P1 := W NPolars _ (or_introl eq_refl)). assert (P2 := W TimeRes _ (or_intror (or_introl eq_refl))). assert (P3 := W FreqRes _ (or_intror (or_intror (or_introl eq_refl)))). assert (P4 := W NSubBands _ (or_intror (or_intror (or_intror (or_introl eq_refl))))). cbn [r_min r_max ints] in *. change (inject_Z 1) with 1 in *.
    rewrite qdiv_some by lra. rewrite qdiv_some by lra. cbn [option_map]. eexists. split; [reflexivity|]. apply Qmult_lt_0_compat; [|lra]. apply Qlt_shift_div_l; [lra|]. rewrite Qmult_0_l. apply Qmult_lt_0_compat; [lra|]. apply Qlt_shift_div_l; [lra|]. rewrite Qmult_0_l. reflexivity.
  - assert (P1 := W NSubBands _ (or_introl eq_refl)). assert (P2 := W NPolars _ (or_intror (or_introl eq_refl))). cbn [r_min r_max ints] in *. change (inject_Z 1) with 1 in *. eexists. split; [reflexivity|]. repeat apply Qmult_lt_0_compat; lra.
  - assert (P1 := W NSubBands _ (or_introl eq_refl)). assert (P2 := W NPolars _ (or_intror (or_introl eq_refl))). assert (P3 := W TFold _ (or_intror (or_intror (or_introl eq_refl)))). assert (P4 := W NBins _ (or_intror (or_intror (or_intror (or_introl eq_refl))))). cbn [r_min r_max ints] in *. change (inject_Z 1) with 1 in *. change (inject_Z 16) with 16 in *.
    rewrite qdiv_some by lra. eexists. split; [reflexivity|]. apply Qlt_shift_div_l; [lra|]. rewrite Qmult_0_l. repeat apply Qmult_lt_0_compat; lra.
  - assert (P1 := W NSubBands _ (or_introl eq_refl)). cbn [r_min r_max ints] in *. change (inject_Z 1) with 1 in *. eexists. split; [reflexivity|]. apply Qmult_lt_0_compat; lra.
  - assert (P1 := W NSubBands _ (or_introl eq_refl)). assert (P2 := W NPolars _ (or_intror (or_introl eq_refl))). assert (P3 := W DsTime _ (or_intror (or_intror (or_introl eq_refl)))). assert (P4 := W NBits _ (or_intror (or_intror (or_intror (or_introl eq_refl))))). cbn [r_min r_max ints] in *. change (inject_Z 1) with 1 in *. change (inject_Z 8) with 8 in *.
    rewrite qdiv_some by lra. eexists. split; [reflexivity|]. apply Qlt_shift_div_l; [lra|]. rewrite Qmult_0_l. apply Qlt_shift_div_l; [reflexivity|]. rewrite Qmult_0_l. apply Qmult_lt_0_compat; [apply Qmult_lt_0_compat; lra|]. apply Qlt_shift_div_l; lra.
Qed.

(** ** Theorems *)
Theorem volume_finite : forall c, valid c -> ((exists v, config_volume c = Some v) <-> (c_backend c = Nickel -> 0 < value c TimeRes)).
Proof.
  intros c V. split.
  - intros (v & E) B. assert (W := valid_values c V TimeRes (mkRange 0 10 1)). rewrite B in W. specialize (W ltac:(cbn; auto 8)). cbn [r_min r_max] in W. apply Qnot_le_lt. intro L. unfold config_volume in E. rewrite B in E. cbv zeta in E. rewrite qdiv_none in E by lra. discriminate.
  - intro N. destruct (rate_positive c V N) as (r & R & _). assert (X := volume_rate c). rewrite R in X. destruct X as (v & u & E & _). eauto.
Qed.
Theorem volume_sign : forall c v u, valid c -> config_volume c = Some v -> useful (c_backend c) (c_duration c) u -> (0 <= v <-> 0 <= u) /\ (v == 0 <-> u == 0).
Proof.
  intros c v u V E U. assert (N := proj1 (volume_finite c V) (ex_intro _ v E)). destruct (rate_positive c V N) as (r & R & P). assert (X := volume_rate c). rewrite R in X. destruct X as (v' & u' & E' & U' & Q). rewrite E in E'. injection E' as <-.
  rewrite (useful_unique _ _ _ _ U U'). rewrite Q. clear -P. split; split; intro H.
  - apply Qnot_lt_le. intro L. apply (Qlt_not_le (r * u') 0); [|exact H]. rewrite <- (Qmult_0_r r). apply Qmult_lt_l; assumption.
  - apply Qmult_le_0_compat; [now apply Qlt_le_weak|exact H].
  - destruct (Qmult_integral _ _ H) as [Z|Z]; [rewrite Z in P; discriminate|exact Z].
  - rewrite H. ring.
Qed.
Theorem volume_time : forall c c' v v' u u', c_backend c' = c_backend c -> (forall a, get c' a = get c a) -> config_volume c = Some v -> config_volume c' = Some v' ->
  useful (c_backend c) (c_duration c) u -> useful (c_backend c) (c_duration c') u' -> v * u' == v' * u.
Proof.
  intros c c' v v' u u' B G E E' U U'. assert (X := volume_rate c). assert (X' := volume_rate c'). assert (R : rate c' = rate c) by (unfold rate, value; rewrite B; cbv zeta; rewrite !G; reflexivity). rewrite R in X'.
  destruct (rate c) as [r|]; [|congruence]. destruct X as (w & t & W & T & Q). destruct X' as (w' & t' & W' & T' & Q'). rewrite B in T'. rewrite E in W. rewrite E' in W'. injection W as <-. injection W' as <-.
  rewrite Q, Q', (useful_unique _ _ _ _ U T), (useful_unique _ _ _ _ U' T'). ring.
Qed.
Lemma scaled_value c c' a q : scaled c c' a q -> value c' a == q * value c a /\ forall b, b <> a -> value c' b = value c b.
Proof. intros (_ & _ & (v & v' & G & G' & E) & O). rewrite (value_get _ _ _ G), (value_get _ _ _ G'). split; [exact E|]. intros b N. unfold value. now rewrite O. Qed.
Lemma qdiv_eq a b a' b' : a == a' -> b == b' -> match qdiv a b, qdiv a' b' with Some x, Some y => x == y | None, None => True | _, _ => False end.
Proof.
  intros A B. unfold qdiv. destruct (Qeq_bool b 0) eqn:E, (Qeq_bool b' 0) eqn:E'; try exact I.
  - apply Qeq_bool_iff in E. rewrite B in E. apply Qeq_bool_iff in E. congruence.
  - apply Qeq_bool_iff in E'. rewrite <- B in E'. apply Qeq_bool_iff in E'. congruence.
  - now rewrite A, B.
Qed.
Lemma map_inv A B (f : A -> B) o v : option_map f o = Some v -> exists x, o = Some x /\ v = f x.
Proof. destruct o; [|discriminate]. intro H. injection H as <-. eauto. Qed.
Theorem volume_scales : forall c c' a q v v', scaled c c' a q -> ~ q == 0 -> config_volume c = Some v -> config_volume c' = Some v' ->
  (In a (proportional (c_backend c)) -> v' == q * v) /\ (In a (inverse (c_backend c)) -> v' * q == v).
Proof.
  intros c c' a q v v' S Q E E'. destruct (scaled_value c c' a q S) as [Va Vo]. destruct S as (B & D & _ & _). unfold config_volume in E, E'. rewrite B, D in E'. cbv zeta in E, E'. set (d := c_duration c) in *. clearbody d.
  split; intro I; destruct (c_backend c) eqn:Bk; cbn [proportional inverse In] in I;
    repeat match type of I with _ \/ _ => destruct I as [I|I] | False => destruct I end; subst a;
    repeat match type of E' with context [value c' ?x] => rewrite (Vo x) in E' by discriminate end.
  all: try (apply map_inv in E; destruct E as (x & E & ->)); try (apply map_inv in E'; destruct E' as (x' & E' & ->)).
  all: try (destruct (qdiv _ (value c FreqRes)) as [y|] eqn:F; [|discriminate]); try (destruct (qdiv _ (value c' FreqRes)) as [y'|] eqn:F'; [|discriminate]).
  all: try (apply qdiv_inv in E; destruct E as [Z ->]); try (apply qdiv_inv in E'; destruct E' as [Z' ->]); try (apply qdiv_inv in F; destruct F as [ZF ->]); try (apply qdiv_inv in F'; destruct F' as [ZF' ->]).
  all: try (injection E as <-; injection E' as <-).
  all: rewrite Va; unfold tick; try (field; auto); try ring.
Qed.
Lemma pairs_length n : (2 * length (pairs n) = n * (n + 1))%nat.
Proof.
  unfold pairs. induction n as [|n IH]; [reflexivity|]. rewrite seq_S, flat_map_app, app_length. cbn [flat_map]. rewrite app_nil_r, map_length, seq_length. nia.
Qed.
Lemma pairs_spec n i j : In (i, j) (pairs n) <-> (j <= i < n)%nat.
Proof.
  unfold pairs. rewrite in_flat_map. split.
  - intros (x & X & Y). apply in_map_iff in Y. destruct Y as (y & E & Y). injection E as -> ->. apply in_seq in X. apply in_seq in Y. lia.
  - intro H. exists i. split; [apply in_seq; lia|]. apply in_map_iff. exists j. split; [reflexivity|apply in_seq; lia].
Qed.
Theorem nickel_pairs : forall c n v, c_backend c = Nickel -> value c NMAs == inject_Z (Z.of_nat n) -> config_volume c = Some v ->
  v * value c TimeRes == 8 * value c NPolars * value c NChannels * value c NSubBands * inject_Z (Z.of_nat (length (pairs n))) * c_duration c.
Proof.
  intros c n v B M E. unfold config_volume in E. rewrite B in E. cbv zeta in E. apply map_inv in E. destruct E as (x & E & ->). apply qdiv_inv in E. destruct E as [Z ->]. rewrite M.
  assert (L : 2 * inject_Z (Z.of_nat (length (pairs n))) == inject_Z (Z.of_nat n) * (inject_Z (Z.of_nat n) + 1)).
  { change 2 with (inject_Z 2). change 1 with (inject_Z 1). rewrite <- inject_Z_plus, <- !inject_Z_mult. rewrite inject_Z_injective. assert (P := pairs_length n). lia. }
  set (p := inject_Z (Z.of_nat (length (pairs n)))) in *. set (m := inject_Z (Z.of_nat n)) in *. clearbody p m.
  assert (P : m * (m - 1) / 2 + m == p) by (setoid_replace (m * (m - 1) / 2 + m) with (m * (m + 1) / 2) by field; rewrite <- L; field).
  rewrite P. field. exact Z.
Qed.
(** ** Rates *)
Lemma mul_le a b x y : 0 <= a <= x -> 0 <= b <= y -> 0 <= a * b <= x * y.
Proof.
  intros A B. split; [apply Qmult_le_0_compat; lra|]. apply Qle_trans with (x * b); [apply Qmult_le_compat_r; lra|]. rewrite !(Qmult_comm x). apply Qmult_le_compat_r; lra.
Qed.
Lemma div_le a b x y : 0 <= a <= x -> 0 < y -> y <= b -> 0 <= a / b <= x / y.
Proof.
  intros A Y B. split; [apply Qle_shift_div_l; lra|]. apply Qle_shift_div_l; [exact Y|]. setoid_replace (a / b * y) with (a * y / b) by (field; lra). apply Qle_shift_div_r; [lra|]. exact (proj2 (mul_le a y x b A (conj (Qlt_le_weak _ _ Y) B))).
Qed.
Theorem volume_capacity : forall c v u k, valid c -> capacity (c_backend c) = Some k -> (c_backend c = Tf -> allowed (value c TimeRes) (value c FreqRes)) ->
  config_volume c = Some v -> useful (c_backend c) (c_duration c) u -> 0 <= u -> v <= k * u.
Proof.
  intros c v u k V K T E U P. assert (X := volume_rate c). destruct (rate c) as [r|] eqn:R; [|congruence]. destruct X as (v' & u' & E' & U' & Q). rewrite E in E'. injection E' as <-.
  rewrite Q, (useful_unique _ _ _ _ U' U). apply Qmult_le_compat_r; [|exact P]. clear v u u' E U U' Q P.
  assert (W := valid_values c V). unfold rate in R. cbv zeta in R. destruct (c_backend c) eqn:B; cbn [props] in W; cbn [capacity] in K; try discriminate K; injection K as <-.
  - assert (P1 := W NPolars _ (or_introl eq_refl)). assert (P2 := W NSubBands _ (or_intror (or_introl eq_refl))). assert (P3 := W NBits _ (or_intror (or_intror (or_introl eq_refl)))). cbn [r_min r_max ints] in *. change (inject_Z 1) with 1 in *. change (inject_Z 4) with 4 in *. change (inject_Z 192) with 192 in *. change (inject_Z 8) with 8 in *. change (inject_Z 16) with 16 in *.
    injection R as <-. assert (A := div_le (value c NBits) 8 16 8 ltac:(lra) ltac:(lra) ltac:(lra)). assert (A1 := mul_le (value c NPolars) (value c NBits / 8) 4 (16 / 8) ltac:(lra) A). assert (A2 := div_le _ tick _ tick A1 ltac:(reflexivity) ltac:(apply Qle_refl)).
    apply Qle_trans with (4 * (16 / 8) / tick * 192); [exact (proj2 (mul_le _ (value c NSubBands) _ 192 A2 ltac:(lra)))|vm_compute; discriminate].
  - assert (P1 := W NPolars _ (or_introl eq_refl)). assert (P2 := W TimeRes _ (or_intror (or_introl eq_refl))). assert (P3 := W FreqRes _ (or_intror (or_intror (or_introl eq_refl)))). assert (P4 := W NSubBands _ (or_intror (or_intror (or_intror (or_introl eq_refl))))). cbn [r_min r_max ints] in *. change (inject_Z 1) with 1 in *. change (inject_Z 4) with 4 in *. change (inject_Z 768) with 768 in *.
    rewrite qdiv_some in R by lra. rewrite qdiv_some in R by lra. cbn [option_map] in R. injection R as <-. assert (Y := effective_product _ _ (T eq_refl)).
    set (p := value c NPolars) in *. set (n := value c NSubBands) in *. set (dt := value c TimeRes) in *. set (df := value c FreqRes) in *. clearbody p n dt df.
    assert (Z : p * 4 * (200000000 / 1024 / df) / dt * n == p * n * (3125000 / 4) / (dt * df)) by (field; lra). rewrite Z.
    assert (A := mul_le p n 4 768 ltac:(lra) ltac:(lra)). assert (A2 := mul_le _ (3125000 / 4) _ (3125000 / 4) A ltac:(split; vm_compute; discriminate)).
    apply Qle_trans with (4 * 768 * (3125000 / 4) / 4); [exact (proj2 (div_le _ _ _ 4 A2 ltac:(lra) (proj1 Y)))|vm_compute; discriminate].
  - assert (P1 := W NSubBands _ (or_introl eq_refl)). assert (P2 := W NPolars _ (or_intror (or_introl eq_refl))). cbn [r_min r_max ints] in *. change (inject_Z 1) with 1 in *. change (inject_Z 2) with 2 in *. change (inject_Z 768) with 768 in *. injection R as <-.
    assert (A := mul_le (value c NPolars) (value c NSubBands) 2 768 ltac:(lra) ltac:(lra)). lra.
  - assert (P1 := W NSubBands _ (or_introl eq_refl)). assert (P2 := W NPolars _ (or_intror (or_introl eq_refl))). assert (P3 := W TFold _ (or_intror (or_intror (or_introl eq_refl)))). assert (P4 := W NBins _ (or_intror (or_intror (or_intror (or_introl eq_refl))))). cbn [r_min r_max ints] in *. change (inject_Z 1) with 1 in *. change (inject_Z 4) with 4 in *. change (inject_Z 192) with 192 in *. change (inject_Z 16) with 16 in *. change (inject_Z 8096) with 8096 in *.
    rewrite qdiv_some in R by lra. injection R as <-. assert (A := mul_le (value c NSubBands) (value c NPolars) 192 4 ltac:(lra) ltac:(lra)). assert (A1 := mul_le _ 4 _ 4 A ltac:(lra)). assert (A2 := mul_le _ (value c NBins) _ 8096 A1 ltac:(lra)).
    apply (Qle_trans _ _ _ (proj2 (div_le _ _ _ (536870912 # 100000000) A2 ltac:(reflexivity) (proj1 P3)))). vm_compute. discriminate.
  - assert (P1 := W NSubBands _ (or_introl eq_refl)). cbn [r_min r_max ints] in *. change (inject_Z 1) with 1 in *. change (inject_Z 192) with 192 in *. injection R as <-. lra.
  - assert (P1 := W NSubBands _ (or_introl eq_refl)). assert (P2 := W NPolars _ (or_intror (or_introl eq_refl))). assert (P3 := W DsTime _ (or_intror (or_intror (or_introl eq_refl)))). assert (P4 := W NBits _ (or_intror (or_intror (or_intror (or_introl eq_refl))))). cbn [r_min r_max ints] in *. change (inject_Z 1) with 1 in *. change (inject_Z 4) with 4 in *. change (inject_Z 192) with 192 in *. change (inject_Z 8) with 8 in *. change (inject_Z 64) with 64 in *.
    rewrite qdiv_some in R by lra. injection R as <-. assert (A := mul_le (value c NSubBands) (value c NPolars) 192 4 ltac:(lra) ltac:(lra)). assert (A0 := div_le (value c NBits) 8 64 8 ltac:(lra) ltac:(lra) ltac:(lra)). assert (A1 := mul_le _ _ _ _ A A0). assert (A2 := div_le _ tick _ tick A1 ltac:(reflexivity) ltac:(apply Qle_refl)).
    apply Qle_trans with (192 * 4 * (64 / 8) / tick / 1); [exact (proj2 (div_le _ _ _ 1 A2 ltac:(lra) (proj1 P3)))|vm_compute; discriminate].
Qed.
(** No bound for the correlator: its time step may be as short as wanted. *)
Theorem nickel_no_capacity : forall k, exists c, c_backend c = Nickel /\ valid c /\ c_duration c == 1 /\ exists v, config_volume c = Some v /\ k < v.
Proof.
  intro k. set (t := 1 / (1 + Qabs k)). assert (A := Qabs_nonneg k). assert (T : 0 < t) by (unfold t; apply Qlt_shift_div_l; lra). assert (T1 : t <= 1) by (unfold t; apply Qle_shift_div_r; lra).
  set (c := mkConfig Nickel [(NSubBands, inject_Z 384); (NChannels, inject_Z 64); (NPolars, inject_Z 4); (NMAs, inject_Z 96); (TimeRes, t)] 1 None).
  assert (V : valid c).
  { intros a r I. cbn [c c_backend props In] in I. repeat match type of I with _ \/ _ => destruct I as [I|I] | False => destruct I end; injection I as <- <-; (eexists; split; [reflexivity|]; split; [cbn [r_min r_max ints]; first [lra|split; vm_compute; discriminate]|]).
    all: split; [intro N; first [eexists; reflexivity|elim N; cbn; auto]|intros [X|X]; discriminate X]. }
  exists c. split; [reflexivity|]. split; [exact V|]. split; [reflexivity|]. unfold config_volume. cbn [c c_backend c_duration]. cbv zeta. change (value c TimeRes) with t. rewrite qdiv_some by lra. eexists. split; [reflexivity|].
  change (value c NPolars) with (inject_Z 4). change (value c NMAs) with (inject_Z 96). change (value c NChannels) with (inject_Z 64). change (value c NSubBands) with (inject_Z 384).
  assert (X : inject_Z 4 * (inject_Z 96 * (inject_Z 96 - 1) / 2 + inject_Z 96) * 8 * inject_Z 64 == 9535488) by reflexivity. rewrite X. assert (Y : 9535488 / t * inject_Z 384 * 1 == 3661627392 * (1 + Qabs k)) by (unfold t; change (inject_Z 384) with 384; field; lra). rewrite Y.
  assert (Z := Qle_Qabs k). lra.
Qed.
(** ** Objects *)
Theorem settings_stale : forall d a x r, receiver_set (Beams d) a x = Ok r \/ receiver_set_duration (Beams d) x = Ok r -> receiver_volume r = receiver_volume (Beams d).
Proof.
  intros d a x r [H|H]; cbn in H.
  - destruct (d_main d) as [c|]; [|destruct (convert a x); cbn in H; [destruct (pow2_fails a x); discriminate|discriminate]]. destruct (set_attr c a x); [|discriminate]. injection H as <-. reflexivity.
  - destruct (duration_of x); [|discriminate]. injection H as <-. reflexivity.
Qed.
Theorem settings_fresh : forall c x q r v v' u u', duration_of x = Ok q -> receiver_set_duration (One c) x = Ok r ->
  receiver_volume (One c) = Some v -> receiver_volume r = Some v' -> useful (c_backend c) (c_duration c) u -> useful (c_backend c) q u' -> v * u' == v' * u.
Proof.
  intros c x q r v v' u u' D R E E' U U'. cbn in R. unfold set_duration in R. rewrite D in R. cbn in R. injection R as <-. cbn [receiver_volume] in *.
  exact (volume_time c (mkConfig (c_backend c) (c_values c) q (c_start c)) v v' u u' eq_refl (fun a => eq_refl) E E' U U').
Qed.
Lemma sum_volumes_app l l' : sum_volumes (l ++ l') = match sum_volumes l, sum_volumes l' with Some a, Some b => match sum_volumes (l ++ l') with Some s => Some s | None => Some (a + b) end | _, _ => None end.
Proof.
  induction l as [|[v|] l IH]; cbn [app sum_volumes]; [destruct (sum_volumes l'); reflexivity| |reflexivity]. rewrite IH. destruct (sum_volumes l), (sum_volumes l'), (sum_volumes (l ++ l')); reflexivity.
Qed.
Lemma sum_volumes_two l l' a b : sum_volumes l = Some a -> sum_volumes l' = Some b -> exists s, sum_volumes (l ++ l') = Some s /\ s == a + b.
Proof.
  revert a. induction l as [|[v|] l IH]; intros a A B; cbn [app sum_volumes] in *; [injection A as <-; exists b; split; [exact B|ring]| |discriminate]. destruct (sum_volumes l) as [y|]; [|discriminate]. injection A as <-. destruct (IH y eq_refl B) as (s & -> & E). eexists. split; [reflexivity|]. rewrite E. ring.
Qed.
(** A minute is taken from a waveform recording, even from none. *)
Theorem raw_volume_refuted : exists r v, make Raw [] None = Ok r /\ receiver_volume r = Some v /\ v < 0.
Proof. eexists. eexists. split; [vm_compute; reflexivity|]. split; [vm_compute; reflexivity|]. reflexivity. Qed.
