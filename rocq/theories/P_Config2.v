(** Time and frequency resolutions. *)
From Coq Require Import Ascii String List Arith ZArith QArith Qround Qabs Bool Lia Lqa.
From Verif Require Import Base M_Polar M_Dedisperse M_Pipeline M_PText M_POptions M_Parset M_Config P_Config.
Import ListNotations.
Open Scope list_scope.
Open Scope Q_scope.

(** ** Specification *)
(** Transforms of [2 ^ i] samples of 5.12 us, 16 to 2048, and their number [2 ^ j], 4 to
    1024. *)
Definition pair_of (i j : Z) (dt df : Q) : Prop := (4 <= i <= 11)%Z /\ (2 <= j <= 10)%Z /\
  dt == (512 # 100000000) * inject_Z (2 ^ i) * inject_Z (2 ^ j) /\ df == (1953125 # 10) / inject_Z (2 ^ i).
Definition allowed (dt df : Q) : Prop := exists i j, pair_of i j dt df.
Definition tf_time (dt : Q) : Prop := 32 # 100000 <= dt <= 8389 # 100000.
Definition tf_freq (df : Q) : Prop := 95 <= df <= 12210.

(** ** The closest *)
Lemma abs_dec a : (Qabs a == a /\ 0 <= a) \/ (Qabs a == - a /\ a <= 0).
Proof. destruct (Qlt_le_dec a 0) as [L|L]; [right; split; [apply Qabs_neg; lra|lra]|left; split; [now apply Qabs_pos|exact L]]. Qed.
Lemma argmin_spec x : forall l best, (argmin_from x best l = best \/ In (argmin_from x best l) l) /\ Qabs (argmin_from x best l - x) <= Qabs (best - x) /\ forall y, In y l -> Qabs (argmin_from x best l - x) <= Qabs (y - x).
Proof.
  induction l as [|y l IH]; intro best; cbn [argmin_from]; [split; [now left|split; [apply Qle_refl|intros y []]]|].
  destruct (Qgt_bool (Qabs (best - x)) (Qabs (y - x))) eqn:E.
  - apply Qgt_bool_iff in E. destruct (IH y) as (A & B & C). split; [right; destruct A as [->|A]; [now left|now right]|]. split; [apply Qle_trans with (Qabs (y - x)); [exact B|now apply Qlt_le_weak]|].
    intros z [<-|Z]; [exact B|now apply C].
  - apply Qgt_bool_false in E. destruct (IH best) as (A & B & C). split; [destruct A as [->|A]; [now left|right; now right]|]. split; [exact B|].
    intros z [<-|Z]; [apply Qle_trans with (Qabs (best - x)); assumption|now apply C].
Qed.
Lemma closest_spec x l : l <> [] -> In (closest x l) l /\ forall y, In y l -> Qabs (closest x l - x) <= Qabs (y - x).
Proof.
  destruct l as [|y l]; [congruence|]. intros _. cbn [closest]. destruct (argmin_spec x l y) as (A & B & C). split; [destruct A as [->|A]; [now left|now right]|]. intros z [<-|Z]; [exact B|now apply C].
Qed.
Lemma closest_exact x l y : In y l -> x == y -> closest x l == y.
Proof.
  intros I E. destruct (closest_spec x l) as [_ B]; [intros ->; destruct I|]. specialize (B y I). assert (Z : Qabs (y - x) == 0) by (rewrite E; setoid_replace (y - y) with 0 by ring; reflexivity). rewrite Z in B.
  apply Qabs_Qle_condition in B. lra.
Qed.
Lemma fft_in i : (4 <= i <= 11)%Z -> In (inject_Z (2 ^ i)) allowed_fftlen.
Proof. intro H. unfold allowed_fftlen. apply in_map_iff. exists (Z.to_nat (i - 4)). split; [do 2 f_equal; lia|apply in_seq; lia]. Qed.
Lemma nfft_in j : (2 <= j <= 10)%Z -> In (inject_Z (2 ^ j)) allowed_nfft2int.
Proof. intro H. unfold allowed_nfft2int. apply in_map_iff. exists (Z.to_nat (j - 2)). split; [do 2 f_equal; lia|apply in_seq; lia]. Qed.
Lemma fft_length_spec df : exists i, (4 <= i <= 11)%Z /\ fft_length df = inject_Z (2 ^ i) /\ forall k, (4 <= k <= 11)%Z -> Qabs (inject_Z (2 ^ i) - 1 / tick / df) <= Qabs (inject_Z (2 ^ k) - 1 / tick / df).
Proof.
  unfold fft_length. destruct (closest_spec (1 / tick / df) allowed_fftlen) as [A B]; [discriminate|]. assert (A' := A). unfold allowed_fftlen in A' at 2. apply in_map_iff in A'. destruct A' as (k & E & K). apply in_seq in K.
  exists (Z.of_nat k + 4)%Z. split; [lia|]. split; [now symmetry|]. intros m M. rewrite E. apply B. now apply fft_in.
Qed.
Lemma fft_number_spec dt df : exists j, (2 <= j <= 10)%Z /\ fft_number dt df = inject_Z (2 ^ j) /\ forall k, (2 <= k <= 10)%Z -> Qabs (inject_Z (2 ^ j) - dt / (tick * fft_length df)) <= Qabs (inject_Z (2 ^ k) - dt / (tick * fft_length df)).
Proof.
  unfold fft_number. destruct (closest_spec (dt / (tick * fft_length df)) allowed_nfft2int) as [A B]; [discriminate|]. assert (A' := A). unfold allowed_nfft2int in A' at 2. apply in_map_iff in A'. destruct A' as (k & E & K). apply in_seq in K.
  exists (Z.of_nat k + 2)%Z. split; [lia|]. split; [now symmetry|]. intros m M. rewrite E. apply B. now apply nfft_in.
Qed.
Lemma pow_pos i : (0 <= i)%Z -> 0 < inject_Z (2 ^ i).
Proof. intro H. change 0 with (inject_Z 0). rewrite <- Zlt_Qlt. apply Z.pow_pos_nonneg; lia. Qed.
(** Whatever the values asked. *)
Theorem effective_allowed : forall dt df, allowed (fst (effective dt df)) (snd (effective dt df)).
Proof.
  intros dt df. destruct (fft_length_spec df) as (i & I & E & _). destruct (fft_number_spec dt df) as (j & J & F & _). exists i, j. split; [exact I|]. split; [exact J|].
  unfold effective. cbn [fst snd]. rewrite E, F. split; [reflexivity|]. unfold tick. field. intro Z. assert (P := pow_pos i ltac:(lia)). rewrite Z in P. discriminate.
Qed.
(** The values kept are asked again. *)
Theorem effective_idempotent : forall dt df, allowed dt df -> fst (effective dt df) == dt /\ snd (effective dt df) == df.
Proof.
  intros dt df (i & j & I & J & T & F). assert (P := pow_pos i ltac:(lia)). assert (P' := pow_pos j ltac:(lia)).
  assert (X : 1 / tick / df == inject_Z (2 ^ i)) by (rewrite F; unfold tick; field; lra).
  assert (L : fft_length df == inject_Z (2 ^ i)) by (apply closest_exact; [now apply fft_in|exact X]).
  assert (Y : dt / (tick * fft_length df) == inject_Z (2 ^ j)) by (rewrite L, T; unfold tick; field; lra).
  assert (N : fft_number dt df == inject_Z (2 ^ j)) by (apply closest_exact; [now apply nfft_in|exact Y]).
  unfold effective. cbn [fst snd]. rewrite L, N, T, F. split; [reflexivity|]. unfold tick. field. lra.
Qed.
(** The frequency resolution kept is the closest by the length of the transform, and within
    a factor. *)
Theorem effective_frequency : forall dt df, tf_freq df -> (3 # 4) * df <= snd (effective dt df) <= (3 # 2) * df.
Proof.
  intros dt df [D1 D2]. destruct (fft_length_spec df) as (i & I & E & M). unfold effective. cbn [snd]. rewrite E. set (p := inject_Z (2 ^ i)) in *. assert (P : 0 < p) by (apply pow_pos; lia).
  set (x := 1 / tick / df) in *. assert (X : x * df == 1953125 # 10) by (unfold x, tick; field; lra). assert (X1 : (15 # 1) < x < 2056).
  { split; [apply Qnot_le_lt|apply Qnot_le_lt]; intro L; nra. }
  assert (R : (3 # 4) * p <= x <= (3 # 2) * p).
  { split.
    - destruct (Z.eq_dec i 4) as [->|N]; [change p with (inject_Z 16); change (inject_Z 16) with 16; lra|]. specialize (M (i - 1)%Z ltac:(lia)).
      assert (H : p == 2 * inject_Z (2 ^ (i - 1))). { unfold p. replace i with (Z.succ (i - 1)) at 1 by lia. rewrite Z.pow_succ_r by lia. rewrite inject_Z_mult. reflexivity. }
      set (q := inject_Z (2 ^ (i - 1))) in *. clearbody q p x. apply Qnot_lt_le. intro L. destruct (abs_dec (p - x)) as [[A ?]|[A ?]], (abs_dec (q - x)) as [[B ?]|[B ?]]; rewrite A, B in M; lra.
    - destruct (Z.eq_dec i 11) as [->|N]; [change p with (inject_Z 2048); change (inject_Z 2048) with 2048; lra|]. specialize (M (i + 1)%Z ltac:(lia)).
      assert (H : inject_Z (2 ^ (i + 1)) == 2 * p). { unfold p. rewrite Z.pow_add_r by lia. rewrite inject_Z_mult. change (inject_Z (2 ^ 1)) with 2. ring. }
      set (q := inject_Z (2 ^ (i + 1))) in *. clearbody q p x. apply Qnot_lt_le. intro L. destruct (abs_dec (p - x)) as [[A ?]|[A ?]], (abs_dec (q - x)) as [[B ?]|[B ?]]; rewrite A, B in M; lra. }
  assert (Z : 1 / tick / p == (1953125 # 10) / p) by (unfold tick; field; lra). rewrite Z. clear Z. rewrite <- X. assert (W : x * df / p == (x / p) * df) by (field; lra). rewrite W.
  assert (R1 : (3 # 4) <= x / p) by (apply Qle_shift_div_l; [exact P|exact (proj1 R)]). assert (R2 : x / p <= (3 # 2)) by (apply Qle_shift_div_r; [exact P|exact (proj2 R)]).
  set (y := x / p) in *. clearbody y. split; nra.
Qed.
Theorem effective_bounds : forall dt df, tf_time dt -> tf_time (fst (effective dt df)) /\ tf_freq (snd (effective dt df)).
Proof.
  intros dt df [T1 T2]. unfold tf_time, tf_freq. destruct (fft_length_spec df) as (i & I & E & _). destruct (fft_number_spec dt df) as (j & J & F & M). unfold effective. cbn [fst snd]. rewrite F. rewrite E in *.
  set (x := dt / (tick * inject_Z (2 ^ i))) in *. assert (P := pow_pos i ltac:(lia)). assert (X : x * inject_Z (2 ^ i) == dt * (100000000 # 512)) by (unfold x, tick; field; lra).
  assert (U : inject_Z (2 ^ j) * inject_Z (2 ^ i) <= 16384).
  { specialize (M (14 - i)%Z ltac:(lia)). assert (H : inject_Z (2 ^ (14 - i)) * inject_Z (2 ^ i) == 16384) by (rewrite <- inject_Z_mult, <- Z.pow_add_r by lia; replace (14 - i + i)%Z with 14%Z by lia; reflexivity).
    destruct (Z_le_gt_dec j (14 - i)) as [L|G].
    - rewrite <- H. apply Qmult_le_compat_r; [|lra]. rewrite <- Zle_Qle. apply Z.pow_le_mono_r; lia.
    - exfalso. assert (G2 : 2 * inject_Z (2 ^ (14 - i)) <= inject_Z (2 ^ j)).
      { change 2 with (inject_Z 2). rewrite <- inject_Z_mult, <- Zle_Qle. rewrite <- Z.pow_succ_r by lia. apply Z.pow_le_mono_r; lia. }
      set (q := inject_Z (2 ^ (14 - i))) in *. set (n := inject_Z (2 ^ j)) in *. set (p := inject_Z (2 ^ i)) in *.
      assert (Q0 : 0 < q) by (apply pow_pos; lia). clearbody q n p. assert (Xq : x <= (3 # 2) * q - (1 # 1000) * q). { apply (Qmult_le_r _ _ p P). setoid_replace (((3 # 2) * q - (1 # 1000) * q) * p) with ((1499 # 1000) * (q * p)) by ring. rewrite H, X. lra. }
      clearbody x. destruct (abs_dec (n - x)) as [[A ?]|[A ?]], (abs_dec (q - x)) as [[B ?]|[B ?]]; rewrite A, B in M; lra. }
  assert (L1 : 16 <= inject_Z (2 ^ i)) by (change 16 with (inject_Z (2 ^ 4)); rewrite <- Zle_Qle; apply Z.pow_le_mono_r; lia).
  assert (L2 : 4 <= inject_Z (2 ^ j)) by (change 4 with (inject_Z (2 ^ 2)); rewrite <- Zle_Qle; apply Z.pow_le_mono_r; lia).
  assert (L3 : inject_Z (2 ^ i) <= 2048) by (change 2048 with (inject_Z (2 ^ 11)); rewrite <- Zle_Qle; apply Z.pow_le_mono_r; lia).
  set (p := inject_Z (2 ^ i)) in *. set (n := inject_Z (2 ^ j)) in *. clearbody p n. assert (V : 64 <= n * p) by nra. assert (W : tick * p * n == tick * (n * p)) by ring. rewrite W. set (m := n * p) in *. clearbody m. unfold tick.
  split; [split; lra|]. assert (Z : 1 / (512 # 100000000) / p == (1953125 # 10) / p) by (field; lra). rewrite Z. split; [apply Qle_shift_div_l; lra|apply Qle_shift_div_r; lra].
Qed.
(** Narrow channels impose long times: the product never falls below 4. *)
Theorem effective_product : forall dt df, allowed dt df -> 4 <= dt * df <= 1024.
Proof.
  intros dt df (i & j & I & J & T & F). assert (P := pow_pos i ltac:(lia)). assert (E : dt * df == inject_Z (2 ^ j)) by (rewrite T, F; field; lra). rewrite E.
  change 4 with (inject_Z (2 ^ 2)). change 1024 with (inject_Z (2 ^ 10)). split; rewrite <- Zle_Qle; apply Z.pow_le_mono_r; lia.
Qed.

(** ** [TFConfig] *)
Definition tf_time_range : range := mkRange (32 # 100000) (8389 # 100000) (5 # 1000).
Definition tf_freq_range : range := mkRange 95 12210 6100.
Lemma kw_set_get k x l k' : kw k' (kw_set k x l) = if String.eqb k' k then Some x else kw k' l.
Proof.
  induction l as [|[n y] l IH]; cbn [kw_set kw]; [reflexivity|]. destruct (String.eqb k n) eqn:E; cbn [kw].
  - apply String.eqb_eq in E. subst n. destruct (String.eqb k' k); reflexivity.
  - rewrite IH. destruct (String.eqb k' n) eqn:E'; [|reflexivity]. destruct (String.eqb k' k) eqn:E''; [|reflexivity]. apply String.eqb_eq in E', E''. subst. rewrite String.eqb_refl in E. discriminate.
Qed.
Lemma value_get c a v : get c a = Some v -> value c a = v.
Proof. unfold value. now intros ->. Qed.
Lemma in_range_kept r v w : r_min r <= v <= r_max r -> kept r v w -> w = v.
Proof. intros H [[_ ->]|[N _]]; [reflexivity|lra]. Qed.
Theorem tf_made : forall k s r, make Tf k s = Ok r -> exists c beam dt df,
  r = Beams (mkDev (Some c) [beam] s) /\ given k TimeRes tf_time_range dt /\ given k FreqRes tf_freq_range df /\
  get c TimeRes = Some (fst (effective dt df)) /\ get c FreqRes = Some (snd (effective dt df)) /\ (forall a, get beam a = get c a) /\
  c_backend beam = Tf /\ c_duration beam = c_duration c /\ asked_duration k = Ok (c_duration c).
Proof.
  intros k s r H. cbn [make] in H. destruct (init true Tf k s) as [c0|] eqn:I0; [|discriminate]. cbn [bind] in H. destruct (init_spec _ _ _ _ _ I0) as (B0 & D0 & S0 & G0 & N0).
  assert (It : In (TimeRes, tf_time_range) (props Tf)) by (cbn; auto). assert (If : In (FreqRes, tf_freq_range) (props Tf)) by (cbn; auto).
  destruct (G0 _ _ It) as (dt & Gt & Vt). destruct (G0 _ _ If) as (df & Gf & Vf). rewrite (value_get _ _ _ Gt), (value_get _ _ _ Gf) in H.
  destruct (given_valid _ _ _ _ _ It Vt) as (Rt & _). destruct (given_valid _ _ _ _ _ If Vf) as (Rf & _). cbn [r_min r_max tf_time_range tf_freq_range] in Rt, Rf.
  destruct (effective_bounds dt df Rt) as [Et Ef]. destruct (effective dt df) as [dt' df'] eqn:EF. cbn [fst snd] in *.
  destruct (set_attr c0 TimeRes (AFloat dt')) as [c1|] eqn:S1; [|discriminate]. cbn [bind] in H. destruct (set_attr c1 FreqRes (AFloat df')) as [c2|] eqn:S2; [|discriminate]. cbn [bind] in H.
  destruct (set_inv _ _ _ _ S1) as (v1 & r1 & w1 & St1 & In1 & _ & K1 & Ge1 & O1 & Bk1 & Du1 & Ss1). destruct (set_inv _ _ _ _ S2) as (v2 & r2 & w2 & St2 & In2 & _ & K2 & Ge2 & O2 & Bk2 & Du2 & Ss2).
  inversion St1; subst; try discriminate. inversion St2; subst; try discriminate. rewrite B0 in In1. rewrite Bk1, B0 in In2.
  assert (r1 = tf_time_range) by (apply props_assoc in In1; apply props_assoc in It; congruence). assert (r2 = tf_freq_range) by (apply props_assoc in In2; apply props_assoc in If; congruence). subst r1 r2.
  apply (in_range_kept tf_time_range _ _ Et) in K1. apply (in_range_kept tf_freq_range _ _ Ef) in K2. subst w1 w2.
  assert (Gt2 : get c2 TimeRes = Some v1) by (rewrite O2 by discriminate; exact Ge1). rewrite (value_get _ _ _ Gt2), (value_get _ _ _ Ge2) in H.
  destruct (init false Tf _ (c_start c0)) as [beam|] eqn:I1; [|discriminate]. cbn [bind] in H. injection H as <-. destruct (init_spec _ _ _ _ _ I1) as (B1 & D1 & Sb1 & G1 & N1).
  exists c2, beam, dt, df. split; [reflexivity|]. split; [exact Vt|]. split; [exact Vf|]. rewrite EF. cbn [fst snd]. split; [exact Gt2|]. split; [exact Ge2|].
  assert (KW : forall n, n <> "timeRes"%string -> n <> "freqRes"%string -> kw n (kw_set "freqRes" (AFloat v2) (kw_set "timeRes" (AFloat v1) k)) = kw n k).
  { intros n A B. rewrite !kw_set_get. apply String.eqb_neq in A, B. now rewrite A, B. }
  split; [|split; [exact B1|split]].
  - intro a. destruct (assoc a (props Tf)) as [ra|] eqn:A.
    + apply props_assoc in A. destruct (G1 _ _ A) as (w & Gw & Vw). rewrite Gw. unfold given in Vw.
      destruct (attr_eqb a TimeRes) eqn:Ea; [apply attr_eqb_eq in Ea; subst a|].
      { assert (ra = tf_time_range) by (apply props_assoc in A; apply props_assoc in It; congruence). subst ra. rewrite !kw_set_get in Vw. cbn in Vw. destruct Vw as (v & Sv & _ & Kv). inversion Sv; subst; try discriminate. apply (in_range_kept tf_time_range _ _ Et) in Kv. subst. now rewrite Gt2. }
      destruct (attr_eqb a FreqRes) eqn:Eb; [apply attr_eqb_eq in Eb; subst a|].
      { assert (ra = tf_freq_range) by (apply props_assoc in A; apply props_assoc in If; congruence). subst ra. rewrite !kw_set_get in Vw. cbn in Vw. destruct Vw as (v & Sv & _ & Kv). inversion Sv; subst; try discriminate. apply (in_range_kept tf_freq_range _ _ Ef) in Kv. subst. now rewrite Ge2. }
      apply attr_eqb_neq in Ea, Eb. rewrite O2 by exact Eb. rewrite O1 by exact Ea. destruct (G0 _ _ A) as (w' & Gw' & Vw'). rewrite Gw'. f_equal.
      rewrite KW in Vw by (destruct a; cbn; congruence). unfold given in Vw'. destruct (kw (attr_name a) k) as [x|]; [|congruence].
      destruct Vw as (v & Sv & _ & Kv). destruct Vw' as (v' & Sv' & _ & Kv'). assert (v = v') by (apply convert_stands in Sv; apply convert_stands in Sv'; congruence). subst v'.
      destruct Kv as [[A1 ->]|[A1 ->]], Kv' as [[A2 ->]|[A2 ->]]; try reflexivity; lra.
    + assert (NI : forall r, ~ In (a, r) (props Tf)) by (intros r I; apply props_assoc in I; congruence). rewrite (N1 a NI).
      assert (a <> FreqRes) by (intros ->; now apply (NI tf_freq_range)). assert (a <> TimeRes) by (intros ->; now apply (NI tf_time_range)). rewrite O2, O1 by assumption. symmetry. now apply N0.
  - rewrite Du2, Du1. unfold asked_duration in D0, D1. rewrite KW in D1 by discriminate. congruence.
  - rewrite Du2, Du1. exact D0.
Qed.
