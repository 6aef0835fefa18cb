(** Edge channels, bandpass, interferences and gain jumps of dynamic spectra. *)
From Coq Require Import ZArith QArith Qround Lqa String Bool List Arith Lia.
From Verif Require Import Base M_Nd P_Nd M_Rebin P_Rebin M_TFArray P_TFArray M_Dynproc.
Import ListNotations.
Open Scope nat_scope.
Open Scope list_scope.

(** ** Sub-bands

    Channel [s * n + k] is channel [k] of sub-band [s]. *)
Lemma inside3 : forall a b c i j k, i < a -> j < b -> k < c -> inside [a; b; c] [i; j; k].
Proof. intros. repeat (apply Forall2_cons; [assumption|]). constructor. Qed.
Lemma inside1 : forall a i, i < a -> inside [a] [i].
Proof. intros. apply Forall2_cons; [assumption|]. constructor. Qed.

Lemma by_subband_spec : forall n f data T S P, 0 < n -> sh data = [T; S * n; P] -> (forall x, sh (f x) = sh x) ->
  exists x r, by_subband n f data = Ok r /\ sh r = [T; S * n; P] /\ sh x = [T; S; n; P] /\
    (forall t s k p, t < T -> s < S -> k < n -> p < P -> get x [t; s; k; p] = get data [t; s * n + k; p]) /\
    forall t s k p, t < T -> s < S -> k < n -> p < P -> get r [t; s * n + k; p] = get (f x) [t; s; k; p].
Proof.
  intros n f data T S P N Sh F. unfold by_subband. rewrite Sh. destruct (Nat.eqb_spec n 0); [lia|].
  rewrite Nat.div_mul by lia.
  destruct (reshape_split sample data [T] [P] S n Sh) as (x & E & SX & G). cbn [app] in E, SX. rewrite E. cbn [bind].
  destruct (reshape_join sample (f x) [T] [P] S n) as (r & E' & SR & G'); [rewrite F; exact SX|]. cbn [app] in E', SR.
  exists x, r. split; [exact E'|]. split; [exact SR|]. split; [exact SX|]. split.
  - intros t s k p Ht Hs Hk Hp. exact (G [t] s k [p] (inside1 _ _ Ht) Hs Hk (inside1 _ _ Hp)).
  - intros t s k p Ht Hs Hk Hp. exact (G' [t] s k [p] (inside1 _ _ Ht) Hs Hk (inside1 _ _ Hp)).
Qed.
Lemma by_subband_refused : forall n f data T F P, 0 < n -> sh data = [T; F; P] -> 0 < T -> 0 < P -> F mod n <> 0 ->
  by_subband n f data = Err EValueError.
Proof.
  intros n f data T F P N Sh HT HP M. unfold by_subband. rewrite Sh. destruct (Nat.eqb_spec n 0); [lia|].
  unfold reshape. rewrite Sh. destruct (Nat.eqb_spec (size [T; F / n; n; P]) (size [T; F; P])) as [E|]; [|reflexivity].
  exfalso. cbn [size fold_right] in E. pose proof (Nat.div_mod F n ltac:(lia)).
  assert (F / n * n = F) by (apply (Nat.mul_cancel_l _ _ (T * P)); nia). lia.
Qed.

(** ** Edge channels *)
Theorem edges_spec : forall n e data T S P, 0 < n -> 0 < e -> sh data = [T; S * n; P] ->
  exists r, remove_edges n (Z.of_nat e) data = Ok r /\ sh r = sh data /\
    forall t s k p, t < T -> s < S -> k < n -> p < P ->
      (k < e \/ n <= k + e -> get r [t; s * n + k; p] = None) /\
      (e <= k -> k + e < n -> get r [t; s * n + k; p] = get data [t; s * n + k; p]).
Proof.
  intros n e data T S P N E Sh. unfold remove_edges. destruct (Z.ltb_spec 0 (Z.of_nat e)); [|lia].
  destruct (by_subband_spec n (drop_edges n (Z.of_nat e)) data T S P N Sh) as (x & r & R & SR & SX & G & G'); [reflexivity|].
  exists r. split; [exact R|]. split; [now rewrite SR|].
  intros t s k p Ht Hs Hk Hp. rewrite (G' t s k p Ht Hs Hk Hp). cbn [drop_edges get nth]. rewrite (G t s k p Ht Hs Hk Hp).
  unfold slice_bound. destruct (Z.ltb_spec (Z.of_nat e) 0); [lia|]. destruct (Z.ltb_spec (- Z.of_nat e) 0); [|lia].
  rewrite Nat2Z.id. split; intros.
  - destruct (Nat.ltb_spec k (Nat.min e n)), (Nat.leb_spec (Z.to_nat (- Z.of_nat e + Z.of_nat n)) k); try lia; reflexivity.
  - destruct (Nat.ltb_spec k (Nat.min e n)), (Nat.leb_spec (Z.to_nat (- Z.of_nat e + Z.of_nat n)) k); try lia; reflexivity.
Qed.
Theorem edges_off : forall n e data, (e <= 0)%Z -> remove_edges n e data = Ok data.
Proof. intros n e data E. unfold remove_edges. destruct (Z.ltb_spec 0 e); [lia|reflexivity]. Qed.
(** Nothing is left when half of the channels are removed at each side. *)
Theorem edges_all : forall n e data T S P r, 0 < n -> n <= 2 * e -> sh data = [T; S * n; P] ->
  remove_edges n (Z.of_nat e) data = Ok r ->
  forall t f p, t < T -> f < S * n -> p < P -> get r [t; f; p] = None.
Proof.
  intros n e data T S P r N E Sh R t f p Ht Hf Hp.
  destruct (edges_spec n e data T S P N ltac:(lia) Sh) as (r0 & R0 & _ & G). rewrite R0 in R. injection R as <-.
  pose proof (Nat.div_mod f n ltac:(lia)) as D. pose proof (Nat.mod_upper_bound f n ltac:(lia)) as U.
  assert (f / n < S) by (apply Nat.div_lt_upper_bound; lia).
  replace f with (f / n * n + f mod n) by lia. apply (G t (f / n) (f mod n) p); auto. lia.
Qed.
Theorem edges_refused : forall n e data T F P, 0 < n -> (0 < e)%Z -> sh data = [T; F; P] -> 0 < T -> 0 < P -> F mod n <> 0 ->
  remove_edges n e data = Err EValueError.
Proof. intros n e data T F P N E Sh HT HP M. unfold remove_edges. destruct (Z.ltb_spec 0 e); [|lia]. now apply by_subband_refused with T F P. Qed.

(** ** Bandpass *)
Section Band.
Variable table : nat -> res (list Q).

Theorem standard_spec : forall n bp data T S P, table n = Ok bp -> bp <> [] -> sh data = [T; S * length bp; P] ->
  exists r, bp_correct table "standard" n data = Ok r /\ sh r = sh data /\
    forall t s k p, t < T -> s < S -> p < P -> k < length bp ->
      get r [t; s * length bp + k; p] =
      match get data [t; s * length bp + k; p] with Some x => Some (x * nth k bp 0)%Q | None => None end.
Proof.
  intros n bp data T S P B NE Sh. unfold bp_correct. cbn [String.eqb]. 
  change (String.eqb "standard" "standard") with true. cbn iota. rewrite B. cbn [bind].
  assert (N : 0 < length bp) by (destruct bp; [contradiction|cbn; lia]).
  destruct (by_subband_spec (length bp) (times_channel bp) data T S P N Sh) as (x & r & R & SR & SX & G & G'); [reflexivity|].
  exists r. split; [exact R|]. split; [now rewrite SR|]. intros t s k p Ht Hs Hp Hk. rewrite (G' t s k p Ht Hs Hk Hp). cbn [times_channel get nth].
  rewrite (G t s k p Ht Hs Hk Hp). unfold sop. destruct (get data _); reflexivity.
Qed.
Theorem band_none : forall kind n data, kind <> "standard"%string -> kind <> "median"%string -> kind <> "adjusted"%string ->
  bp_correct table kind n data = Ok data.
Proof.
  intros kind n data A B C. unfold bp_correct.
  destruct (String.eqb_spec kind "standard"); [contradiction|]. destruct (String.eqb_spec kind "median"); [contradiction|].
  destruct (String.eqb_spec kind "adjusted"); [contradiction|]. reflexivity.
Qed.

(** The median correction: the spectrum is the median of each channel over the time,
    the level of a sub-band is the median of its spectrum. *)
Definition over_time (data : nd sample) (T f p : nat) : list sample := map (fun t => get data [t; f; p]) (seq 0 T).
Theorem median_spec : forall n data T S, 0 < n -> sh data = [T; S * n; 1] ->
  exists r spectrum level, bp_correct table "median" n data = Ok r /\ sh r = sh data /\
    (forall f, f < S * n -> median_of (over_time data T f 0) (spectrum f)) /\
    (forall s, s < S -> median_of (bin spectrum n s) (level s)) /\
    forall t s k, t < T -> s < S -> k < n ->
      get r [t; s * n + k; 0] = sdiv (sop Qmult (get data [t; s * n + k; 0]) (level s)) (spectrum (s * n + k)).
Proof.
  intros n data T S N Sh. unfold bp_correct. change (String.eqb "median" "standard") with false. change (String.eqb "median" "median") with true.
  cbn iota. rewrite Sh. destruct (Nat.eqb_spec n 0); [lia|]. rewrite Nat.mul_1_r, Nat.div_mul by lia.
  set (spec := reduce nanmedian 0 data).
  assert (SS : sh spec = [S * n; 1]) by (unfold spec, reduce; rewrite Sh; reflexivity).
  destruct (reshape_split sample spec [] [1] S n SS) as (fo & E1 & S1 & G1). cbn [app] in E1, S1, G1. rewrite E1. cbn [bind].
  destruct (reshape_split sample data [T] [1] S n Sh) as (x & E2 & S2 & G2). cbn [app] in E2, S2. rewrite E2. cbn [bind].
  set (y := mkNd _ _). destruct (reshape_join sample y [T] [1] S n) as (z & E3 & S3 & G3); [exact S2|]. cbn [app] in E3, S3. rewrite E3. cbn [bind].
  eexists. exists (fun f => get spec [f; 0]), (fun s => get (reduce nanmedian 1 fo) [s; 0]).
  split; [reflexivity|]. split; [exact S3|]. split; [|split].
  - intros f Hf. unfold spec, reduce. cbn [get]. rewrite Sh. cbn [nth firstn skipn app]. apply nanmedian_spec.
  - intros s Hs. unfold reduce. cbn [get]. rewrite S1. cbn [nth firstn skipn app].
    assert (EQ : map (fun j => get fo [s; j; 0]) (seq 0 n) = bin (fun f => get spec [f; 0]) n s).
    { unfold bin. apply map_ext_in. intros j J. apply in_seq in J. exact (G1 [] s j [0] (Forall2_nil _) Hs ltac:(lia) (inside1 1 0 ltac:(lia))). }
    rewrite EQ. apply nanmedian_spec.
  - intros t s k Ht Hs Hk. cbn [get tl].
    pose proof (G3 [t] s k [0] (inside1 _ _ Ht) Hs Hk (inside1 1 0 ltac:(lia))) as G3'. cbn [app] in G3'. rewrite G3'. unfold y at 1. cbn [get nth].
    pose proof (G2 [t] s k [0] (inside1 _ _ Ht) Hs Hk (inside1 1 0 ltac:(lia))) as G2'. cbn [app] in G2'. rewrite G2'. reflexivity.
Qed.
Theorem median_refused : forall n data T S P, 0 < n -> 0 < S -> 1 < P -> sh data = [T; S * n; P] ->
  bp_correct table "median" n data = Err EValueError.
Proof.
  intros n data T S P N HS HP Sh. unfold bp_correct. change (String.eqb "median" "standard") with false. change (String.eqb "median" "median") with true.
  cbn iota. rewrite Sh. destruct (Nat.eqb_spec n 0); [lia|].
  replace (S * n * P) with (S * P * n) by nia. rewrite Nat.div_mul by lia.
  unfold reshape at 1. unfold reduce. rewrite Sh. cbn [firstn skipn app sh].
  destruct (Nat.eqb_spec (size [S * P; n; P]) (size [S * n; P])) as [E|]; [|reflexivity]. exfalso.
  cbn [size fold_right] in E. assert (S * n * P * P = S * n * P) by lia. assert (0 < S * n * P) by nia. nia.
Qed.

(** The adjusted correction: the spectrum divided by the level of its sub-band, the
    response being its median over the sub-bands. *)
Theorem adjusted_spec : forall n data T S P, 0 < n -> sh data = [T; S * n; P] ->
  exists r spectrum level response, bp_correct table "adjusted" n data = Ok r /\ sh r = sh data /\
    (forall f p, f < S * n -> p < P -> median_of (over_time data T f p) (spectrum p f)) /\
    (forall s p, s < S -> p < P -> median_of (bin (spectrum p) n s) (level s p)) /\
    (forall k p, k < n -> p < P ->
       median_of (map (fun s => sdiv (spectrum p (s * n + k)) (level s p)) (seq 0 S)) (response k p)) /\
    forall t s k p, t < T -> s < S -> k < n -> p < P ->
      get r [t; s * n + k; p] = sdiv (get data [t; s * n + k; p]) (response k p).
Proof.
  intros n data T S P N Sh. unfold bp_correct. change (String.eqb "adjusted" "standard") with false. change (String.eqb "adjusted" "median") with false.
  change (String.eqb "adjusted" "adjusted") with true. cbn iota.
  destruct (by_subband_spec n over_profile data T S P N Sh) as (x & r & R & SR & SX & G & G'); [reflexivity|].
  set (spectrum := fun p f => nanmedian (over_time data T f p)).
  set (level := fun s p => nanmedian (bin (spectrum p) n s)).
  set (response := fun k p => nanmedian (map (fun s => sdiv (spectrum p (s * n + k)) (level s p)) (seq 0 S))).
  exists r, spectrum, level, response. split; [exact R|]. split; [now rewrite SR|].
  split; [intros; apply nanmedian_spec|]. split; [intros; apply nanmedian_spec|]. split; [intros; apply nanmedian_spec|].
  intros t s k p Ht Hs Hk Hp. rewrite (G' t s k p Ht Hs Hk Hp).
  unfold over_profile. cbn [get nth]. rewrite (G t s k p Ht Hs Hk Hp). f_equal.
  set (profile := reduce nanmedian 0 x).
  assert (SP : sh profile = [S; n; P]) by (unfold profile, reduce; rewrite SX; reflexivity).
  assert (GP : forall s k, s < S -> k < n -> get profile [s; k; p] = spectrum p (s * n + k)).
  { intros s' k' Hs' Hk'. unfold profile, reduce. cbn [get]. rewrite SX. cbn [nth firstn skipn app]. unfold spectrum, over_time. f_equal.
    apply map_ext_in. intros t' Ht'. apply in_seq in Ht'. apply G; lia. }
  clearbody profile. unfold reduce at 1. cbn [get sh]. rewrite SP. cbn [nth firstn skipn app]. unfold response. f_equal.
  apply map_ext_in. intros s' Hs'. apply in_seq in Hs'. rewrite GP by lia. f_equal.
  unfold reduce. cbn [get]. rewrite SP. cbn [nth firstn skipn app]. unfold level, bin. f_equal.
  apply map_ext_in. intros j J. apply in_seq in J. apply GP; lia.
Qed.
Theorem band_refused : forall kind n data T F P, (kind = "adjusted")%string -> 0 < n -> 0 < T -> 0 < P ->
  sh data = [T; F; P] -> F mod n <> 0 -> bp_correct table kind n data = Err EValueError.
Proof.
  intros kind n data T F P -> N HT HP Sh M. unfold bp_correct. change (String.eqb "adjusted" "standard") with false. change (String.eqb "adjusted" "median") with false.
  change (String.eqb "adjusted" "adjusted") with true. cbn iota. now apply by_subband_refused with T F P.
Qed.
End Band.

(** A positive factor multiplies the median. *)
Definition scaled (c : Q) (x : sample) : sample := match x with Some q => Some (q * c)%Q | None => None end.
Lemma count_scaled : forall c l, count (map (scaled c) l) = count l.
Proof. intros c. induction l as [|[q|] l IH]; cbn; auto. Qed.
Lemma ranked_scaled : forall c l k a, (0 < c)%Q -> ranked l k a -> ranked (map (scaled c) l) k (a * c).
Proof.
  intros c l k a C (I & R). split; [change (Some (a * c)%Q) with (scaled c (Some a)); now apply in_map|].
  assert (B : forall l, length (filter (below (a * c)) (map (scaled c) l)) = length (filter (below a) l)).
  { induction l0 as [|[q|] l0 IH]; cbn [map scaled filter below]; auto.
    assert (E : Qle_bool (a * c) (q * c) = Qle_bool a q).
    { apply eq_true_iff_eq. rewrite !Qle_bool_iff. split; intros H; [now apply Qmult_lt_0_le_reg_r with c|apply Qmult_le_compat_r; lra]. }
    rewrite E. destruct (negb _); cbn [length]; rewrite IH; reflexivity. }
  assert (U : forall l, length (filter (upto (a * c)) (map (scaled c) l)) = length (filter (upto a) l)).
  { induction l0 as [|[q|] l0 IH]; cbn [map scaled filter upto]; auto.
    assert (E : Qle_bool (q * c) (a * c) = Qle_bool q a).
    { apply eq_true_iff_eq. rewrite !Qle_bool_iff. split; intros H; [now apply Qmult_lt_0_le_reg_r with c|apply Qmult_le_compat_r; lra]. }
    rewrite E. destruct (Qle_bool q a); cbn [length]; rewrite IH; reflexivity. }
  now rewrite B, U.
Qed.
Lemma median_scaled : forall c l v, (0 < c)%Q -> median_of l v -> median_of (map (scaled c) l) (scaled c v).
Proof.
  intros c l [q|] C; cbn [median_of scaled].
  - intros (a & b & A & B & E). exists (a * c)%Q, (b * c)%Q. rewrite count_scaled.
    split; [now apply ranked_scaled|]. split; [now apply ranked_scaled|].
    assert (X : (2 * (q * c) == (2 * q) * c)%Q) by ring. rewrite X, E. ring.
  - intros H x I. apply in_map_iff in I. destruct I as (y & <- & I). now rewrite (H y I).
Qed.
Lemma median_ext : forall l l' v, Forall2 (fun x y => match x, y with Some a, Some b => (a == b)%Q | None, None => True | _, _ => False end) l l' ->
  median_of l v -> median_of l' v.
Proof.
  intros l l' v F.
  assert (CT : count l = count l'). { induction F as [|[a|] [b|] l l' H F IH]; cbn; try contradiction; auto. }
  assert (RK : forall k a, ranked l k a -> exists a', (a == a')%Q /\ ranked l' k a').
  { intros k a (I & R). assert (EX : exists a', (a == a')%Q /\ In (Some a') l').
    { clear R CT. induction F as [|x y l l' H F IH]; [contradiction|]. destruct I as [->|I].
      - destruct y as [b|]; [|contradiction]. exists b. split; [exact H|left; reflexivity].
      - destruct (IH I) as (a' & E & I'). exists a'. split; [exact E|now right]. }
    destruct EX as (a' & E & I'). exists a'. split; [exact E|]. split; [exact I'|].
    assert (B : length (filter (below a') l') = length (filter (below a) l)).
    { clear - F E. induction F as [|[x|] [y|] l l' H F IH]; cbn [filter below]; try contradiction; auto.
      assert (Z : Qle_bool a' y = Qle_bool a x) by (now rewrite E, H). rewrite Z. destruct (negb _); cbn [length]; now rewrite IH. }
    assert (U : length (filter (upto a') l') = length (filter (upto a) l)).
    { clear - F E. induction F as [|[x|] [y|] l l' H F IH]; cbn [filter upto]; try contradiction; auto.
      assert (Z : Qle_bool y a' = Qle_bool x a) by (now rewrite E, H). rewrite Z. destruct (Qle_bool x a); cbn [length]; now rewrite IH. }
    now rewrite B, U. }
  destruct v as [q|]; cbn [median_of].
  - intros (a & b & A & B & E). destruct (RK _ _ A) as (a' & EA & A'). destruct (RK _ _ B) as (b' & EB & B').
    exists a', b'. rewrite <- CT. split; [exact A'|]. split; [exact B'|]. now rewrite <- EA, <- EB.
  - intros H. clear CT RK. induction F as [|x y l l' H' F IH]; [contradiction|]. intros z [<-|I].
    + rewrite (H x (or_introl eq_refl)) in H'. destruct y; [contradiction|reflexivity].
    + apply IH; [|exact I]. intros w W. apply H. now right.
Qed.

(** After the median correction every channel of a sub-band has the same median. *)
Theorem median_flat : forall table n data T S r, 0 < n -> sh data = [T; S * n; 1] -> bp_correct table "median" n data = Ok r ->
  forall s, s < S ->
  (forall k, k < n -> exists q, median_of (over_time data T (s * n + k) 0) (Some q) /\ (0 < q)%Q) ->
  exists level, (0 < level)%Q /\ forall k, k < n -> median_of (over_time r T (s * n + k) 0) (Some level).
Proof.
  intros table n data T S r N Sh R s Hs POS.
  destruct (median_spec table n data T S N Sh) as (r0 & spectrum & level & R0 & _ & M1 & M2 & G). rewrite R0 in R. injection R as <-.
  assert (SP : forall k, k < n -> exists q, spectrum (s * n + k) = Some q /\ (0 < q)%Q).
  { intros k K. destruct (POS k K) as (q & Q1 & Q2). pose proof (M1 (s * n + k) ltac:(nia)) as M.
    pose proof (median_unique _ _ _ M Q1) as U. destruct (spectrum (s * n + k)) as [q'|]; [|destruct U]. exists q'. split; [reflexivity|].
    cbn in U. lra. }
  pose proof (M2 s Hs) as ML. destruct (level s) as [lv|] eqn:LV.
  2: { exfalso. destruct (SP 0 N) as (q & E & _). cbn in ML. rewrite (ML (spectrum (s * n + 0))) in E; [discriminate|].
       unfold bin. apply in_map_iff. exists 0. split; [reflexivity|]. apply in_seq. lia. }
  assert (LP : (0 < lv)%Q).
  { destruct ML as (a & b & (A & _) & (B & _) & E). unfold bin in A, B. apply in_map_iff in A, B.
    destruct A as (ka & EA & KA), B as (kb & EB & KB). apply in_seq in KA, KB.
    destruct (SP ka ltac:(lia)) as (qa & E1 & P1), (SP kb ltac:(lia)) as (qb & E2 & P2). rewrite E1 in EA. rewrite E2 in EB.
    injection EA as <-. injection EB as <-. lra. }
  exists lv. split; [exact LP|]. intros k K. destruct (SP k K) as (q & E & Q0). pose proof (M1 (s * n + k) ltac:(nia)) as M. rewrite E in M.
  assert (C : (0 < lv / q)%Q) by (apply Qlt_shift_div_l; lra).
  apply (median_scaled (lv / q) _ _ C) in M. cbn [scaled] in M.
  assert (X : median_of (map (scaled (lv / q)) (over_time data T (s * n + k) 0)) (Some lv)).
  { destruct M as (a & b & A & B & EE). exists a, b. split; [exact A|]. split; [exact B|]. rewrite <- EE. field. lra. }
  apply (median_ext _ _ _) with (2 := X). unfold over_time. rewrite map_map.
  assert (FA : forall l, (forall t, In t l -> t < T) -> Forall2 (fun x y => match x, y with Some a, Some b => (a == b)%Q | None, None => True | _, _ => False end)
     (map (fun t => scaled (lv / q) (get data [t; s * n + k; 0])) l) (map (fun t => get r0 [t; s * n + k; 0]) l)).
  { induction l as [|t l IH]; intros L; cbn [map]; constructor.
    - rewrite (G t s k) by (auto; apply L; now left). rewrite LV, E. destruct (get data [t; s * n + k; 0]) as [v|]; cbn [scaled sop sdiv]; [|exact I].
      destruct (Qeq_bool q 0) eqn:Z; [apply Qeq_bool_eq in Z; lra|]. field. lra.
    - apply IH. intros. apply L. now right. }
  apply FA. intros t I. apply in_seq in I. lia.
Qed.

(** ** Interferences *)
Section Rfi.
Variable background : nd sample -> nd sample.
Variable nanstd : nd sample -> sample.

(** A sample exceeds the background of its polarisation by more than [n] deviations. *)
Definition exceeds (n : Q) (x b std : sample) : Prop :=
  match x, b, std with Some x, Some b, Some s => (b + n * s < x)%Q | _, _, _ => False end.
Theorem clean_spec : forall n data T F P, sh data = [T; F; P] -> (0 < n)%Q ->
  let r := clean background nanstd n data in
  sh r = sh data /\
  forall t f p bg, bg = background (mkNd [T; F] (fun i => get data (i ++ [p]))) ->
    (exceeds n (get data [t; f; p]) (get bg [t; f]) (nanstd bg) -> get r [t; f; p] = None) /\
    (~ exceeds n (get data [t; f; p]) (get bg [t; f]) (nanstd bg) -> get r [t; f; p] = get data [t; f; p]).
Proof.
  intros n data T F P Sh N r. unfold r, clean. destruct (Qle_bool n 0) eqn:E; [apply Qle_bool_iff in E; lra|]. cbn [negb].
  split; [reflexivity|]. intros t f p bg EB. cbn [get nth firstn]. unfold plane. rewrite Sh. cbn [firstn]. rewrite <- EB.
  unfold above, exceeds. destruct (get data [t; f; p]) as [x|], (get bg [t; f]) as [b|], (nanstd bg) as [s|]; split; intros H; try contradiction; try reflexivity.
  - destruct (Qle_bool x (b + n * s)) eqn:L; [apply Qle_bool_iff in L; lra|reflexivity].
  - destruct (Qle_bool x (b + n * s)) eqn:L; [reflexivity|]. exfalso. apply H. destruct (Qlt_le_dec (b + n * s) x) as [|G]; [assumption|].
    apply Qle_bool_iff in G. congruence.
Qed.
Theorem clean_off : forall n data, (n <= 0)%Q -> clean background nanstd n data = data.
Proof. intros n data N. unfold clean. apply Qle_bool_iff in N. now rewrite N. Qed.
(** A higher threshold keeps at least as much. *)
Theorem clean_monotone : forall n m data T F P, sh data = [T; F; P] -> (0 < n)%Q -> (n <= m)%Q ->
  (forall x s, nanstd x = Some s -> (0 <= s)%Q) ->
  forall t f p v, get (clean background nanstd n data) [t; f; p] = Some v -> get (clean background nanstd m data) [t; f; p] = Some v.
Proof.
  intros n m data T F P Sh N M SD t f p v. 
  destruct (clean_spec n data T F P Sh N) as (_ & G). destruct (clean_spec m data T F P Sh ltac:(lra)) as (_ & G').
  specialize (G t f p _ eq_refl). specialize (G' t f p _ eq_refl). cbv zeta in G, G'.
  set (bg := background _) in *. destruct G as (G1 & G2). destruct G' as (_ & G'). intros E.
  assert (NE : ~ exceeds n (get data [t; f; p]) (get bg [t; f]) (nanstd bg)) by (intros X; rewrite (G1 X) in E; discriminate).
  rewrite (G2 NE) in E. rewrite G'; [exact E|]. intros X. apply NE. pose proof (SD bg) as SD'. clear G1 G2 G' E. unfold exceeds in *. destruct (get data [t; f; p]), (get bg [t; f]), (nanstd bg) as [s|]; try contradiction.
  specialize (SD' s eq_refl). assert (0 <= (m - n) * s)%Q by (apply Qmult_le_0_compat; lra). lra.
Qed.
End Rfi.

(** ** Gain jumps *)
Section Jumps.
Variable jump_index : nd sample -> nat.
Variable time_profile : nd sample -> list sample.
Variable fit : list sample -> list sample.

(** Never decreasing. *)
Definition ordered (l : list nat) : Prop := forall a b, a < b -> b < length l -> nth a l 0 <= nth b l 0.
Definition same (x y : sample) : Prop := match x, y with Some a, Some b => (a == b)%Q | None, None => True | _, _ => False end.
(** The value at [t] of the curve fitted to the profile from [lo] to [hi]. *)
Definition curve (profile : list sample) (lo hi t : nat) : sample :=
  nth (t - lo) (fit (firstn (hi + 1 - lo) (skipn lo profile))) None.

Lemma ordered_tail : forall a l, ordered (a :: l) -> ordered l /\ forall x, In x l -> a <= x.
Proof.
  intros a l O. split.
  - intros i j I J. apply (O (Datatypes.S i) (Datatypes.S j)); cbn; lia.
  - intros x I. destruct (In_nth l x 0 I) as (k & K & <-). apply (O 0 (Datatypes.S k)); cbn; lia.
Qed.
Lemma fitted_after : forall profile edges t, (forall x, In x edges -> t < x) -> jumps_fitted fit profile edges t = Some 1%Q.
Proof.
  intros profile. induction edges as [|a l IH]; intros t H; [reflexivity|]. destruct l as [|b l]; [reflexivity|].
  cbn [jumps_fitted]. pose proof (H a (or_introl eq_refl)). destruct (Nat.leb_spec a t); [lia|]. cbn [andb]. apply IH. intros x X. apply H. now right.
Qed.
Lemma fitted_before : forall profile pre edges t, ordered (pre ++ edges) -> hd 0 edges < t -> edges <> [] ->
  jumps_fitted fit profile (pre ++ edges) t = jumps_fitted fit profile edges t.
Proof.
  intros profile. induction pre as [|a l IH]; intros edges t O H NE; [reflexivity|]. cbn [app] in *.
  destruct (ordered_tail _ _ O) as (O' & _). destruct edges as [|e r]; [contradiction|]. cbn [hd] in H.
  rewrite <- (IH (e :: r) t O' H NE). destruct l as [|b l']; cbn [app] in *.
  - cbn [jumps_fitted]. destruct (Nat.leb_spec t e); [lia|]. rewrite andb_false_r. reflexivity.
  - destruct (ordered_tail _ _ O') as (_ & B). assert (b <= e) by (apply B; apply in_or_app; right; now left).
    cbn [jumps_fitted]. destruct (Nat.leb_spec t b); [lia|]. rewrite andb_false_r. reflexivity.
Qed.
(** Strictly between two bounds the curve of this interval only. *)
Theorem fitted_inner : forall profile pre lo hi post t, ordered (pre ++ lo :: hi :: post) -> lo < t < hi ->
  same (jumps_fitted fit profile (pre ++ lo :: hi :: post) t) (curve profile lo hi t).
Proof.
  intros profile pre lo hi post t O H. rewrite fitted_before; [|exact O|cbn; lia|discriminate].
  assert (O' : ordered (lo :: hi :: post)).
  { clear - O. induction pre; [exact O|]. apply IHpre. now apply ordered_tail in O. }
  apply ordered_tail in O'. destruct O' as (O' & _). apply ordered_tail in O'. destruct O' as (_ & B).
  assert (E : jumps_fitted fit profile (hi :: post) t = Some 1%Q).
  { apply fitted_after. intros x [<-|I]; [lia|]. specialize (B x I). lia. }
  change (jumps_fitted fit profile (lo :: hi :: post) t) with
    (if (lo <=? t) && (t <=? hi) then sop Qmult (curve profile lo hi t) (jumps_fitted fit profile (hi :: post) t)
     else jumps_fitted fit profile (hi :: post) t).
  rewrite E. destruct (Nat.leb_spec lo t); [|lia]. destruct (Nat.leb_spec t hi); [|lia]. cbn [andb].
  destruct (curve profile lo hi t) as [q|]; cbn [sop same]; [ring|exact I].
Qed.
(** At a jump, the curves of both intervals. *)
Theorem fitted_jump : forall profile pre lo j hi post, ordered (pre ++ lo :: j :: hi :: post) -> lo < j < hi ->
  same (jumps_fitted fit profile (pre ++ lo :: j :: hi :: post) j) (sop Qmult (curve profile lo j j) (curve profile j hi j)).
Proof.
  intros profile pre lo j hi post O H. rewrite fitted_before; [|exact O|cbn; lia|discriminate].
  assert (O' : ordered (lo :: j :: hi :: post)).
  { clear - O. induction pre; [exact O|]. apply IHpre. now apply ordered_tail in O. }
  apply ordered_tail in O'. destruct O' as (O' & _). apply ordered_tail in O'. destruct O' as (O' & _). apply ordered_tail in O'. destruct O' as (_ & B).
  assert (E : jumps_fitted fit profile (hi :: post) j = Some 1%Q).
  { apply fitted_after. intros x [<-|I]; [lia|]. specialize (B x I). lia. }
  change (jumps_fitted fit profile (lo :: j :: hi :: post) j) with
    (if (lo <=? j) && (j <=? j) then sop Qmult (curve profile lo j j)
       (if (j <=? j) && (j <=? hi) then sop Qmult (curve profile j hi j) (jumps_fitted fit profile (hi :: post) j) else jumps_fitted fit profile (hi :: post) j)
     else (if (j <=? j) && (j <=? hi) then sop Qmult (curve profile j hi j) (jumps_fitted fit profile (hi :: post) j) else jumps_fitted fit profile (hi :: post) j)).
  rewrite E. destruct (Nat.leb_spec lo j); [|lia]. destruct (Nat.leb_spec j hi); [|lia]. rewrite Nat.leb_refl. cbn [andb].
  destruct (curve profile lo j j), (curve profile j hi j); cbn [sop same]; try exact I. ring.
Qed.

(** The bounds: from the first sample to the last one, every six minutes in between. *)
Theorem edges_ordered : forall n dt index, 0 < n -> (0 < dt)%Q ->
  ordered (jump_edges n dt index) /\ hd 1 (jump_edges n dt index) = 0 /\ last (jump_edges n dt index) 0 = n - 1.
Proof.
  intros n dt index N D. unfold jump_edges.
  set (jumps := Z.to_nat (Qceiling (qn n * dt / 360) - 1)). set (points := Z.to_nat (Qfloor (360 / dt))).
  set (first := if points =? 0 then 0 else index mod points).
  assert (F : first < points \/ (first = 0 /\ points = 0)).
  { unfold first. destruct (Nat.eqb_spec points 0); [right; auto|left; now apply Nat.mod_upper_bound]. }
  assert (B : jumps * points < n).
  { destruct (Nat.eq_dec jumps 0) as [->|J]; [lia|]. 
    assert (A : (qn jumps < qn n * dt / 360)%Q).
    { pose proof (Qceiling_lt (qn n * dt / 360)) as C. unfold qn at 1. unfold jumps. rewrite Z2Nat.id; [exact C|].
      unfold jumps in J. destruct (Z_le_gt_dec 0 (Qceiling (qn n * dt / 360) - 1)) as [|G]; [assumption|]. exfalso. apply J. lia. }
    assert (P : (qn points <= 360 / dt)%Q).
    { unfold qn, points. pose proof (Qfloor_le (360 / dt)) as C. assert (0 <= Qfloor (360 / dt))%Z.
      { change 0%Z with (Qfloor 0). apply Qfloor_resp_le. apply Qle_shift_div_l; lra. }
      now rewrite Z2Nat.id. }
    assert (PD : (qn points * dt <= 360)%Q).
    { apply Qle_trans with (360 / dt * dt)%Q; [apply Qmult_le_compat_r; [exact P|lra]|]. assert (X : (360 / dt * dt == 360)%Q) by (field; lra). rewrite X. apply Qle_refl. }
    assert (A2 : (qn jumps * 360 < qn n * dt)%Q).
    { assert (X : (qn n * dt == qn n * dt / 360 * 360)%Q) by field. rewrite X. apply Qmult_lt_compat_r; [reflexivity|exact A]. }
    assert (Z : (qn (jumps * points) * dt < qn n * dt)%Q).
    { assert (E : (qn (jumps * points) == qn jumps * qn points)%Q) by (unfold qn; now rewrite Nat2Z.inj_mul, inject_Z_mult).
      rewrite E. apply Qle_lt_trans with (qn jumps * 360)%Q; [|exact A2].
      assert (X : (qn jumps * qn points * dt == (qn points * dt) * qn jumps)%Q) by ring. rewrite X.
      rewrite (Qmult_comm (qn jumps) 360). apply Qmult_le_compat_r; [exact PD|]. unfold qn. change 0%Q with (inject_Z 0). rewrite <- Zle_Qle. lia. }
    apply Qmult_lt_r in Z; [|exact D]. unfold qn in Z. rewrite <- Zlt_Qlt in Z. lia. }
  split; [|split; [reflexivity|]].
  - set (mid := map (fun k => first + k * points) (seq 0 jumps)).
    assert (LM : length mid = jumps) by (unfold mid; now rewrite map_length, seq_length).
    assert (NM : forall k, k < jumps -> nth k mid 0 = first + k * points).
    { intros k K. unfold mid. now rewrite (nth_map_seq _ (fun k => first + k * points)). }
    assert (IN : forall k, k < jumps -> first + k * points <= n - 1) by (intros k K; nia).
    intros a b A L. cbn [length] in L. rewrite app_length in L. cbn [length] in L. rewrite LM in L.
    destruct a as [|a]; [cbn; lia|]. destruct b as [|b]; [lia|]. cbn [nth].
    rewrite (app_nth1 mid _ 0 (n := a)) by lia. rewrite NM by lia.
    destruct (Nat.lt_ge_cases b jumps).
    + rewrite app_nth1 by lia. rewrite NM by lia. apply Nat.add_le_mono_l. apply Nat.mul_le_mono_r. lia.
    + rewrite app_nth2 by lia. replace (b - length mid) with 0 by lia. cbn [nth]. apply IN. lia.
  - rewrite app_comm_cons. apply last_last.
Qed.

Theorem jumps_off : forall dt data, correct_jumps jump_index time_profile fit false dt data = data.
Proof. reflexivity. Qed.
(** Each polarisation is divided, at every frequency, by the same curve of time. *)
Theorem jumps_spec : forall dt data T F P, sh data = [T; F; P] ->
  let r := correct_jumps jump_index time_profile fit true dt data in
  sh r = sh data /\
  forall t f p plane, plane = mkNd [T; F] (fun i => get data (i ++ [p])) ->
    get r [t; f; p] = sdiv (get data [t; f; p])
      (jumps_fitted fit (time_profile plane) (jump_edges T dt (jump_index plane)) t).
Proof.
  intros dt data T F P Sh r. split; [reflexivity|]. intros t f p pl ->. unfold r, correct_jumps. cbn [negb get nth].
  unfold plane. rewrite Sh. reflexivity.
Qed.
End Jumps.
