(** Lemmas on the calendar and the seasons (M_Night). *)
From Coq Require Import ZArith Bool String List Lia.
From Verif Require Import Base M_Sefd M_Night.
Import ListNotations.
Open Scope Z_scope.
Open Scope list_scope.

(** * Specification: dates of the Gregorian calendar *)
Definition leap_year (y : Z) : Prop := (4 | y) /\ (~ (100 | y) \/ (400 | y)).
(** Number [n] of the day of 1 January of the year [y], from 1 January of the year 1. *)
Inductive new_year : Z -> Z -> Prop :=
| ny_first : new_year 1 0
| ny_leap y n : new_year y n -> leap_year y -> new_year (y + 1) (n + 366)
| ny_common y n : new_year y n -> ~ leap_year y -> new_year (y + 1) (n + 365).
(** Month [m] of the year [y] has [k] days, after [b] days of this year. *)
Inductive month (y : Z) : Z -> Z -> Z -> Prop :=
| m1 : month y 1 0 31
| m2l : leap_year y -> month y 2 31 29
| m2c : ~ leap_year y -> month y 2 31 28
| mnext m b k : month y m b k -> 2 <= m < 12 -> month y (m + 1) (b + k) (if (m =? 3) || (m =? 5) || (m =? 8) || (m =? 10) then 30 else 31).
(** The time [t], in microseconds, is on the date [y]-[m]-[d]. *)
Definition on_date (y m d t : Z) : Prop :=
  exists n b k, new_year y n /\ month y m b k /\ 1 <= d <= k /\
    (n + b + d - 1) * 86400000000 <= t < (n + b + d) * 86400000000.
(** From 31 March to 29 September. *)
Definition summer_date (m d : Z) : Prop := m = 3 /\ d = 31 \/ 4 <= m <= 8 \/ m = 9 /\ d <= 29.

(** * Lemmas *)
Lemma leap_spec y : leap y = true <-> leap_year y.
Proof.
  unfold leap, leap_year. rewrite andb_true_iff, orb_true_iff, negb_true_iff, Z.eqb_eq, Z.eqb_neq, Z.eqb_eq.
  rewrite !Z.mod_divide by lia. tauto.
Qed.
Lemma leap_dec y : leap_year y \/ ~ leap_year y.
Proof. rewrite <- leap_spec. destruct (leap y); [left|right]; congruence. Qed.
Lemma div_step k y : 0 < k -> y / k = (y - 1) / k + (if y mod k =? 0 then 1 else 0).
Proof.
  intro K. assert (A := Z.div_mod y k). assert (B := Z.div_mod (y - 1) k). assert (C := Z.mod_pos_bound y k K). assert (D := Z.mod_pos_bound (y - 1) k K).
  set (q := y / k) in *. set (q' := (y - 1) / k) in *. set (r := y mod k) in *. set (r' := (y - 1) mod k) in *.
  assert (A' := A ltac:(lia)). assert (B' := B ltac:(lia)). clear A B.
  destruct (Z.eqb_spec r 0) as [E|E].
  - assert (k * (q - q') = 1 + r') by nia. assert (q - q' = 1) by nia. lia.
  - assert (k * (q - q') = 1 + r' - r) by nia. assert (q - q' = 0) by nia. lia.
Qed.
Lemma jan1_next y : jan1 (y + 1) = jan1 y + (if leap y then 366 else 365).
Proof.
  unfold jan1, leap. replace (y + 1 - 1) with y by lia. rewrite (div_step 4 y), (div_step 100 y), (div_step 400 y) by lia.
  assert (A : y mod 100 = 0 -> y mod 4 = 0). { intro H. apply Z.mod_divide in H; [|lia]. apply Z.mod_divide; [lia|]. apply (Z.divide_trans 4 100 y); [exists 25; lia|exact H]. }
  assert (B : y mod 400 = 0 -> y mod 100 = 0). { intro H. apply Z.mod_divide in H; [|lia]. apply Z.mod_divide; [lia|]. apply (Z.divide_trans 100 400 y); [exists 4; lia|exact H]. }
  destruct (Z.eqb_spec (y mod 4) 0), (Z.eqb_spec (y mod 100) 0), (Z.eqb_spec (y mod 400) 0); cbn [negb andb orb]; try lia; tauto.
Qed.
Lemma jan1_bounds y : 146097 * (y - 1) - 699 <= 400 * jan1 y <= 146097 * (y - 1) + 396.
Proof.
  unfold jan1. set (n := y - 1). assert (A := Z.div_mod n 4 ltac:(lia)). assert (B := Z.div_mod n 100 ltac:(lia)). assert (C := Z.div_mod n 400 ltac:(lia)).
  assert (A' := Z.mod_pos_bound n 4 ltac:(lia)). assert (B' := Z.mod_pos_bound n 100 ltac:(lia)). assert (C' := Z.mod_pos_bound n 400 ltac:(lia)). lia.
Qed.
Lemma jan1_step y : jan1 y < jan1 (y + 1).
Proof. rewrite jan1_next. destruct (leap y); lia. Qed.
Lemma jan1_up n y : jan1 y <= jan1 (y + Z.of_nat n).
Proof.
  induction n as [|n IH]; [rewrite Z.add_0_r; lia|]. assert (H := jan1_step (y + Z.of_nat n)). replace (y + Z.of_nat (S n)) with (y + Z.of_nat n + 1) by lia. lia.
Qed.
Lemma jan1_le y z : y <= z -> jan1 y <= jan1 z.
Proof. intro H. replace z with (y + Z.of_nat (Z.to_nat (z - y))) by lia. apply jan1_up. Qed.
Lemma jan1_lt_inv y z : jan1 y < jan1 z -> y < z.
Proof. intro H. destruct (Z.lt_ge_cases y z) as [L|L]; [exact L|]. apply jan1_le in L. lia. Qed.

Lemma year_bounds t : jan1 (year_of t) <= t / day_length < jan1 (year_of t + 1).
Proof.
  unfold year_of. cbv zeta. set (d := t / day_length). set (g := d * 400 / 146097 + 1).
  assert (A := Z.div_mod (d * 400) 146097 ltac:(lia)). assert (B := Z.mod_pos_bound (d * 400) 146097 ltac:(lia)).
  assert (B1 := jan1_bounds (g - 1)). assert (B2 := jan1_bounds (g + 2)). unfold g in B1, B2.
  destruct (Z.ltb_spec d (jan1 g)) as [C|C].
  - replace (g - 1 + 1) with g by lia. split; [unfold g; lia|exact C].
  - destruct (Z.leb_spec (jan1 (g + 1)) d) as [D|D]; [|lia]. replace (g + 1 + 1) with (g + 2) by lia. split; [exact D|unfold g; lia].
Qed.
Lemma year_unique t y : jan1 y <= t / day_length < jan1 (y + 1) -> year_of t = y.
Proof. intro H. assert (K := year_bounds t). assert (A : y < year_of t + 1) by (apply jan1_lt_inv; lia). assert (B : year_of t < y + 1) by (apply jan1_lt_inv; lia). lia. Qed.
Lemma year_mono s t : s <= t -> year_of s <= year_of t.
Proof.
  intro H. assert (A := year_bounds s). assert (B := year_bounds t). assert (C : s / day_length <= t / day_length) by (apply Z.div_le_mono; [reflexivity|exact H]).
  assert (year_of s < year_of t + 1) by (apply jan1_lt_inv; lia). lia.
Qed.
Lemma year_ceil_ge t : year_of t <= year_ceil t.
Proof. unfold year_ceil. destruct (_ =? _); lia. Qed.

(** ** Dates *)
Lemma new_year_jan1 y n : new_year y n <-> 1 <= y /\ n = jan1 y.
Proof.
  split.
  - induction 1 as [|y n H [A ->] L|y n H [A ->] L]; [split; [lia|reflexivity]| |]; (split; [lia|]); rewrite jan1_next; [apply leap_spec in L; rewrite L; reflexivity|].
    destruct (leap y) eqn:E; [elim L; now apply leap_spec|reflexivity].
  - intros [A ->]. replace y with (1 + Z.of_nat (Z.to_nat (y - 1))) by lia. induction (Z.to_nat (y - 1)) as [|k IH]; [apply ny_first|].
    replace (1 + Z.of_nat (S k)) with (1 + Z.of_nat k + 1) by lia. rewrite jan1_next. destruct (leap (1 + Z.of_nat k)) eqn:E; [apply ny_leap|apply ny_common]; auto.
    + now apply leap_spec.
    + rewrite <- leap_spec. congruence.
Qed.
(** The twelve months. *)
Definition feb (y : Z) : Z := if leap y then 29 else 28.
Definition is_month (y m b k : Z) : Prop :=
  m = 1 /\ b = 0 /\ k = 31 \/ m = 2 /\ b = 31 /\ k = feb y \/ m = 3 /\ b = 31 + feb y /\ k = 31 \/ m = 4 /\ b = 62 + feb y /\ k = 30 \/
  m = 5 /\ b = 92 + feb y /\ k = 31 \/ m = 6 /\ b = 123 + feb y /\ k = 30 \/ m = 7 /\ b = 153 + feb y /\ k = 31 \/ m = 8 /\ b = 184 + feb y /\ k = 31 \/
  m = 9 /\ b = 215 + feb y /\ k = 30 \/ m = 10 /\ b = 245 + feb y /\ k = 31 \/ m = 11 /\ b = 276 + feb y /\ k = 30 \/ m = 12 /\ b = 306 + feb y /\ k = 31.
Lemma month_is y m b k : month y m b k -> is_month y m b k.
Proof.
  assert (F : leap_year y /\ feb y = 29 \/ ~ leap_year y /\ feb y = 28).
  { unfold feb. rewrite <- leap_spec. destruct (leap y); [left|right]; split; congruence. }
  induction 1 as [|L|L|m b k H IH B]; unfold is_month; [lia| | |].
  - assert (feb y = 29) by tauto. lia.
  - assert (feb y = 28) by tauto. lia.
  - unfold is_month in IH. assert (C : m = 2 \/ m = 3 \/ m = 4 \/ m = 5 \/ m = 6 \/ m = 7 \/ m = 8 \/ m = 9 \/ m = 10 \/ m = 11) by lia.
    repeat (destruct C as [->|C]; [cbn [Z.eqb Pos.eqb orb]; lia|]). subst m. cbn [Z.eqb Pos.eqb orb]. lia.
Qed.
Lemma is_month_month y m b k : is_month y m b k -> month y m b k.
Proof.
  assert (F : month y 2 31 (feb y)).
  { unfold feb. destruct (leap y) eqn:E; [apply m2l; now apply leap_spec|apply m2c; rewrite <- leap_spec; congruence]. }
  assert (M3 : month y 3 (31 + feb y) 31) by exact (mnext y 2 31 (feb y) F ltac:(lia)).
  assert (M4 : month y 4 (31 + feb y + 31) 30) by exact (mnext y 3 _ _ M3 ltac:(lia)).
  assert (M5 : month y 5 (31 + feb y + 31 + 30) 31) by exact (mnext y 4 _ _ M4 ltac:(lia)).
  assert (M6 : month y 6 (31 + feb y + 31 + 30 + 31) 30) by exact (mnext y 5 _ _ M5 ltac:(lia)).
  assert (M7 : month y 7 (31 + feb y + 31 + 30 + 31 + 30) 31) by exact (mnext y 6 _ _ M6 ltac:(lia)).
  assert (M8 : month y 8 (31 + feb y + 31 + 30 + 31 + 30 + 31) 31) by exact (mnext y 7 _ _ M7 ltac:(lia)).
  assert (M9 : month y 9 (31 + feb y + 31 + 30 + 31 + 30 + 31 + 31) 30) by exact (mnext y 8 _ _ M8 ltac:(lia)).
  assert (M10 : month y 10 (31 + feb y + 31 + 30 + 31 + 30 + 31 + 31 + 30) 31) by exact (mnext y 9 _ _ M9 ltac:(lia)).
  assert (M11 : month y 11 (31 + feb y + 31 + 30 + 31 + 30 + 31 + 31 + 30 + 31) 30) by exact (mnext y 10 _ _ M10 ltac:(lia)).
  assert (M12 : month y 12 (31 + feb y + 31 + 30 + 31 + 30 + 31 + 31 + 30 + 31 + 30) 31) by exact (mnext y 11 _ _ M11 ltac:(lia)).
  unfold is_month. intro H.
  destruct H as [(-> & -> & ->)|[(-> & -> & ->)|[(-> & -> & ->)|H]]]; [apply m1|exact F|exact M3|].
  destruct H as [(-> & -> & ->)|[(-> & -> & ->)|[(-> & -> & ->)|H]]]; [replace (62 + feb y) with (31 + feb y + 31) by lia; exact M4|replace (92 + feb y) with (31 + feb y + 31 + 30) by lia; exact M5|replace (123 + feb y) with (31 + feb y + 31 + 30 + 31) by lia; exact M6|].
  destruct H as [(-> & -> & ->)|[(-> & -> & ->)|[(-> & -> & ->)|H]]]; [replace (153 + feb y) with (31 + feb y + 31 + 30 + 31 + 30) by lia; exact M7|replace (184 + feb y) with (31 + feb y + 31 + 30 + 31 + 30 + 31) by lia; exact M8|replace (215 + feb y) with (31 + feb y + 31 + 30 + 31 + 30 + 31 + 31) by lia; exact M9|].
  destruct H as [(-> & -> & ->)|[(-> & -> & ->)|(-> & -> & ->)]]; [replace (245 + feb y) with (31 + feb y + 31 + 30 + 31 + 30 + 31 + 31 + 30) by lia; exact M10|replace (276 + feb y) with (31 + feb y + 31 + 30 + 31 + 30 + 31 + 31 + 30 + 31) by lia; exact M11|replace (306 + feb y) with (31 + feb y + 31 + 30 + 31 + 30 + 31 + 31 + 30 + 31 + 30) by lia; exact M12].
Qed.
Lemma feb_cases y : leap y = true /\ feb y = 29 \/ leap y = false /\ feb y = 28.
Proof. unfold feb. destruct (leap y); auto. Qed.

Lemma day_of t k : (k - 1) * 86400000000 <= t < k * 86400000000 <-> t / day_length = k - 1.
Proof.
  change day_length with 86400000000. assert (A := Z.div_mod t 86400000000 ltac:(lia)). assert (B := Z.mod_pos_bound t 86400000000 ltac:(lia)). lia.
Qed.
Lemma date_year y m d t : on_date y m d t -> year_of t = y /\ 1 <= y.
Proof.
  intros (n & b & k & N & M & D & T). apply new_year_jan1 in N. destruct N as [Y ->]. split; [|exact Y]. apply month_is in M. unfold is_month in M.
  apply day_of in T. apply year_unique. rewrite T, jan1_next.
  destruct (feb_cases y) as [[L F]|[L F]]; rewrite L; rewrite F in M; lia.
Qed.
(** Every time from the year 1 has one date. *)
Theorem date_unique : forall t, 0 <= t -> exists y m d, on_date y m d t /\ forall y' m' d', on_date y' m' d' t -> y' = y /\ m' = m /\ d' = d.
Proof.
  intros t T. set (y := year_of t). assert (B := year_bounds t). fold y in B. assert (Y : 1 <= y).
  { assert (0 <= t / day_length) by (apply Z.div_pos; [exact T|reflexivity]). assert (1 < y + 1) by (apply jan1_lt_inv; change (jan1 1) with 0; lia). lia. }
  set (k := t / day_length - jan1 y) in *. rewrite jan1_next in B.
  assert (E : exists m b n, is_month y m b n /\ b <= k < b + n).
  { unfold is_month. destruct (feb_cases y) as [[L F]|[L F]]; rewrite L in B; rewrite F.
    all: destruct (Z.lt_ge_cases k 31); [exists 1, 0, 31; lia|]; destruct (Z.lt_ge_cases k (31 + feb y)); [exists 2, 31, (feb y); lia|].
    all: destruct (Z.lt_ge_cases k (62 + feb y)); [exists 3, (31 + feb y), 31; lia|]; destruct (Z.lt_ge_cases k (92 + feb y)); [exists 4, (62 + feb y), 30; lia|].
    all: destruct (Z.lt_ge_cases k (123 + feb y)); [exists 5, (92 + feb y), 31; lia|]; destruct (Z.lt_ge_cases k (153 + feb y)); [exists 6, (123 + feb y), 30; lia|].
    all: destruct (Z.lt_ge_cases k (184 + feb y)); [exists 7, (153 + feb y), 31; lia|]; destruct (Z.lt_ge_cases k (215 + feb y)); [exists 8, (184 + feb y), 31; lia|].
    all: destruct (Z.lt_ge_cases k (245 + feb y)); [exists 9, (215 + feb y), 30; lia|]; destruct (Z.lt_ge_cases k (276 + feb y)); [exists 10, (245 + feb y), 31; lia|].
    all: destruct (Z.lt_ge_cases k (306 + feb y)); [exists 11, (276 + feb y), 30; lia|]; exists 12, (306 + feb y), 31; lia. }
  destruct E as (m & b & n & M & K). exists y, m, (k - b + 1). split.
  - exists (jan1 y), b, n. split; [apply new_year_jan1; auto|]. split; [now apply is_month_month|]. split; [lia|].
    apply day_of. unfold k. lia.
  - intros y' m' d' D. destruct (date_year _ _ _ _ D) as [Y' _]. fold y in Y'. subst y'. split; [reflexivity|].
    destruct D as (n' & b' & k' & N & M' & D & T'). apply new_year_jan1 in N. destruct N as [_ ->]. apply month_is in M'.
    apply day_of in T'. unfold k in *. unfold is_month in M, M'.
    destruct (feb_cases y) as [[_ F]|[_ F]]; rewrite F in M, M'; lia.
Qed.

(** ** Seasons *)
Definition summer (t : Z) : bool := (summer_start (year_of t) <=? t) && (t <? winter_start (year_of t)).
Lemma season_summer t : season_from_time t = if summer t then Summer else Winter.
Proof. reflexivity. Qed.
Lemma summer_date_iff y m d t : on_date y m d t -> (summer t = true <-> summer_date m d).
Proof.
  intro D. destruct (date_year _ _ _ _ D) as [Y _]. destruct D as (n & b & k & N & M & D & T). apply new_year_jan1 in N. destruct N as [_ ->]. apply month_is in M.
  unfold summer. rewrite Y, andb_true_iff, Z.leb_le, Z.ltb_lt. unfold summer_start, winter_start, summer_date. fold (feb y). change day_length with 86400000000.
  unfold is_month in M. destruct (feb_cases y) as [[_ F]|[_ F]]; rewrite F in *; lia.
Qed.
Lemma summer_year y t : summer_start y <= t < winter_start y -> year_of t = y.
Proof.
  intro H. apply year_unique. rewrite jan1_next. assert (F := feb_cases y). unfold summer_start, winter_start in H. fold (feb y) in H. change day_length with 86400000000 in *.
  assert (A := Z.div_mod t 86400000000 ltac:(lia)). assert (B := Z.mod_pos_bound t 86400000000 ltac:(lia)). destruct F as [[L F]|[L F]]; rewrite L; rewrite F in H; lia.
Qed.
Lemma in_year y t : (summer_start y <=? t) && (t <? winter_start y) = (y =? year_of t) && summer t.
Proof.
  destruct (Z.eqb_spec y (year_of t)) as [->|N]; [reflexivity|]. destruct (andb _ _) eqn:E; [|reflexivity].
  apply andb_true_iff in E. rewrite Z.leb_le, Z.ltb_lt in E. apply summer_year in E. congruence.
Qed.
Lemma map2_length {A B C} (f : A -> B -> C) : forall l m, length l = length m -> length (map2 f l m) = length l.
Proof. induction l as [|x l IH]; intros [|y m]; cbn; intro H; try discriminate; [reflexivity|]. f_equal. auto. Qed.
Lemma map2_fuse {A} (f g : A -> bool -> bool) : forall l m, map2 f l (map2 g l m) = map2 (fun x b => f x (g x b)) l m.
Proof. induction l as [|x l IH]; intros [|y m]; cbn; congruence. Qed.
Lemma map2_ext {A B C} (f g : A -> B -> C) : (forall x y, f x y = g x y) -> forall l m, map2 f l m = map2 g l m.
Proof. intro H. induction l as [|x l IH]; intros [|y m]; cbn; congruence. Qed.
Lemma map2_map {A B C} (f : A -> B -> C) (g : A -> B) : forall l, map2 f l (map g l) = map (fun x => f x (g x)) l.
Proof. induction l as [|x l IH]; cbn; congruence. Qed.
Lemma summers_eq : forall n y l mask, length l = length mask -> summers n y l mask = map2 (fun t m => m || ((y <=? year_of t) && (year_of t <? y + Z.of_nat n) && summer t)) l mask.
Proof.
  induction n as [|n IH]; intros y l mask L; cbn [summers].
  - symmetry. transitivity (map2 (fun (_ : Z) m => m) l mask).
    + apply map2_ext. intros t m. destruct (Z.leb_spec y (year_of t)), (Z.ltb_spec (year_of t) (y + Z.of_nat 0)); try lia; cbn; now rewrite orb_false_r.
    + clear -L. revert mask L. induction l as [|x l IH]; intros [|b m] L; try discriminate; [reflexivity|]. cbn. f_equal. apply IH. now injection L.
  - rewrite IH by (rewrite map2_length; auto). rewrite map2_fuse. apply map2_ext. intros t m. rewrite in_year.
    destruct m; [reflexivity|]. cbn [orb]. destruct (Z.eqb_spec y (year_of t)), (Z.leb_spec (y + 1) (year_of t)), (Z.ltb_spec (year_of t) (y + 1 + Z.of_nat n)), (Z.leb_spec y (year_of t)), (Z.ltb_spec (year_of t) (y + Z.of_nat (S n))); try lia; cbn; destruct (summer t); reflexivity.
Qed.
Lemma mask_eq n y l : summers n y l (map (fun _ => false) l) = map (fun t => (y <=? year_of t) && (year_of t <? y + Z.of_nat n) && summer t) l.
Proof. rewrite summers_eq by now rewrite map_length. rewrite map2_map. reflexivity. Qed.
Lemma in_range (a b y : Z) : (a <=? y) && (y <? a + Z.of_nat (Z.to_nat (b - a + 1))) = (a <=? y) && (y <=? b).
Proof. destruct (Z.leb_spec a y), (Z.ltb_spec y (a + Z.of_nat (Z.to_nat (b - a + 1)))), (Z.leb_spec y b); try lia; reflexivity. Qed.
(** The first and the last of the times. *)
Definition ends (l : list Z) (a b : Z) : Prop := hd_error l = Some a /\ hd_error (rev l) = Some b.
Lemma last_rev (l : list Z) d b : hd_error (rev l) = Some b -> last l d = b.
Proof.
  destruct l as [|x l] using rev_ind; [discriminate|]. rewrite rev_app_distr. cbn. intro H. injection H as <-. apply last_last.
Qed.
Lemma summer_mask t a b : ends (as_array t) a b ->
  season_mask t "summer" = Ok (map (fun x => (year_of a <=? year_of x) && (year_of x <=? year_ceil b) && summer x) (as_array t)).
Proof.
  intros [A B]. unfold season_mask. cbn [String.eqb Ascii.eqb Bool.eqb orb negb]. cbv zeta. destruct (as_array t) as [|t0 l] eqn:E; [discriminate|]. cbn [hd_error] in A. injection A as ->.
  rewrite (last_rev _ _ _ B). rewrite mask_eq. change (String.eqb "summer" "summer") with true. cbv iota. f_equal. apply map_ext. intro x. now rewrite in_range.
Qed.
Lemma winter_mask t m : season_mask t "summer" = Ok m -> season_mask t "winter" = Ok (map negb m).
Proof. unfold season_mask. cbn [String.eqb Ascii.eqb Bool.eqb orb negb]. cbv zeta. destruct (as_array t); [discriminate|]. intro H. injection H as <-. reflexivity. Qed.

(** ** Theorems on the seasons *)
Lemma some_iff (b : bool) (P : Prop) : (b = true <-> P) -> (Some b = Some true <-> P) /\ (Some b = Some false <-> ~ P).
Proof.
  intros [A B]. destruct b; (split; split; intro X; first [discriminate|reflexivity|apply A; reflexivity|elim X; apply A; reflexivity|apply B in X; discriminate|intro Y; apply B in Y; discriminate]).
Qed.
Definition all_between (l : list Z) (a b : Z) : Prop := forall x, In x l -> a <= x <= b.
Theorem season_right : forall t a b, ends (as_array t) a b -> all_between (as_array t) a b -> exists m, season_mask t "summer" = Ok m /\ length m = length (as_array t) /\
  forall i x y mo d, nth_error (as_array t) i = Some x -> on_date y mo d x -> (nth_error m i = Some true <-> summer_date mo d) /\ (nth_error m i = Some false <-> ~ summer_date mo d).
Proof.
  intros t a b E H. eexists. split; [exact (summer_mask t a b E)|]. split; [apply map_length|]. intros i x y mo d N D. rewrite nth_error_map, N. cbn [option_map].
  assert (A := H x (nth_error_In _ _ N)). assert (B := year_mono a x ltac:(lia)). assert (C := year_mono x b ltac:(lia)). assert (K := year_ceil_ge b).
  destruct (Z.leb_spec (year_of a) (year_of x)); [|lia]. destruct (Z.leb_spec (year_of x) (year_ceil b)); [|lia]. cbn [andb].
  exact (some_iff _ _ (summer_date_iff _ _ _ _ D)).
Qed.
Theorem season_winter : forall t m, season_mask t "summer" = Ok m -> exists w, season_mask t "winter" = Ok w /\ length w = length m /\
  forall i, nth_error w i = Some true <-> nth_error m i = Some false.
Proof.
  intros t m H. eexists. split; [exact (winter_mask t m H)|]. split; [apply map_length|]. intro i. rewrite nth_error_map. destruct (nth_error m i) as [[]|]; cbn; split; congruence.
Qed.
(** Times before the year of the first, or after the end of that of the last, are always in winter. *)
Theorem season_refuted : forall t a b m i x, ends (as_array t) a b -> season_mask t "summer" = Ok m -> nth_error (as_array t) i = Some x ->
  year_of x < year_of a \/ year_of b + 1 < year_of x -> nth_error m i = Some false.
Proof.
  intros t a b m i x E M N H. rewrite (summer_mask t a b E) in M. injection M as <-. rewrite nth_error_map, N. cbn [option_map]. f_equal.
  assert (K : year_ceil b <= year_of b + 1) by (unfold year_ceil; destruct (_ =? _); lia).
  destruct (Z.leb_spec (year_of a) (year_of x)), (Z.leb_spec (year_of x) (year_ceil b)); try lia; reflexivity.
Qed.
Theorem season_errors : forall t s, (season_mask t s = Err EKeyError <-> s <> "summer"%string /\ s <> "winter"%string) /\
  (season_mask t s = Err EIndexError <-> (s = "summer"%string \/ s = "winter"%string) /\ t = Array []).
Proof.
  intros t s. unfold season_mask. destruct (String.eqb_spec s "winter") as [->|W]; [|destruct (String.eqb_spec s "summer") as [->|S]]; cbn [orb negb]; cbv zeta.
  - split; split; intro H.
    + destruct (as_array t); discriminate.
    + destruct H as [_ H]. now elim H.
    + split; [now right|]. destruct t as [x|[|x l]]; try discriminate. reflexivity.
    + destruct H as [_ ->]. reflexivity.
  - split; split; intro H.
    + destruct (as_array t); discriminate.
    + destruct H as [H _]. now elim H.
    + split; [now left|]. destruct t as [x|[|x l]]; try discriminate. reflexivity.
    + destruct H as [_ ->]. reflexivity.
  - split; split; intro H; try tauto; try discriminate.
Qed.
Theorem season_open_time : forall t y m d, on_date y m d t -> (season_from_time t = Summer <-> summer_date m d) /\ (season_from_time t = Winter <-> ~ summer_date m d).
Proof.
  intros t y m d D. rewrite season_summer. assert (I := summer_date_iff _ _ _ _ D). destruct I as [A B]. destruct (summer t); (split; split; intro X; first [discriminate|reflexivity|apply A; reflexivity|elim X; apply A; reflexivity|apply B in X; discriminate|intro Y; apply B in Y; discriminate]).
Qed.
