(** Specification of effective areas and lemmas. *)
From Coq Require Import Reals Lra Bool List Arith Lia Permutation.
From Verif Require Import Base M_Polar M_Beam M_Instru M_Area.
Import ListNotations.
Open Scope R_scope.

(** ** Specification *)
(** [m] is the largest (smallest) of the values. *)
Definition largest (l : list R) (m : R) : Prop := In m l /\ forall x, In x l -> x <= m.
Definition smallest (l : list R) (m : R) : Prop := In m l /\ forall x, In x l -> m <= x.
(** The point (x, y) is at [r] at most of an antenna seen from above. *)
Definition near (ants : list vec) (r x y : R) : Prop :=
  exists p, In p ants /\ (vx p - x) ^ 2 + (vy p - y) ^ 2 <= r ^ 2.
(** Point [i] of [n] regularly spaced between [a] and [b], both included. *)
Definition node (n : nat) (a b : R) (i : nat) : R := a + INR i * (b - a) / (INR n - 1).
(** [k] is the number of the [n * n] points of a rectangle that are at [r] at most of an
    antenna. *)
Definition nodes_near (n : nat) (x0 x1 y0 y1 : R) (ants : list vec) (r : R) (k : nat) : Prop :=
  exists l, NoDup l /\ length l = k /\
    forall i j, In (i, j) l <-> (i < n)%nat /\ (j < n)%nat /\ near ants r (node n x0 x1 j) (node n y0 y1 i).
(** The rectangle around the antennas with a margin [r]. *)
Definition frame (ants : list vec) (r x0 x1 y0 y1 : R) : Prop :=
  smallest (map vx ants) (x0 + r) /\ largest (map vx ants) (x1 - r) /\
  smallest (map vy ants) (y0 + r) /\ largest (map vy ants) (y1 - r).
(** Frequencies of waves. *)
Definition positive (l : list R) : Prop := forall x, In x l -> 0 < x.

(** ** Extrema *)
Lemma fold_max : forall l x, let m := fold_left Rmax l x in (m = x \/ In m l) /\ x <= m /\ forall y, In y l -> y <= m.
Proof.
  induction l as [|a l IH]; intros x; cbn [fold_left]; [split; [left; reflexivity|]; split; [lra|]; intros ? []|].
  destruct (IH (Rmax x a)) as (A & B & C). cbv zeta. pose proof (Rmax_l x a). pose proof (Rmax_r x a). split; [|split].
  - destruct A as [A|A]; [|right; right; exact A]. rewrite A. unfold Rmax. destruct (Rle_dec x a); [right; left; reflexivity|left; reflexivity].
  - lra.
  - intros y [<-|I]; [lra|apply C, I].
Qed.
Lemma fold_min : forall l x, let m := fold_left Rmin l x in (m = x \/ In m l) /\ m <= x /\ forall y, In y l -> m <= y.
Proof.
  induction l as [|a l IH]; intros x; cbn [fold_left]; [split; [left; reflexivity|]; split; [lra|]; intros ? []|].
  destruct (IH (Rmin x a)) as (A & B & C). cbv zeta. pose proof (Rmin_l x a). pose proof (Rmin_r x a). split; [|split].
  - destruct A as [A|A]; [|right; right; exact A]. rewrite A. unfold Rmin. destruct (Rle_dec x a); [left; reflexivity|right; left; reflexivity].
  - lra.
  - intros y [<-|I]; [lra|apply C, I].
Qed.
Lemma rmax_spec l : l <> [] -> exists m, rmax l = Ok m /\ largest l m.
Proof.
  destruct l as [|x r]; [congruence|]. intros _. cbn [rmax]. eexists. split; [reflexivity|]. destruct (fold_max r x) as (A & B & C).
  split; [destruct A as [->|A]; [left; reflexivity|right; exact A]|]. intros y [<-|I]; auto.
Qed.
Lemma rmin_spec l : l <> [] -> exists m, rmin l = Ok m /\ smallest l m.
Proof.
  destruct l as [|x r]; [congruence|]. intros _. cbn [rmin]. eexists. split; [reflexivity|]. destruct (fold_min r x) as (A & B & C).
  split; [destruct A as [->|A]; [left; reflexivity|right; exact A]|]. intros y [<-|I]; auto.
Qed.
Lemma largest_unique l m m' : largest l m -> largest l m' -> m = m'.
Proof. intros [A B] [C D]. apply Rle_antisym; auto. Qed.
Lemma smallest_unique l m m' : smallest l m -> smallest l m' -> m = m'.
Proof. intros [A B] [C D]. apply Rle_antisym; auto. Qed.
Lemma rmax_of l m : largest l m -> rmax l = Ok m.
Proof.
  intros H. assert (N : l <> []) by (intros ->; destruct H as [[] _]). destruct (rmax_spec l N) as (m' & E & H'). rewrite E. f_equal.
  eapply largest_unique; eassumption.
Qed.
Lemma rmin_of l m : smallest l m -> rmin l = Ok m.
Proof.
  intros H. assert (N : l <> []) by (intros ->; destruct H as [[] _]). destruct (rmin_spec l N) as (m' & E & H'). rewrite E. f_equal.
  eapply smallest_unique; eassumption.
Qed.

(** ** Grid *)
Lemma lin_node n a b i : (0 < n)%nat -> lin a b n i = node n a b i.
Proof. intro H. unfold lin, node. rewrite minus_INR by lia. cbn [INR]. unfold Rdiv. ring. Qed.
Lemma in_disks_spec ants r x y : 0 <= r -> in_disks ants r x y = true <-> near ants r x y.
Proof.
  intro Hr. unfold in_disks, near. rewrite existsb_exists. split.
  - intros (p & I & H). exists p. split; [exact I|]. destruct (Rle_dec (dist2d p x y) r) as [L|]; [|discriminate]. unfold dist2d in L.
    assert (L' : 0 <= sqrt ((vx p - x) ^ 2 + (vy p - y) ^ 2) <= r) by (split; [apply sqrt_pos|exact L]). apply (pow_incr _ _ 2) in L'. rewrite pow2_sqrt in L'; [exact L'|]. pose proof (pow2_ge_0 (vx p - x)). pose proof (pow2_ge_0 (vy p - y)). lra.
  - intros (p & I & H). exists p. split; [exact I|]. destruct (Rle_dec (dist2d p x y) r) as [L|L]; [reflexivity|]. exfalso. apply L. unfold dist2d.
    rewrite <- (sqrt_pow2 r Hr). apply sqrt_le_1_alt, H.
Qed.
Lemma NoDup_list_prod {A B} (l : list A) (m : list B) : NoDup l -> NoDup m -> NoDup (list_prod l m).
Proof.
  intros N M. induction N as [|x l I N IH]; [constructor|]. cbn [list_prod].
  assert (D : forall a b, NoDup a -> NoDup b -> (forall x : A * B, In x a -> ~ In x b) -> NoDup (a ++ b)).
  { intros a b Ha Hb. induction Ha as [|y a J Ha IHa]; intro F; [exact Hb|]. cbn. constructor.
    - intro K. apply in_app_or in K. destruct K as [K|K]; [auto|]. apply (F y); [left; reflexivity|exact K].
    - apply IHa. intros z Z. apply F. right. exact Z. }
  apply D; [|exact IH|].
  - apply FinFun.Injective_map_NoDup; [|exact M]. intros a b E. now injection E.
  - intros [u v] J K. apply in_map_iff in J. destruct J as (w & E & _). injection E as <- <-. apply in_prod_iff in K. tauto.
Qed.
Lemma count_spec n bx bY ants r : 0 <= r ->
  nodes_near n (fst bx) (snd bx) (fst bY) (snd bY) ants r (grid_count n bx bY ants r).
Proof.
  intro Hr. eexists. split; [|split; [reflexivity|]].
  - apply NoDup_filter, NoDup_list_prod; apply seq_NoDup.
  - intros i j. rewrite filter_In, in_prod_iff, !in_seq. cbn [fst snd]. rewrite in_disks_spec by exact Hr. cbn [Nat.add]. split.
    + intros [[[_ A] [_ B]] C]. rewrite !lin_node in C by lia. auto.
    + intros [A [B C]]. rewrite !lin_node by lia. repeat split; auto; lia.
Qed.
Lemma nodes_unique n x0 x1 y0 y1 ants r k k' : nodes_near n x0 x1 y0 y1 ants r k -> nodes_near n x0 x1 y0 y1 ants r k' -> k = k'.
Proof.
  intros (l & N & <- & H) (l' & N' & <- & H'). apply Nat.le_antisymm; apply NoDup_incl_length; try assumption; intros [i j] I; apply H in I || apply H' in I; [apply H'|apply H]; exact I.
Qed.
Lemma nodes_le n x0 x1 y0 y1 ants ants' r r' k k' : (forall x y, near ants r x y -> near ants' r' x y) ->
  nodes_near n x0 x1 y0 y1 ants r k -> nodes_near n x0 x1 y0 y1 ants' r' k' -> (k <= k')%nat.
Proof.
  intros M (l & N & <- & H) (l' & N' & <- & H'). apply NoDup_incl_length; [exact N|]. intros [i j] I. apply H'. apply H in I. destruct I as (A & B & C). auto.
Qed.
Lemma nodes_bound n x0 x1 y0 y1 ants r k : nodes_near n x0 x1 y0 y1 ants r k -> (k <= n * n)%nat.
Proof.
  intros (l & N & <- & H). rewrite <- (seq_length n 0) at 1. rewrite <- (seq_length n 0) at 2. rewrite <- prod_length. apply NoDup_incl_length; [exact N|].
  intros [i j] I. apply in_prod_iff. rewrite !in_seq. apply H in I. lia.
Qed.

(** ** The area *)
Lemma radius_pos f : 0 <= ant_radius f. Proof. apply sqrt_pos. Qed.
Lemma step_value n b : (1 < n)%nat -> step n b = (snd b - fst b) / (INR n - 1).
Proof. intro H. unfold step. rewrite !lin_node by lia. unfold node. cbn [INR]. unfold Rdiv. ring. Qed.
Lemma radius_largest fs : fs <> [] -> exists f, In f fs /\ largest (map ant_radius fs) (ant_radius f).
Proof.
  intro N. destruct (rmax_spec (map ant_radius fs)) as (m & _ & H); [intro E; apply map_eq_nil in E; auto|].
  pose proof (proj1 H) as I. apply in_map_iff in I. destruct I as (f & <- & I). eauto.
Qed.
Lemma area_eq ants fs el rm x0 x1 y0 y1 : largest (map ant_radius fs) rm -> frame ants rm x0 x1 y0 y1 ->
  ma_area ants fs el = Ok (map (fun f => INR (grid_count resolution (x0, x1) (y0, y1) ants (ant_radius f)) *
    ((x1 - x0) / (INR resolution - 1)) * ((y1 - y0) / (INR resolution - 1)) * sin el) fs).
Proof.
  intros H (A & B & C & D). unfold ma_area. rewrite (rmax_of _ _ H). cbn [bind]. unfold grid_bounds.
  rewrite (rmin_of _ _ A), (rmax_of _ _ B), (rmin_of _ _ C), (rmax_of _ _ D). cbn [bind].
  replace (x0 + rm - rm) with x0 by ring. replace (x1 - rm + rm) with x1 by ring. replace (y0 + rm - rm) with y0 by ring. replace (y1 - rm + rm) with y1 by ring.
  f_equal. apply map_ext. intro f. rewrite !step_value by (unfold resolution; lia). reflexivity.
Qed.
Lemma frame_exists ants rm : ants <> [] -> exists x0 x1 y0 y1, frame ants rm x0 x1 y0 y1.
Proof.
  intro N. assert (Nx : map vx ants <> []) by (intro E; apply map_eq_nil in E; auto). assert (Ny : map vy ants <> []) by (intro E; apply map_eq_nil in E; auto).
  destruct (rmin_spec _ Nx) as (a & _ & A), (rmax_spec _ Nx) as (b & _ & B), (rmin_spec _ Ny) as (c & _ & C), (rmax_spec _ Ny) as (d & _ & D).
  exists (a - rm), (b + rm), (c - rm), (d + rm). unfold frame.
  replace (a - rm + rm) with a by ring. replace (b + rm - rm) with b by ring. replace (c - rm + rm) with c by ring. replace (d + rm - rm) with d by ring. auto.
Qed.

(** Value of the area. *)
Theorem area_value : forall ants fs el l, ma_area ants fs el = Ok l ->
  length l = length fs /\
  exists rm x0 x1 y0 y1, largest (map ant_radius fs) rm /\ frame ants rm x0 x1 y0 y1 /\
  forall i f a, nth_error fs i = Some f -> nth_error l i = Some a ->
  exists k, nodes_near 500 x0 x1 y0 y1 ants (ant_radius f) k /\ a = INR k * ((x1 - x0) / 499) * ((y1 - y0) / 499) * sin el.
Proof.
  intros ants fs el l E. destruct fs as [|f0 fs]; [discriminate|]. destruct ants as [|p0 ants].
  { exfalso. unfold ma_area in E. destruct (rmax_spec (map ant_radius (f0 :: fs))) as (m & Em & _); [discriminate|]. rewrite Em in E. discriminate. }
  destruct (radius_largest (f0 :: fs)) as (g & Ig & Hg); [discriminate|].
  destruct (frame_exists (p0 :: ants) (ant_radius g)) as (x0 & x1 & y0 & y1 & F); [discriminate|].
  rewrite (area_eq _ _ _ _ _ _ _ _ Hg F) in E. apply f_equal with (f := fun r => match r with Ok x => x | Err _ => [] end) in E. cbv beta iota in E. subst l. split; [apply map_length|].
  exists (ant_radius g), x0, x1, y0, y1. split; [exact Hg|]. split; [exact F|]. intros i f a Hf Ha.
  rewrite nth_error_map, Hf in Ha. injection Ha as <-. exists (grid_count 500 (x0, x1) (y0, y1) (p0 :: ants) (ant_radius f)). split.
  - apply (count_spec 500 (x0, x1) (y0, y1)), radius_pos.
  - replace 499 with (INR 500 - 1); [reflexivity|]. rewrite INR_IZR_INZ. cbn. lra.
Qed.
Theorem area_defined : forall ants fs el, (exists l, ma_area ants fs el = Ok l) <-> ants <> [] /\ fs <> [].
Proof.
  intros ants fs el. split.
  - intros (l & E). split; intros ->; [|discriminate]. unfold ma_area in E. destruct (rmax (map ant_radius fs)); discriminate.
  - intros [A F]. destruct (radius_largest fs F) as (g & Ig & Hg). destruct (frame_exists ants (ant_radius g) A) as (x0 & x1 & y0 & y1 & Fr).
    rewrite (area_eq _ _ _ _ _ _ _ _ Hg Fr). eauto.
Qed.
Theorem area_error : forall ants fs el, ants = [] \/ fs = [] -> ma_area ants fs el = Err EValueError.
Proof.
  intros ants fs el [->| ->]; [|reflexivity]. unfold ma_area. destruct (rmax (map ant_radius fs)) eqn:E; [reflexivity|]. cbn. destruct fs; [now injection E as <-|discriminate].
Qed.
