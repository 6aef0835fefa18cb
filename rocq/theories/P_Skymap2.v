(** Maps of skies: the image of values at scattered positions. *)
From Coq Require Import ZArith QArith Qround Qabs Bool List Lia Lqa Permutation.
From Verif Require Import Base M_Skymap.
Import ListNotations.
Open Scope nat_scope.
Open Scope list_scope.

(** A position of the slice: its pixel coordinates, value, and whether it is below the horizon *)
Record spot := mkSpot { at_ : option Q * option Q; val : option Q; below : bool }.
Definition show (only : bool) (s : spot) : option Q := if only && below s then None else val s.
(** The call made by [plot] *)
Definition image (nx ny : nat) (only : bool) (l : list spot) : res (list (list (option Q))) :=
  project nx ny (map at_ l) (map val l) (if only then Some (map below l) else None).
(** Pixel [i] covers the coordinates from [i] to [i] + 1, excluded. *)
Definition within (i : nat) (x : Q) : bool := Qle_bool (inject_Z (Z.of_nat i)) x && negb (Qle_bool (inject_Z (Z.of_nat i) + 1) x).
Definition falls (i j : nat) (p : option Q * option Q) : bool :=
  match p with (Some x, Some y) => within i x && within j y | _ => false end.
Definition here (only : bool) (i j : nat) (l : list spot) : list (option Q) := map (show only) (filter (fun s => falls i j (at_ s)) l).
Definition total (l : list Q) : Q := fold_right Qplus 0%Q l.
(** The mean of the values, NaN if there is none or one is NaN *)
Definition average (l : list (option Q)) (v : option Q) : Prop :=
  (l = [] -> v = None) /\ (In None l -> v = None) /\
  (forall q, l = map Some q -> q <> [] -> exists m, v = Some m /\ (m * inject_Z (Z.of_nat (length q)) == total q)%Q).

Definition pixel (img : list (list (option Q))) (i j : nat) : option Q := nth i (nth j img []) None.

Lemma within_floor : forall i x, within i x = true <-> Qfloor x = Z.of_nat i.
Proof.
  intros i x. unfold within. rewrite andb_true_iff, negb_true_iff. split.
  - intros [A B]. apply Qle_bool_iff in A.
    assert (B' : (x < inject_Z (Z.of_nat i) + 1)%Q) by (apply Qnot_le_lt; intros X; apply Qle_bool_iff in X; congruence).
    change 1%Q with (inject_Z 1) in B'. rewrite <- inject_Z_plus in B'.
    assert (L : (inject_Z (Z.of_nat i) < inject_Z (Qfloor x + 1))%Q) by (pose proof (Qlt_floor x); lra).
    assert (U : (inject_Z (Qfloor x) < inject_Z (Z.of_nat i + 1))%Q) by (pose proof (Qfloor_le x); lra).
    rewrite <- Zlt_Qlt in L, U. lia.
  - intros <-. split; [apply Qle_bool_iff; apply Qfloor_le|].
    destruct (Qle_bool _ x) eqn:E; [|reflexivity]. apply Qle_bool_iff in E. pose proof (Qlt_floor x) as F. rewrite inject_Z_plus in F. change (inject_Z 1) with 1%Q in F. lra.
Qed.

Section Image.
Variables nx ny : nat.

Lemma cell_lt : forall p k, cell nx ny p = Some k -> k < nx * ny.
Proof.
  intros [[x|] [y|]] k H; cbn in H; try discriminate. destruct (_ && _) eqn:E; [|discriminate]. injection H as <-.
  apply andb_true_iff in E. destruct E as [E1 E2]. apply andb_true_iff in E1, E2. destruct E1 as [A1 A2], E2 as [B1 B2].
  apply Z.leb_le in A1, B1. apply Z.ltb_lt in A2, B2. nia.
Qed.
Lemma cell_falls : forall p i j, i < nx -> j < ny -> (cell nx ny p = Some (i * ny + j) <-> falls i j p = true).
Proof.
  intros [[x|] [y|]] i j I J; cbn; try (split; discriminate). rewrite andb_true_iff, !within_floor. split.
  - destruct (_ && _) eqn:E; [|discriminate]. intros H. injection H as H.
    apply andb_true_iff in E. destruct E as [E1 E2]. apply andb_true_iff in E1, E2. destruct E1 as [A1 A2], E2 as [B1 B2].
    apply Z.leb_le in A1, B1. apply Z.ltb_lt in A2, B2.
    set (a := Z.to_nat (Qfloor x)) in *. set (b := Z.to_nat (Qfloor y)) in *. assert (Hb : b < ny) by lia.
    assert (a = i) by nia. assert (b = j) by nia. lia.
  - intros [-> ->]. rewrite !(proj2 (Z.leb_le _ _)) by lia. rewrite !(proj2 (Z.ltb_lt _ _)) by lia. cbn [andb]. now rewrite !Nat2Z.id.
Qed.

Definition kept_of (only : bool) (l : list spot) : list (nat * option Q) :=
  flat_map (fun s => match cell nx ny (at_ s) with Some k => [(k, show only s)] | None => [] end) l.
Lemma kept_eq : forall (only : bool) l,
  flat_map (fun (q : (option Q * option Q) * option Q) => match cell nx ny (fst q) with Some k => [(k, snd q)] | None => [] end)
    (combine (map at_ l) (match (if only then Some (map below l) else None) with
                          | None => map val l
                          | Some m => map (fun (q : option Q * bool) => if snd q then (None : option Q) else fst q) (combine (map val l) m)
                          end)) = kept_of only l.
Proof.
  intros only l. induction l as [|s l IH]; [now destruct only|]. destruct only; cbn in *; rewrite IH; reflexivity.
Qed.
Lemma kept_lt : forall only l q, In q (kept_of only l) -> fst q < nx * ny.
Proof.
  intros only l q H. apply in_flat_map in H. destruct H as (s & _ & H). destruct (cell nx ny (at_ s)) eqn:E; [|contradiction].
  destruct H as [<-|[]]. now apply cell_lt in E.
Qed.
Lemma kept_here : forall only l i j, i < nx -> j < ny ->
  map snd (filter (fun q => fst q =? i * ny + j) (kept_of only l)) = here only i j l.
Proof.
  intros only l i j I J. unfold here, kept_of. induction l as [|s l IH]; [reflexivity|]. cbn [flat_map filter].
  rewrite filter_app, map_app, IH. pose proof (cell_falls (at_ s) i j I J) as F.
  destruct (cell nx ny (at_ s)) as [k|] eqn:E.
  - cbn [filter fst]. destruct (Nat.eqb_spec k (i * ny + j)) as [->|N].
    + rewrite (proj1 F eq_refl). reflexivity.
    + destruct (falls i j (at_ s)); [|reflexivity]. exfalso. apply N. assert (X : Some k = Some (i * ny + j)) by now apply F. congruence.
  - destruct (falls i j (at_ s)); [|reflexivity]. exfalso. assert (X : None = Some (i * ny + j)) by now apply F. discriminate.
Qed.

(** ** The four passes over the arrays *)

Definition hit (k : nat) (c : list nat) : bool := existsb (fun x => k =? x) c.
Lemma put_nth : forall (c : list nat) (g : nat -> option Q) d k, (forall x, In x c -> x < length d) -> k < length d ->
  nth k (fold_left (fun d q => upd (fst q) (snd q) d) (map (fun x => (x, g x)) c) d) None = if hit k c then g k else nth k d None.
Proof.
  induction c as [|x c IH]; intros g d k H K; [reflexivity|]. cbn [map fold_left fst snd].
  rewrite IH; [|intros; rewrite upd_length; apply H; now right|now rewrite upd_length].
  unfold hit. cbn [existsb]. destruct (existsb (fun x0 => k =? x0) c); [now rewrite orb_true_r|]. rewrite orb_false_r.
  rewrite nth_upd by assumption. destruct (Nat.eqb_spec k x) as [->|N]; [reflexivity|]. reflexivity.
Qed.
Lemma zero_nth : forall (c : list nat) (d : list (option Q)) k, (forall x, In x c -> x < length d) -> k < length d ->
  nth k (fold_left (fun d k => upd k (Some 0%Q) d) c d) None = if hit k c then Some 0%Q else nth k d None.
Proof.
  intros c d k H K. rewrite <- (put_nth c (fun _ => Some 0%Q) d k H K). f_equal. clear. revert d. induction c; intros d; [reflexivity|]. cbn. apply IHc.
Qed.
Lemma count_nth : forall (c : list nat) w k, (forall x, In x c -> x < length w) -> k < length w ->
  nth k (fold_left (fun w k => upd k (S (nth k w 0)) w) c w) 0 = nth k w 0 + length (filter (fun x => x =? k) c).
Proof.
  induction c as [|x c IH]; intros w k H K; [cbn; lia|]. cbn [fold_left filter].
  rewrite IH; [|intros; rewrite upd_length; apply H; now right|now rewrite upd_length].
  rewrite nth_upd by assumption. rewrite (Nat.eqb_sym k x). destruct (Nat.eqb_spec x k) as [->|N]; [cbn [length]|]; try lia.
Qed.
Lemma sum_nth : forall (l : list (nat * option Q)) d k, (forall x, In x l -> fst x < length d) -> k < length d ->
  nth k (fold_left (fun d q => upd (fst q) (add (nth (fst q) d None) (snd q)) d) l d) None =
  fold_left add (map snd (filter (fun q => fst q =? k) l)) (nth k d None).
Proof.
  induction l as [|x l IH]; intros d k H K; [reflexivity|]. cbn [fold_left filter].
  rewrite IH; [|intros; rewrite upd_length; apply H; now right|now rewrite upd_length].
  rewrite nth_upd by assumption. rewrite (Nat.eqb_sym k (fst x)). destruct (Nat.eqb_spec (fst x) k) as [E|N]; [|reflexivity].
  cbn [map fold_left]. now rewrite E.
Qed.
Lemma fold_length : forall A B (f : list A -> B -> list A) l d, (forall d b, length (f d b) = length d) -> length (fold_left f l d) = length d.
Proof. intros A B f l. induction l; intros d H; [reflexivity|]. cbn. rewrite IHl by assumption. apply H. Qed.

Lemma add_none : forall l, fold_left add l None = None.
Proof. induction l; [reflexivity|]. cbn. exact IHl. Qed.
Lemma add_nan : forall l d, In None l -> fold_left add l d = None.
Proof. induction l as [|x l IH]; intros d []; cbn; [subst; destruct d; apply add_none|now apply IH]. Qed.
Lemma add_some : forall q a, exists b, fold_left add (map Some q) (Some a) = Some b /\ (b == a + total q)%Q.
Proof.
  induction q as [|x q IH]; intros a; cbn [map fold_left add total fold_right].
  - exists a. split; [reflexivity|]. cbn. ring.
  - destruct (IH (a + x)%Q) as (b & E & F). exists b. split; [exact E|]. rewrite F. unfold total. ring.
Qed.
Lemma hit_filter : forall (l : list (nat * option Q)) k, hit k (map fst l) = negb (length (filter (fun q => fst q =? k) l) =? 0).
Proof.
  intros l k. unfold hit. induction l as [|x l IH]; [reflexivity|]. cbn [map existsb filter]. rewrite IH, (Nat.eqb_sym k).
  destruct (fst x =? k); reflexivity.
Qed.
Lemma count_filter : forall (l : list (nat * option Q)) k, length (filter (fun x => x =? k) (map fst l)) = length (filter (fun q => fst q =? k) l).
Proof. intros l k. induction l as [|x l IH]; [reflexivity|]. cbn. destruct (fst x =? k); cbn; now rewrite IH. Qed.

(** ** C187: each pixel is the mean of the values which fall into it. *)
Theorem image_pixel : forall only l, exists img, image nx ny only l = Ok img /\ length img = ny /\ Forall (fun r => length r = nx) img /\
  forall i j, i < nx -> j < ny -> average (here only i j l) (pixel img i j).
Proof.
  intros only l. unfold image, project. rewrite !map_length, Nat.eqb_refl. cbn [negb]. cbv zeta. rewrite kept_eq.
  set (K := kept_of only l).
  set (d0 := repeat (None : option Q) (nx * ny)). set (d1 := fold_left (fun d k => upd k (Some 0%Q) d) (map fst K) d0).
  set (w := fold_left (fun w k => upd k (S (nth k w 0)) w) (map fst K) (repeat 0 (nx * ny))).
  set (w1 := map (fun w => if w =? 0 then 1 else w) w).
  set (d2 := fold_left (fun d q => upd (fst q) (add (nth (fst q) d None) (snd q)) d) K d1).
  set (d3 := fold_left _ (map _ (map fst K)) d2).
  eexists. split; [reflexivity|]. split; [now rewrite map_length, seq_length|].
  split; [apply Forall_forall; intros r R; apply in_map_iff in R; destruct R as (j & <- & _); now rewrite map_length, seq_length|].
  intros i j I J. unfold pixel.
  rewrite nth_indep with (d' := (fun j => map (fun i => nth (i * ny + j) d3 None) (seq 0 nx)) 0) by now rewrite map_length, seq_length.
  rewrite (map_nth (fun j => map (fun i => nth (i * ny + j) d3 None) (seq 0 nx))). rewrite seq_nth by exact J. cbn [Nat.add].
  rewrite nth_indep with (d' := (fun i => nth (i * ny + j) d3 None) 0) by now rewrite map_length, seq_length.
  rewrite (map_nth (fun i => nth (i * ny + j) d3 None)). rewrite seq_nth by exact I. cbn [Nat.add].
  set (k := i * ny + j). assert (Kk : k < nx * ny) by (unfold k; nia).
  assert (L0 : length d0 = nx * ny) by apply repeat_length.
  assert (L1 : length d1 = nx * ny) by (unfold d1; rewrite fold_length; [exact L0|intros; apply upd_length]).
  assert (L2 : length d2 = nx * ny) by (unfold d2; rewrite fold_length; [exact L1|intros; apply upd_length]).
  assert (Cl : forall x, In x (map fst K) -> x < nx * ny) by (intros x X; apply in_map_iff in X; destruct X as (q & <- & Q); now apply (kept_lt only l)).
  pose proof (kept_here only l i j I J) as Hh. fold K k in Hh.
  set (F := filter (fun q => fst q =? k) K) in *.
  assert (N1 : nth k d1 None = if length F =? 0 then None else Some 0%Q).
  { unfold d1. rewrite zero_nth by (rewrite L0; auto). rewrite hit_filter. fold F. destruct (length F =? 0); cbn [negb]; [apply nth_repeat|reflexivity]. }
  assert (N2 : nth k d2 None = fold_left add (here only i j l) (nth k d1 None)).
  { unfold d2. rewrite sum_nth; [|intros x X; rewrite L1; now apply (kept_lt only l)|now rewrite L1]. fold F. now rewrite Hh. }
  assert (NW : nth k w1 0 = if length F =? 0 then 1 else length F).
  { unfold w1. rewrite nth_indep with (d' := (fun w => if w =? 0 then 1 else w) 0).
    - rewrite (map_nth (fun w => if w =? 0 then 1 else w)). unfold w. rewrite count_nth by (rewrite repeat_length; auto).
      rewrite nth_repeat, count_filter. reflexivity.
    - unfold w. rewrite map_length, fold_length, repeat_length; [exact Kk|intros; apply upd_length]. }
  assert (N3 : nth k d3 None = if length F =? 0 then None else over (nth k d2 None) (length F)).
  { unfold d3. rewrite (put_nth (map fst K) (fun k => over (nth k d2 None) (nth k w1 0))) by (rewrite L2; auto).
    rewrite hit_filter. fold F. rewrite NW. destruct (Nat.eqb_spec (length F) 0) as [E|E]; cbn [negb]; [|reflexivity].
    rewrite N2, N1. destruct F; [|discriminate]. rewrite <- Hh. reflexivity. }
  assert (HL : length (here only i j l) = length F) by (rewrite <- Hh; apply map_length).
  rewrite N3. split; [|split].
  - intros E. rewrite E in HL. cbn in HL. now rewrite <- HL.
  - intros X. destruct (length F =? 0); [reflexivity|]. rewrite N2. rewrite (add_nan _ _ X). reflexivity.
  - intros q E NE. rewrite E, map_length in HL. destruct (Nat.eqb_spec (length F) 0) as [Z0|Z0].
    + exfalso. destruct q; [congruence|cbn in HL; lia].
    + rewrite N2, N1, E. destruct (Nat.eqb_spec (length F) 0); [contradiction|]. destruct (add_some q 0%Q) as (b & B1 & B2). rewrite B1. cbn [over].
      eexists. split; [reflexivity|]. rewrite HL, B2.
      assert (P : (0 < inject_Z (Z.of_nat (length F)))%Q) by (change 0%Q with (inject_Z 0); rewrite <- Zlt_Qlt; lia). field. lra.
Qed.
End Image.

(** Values and coordinates of different lengths are refused. *)
Theorem image_refused : forall nx ny points values hidden, length values <> length points -> project nx ny points values hidden = Err EIndexError.
Proof. intros. unfold project. apply Nat.eqb_neq in H. now rewrite H. Qed.

(** The mean is determined by the values, whatever their order. *)
Lemma total_perm : forall a b, Permutation a b -> (total a == total b)%Q.
Proof. intros a b P. induction P as [|x a b P IH|x y a|a b c P IH P' IH']; unfold total in *; cbn [fold_right].
  - reflexivity.
  - now rewrite IH.
  - ring.
  - now rewrite IH.
Qed.
Lemma all_some : forall l : list (option Q), In None l \/ exists q, l = map Some q.
Proof.
  induction l as [|[x|] l IH]; [right; now exists []| |left; now left].
  destruct IH as [H|(q & ->)]; [left; now right|right; now exists (x :: q)].
Qed.
Definition close (a b : option Q) : Prop := match a, b with None, None => True | Some a, Some b => (a == b)%Q | _, _ => False end.
Lemma average_perm : forall l l' v v', Permutation l l' -> average l v -> average l' v' -> close v v'.
Proof.
  intros l l' v v' P (A1 & A2 & A3) (B1 & B2 & B3). destruct (all_some l) as [N|(q & ->)].
  - rewrite (A2 N). rewrite (B2 (Permutation_in _ P N)). exact I.
  - apply Permutation_sym, Permutation_map_inv in P. destruct P as (q' & -> & P). destruct q as [|x q].
    + apply Permutation_nil in P. subst. rewrite (A1 eq_refl), (B1 eq_refl). exact I.
    + destruct (A3 _ eq_refl) as (m & -> & M); [discriminate|].
      destruct (B3 _ eq_refl) as (m' & -> & M'); [intros ->; apply Permutation_sym, Permutation_nil in P; discriminate|].
      cbn [close]. rewrite (Permutation_length P) in M. rewrite (total_perm _ _ P) in M.
      assert (Z0 : (0 < inject_Z (Z.of_nat (length q')))%Q).
      { change 0%Q with (inject_Z 0). rewrite <- Zlt_Qlt. apply Permutation_length in P. cbn in P. lia. }
      apply (Qmult_inj_r m m' (inject_Z (Z.of_nat (length q')))); lra.
Qed.
Lemma filter_perm : forall A (f : A -> bool) a b, Permutation a b -> Permutation (filter f a) (filter f b).
Proof.
  intros A f a b P. induction P; cbn; auto.
  - destruct (f x); auto.
  - destruct (f x), (f y); auto. apply perm_swap.
  - eapply perm_trans; eauto.
Qed.
(** ** C188: the image depends on the set of positions and values only. *)
Theorem image_order : forall nx ny only l l' img img', Permutation l l' -> image nx ny only l = Ok img -> image nx ny only l' = Ok img' ->
  forall i j, i < nx -> j < ny -> close (pixel img i j) (pixel img' i j).
Proof.
  intros nx ny only l l' img img' P E E' i j I J.
  destruct (image_pixel nx ny only l) as (m & M & _ & _ & A). rewrite E in M. injection M as <-.
  destruct (image_pixel nx ny only l') as (m & M & _ & _ & B). rewrite E' in M. injection M as <-.
  apply (average_perm (here only i j l) (here only i j l')); [|now apply A|now apply B].
  unfold here. apply Permutation_map. now apply filter_perm.
Qed.

(** Weighted by the number of positions in each pixel, the image has the sum of the values in it. *)
Definition or_zero (v : option Q) : Q := match v with Some q => q | None => 0%Q end.
Definition in_image (nx ny : nat) (s : spot) : bool :=
  match at_ s with
  | (Some x, Some y) => Qle_bool 0 x && negb (Qle_bool (inject_Z (Z.of_nat nx)) x) && (Qle_bool 0 y && negb (Qle_bool (inject_Z (Z.of_nat ny)) y))
  | _ => false
  end.
Definition every (nx ny : nat) : list (nat * nat) := list_prod (seq 0 nx) (seq 0 ny).

Lemma total_cons : forall x l, total (x :: l) = (x + total l)%Q.
Proof. reflexivity. Qed.
Lemma total_ext : forall A (f g : A -> Q) l, (forall x, In x l -> (f x == g x)%Q) -> (total (map f l) == total (map g l))%Q.
Proof.
  induction l as [|x l IH]; intros H; [reflexivity|]. cbn [map]. rewrite !total_cons, (H x) by now left. apply Qplus_comp; [reflexivity|].
  apply IH. intros. apply H. now right.
Qed.
Lemma total_plus : forall A (f g : A -> Q) l, (total (map (fun x => f x + g x) l) == total (map f l) + total (map g l))%Q.
Proof. induction l as [|x l IH]; [reflexivity|]. cbn [map]. rewrite !total_cons, IH. ring. Qed.
Lemma total_zero : forall A (f : A -> Q) l, (forall x, In x l -> f x == 0)%Q -> (total (map f l) == 0)%Q.
Proof.
  induction l as [|x l IH]; intros H; [reflexivity|]. cbn [map]. rewrite total_cons, (H x) by now left. rewrite IH; [reflexivity|].
  intros. apply H. now right.
Qed.
Lemma total_one : forall A (f : A -> Q) l x, NoDup l -> In x l -> (forall y, In y l -> y <> x -> f y == 0)%Q -> (total (map f l) == f x)%Q.
Proof.
  intros A f l x N. induction N as [|y l Ny N IH]; intros X H; [contradiction|]. cbn [map]. rewrite total_cons. destruct X as [->|X].
  - rewrite (total_zero A f l); [ring|]. intros z Z. apply H; [now right|]. intros ->. contradiction.
  - rewrite (H y) by (first [now left|intros ->; contradiction]). rewrite IH; [ring|exact X|]. intros z Z D. apply H; [now right|exact D].
Qed.
Lemma every_nodup : forall nx ny, NoDup (every nx ny).
Proof.
  intros nx ny. unfold every. generalize 0 at 1 as a. intros a. revert a. induction nx as [|nx IH]; intros a; [constructor|]. cbn [seq list_prod].
  assert (S : NoDup (map (fun y => (a, y)) (seq 0 ny))).
  { apply FinFun.Injective_map_NoDup; [|apply seq_NoDup]. intros u v E. congruence. }
  assert (G : forall (u v : list (nat * nat)), NoDup u -> NoDup v -> (forall x, In x u -> ~ In x v) -> NoDup (u ++ v)).
  { intros u v U V D. induction U as [|x u X U IHu]; [exact V|]. cbn. constructor.
    - intros H. apply in_app_or in H. destruct H; [contradiction|]. apply (D x); [now left|assumption].
    - apply IHu. intros y Y. apply D. now right. }
  apply G; [exact S|apply IH|]. intros [x y] X Y. apply in_map_iff in X. destruct X as (z & E & _). injection E as <- <-.
  apply in_prod_iff in Y. destruct Y as [Y _]. apply in_seq in Y. lia.
Qed.
Lemma in_image_falls : forall nx ny s, in_image nx ny s = true -> exists i j, i < nx /\ j < ny /\ falls i j (at_ s) = true.
Proof.
  intros nx ny [[[x|] [y|]] v h]; unfold in_image; cbn; try discriminate. intros H.
  apply andb_true_iff in H. destruct H as [H1 H2]. apply andb_true_iff in H1, H2. destruct H1 as [A1 A2], H2 as [B1 B2].
  apply Qle_bool_iff in A1, B1. apply negb_true_iff in A2, B2.
  assert (A2' : (x < inject_Z (Z.of_nat nx))%Q) by (apply Qnot_le_lt; intros X; apply Qle_bool_iff in X; congruence).
  assert (B2' : (y < inject_Z (Z.of_nat ny))%Q) by (apply Qnot_le_lt; intros X; apply Qle_bool_iff in X; congruence).
  assert (G : forall q n, (0 <= q)%Q -> (q < inject_Z (Z.of_nat n))%Q -> exists i, i < n /\ within i q = true).
  { intros q n Q1 Q2. exists (Z.to_nat (Qfloor q)).
    assert (F0 : (0 <= Qfloor q)%Z) by (change 0%Z with (Qfloor 0); now apply Qfloor_resp_le).
    assert (F1 : (Qfloor q < Z.of_nat n)%Z) by (rewrite Zlt_Qlt; pose proof (Qfloor_le q); lra).
    split; [lia|]. apply within_floor. lia. }
  destruct (G x nx A1 A2') as (i & I & W). destruct (G y ny B1 B2') as (j & J & U). exists i, j. rewrite W, U. auto.
Qed.
Lemma falls_image : forall nx ny s i j, i < nx -> j < ny -> falls i j (at_ s) = true -> in_image nx ny s = true.
Proof.
  intros nx ny [[[x|] [y|]] v h] i j I J; unfold in_image; cbn; try discriminate. intros H. apply andb_true_iff in H. destruct H as [H1 H2].
  assert (G : forall q n k, k < n -> within k q = true -> Qle_bool 0 q && negb (Qle_bool (inject_Z (Z.of_nat n)) q) = true).
  { intros q n k K W. apply within_floor in W. pose proof (Qfloor_le q) as L. pose proof (Qlt_floor q) as U. rewrite W in L, U.
    assert (L' : (0 <= inject_Z (Z.of_nat k))%Q) by (change 0%Q with (inject_Z 0); rewrite <- Zle_Qle; lia).
    assert (U' : (inject_Z (Z.of_nat k + 1) <= inject_Z (Z.of_nat n))%Q) by (rewrite <- Zle_Qle; lia).
    apply andb_true_iff. split; [apply Qle_bool_iff; lra|]. apply negb_true_iff. destruct (Qle_bool _ q) eqn:E; [|reflexivity].
    apply Qle_bool_iff in E. lra. }
  rewrite (G x nx i I H1), (G y ny j J H2). reflexivity.
Qed.
Lemma falls_inj : forall p i j i' j', falls i j p = true -> falls i' j' p = true -> i = i' /\ j = j'.
Proof.
  intros [[x|] [y|]] i j i' j'; cbn; try discriminate. intros A B. apply andb_true_iff in A, B. destruct A as [A1 A2], B as [B1 B2].
  apply within_floor in A1, A2, B1, B2. lia.
Qed.

Theorem image_sum : forall nx ny only l img, image nx ny only l = Ok img -> (forall s, In s l -> in_image nx ny s = true -> show only s <> None) ->
  (total (map (fun p => or_zero (pixel img (fst p) (snd p)) * inject_Z (Z.of_nat (length (here only (fst p) (snd p) l)))) (every nx ny)) ==
   total (map (fun s => or_zero (show only s)) (filter (in_image nx ny) l)))%Q.
Proof.
  intros nx ny only l img E H.
  destruct (image_pixel nx ny only l) as (m & M & _ & _ & A). rewrite E in M. injection M as <-.
  transitivity (total (map (fun p => total (map or_zero (here only (fst p) (snd p) l))) (every nx ny))).
  - apply total_ext. intros [i j] P. apply in_prod_iff in P. destruct P as [I J]. apply in_seq in I, J. cbn [fst snd].
    destruct (A i j ltac:(lia) ltac:(lia)) as (A1 & A2 & A3).
    destruct (all_some (here only i j l)) as [N|(q & Q)].
    + exfalso. unfold here in N. apply in_map_iff in N. destruct N as (s & S1 & S2). apply filter_In in S2. destruct S2 as [S2 S3].
      apply (H s S2); [|exact S1]. apply (falls_image nx ny s i j); try lia; assumption.
    + rewrite Q, map_map, map_length. cbn [or_zero]. rewrite map_id. destruct q as [|x q].
      * cbn. ring.
      * destruct (A3 _ Q) as (v & V & W); [discriminate|]. rewrite V. cbn [or_zero]. exact W.
  - clear A E. induction l as [|s l IH].
    + cbn. apply total_zero. reflexivity.
    + assert (IH' := IH ltac:(intros; apply H; auto; now right)). clear IH.
      transitivity (total (map (fun p => (if falls (fst p) (snd p) (at_ s) then or_zero (show only s) else 0) + total (map or_zero (here only (fst p) (snd p) l)))%Q (every nx ny))).
      { apply total_ext. intros [i j] _. cbn [fst snd]. unfold here. cbn [filter]. destruct (falls i j (at_ s)); cbn; [reflexivity|ring]. }
      rewrite total_plus, IH'. cbn [filter]. destruct (in_image nx ny s) eqn:B.
      * cbn [map]. change (total (or_zero (show only s) :: ?r)) with (or_zero (show only s) + total r)%Q. apply Qplus_comp; [|reflexivity].
        destruct (in_image_falls nx ny s B) as (i & j & I & J & F).
        rewrite (total_one _ _ _ (i, j) (every_nodup nx ny)).
        { cbn [fst snd]. rewrite F. reflexivity. }
        { apply in_prod_iff. split; apply in_seq; lia. }
        { intros [i' j'] _ N. cbn [fst snd]. destruct (falls i' j' (at_ s)) eqn:F'; [|reflexivity]. exfalso. apply N.
          destruct (falls_inj _ _ _ _ _ F F'). congruence. }
      * rewrite total_zero; [ring|]. intros [i j] P. cbn [fst snd]. apply in_prod_iff in P. destruct P as [I J]. apply in_seq in I, J.
        destruct (falls i j (at_ s)) eqn:F; [|reflexivity]. rewrite (falls_image nx ny s i j) in B; try lia; congruence.
Qed.

(** The centre of pixel [k] is at the coordinate [k]: a position of its first half is shown in
    the pixel before, and lost for the first pixel. *)
Definition nearest (k : nat) (x : Q) : Prop := (inject_Z (Z.of_nat k) - (1 # 2) <= x < inject_Z (Z.of_nat k) + (1 # 2))%Q.
Theorem image_half_refuted : forall nx ny only k x y v b img, nearest k x -> (x < inject_Z (Z.of_nat k))%Q ->
  let l := [mkSpot (Some x, Some y) v b] in image nx ny only l = Ok img ->
  (forall j, k < nx -> j < ny -> pixel img k j = None) /\ (forall j, 0 < k -> here only (k - 1) j l = if within j y then [show only (mkSpot (Some x, Some y) v b)] else []) /\
  (k = 0 -> forall i j, i < nx -> j < ny -> pixel img i j = None).
Proof.
  intros nx ny only k x y v b img [N1 N2] L l E.
  destruct (image_pixel nx ny only l) as (m & M & _ & _ & A). rewrite E in M. injection M as <-.
  assert (F : Qfloor x = (Z.of_nat k - 1)%Z).
  { pose proof (Qfloor_le x) as U. pose proof (Qlt_floor x) as V.
    assert (X1 : (inject_Z (Qfloor x) < inject_Z (Z.of_nat k))%Q) by lra.
    assert (X2 : (inject_Z (Z.of_nat k - 1) < inject_Z (Qfloor x + 1))%Q) by (unfold Zminus; rewrite inject_Z_plus; change (inject_Z (- (1))) with (-1)%Q; lra).
    rewrite <- Zlt_Qlt in X1, X2. lia. }
  assert (W : forall i, within i x = true -> Z.of_nat i = (Z.of_nat k - 1)%Z) by (intros i H; apply within_floor in H; lia).
  split; [|split].
  - intros j K J. apply (proj1 (A k j K J)). unfold here, l. cbn. destruct (within k x) eqn:B; [apply W in B; lia|reflexivity].
  - intros j K. unfold here, l. cbn [filter at_ falls]. rewrite (proj2 (within_floor (k - 1) x)) by lia. cbn [andb]. now destruct (within j y).
  - intros -> i j I J. apply (proj1 (A i j I J)). unfold here, l. cbn. destruct (within i x) eqn:B; [apply W in B; lia|reflexivity].
Qed.
