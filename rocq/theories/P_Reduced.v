(** Files of reduced spectra: what is stored is read back. *)
From Coq Require Import Ascii String List Arith ZArith QArith Bool Lia Lqa Permutation Sorting.Sorted.
From Verif Require Import Base M_Nd P_Nd M_PText P_PText M_Reduced.
From Verif Require M_Pipeline M_Bst M_Parset.
Import ListNotations.
Open Scope nat_scope.
Open Scope list_scope.

(** ** Names of the beams *)
Lemma zeros_value : forall k s, digits_value 0 (zeros k ++ s)%string = digits_value 0 s.
Proof. induction k as [|k IH]; intro s; [reflexivity|]. cbn [zeros append digits_value]. exact (IH s). Qed.
Lemma zeros_digits : forall k s, all_digits s = true -> all_digits (zeros k ++ s)%string = true.
Proof. induction k as [|k IH]; intros s H; [exact H|]. cbn [zeros append all_digits]. now rewrite IH. Qed.
Lemma isdigit_all : forall s, isdigit s = true -> all_digits s = true.
Proof. intros [|a s] H; [discriminate|exact H]. Qed.
Lemma fmt03_inj : forall x y, fmt03 x = fmt03 y -> x = y.
Proof.
  intros x y. unfold fmt03, pad.
  assert (D : forall w z, (0 <= z)%Z -> digits_value 0 (zeros w ++ show_int z)%string = z /\ all_digits (zeros w ++ show_int z)%string = true).
  { intros w z Z. destruct (show_nonneg z Z) as (I & V). split; [now rewrite zeros_value|]. apply zeros_digits. now apply isdigit_all. }
  assert (N : forall w z r, (0 <= z)%Z -> (zeros w ++ show_int z)%string <> String "-" r).
  { intros w z r Z E. destruct (D w z Z) as (_ & A). rewrite E in A. discriminate. }
  destruct (Z.ltb_spec x 0), (Z.ltb_spec y 0); intro E.
  - injection E as E. apply (f_equal (digits_value 0)) in E. rewrite (proj1 (D _ (- x)%Z ltac:(lia))), (proj1 (D _ (- y)%Z ltac:(lia))) in E. lia.
  - symmetry in E. apply N in E; [contradiction|lia].
  - apply N in E; [contradiction|lia].
  - apply (f_equal (digits_value 0)) in E. rewrite (proj1 (D _ x ltac:(lia))), (proj1 (D _ y ltac:(lia))) in E. exact E.
Qed.
Lemma beam_name_inj : forall x y, beam_name x = beam_name y -> x = y.
Proof. intros x y H. unfold beam_name in H. injection H as H. now apply fmt03_inj. Qed.
Lemma sap_name_0 : forall x, String.eqb (sap_name x) "SUB_ARRAY_POINTING_000" = (x =? 0)%Z.
Proof.
  intro x. destruct (Z.eqb_spec x 0) as [->|N]; [reflexivity|]. apply String.eqb_neq. intro E. apply N. apply fmt03_inj. unfold sap_name in E. injection E as E. exact E.
Qed.

(** ** Dictionaries *)
Lemma get_app : forall V n (g : list (string * V)) m v, get_key n (g ++ [(m, v)]) = match get_key n g with Some x => Some x | None => if String.eqb n m then Some v else None end.
Proof. intros V n g m v. induction g as [|(k, w) g IH]; [reflexivity|]. cbn. destruct (String.eqb n k); [reflexivity|exact IH]. Qed.
Lemma get_set : forall V n m (v : V) g, get_key n (set_key m v g) = if String.eqb n m then Some v else get_key n g.
Proof.
  intros V n m v g. induction g as [|(k, w) g IH]; cbn; [reflexivity|]. destruct (String.eqb m k) eqn:E; cbn.
  - apply String.eqb_eq in E. subst. now destruct (String.eqb n k).
  - rewrite IH. destruct (String.eqb n k) eqn:E2; [|reflexivity]. apply String.eqb_eq in E2. subst. rewrite String.eqb_sym, E. reflexivity.
Qed.
Lemma get_in : forall V n (g : list (string * V)), In n (map fst g) <-> get_key n g <> None.
Proof.
  intros V n g. induction g as [|(k, w) g IH]; cbn; [split; [contradiction|congruence]|]. destruct (String.eqb n k) eqn:E.
  - apply String.eqb_eq in E. split; [discriminate|now left].
  - apply String.eqb_neq in E. rewrite <- IH. split; [intros [H|H]; [congruence|exact H]|now right].
Qed.
Lemma get_pos : forall V (g : list (string * V)) p n v, NoDup (map fst g) -> nth_error g p = Some (n, v) -> get_key n g = Some v.
Proof.
  intros V g. induction g as [|(k, w) g IH]; intros [|p] n v D H; cbn in *; try discriminate; inversion D; subst.
  - injection H as -> ->. now rewrite String.eqb_refl.
  - destruct (String.eqb n k) eqn:E; [|now apply (IH p)]. apply String.eqb_eq in E. subst. exfalso. apply nth_error_In in H. apply (in_map fst) in H. contradiction.
Qed.

Lemma Forall2_len : forall X Y (R : X -> Y -> Prop) l m, Forall2 R l m -> length l = length m.
Proof. intros X Y R l m H. induction H; cbn; congruence. Qed.

(** ** Sorting *)
Lemma insert_perm : forall s l, Permutation (insert s l) (s :: l).
Proof. intros s l. induction l as [|x l IH]; [reflexivity|]. cbn. destruct (String.leb s x); [reflexivity|]. rewrite IH. constructor. Qed.
Lemma sort_perm : forall l, Permutation (sort l) l.
Proof. induction l as [|x l IH]; [constructor|]. cbn. rewrite insert_perm. now constructor. Qed.
Notation before := (fun a b => String.leb a b = true).
Lemma insert_sorted : forall s l, Sorted before l -> Sorted before (insert s l).
Proof.
  intros s l. induction l as [|x l IH]; intro H; [repeat constructor|]. cbn. destruct (String.leb s x) eqn:E; [constructor; [exact H|now constructor]|].
  inversion H; subst. constructor; [now apply IH|]. assert (X : String.leb x s = true) by (destruct (String.leb_total s x); congruence).
  destruct l as [|y l]; cbn; [now constructor|]. destruct (String.leb s y); constructor; [exact X|]. now inversion H3.
Qed.
Lemma sort_sorted : forall l, Sorted before (sort l).
Proof. induction l as [|x l IH]; [constructor|]. cbn. now apply insert_sorted. Qed.

Section Reduced.
Variable A : Type.
Variable unit_of : string -> option (option Q).
Notation args := (args A). Notation h5 := (h5 A). Notation beam := (beam A). Notation node := (node A). Notation part := (part A).
Notation store := (store A unit_of). Notation read := (read A unit_of). Notation open_beam := (open_beam A unit_of).

(** ** Specification *)
(** The polarizations to store: their names in upper case, as many as the data have *)
Definition names (l : list string) (r : list nat) : list string := map M_Bst.upper (firstn (size r) l).
Definition plain (n : string) : Prop := n <> EmptyString /\ has_char "/" n = false /\ n <> "COORDINATES"%string.
Record good (a : args) (l : list string) (r : list nat) (k : Q) : Prop := {
  g_name : exists stem, a_name A a = (stem ++ ".hdf5")%string;
  g_unit : unit_of (a_unit A a) = Some (Some k);
  g_factor : ~ (k == 0)%Q;
  g_shape : sh (a_data A a) = length (a_time A a) :: length (a_freq A a) :: r;
  g_time : a_time A a <> [];
  g_freq : a_freq A a <> [];
  g_pols : a_pols A a = PList l;
  g_some : 0 < size r;
  g_enough : size r <= length l;
  g_distinct : NoDup (names l r);
  g_plain : Forall plain (names l r) }.
(** What is read is what was stored, the polarizations in the order of their names. *)
Record delivers (a : args) (l : list string) (r : list nat) (z : part) : Prop := {
  v_time : z_time A z = a_time A a;
  v_freq : Forall2 Qeq (z_freq A z) (a_freq A a);
  v_sorted : Sorted before (z_pol A z);
  v_pols : Permutation (z_pol A z) (names l r);
  v_shape : sh (z_data A z) = [length (a_time A a); length (a_freq A a); size r];
  v_cells : forall i j q p n, i < length (a_time A a) -> j < length (a_freq A a) -> nth_error (z_pol A z) q = Some n -> nth_error (names l r) p = Some n ->
    get (z_data A z) [i; j; q] = get (a_data A a) (i :: j :: unravel r p) }.
Definition run (ops : list args) (s : option h5) : option h5 := fold_left (fun s a => fst (store a s)) ops s.
Definition beam_of (h : h5) (b : Z) : option beam := match h_sap A h with Some bs => get_key (beam_name b) bs | None => None end.

(** ** Data sets of a beam *)
Lemma path_plain : forall n, plain n -> path_of n = [n].
Proof. intros n (N & W & _). unfold path_of. rewrite split_char_one by exact W. cbn. apply String.eqb_neq in N. now rewrite N. Qed.
Definition with_sets (b : beam) (g : list (string * node)) : beam := mkBeam A (b_attrs A b) (b_coords A b) g.
Lemma write_plain : forall d r l ks b, (forall k, In k ks -> k < length l) ->
  NoDup (map fst (b_sets A b) ++ map (fun k => M_Bst.upper (nth k l EmptyString)) ks) -> Forall plain (map (fun k => M_Bst.upper (nth k l EmptyString)) ks) ->
  write_sets A d r (PList l) ks b = (with_sets b (b_sets A b ++ map (fun k => (M_Bst.upper (nth k l EmptyString), Dset A (plane A d r k))) ks), None).
Proof.
  intros d r l ks. induction ks as [|k ks IH]; intros b L D P; cbn [write_sets map].
  - destruct b as [x y z]. unfold with_sets. cbn [b_sets b_attrs b_coords]. now rewrite app_nil_r.
  - cbn [pol_at]. rewrite (nth_error_nth' l EmptyString) by (apply L; now left). cbn [bind]. cbn [map] in P, D. inversion P as [|? ? P1 P2]; subst.
    assert (C : create_dataset A (M_Bst.upper (nth k l EmptyString)) (plane A d r k) b = Ok (with_sets b (b_sets A b ++ [(M_Bst.upper (nth k l EmptyString), Dset A (plane A d r k))]))).
    { unfold create_dataset. rewrite (path_plain _ P1). destruct P1 as (_ & _ & NC). apply String.eqb_neq in NC. rewrite NC. cbn [put].
      destruct (get_key (M_Bst.upper (nth k l EmptyString)) (b_sets A b)) eqn:G; [|reflexivity]. exfalso. apply NoDup_remove_2 in D. apply D. apply in_or_app. left. apply get_in. congruence. }
    rewrite C. rewrite IH.
    + unfold with_sets. cbn [b_sets b_attrs b_coords]. now rewrite <- app_assoc.
    + intros q Q. apply L. now right.
    + unfold with_sets. cbn [b_sets]. rewrite map_app, <- app_assoc. exact D.
    + exact P2.
Qed.
Lemma firstn_seq : forall (l : list string) n, n <= length l -> firstn n l = map (fun k => nth k l EmptyString) (seq 0 n).
Proof.
  induction l as [|x l IH]; intros n L; cbn in L; [assert (n = 0) by lia; subst; reflexivity|]. destruct n as [|n]; [reflexivity|].
  cbn [firstn seq map nth]. f_equal. rewrite IH by lia. rewrite <- seq_shift, map_map. reflexivity.
Qed.
Lemma names_nth : forall l r, size r <= length l -> names l r = map (fun k => M_Bst.upper (nth k l EmptyString)) (seq 0 (size r)).
Proof. intros l r L. unfold names. now rewrite firstn_seq, map_map. Qed.

Definition sets_of (a : args) (l : list string) (r : list nat) : list (string * node) :=
  map (fun k => (M_Bst.upper (nth k l EmptyString), Dset A (plane A (a_data A a) r k))) (seq 0 (size r)).
Lemma sets_names : forall a l r, size r <= length l -> map fst (sets_of a l r) = names l r.
Proof. intros a l r L. unfold sets_of. rewrite map_map, names_nth by exact L. reflexivity. Qed.
Lemma substring_end : forall s t n, substring (String.length s) n (s ++ t)%string = substring 0 n t.
Proof. induction s as [|c s IH]; intros t n; [reflexivity|]. cbn [String.length append substring]. apply IH. Qed.
Lemma length_app : forall s t, String.length (s ++ t)%string = String.length s + String.length t.
Proof. induction s as [|c s IH]; intro t; [reflexivity|]. cbn. now rewrite IH. Qed.
Lemma good_hdf5 : forall stem, is_hdf5 (stem ++ ".hdf5")%string = true.
Proof.
  intro stem. unfold is_hdf5. rewrite length_app. cbn [String.length]. replace (String.length stem + 5 - 5) with (String.length stem) by lia. rewrite substring_end.
  replace (5 <=? String.length stem + 5) with true by (symmetry; apply Nat.leb_le; lia). reflexivity.
Qed.
Lemma fill_good : forall a l r k, good a l r k -> exists f0 fs, a_freq A a = f0 :: fs /\
  exists at_, fill_beam A a (Some k) f0 fs = (mkBeam A at_ (Some (a_time A a, map (fun f => f / k)%Q (a_freq A a), a_unit A a)) (sets_of a l r), None).
Proof.
  intros a l r k G. destruct (a_freq A a) as [|f0 fs] eqn:F; [destruct (g_freq _ _ _ _ G F)|]. exists f0, fs. split; [reflexivity|].
  unfold fill_beam. destruct (a_time A a) as [|t0 ts] eqn:T; [destruct (g_time _ _ _ _ G T)|].
  unfold flatten. rewrite (g_shape _ _ _ _ G), T, F. cbn [length Nat.mul Nat.add Nat.eqb]. rewrite (g_pols _ _ _ _ G).
  pose proof (names_nth l r (g_enough _ _ _ _ G)) as E.
  rewrite write_plain; cbn [b_sets map app].
  - eexists. unfold with_sets. cbn [b_attrs b_coords]. reflexivity.
  - intros q Q. apply in_seq in Q. pose proof (g_enough _ _ _ _ G). lia.
  - rewrite <- E. exact (g_distinct _ _ _ _ G).
  - rewrite <- E. exact (g_plain _ _ _ _ G).
Qed.

(** ** Reading a beam *)
Definition stored (a : args) (l : list string) (r : list nat) (k : Q) (b : beam) : Prop :=
  b_coords A b = Some (a_time A a, map (fun f => f / k)%Q (a_freq A a), a_unit A a) /\ b_sets A b = sets_of a l r.
Lemma sets_at : forall a l r p, size r <= length l -> p < size r -> nth_error (sets_of a l r) p = Some (M_Bst.upper (nth p l EmptyString), Dset A (plane A (a_data A a) r p)).
Proof. intros a l r p L P. unfold sets_of. rewrite nth_error_map. rewrite (nth_error_nth' (seq 0 (size r)) 0) by (rewrite seq_length; exact P). rewrite seq_nth by exact P. reflexivity. Qed.
Lemma planes_stored : forall a l r k b ns, good a l r k -> stored a l r k b -> incl ns (names l r) ->
  exists ds, planes A b ns = Ok ds /\ length ds = length ns /\
    (forall q d, nth_error ds q = Some d -> sh d = [length (a_time A a); length (a_freq A a)]) /\
    forall q n p, nth_error ns q = Some n -> nth_error (names l r) p = Some n -> nth_error ds q = Some (plane A (a_data A a) r p).
Proof.
  intros a l r k b ns G (_ & SB). pose proof (g_enough _ _ _ _ G) as L. induction ns as [|n ns IH]; intro I.
  - exists []. split; [reflexivity|]. split; [reflexivity|]. split; intros [|q]; discriminate.
  - destruct IH as (ds & E & LD & HS & HP); [intros x X; apply I; now right|].
    assert (IN : In n (names l r)) by (apply I; now left). apply In_nth_error in IN as (p & NP).
    assert (P : p < size r) by (assert (nth_error (names l r) p <> None) as X by congruence; apply nth_error_Some in X; rewrite names_nth, map_length, seq_length in X by exact L; exact X).
    assert (NU : n = M_Bst.upper (nth p l EmptyString)).
    { rewrite names_nth in NP by exact L. rewrite nth_error_map, (nth_error_nth' (seq 0 (size r)) 0), seq_nth in NP by (try rewrite seq_length; exact P). now injection NP as <-. }
    assert (GK : get_key n (b_sets A b) = Some (Dset A (plane A (a_data A a) r p))).
    { rewrite SB. apply (get_pos _ _ p); [rewrite sets_names by exact L; exact (g_distinct _ _ _ _ G)|]. rewrite NU. now apply sets_at. }
    cbn [planes]. rewrite GK, E. cbn [bind]. exists (plane A (a_data A a) r p :: ds). split; [reflexivity|]. split; [cbn; now rewrite LD|]. split.
    + intros [|q] d D; [injection D as <-; unfold plane; cbn [sh]; rewrite (g_shape _ _ _ _ G); reflexivity|]. now apply (HS q).
    + intros [|q] m p' M P'; [|now apply (HP q m)]. injection M as <-. cbn. f_equal. f_equal. pose proof (g_distinct _ _ _ _ G) as D. rewrite NoDup_nth_error in D. apply D; [rewrite names_nth, map_length, seq_length by exact L; exact P|congruence].
Qed.
Lemma stack_stored : forall (ds : list (nd A)) s, ds <> [] -> (forall q d, nth_error ds q = Some d -> sh d = s) ->
  exists d, stack A ds = Ok d /\ sh d = s ++ [length ds] /\ forall idx q x, nth_error ds q = Some x -> get d (idx ++ [q]) = get x idx.
Proof.
  intros [|d0 ds] s N S; [contradiction|]. unfold stack. pose proof (S 0 d0 eq_refl) as S0.
  assert (F : forallb (fun x => if list_eq_dec Nat.eq_dec (sh x) (sh d0) then true else false) ds = true).
  { apply forallb_forall. intros x X. apply In_nth_error in X as (q & X). specialize (S (Datatypes.S q) x X). destruct (list_eq_dec Nat.eq_dec (sh x) (sh d0)); [reflexivity|congruence]. }
  rewrite F. eexists. split; [reflexivity|]. cbn [sh get]. split; [now rewrite S0|]. intros idx q x X. rewrite last_last, removelast_last. now rewrite (nth_error_nth _ _ _ X).
Qed.
Lemma back_mhz : forall k f, ~ (k == 0)%Q -> Forall2 Qeq (map (fun x => x * k)%Q (map (fun f => f / k)%Q f)) f.
Proof. intros k f K. induction f as [|x f IH]; constructor; [field; exact K|exact IH]. Qed.
Lemma read_stored : forall a l r k h b ns key, good a l r k -> beam_of h (a_beam A a) = Some b -> stored a l r k b -> ns <> [] -> incl ns (names l r) ->
  match key with None => ns = sort (names l r) | Some n => ns = [n] end ->
  exists f d, read h key 0 (a_beam A a) = Ok (a_time A a, f, ns, d) /\ Forall2 Qeq f (a_freq A a) /\ sh d = [length (a_time A a); length (a_freq A a); length ns] /\
    forall i j q p n, nth_error ns q = Some n -> nth_error (names l r) p = Some n -> get d [i; j; q] = get (a_data A a) (i :: j :: unravel r p).
Proof.
  intros a l r k h b ns key G B ST NN I K. unfold M_Reduced.read. rewrite sap_name_0. cbn [Z.eqb]. unfold beam_of in B. destruct (h_sap A h) as [bs|]; [|discriminate]. rewrite B.
  unfold available. destruct (ST) as (SC & SB). rewrite SC. cbn [bind]. rewrite SB, sets_names by exact (g_enough _ _ _ _ G).
  assert (KE : match key with None => Ok (sort (names l r)) | Some k0 => if existsb (String.eqb k0) (sort (names l r)) then Ok [k0] else Err EKeyError end = Ok ns).
  { destruct key as [n|]; subst ns; [|reflexivity]. assert (X : existsb (String.eqb n) (sort (names l r)) = true); [|now rewrite X].
    apply existsb_exists. exists n. split; [|apply String.eqb_refl]. apply (Permutation_in n (Permutation_sym (sort_perm (names l r)))). apply I. now left. }
  rewrite KE. cbn [bind]. rewrite (g_unit _ _ _ _ G). destruct (planes_stored a l r k b ns G ST I) as (ds & -> & LD & HS & HP). cbn [bind].
  assert (ND : ds <> []) by (intro E; subst ds; destruct ns; [contradiction|discriminate]). destruct (stack_stored ds _ ND HS) as (d & -> & SD & GD). cbn [bind].
  exists (map (fun x => x * k)%Q (map (fun f => f / k)%Q (a_freq A a))), d. split; [reflexivity|]. split; [apply back_mhz; exact (g_factor _ _ _ _ G)|]. split; [rewrite SD, LD; reflexivity|].
  intros i j q p n NQ NP. specialize (HP q n p NQ NP). change [i; j; q] with ([i; j] ++ [q]). rewrite (GD _ _ _ HP). reflexivity.
Qed.
Lemma names_length : forall l r, size r <= length l -> length (names l r) = size r.
Proof. intros l r L. now rewrite names_nth, map_length, seq_length by exact L. Qed.
Lemma open_stored : forall a l r k h b, good a l r k -> beam_of h (a_beam A a) = Some b -> stored a l r k b -> exists z, open_beam h [0%Z; a_beam A a] = Ok z /\ delivers a l r z.
Proof.
  intros a l r k h b G B ST. pose proof (names_length l r (g_enough _ _ _ _ G)) as NL. pose proof (Permutation_length (sort_perm (names l r))) as PL. rewrite NL in PL. pose proof (g_some _ _ _ _ G) as S0.
  destruct (read_stored a l r k h b (sort (names l r)) None G B ST) as (f & d & R & F & SD & C); [intro E; rewrite E in PL; cbn in PL; lia| |reflexivity|].
  { intros n N. exact (Permutation_in n (sort_perm _) N). }
  unfold M_Reduced.open_beam. rewrite R. cbn [bind]. unfold make_part. pose proof (Forall2_len _ _ _ _ _ F) as LF. rewrite PL, LF.
  pose proof (g_time _ _ _ _ G) as T. pose proof (g_freq _ _ _ _ G) as FQ.
  assert (T0 : (length (a_time A a) =? 0) = false) by (apply Nat.eqb_neq; destruct (a_time A a); [contradiction|discriminate]).
  assert (F0 : (length (a_freq A a) =? 0) = false) by (apply Nat.eqb_neq; destruct (a_freq A a); [contradiction|discriminate]).
  assert (P0 : (size r =? 0) = false) by (apply Nat.eqb_neq; lia). rewrite T0, F0, P0. cbn [orb]. unfold reshape. rewrite SD, PL, Nat.eqb_refl. cbn [bind]. eexists. split; [reflexivity|].
  constructor; cbn [z_time z_freq z_pol z_data sh get]; [reflexivity|exact F|apply sort_sorted|apply sort_perm|reflexivity|].
  intros i j q p n I J NQ NP. rewrite unravel_ravel; [now apply (C i j q p n)|]. assert (Q : q < size r) by (rewrite <- PL; apply nth_error_Some; congruence). repeat constructor; assumption.
Qed.
End Reduced.
