(** Files of reduced spectra: names of files, names of polarizations, stores that failed. *)
From Coq Require Import Ascii String List Arith ZArith QArith Bool Lia Lqa Permutation Sorting.Sorted.
From Verif Require Import Base M_Nd P_Nd M_PText P_PText M_Reduced P_Reduced P_Reduced2 P_Reduced3.
From Verif Require M_Pipeline M_Bst M_Parset.
Import ListNotations.
Open Scope nat_scope.
Open Scope list_scope.

Lemma substring_all : forall s, substring 0 (String.length s) s = s.
Proof. induction s as [|c s IH]; [reflexivity|]. cbn. now rewrite IH. Qed.
Lemma lower_length : forall s, String.length (M_Pipeline.lower s) = String.length s.
Proof. induction s as [|c s IH]; [reflexivity|]. cbn. now rewrite IH. Qed.
Lemma cut : forall n s, n <= String.length s -> s = (substring 0 n s ++ substring n (String.length s - n) s)%string.
Proof.
  induction n as [|n IH]; intros s L; [rewrite Nat.sub_0_r, substring_all; now destruct s|]. destruct s as [|c s]; [cbn in L; lia|]. cbn [String.length substring append Nat.sub] in *. f_equal. apply IH. lia.
Qed.
(** Specification: the extension, in any case *)
Definition extension (name : string) : Prop := exists stem ext, name = (stem ++ ext)%string /\ M_Pipeline.lower ext = ".hdf5"%string.
Lemma is_hdf5_iff : forall name, is_hdf5 name = true <-> extension name.
Proof.
  intro name. unfold is_hdf5. rewrite andb_true_iff, Nat.leb_le, String.eqb_eq. split.
  - intros (L & E). exists (substring 0 (String.length name - 5) name), (substring (String.length name - 5) 5 name). split; [|exact E]. rewrite (cut (String.length name - 5) name) at 1 by lia. do 3 f_equal. lia.
  - intros (stem & ext & -> & E). pose proof (lower_length ext) as L. rewrite E in L. cbn [String.length] in L. rewrite length_app, <- L. split; [lia|]. replace (String.length stem + 5 - 5) with (String.length stem) by lia. rewrite substring_end. rewrite L, substring_all. exact E.
Qed.

Section Reduced.
Variable A : Type.
Variable unit_of : string -> option (option Q).
Notation args := (args A). Notation h5 := (h5 A). Notation beam := (beam A).
Notation store := (store A unit_of). Notation read := (read A unit_of). Notation beam_of := (beam_of A).

Theorem name_refused : forall a s, ~ extension (a_name A a) -> store a s = (s, Some EValueError).
Proof. intros a s N. unfold M_Reduced.store. destruct (is_hdf5 (a_name A a)) eqn:E; [apply is_hdf5_iff in E; contradiction|reflexivity]. Qed.
Definition rename (a : args) (n : string) : args := mkArgs A n (a_data A a) (a_time A a) (a_freq A a) (a_pols A a) (a_beam A a) (a_unit A a) (a_mode A a) (a_meta A a).
Theorem name_accepted : forall a s n, extension (a_name A a) -> extension n -> snd (store (rename a n) s) = snd (store a s).
Proof.
  intros a s n E1 E2. apply is_hdf5_iff in E1, E2. unfold M_Reduced.store, rename. cbn [a_name a_unit a_freq a_mode a_beam]. rewrite E1, E2. cbn [negb].
  destruct (unit_of (a_unit A a)) as [k|]; [|reflexivity]. destruct (a_freq A a) as [|f0 fs] eqn:F; [reflexivity|]. destruct (open_file A (mode_of A (a_mode A a) s) s) as [h|]; [|reflexivity].
  destruct (String.eqb (mode_of A (a_mode A a) s) "w").
  - unfold root_attrs, new_beam, fill_beam. cbn [a_time a_data a_pols a_beam a_unit a_freq a_meta a_name]. destruct (a_time A a) as [|t0 ts]; [reflexivity|]. destruct k as [k|]; [|reflexivity]. rewrite F. destruct (flatten A (a_data A a)) as [(r, m)|]; [|reflexivity]. destruct (write_sets _ _ _ _ _ _); reflexivity.
  - destruct (String.eqb _ "a"); [|reflexivity]. destruct (h_sap A h) as [bs|]; [|reflexivity]. destruct (get_key _ bs); [reflexivity|]. unfold new_beam, fill_beam. cbn [a_time a_data a_pols a_beam a_unit a_freq]. destruct (a_time A a) as [|t0 ts]; [reflexivity|]. destruct k as [k|]; [|reflexivity]. rewrite F. destruct (flatten A (a_data A a)) as [(r, m)|]; [|reflexivity]. destruct (write_sets _ _ _ _ _ _); reflexivity.
Qed.

(** ** Distinct names *)
Lemma create_new : forall n d b b', plain n -> create_dataset A n d b = Ok b' -> get_key n (b_sets A b) = None /\ b_sets A b' = b_sets A b ++ [(n, Dset A d)] /\ b_coords A b' = b_coords A b.
Proof.
  intros n d b b' P H. unfold create_dataset in H. rewrite (path_plain _ P) in H. destruct P as (_ & _ & NC). apply String.eqb_neq in NC. rewrite NC in H. cbn [put] in H. destruct (get_key n (b_sets A b)) eqn:G; [discriminate|]. cbn [bind] in H. injection H as <-. now repeat split.
Qed.
Lemma write_distinct : forall d r l ks b b', write_sets A d r (PList l) ks b = (b', None) -> NoDup (map fst (b_sets A b)) -> Forall plain (map (fun k => M_Bst.upper (nth k l EmptyString)) ks) ->
  NoDup (map fst (b_sets A b) ++ map (fun k => M_Bst.upper (nth k l EmptyString)) ks).
Proof.
  intros d r l ks. induction ks as [|k ks IH]; intros b b' W N P; [cbn; now rewrite app_nil_r|]. cbn [write_sets pol_at] in W. cbn [map] in P |- *. inversion P as [|? ? P1 P2]; subst. destruct (nth_error l k) as [n|] eqn:E; [|discriminate]. rewrite (nth_error_nth _ _ EmptyString E) in *. cbn [bind] in W.
  destruct (create_dataset A (M_Bst.upper n) (plane A d r k) b) as [b1|] eqn:C; [|discriminate]. destruct (create_new _ _ _ _ P1 C) as (G & S & _).
  assert (N1 : NoDup (map fst (b_sets A b1))).
  { rewrite S, map_app. cbn [map fst]. apply (Permutation_NoDup (Permutation_cons_append _ _)). constructor; [|exact N]. intro I. apply get_in in I. contradiction. }
  specialize (IH b1 b' W N1 P2). rewrite S, map_app, <- app_assoc in IH. exact IH.
Qed.
Theorem distinct : forall a s h l nt nf r, store a s = (Some h, None) -> a_pols A a = PList l -> sh (a_data A a) = nt :: nf :: r -> Forall plain (names l r) -> size r <= length l /\ NoDup (names l r).
Proof.
  intros a s h l nt nf r H P SH PL. destruct (store_filled A unit_of a s h H) as (k & f0 & fs & UN & B & E). unfold fill_beam in B, E. destruct (a_time A a) as [|t0 ts]; [discriminate|]. destruct k as [k|]; [|discriminate].
  unfold flatten in B, E. rewrite SH in B, E. destruct (nt * nf =? 0); [discriminate|]. rewrite P in E. match type of E with snd ?w = None => destruct w as (b, e) eqn:W end. cbn [snd] in E. subst e.
  pose proof (write_short A _ _ _ _ _ _ W) as F. rewrite Forall_forall in F.
  assert (L : size r <= length l). { destruct (size r) as [|m] eqn:Z; [lia|]. specialize (F m ltac:(apply in_seq; lia)). lia. }
  split; [exact L|]. rewrite (names_nth l r L) in PL |- *. exact (write_distinct _ _ _ _ _ _ W ltac:(constructor) PL).
Qed.

(** ** Too few names: the planes written before the error can be read. *)
Lemma write_app : forall d r p ks ks' b, write_sets A d r p (ks ++ ks') b = match write_sets A d r p ks b with (b', None) => write_sets A d r p ks' b' | x => x end.
Proof. intros d r p ks. induction ks as [|k ks IH]; intros ks' b; [reflexivity|]. cbn [app write_sets]. destruct (bind _ _); [apply IH|reflexivity]. Qed.
Theorem partial_refuted : forall a l nt nf r k, ready A unit_of a -> a_mode A a = "w"%string \/ auto A a -> a_pols A a = PList l -> sh (a_data A a) = nt :: nf :: r -> 0 < nt * nf -> length l < size r -> a_time A a <> [] ->
  unit_of (a_unit A a) = Some (Some k) -> ~ (k == 0)%Q -> NoDup (map M_Bst.upper l) -> Forall plain (map M_Bst.upper l) ->
  exists h, store a None = (Some h, Some EIndexError) /\
    forall p n, nth_error (map M_Bst.upper l) p = Some n -> exists f d, read h (Some n) 0 (a_beam A a) = Ok (a_time A a, f, [n], d) /\ Forall2 Qeq f (a_freq A a) /\ sh d = [nt; nf; 1] /\ forall i j, get d [i; j; 0] = get (a_data A a) (i :: j :: unravel r p).
Proof.
  intros a l nt nf r k R M P S Z L T U K D PL. destruct (store_ready A unit_of a None R) as (k' & f0 & fs & U' & F & E). rewrite U in U'. injection U' as <-.
  assert (MO : mode_of A (a_mode A a) None = "w"%string) by (unfold mode_of; destruct M as [->|M]; [reflexivity|unfold auto in M; rewrite M; reflexivity]). rewrite MO in E. cbn in E.
  destruct (root_attrs A a (Some k) f0 fs) as (at', e0) eqn:RA. assert (e0 = None) as ->. { unfold root_attrs in RA. destruct (a_time A a); [contradiction|]. now injection RA as _ <-. }
  destruct (new_beam A a (Some k) f0 fs at' []) as (h', e') eqn:NB. destruct (new_beam_of A a (Some k) f0 fs at' [] h' e' eq_refl NB) as (BO & EE & _ & _).
  assert (ML : map (fun q => M_Bst.upper (nth q l EmptyString)) (seq 0 (length l)) = map M_Bst.upper l).
  { transitivity (map M_Bst.upper (firstn (length l) l)); [rewrite (firstn_seq l (length l) (le_n _)), map_map; reflexivity|now rewrite firstn_all]. }
  assert (FB : exists at_, fill_beam A a (Some k) f0 fs = (mkBeam A at_ (Some (a_time A a, map (fun f => f / k)%Q (a_freq A a), a_unit A a)) (map (fun q => (M_Bst.upper (nth q l EmptyString), Dset A (plane A (a_data A a) r q))) (seq 0 (length l))), Some EIndexError)).
  { unfold fill_beam. destruct (a_time A a) as [|t0 ts]; [contradiction|]. unfold flatten. rewrite S. destruct (Nat.eqb_spec (nt * nf) 0) as [X|_]; [lia|]. rewrite P.
    replace (size r) with (length l + (size r - length l)) by lia. rewrite seq_app. cbn [Nat.add]. rewrite write_app, write_plain; cbn [b_sets map app].
    - destruct (size r - length l) as [|m] eqn:X; [lia|]. cbn [seq write_sets pol_at]. destruct (nth_error l (length l)) eqn:NE; [assert (nth_error l (length l) <> None) as Y by congruence; apply nth_error_Some in Y; lia|]. cbn [bind]. eexists. unfold with_sets. cbn [b_attrs b_coords]. reflexivity.
    - intros q Q. apply in_seq in Q. lia.
    - rewrite ML. exact D.
    - rewrite ML. exact PL. }
  destruct FB as (at_ & FB). rewrite FB in BO, EE. cbn [fst snd] in BO, EE. subst e'. exists h'. split; [exact E|]. intros p n N.
  assert (PP : p < length l) by (rewrite <- (map_length M_Bst.upper l); apply nth_error_Some; congruence).
  assert (NU : n = M_Bst.upper (nth p l EmptyString)) by (rewrite nth_error_map, (nth_error_nth' l EmptyString PP) in N; now injection N as <-).
  set (sets := map (fun q => (M_Bst.upper (nth q l EmptyString), Dset A (plane A (a_data A a) r q))) (seq 0 (length l))) in *.
  assert (MF : map fst sets = map M_Bst.upper l) by (unfold sets; rewrite map_map; exact ML).
  assert (G : get_key n sets = Some (Dset A (plane A (a_data A a) r p))).
  { apply (get_pos _ _ p); [rewrite MF; exact D|]. unfold sets. rewrite nth_error_map, (nth_error_nth' (seq 0 (length l)) 0), seq_nth by (try rewrite seq_length; exact PP). cbn. now rewrite NU. }
  unfold M_Reduced.read. rewrite sap_name_0. cbn [Z.eqb]. unfold P_Reduced.beam_of in BO. destruct (h_sap A h') as [bs|]; [|discriminate]. rewrite BO. unfold available. cbn [b_coords b_sets bind].
  assert (X : existsb (String.eqb n) (sort (map fst sets)) = true).
  { apply existsb_exists. exists n. split; [|apply String.eqb_refl]. apply (Permutation_in n (Permutation_sym (sort_perm _))). apply get_in. congruence. }
  rewrite X. cbn [bind]. rewrite U. cbn [planes b_sets]. rewrite G. cbn [bind stack forallb].
  eexists _, _. split; [reflexivity|]. split; [apply back_mhz; exact K|]. cbn [sh get plane length]. rewrite S. split; [reflexivity|]. intros i j. reflexivity.
Qed.
End Reduced.
