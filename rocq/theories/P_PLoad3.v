(** Beams of a parset file that do not say their analog beam. *)
From Coq Require Import Ascii String List Arith ZArith QArith Bool Lia Sorted.
From Verif Require Import Base M_Polar M_Dedisperse M_Pipeline M_PText M_POptions M_Parset P_PText P_PValue P_Parset P_Parset2 P_Parset3 P_PFile P_PLoad.
Import ListNotations.
Open Scope nat_scope.

Lemma first_ge : forall n, (0 >=? Z.of_nat (S n))%Z = false.
Proof. intro n. rewrite Z.geb_leb. apply Z.leb_gt. lia. Qed.
Lemma first_index : forall n, py_index (S n) 0 = Ok 0.
Proof. intro n. unfold py_index. replace (0 <? Z.of_nat (S n))%Z with true by (symmetry; apply Z.ltb_lt; lia). reflexivity. Qed.

Section WithClock.
Variable ck : clock.
(** Numbers of numerical beams and phase centers of the analog beams. *)
Definition nums_of (u : puser) : list nat := map (fun a => length (a_nums a)) (u_anabeams u).
Definition pcs_of (u : puser) : list nat := map (fun a => length (a_pcs a)) (u_anabeams u).
Lemma sizes_number : forall l k, map (fun a => length (a_nums a)) (number_nums k l) = map (fun a => length (a_nums a)) l /\
  map (fun a => length (a_pcs a)) (number_nums k l) = map (fun a => length (a_pcs a)) l.
Proof.
  assert (B : forall l k, length (number_beams k l) = length l) by (induction l; intro; cbn; congruence).
  induction l as [|a r IH]; intro k; [split; reflexivity|]. cbn. destruct (IH (k + length (a_nums a))) as [-> ->]. now rewrite B.
Qed.
Lemma sizes_number_pcs : forall l k, map (fun a => length (a_nums a)) (number_pcs k l) = map (fun a => length (a_nums a)) l /\
  map (fun a => length (a_pcs a)) (number_pcs k l) = map (fun a => length (a_pcs a)) l.
Proof.
  assert (B : forall l k, length (number_beams k l) = length l) by (induction l; intro; cbn; congruence).
  induction l as [|a r IH]; intro k; [split; reflexivity|]. cbn. destruct (IH (k + length (a_pcs a))) as [-> ->]. now rewrite B.
Qed.
Lemma sizes_propagate : forall a, length (a_nums (propagate ck a)) = length (a_nums a) /\ length (a_pcs (propagate ck a)) = length (a_pcs a).
Proof. intro a. unfold propagate. cbn. now rewrite !map_length. Qed.
Lemma sizes_ana : forall kw u, nums_of (add_analog_beam ck kw u) = nums_of u ++ [0] /\ pcs_of (add_analog_beam ck kw u) = pcs_of u ++ [0].
Proof.
  intros kw u. unfold nums_of, pcs_of, add_analog_beam, with_anas, number_anas. cbn [u_anabeams].
  rewrite (proj1 (sizes_number _ _)), (proj2 (sizes_number _ _)), !imap_map.
  rewrite (imap_ext _ _ (fun i a => length (a_nums (propagate ck (mkAna i (a_conf a) (a_nums a) (a_pcs a))))) (fun _ a => length (a_nums a))) by (intros; cbn; apply map_length).
  rewrite (imap_ext _ _ (fun i a => length (a_pcs (propagate ck (mkAna i (a_conf a) (a_nums a) (a_pcs a))))) (fun _ a => length (a_pcs a))) by (intros; cbn; apply map_length).
  rewrite !imap_const, !map_app. split; reflexivity.
Qed.
Lemma sizes_anas : forall (l : list (Z * property ck)) u, let v := fold_left (fun u b => add_analog_beam ck (copy_fields ck (snd b) anabeam_options) u) l u in
  nums_of v = nums_of u ++ repeat 0 (length l) /\ pcs_of v = pcs_of u ++ repeat 0 (length l).
Proof.
  induction l as [|x r IH]; intro u; cbn [fold_left length repeat]; [now rewrite !app_nil_r|].
  destruct (IH (add_analog_beam ck (copy_fields ck (snd x) anabeam_options) u)) as [-> ->]. destruct (sizes_ana (copy_fields ck (snd x) anabeam_options) u) as [-> ->].
  now rewrite <- !app_assoc.
Qed.
Definition orphan (p : property ck) : Prop := dict_get String.eqb "noBeam"%string p = None.
Definition add_first (l : list nat) : list nat := match l with [] => [] | n :: r => S n :: r end.
Lemma orphan_num : forall u kw, u_anabeams u <> [] -> exists v, add_numerical_beam ck 0 kw u = Ok v /\
  nums_of v = add_first (nums_of u) /\ pcs_of v = pcs_of u /\ u_anabeams v <> [].
Proof.
  intros [o t l] kw N. cbn [u_anabeams] in N. destruct l as [|a r]; [congruence|]. unfold add_numerical_beam, attach. cbn [u_anabeams length].
  rewrite first_ge, first_index.
  cbn [bind]. eexists. split; [reflexivity|]. unfold nums_of, pcs_of, with_anas. cbn [u_anabeams].
  rewrite (proj1 (sizes_number _ _)), (proj2 (sizes_number _ _)).
  assert (E : forall g : anabeam -> nat, map g (imap (fun j a0 => if j =? 0 then propagate ck (mkAna (a_index a0) (a_conf a0) (a_nums a0 ++ [new_beam ck beam_options kw]) (a_pcs a0)) else a0) (a :: r))
    = g (propagate ck (mkAna (a_index a) (a_conf a) (a_nums a ++ [new_beam ck beam_options kw]) (a_pcs a))) :: map g r).
  { intro g. rewrite imap_map. apply list_ext_error. intro j. rewrite nth_error_imap. destruct j as [|j]; [reflexivity|]. cbn [nth_error]. rewrite nth_error_map. destruct (nth_error r j); reflexivity. }
  rewrite (E (fun a => length (a_nums a))), (E (fun a => length (a_pcs a))).
  destruct (sizes_propagate (mkAna (a_index a) (a_conf a) (a_nums a ++ [new_beam ck beam_options kw]) (a_pcs a))) as [-> ->]. cbn [a_nums a_pcs map add_first]. rewrite app_length. cbn [length].
  split; [f_equal; lia|]. split; [reflexivity|]. discriminate.
Qed.
Lemma orphan_pc : forall u kw, u_anabeams u <> [] -> exists v, add_phase_center ck 0 kw u = Ok v /\
  nums_of v = nums_of u /\ pcs_of v = add_first (pcs_of u) /\ u_anabeams v <> [].
Proof.
  intros [o t l] kw N. cbn [u_anabeams] in N. destruct l as [|a r]; [congruence|]. unfold add_phase_center, attach. cbn [u_anabeams length].
  rewrite first_ge, first_index.
  cbn [bind]. eexists. split; [reflexivity|]. unfold nums_of, pcs_of, with_anas. cbn [u_anabeams].
  rewrite (proj1 (sizes_number_pcs _ _)), (proj2 (sizes_number_pcs _ _)).
  assert (E : forall g : anabeam -> nat, map g (imap (fun j a0 => if j =? 0 then propagate ck (mkAna (a_index a0) (a_conf a0) (a_nums a0) (a_pcs a0 ++ [new_beam ck phasecenter_options kw])) else a0) (a :: r))
    = g (propagate ck (mkAna (a_index a) (a_conf a) (a_nums a) (a_pcs a ++ [new_beam ck phasecenter_options kw]))) :: map g r).
  { intro g. rewrite imap_map. apply list_ext_error. intro j. rewrite nth_error_imap. destruct j as [|j]; [reflexivity|]. cbn [nth_error]. rewrite nth_error_map. destruct (nth_error r j); reflexivity. }
  rewrite (E (fun a => length (a_nums a))), (E (fun a => length (a_pcs a))).
  destruct (sizes_propagate (mkAna (a_index a) (a_conf a) (a_nums a) (a_pcs a ++ [new_beam ck phasecenter_options kw]))) as [-> ->]. cbn [a_nums a_pcs map add_first]. rewrite app_length. cbn [length].
  split; [reflexivity|]. split; [f_equal; lia|]. discriminate.
Qed.
Definition grow (k : nat) (l : list nat) : list nat := match l with [] => [] | n :: r => k + n :: r end.
Lemma grow_0 l : grow 0 l = l. Proof. now destruct l. Qed.
Lemma grow_S k l : grow k (add_first l) = grow (S k) l. Proof. destruct l; [reflexivity|]. cbn. f_equal. lia. Qed.
Lemma orphans_num : forall l u, Forall (fun x => orphan (snd x)) l -> u_anabeams u <> [] ->
  exists v, load_beams ck (add_numerical_beam ck) beam_options l u = Ok v /\ nums_of v = grow (length l) (nums_of u) /\ pcs_of v = pcs_of u /\ u_anabeams v <> [].
Proof.
  induction l as [|[z p] r IH]; intros u F N; [exists u; rewrite grow_0; auto|]. apply Forall_cons_iff in F. destruct F as [O F].
  cbn [load_beams]. unfold parent_index. change (snd (z, p)) with p in O. unfold orphan in O. rewrite O. cbn [bind]. destruct (orphan_num u (copy_fields ck p beam_options) N) as (v & E & A & B & M). rewrite E. cbn [bind].
  destruct (IH v F M) as (w & E' & A' & B' & M'). exists w. rewrite E', A', B', A, B, grow_S. auto.
Qed.
Lemma orphans_pc : forall l u, Forall (fun x => orphan (snd x)) l -> u_anabeams u <> [] ->
  exists v, load_beams ck (add_phase_center ck) phasecenter_options l u = Ok v /\ nums_of v = nums_of u /\ pcs_of v = grow (length l) (pcs_of u) /\ u_anabeams v <> [].
Proof.
  induction l as [|[z p] r IH]; intros u F N; [exists u; rewrite grow_0; auto|]. apply Forall_cons_iff in F. destruct F as [O F].
  cbn [load_beams]. unfold parent_index. change (snd (z, p)) with p in O. unfold orphan in O. rewrite O. cbn [bind]. destruct (orphan_pc u (copy_fields ck p phasecenter_options) N) as (v & E & A & B & M). rewrite E. cbn [bind].
  destruct (IH v F M) as (w & E' & A' & B' & M'). exists w. rewrite E', A', B', A, B, grow_S. auto.
Qed.
(** They are attached to the first analog beam. *)
Theorem load_orphans : forall p n, length (p_anabeams ck p) = S n ->
  Forall (fun x => orphan (snd x)) (p_digibeams ck p) -> Forall (fun x => orphan (snd x)) (p_centers ck p) ->
  exists u, load_from_parset ck p = Ok u /\
    nums_of u = length (p_digibeams ck p) :: repeat 0 n /\ pcs_of u = length (p_centers ck p) :: repeat 0 n.
Proof.
  intros p n L D C. unfold load_from_parset.
  set (u0 := set_observation_config ck _ new_user). pose proof (sizes_anas (p_anabeams ck p) u0) as S. cbv zeta in S.
  set (u1 := fold_left _ (p_anabeams ck p) u0) in *. destruct S as [S1 S2]. rewrite L in S1, S2. change (nums_of u0) with (@nil nat) in S1. change (pcs_of u0) with (@nil nat) in S2. cbn [app repeat] in S1, S2.
  assert (N : u_anabeams u1 <> []) by (intros E; unfold nums_of in S1; rewrite E in S1; discriminate).
  destruct (orphans_num (p_digibeams ck p) u1 D N) as (u2 & E2 & A2 & B2 & N2). rewrite E2. cbn [bind].
  destruct (orphans_pc (p_centers ck p) u2 C N2) as (u3 & E3 & A3 & B3 & N3). rewrite E3. cbn [bind].
  eexists. split; [reflexivity|]. unfold nums_of, pcs_of, set_output_config in *. cbn [u_anabeams]. rewrite A3, A2, S1, B3, B2, S2. cbn [grow]. now rewrite !Nat.add_0_r.
Qed.
(** And refused without analog beam. *)
Theorem load_orphan_refused : forall p, p_anabeams ck p = [] -> Forall (fun x => orphan (snd x)) (p_digibeams ck p) ->
  p_digibeams ck p <> [] -> load_from_parset ck p = Err EIndexError.
Proof.
  intros p A D N. unfold load_from_parset. rewrite A. cbn [fold_left]. destruct (p_digibeams ck p) as [|[z d] r]; [congruence|].
  apply Forall_cons_iff in D. destruct D as [O _]. cbn [load_beams]. unfold parent_index. change (snd (z, d)) with d in O. unfold orphan in O. rewrite O. reflexivity.
Qed.
End WithClock.
