(** Labels of the selections, Stokes parameters and the correlation matrix. *)
From Coq Require Import ZArith QArith Bool String List Arith Lia Sorting.Sorted Sorting.Permutation.
From Verif Require Import Base M_Nd M_Cond M_Xst P_Nd P_Xst P_Xst2 P_Xst3 P_Xst4.
Import ListNotations.
Open Scope nat_scope.
Open Scope list_scope.

(** ** Labels *)
Lemma nth_map_in {A B} (f : A -> B) l i a b : i < length l -> nth i (map f l) b = f (nth i l a).
Proof. intro L. rewrite (nth_indep _ b (f a)) by (now rewrite map_length). apply map_nth. Qed.

Lemma file_order_labels {A} (x : xst A) sel P : NoDup (x_mas x) -> in_file_order (x_mas x) sel -> chosen x sel P ->
  NoDup sel /\ incl sel (x_mas x) /\ length P = length sel /\ forall a, a < length sel -> nth a sel 0 = nth (nth a P 0) (x_mas x) 0.
Proof.
  intros Hf [P' [S [B E]]] HP.
  assert (P = P') as ->.
  { eapply lists_of_unique; [exact HP|]. split; [assumption|]. intro k. split.
    - intro I. split; [now apply B|]. rewrite E. now apply (in_map (fun k => nth k (x_mas x) 0)).
    - intros [L I]. rewrite E in I. apply in_map_iff in I. destruct I as [k' [E' I]].
      rewrite <- (proj1 (NoDup_nth (x_mas x) 0) Hf k' k (B _ I) L E'). assumption. }
  split.
  - rewrite E. apply (NoDup_nth _ 0). rewrite map_length. intros i j Li Lj.
    rewrite (nth_map_in _ P' i 0 0 Li), (nth_map_in _ P' j 0 0 Lj). intro Q.
    apply (proj1 (NoDup_nth (x_mas x) 0) Hf) in Q; [|apply B, nth_In; assumption|apply B, nth_In; assumption].
    now apply (proj1 (NoDup_nth P' 0) (increasing_NoDup _ S)).
  - split; [|split].
    + intros k I. rewrite E in I. apply in_map_iff in I. destruct I as [j [<- J]]. apply nth_In. now apply B.
    + rewrite E, map_length. reflexivity.
    + intros a L. rewrite E. rewrite E, map_length in L.
      rewrite (nth_indep _ 0 ((fun k => nth k (x_mas x) 0) 0)) by (now rewrite map_length).
      now rewrite (map_nth (fun k => nth k (x_mas x) 0)).
Qed.

(** Only the set of Mini-Arrays matters for the values. *)
Lemma same_set_indices file sel sel' : Permutation sel sel' -> ma_indices file sel = ma_indices file sel'.
Proof.
  intro H. unfold ma_indices. apply filter_ext. intro k.
  destruct (isin (nth k file 0) sel) eqn:E, (isin (nth k file 0) sel') eqn:E'; try reflexivity; exfalso.
  - apply isin_In in E. apply (Permutation_in _ H), isin_In in E. congruence.
  - apply isin_In in E'. apply (Permutation_in _ (Permutation_sym H)), isin_In in E'. congruence.
Qed.
Lemma get_any_order {A} (conj : A -> A) tp fp p sel sel' (x : xst A) : Permutation sel sel' ->
  get_vis conj tp fp p sel x = get_vis conj tp fp p sel' x.
Proof.
  intro H. unfold get_vis, get_xy, cross_idx. rewrite (same_set_indices _ _ _ H), (Permutation_length H). reflexivity.
Qed.

Lemma values_any_order {A} (conj : A -> A) pr p fsel tsel sel sel' (x : xst A) r : Permutation sel sel' ->
  xst_get conj pr p (Some sel) fsel tsel x = Ok r ->
  xst_get conj pr p (Some sel') fsel tsel x = Ok (mkXSlice sel' (xs_time r) (xs_freq r) (xs_value r)).
Proof.
  intros H. unfold xst_get, crosslet_get, select_mini_arrays.
  assert (existsb (fun k => negb (isin k (x_mas x))) sel = existsb (fun k => negb (isin k (x_mas x))) sel') as ->.
  { destruct (existsb _ sel) eqn:E, (existsb _ sel') eqn:E'; try reflexivity; exfalso.
    - apply existsb_exists in E. destruct E as [k [I N]].
      rewrite (proj2 (existsb_exists _ _)) in E'; [discriminate|]. exists k. split; [now apply (Permutation_in _ H)|assumption].
    - apply existsb_exists in E'. destruct E' as [k [I N]].
      rewrite (proj2 (existsb_exists _ _)) in E; [discriminate|]. exists k. split; [now apply (Permutation_in _ (Permutation_sym H))|assumption]. }
  destruct (existsb _ sel'); [discriminate|]. cbn [bind].
  destruct (masks pr fsel tsel x) as [[tp fp]|e]; [|discriminate]. cbn [bind].
  rewrite (get_any_order conj tp fp p sel sel' x H).
  destruct (get_vis conj tp fp p sel' x) as [v|e]; [|discriminate]. cbn [bind]. unfold new_slice.
  destruct (filter tp (x_time x)); [discriminate|]. intro E. injection E as <-. reflexivity.
Qed.

(** ** Frequency labels *)
Lemma filter_positions (fp : Q -> bool) (row : list Q) :
  map (fun f => nth f row 0%Q) (filter (fun f => fp (nth f row 0%Q)) (seq 0 (length row))) = filter fp row.
Proof.
  assert (forall pre l, map (fun k => nth k (pre ++ l) 0%Q) (filter (fun k => fp (nth k (pre ++ l) 0%Q)) (seq (length pre) (length l))) = filter fp l) as G.
  { intros pre l. revert pre. induction l as [|a l IH]; intro pre; [reflexivity|]. cbn.
    rewrite app_nth2, Nat.sub_diag by lia. cbn [nth].
    specialize (IH (pre ++ [a])). rewrite app_length in IH. cbn in IH. rewrite Nat.add_1_r in IH.
    rewrite <- app_assoc in IH. cbn in IH.
    destruct (fp a); cbn; [rewrite app_nth2, Nat.sub_diag by lia; cbn|]; now rewrite IH. }
  apply (G []).
Qed.

Lemma freq_labels_tv {A} (x : xst A) fp F row : x_freq x = Common row -> chosen_freqs x fp F ->
  freq_kept fp (x_freq x) = map (fun f => freq_at (x_freq x) 0 f) F.
Proof.
  intros E HF. unfold freq_kept, chosen_freqs in *. rewrite E in *. cbn in *.
  rewrite (lists_of_unique _ _ _ _ HF (lists_of_filter (length row) (fun f => fp (nth f row 0%Q)))).
  symmetry. apply filter_positions.
Qed.

Lemma concat_repeat_filter {A} (fp : A -> bool) row n : filter fp (concat (repeat row n)) = concat (repeat (filter fp row) n).
Proof. induction n as [|n IH]; [reflexivity|]. cbn. now rewrite filter_app, IH. Qed.
Lemma concat_repeat_length {A} (row : list A) n : length (concat (repeat row n)) = n * length row.
Proof. induction n as [|n IH]; [reflexivity|]. cbn. rewrite app_length, IH. reflexivity. Qed.

(** XST files: one copy of the frequencies for each time of the file. *)
Lemma freq_labels_xst {A} (x : xst A) fp F row : x_freq x = ByTime (repeat row (length (x_time x))) -> x_time x <> [] ->
  chosen_freqs x fp F ->
  freq_kept fp (x_freq x) = concat (repeat (map (fun f => freq_at (x_freq x) 0 f) F) (length (x_time x))) /\
  length (freq_kept fp (x_freq x)) = length (x_time x) * length F.
Proof.
  intros E NE HF. unfold freq_kept, chosen_freqs in *. rewrite E in *. cbn [freq_values freq_at freq_size] in *.
  destruct (length (x_time x)) as [|n] eqn:L; [destruct (x_time x); [congruence|discriminate]|].
  change (hd [] (repeat row (S n))) with row in HF. change (nth 0 (repeat row (S n)) []) with row in *.
  rewrite (lists_of_unique _ _ _ _ HF (lists_of_filter (length row) (fun f => fp (nth f row 0%Q)))).
  rewrite concat_repeat_filter, filter_positions. split; [reflexivity|].
  rewrite concat_repeat_length. f_equal. rewrite <- filter_positions, map_length. reflexivity.
Qed.

(** ** Refusals *)
Lemma get_unknown {A} (conj : A -> A) pr p fsel tsel sel k (x : xst A) : In k sel -> ~ In k (x_mas x) ->
  xst_get conj pr p (Some sel) fsel tsel x = Err EIndexError.
Proof.
  intros I N. unfold xst_get, crosslet_get, select_mini_arrays.
  rewrite (proj2 (existsb_exists _ _)); [reflexivity|]. exists k. split; [assumption|].
  destruct (isin k (x_mas x)) eqn:E; [apply isin_In in E; contradiction|reflexivity].
Qed.
Lemma get_bad_pol {A} (conj : A -> A) pr fsel tsel sel tp fp (x : xst A) : incl (asked x sel) (x_mas x) ->
  masks pr fsel tsel x = Ok (tp, fp) -> xst_get conj pr None sel fsel tsel x = Err EValueError.
Proof.
  intros I M. unfold xst_get, crosslet_get. rewrite select_ok by assumption. cbn [bind]. rewrite M. reflexivity.
Qed.

(** ** Stokes parameters *)
Definition uses_xy (s : stokes) : bool := match s with SI | SQ => false | _ => true end.

Section Stokes.
  Context {A : Type} (C : complex_ops A).
  Variables (pr : printer) (fsel tsel : option string) (x : xst A) (sel : option (list nat)) (tp fp : Q -> bool).
  Hypothesis WF : well_formed x.
  Hypothesis MS : masks pr fsel tsel x = Ok (tp, fp).

  Lemma stokes_values s T F P : same_bands x -> NoDup (x_mas x) -> NoDup (asked x sel) -> incl (asked x sel) (x_mas x) ->
    chosen_times x tp T -> chosen_freqs x fp F -> chosen x (asked x sel) P -> T <> [] -> F <> [] ->
    (uses_xy s = true -> one_alone (length T) (length F)) ->
    exists v, get_stokes C pr (Some s) sel fsel tsel x
        = Ok (mkXSlice (asked x sel) (filter tp (x_time x)) (freq_kept fp (x_freq x)) v) /\
      sh v = [length T; length F; length P * (length P + 1) / 2] /\
      forall i j a b, i < length T -> j < length F -> b <= a -> a < length P ->
        get v [i; j; vis_no a b] =
        stokes_compute C s (product_at (c_conj C) x (nth i T 0) (nth j F 0) (nth a P 0) (nth b P 0)).
  Proof.
    intros SB Hf Hs I HT HF HP NT NF ONE.
    unfold get_stokes. rewrite select_ok by assumption. cbn [bind]. rewrite MS. cbn [bind].
    unfold crosslet_get. rewrite select_ok by assumption. cbn [bind]. rewrite MS. cbn [bind].
    destruct (filter_nonempty x tp T HT NT) as [t0 [r ET]].
    set (g := fun p => get_vis (c_conj C) tp fp (Some p) (asked x sel) x).
    assert (forall p, (p = XY -> one_alone (length T) (length F)) -> exists v, g p = Ok v /\
      sh v = [length T; length F; length P * (length P + 1) / 2] /\
      forall i j a b, i < length T -> j < length F -> b <= a -> a < length P ->
        get v [i; j; vis_no a b] = product_at (c_conj C) x (nth i T 0) (nth j F 0) (nth a P 0) (nth b P 0) p) as V.
    { intros p HX. destruct (get_values (c_conj C) pr fsel tsel x sel tp fp WF MS p T F P SB Hf Hs I HT HF HP NT NF HX)
        as [v [G [LP [S V]]]].
      exists v. split; [|split; [assumption|intros; now apply V]].
      unfold xst_get, crosslet_get in G. rewrite select_ok in G by assumption. cbn [bind] in G. rewrite MS in G. cbn [bind] in G.
      unfold g. destruct (get_vis (c_conj C) tp fp (Some p) (asked x sel) x) as [v'|e]; [|discriminate]. cbn [bind] in G.
      rewrite ET in G. cbn [new_slice] in G. unfold new_slice in G. f_equal. congruence. }
    destruct s; cbn [stokes_cross all_products]; cbn in ONE;
      repeat match goal with
      | |- context [g ?p] =>
          let v := fresh "v" in let G := fresh "G" in let S := fresh "S" in let W := fresh "W" in
          destruct (V p ltac:(intro; (discriminate || auto))) as [v [G [S W]]]; rewrite G; clear G; cbn [bind]
      end;
      unfold new_slice; rewrite ET; (eexists; split; [reflexivity|]); cbn [sh get]; (split; [assumption|]);
      intros i j a b Li Lj B La; unfold stokes_compute; cbn [lookup_pol pol_eqb];
      repeat match goal with W : forall i j a b, _ |- _ => rewrite (W i j a b Li Lj B La); clear W end; reflexivity.
  Qed.

  Lemma stokes_refused s T F : uses_xy s = true -> same_bands x -> NoDup (x_mas x) -> NoDup (asked x sel) -> incl (asked x sel) (x_mas x) -> asked x sel <> [] ->
    chosen_times x tp T -> chosen_freqs x fp F -> T <> [] -> F <> [] -> ~ one_alone (length T) (length F) ->
    get_stokes C pr (Some s) sel fsel tsel x = Err EIndexError.
  Proof.
    intros U SB Hf Hs I NE HT HF NT NF ONE.
    unfold get_stokes. rewrite select_ok by assumption. cbn [bind]. rewrite MS. cbn [bind].
    unfold crosslet_get. rewrite select_ok by assumption. cbn [bind]. rewrite MS. cbn [bind].
    destruct (kept_chosen x tp fp T F SB HT HF NT NF) as [ER [EC PM]].
    assert (get_vis (c_conj C) tp fp (Some XY) (asked x sel) x = Err EIndexError) as EX.
    { apply xy_refused; [assumption|assumption|assumption|]. rewrite ER, EC. unfold one_alone in ONE.
      destruct (Nat.eq_dec (length T) 1), (Nat.eq_dec (length F) 1); tauto. }
    destruct (vis_ok (c_conj C) x tp fp (asked x sel) WF XX _ _ ltac:(discriminate) eq_refl Hf Hs I PM) as [v1 [G1 _]].
    destruct (vis_ok (c_conj C) x tp fp (asked x sel) WF YY _ _ ltac:(discriminate) eq_refl Hf Hs I PM) as [v2 [G2 _]].
    destruct s; try discriminate; cbn [stokes_cross all_products]; rewrite ?G1; cbn [bind]; rewrite ?G2; cbn [bind]; rewrite EX; reflexivity.
  Qed.

  Lemma stokes_unknown : incl (asked x sel) (x_mas x) -> get_stokes C pr None sel fsel tsel x = Err EKeyError.
  Proof. intro I. unfold get_stokes. rewrite select_ok by assumption. cbn [bind]. rewrite MS. reflexivity. Qed.
End Stokes.

(** ** Correlation matrix *)
Definition below (S : list nat) (m : nat) : nat := length (filter (fun s => s <? m) S).

Lemma below_nth S m k : increasing S -> k < length S -> (nth k S 0 < m <-> k < below S m).
Proof.
  revert k. induction S as [|a S IH]; intros k H L; [cbn in L; lia|].
  assert (increasing S) as H' by (intros i j Li Lj; apply (H (Datatypes.S i) (Datatypes.S j)); cbn; lia).
  unfold below. cbn [filter]. destruct (Nat.ltb_spec a m) as [G|G].
  - destruct k as [|k]; cbn [nth length]; [lia|]. cbn [length] in L. rewrite (IH k H') by lia. unfold below. lia.
  - assert (filter (fun s => s <? m) S = []) as E.
    { destruct (filter _ S) as [|b r] eqn:K; [reflexivity|]. exfalso.
      assert (In b (b :: r)) as I by now left. rewrite <- K in I. apply filter_In in I. destruct I as [I B].
      apply Nat.ltb_lt in B. apply (In_nth _ _ 0) in I. destruct I as [n [Ln <-]].
      specialize (H 0 (Datatypes.S n) ltac:(lia) ltac:(cbn; lia)). cbn in H. lia. }
    rewrite E. cbn [length]. destruct k as [|k]; cbn [nth]; [lia|]. cbn in L.
    specialize (H 0 (Datatypes.S k) ltac:(lia) ltac:(cbn; lia)). cbn in H. lia.
Qed.

Lemma below_S S m : NoDup S -> below S (Datatypes.S m) = below S m + (if isin m S then 1 else 0).
Proof.
  intro H. induction H as [|a S N H IH]; [reflexivity|]. unfold below in *. cbn [filter isin existsb].
  fold (isin m S). destruct (Nat.ltb_spec a (Datatypes.S m)), (Nat.ltb_spec a m), (Nat.eqb_spec m a); cbn [length orb]; try (exfalso; lia); try (rewrite IH; destruct (isin m S); cbn [Nat.add]; lia).
  subst a. destruct (isin m S) eqn:E; [apply isin_In in E; contradiction|]. lia.
Qed.

Lemma below_le S m : NoDup S -> below S m <= m.
Proof.
  intro H. induction m as [|m IH].
  - unfold below. replace (filter _ S) with (@nil nat); [cbn; lia|]. symmetry. clear. induction S; [reflexivity|]. cbn. assumption.
  - rewrite below_S by assumption. destruct (isin m S); lia.
Qed.

Lemma lmax_ge l k : In k l -> k <= lmax l.
Proof.
  induction l as [|a l IH]; intros []; cbn [lmax fold_right].
  - subst. apply Nat.le_max_l.
  - etransitivity; [now apply IH|apply Nat.le_max_r].
Qed.
Lemma lmax_In l : l <> [] -> In (lmax l) l.
Proof.
  induction l as [|a l IH]; intro N; [congruence|]. destruct l as [|b l]; [left; cbn; lia|].
  change (lmax (a :: b :: l)) with (Nat.max a (lmax (b :: l))).
  destruct (Nat.max_spec a (lmax (b :: l))) as [[_ ->]|[_ ->]]; [right; apply IH; discriminate|now left].
Qed.

Lemma relabel_loop S mas k n : increasing S -> (forall q, In q mas <-> In q S) -> k < length S ->
  fold_left (fun x ma => if isin ma mas then x else if ma <=? x then Datatypes.S x else x) (seq 0 n) k
  = if k <? below S n then nth k S 0 else k + (n - below S n).
Proof.
  intros H E L. pose proof (increasing_NoDup _ H) as ND. induction n as [|n IH].
  - cbn [seq fold_left]. pose proof (below_le S 0 ND). destruct (Nat.ltb_spec k (below S 0)); lia.
  - rewrite seq_S, fold_left_app, IH. cbn [fold_left Nat.add]. rewrite below_S by assumption.
    pose proof (below_le S n ND) as LE. pose proof (below_nth S n k H L) as B1.
    assert (isin n mas = isin n S) as ->.
    { destruct (isin n mas) eqn:E1, (isin n S) eqn:E2; try reflexivity; exfalso;
      [apply isin_In, E, isin_In in E1|apply isin_In, E, isin_In in E2]; congruence. }
    destruct (isin n S) eqn:M.
    + apply isin_In in M. apply (In_nth _ _ 0) in M. destruct M as [q [Lq Eq]].
      assert (below S n = q) as BQ.
      { pose proof (below_nth S n q H Lq) as B2. pose proof (below_nth S (Datatypes.S n) q H Lq) as B3.
        rewrite below_S in B3 by assumption.
        assert (isin n S = true) as IS by (apply isin_In; rewrite <- Eq; now apply nth_In). rewrite IS in B3. lia. }
      destruct (Nat.ltb_spec k (below S n)), (Nat.ltb_spec k (below S n + 1)); try lia.
      replace k with q by lia. lia.
    + rewrite Nat.add_0_r. destruct (Nat.ltb_spec k (below S n)) as [G|G].
      * destruct (Nat.leb_spec n (nth k S 0)); [lia|reflexivity].
      * destruct (Nat.leb_spec n (k + (n - below S n))); lia.
Qed.

Lemma relabel_nth S mas k : increasing S -> Permutation mas S -> k < length S -> relabel mas k = nth k S 0.
Proof.
  intros H E L. unfold relabel.
  assert (forall q, In q mas <-> In q S) as EI by (intro q; split; apply Permutation_in; [assumption|now apply Permutation_sym]).
  rewrite (relabel_loop S mas k _ H EI L).
  assert (nth k S 0 < Datatypes.S (lmax mas)) as B by (apply Nat.lt_succ_r, lmax_ge, EI, nth_In, L).
  apply (below_nth S _ k H L) in B. now rewrite (proj2 (Nat.ltb_lt _ _) B).
Qed.

Lemma assign_fold {A} (r c : nat -> nat) (val : nat -> A) ks m0 i j :
  (forall k k', In k ks -> In k' ks -> r k = r k' -> c k = c k' -> k = k') ->
  (forall k, In k ks -> r k = i -> c k = j ->
     fold_left (fun m k => assign m (r k) (c k) (val k)) ks m0 i j = Some (val k)) /\
  ((forall k, In k ks -> ~ (r k = i /\ c k = j)) ->
     fold_left (fun m k => assign m (r k) (c k) (val k)) ks m0 i j = m0 i j).
Proof.
  revert m0. induction ks as [|k0 ks IH] using rev_ind; intros m0 INJ; [split; [intros k []|reflexivity]|].
  rewrite fold_left_app. cbn [fold_left]. unfold assign at 1 3.
  assert (forall k k', In k ks -> In k' ks -> r k = r k' -> c k = c k' -> k = k') as INJ'.
  { intros k k' I I'. apply INJ; apply in_app_iff; now left. }
  split.
  - intros k I R C. destruct (Nat.eqb_spec i (r k0)), (Nat.eqb_spec j (c k0)); cbn [andb].
    1: { rewrite (INJ k k0); [reflexivity|assumption|apply in_app_iff; right; now left|congruence|congruence]. }
    all: apply in_app_iff in I; destruct I as [I|[<-|[]]]; [|congruence]; now apply (proj1 (IH m0 INJ')).
  - intro N. assert (~ (r k0 = i /\ c k0 = j)) as N0 by (apply N, in_app_iff; right; now left).
    destruct (Nat.eqb_spec i (r k0)), (Nat.eqb_spec j (c k0)); cbn [andb]; try (exfalso; apply N0; split; congruence).
    all: apply (proj2 (IH m0 INJ')); intros k I; apply N, in_app_iff; now left.
Qed.

Lemma last_nth (l : list nat) : last l 0 = nth (length l - 1) l 0.
Proof.
  destruct l as [|a l]; [reflexivity|]. destruct (@exists_last _ (a :: l) ltac:(discriminate)) as [q [z ->]].
  rewrite last_last, app_length, app_nth2; cbn [length]; [|lia].
  now replace (length q + 1 - 1 - length q) with 0 by lia.
Qed.

Lemma matrix_cells {A} (d : A) mask_auto mas S mean : increasing S -> Permutation mas S -> mas <> [] ->
  length mean = length mas * (length mas + 1) / 2 ->
  exists M, corr_matrix d mask_auto mas mean = Ok (Datatypes.S (last S 0), M) /\
    (forall a b, b <= a -> a < length S ->
       M (nth b S 0) (nth a S 0) = if mask_auto && (a =? b) then None else Some (nth (vis_no a b) mean d)) /\
    (forall i j, (forall a b, b <= a -> a < length S -> ~ (i = nth b S 0 /\ j = nth a S 0)) -> M i j = None).
Proof.
  intros H E NE LM. unfold corr_matrix. destruct mas as [|m0 ms] eqn:K; [congruence|]. rewrite <- K in *. clear K.
  pose proof (increasing_NoDup _ H) as ND.
  assert (length mas = length S) as LS by (now apply Permutation_length).
  set (pairs := map (fun p => (relabel mas (fst p), relabel mas (snd p))) (tril (length mas))).
  assert (length pairs = length (tril (length mas))) as LP by (unfold pairs; now rewrite map_length).
  assert (forall a b, b <= a -> a < length S -> nth (vis_no a b) pairs (0, 0) = (nth a S 0, nth b S 0)) as NP.
  { intros a b B L. unfold pairs.
    rewrite (nth_indep _ (0, 0) ((fun p => (relabel mas (fst p), relabel mas (snd p))) (0, 0)))
      by (rewrite map_length, LS; now apply vis_no_bound).
    rewrite (map_nth (fun p => (relabel mas (fst p), relabel mas (snd p)))), LS, tril_nth by assumption. cbn [fst snd].
    rewrite !(relabel_nth S mas) by (assumption || lia). reflexivity. }
  assert (S <> []) as NS by (intros ->; apply Permutation_length in E; destruct mas; [congruence|discriminate]).
  assert (lmax mas = last S 0) as EM.
  { apply Nat.le_antisymm.
    - assert (In (lmax mas) S) as I by (apply (Permutation_in _ E), lmax_In; assumption).
      apply (In_nth _ _ 0) in I. destruct I as [n [Ln <-]].
      rewrite last_nth. destruct (Nat.eq_dec n (length S - 1)) as [->|Nn]; [lia|].
      apply Nat.lt_le_incl, H; lia.
    - apply lmax_ge. apply (Permutation_in _ (Permutation_sym E)).
      destruct (@exists_last _ S NS) as [q [z ->]]. rewrite last_last. apply in_app_iff. right. now left. }
  rewrite EM. set (ks := filter (fun k => negb mask_auto || negb (is_auto (nth k pairs (0, 0)))) (seq 0 (length pairs))).
  assert (length mean =? length pairs = true) as -> by (apply Nat.eqb_eq; rewrite LM, LP, tril_length; reflexivity). cbn [negb].
  assert (forall k, In k ks -> exists a b, b <= a /\ a < length S /\ k = vis_no a b) as KS.
  { intros k I. apply filter_In in I. destruct I as [I _]. apply in_seq in I. rewrite LP, LS in I.
    destruct (tril_nth_inv (length S) k (0, 0) ltac:(lia)) as [a [b [B [L [EK _]]]]]. exists a, b. auto. }
  assert (forall k, In k S -> k < Datatypes.S (last S 0)) as BS.
  { intros k I. apply Nat.lt_succ_r. rewrite <- EM. apply lmax_ge. now apply (Permutation_in _ (Permutation_sym E)). }
  rewrite (proj2 (forallb_forall _ _)).
  2: { intros k I. destruct (KS k I) as [a [b [B [L ->]]]]. rewrite NP by assumption. cbn [fst snd].
       rewrite !(proj2 (Nat.ltb_lt _ _)); [reflexivity| |]; apply BS, nth_In; lia. }
  eexists. split; [reflexivity|].
  set (r := fun k => snd (nth k pairs (0, 0))). set (c := fun k => fst (nth k pairs (0, 0))).
  assert (forall k k', In k ks -> In k' ks -> r k = r k' -> c k = c k' -> k = k') as INJ.
  { intros k k' I I'. destruct (KS k I) as [a [b [B [L ->]]]], (KS k' I') as [a' [b' [B' [L' ->]]]].
    unfold r, c. rewrite !NP by assumption. cbn [fst snd]. intros E1 E2.
    apply (proj1 (NoDup_nth S 0) ND) in E1; [|lia|lia]. apply (proj1 (NoDup_nth S 0) ND) in E2; [|lia|lia]. congruence. }
  split.
  - intros a b B L. destruct (assign_fold r c (fun k => nth k mean d) ks (fun _ _ => None) (nth b S 0) (nth a S 0) INJ) as [G1 G2].
    assert (is_auto (nth (vis_no a b) pairs (0, 0)) = (a =? b)) as AU.
    { rewrite NP by assumption. unfold is_auto. cbn [fst snd]. destruct (Nat.eqb_spec a b) as [->|N]; [apply Nat.eqb_refl|].
      apply Nat.eqb_neq. intro Q. apply (proj1 (NoDup_nth S 0) ND) in Q; lia. }
    destruct (mask_auto && (a =? b)) eqn:MA.
    + apply G2. intros k I [Ra Ca]. destruct (KS k I) as [a' [b' [B' [L' ->]]]].
      unfold r, c in Ra, Ca. rewrite NP in Ra, Ca by assumption. cbn [fst snd] in *.
      apply (proj1 (NoDup_nth S 0) ND) in Ra; [|lia|lia]. apply (proj1 (NoDup_nth S 0) ND) in Ca; [|lia|lia]. subst a' b'.
      apply filter_In in I. destruct I as [_ I]. rewrite AU in I. destruct mask_auto, (a =? b); discriminate.
    + apply (G1 (vis_no a b)).
      * apply filter_In. split; [apply in_seq; rewrite LP, LS; split; [lia|]; now apply vis_no_bound|].
        rewrite AU. destruct mask_auto, (a =? b); (reflexivity || discriminate).
      * unfold r. now rewrite NP.
      * unfold c. now rewrite NP.
  - intros i j N. destruct (assign_fold r c (fun k => nth k mean d) ks (fun _ _ => None) i j INJ) as [_ G2].
    apply G2. intros k I [Ra Ca]. destruct (KS k I) as [a [b [B [L ->]]]].
    unfold r, c in Ra, Ca. rewrite NP in Ra, Ca by assumption. cbn [fst snd] in *. apply (N a b B L). split; congruence.
Qed.
