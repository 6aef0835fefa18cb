(** The XY product, the whole selection, and the correlation matrix. *)
From Coq Require Import ZArith QArith Bool String List Arith Lia Sorting.Sorted Sorting.Permutation.
From Verif Require Import Base M_Nd M_Cond M_Xst P_Nd P_Xst P_Xst2.
Import ListNotations.
Open Scope nat_scope.
Open Scope list_scope.

(** ** XY *)
Lemma rank_nth {B} (f : B -> bool) (l : list B) d k : k < length l -> f (nth k l d) = true ->
  nth (length (filter f (firstn k l))) (filter f l) d = nth k l d.
Proof.
  revert k. induction l as [|a l IH]; intros k L H; [cbn in L; lia|]. destruct k as [|k]; cbn in *.
  - rewrite H. reflexivity.
  - destruct (f a); cbn; apply IH; (lia || assumption).
Qed.

Lemma rows_cols_nil m nt nf : rows_kept m nt nf = [] <-> cols_kept m nt nf = [].
Proof.
  assert (forall l : list nat, l = [] <-> forall k, ~ In k l) as G.
  { intro l. split; [intros -> k []|]. destruct l as [|a l]; [reflexivity|]. intro H. destruct (H a). now left. }
  rewrite !G. unfold rows_kept, cols_kept. setoid_rewrite filter_In. setoid_rewrite existsb_exists.
  split; intros H k [I [j [J M]]]; apply (H j); (split; [assumption|]); exists k; split; assumption.
Qed.

Section XY.
  Context {A : Type} (conj : A -> A).
  Variables (x : xst A) (tp fp : Q -> bool) (sel : list nat).
  Let m := tf_mask tp fp x.
  Let rows := rows_kept m (length (x_time x)) (freq_size (x_freq x)).
  Let cols := cols_kept m (length (x_time x)) (freq_size (x_freq x)).
  Hypothesis WF : well_formed x.

  Lemma single_product : length rows = 1 \/ length cols = 1 -> forall t f, In t rows -> In f cols -> m t f = true.
  Proof.
    intros H t f T F. assert (T' := T). assert (F' := F). unfold rows, rows_kept in T'. unfold cols, cols_kept in F'.
    apply filter_In in T', F'. destruct T' as [T1 T2], F' as [F1 F2]. apply existsb_exists in T2, F2.
    destruct T2 as [f' [G1 G2]], F2 as [t' [S1 S2]].
    destruct H as [H|H].
    - assert (In t' rows) as T' by (apply filter_In; split; [assumption|apply existsb_exists; exists f; now split]).
      destruct rows as [|a [|b r]]; cbn in H; try lia. destruct T as [<-|[]], T' as [<-|[]]. assumption.
    - assert (In f' cols) as F' by (apply filter_In; split; [assumption|apply existsb_exists; exists t; now split]).
      destruct cols as [|a [|b r]]; cbn in H; try lia. destruct F as [<-|[]], F' as [<-|[]]. assumption.
  Qed.

  Lemma cross_rank_total n : length (filter (recorded X Y) (tril n)) = cross_rank (tril n) (length (tril n)).
  Proof. unfold cross_rank. rewrite firstn_all. reflexivity. Qed.

  Lemma expand_sel (d : nd A) nv : sh d = [length rows * length cols; nv] ->
    (length rows = 1 /\ length cols <> 1) \/ (length rows <> 1 /\ length cols = 1) ->
    let d' := (if length rows =? 1 then expand_dims 0 d else d) in
    let d'' := (if length cols =? 1 then expand_dims 1 d' else d') in
    sh d'' = [length rows; length cols; nv] /\
    forall i j v, i < length rows -> j < length cols -> get d'' [i; j; v] = get d [i * length cols + j; v].
  Proof.
    intros S [[H1 H2]|[H1 H2]]; cbv zeta.
    - rewrite H1 in *. rewrite (proj2 (Nat.eqb_neq _ _) H2). cbn [Nat.eqb]. unfold expand_dims. cbn [sh get]. rewrite S. cbn.
      split; [now rewrite Nat.add_0_r|]. intros i j v Li Lj. replace i with 0 by lia. reflexivity.
    - rewrite H2 in *. rewrite (proj2 (Nat.eqb_neq _ _) H1). cbn [Nat.eqb]. unfold expand_dims. cbn [sh get]. rewrite S. cbn.
      split; [now rewrite Nat.mul_1_r|]. intros i j v Li Lj. replace j with 0 by lia. f_equal. f_equal. lia.
  Qed.

  Lemma xy_ok : NoDup (x_mas x) -> NoDup sel -> incl sel (x_mas x) ->
    (length rows = 1 /\ length cols <> 1) \/ (length rows <> 1 /\ length cols = 1) ->
    let P := ma_indices (x_mas x) sel in
    exists v, get_vis conj tp fp (Some XY) sel x = Ok v /\
      sh v = [length rows; length cols; length sel * (length sel + 1) / 2] /\
      forall i j a b, i < length rows -> j < length cols -> b <= a -> a < length sel ->
        get v [i; j; vis_no a b] =
        if a =? b then conj (get (x_data x) [nth i rows 0; nth j cols 0; stored P Y X (a, b)])
        else get (x_data x) [nth i rows 0; nth j cols 0; stored P X Y (a, b)].
  Proof.
    intros Hf Hs I ONE P. unfold get_vis. fold m. fold rows. fold cols.
    destruct (data_ok x tp fp WF) as [d [Ed [Sd Gd]]]. fold m in Ed, Sd, Gd. rewrite Ed. cbn [bind].
    assert (selected m (length (x_time x)) (freq_size (x_freq x)) = list_prod rows cols) as Sel.
    { apply selected_prod. apply single_product. destruct ONE as [[E _]|[_ E]]; auto. }
    rewrite Sel, prod_length in Sd.
    unfold get_xy. destruct (expand_sel d _ Sd ONE) as [S' G'].
    set (d2 := if length cols =? 1 then expand_dims 1 (if length rows =? 1 then expand_dims 0 d else d)
               else if length rows =? 1 then expand_dims 0 d else d) in *.
    assert (forall c1 c2, take_idx 2 (cross_idx (x_mas x) sel c1 c2) d2 =
      Ok (mkNd [length rows; length cols; length (cross_idx (x_mas x) sel c1 c2)]
        (fun ix => get d2 (firstn 2 ix ++ nth (nth 2 ix 0) (cross_idx (x_mas x) sel c1 c2) 0 :: skipn 3 ix)))) as TK.
    { intros c1 c2. rewrite take_ok; rewrite S'; [reflexivity|cbn; lia|].
      intros v Iv. cbn [nth]. eapply stored_bound. exact Iv. }
    rewrite !TK. cbn [bind sh].
    assert (length (cross_idx (x_mas x) sel Y X) = length (tril (length sel))) as LYX.
    { rewrite cross_idx_length by (assumption || congruence). now rewrite tril_length. }
    assert (length (cross_idx (x_mas x) sel X Y) = cross_rank (tril (length sel)) (length (tril (length sel)))) as LXY.
    { rewrite cross_idx_spec, map_length, chosen_length by assumption. apply cross_rank_total. }
    cbn [removelast app nth]. rewrite LYX, LXY, !Nat.eqb_refl. cbn [andb negb].
    unfold reshape. cbn [sh get]. rewrite Nat.eqb_refl.
    eexists. split; [reflexivity|]. cbn [sh get]. split; [now rewrite tril_length|].
    intros i j a b Li Lj B Ab. pose proof (vis_no_bound _ a b B Ab) as K.
    assert (unravel [length rows; length cols; length (tril (length sel))] (ravel [length rows; length cols; length (tril (length sel))] [i; j; vis_no a b])
       = [i; j; vis_no a b]) as ->.
    { apply unravel_ravel. repeat (apply Forall2_cons; [assumption|]). constructor. }
    cbn [nth firstn skipn app]. rewrite tril_nth by assumption. unfold is_auto. cbn [fst snd].
    destruct (Nat.eqb_spec a b) as [->|NE].
    - f_equal. rewrite G', Gd, Sel by assumption. cbv zeta. rewrite nth_list_prod by assumption. cbn [fst snd].
      f_equal. f_equal. f_equal. f_equal.
      rewrite cross_idx_spec, recorded_all by congruence. rewrite chosen_length by assumption.
      rewrite (nth_indep _ 0 (stored P Y X (0, 0))) by (rewrite map_length; assumption).
      fold P. rewrite map_nth, tril_nth by assumption. reflexivity.
    - rewrite G', Gd, Sel by assumption. cbv zeta. rewrite nth_list_prod by assumption. cbn [fst snd].
      f_equal. f_equal. f_equal. f_equal.
      rewrite cross_idx_spec. rewrite chosen_length by assumption. fold P.
      assert (recorded X Y (nth (vis_no a b) (tril (length sel)) (0, 0)) = true) as RE.
      { rewrite tril_nth by assumption. cbn. now rewrite (proj2 (Nat.eqb_neq _ _) NE). }
      pose proof (rank_nth (recorded X Y) (tril (length sel)) (0, 0) (vis_no a b) K RE) as RK.
      unfold cross_rank. change (fun p : nat * nat => negb (is_auto p)) with (recorded X Y).
      assert (length (filter (recorded X Y) (firstn (vis_no a b) (tril (length sel)))) < length (filter (recorded X Y) (tril (length sel)))) as LT.
      { rewrite <- (firstn_skipn (vis_no a b) (tril (length sel))) at 2. rewrite filter_app, app_length.
        assert (In (a, b) (filter (recorded X Y) (skipn (vis_no a b) (tril (length sel))))) as J.
        { apply filter_In. split; [|rewrite tril_nth in RE by assumption; exact RE].
          rewrite <- (tril_nth (length sel) a b (0, 0)) by assumption.
          replace (nth (vis_no a b) (tril (length sel)) (0, 0)) with (nth 0 (skipn (vis_no a b) (tril (length sel))) (0, 0)).
          - apply nth_In. rewrite skipn_length. lia.
          - rewrite <- (firstn_skipn (vis_no a b) (tril (length sel))) at 2.
            rewrite app_nth2; rewrite firstn_length_le by lia; [|lia]. now rewrite Nat.sub_diag. }
        destruct (filter (recorded X Y) (skipn (vis_no a b) (tril (length sel)))); [contradiction|cbn; lia]. }
      rewrite (nth_indep _ 0 (stored P X Y (0, 0))) by (rewrite map_length; assumption).
      rewrite map_nth, RK, tril_nth by assumption. reflexivity.
  Qed.

  Lemma xy_refused : sel <> [] -> incl sel (x_mas x) ->
    (length rows = 1 <-> length cols = 1) ->
    get_vis conj tp fp (Some XY) sel x = Err EIndexError.
  Proof.
    intros NE I BOTH. unfold get_vis. fold m. fold rows. fold cols.
    destruct (data_ok x tp fp WF) as [d [Ed [Sd Gd]]]. fold m in Ed, Sd, Gd. rewrite Ed. cbn [bind].
    unfold get_xy. destruct (Nat.eqb_spec (length rows) 1) as [E|E].
    - rewrite (proj2 (Nat.eqb_eq _ _) (proj1 BOTH E)). unfold take_idx. cbn [sh expand_dims]. rewrite Sd. cbn [firstn app skipn length Nat.leb nth].
      pose proof (selected_le m (length (x_time x)) (freq_size (x_freq x))) as LE. fold rows in LE. fold cols in LE.
      rewrite E, (proj1 BOTH E) in LE.
      set (s := length (selected m (length (x_time x)) (freq_size (x_freq x)))) in *.
      assert (forallb (fun v => v <? s) (cross_idx (x_mas x) sel Y X) = false) as ->; [|reflexivity].
      destruct sel as [|s0 s'] eqn:K; [congruence|]. rewrite <- K in *.
      assert (ma_indices (x_mas x) sel <> []) as NP.
      { assert (In s0 (x_mas x)) as J by (apply I; rewrite K; now left). apply (In_nth _ _ 0) in J. destruct J as [n [L N]].
        intro Z. assert (In n (ma_indices (x_mas x) sel)) as In0 by (apply ma_indices_In; split; [assumption|rewrite N, K; now left]).
        rewrite Z in In0. contradiction. }
      rewrite cross_idx_spec, recorded_all by congruence.
      set (P := ma_indices (x_mas x) sel) in *. destruct (length P) as [|n] eqn:LP; [destruct P; [congruence|discriminate]|].
      destruct (forallb (fun v => v <? s) (map (stored P Y X) (tril (S n)))) eqn:F; [|reflexivity].
      exfalso. rewrite forallb_forall in F. specialize (F (stored P Y X (0, 0))).
      assert (In (stored P Y X (0, 0)) (map (stored P Y X) (tril (S n)))) as J by (apply in_map, tril_In; lia).
      specialize (F J). apply Nat.ltb_lt in F. unfold stored, chain, vis_no in F. cbn [fst snd] in F.
      pose proof (tri_double (2 * nth 0 P 0 + 1)). lia.
    - destruct (Nat.eqb_spec (length cols) 1) as [E'|E']; [exfalso; tauto|].
      unfold take_idx. rewrite Sd. reflexivity.
  Qed.

  Lemma xy_duplicates : NoDup (x_mas x) -> ~ NoDup sel -> incl sel (x_mas x) ->
    get_vis conj tp fp (Some XY) sel x = Err EIndexError.
  Proof.
    intros Hf Hs I. assert (sel <> []) as NE by (intros ->; apply Hs; constructor).
    destruct (Nat.eq_dec (length rows) 1) as [R|R], (Nat.eq_dec (length cols) 1) as [C|C];
      try (apply xy_refused; [assumption|assumption|tauto]).
    all: unfold get_vis; fold m; fold rows; fold cols;
      destruct (data_ok x tp fp WF) as [d [Ed [Sd Gd]]]; fold m in Ed, Sd, Gd; rewrite Ed; cbn [bind];
      assert (selected m (length (x_time x)) (freq_size (x_freq x)) = list_prod rows cols) as Sel
        by (apply selected_prod; apply single_product; auto);
      rewrite Sel, prod_length in Sd;
      unfold get_xy; destruct (expand_sel d _ Sd ltac:(auto)) as [S' G'];
      set (d2 := if length cols =? 1 then expand_dims 1 (if length rows =? 1 then expand_dims 0 d else d)
               else if length rows =? 1 then expand_dims 0 d else d) in *;
      rewrite take_ok; rewrite ?S'; [|cbn; lia|intros v Iv; cbn [nth]; eapply stored_bound; exact Iv];
      cbn [bind sh firstn app removelast nth];
      assert (length (cross_idx (x_mas x) sel Y X) < length (tril (length sel))) as Lidx.
    1, 3: pose proof (dup_length (x_mas x) sel Hf Hs) as LT;
      rewrite cross_idx_spec, map_length, recorded_all by congruence; rewrite !tril_length;
      pose proof (tri_double (length (ma_indices (x_mas x) sel))); pose proof (tri_double (length sel)); nia.
    all: rewrite (proj2 (Nat.eqb_neq (length (cross_idx (x_mas x) sel Y X)) _)) by lia; rewrite andb_false_r; reflexivity.
  Qed.
End XY.
