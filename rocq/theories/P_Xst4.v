(** Cross-correlation selections as the user sees them, Stokes parameters and
    the correlation matrix. *)
From Coq Require Import ZArith QArith Bool String List Arith Lia Sorting.Sorted Sorting.Permutation.
From Verif Require Import Base M_Nd M_Cond M_Xst P_Nd P_Xst P_Xst2 P_Xst3.
Import ListNotations.
Open Scope nat_scope.
Open Scope list_scope.

(** ** Specification *)
(** The selection asked for, all the Mini-Arrays by default. *)
Definition asked {A} (x : xst A) (sel : option (list nat)) : list nat :=
  match sel with None => x_mas x | Some s => s end.

(** A list of Mini-Arrays of the file, in the order of the file. *)
Definition in_file_order (file sel : list nat) : Prop :=
  exists P, increasing P /\ (forall k, In k P -> k < length file) /\ sel = map (fun k => nth k file 0) P.

(** The product [p] of the Mini-Arrays at positions [pa] and [pb] ([pa] not
    before [pb]), at time [t] and frequency [f].  Files do not hold the XY product
    of a Mini-Array with itself, the conjugate of its YX product. *)
Definition product_at {A} (conj : A -> A) (x : xst A) (t f pa pb : nat) (p : pol) : A :=
  let v c1 c2 := get (x_data x) [t; f; vis_no (chain pa c1) (chain pb c2)] in
  match p with
  | XX => v X X | YY => v Y Y | YX => v Y X
  | XY => if pa =? pb then conj (v Y X) else v X Y
  end.

(** Exactly one of the two numbers is one. *)
Definition one_alone (a b : nat) : Prop := (a = 1 /\ b <> 1) \/ (a <> 1 /\ b = 1).

(** ** Lemmas *)
Section Get.
  Context {A : Type} (conj : A -> A).
  Variables (pr : printer) (fsel tsel : option string) (x : xst A) (sel : option (list nat)) (tp fp : Q -> bool).
  Hypothesis WF : well_formed x.
  Hypothesis MS : masks pr fsel tsel x = Ok (tp, fp).
  Let m := tf_mask tp fp x.
  Let rows := rows_kept m (length (x_time x)) (freq_size (x_freq x)).
  Let cols := cols_kept m (length (x_time x)) (freq_size (x_freq x)).

  Lemma kept_chosen T F : same_bands x -> chosen_times x tp T -> chosen_freqs x fp F -> T <> [] -> F <> [] ->
    rows = T /\ cols = F /\ product_mask x tp fp.
  Proof.
    intros SB HT HF NT NF.
    assert (exists t0, In t0 T) as [t0 T0] by (destruct T as [|t T']; [congruence|exists t; now left]).
    assert (exists f0, In f0 F) as [f0 F0] by (destruct F as [|f F']; [congruence|exists f; now left]).
    assert (forall t f, t < length (x_time x) -> f < freq_size (x_freq x) -> (m t f = true <-> In t T /\ In f F)) as M.
    { intros t f Lt Lf. unfold m, tf_mask. rewrite andb_true_iff, (proj2 HT), (proj2 HF).
      rewrite (SB t 0 f Lt) by lia. tauto. }
    assert (forall t, In t T -> t < length (x_time x)) as BT by (intros t I; now apply (proj2 HT) in I).
    assert (forall f, In f F -> f < freq_size (x_freq x)) as BF by (intros f I; now apply (proj2 HF) in I).
    assert (rows = T) as ER.
    { apply sorted_ext; [apply sorted_filter, sorted_seq|now apply sorted_increasing, (proj1 HT)|].
      intro t. unfold rows, rows_kept. rewrite filter_In, in_seq, existsb_exists. split.
      - intros [[_ L] [f [If Mf]]]. apply in_seq in If. apply M in Mf; [tauto|lia|lia].
      - intro I. split; [specialize (BT _ I); lia|]. exists f0. split; [apply in_seq; specialize (BF _ F0); lia|].
        apply M; auto. }
    assert (cols = F) as EC.
    { apply sorted_ext; [apply sorted_filter, sorted_seq|now apply sorted_increasing, (proj1 HF)|].
      intro f. unfold cols, cols_kept. rewrite filter_In, in_seq, existsb_exists. split.
      - intros [[_ L] [t [It Mt]]]. apply in_seq in It. apply M in Mt; [tauto|lia|lia].
      - intro I. split; [specialize (BF _ I); lia|]. exists t0. split; [apply in_seq; specialize (BT _ T0); lia|].
        apply M; auto. }
    split; [assumption|split; [assumption|]].
    intros t f It If. fold m in It, If |- *. fold rows in It. fold cols in If. rewrite ER in It. rewrite EC in If.
    apply M; auto.
  Qed.

  Lemma select_ok : incl (asked x sel) (x_mas x) -> select_mini_arrays (x_mas x) sel = Ok (asked x sel).
  Proof.
    intro I. unfold select_mini_arrays. fold (asked x sel).
    destruct (existsb (fun k => negb (isin k (x_mas x))) (asked x sel)) eqn:E; [|reflexivity].
    apply existsb_exists in E. destruct E as [k [J K]]. apply I, isin_In in J. rewrite J in K. discriminate.
  Qed.

  Lemma filter_nonempty T : chosen_times x tp T -> T <> [] -> exists t0 r, filter tp (x_time x) = t0 :: r.
  Proof.
    intros HT NT. destruct T as [|t T']; [congruence|]. assert (In t (t :: T')) as I by now left.
    apply (proj2 HT) in I. destruct I as [L E].
    destruct (filter tp (x_time x)) as [|a r] eqn:K; [exfalso|now exists a, r].
    assert (In (nth t (x_time x) 0%Q) (filter tp (x_time x))) as J by (apply filter_In; split; [now apply nth_In|assumption]).
    rewrite K in J. contradiction.
  Qed.

  Lemma chosen_nth T i : chosen_times x tp T -> i < length T -> nth i (filter tp (x_time x)) 0%Q = nth (nth i T 0) (x_time x) 0%Q.
  Proof.
    intros HT L.
    assert (T = filter (fun t => tp (nth t (x_time x) 0%Q)) (seq 0 (length (x_time x)))) as ET.
    { eapply lists_of_unique; [exact HT|apply lists_of_filter]. }
    assert (map (fun t => nth t (x_time x) 0%Q) T = filter tp (x_time x)) as E.
    { rewrite ET. clear.
      assert (forall pre l, map (fun k => nth k (pre ++ l) 0%Q) (filter (fun k => tp (nth k (pre ++ l) 0%Q)) (seq (length pre) (length l))) = filter tp l) as G.
      { intros pre l. revert pre. induction l as [|a l IH]; intro pre; [reflexivity|]. cbn.
        rewrite app_nth2, Nat.sub_diag by lia. cbn [nth].
        specialize (IH (pre ++ [a])). rewrite app_length in IH. cbn in IH. rewrite Nat.add_1_r in IH.
        rewrite <- app_assoc in IH. cbn in IH.
        destruct (tp a); cbn; [rewrite app_nth2, Nat.sub_diag by lia; cbn|]; now rewrite IH. }
      apply (G []). }
    rewrite <- E. rewrite (nth_indep _ 0%Q ((fun t => nth t (x_time x) 0%Q) 0)) by (now rewrite map_length).
    now rewrite (map_nth (fun t => nth t (x_time x) 0%Q)).
  Qed.

  Lemma get_result v : incl (asked x sel) (x_mas x) -> forall p T, chosen_times x tp T -> T <> [] ->
    get_vis conj tp fp p (asked x sel) x = Ok v ->
    xst_get conj pr p sel fsel tsel x = Ok (mkXSlice (asked x sel) (filter tp (x_time x)) (freq_kept fp (x_freq x)) v).
  Proof.
    intros I p T HT NT G. unfold xst_get, crosslet_get. rewrite select_ok by assumption. cbn [bind]. rewrite MS. cbn [bind].
    rewrite G. cbn [bind]. unfold new_slice. destruct (filter_nonempty T HT NT) as [t0 [r ->]]. reflexivity.
  Qed.
  Lemma get_error e : incl (asked x sel) (x_mas x) -> forall p, get_vis conj tp fp p (asked x sel) x = Err e ->
    xst_get conj pr p sel fsel tsel x = Err e.
  Proof.
    intros I p G. unfold xst_get, crosslet_get. rewrite select_ok by assumption. cbn [bind]. rewrite MS. cbn [bind].
    rewrite G. reflexivity.
  Qed.

  (** The main theorem. *)
  Lemma get_values p T F P : same_bands x -> NoDup (x_mas x) -> NoDup (asked x sel) -> incl (asked x sel) (x_mas x) ->
    chosen_times x tp T -> chosen_freqs x fp F -> chosen x (asked x sel) P -> T <> [] -> F <> [] ->
    (p = XY -> one_alone (length T) (length F)) ->
    exists v, xst_get conj pr (Some p) sel fsel tsel x
        = Ok (mkXSlice (asked x sel) (filter tp (x_time x)) (freq_kept fp (x_freq x)) v) /\
      length P = length (asked x sel) /\
      sh v = [length T; length F; length P * (length P + 1) / 2] /\
      forall i j a b, i < length T -> j < length F -> b <= a -> a < length P ->
        get v [i; j; vis_no a b] = product_at conj x (nth i T 0) (nth j F 0) (nth a P 0) (nth b P 0) p /\
        nth i (filter tp (x_time x)) 0%Q = nth (nth i T 0) (x_time x) 0%Q.
  Proof.
    intros SB Hf Hs I HT HF HP NT NF ONE.
    destruct (kept_chosen T F SB HT HF NT NF) as [ER [EC PM]].
    assert (length P = length (asked x sel)) as LP by (rewrite (chosen_eq _ _ _ HP); now apply chosen_length).
    assert (exists v, get_vis conj tp fp (Some p) (asked x sel) x = Ok v /\
      sh v = [length T; length F; length P * (length P + 1) / 2] /\
      forall i j a b, i < length T -> j < length F -> b <= a -> a < length P ->
        get v [i; j; vis_no a b] = product_at conj x (nth i T 0) (nth j F 0) (nth a P 0) (nth b P 0) p) as [v [G [S V]]].
    { rewrite LP. destruct p eqn:Ep.
      2: {
        specialize (ONE eq_refl). unfold one_alone in ONE. rewrite <- ER, <- EC in ONE.
        destruct (xy_ok conj x tp fp (asked x sel) WF Hf Hs I ONE) as [v [G [S V]]]. fold m in S, V. fold rows in S, V. fold cols in S, V.
        rewrite ER, EC in S, V. exists v. split; [assumption|split; [assumption|]].
        intros i j a b Li Lj B La. rewrite V by assumption. unfold product_at, stored. cbn [fst snd].
        rewrite <- (chosen_eq _ _ _ HP).
        replace (nth a P 0 =? nth b P 0) with (a =? b); [reflexivity|].
        destruct (Nat.eqb_spec a b) as [->|N]; [now rewrite Nat.eqb_refl|]. symmetry. apply Nat.eqb_neq.
        pose proof (proj1 HP b a ltac:(lia) ltac:(lia)). lia. }
      all: match goal with |- exists v, get_vis _ _ _ (Some ?q) _ _ = _ /\ _ =>
          destruct (vis_ok conj x tp fp (asked x sel) WF q _ _ ltac:(discriminate) eq_refl Hf Hs I PM) as [v [G [S V]]] end;
        fold m in S, V; fold rows in S, V; fold cols in S, V; rewrite ER, EC in S, V;
        exists v; (split; [assumption|split; [assumption|]]);
        intros i j a b Li Lj B La; rewrite V by assumption; unfold product_at, stored; cbn [fst snd];
        rewrite <- (chosen_eq _ _ _ HP); reflexivity. }
    exists v. split; [eapply get_result; eassumption|]. split; [assumption|split; [assumption|]].
    intros i j a b Li Lj B La. split; [now apply V|now apply (chosen_nth T)].
  Qed.

  (** XY needs a single time or a single frequency, not both. *)
  Lemma get_xy_refused T F : same_bands x -> incl (asked x sel) (x_mas x) -> asked x sel <> [] ->
    chosen_times x tp T -> chosen_freqs x fp F -> T <> [] -> F <> [] -> ~ one_alone (length T) (length F) ->
    xst_get conj pr (Some XY) sel fsel tsel x = Err EIndexError.
  Proof.
    intros SB I NE HT HF NT NF ONE. destruct (kept_chosen T F SB HT HF NT NF) as [ER [EC PM]].
    apply get_error; [assumption|]. apply xy_refused; [assumption|assumption|assumption|].
    fold m. fold rows. fold cols. rewrite ER, EC. unfold one_alone in ONE.
    destruct (Nat.eq_dec (length T) 1), (Nat.eq_dec (length F) 1); tauto.
  Qed.

  (** Frequencies changing with time: the selected samples do not make a
      rectangle. *)
  Lemma get_hopping p t f t' f' : p <> XY -> NoDup (x_mas x) -> NoDup (asked x sel) -> incl (asked x sel) (x_mas x) -> asked x sel <> [] ->
    t < length (x_time x) -> t' < length (x_time x) -> f < freq_size (x_freq x) -> f' < freq_size (x_freq x) ->
    tp (nth t (x_time x) 0%Q) = true -> tp (nth t' (x_time x) 0%Q) = true ->
    fp (freq_at (x_freq x) t f) = true -> fp (freq_at (x_freq x) t' f') = true -> fp (freq_at (x_freq x) t f') = false ->
    xst_get conj pr (Some p) sel fsel tsel x = Err EValueError.
  Proof.
    intros NXY Hf Hs I NE Lt Lt' Lf Lf' T1 T2 F1 F2 F3. apply get_error; [assumption|].
    apply vis_not_product; try assumption. intro PM.
    assert (m t f' = true) as C.
    { apply PM.
      - apply filter_In. split; [apply in_seq; lia|]. apply existsb_exists. exists f. split; [apply in_seq; lia|].
        unfold tf_mask. now rewrite T1, F1.
      - apply filter_In. split; [apply in_seq; lia|]. apply existsb_exists. exists t'. split; [apply in_seq; lia|].
        unfold tf_mask. now rewrite T2, F2. }
    unfold m, tf_mask in C. rewrite F3, andb_false_r in C. discriminate.
  Qed.

  Lemma get_duplicates p T F : same_bands x -> NoDup (x_mas x) -> ~ NoDup (asked x sel) -> incl (asked x sel) (x_mas x) ->
    chosen_times x tp T -> chosen_freqs x fp F -> T <> [] -> F <> [] ->
    xst_get conj pr (Some p) sel fsel tsel x = Err (match p with XY => EIndexError | _ => EValueError end).
  Proof.
    intros SB Hf Hs I HT HF NT NF. destruct (kept_chosen T F SB HT HF NT NF) as [ER [EC PM]].
    apply get_error; [assumption|]. destruct p; [|apply xy_duplicates; assumption| |];
      apply vis_duplicates; try assumption; try discriminate; fold m; fold rows; rewrite ER; assumption.
  Qed.

  Lemma no_time_rows : (forall t, In t (x_time x) -> tp t = false) -> rows = [] /\ cols = [] /\
    selected m (length (x_time x)) (freq_size (x_freq x)) = [].
  Proof.
    intro N. assert (forall t f, t < length (x_time x) -> m t f = false) as Z.
    { intros t f L. unfold m, tf_mask. rewrite N; [reflexivity|]. now apply nth_In. }
    assert (rows = []) as ER.
    { unfold rows, rows_kept. destruct (filter _ _) as [|t r] eqn:K; [reflexivity|].
      assert (In t (t :: r)) as I by now left. rewrite <- K in I. apply filter_In in I. destruct I as [I E].
      apply existsb_exists in E. destruct E as [f [_ M]]. apply in_seq in I. rewrite Z in M by lia. discriminate. }
    split; [assumption|]. split; [now apply rows_cols_nil|].
    destruct (selected m _ _) as [|[t f] r] eqn:K; [reflexivity|].
    assert (In (t, f) ((t, f) :: r)) as I by now left. rewrite <- K in I. apply selected_In in I. rewrite Z in I; [|tauto]. destruct I as [_ [_ I]]. discriminate.
  Qed.

  Lemma get_no_time p : incl (asked x sel) (x_mas x) -> asked x sel <> [] -> (forall t, In t (x_time x) -> tp t = false) ->
    xst_get conj pr (Some p) sel fsel tsel x = Err EIndexError.
  Proof.
    intros I NE N. destruct (no_time_rows N) as [ER [EC ES]].
    assert (filter tp (x_time x) = []) as ET.
    { destruct (filter tp (x_time x)) as [|t r] eqn:K; [reflexivity|].
      assert (In t (t :: r)) as J by now left. rewrite <- K in J. apply filter_In in J. rewrite N in J; [|tauto]. destruct J; discriminate. }
    destruct (get_vis conj tp fp (Some p) (asked x sel) x) as [v|e] eqn:G.
    - unfold xst_get, crosslet_get. rewrite select_ok by assumption. cbn [bind]. rewrite MS. cbn [bind].
      rewrite G. cbn [bind]. rewrite ET. reflexivity.
    - assert (e = EIndexError) as ->; [|now apply get_error].
      destruct p; try (rewrite (xy_refused conj x tp fp (asked x sel) WF NE I) in G;
        [congruence|fold m; fold rows; fold cols; rewrite ER, EC; cbn; lia]);
      unfold get_vis in G; fold m in G; fold rows in G; fold cols in G; rewrite ER, EC in G;
      destruct (data_ok x tp fp WF) as [d [Ed [Sd Gd]]]; fold m in Ed, Sd, Gd; rewrite Ed in G; cbn [bind] in G;
      rewrite take_ok in G; [|rewrite Sd; cbn; lia|rewrite Sd; intros v Iv; cbn [nth]; eapply stored_bound; exact Iv| |rewrite Sd; cbn; lia|rewrite Sd; intros v Iv; cbn [nth]; eapply stored_bound; exact Iv| |rewrite Sd; cbn; lia|rewrite Sd; intros v Iv; cbn [nth]; eapply stored_bound; exact Iv] || idtac;
      cbn [bind] in G; unfold reshape in G; cbn [sh] in G; rewrite Sd, ES in G; cbn in G; discriminate.
  Qed.
End Get.
