(** Specification and proofs about the selection of cross-correlations. *)
From Coq Require Import ZArith QArith Bool String List Arith Lia Sorting.Sorted Sorting.Permutation.
From Verif Require Import Base M_Nd M_Cond M_Xst P_Xst.
Import ListNotations.
Open Scope nat_scope.
Open Scope list_scope.

(** ** Specification *)
(** [L] lists in increasing order the numbers below [n] satisfying [Pr]. *)
Definition lists_of (n : nat) (Pr : nat -> Prop) (L : list nat) : Prop :=
  increasing L /\ forall k, In k L <-> k < n /\ Pr k.

(** A file whose data have one value per time, frequency and pair of chains. *)
Definition well_formed {A} (x : xst A) : Prop :=
  sh (x_data x) = [length (x_time x); freq_size (x_freq x);
                   2 * length (x_mas x) * (2 * length (x_mas x) + 1) / 2] /\
  (forall rows, x_freq x = ByTime rows -> length rows = length (x_time x) /\
     forall r, In r rows -> length r = freq_size (x_freq x)).

(** Same subbands at all times. *)
Definition same_bands {A} (x : xst A) : Prop :=
  forall t t' f, t < length (x_time x) -> t' < length (x_time x) -> freq_at (x_freq x) t f = freq_at (x_freq x) t' f.

(** Chosen Mini-Arrays: positions in the file, times and frequency columns. *)
Definition chosen {A} (x : xst A) (sel : list nat) (P : list nat) : Prop :=
  lists_of (length (x_mas x)) (fun k => In (nth k (x_mas x) 0) sel) P.
Definition chosen_times {A} (x : xst A) (tp : Q -> bool) (T : list nat) : Prop :=
  lists_of (length (x_time x)) (fun t => tp (nth t (x_time x) 0%Q) = true) T.
Definition chosen_freqs {A} (x : xst A) (fp : Q -> bool) (F : list nat) : Prop :=
  lists_of (freq_size (x_freq x)) (fun f => fp (freq_at (x_freq x) 0 f) = true) F.

(** ** Lists of positions *)
Lemma lists_of_unique n Pr L L' : lists_of n Pr L -> lists_of n Pr L' -> L = L'.
Proof.
  intros [S E] [S' E']. apply sorted_ext; [now apply sorted_increasing|now apply sorted_increasing|].
  intro k. rewrite E, E'. reflexivity.
Qed.
Lemma lists_of_filter n f : lists_of n (fun k => f k = true) (filter f (seq 0 n)).
Proof.
  split; [apply sorted_increasing, sorted_filter, sorted_seq|].
  intro k. rewrite filter_In, in_seq. intuition lia.
Qed.
Lemma lists_of_iff n Pr Pr' L : (forall k, k < n -> (Pr k <-> Pr' k)) -> lists_of n Pr L -> lists_of n Pr' L.
Proof. intros I [S E]. split; [assumption|]. intro k. rewrite E. split; intros [B H]; (split; [assumption|]); now apply I. Qed.
Lemma chosen_eq {A} (x : xst A) sel P : chosen x sel P -> P = ma_indices (x_mas x) sel.
Proof.
  intro H. eapply lists_of_unique; [exact H|]. eapply lists_of_iff; [|apply lists_of_filter].
  intros k B. cbn. apply isin_In.
Qed.

Lemma increasing_NoDup l : increasing l -> NoDup l.
Proof.
  intro H. apply (NoDup_nth l 0). intros i j Li Lj E.
  destruct (lt_eq_lt_dec i j) as [[L|L]|L]; [specialize (H i j L Lj)|assumption|specialize (H j i L Li)]; lia.
Qed.

Lemma ma_names file sel : map (fun k => nth k file 0) (ma_indices file sel) = filter (fun m => isin m sel) file.
Proof.
  unfold ma_indices.
  assert (forall pre l, map (fun k => nth k (pre ++ l) 0) (filter (fun k => isin (nth k (pre ++ l) 0) sel) (seq (length pre) (length l)))
     = filter (fun m => isin m sel) l) as G.
  { intros pre l. revert pre. induction l as [|a l IH]; intro pre; [reflexivity|]. cbn.
    rewrite app_nth2, Nat.sub_diag by lia. cbn [nth].
    specialize (IH (pre ++ [a])). rewrite app_length in IH. cbn in IH. rewrite Nat.add_1_r in IH.
    rewrite <- app_assoc in IH. cbn in IH.
    destruct (isin a sel); cbn; [rewrite app_nth2, Nat.sub_diag by lia; cbn|]; now rewrite IH. }
  apply (G []).
Qed.

Lemma chosen_perm file sel : NoDup file -> NoDup sel -> incl sel file ->
  Permutation (filter (fun m => isin m sel) file) sel.
Proof.
  intros Hf Hs I. apply NoDup_Permutation; [now apply NoDup_filter|assumption|].
  intro m. rewrite filter_In, isin_In. split; [tauto|]. intro J. split; [now apply I|assumption].
Qed.
Lemma chosen_length file sel : NoDup file -> NoDup sel -> incl sel file ->
  length (ma_indices file sel) = length sel.
Proof.
  intros Hf Hs I. rewrite <- (Permutation_length (chosen_perm file sel Hf Hs I)), <- ma_names, map_length. reflexivity.
Qed.

(** ** Selected (time, frequency) positions *)
Lemma selected_row (m : nat -> nat -> bool) t nf : filter (fun tf => m (fst tf) (snd tf)) (map (fun f => (t, f)) (seq 0 nf))
  = map (fun f => (t, f)) (filter (m t) (seq 0 nf)).
Proof. induction (seq 0 nf) as [|f l IH]; [reflexivity|]. cbn. destruct (m t f); cbn; now rewrite IH. Qed.

Lemma selected_prod (m : nat -> nat -> bool) nt nf :
  (forall t f, In t (rows_kept m nt nf) -> In f (cols_kept m nt nf) -> m t f = true) ->
  selected m nt nf = list_prod (rows_kept m nt nf) (cols_kept m nt nf).
Proof.
  intro H. unfold selected.
  assert (forall l, (forall t, In t l -> t < nt) ->
    filter (fun tf => m (fst tf) (snd tf)) (list_prod l (seq 0 nf))
    = list_prod (filter (fun t => existsb (m t) (seq 0 nf)) l) (cols_kept m nt nf)) as G.
  { induction l as [|t l IH]; intro B; [reflexivity|]. cbn [list_prod filter].
    rewrite filter_app, selected_row, IH by (intros; apply B; now right).
    destruct (existsb (m t) (seq 0 nf)) eqn:E.
    - cbn [list_prod]. f_equal. f_equal. apply sorted_ext; [apply sorted_filter, sorted_seq|apply sorted_filter, sorted_seq|].
      assert (In t (rows_kept m nt nf)) as R.
      { apply filter_In. split; [apply in_seq; specialize (B t (or_introl eq_refl)); lia|assumption]. }
      intro f. unfold cols_kept. rewrite !filter_In. split.
      + intros [I M]. split; [assumption|]. apply existsb_exists. exists t. split; [|assumption].
        apply in_seq. specialize (B t (or_introl eq_refl)). lia.
      + intros [I M]. split; [assumption|]. apply H; [assumption|]. apply filter_In. now split.
    - replace (filter (m t) (seq 0 nf)) with (@nil nat); [reflexivity|].
      symmetry. destruct (filter (m t) (seq 0 nf)) as [|f r] eqn:K; [reflexivity|].
      assert (In f (filter (m t) (seq 0 nf))) as I by (rewrite K; now left). apply filter_In in I.
      assert (existsb (m t) (seq 0 nf) = true) by (apply existsb_exists; exists f; exact I). congruence. }
  apply G. intros t I. apply in_seq in I. lia.
Qed.

Lemma selected_In m nt nf t f : In (t, f) (selected m nt nf) <-> t < nt /\ f < nf /\ m t f = true.
Proof. unfold selected. rewrite filter_In, in_prod_iff, !in_seq. cbn. intuition lia. Qed.

Lemma list_prod_NoDup {A B} (l : list A) (l' : list B) : NoDup l -> NoDup l' -> NoDup (list_prod l l').
Proof.
  intros H H'. induction H as [|a l N H IH]; [constructor|]. cbn.
  assert (forall q, NoDup q -> NoDup (map (fun y : B => (a, y)) q)) as M.
  { intros q Hq. induction Hq as [|b q Nb Hq IHq]; [constructor|]. cbn. constructor; [|assumption].
    intro I. apply in_map_iff in I. destruct I as [y [E I]]. injection E as ->. contradiction. }
  specialize (M l' H'). clear - M IH N. revert M.
  assert (forall p, In p (map (fun y : B => (a, y)) l') -> fst p = a) as K.
  { intros p I. apply in_map_iff in I. destruct I as [y [<- _]]. reflexivity. }
  induction (map (fun y : B => (a, y)) l') as [|p q IHq]; intro M; [assumption|]. cbn. inversion M as [|? ? Np Mq]. subst.
  constructor; [|apply IHq; [intros; apply K; now right|assumption]].
  intro I. apply in_app_iff in I. destruct I as [I|I]; [contradiction|].
  destruct p as [u v]. pose proof (K _ (or_introl eq_refl)) as E. cbn in E. subst u.
  apply in_prod_iff in I. tauto.
Qed.

Lemma selected_NoDup m nt nf : NoDup (selected m nt nf).
Proof. apply NoDup_filter, list_prod_NoDup; apply seq_NoDup. Qed.

Lemma selected_kept m nt nf t f : In (t, f) (selected m nt nf) -> In t (rows_kept m nt nf) /\ In f (cols_kept m nt nf).
Proof.
  rewrite selected_In. intros [T [F M]]. unfold rows_kept, cols_kept. rewrite !filter_In, !in_seq, !existsb_exists.
  split; (split; [lia|]).
  - exists f. split; [apply in_seq; lia|assumption].
  - exists t. split; [apply in_seq; lia|assumption].
Qed.
Lemma selected_incl m nt nf : incl (selected m nt nf) (list_prod (rows_kept m nt nf) (cols_kept m nt nf)).
Proof. intros [t f] I. apply in_prod_iff. now apply selected_kept. Qed.
Lemma selected_le m nt nf : length (selected m nt nf) <= length (rows_kept m nt nf) * length (cols_kept m nt nf).
Proof. rewrite <- prod_length. apply NoDup_incl_length; [apply selected_NoDup|apply selected_incl]. Qed.
Lemma selected_lt m nt nf t f : In t (rows_kept m nt nf) -> In f (cols_kept m nt nf) -> m t f = false ->
  length (selected m nt nf) < length (rows_kept m nt nf) * length (cols_kept m nt nf).
Proof.
  intros T F M. rewrite <- prod_length.
  change (length ((t, f) :: selected m nt nf) <= length (list_prod (rows_kept m nt nf) (cols_kept m nt nf))).
  apply NoDup_incl_length.
  - constructor; [|apply selected_NoDup]. rewrite selected_In. intros [_ [_ C]]. congruence.
  - intros p [<-|I]; [now apply in_prod_iff|now apply selected_incl].
Qed.

Lemma nth_list_prod {A B} (l : list A) (l' : list B) i j a b : i < length l -> j < length l' ->
  nth (i * length l' + j) (list_prod l l') (a, b) = (nth i l a, nth j l' b).
Proof.
  revert i. induction l as [|u l IH]; intros i Li Lj; [cbn in Li; lia|]. cbn [list_prod].
  destruct i as [|i]; cbn [nth].
  - rewrite app_nth1 by (rewrite map_length; lia). cbn [Nat.mul Nat.add].
    rewrite (nth_indep _ (a, b) ((fun y => (u, y)) b)) by (rewrite map_length; lia). now rewrite map_nth.
  - rewrite app_nth2; rewrite map_length; [|lia].
    replace (S i * length l' + j - length l') with (i * length l' + j) by lia. cbn in Li. apply IH; lia.
Qed.

(** ** Reshaping *)
Lemma unravel_3 s v nr nc i j k : k < v ->
  unravel [s; v] (ravel [nr; nc; v] [i; j; k]) = [i * nc + j; k].
Proof.
  intro K. cbn. rewrite !Nat.mul_1_r, Nat.add_0_r.
  replace (i * (nc * v) + (j * v + k)) with (k + (i * nc + j) * v) by lia.
  rewrite Nat.div_add, Nat.mod_add by lia. rewrite Nat.div_small, Nat.mod_small by lia. cbn [Nat.add].
  f_equal. f_equal. apply Nat.div_1_r.
Qed.

Lemma stored_bound file sel c1 c2 v : In v (cross_idx file sel c1 c2) ->
  v < 2 * length file * (2 * length file + 1) / 2.
Proof.
  unfold cross_idx. rewrite filter_In, in_seq. intros [[_ L] _]. cbn in L. rewrite tril_length in L.
  replace (length file * 2) with (2 * length file) in L by lia. exact L.
Qed.

Lemma cross_idx_length file sel c1 c2 : NoDup file -> NoDup sel -> incl sel file -> (c1, c2) <> (X, Y) ->
  length (cross_idx file sel c1 c2) = length sel * (length sel + 1) / 2.
Proof.
  intros Hf Hs I N. rewrite cross_idx_spec, map_length, recorded_all, tril_length, chosen_length by assumption. reflexivity.
Qed.

Lemma dup_length file sel : NoDup file -> ~ NoDup sel -> length (ma_indices file sel) < length sel.
Proof.
  intros Hf Hs.
  rewrite <- (map_length (fun k => nth k file 0) (ma_indices file sel)), ma_names.
  set (l := filter (fun k => isin k sel) file).
  assert (incl l (nodup Nat.eq_dec sel)) as J.
  { intros k K. apply nodup_In. apply filter_In in K. apply isin_In. tauto. }
  assert (NoDup l) as Nl by (now apply NoDup_filter).
  pose proof (NoDup_incl_length Nl J).
  assert (length (nodup Nat.eq_dec sel) < length sel); [|lia].
  clear - Hs. induction sel as [|a q IH]; [exfalso; apply Hs; constructor|]. cbn.
  destruct (in_dec Nat.eq_dec a q) as [K|K].
  - assert (forall r : list nat, length (nodup Nat.eq_dec r) <= length r) as G.
    { induction r as [|b r IHr]; [cbn; lia|]. cbn. destruct (in_dec Nat.eq_dec b r); cbn; lia. }
    specialize (G q). lia.
  - cbn. assert (length (nodup Nat.eq_dec q) < length q); [|lia]. apply IH. intro Q. apply Hs. now constructor.
Qed.

Section Values.
  Context {A : Type} (conj : A -> A).
  Variables (x : xst A) (tp fp : Q -> bool) (sel : list nat).
  Let m := tf_mask tp fp x.
  Let rows := rows_kept m (length (x_time x)) (freq_size (x_freq x)).
  Let cols := cols_kept m (length (x_time x)) (freq_size (x_freq x)).
  Hypothesis WF : well_formed x.

  Lemma data_ok : exists d, data_selected m x = Ok d /\
    sh d = [length (selected m (length (x_time x)) (freq_size (x_freq x))); 2 * length (x_mas x) * (2 * length (x_mas x) + 1) / 2] /\
    forall s v, get d [s; v] = (let tf := nth s (selected m (length (x_time x)) (freq_size (x_freq x))) (0, 0) in
                                get (x_data x) [fst tf; snd tf; v]).
  Proof.
    unfold data_selected. rewrite (proj1 WF), !Nat.eqb_refl. cbn [andb]. eexists. split; [reflexivity|].
    split; reflexivity.
  Qed.

  Lemma take_ok k idx (a : nd A) : k < length (sh a) -> (forall v, In v idx -> v < nth k (sh a) 0) ->
    take_idx k idx a = Ok (mkNd (firstn k (sh a) ++ length idx :: skipn (S k) (sh a))
                (fun ix => get a (firstn k ix ++ nth (nth k ix 0) idx 0 :: skipn (S k) ix))).
  Proof.
    intros L B. unfold take_idx. rewrite (proj2 (Nat.leb_gt _ _) L).
    rewrite (proj2 (forallb_forall _ _)); [reflexivity|]. intros v I. apply Nat.ltb_lt. auto.
  Qed.

  Definition product_mask : Prop := forall t f, In t rows -> In f cols -> m t f = true.

  Lemma vis_ok p c1 c2 : p <> XY -> feeds p = (c1, c2) -> NoDup (x_mas x) -> NoDup sel -> incl sel (x_mas x) ->
    product_mask ->
    exists v, get_vis conj tp fp (Some p) sel x = Ok v /\
      sh v = [length rows; length cols; length sel * (length sel + 1) / 2] /\
      forall i j a b, i < length rows -> j < length cols -> b <= a -> a < length sel ->
        get v [i; j; vis_no a b] =
        get (x_data x) [nth i rows 0; nth j cols 0; stored (ma_indices (x_mas x) sel) c1 c2 (a, b)].
  Proof.
    intros NXY FE Hf Hs I PM. unfold get_vis. fold m. fold rows. fold cols.
    destruct data_ok as [d [Ed [Sd Gd]]]. rewrite Ed. cbn [bind].
    assert ((c1, c2) <> (X, Y)) as N by (intro E; rewrite E in FE; destruct p; cbn in FE; congruence).
    set (idx := cross_idx (x_mas x) sel c1 c2).
    assert (length idx = length (tril (length sel))) as Lidx.
    { unfold idx. rewrite cross_idx_length by assumption. now rewrite tril_length. }
    assert (selected m (length (x_time x)) (freq_size (x_freq x)) = list_prod rows cols) as Sel by (apply selected_prod; exact PM).
    assert (take_idx 1 idx d = Ok (mkNd [length rows * length cols; length idx]
       (fun ix => get d (firstn 1 ix ++ nth (nth 1 ix 0) idx 0 :: skipn 2 ix)))) as Et.
    { rewrite take_ok.
      - rewrite Sd, Sel, prod_length. reflexivity.
      - rewrite Sd. cbn. lia.
      - rewrite Sd. intros v Iv. cbn [nth]. eapply stored_bound. exact Iv. }
    assert (match p with
            | XY => get_xy conj (x_mas x) sel (length rows) (length cols) d
            | _ => bind (take_idx 1 (cross_idx (x_mas x) sel (fst (feeds p)) (snd (feeds p))) d)
                     (fun v => reshape [length rows; length cols; length (tril (length sel))] v)
            end = bind (take_idx 1 idx d) (fun v => reshape [length rows; length cols; length (tril (length sel))] v)) as ->.
    { destruct p; try congruence; rewrite FE; reflexivity. }
    rewrite Et. cbn [bind]. unfold reshape. cbn [sh get].
    replace (size [length rows; length cols; length (tril (length sel))] =? size [length rows * length cols; length idx]) with true
      by (symmetry; apply Nat.eqb_eq; cbn; rewrite Lidx; lia).
    eexists. split; [reflexivity|]. cbn [sh get]. split; [now rewrite tril_length|].
    intros i j a b Li Lj B Ab. pose proof (vis_no_bound _ a b B Ab) as K.
    rewrite Lidx, unravel_3 by assumption. cbn [firstn skipn nth app].
    rewrite Gd, Sel. cbv zeta. rewrite nth_list_prod by assumption. cbn [fst snd]. f_equal. f_equal. f_equal. f_equal.
    unfold idx. rewrite cross_idx_spec, recorded_all by assumption. rewrite chosen_length by assumption.
    rewrite (nth_indep _ 0 (stored (ma_indices (x_mas x) sel) c1 c2 (0, 0))) by (rewrite map_length; assumption).
    rewrite map_nth, tril_nth by assumption. reflexivity.
  Qed.

  (** Not a product: the reshape fails. *)
  Lemma vis_not_product p : p <> XY -> NoDup (x_mas x) -> NoDup sel -> incl sel (x_mas x) -> sel <> [] ->
    ~ product_mask -> get_vis conj tp fp (Some p) sel x = Err EValueError.
  Proof.
    intros NXY Hf Hs I NE NP.
    destruct (feeds p) as [c1 c2] eqn:FE.
    assert ((c1, c2) <> (X, Y)) as N by (intro E; rewrite E in FE; destruct p; cbn in FE; congruence).
    unfold get_vis. fold m. fold rows. fold cols. destruct data_ok as [d [Ed [Sd Gd]]]. rewrite Ed. cbn [bind].
    set (idx := cross_idx (x_mas x) sel c1 c2).
    assert (length idx = length (tril (length sel))) as Lidx.
    { unfold idx. rewrite cross_idx_length by assumption. now rewrite tril_length. }
    assert (length (tril (length sel)) > 0) as Pos.
    { rewrite tril_length. pose proof (tri_double (length sel)). destruct sel; [congruence|]. cbn [length] in *. lia. }
    assert (length (selected m (length (x_time x)) (freq_size (x_freq x))) < length rows * length cols) as Lt.
    { destruct (forallb (fun tf => m (fst tf) (snd tf)) (list_prod rows cols)) eqn:E.
      - exfalso. apply NP. intros t f T F. rewrite forallb_forall in E. apply (E (t, f)). now apply in_prod_iff.
      - assert (exists t f, In t rows /\ In f cols /\ m t f = false) as [t [f [T [F M]]]].
        { clear - E. induction (list_prod rows cols) as [|[t f] l IH] eqn:K in E |- *.
          - discriminate.
          - assert (forall q, incl q (list_prod rows cols) -> forallb (fun tf => m (fst tf) (snd tf)) q = false ->
               exists t f, In t rows /\ In f cols /\ m t f = false) as G.
            { induction q as [|[t' f'] q IHq]; intros Iq Eq; [discriminate|]. cbn in Eq.
              destruct (m t' f') eqn:M.
              - apply IHq; [intros z Z; apply Iq; now right|exact Eq].
              - exists t', f'. assert (In (t', f') (list_prod rows cols)) as J by (apply Iq; now left).
                apply in_prod_iff in J. tauto. }
            apply (G ((t, f) :: l)); [rewrite K; apply incl_refl|exact E]. }
        eapply selected_lt; eassumption. }
    assert (match p with
            | XY => get_xy conj (x_mas x) sel (length rows) (length cols) d
            | _ => bind (take_idx 1 (cross_idx (x_mas x) sel (fst (feeds p)) (snd (feeds p))) d)
                     (fun v => reshape [length rows; length cols; length (tril (length sel))] v)
            end = bind (take_idx 1 idx d) (fun v => reshape [length rows; length cols; length (tril (length sel))] v)) as ->.
    { destruct p; try congruence; rewrite FE; reflexivity. }
    rewrite take_ok; [|rewrite Sd; cbn; lia|rewrite Sd; intros v Iv; cbn [nth]; eapply stored_bound; exact Iv].
    cbn [bind]. unfold reshape. cbn [sh]. rewrite Sd.
    replace (size _ =? size _) with false; [reflexivity|].
    symmetry. apply Nat.eqb_neq. cbn. rewrite Lidx. nia.
  Qed.

  (** A Mini-Array given twice. *)
  Lemma vis_duplicates p : p <> XY -> NoDup (x_mas x) -> ~ NoDup sel -> incl sel (x_mas x) ->
    rows <> [] -> get_vis conj tp fp (Some p) sel x = Err EValueError.
  Proof.
    intros NXY Hf Hs I NR.
    destruct (feeds p) as [c1 c2] eqn:FE.
    assert ((c1, c2) <> (X, Y)) as N by (intro E; rewrite E in FE; destruct p; cbn in FE; congruence).
    unfold get_vis. fold m. fold rows. fold cols. destruct data_ok as [d [Ed [Sd Gd]]]. rewrite Ed. cbn [bind].
    set (idx := cross_idx (x_mas x) sel c1 c2).
    pose proof (dup_length (x_mas x) sel Hf Hs) as Lt.
    assert (length idx < length (tril (length sel))) as Lidx.
    { unfold idx. rewrite cross_idx_spec, map_length, recorded_all by assumption. rewrite !tril_length.
      pose proof (tri_double (length (ma_indices (x_mas x) sel))). pose proof (tri_double (length sel)). nia. }
    assert (match p with
            | XY => get_xy conj (x_mas x) sel (length rows) (length cols) d
            | _ => bind (take_idx 1 (cross_idx (x_mas x) sel (fst (feeds p)) (snd (feeds p))) d)
                     (fun v => reshape [length rows; length cols; length (tril (length sel))] v)
            end = bind (take_idx 1 idx d) (fun v => reshape [length rows; length cols; length (tril (length sel))] v)) as ->.
    { destruct p; try congruence; rewrite FE; reflexivity. }
    rewrite take_ok; [|rewrite Sd; cbn; lia|rewrite Sd; intros v Iv; cbn [nth]; eapply stored_bound; exact Iv].
    cbn [bind]. unfold reshape. cbn [sh]. rewrite Sd.
    replace (size _ =? size _) with false; [reflexivity|].
    symmetry. apply Nat.eqb_neq. cbn.
    pose proof (selected_le m (length (x_time x)) (freq_size (x_freq x))) as Le. fold rows in Le. fold cols in Le.
    assert (length rows > 0) by (destruct rows; [congruence|cbn; lia]).
    assert (length cols > 0) as Lc.
    { destruct rows as [|t r] eqn:K; [congruence|]. assert (In t rows) as T by (rewrite K; now left).
      unfold rows, rows_kept in T. apply filter_In in T. destruct T as [T1 T2]. apply existsb_exists in T2. destruct T2 as [f [F1 F2]].
      assert (In f cols) as F.
      { apply filter_In. split; [assumption|]. apply existsb_exists. exists t. split; assumption. }
      destruct cols; [contradiction|cbn; lia]. }
    assert (0 < length rows * length cols) by nia. nia.
  Qed.
End Values.
