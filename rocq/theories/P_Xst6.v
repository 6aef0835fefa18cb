(** Statements on cross-correlations with explicit hypotheses, and examples. *)
From Coq Require Import ZArith QArith Bool Ascii String List Arith Lia Sorting.Sorted Sorting.Permutation.
From Verif Require Import Base M_Nd M_Cond M_Xst P_Nd P_Cond P_Cond2 P_Xst P_Xst2 P_Xst3 P_Xst4 P_Xst5.
Import ListNotations.
Open Scope nat_scope.
Open Scope list_scope.

(** The conditions are read as [fp] on frequencies and [tp] on times. *)
Definition read_as {A} (pr : printer) (fsel tsel : option string) (x : xst A) (tp fp : Q -> bool) : Prop :=
  x_time x <> [] /\ freq_values (x_freq x) <> [] /\
  parse_freq (read_freq pr) (default_freq pr (freq_values (x_freq x)) fsel) = Ok fp /\
  parse_time (read_time pr) (default_time pr (x_time x) tsel) = Ok tp.

Lemma read_masks {A} pr fsel tsel (x : xst A) tp fp : read_as pr fsel tsel x tp fp -> masks pr fsel tsel x = Ok (tp, fp).
Proof.
  intros [NT [NF [EF ET]]]. unfold masks. rewrite EF. cbn [bind].
  destruct fsel, (freq_values (x_freq x)); try congruence; destruct tsel, (x_time x); try congruence; rewrite ET; reflexivity.
Qed.

Theorem index_pairs : forall file sel P c1 c2, lists_of (length file) (fun k => In (nth k file 0) sel) P ->
  (c1, c2) <> (X, Y) ->
  length (cross_idx file sel c1 c2) = length P * (length P + 1) / 2 /\
  forall a b, b <= a -> a < length P ->
    nth (vis_no a b) (cross_idx file sel c1 c2) 0 = vis_no (chain (nth a P 0) c1) (chain (nth b P 0) c2).
Proof.
  intros file sel P c1 c2 HP N.
  assert (P = ma_indices file sel) as ->.
  { eapply lists_of_unique; [exact HP|]. eapply lists_of_iff; [|apply lists_of_filter]. intros k B. cbn. apply isin_In. }
  rewrite cross_idx_spec, recorded_all, map_length, tril_length by assumption. split; [reflexivity|].
  intros a b B L. rewrite (nth_map_in _ _ _ (0, 0)) by now apply vis_no_bound. now rewrite tril_nth.
Qed.
Theorem index_xy : forall file sel P, lists_of (length file) (fun k => In (nth k file 0) sel) P ->
  2 * length (cross_idx file sel X Y) = length P * (length P - 1) /\
  (forall v, In v (cross_idx file sel X Y) <->
    exists a b, b < a /\ a < length P /\ v = vis_no (chain (nth a P 0) X) (chain (nth b P 0) Y)).
Proof.
  intros file sel P HP.
  assert (P = ma_indices file sel) as ->.
  { eapply lists_of_unique; [exact HP|]. eapply lists_of_iff; [|apply lists_of_filter]. intros k B. cbn. apply isin_In. }
  rewrite cross_idx_spec, map_length, cross_count. split; [reflexivity|]. intro v. rewrite in_map_iff. split.
  - intros [[a b] [<- I]]. apply filter_In in I. destruct I as [I R]. apply tril_In in I. cbn in R.
    apply negb_true_iff, Nat.eqb_neq in R. exists a, b. unfold stored. cbn. repeat split; lia.
  - intros [a [b [B [L ->]]]]. exists (a, b). split; [reflexivity|]. apply filter_In. rewrite tril_In. split; [lia|].
    cbn. apply negb_true_iff, Nat.eqb_neq. lia.
Qed.
Theorem index_partition : forall file v, v < 2 * length file * (2 * length file + 1) / 2 ->
  exists c1 c2, In v (cross_idx file file c1 c2) /\
    forall d1 d2, In v (cross_idx file file d1 d2) -> d1 = c1 /\ d2 = c2.
Proof.
  intros file v L. destruct (cross_idx_total file v L) as [c1 [c2 I]]. exists c1, c2. split; [assumption|].
  intros d1 d2 J. destruct (cross_idx_disjoint _ _ _ _ _ _ _ _ I J). auto.
Qed.
Theorem index_increasing : forall file sel c1 c2, increasing (cross_idx file sel c1 c2).
Proof. intros. apply sorted_increasing, sorted_filter, sorted_seq. Qed.

Theorem selection : forall A (conj : A -> A) pr fsel tsel (x : xst A) sel tp fp p T F P,
  well_formed x -> read_as pr fsel tsel x tp fp -> same_bands x ->
  NoDup (x_mas x) -> NoDup (asked x sel) -> incl (asked x sel) (x_mas x) ->
  chosen_times x tp T -> chosen_freqs x fp F -> chosen x (asked x sel) P -> T <> [] -> F <> [] -> p <> XY ->
  exists v, xst_get conj pr (Some p) sel fsel tsel x
      = Ok (mkXSlice (asked x sel) (filter tp (x_time x)) (freq_kept fp (x_freq x)) v) /\
    length P = length (asked x sel) /\
    sh v = [length T; length F; length P * (length P + 1) / 2] /\
    forall i j a b, i < length T -> j < length F -> b <= a -> a < length P ->
      get v [i; j; vis_no a b] = product_at conj x (nth i T 0) (nth j F 0) (nth a P 0) (nth b P 0) p /\
      nth i (filter tp (x_time x)) 0%Q = nth (nth i T 0) (x_time x) 0%Q.
Proof.
  intros A conj pr fsel tsel x sel tp fp p T F P WF R SB Hf Hs I HT HF HP NT NF NP.
  apply (get_values conj pr fsel tsel x sel tp fp WF (read_masks _ _ _ _ _ _ R) p T F P); try assumption. intro; congruence.
Qed.
Theorem selection_labels : forall A (x : xst A) sel P, NoDup (x_mas x) -> in_file_order (x_mas x) sel -> chosen x sel P ->
  NoDup sel /\ incl sel (x_mas x) /\ length P = length sel /\
  forall a, a < length sel -> nth a sel 0 = nth (nth a P 0) (x_mas x) 0.
Proof. intros A x sel P. apply file_order_labels. Qed.
Theorem selection_any_order : forall A (conj : A -> A) pr p fsel tsel sel sel' (x : xst A) r, Permutation sel sel' ->
  xst_get conj pr p (Some sel) fsel tsel x = Ok r ->
  xst_get conj pr p (Some sel') fsel tsel x = Ok (mkXSlice sel' (xs_time r) (xs_freq r) (xs_value r)).
Proof. intros A conj pr p fsel tsel sel sel' x r. apply values_any_order. Qed.
Theorem frequencies_tv : forall A (x : xst A) fp F row, x_freq x = Common row -> chosen_freqs x fp F ->
  freq_kept fp (x_freq x) = map (fun f => freq_at (x_freq x) 0 f) F.
Proof. intros A x fp F row. apply freq_labels_tv. Qed.
Theorem frequencies_xst : forall A (x : xst A) fp F row,
  x_freq x = ByTime (repeat row (length (x_time x))) -> x_time x <> [] -> chosen_freqs x fp F ->
  freq_kept fp (x_freq x) = concat (repeat (map (fun f => freq_at (x_freq x) 0 f) F) (length (x_time x))) /\
  length (freq_kept fp (x_freq x)) = length (x_time x) * length F.
Proof. intros A x fp F row. apply freq_labels_xst. Qed.
Theorem selection_unknown : forall A (conj : A -> A) pr p fsel tsel sel k (x : xst A), In k sel -> ~ In k (x_mas x) ->
  xst_get conj pr p (Some sel) fsel tsel x = Err EIndexError.
Proof. intros A conj pr p fsel tsel sel k x. apply get_unknown. Qed.
Theorem selection_bad_pol : forall A (conj : A -> A) pr fsel tsel sel tp fp (x : xst A),
  read_as pr fsel tsel x tp fp -> incl (asked x sel) (x_mas x) ->
  xst_get conj pr None sel fsel tsel x = Err EValueError.
Proof. intros A conj pr fsel tsel sel tp fp x R I. eapply get_bad_pol; [assumption|]. apply read_masks, R. Qed.
Theorem selection_duplicates : forall A (conj : A -> A) pr fsel tsel (x : xst A) sel tp fp p T F,
  well_formed x -> read_as pr fsel tsel x tp fp -> same_bands x ->
  NoDup (x_mas x) -> ~ NoDup (asked x sel) -> incl (asked x sel) (x_mas x) ->
  chosen_times x tp T -> chosen_freqs x fp F -> T <> [] -> F <> [] ->
  xst_get conj pr (Some p) sel fsel tsel x = Err (match p with XY => EIndexError | _ => EValueError end).
Proof.
  intros A conj pr fsel tsel x sel tp fp p T F WF R. intros.
  eapply (get_duplicates conj pr fsel tsel x sel tp fp WF (read_masks _ _ _ _ _ _ R) p T F); assumption.
Qed.
Theorem selection_no_time : forall A (conj : A -> A) pr fsel tsel (x : xst A) sel tp fp p,
  well_formed x -> read_as pr fsel tsel x tp fp -> incl (asked x sel) (x_mas x) -> asked x sel <> [] ->
  (forall t, In t (x_time x) -> tp t = false) ->
  xst_get conj pr (Some p) sel fsel tsel x = Err EIndexError.
Proof.
  intros A conj pr fsel tsel x sel tp fp p WF R. intros.
  eapply (get_no_time conj pr fsel tsel x sel tp fp WF (read_masks _ _ _ _ _ _ R) p); assumption.
Qed.
Theorem selection_hopping : forall A (conj : A -> A) pr fsel tsel (x : xst A) sel tp fp p t f t' f',
  well_formed x -> read_as pr fsel tsel x tp fp -> p <> XY ->
  NoDup (x_mas x) -> NoDup (asked x sel) -> incl (asked x sel) (x_mas x) -> asked x sel <> [] ->
  t < length (x_time x) -> t' < length (x_time x) -> f < freq_size (x_freq x) -> f' < freq_size (x_freq x) ->
  tp (nth t (x_time x) 0%Q) = true -> tp (nth t' (x_time x) 0%Q) = true ->
  fp (freq_at (x_freq x) t f) = true -> fp (freq_at (x_freq x) t' f') = true ->
  fp (freq_at (x_freq x) t f') = false ->
  xst_get conj pr (Some p) sel fsel tsel x = Err EValueError.
Proof.
  intros A conj pr fsel tsel x sel tp fp p t f t' f' WF R. intros.
  eapply (get_hopping conj pr fsel tsel x sel tp fp WF (read_masks _ _ _ _ _ _ R) p t f t' f'); assumption.
Qed.
Theorem selection_defaults : forall A pr (x : xst A) fa fb va vb,
  x_time x <> [] -> freq_values (x_freq x) <> [] ->
  reads (read_freq pr) (show_freq pr (qmin (freq_values (x_freq x)))) fa -> (fa == qmin (freq_values (x_freq x)))%Q ->
  reads (read_freq pr) (show_freq pr (qmax (freq_values (x_freq x)))) fb -> (fb == qmax (freq_values (x_freq x)))%Q ->
  reads (read_time pr) (show_time pr (hd 0%Q (x_time x))) va ->
  reads (read_time pr) (show_time pr (last (x_time x) 0%Q)) vb ->
  exists tp fp, read_as pr None None x tp fp /\
    (forall f, In f (freq_values (x_freq x)) -> fp f = true) /\
    (forall t, tp t = true <-> (va <= t)%Q /\ (t <= vb)%Q).
Proof.
  intros A pr x fa fb va vb NT NF RFA EA RFB EB RTA RTB.
  destruct (default_parse (read_freq pr) "f"%char _ _ _ _ (or_intror eq_refl) RFA RFB) as (p & E & H).
  destruct (default_parse (read_time pr) "t"%char _ _ _ _ (or_introl eq_refl) RTA RTB) as (q & E' & H').
  exists q, p. split; [|split].
  - exact (conj NT (conj NF (conj E E'))).
  - intros f I. apply H. rewrite EA, EB. split; [now apply qmin_le|now apply qmax_ge].
  - exact H'.
Qed.

Theorem product_xy : forall A (conj : A -> A) pr fsel tsel (x : xst A) sel tp fp T F P,
  well_formed x -> read_as pr fsel tsel x tp fp -> same_bands x ->
  NoDup (x_mas x) -> NoDup (asked x sel) -> incl (asked x sel) (x_mas x) ->
  chosen_times x tp T -> chosen_freqs x fp F -> chosen x (asked x sel) P -> T <> [] -> F <> [] ->
  one_alone (length T) (length F) ->
  exists v, xst_get conj pr (Some XY) sel fsel tsel x
      = Ok (mkXSlice (asked x sel) (filter tp (x_time x)) (freq_kept fp (x_freq x)) v) /\
    sh v = [length T; length F; length P * (length P + 1) / 2] /\
    forall i j a b, i < length T -> j < length F -> b <= a -> a < length P ->
      get v [i; j; vis_no a b] = product_at conj x (nth i T 0) (nth j F 0) (nth a P 0) (nth b P 0) XY.
Proof.
  intros A conj pr fsel tsel x sel tp fp T F P WF R SB Hf Hs I HT HF HP NT NF ONE.
  destruct (get_values conj pr fsel tsel x sel tp fp WF (read_masks _ _ _ _ _ _ R) XY T F P SB Hf Hs I HT HF HP NT NF (fun _ => ONE))
    as [v [G [L [S V]]]].
  exists v. split; [assumption|split; [assumption|]]. intros. now apply V.
Qed.
Theorem product_xy_refused : forall A (conj : A -> A) pr fsel tsel (x : xst A) sel tp fp T F,
  well_formed x -> read_as pr fsel tsel x tp fp -> same_bands x ->
  incl (asked x sel) (x_mas x) -> asked x sel <> [] ->
  chosen_times x tp T -> chosen_freqs x fp F -> T <> [] -> F <> [] -> ~ one_alone (length T) (length F) ->
  xst_get conj pr (Some XY) sel fsel tsel x = Err EIndexError.
Proof.
  intros A conj pr fsel tsel x sel tp fp T F WF R. intros.
  eapply (get_xy_refused conj pr fsel tsel x sel tp fp WF (read_masks _ _ _ _ _ _ R) T F); assumption.
Qed.
(** The documented formulas. *)
Definition stokes_formula {A} (C : complex_ops A) (s : stokes) (xx xy yx yy : A) : A :=
  let half_sum a b := c_half C (c_add C a b) in
  let half_diff a b := c_half C (c_sub C a b) in
  match s with
  | SI => half_sum xx yy
  | SQ => half_diff xx yy
  | SU => half_sum xy yx
  | SV => c_minus_i C (half_diff xy yx)
  | SFL => c_div C (c_sqrt C (c_add C (c_sq C (half_diff xx yy)) (c_sq C (half_sum xy yx)))) (half_sum xx yy)
  | SFV => c_div C (c_abs C (c_minus_i C (half_diff xy yx))) (half_sum xx yy)
  end.
Theorem stokes_parameters : forall A (C : complex_ops A) pr fsel tsel (x : xst A) sel tp fp s T F P,
  well_formed x -> read_as pr fsel tsel x tp fp -> same_bands x ->
  NoDup (x_mas x) -> NoDup (asked x sel) -> incl (asked x sel) (x_mas x) ->
  chosen_times x tp T -> chosen_freqs x fp F -> chosen x (asked x sel) P -> T <> [] -> F <> [] ->
  (s = SI \/ s = SQ \/ one_alone (length T) (length F)) ->
  exists v, get_stokes C pr (Some s) sel fsel tsel x
      = Ok (mkXSlice (asked x sel) (filter tp (x_time x)) (freq_kept fp (x_freq x)) v) /\
    sh v = [length T; length F; length P * (length P + 1) / 2] /\
    forall i j a b, i < length T -> j < length F -> b <= a -> a < length P ->
      let g := product_at (c_conj C) x (nth i T 0) (nth j F 0) (nth a P 0) (nth b P 0) in
      get v [i; j; vis_no a b] = stokes_formula C s (g XX) (g XY) (g YX) (g YY).
Proof.
  intros A C pr fsel tsel x sel tp fp s T F P WF R SB Hf Hs I HT HF HP NT NF ONE.
  destruct (stokes_values C pr fsel tsel x sel tp fp WF (read_masks _ _ _ _ _ _ R) s T F P SB Hf Hs I HT HF HP NT NF) as [v [G [S V]]].
  { intro U. destruct ONE as [->|[->|ONE]]; [discriminate|discriminate|assumption]. }
  exists v. split; [assumption|split; [assumption|]]. intros i j a b Li Lj B La g. rewrite V by assumption. destruct s; reflexivity.
Qed.
Theorem stokes_parameters_refused : forall A (C : complex_ops A) pr fsel tsel (x : xst A) sel tp fp s T F,
  well_formed x -> read_as pr fsel tsel x tp fp -> same_bands x ->
  NoDup (x_mas x) -> NoDup (asked x sel) -> incl (asked x sel) (x_mas x) -> asked x sel <> [] ->
  chosen_times x tp T -> chosen_freqs x fp F -> T <> [] -> F <> [] ->
  s <> SI -> s <> SQ -> ~ one_alone (length T) (length F) ->
  get_stokes C pr (Some s) sel fsel tsel x = Err EIndexError.
Proof.
  intros A C pr fsel tsel x sel tp fp s T F WF R. intros.
  eapply (stokes_refused C pr fsel tsel x sel tp fp WF (read_masks _ _ _ _ _ _ R) s T F); try eassumption.
  destruct s; (congruence || reflexivity).
Qed.
Theorem stokes_parameters_unknown : forall A (C : complex_ops A) pr fsel tsel (x : xst A) sel tp fp,
  read_as pr fsel tsel x tp fp -> incl (asked x sel) (x_mas x) ->
  get_stokes C pr None sel fsel tsel x = Err EKeyError.
Proof. intros A C pr fsel tsel x sel tp fp R I. eapply stokes_unknown; [apply read_masks, R|assumption]. Qed.

Theorem matrix : forall A (d : A) mask_auto mas S mean, increasing S -> Permutation mas S -> mas <> [] ->
  length mean = length mas * (length mas + 1) / 2 ->
  exists M, corr_matrix d mask_auto mas mean = Ok (Datatypes.S (last S 0), M) /\
    (forall a b, b <= a -> a < length S ->
       M (nth b S 0) (nth a S 0) = if mask_auto && (a =? b) then None else Some (nth (vis_no a b) mean d)) /\
    (forall i j, (forall a b, b <= a -> a < length S -> ~ (i = nth b S 0 /\ j = nth a S 0)) -> M i j = None).
Proof. intros A d mask_auto mas S mean. apply matrix_cells. Qed.
(** A file recording Mini-Array 1 before Mini-Array 0: the autocorrelation of 1
    (the first value) is drawn as that of 0. *)
Theorem matrix_order : exists mas mean M n, NoDup mas /\ corr_matrix 0%Z false mas mean = Ok (n, M) /\
  nth 0 mas 0 = 1 /\ nth (vis_no 0 0) mean 0%Z = 11%Z /\ M 1 1 <> Some 11%Z /\ M 0 0 = Some 11%Z.
Proof.
  exists [1; 0], [11; 10; 0]%Z. eexists. eexists. split; [repeat constructor; cbn; intuition lia|].
  split; [vm_compute; reflexivity|]. split; [reflexivity|split; [reflexivity|]]. vm_compute. split; [discriminate|reflexivity].
Qed.

(** ** Examples *)
(** Mini-Arrays 3 and 5, three times, two subbands; the sample at [t; f; v] is
    1000 t + 100 f + v, the conjugation is the opposite. *)
Definition demo_xst (n : nat) (mas : list nat) : xst Z := mkXst mas
  (firstn n [0%Q; 1%Q; 2%Q]) (ByTime (repeat [50%Q; 51%Q] n))
  (mkNd [n; 2; 2 * length mas * (2 * length mas + 1) / 2] (fun ix => match ix with
     | [t; f; v] => Z.of_nat (1000 * t + 100 * f + v) | _ => 0%Z end)).
Definition demo_pr : printer := mkPrinter
  (fun t => if Qeq_bool t 0 then "0" else if Qeq_bool t 1 then "1" else "2")%string
  (fun f => if Qeq_bool f 50 then "50 MHz" else "51 MHz")%string
  (fun s => if String.eqb s "0" then Ok 0%Q else if String.eqb s "1" then Ok 1%Q else if String.eqb s "2" then Ok 2%Q else Err EValueError)%string
  (fun s => if String.eqb s "50MHz" then Ok 50%Q else if String.eqb s "51MHz" then Ok 51%Q else Err EValueError)%string.

(** Two times and two frequencies: XY cannot be read. *)
Theorem xy_several : exists (x : xst Z) sel, well_formed x /\ same_bands x /\ in_file_order (x_mas x) sel /\
  xst_get Z.opp demo_pr (Some XY) (Some sel) None None x = Err EIndexError /\
  exists r, xst_get Z.opp demo_pr (Some YX) (Some sel) None None x = Ok r.
Proof.
  exists (demo_xst 2 [3; 5]), [3; 5]. split; [|split; [|split; [|split]]].
  - split; [reflexivity|]. intros rows E. cbn in E. injection E as <-. split; [reflexivity|]. intros r [<-|[<-|[]]]; reflexivity.
  - intros t t' f Lt Lt'. cbn in Lt, Lt'. destruct t as [|[|]], t' as [|[|]]; try lia; reflexivity.
  - exists [0; 1]. split; [|split; [intros k [<-|[<-|[]]]; cbn; lia|reflexivity]].
    intros i j Lij Lj. cbn in Lj. destruct i, j as [|[|]]; cbn; lia.
  - vm_compute. reflexivity.
  - eexists. vm_compute. reflexivity.
Qed.
(** The Mini-Arrays in another order: labels and values disagree.  The first
    value is the autocorrelation of Mini-Array 3 (position 0). *)
Theorem order_lost : exists (x : xst Z) sel r, well_formed x /\ same_bands x /\
  xst_get Z.opp demo_pr (Some XX) (Some sel) None None x = Ok r /\
  nth 0 (xs_mas r) 0 = 5 /\ nth 0 (x_mas x) 0 = 3 /\
  get (xs_value r) [0; 0; vis_no 0 0] = product_at Z.opp x 0 0 0 0 XX /\
  get (xs_value r) [0; 0; vis_no 0 0] <> product_at Z.opp x 0 0 1 1 XX.
Proof.
  exists (demo_xst 2 [3; 5]), [5; 3]. eexists. split; [|split; [|split]].
  - split; [reflexivity|]. intros rows E. cbn in E. injection E as <-. split; [reflexivity|]. intros r [<-|[<-|[]]]; reflexivity.
  - intros t t' f Lt Lt'. cbn in Lt, Lt'. destruct t as [|[|]], t' as [|[|]]; try lia; reflexivity.
  - vm_compute. reflexivity.
  - vm_compute. repeat split; discriminate.
Qed.
(** Two times: four frequencies label two columns. *)
Theorem frequencies_repeated : exists (x : xst Z) r, well_formed x /\ same_bands x /\
  xst_get Z.opp demo_pr (Some XX) None None None x = Ok r /\
  nth 1 (sh (xs_value r)) 0 = 2 /\ length (xs_freq r) = 4.
Proof.
  exists (demo_xst 2 [3; 5]). eexists. split; [|split; [|split]].
  - split; [reflexivity|]. intros rows E. cbn in E. injection E as <-. split; [reflexivity|]. intros r [<-|[<-|[]]]; reflexivity.
  - intros t t' f Lt Lt'. cbn in Lt, Lt'. destruct t as [|[|]], t' as [|[|]]; try lia; reflexivity.
  - vm_compute. reflexivity.
  - vm_compute. split; reflexivity.
Qed.
(** Data whose first two dimensions are not the times and the frequencies. *)
Theorem selection_misfit : forall A (conj : A -> A) pr fsel tsel sel tp fp p (x : xst A),
  read_as pr fsel tsel x tp fp -> incl (asked x sel) (x_mas x) ->
  firstn 2 (sh (x_data x)) <> [length (x_time x); freq_size (x_freq x)] ->
  xst_get conj pr (Some p) sel fsel tsel x = Err EIndexError.
Proof.
  intros A conj pr fsel tsel sel tp fp p x R I N. apply read_masks in R. unfold xst_get, crosslet_get.
  rewrite select_ok by assumption. cbn [bind]. rewrite R. cbn [bind]. unfold get_vis, data_selected.
  destruct (sh (x_data x)) as [|a [|b [|v [|w r]]]]; try reflexivity. cbn [firstn] in N.
  destruct (a =? length (x_time x)) eqn:Ea; [|reflexivity]. destruct (b =? freq_size (x_freq x)) eqn:Eb; [|reflexivity].
  apply Nat.eqb_eq in Ea, Eb. subst. congruence.
Qed.
