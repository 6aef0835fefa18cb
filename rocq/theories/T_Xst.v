(** C49, C50, C83 and C84: cross-correlation statistics. *)
From Coq Require Import ZArith QArith Bool Ascii String List Arith Lia Sorting.Sorted Sorting.Permutation.
From Verif Require Import Base M_Nd M_Cond M_Xst P_Nd P_Cond P_Cond2 P_Xst P_Xst2 P_Xst3 P_Xst4 P_Xst5 P_Xst6.
Import ListNotations.
Open Scope nat_scope.
Open Scope list_scope.

(** * C49: index maps *)
Theorem C49_pairs : forall file sel P c1 c2, lists_of (length file) (fun k => In (nth k file 0) sel) P ->
  (c1, c2) <> (X, Y) ->
  length (cross_idx file sel c1 c2) = length P * (length P + 1) / 2 /\
  forall a b, b <= a -> a < length P ->
    nth (vis_no a b) (cross_idx file sel c1 c2) 0 = vis_no (chain (nth a P 0) c1) (chain (nth b P 0) c2).
Proof. exact index_pairs. Qed.
Print Assumptions C49_pairs.
Theorem C49_xy : forall file sel P, lists_of (length file) (fun k => In (nth k file 0) sel) P ->
  2 * length (cross_idx file sel X Y) = length P * (length P - 1) /\
  (forall v, In v (cross_idx file sel X Y) <->
    exists a b, b < a /\ a < length P /\ v = vis_no (chain (nth a P 0) X) (chain (nth b P 0) Y)).
Proof. exact index_xy. Qed.
Print Assumptions C49_xy.
Theorem C49_partition : forall file v, v < 2 * length file * (2 * length file + 1) / 2 ->
  exists c1 c2, In v (cross_idx file file c1 c2) /\
    forall d1 d2, In v (cross_idx file file d1 d2) -> d1 = c1 /\ d2 = c2.
Proof. exact index_partition. Qed.
Print Assumptions C49_partition.
Theorem C49_order : forall file sel c1 c2, increasing (cross_idx file sel c1 c2).
Proof. exact index_increasing. Qed.
Print Assumptions C49_order.

Example C49_ex : cross_idx [3; 5; 8] [8; 3] Y X = [1; 15; 19] /\ cross_idx [3; 5; 8] [8; 3] X Y = [11] /\
  lists_of 3 (fun k => In (nth k [3; 5; 8] 0) [8; 3]) [0; 2] /\
  [vis_no (chain 0 Y) (chain 0 X); vis_no (chain 2 Y) (chain 0 X); vis_no (chain 2 Y) (chain 2 X)] = [1; 15; 19].
Proof.
  split; [reflexivity|split; [reflexivity|split; [|reflexivity]]].
  apply (lists_of_iff 3 (fun k => isin (nth k [3; 5; 8] 0) [8; 3] = true)); [intros; apply isin_In|].
  exact (lists_of_filter 3 (fun k => isin (nth k [3; 5; 8] 0) [8; 3])).
Qed.

(** * C50: correlation matrix *)
Theorem C50_matrix : forall A (d : A) mask_auto mas S mean, increasing S -> Permutation mas S -> mas <> [] ->
  length mean = length mas * (length mas + 1) / 2 ->
  exists M, corr_matrix d mask_auto mas mean = Ok (Datatypes.S (last S 0), M) /\
    (forall a b, b <= a -> a < length S ->
       M (nth b S 0) (nth a S 0) = if mask_auto && (a =? b) then None else Some (nth (vis_no a b) mean d)) /\
    (forall i j, (forall a b, b <= a -> a < length S -> ~ (i = nth b S 0 /\ j = nth a S 0)) -> M i j = None).
Proof. exact matrix. Qed.
Print Assumptions C50_matrix.
Theorem C50_order_refuted : exists mas mean M n, NoDup mas /\ corr_matrix 0%Z false mas mean = Ok (n, M) /\
  nth 0 mas 0 = 1 /\ nth (vis_no 0 0) mean 0%Z = 11%Z /\ M 1 1 <> Some 11%Z /\ M 0 0 = Some 11%Z.
Proof. exact matrix_order. Qed.
Print Assumptions C50_order_refuted.

Example C50_ex : exists M, corr_matrix 0%Z true [5; 2] [10; 20; 30]%Z = Ok (6, M) /\ M 2 5 = Some 20%Z /\ M 5 5 = None /\ M 5 2 = None.
Proof. eexists. split; [vm_compute; reflexivity|]. vm_compute. auto. Qed.
Example C50_ex_hyp : increasing [2; 5] /\ Permutation [5; 2] [2; 5] /\ 3 = 2 * (2 + 1) / 2.
Proof.
  split; [intros i j L Lj; cbn in Lj; destruct i, j as [|[|]]; cbn; lia|]. split; [constructor|reflexivity].
Qed.

(** * C83: selection *)
Theorem C83_selection : forall A (conj : A -> A) pr fsel tsel (x : xst A) sel tp fp p T F P,
  well_formed x -> read_as pr fsel tsel x tp fp -> same_bands x ->
  NoDup (x_mas x) -> NoDup (asked x sel) -> incl (asked x sel) (x_mas x) ->
  chosen_times x tp T -> chosen_freqs x fp F -> chosen x (asked x sel) P -> T <> [] -> F <> [] -> p <> XY ->
  exists v, xst_get conj pr (Some p) sel fsel tsel x
      = Ok (mkXSlice (asked x sel) (filter tp (x_time x)) (freq_kept fp (x_freq x)) v) /\
    length P = length (asked x sel) /\
    sh v = [length T; length F; length P * (length P + 1) / 2] /\
    forall i j a b, i < length T -> j < length F -> b <= a -> a < length P ->
      get v [i; j; vis_no a b] = product_at conj x (nth i T 0) (nth j F 0) (nth a P 0) (nth b P 0) p /\
      nth i (filter tp (x_time x)) 0%Q = nth (nth i T 0) (x_time x) 0%Q.
Proof. exact selection. Qed.
Print Assumptions C83_selection.
Theorem C83_labels : forall A (x : xst A) sel P, NoDup (x_mas x) -> in_file_order (x_mas x) sel -> chosen x sel P ->
  NoDup sel /\ incl sel (x_mas x) /\ length P = length sel /\
  forall a, a < length sel -> nth a sel 0 = nth (nth a P 0) (x_mas x) 0.
Proof. exact selection_labels. Qed.
Print Assumptions C83_labels.
Theorem C83_any_order : forall A (conj : A -> A) pr p fsel tsel sel sel' (x : xst A) r, Permutation sel sel' ->
  xst_get conj pr p (Some sel) fsel tsel x = Ok r ->
  xst_get conj pr p (Some sel') fsel tsel x = Ok (mkXSlice sel' (xs_time r) (xs_freq r) (xs_value r)).
Proof. exact selection_any_order. Qed.
Print Assumptions C83_any_order.
Theorem C83_defaults : forall A pr (x : xst A) fa fb va vb,
  x_time x <> [] -> freq_values (x_freq x) <> [] ->
  reads (read_freq pr) (show_freq pr (qmin (freq_values (x_freq x)))) fa -> (fa == qmin (freq_values (x_freq x)))%Q ->
  reads (read_freq pr) (show_freq pr (qmax (freq_values (x_freq x)))) fb -> (fb == qmax (freq_values (x_freq x)))%Q ->
  reads (read_time pr) (show_time pr (hd 0%Q (x_time x))) va ->
  reads (read_time pr) (show_time pr (last (x_time x) 0%Q)) vb ->
  exists tp fp, read_as pr None None x tp fp /\
    (forall f, In f (freq_values (x_freq x)) -> fp f = true) /\
    (forall t, tp t = true <-> (va <= t)%Q /\ (t <= vb)%Q).
Proof. exact selection_defaults. Qed.
Print Assumptions C83_defaults.
Theorem C83_frequencies_tv : forall A (x : xst A) fp F row, x_freq x = Common row -> chosen_freqs x fp F ->
  freq_kept fp (x_freq x) = map (fun f => freq_at (x_freq x) 0 f) F.
Proof. exact frequencies_tv. Qed.
Print Assumptions C83_frequencies_tv.
Theorem C83_frequencies_xst : forall A (x : xst A) fp F row,
  x_freq x = ByTime (repeat row (length (x_time x))) -> x_time x <> [] -> chosen_freqs x fp F ->
  freq_kept fp (x_freq x) = concat (repeat (map (fun f => freq_at (x_freq x) 0 f) F) (length (x_time x))) /\
  length (freq_kept fp (x_freq x)) = length (x_time x) * length F.
Proof. exact frequencies_xst. Qed.
Print Assumptions C83_frequencies_xst.
Theorem C83_unknown : forall A (conj : A -> A) pr p fsel tsel sel k (x : xst A), In k sel -> ~ In k (x_mas x) ->
  xst_get conj pr p (Some sel) fsel tsel x = Err EIndexError.
Proof. exact selection_unknown. Qed.
Print Assumptions C83_unknown.
Theorem C83_polarisation : forall A (conj : A -> A) pr fsel tsel sel tp fp (x : xst A),
  read_as pr fsel tsel x tp fp -> incl (asked x sel) (x_mas x) ->
  xst_get conj pr None sel fsel tsel x = Err EValueError.
Proof. exact selection_bad_pol. Qed.
Print Assumptions C83_polarisation.
Theorem C83_misfit : forall A (conj : A -> A) pr fsel tsel sel tp fp p (x : xst A),
  read_as pr fsel tsel x tp fp -> incl (asked x sel) (x_mas x) ->
  firstn 2 (sh (x_data x)) <> [length (x_time x); freq_size (x_freq x)] ->
  xst_get conj pr (Some p) sel fsel tsel x = Err EIndexError.
Proof. exact selection_misfit. Qed.
Print Assumptions C83_misfit.
Theorem C83_duplicates : forall A (conj : A -> A) pr fsel tsel (x : xst A) sel tp fp p T F,
  well_formed x -> read_as pr fsel tsel x tp fp -> same_bands x ->
  NoDup (x_mas x) -> ~ NoDup (asked x sel) -> incl (asked x sel) (x_mas x) ->
  chosen_times x tp T -> chosen_freqs x fp F -> T <> [] -> F <> [] ->
  xst_get conj pr (Some p) sel fsel tsel x = Err (match p with XY => EIndexError | _ => EValueError end).
Proof. exact selection_duplicates. Qed.
Print Assumptions C83_duplicates.
Theorem C83_no_time : forall A (conj : A -> A) pr fsel tsel (x : xst A) sel tp fp p,
  well_formed x -> read_as pr fsel tsel x tp fp -> incl (asked x sel) (x_mas x) -> asked x sel <> [] ->
  (forall t, In t (x_time x) -> tp t = false) ->
  xst_get conj pr (Some p) sel fsel tsel x = Err EIndexError.
Proof. exact selection_no_time. Qed.
Print Assumptions C83_no_time.
Theorem C83_hopping : forall A (conj : A -> A) pr fsel tsel (x : xst A) sel tp fp p t f t' f',
  well_formed x -> read_as pr fsel tsel x tp fp -> p <> XY ->
  NoDup (x_mas x) -> NoDup (asked x sel) -> incl (asked x sel) (x_mas x) -> asked x sel <> [] ->
  t < length (x_time x) -> t' < length (x_time x) -> f < freq_size (x_freq x) -> f' < freq_size (x_freq x) ->
  tp (nth t (x_time x) 0%Q) = true -> tp (nth t' (x_time x) 0%Q) = true ->
  fp (freq_at (x_freq x) t f) = true -> fp (freq_at (x_freq x) t' f') = true ->
  fp (freq_at (x_freq x) t f') = false ->
  xst_get conj pr (Some p) sel fsel tsel x = Err EValueError.
Proof. exact selection_hopping. Qed.
Print Assumptions C83_hopping.
Theorem C83_order_refuted : exists (x : xst Z) sel r, well_formed x /\ same_bands x /\
  xst_get Z.opp demo_pr (Some XX) (Some sel) None None x = Ok r /\
  nth 0 (xs_mas r) 0 = 5 /\ nth 0 (x_mas x) 0 = 3 /\
  get (xs_value r) [0; 0; vis_no 0 0] = product_at Z.opp x 0 0 0 0 XX /\
  get (xs_value r) [0; 0; vis_no 0 0] <> product_at Z.opp x 0 0 1 1 XX.
Proof. exact order_lost. Qed.
Print Assumptions C83_order_refuted.
Theorem C83_frequencies_refuted : exists (x : xst Z) r, well_formed x /\ same_bands x /\
  xst_get Z.opp demo_pr (Some XX) None None None x = Ok r /\
  nth 1 (sh (xs_value r)) 0 = 2 /\ length (xs_freq r) = 4.
Proof. exact frequencies_repeated. Qed.
Print Assumptions C83_frequencies_refuted.

Example C83_ex : let x := demo_xst 3 [3; 5; 8] in
  well_formed x /\ same_bands x /\
  (exists tp fp, read_as demo_pr (Some ">50 MHz"%string) (Some ">=1"%string) x tp fp /\
    chosen_times x tp [1; 2] /\ chosen_freqs x fp [1] /\ chosen x [3; 8] [0; 2]) /\
  match xst_get Z.opp demo_pr (Some YX) (Some [3; 8]) (Some ">50 MHz"%string) (Some ">=1"%string) x with
  | Ok r => sh (xs_value r) = [2; 1; 3] /\ xs_time r = [1%Q; 2%Q] /\ get (xs_value r) [1; 0; vis_no 1 0] = 2115%Z
  | Err _ => False
  end.
Proof.
  cbv zeta. split; [|split; [|split]].
  - split; [reflexivity|]. intros rows E. cbn in E. injection E as <-. split; [reflexivity|]. intros r [<-|[<-|[<-|[]]]]; reflexivity.
  - intros t t' f Lt Lt'. cbn in Lt, Lt'. destruct t as [|[|[|]]], t' as [|[|[|]]]; try lia; reflexivity.
  - eexists. eexists. split; [|split; [|split]].
    + split; [discriminate|split; [discriminate|split; vm_compute; reflexivity]].
    + exact (lists_of_filter 3 (fun t => op_fun OpGe (nth t [0%Q; 1%Q; 2%Q] 0%Q) 1%Q)).
    + exact (lists_of_filter 2 (fun f => op_fun OpGt (nth f [50%Q; 51%Q] 0%Q) 50%Q)).
    + apply (lists_of_iff 3 (fun k => isin (nth k [3; 5; 8] 0) [3; 8] = true)); [intros; apply isin_In|].
      exact (lists_of_filter 3 (fun k => isin (nth k [3; 5; 8] 0) [3; 8])).
  - vm_compute. repeat split; reflexivity.
Qed.
Example C83_refused_ex :
  xst_get Z.opp demo_pr (Some XX) (Some [3; 3]) None None (demo_xst 2 [3; 5]) = Err EValueError /\
  xst_get Z.opp demo_pr (Some XX) (Some [4]) None None (demo_xst 2 [3; 5]) = Err EIndexError /\
  xst_get Z.opp demo_pr None None None None (demo_xst 2 [3; 5]) = Err EValueError /\
  xst_get Z.opp demo_pr (Some XX) None None (Some ">1"%string) (demo_xst 2 [3; 5]) = Err EIndexError.
Proof. vm_compute. auto. Qed.
Example C83_hopping_ex :
  xst_get Z.opp demo_pr (Some XX) None (Some ">50 MHz"%string) None
    (mkXst [3] [0%Q; 1%Q] (ByTime [[50%Q; 51%Q]; [51%Q; 50%Q]]) (mkNd [2; 2; 3] (fun _ => 7%Z))) = Err EValueError.
Proof. vm_compute. reflexivity. Qed.

(** * C84: XY product and Stokes parameters *)
Theorem C84_xy : forall A (conj : A -> A) pr fsel tsel (x : xst A) sel tp fp T F P,
  well_formed x -> read_as pr fsel tsel x tp fp -> same_bands x ->
  NoDup (x_mas x) -> NoDup (asked x sel) -> incl (asked x sel) (x_mas x) ->
  chosen_times x tp T -> chosen_freqs x fp F -> chosen x (asked x sel) P -> T <> [] -> F <> [] ->
  one_alone (length T) (length F) ->
  exists v, xst_get conj pr (Some XY) sel fsel tsel x
      = Ok (mkXSlice (asked x sel) (filter tp (x_time x)) (freq_kept fp (x_freq x)) v) /\
    sh v = [length T; length F; length P * (length P + 1) / 2] /\
    forall i j a b, i < length T -> j < length F -> b <= a -> a < length P ->
      get v [i; j; vis_no a b] = product_at conj x (nth i T 0) (nth j F 0) (nth a P 0) (nth b P 0) XY.
Proof. exact product_xy. Qed.
Print Assumptions C84_xy.
Theorem C84_xy_refused : forall A (conj : A -> A) pr fsel tsel (x : xst A) sel tp fp T F,
  well_formed x -> read_as pr fsel tsel x tp fp -> same_bands x ->
  incl (asked x sel) (x_mas x) -> asked x sel <> [] ->
  chosen_times x tp T -> chosen_freqs x fp F -> T <> [] -> F <> [] -> ~ one_alone (length T) (length F) ->
  xst_get conj pr (Some XY) sel fsel tsel x = Err EIndexError.
Proof. exact product_xy_refused. Qed.
Print Assumptions C84_xy_refused.
Theorem C84_stokes : forall A (C : complex_ops A) pr fsel tsel (x : xst A) sel tp fp s T F P,
  well_formed x -> read_as pr fsel tsel x tp fp -> same_bands x ->
  NoDup (x_mas x) -> NoDup (asked x sel) -> incl (asked x sel) (x_mas x) ->
  chosen_times x tp T -> chosen_freqs x fp F -> chosen x (asked x sel) P -> T <> [] -> F <> [] ->
  (s = SI \/ s = SQ \/ one_alone (length T) (length F)) ->
  exists v, get_stokes C pr (Some s) sel fsel tsel x
      = Ok (mkXSlice (asked x sel) (filter tp (x_time x)) (freq_kept fp (x_freq x)) v) /\
    sh v = [length T; length F; length P * (length P + 1) / 2] /\
    forall i j a b, i < length T -> j < length F -> b <= a -> a < length P ->
      let g := product_at (c_conj C) x (nth i T 0) (nth j F 0) (nth a P 0) (nth b P 0) in
      get v [i; j; vis_no a b] = stokes_formula C s (g XX) (g XY) (g YX) (g YY).
Proof. exact stokes_parameters. Qed.
Print Assumptions C84_stokes.
Theorem C84_stokes_refused : forall A (C : complex_ops A) pr fsel tsel (x : xst A) sel tp fp s T F,
  well_formed x -> read_as pr fsel tsel x tp fp -> same_bands x ->
  NoDup (x_mas x) -> NoDup (asked x sel) -> incl (asked x sel) (x_mas x) -> asked x sel <> [] ->
  chosen_times x tp T -> chosen_freqs x fp F -> T <> [] -> F <> [] ->
  s <> SI -> s <> SQ -> ~ one_alone (length T) (length F) ->
  get_stokes C pr (Some s) sel fsel tsel x = Err EIndexError.
Proof. exact stokes_parameters_refused. Qed.
Print Assumptions C84_stokes_refused.
Theorem C84_unknown : forall A (C : complex_ops A) pr fsel tsel (x : xst A) sel tp fp,
  read_as pr fsel tsel x tp fp -> incl (asked x sel) (x_mas x) ->
  get_stokes C pr None sel fsel tsel x = Err EKeyError.
Proof. exact stokes_parameters_unknown. Qed.
Print Assumptions C84_unknown.
Theorem C84_xy_refuted : exists (x : xst Z) sel, well_formed x /\ same_bands x /\ in_file_order (x_mas x) sel /\
  xst_get Z.opp demo_pr (Some XY) (Some sel) None None x = Err EIndexError /\
  exists r, xst_get Z.opp demo_pr (Some YX) (Some sel) None None x = Ok r.
Proof. exact xy_several. Qed.
Print Assumptions C84_xy_refuted.

Definition demo_ops : complex_ops Z := mkComplex Z.opp 0%Z Z.add Z.sub (fun a => Z.div a 2) Z.opp (fun a => Z.mul a a) Z.sqrt Z.abs Z.div.
Example C84_ex :
  match xst_get Z.opp demo_pr (Some XY) None (Some ">50 MHz"%string) None (demo_xst 2 [3; 5]) with
  | Ok r => sh (xs_value r) = [2; 1; 3] /\ get (xs_value r) [1; 0; vis_no 0 0] = (-1101)%Z /\
            get (xs_value r) [1; 0; vis_no 1 0] = 1104%Z
  | Err _ => False
  end /\
  match get_stokes demo_ops demo_pr (Some SU) None (Some ">50 MHz"%string) None (demo_xst 2 [3; 5]) with
  | Ok r => get (xs_value r) [1; 0; vis_no 1 0] = ((1104 + 1106) / 2)%Z
  | Err _ => False
  end /\
  get_stokes demo_ops demo_pr (Some SV) None None None (demo_xst 2 [3; 5]) = Err EIndexError /\
  get_stokes demo_ops demo_pr (Some SU) None (Some ">50 MHz"%string) None (demo_xst 1 [3; 5]) = Err EIndexError /\
  one_alone 2 1 /\ ~ one_alone 2 2 /\ ~ one_alone 1 1.
Proof. split; [vm_compute; repeat split; reflexivity|]. split; [vm_compute; reflexivity|]. split; [vm_compute; reflexivity|].
  split; [vm_compute; reflexivity|]. unfold one_alone. lia. Qed.
