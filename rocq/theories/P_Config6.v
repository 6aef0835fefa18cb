(** Receivers of a parset, sets of observations. *)
From Coq Require Import Ascii String List Arith ZArith QArith Qround Qabs Bool Lia Lqa Permutation Sorted.
From Verif Require Import Base M_Polar M_Dedisperse M_Pipeline M_PText M_POptions M_Parset P_PText M_Config P_Config P_Config2 P_Config3 P_Config4 P_Config5.
Import ListNotations.
Open Scope list_scope.

(** ** Specification *)
(** The word [x] in a value: a part of the text, or an element of the list. *)
Definition mentions {ck} (x : string) (v : pval ck) : Prop :=
  (exists s, v = PStr ck s /\ exists a b, s = (a ++ x ++ b)%string) \/ (exists l, v = PList ck l /\ In (IStr ck x) l).
(** The beams for which [f] makes something. *)
Inductive chosen {X} (f : X -> res (option config)) : list X -> list config -> Prop :=
| chosen_nil : chosen f [] []
| chosen_skip x l cs : f x = Ok None -> chosen f l cs -> chosen f (x :: l) cs
| chosen_keep x l c cs : f x = Ok (Some c) -> chosen f l cs -> chosen f (x :: l) (c :: cs).
Inductive adds_up : list (option Q) -> Q -> Prop :=
| adds_nil : adds_up [] 0
| adds_cons v s l t : adds_up l s -> t == v + s -> adds_up (Some v :: l) t.

Lemma prefix_app x s : String.prefix x s = true <-> exists b, s = (x ++ b)%string.
Proof.
  revert s. induction x as [|c x IH]; intro s; [cbn; split; [eauto|destruct s; reflexivity]|]. destruct s as [|d s]; cbn; [split; [discriminate|intros (b & E); discriminate]|].
  destruct (ascii_dec c d) as [->|N]; [rewrite IH; split; intros (b & E); exists b; congruence|]. split; [discriminate|]. intros (b & E). injection E as -> _. congruence.
Qed.
Lemma has_sub_app x s : has_sub x s = true <-> exists a b, s = (a ++ x ++ b)%string.
Proof.
  induction s as [|c s IH].
  - cbn [has_sub]. rewrite orb_false_r, prefix_app. split; [intros (b & E); exists EmptyString, b; exact E|]. intros ([|] & b & E); [exists b; exact E|discriminate].
  - cbn [has_sub]. rewrite orb_true_iff, prefix_app, IH. split.
    + intros [(b & E)|(a & b & ->)]; [exists EmptyString, b; exact E|exists (String c a), b; reflexivity].
    + intros ([|d a] & b & E); [left; exists b; exact E|right]. cbn in E. injection E as -> ->. eauto.
Qed.
Lemma contains_spec {ck} x (v : pval ck) : match contains_text ck x v with
  | Ok b => b = true <-> mentions x v
  | Err e => e = ETypeError /\ ~ mentions x v end.
Proof.
  unfold contains_text, mentions. destruct v as [n|s|b|t|a|l]; try (split; [reflexivity|]; intros [(s & E & _)|(l & E & _)]; discriminate).
  - rewrite has_sub_app. split; [intro H; left; eauto|]. intros [(s' & E & H)|(l & E & _)]; [injection E as <-; exact H|discriminate].
  - rewrite existsb_exists. split.
    + intros (i & I & E). right. exists l. split; [reflexivity|]. destruct i; try discriminate. apply String.eqb_eq in E. now subst.
    + intros [(s & E & _)|(l' & E & H)]; [discriminate|]. injection E as <-. exists (IStr ck x). split; [exact H|]. apply String.eqb_refl.
Qed.
Lemma adds_unique l s : adds_up l s -> forall t, adds_up l t -> s == t.
Proof. induction 1 as [|v s l t A IH E]; intros t' B; inversion B as [|? s' ? ? A' E']; subst; [reflexivity|]. rewrite E, E', (IH _ A'). reflexivity. Qed.
Lemma sum_adds l : match sum_volumes l with Some s => adds_up l s | None => In None l end.
Proof.
  induction l as [|[v|] l IH]; cbn [sum_volumes]; [constructor| |now left]. destruct (sum_volumes l) as [s|]; cbn [option_map]; [econstructor; [exact IH|reflexivity]|now right].
Qed.
Lemma adds_sum l s : adds_up l s -> exists t, sum_volumes l = Some t /\ t == s.
Proof. induction 1 as [|v s l t A (u & E & Q) IH]; [exists 0; split; reflexivity|]. cbn [sum_volumes]. rewrite E. cbn. eexists. split; [reflexivity|]. rewrite IH, Q. reflexivity. Qed.

(** ** The computers *)
Lemma beams_chosen ck pf b l cs : beams_from ck pf b l = Ok cs <-> chosen (beam_from ck pf b) l cs.
Proof.
  revert cs. induction l as [|x l IH]; intro cs; cbn [beams_from].
  - split; [intro H; injection H as <-; constructor|intro H; inversion H; reflexivity].
  - split.
    + intro H. apply bind_ok in H. destruct H as (o & O & H). apply bind_ok in H. destruct H as (cs' & C & H). apply IH in C. destruct o as [c|]; injection H as <-; econstructor; eassumption.
    + intro H. inversion H as [|? ? ? E C|? ? ? ? E C]; subst; rewrite E; cbn [bind]; apply IH in C; rewrite C; reflexivity.
Qed.
Theorem computer_made : forall ck secs pf b (p : parset ck) r, computer b -> from_parset secs pf b p = Ok r ->
  exists v cs t, dict_get String.eqb "hd_receivers"%string (p_output ck p) = Some v /\ r = Beams (mkDev None cs t) /\
    (mentions "undysputed" v -> chosen (beam_from ck pf b) (map snd (p_digibeams ck p)) cs) /\ (~ mentions "undysputed" v -> cs = []) /\
    (forall s, adds_up (map config_volume cs) s -> exists q, receiver_volume r = Some q /\ q == s).
Proof.
  intros ck secs pf b p r [NB NN] H. assert (H' : dev_from ck secs pf b p = Ok r) by (destruct b; try congruence; exact H). clear H. unfold dev_from in H'. apply bind_ok in H'. destruct H' as (t & _ & H). apply bind_ok in H. destruct H as (u & U & H). apply bind_ok in U. destruct U as (v & G & U). apply item_get_ok in G.
  assert (S := contains_spec "undysputed" v). rewrite U in S. exists v. destruct u.
  - apply bind_ok in H. destruct H as (cs & C & H). injection H as <-. exists cs, t. split; [exact G|]. split; [reflexivity|]. split; [intros _; now apply beams_chosen|]. split; [intro N; elim N; now apply S|]. intros s A. destruct (adds_sum _ _ A) as (q & E & Q). exists q. auto.
  - injection H as <-. exists [], t. split; [exact G|]. split; [reflexivity|]. split; [intro M; apply S in M; discriminate|]. split; [reflexivity|]. intros s A. destruct (adds_sum _ _ A) as (q & E & Q). exists q. auto.
Qed.
Theorem computer_missing : forall ck secs pf b (p : parset ck) t, computer b -> dict_get String.eqb "startTime"%string (p_observation ck p) = Some t ->
  dict_get String.eqb "hd_receivers"%string (p_output ck p) = None -> from_parset secs pf b p = Err EKeyError.
Proof.
  intros ck secs pf b p t [NB NN] T G. assert (D : dev_from ck secs pf b p = Err EKeyError) by (unfold dev_from, start_of, item_get; rewrite T, G; reflexivity). destruct b; try congruence; exact D.
Qed.
(** ** The correlator *)
Theorem nickel_unused : forall ck secs pf (p : parset ck) t, dict_get String.eqb "startTime"%string (p_observation ck p) = Some t ->
  (dict_get String.eqb "nri_receivers"%string (p_output ck p) = None \/ exists s l, (dict_get String.eqb "nri_receivers"%string (p_output ck p) = Some s) /\ (s = PList ck l \/ exists x, s = PStr ck x) /\ ~ mentions "nickel" s) ->
  exists r v, from_parset secs pf Nickel p = Ok r /\ receiver_volume r = Some v /\ v == 0.
Proof.
  intros ck secs pf p t T H. cbn [from_parset].
  assert (X : exists r v, bind (start_of ck secs p) (make Nickel []) = Ok r /\ receiver_volume r = Some v /\ v == 0).
  { unfold start_of, item_get. rewrite T. cbn [bind]. eexists. eexists. split; [vm_compute; reflexivity|]. split; [vm_compute; reflexivity|reflexivity]. }
  unfold nickel_from. destruct H as [G|(s & l & G & S & N)]; rewrite G; [exact X|]. assert (C := contains_spec "nickel" s). destruct (contains_text ck "nickel" s) as [[|]|e] eqn:E.
  - elim N. now apply C.
  - exact X.
  - destruct S as [->|(x & ->)]; discriminate E.
Qed.
Lemma kept_of b k s c a n r : init true b k s = Ok c -> In (a, r) (props b) -> kw (attr_name a) k = Some (AInt n) -> kept r (inject_Z n) (value c a).
Proof.
  intros H I K. destruct (init_spec _ _ _ _ _ H) as (_ & _ & _ & G & _). destruct (G _ _ I) as (w & W & Gw). unfold given in Gw. rewrite K in Gw. destruct Gw as (v & S & _ & Kp). rewrite (value_get _ _ _ W). apply stands_int_inv in S. now subst.
Qed.
Theorem nickel_made : forall ck secs pf (p : parset ck) t v a n dt nsb nch nma, dict_get String.eqb "startTime"%string (p_observation ck p) = Some t ->
  dict_get String.eqb "nri_receivers"%string (p_output ck p) = Some v -> mentions "nickel" v -> dict_get Z.eqb 0%Z (p_anabeams ck p) = Some a -> lasts a n ->
  dict_get String.eqb "nri_dumpTime"%string (p_output ck p) = Some (PInt ck dt) -> elements (p_output ck p) "nri_subbandList" nsb ->
  dict_get String.eqb "nri_channelization"%string (p_output ck p) = Some (PInt ck nch) -> elements a "maList" nma ->
  exists c, from_parset secs pf Nickel p = Ok (One c) /\ c_duration c = inject_Z n /\ kept (mkRange 0 10 1) (inject_Z dt) (value c TimeRes) /\
    kept (ints 1 384 384) (inject_Z nsb) (value c NSubBands) /\ kept (ints 1 64 64) (inject_Z nch) (value c NChannels) /\ kept (ints 2 102 96) (inject_Z nma) (value c NMAs) /\ value c NPolars = 4.
Proof.
  intros ck secs pf p t v a n dt nsb nch nma T G M A L D S C E. cbn [from_parset]. unfold nickel_from. rewrite G. assert (CS := contains_spec "nickel" v). destruct (contains_text ck "nickel" v) as [u|e]; [|elim (proj2 CS); exact M]. rewrite (proj2 CS M). cbn [bind negb]. rewrite A. cbn [bind].
  apply duration_ok in L. rewrite L. cbn [bind]. apply elements_ok in S. rewrite S. apply elements_ok in E. rewrite E. unfold item_get. rewrite D, C. cbn [bind arg_of]. unfold start_of, item_get. rewrite T. cbn [bind].
  set (k := [("durationSec", AInt n); ("timeRes", AInt dt); ("nSubBands", AInt nsb); ("nChannels", AInt nch); ("nMAs", AInt nma)]%string).
  destruct (init_made true Nickel k (match t with PTime _ t => Some (secs t) | _ => None end) (inject_Z n)) as (c & I); [reflexivity| | |].
  - intros x K. apply not_refused. cbn in K. cbn. repeat destruct K as [<-|K]; try destruct K; auto 20.
  - intros b r x Ia K. cbn [props In] in Ia. repeat match type of Ia with _ \/ _ => destruct Ia as [Ia|Ia] | False => destruct Ia end; injection Ia as <- <-; cbn in K; try discriminate K; injection K as <-; eexists; (split; [apply stands_int|intros [B|B]; discriminate]).
  - exists c. unfold make. rewrite I. split; [reflexivity|]. split; [destruct (init_spec _ _ _ _ _ I) as (_ & Du & _); cbn in Du; now injection Du as <-|].
    split; [apply (kept_of _ _ _ _ _ _ _ I); [cbn; auto 8|reflexivity]|]. split; [apply (kept_of _ _ _ _ _ _ _ I); [cbn; auto 8|reflexivity]|]. split; [apply (kept_of _ _ _ _ _ _ _ I); [cbn; auto 8|reflexivity]|]. split; [apply (kept_of _ _ _ _ _ _ _ I); [cbn; auto 8|reflexivity]|].
    destruct (init_spec _ _ _ _ _ I) as (_ & _ & _ & Gv & _). destruct (Gv NPolars (ints 1 4 4) ltac:(cbn; auto)) as (w & W & Gw). cbn in Gw. subst w. exact (value_get _ _ _ W).
Qed.
Theorem nickel_missing : forall ck secs pf (p : parset ck) v, dict_get String.eqb "nri_receivers"%string (p_output ck p) = Some v -> mentions "nickel" v ->
  dict_get Z.eqb 0%Z (p_anabeams ck p) = None -> from_parset secs pf Nickel p = Err EKeyError.
Proof.
  intros ck secs pf p v G M A. cbn [from_parset]. unfold nickel_from. rewrite G. assert (CS := contains_spec "nickel" v). destruct (contains_text ck "nickel" v) as [u|e]; [|elim (proj2 CS); exact M]. rewrite (proj2 CS M). cbn [bind negb]. rewrite A. reflexivity.
Qed.
(** A dump time that is not an integer is a text in the parset. *)
Theorem nickel_fraction_refuted : forall ck secs pf (p : parset ck) t v a n s nsb nch nma, dict_get String.eqb "startTime"%string (p_observation ck p) = Some t ->
  dict_get String.eqb "nri_receivers"%string (p_output ck p) = Some v -> mentions "nickel" v -> dict_get Z.eqb 0%Z (p_anabeams ck p) = Some a -> lasts a n ->
  has_text (p_output ck p) "nri_dumpTime" s -> elements (p_output ck p) "nri_subbandList" nsb ->
  dict_get String.eqb "nri_channelization"%string (p_output ck p) = Some (PInt ck nch) -> elements a "maList" nma -> from_parset secs pf Nickel p = Err ETypeError.
Proof.
  intros ck secs pf p t v a n s nsb nch nma T G M A L D S C E. cbn [from_parset]. unfold nickel_from. rewrite G. assert (CS := contains_spec "nickel" v). destruct (contains_text ck "nickel" v) as [u|e]; [|elim (proj2 CS); exact M]. rewrite (proj2 CS M). cbn [bind negb]. rewrite A. cbn [bind].
  apply duration_ok in L. rewrite L. cbn [bind]. apply elements_ok in S. rewrite S. apply elements_ok in E. rewrite E. unfold item_get. unfold has_text in D. rewrite D, C. cbn [bind arg_of]. unfold start_of, item_get. rewrite T. cbn [bind].
  unfold make, init. cbn [kw String.eqb Ascii.eqb Bool.eqb duration_of bind].
  match goal with |- context [existsb ?f ?l] => replace (existsb f l) with false by (vm_compute; reflexivity) end.
  cbn [props set_all]. match goal with |- context [kw (attr_name NSubBands) ?l] => change (kw (attr_name NSubBands) l) with (Some (AInt nsb)) end. cbn [set_attr convert bind pow2_fails]. unfold set_attr at 1. cbn [convert bind pow2_fails]. unfold check_attr at 1. cbn [c_backend assoc props attr_eqb bind].
  match goal with |- context [kw (attr_name NChannels) ?l] => change (kw (attr_name NChannels) l) with (Some (AInt nch)) end. unfold set_attr at 1. cbn [convert bind pow2_fails]. unfold check_attr at 1. cbn [c_backend assoc props attr_eqb bind].
  match goal with |- context [kw (attr_name NPolars) ?l] => change (kw (attr_name NPolars) l) with (@None arg) end. cbn iota. unfold set_attr at 1. cbn [default_arg convert bind pow2_fails]. unfold check_attr at 1. cbn [c_backend assoc props attr_eqb bind].
  match goal with |- context [kw (attr_name NMAs) ?l] => change (kw (attr_name NMAs) l) with (Some (AInt nma)) end. unfold set_attr at 1. cbn [convert bind pow2_fails]. unfold check_attr at 1. cbn [c_backend assoc props attr_eqb bind].
  reflexivity.
Qed.
