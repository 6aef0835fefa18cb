(** Files of reduced spectra: histories, failures, attributes. *)
From Coq Require Import Ascii String List Arith ZArith QArith Bool Lia Lqa Permutation Sorting.Sorted.
From Verif Require Import Base M_Nd P_Nd M_PText P_PText M_Reduced P_Reduced.
From Verif Require M_Pipeline M_Bst M_Parset.
Import ListNotations.
Open Scope nat_scope.
Open Scope list_scope.

Local Opaque beam_name.
Section Reduced.
Variable A : Type.
Variable unit_of : string -> option (option Q).
Notation args := (args A). Notation h5 := (h5 A). Notation beam := (beam A). Notation node := (node A). Notation part := (part A).
Notation store := (store A unit_of). Notation read := (read A unit_of). Notation open_beam := (open_beam A unit_of).
Notation good := (good A unit_of). Notation beam_of := (beam_of A). Notation run := (run A unit_of).

(** [mode="auto"] in any case *)
Definition auto (a : args) : Prop := M_Pipeline.lower (a_mode A a) = "auto"%string.
(** Nothing is wrong before the file is opened. *)
Definition ready (a : args) : Prop := (exists stem, a_name A a = (stem ++ ".hdf5")%string) /\ unit_of (a_unit A a) <> None /\ a_freq A a <> [].
Lemma good_ready : forall a l r k, good a l r k -> ready a.
Proof. intros a l r k G. split; [exact (g_name _ _ _ _ _ _ G)|]. rewrite (g_unit _ _ _ _ _ _ G). split; [discriminate|exact (g_freq _ _ _ _ _ _ G)]. Qed.

(** ** A beam added *)
Lemma store_ready : forall a s, ready a -> exists k f0 fs, unit_of (a_unit A a) = Some k /\ a_freq A a = f0 :: fs /\
  store a s = match open_file A (mode_of A (a_mode A a) s) s with
      | Err e => (s, Some e)
      | Ok h =>
        let '(h, e) :=
          if String.eqb (mode_of A (a_mode A a) s) "w" then
            match root_attrs A a k f0 fs with
            | (l, Some e) => (mkH5 A l None, Some e)
            | (l, None) => new_beam A a k f0 fs l []
            end
          else if String.eqb (mode_of A (a_mode A a) s) "a" then
            match h_sap A h with
            | None => (h, Some EKeyError)
            | Some bs => match get_key (beam_name (a_beam A a)) bs with
                         | Some _ => (h, Some EException)
                         | None => new_beam A a k f0 fs (h_attrs A h) bs
                         end
            end
          else (h, Some EKeyError) in
        (Some h, e)
      end.
Proof.
  intros a s ((stem & N) & U & F). unfold M_Reduced.store. rewrite N, good_hdf5. cbn [negb]. destruct (unit_of (a_unit A a)) as [k|]; [|contradiction]. destruct (a_freq A a) as [|f0 fs]; [contradiction|].
  exists k, f0, fs. repeat split.
Qed.
Lemma new_beam_of : forall a k f0 fs at_ bs h e, get_key (beam_name (a_beam A a)) bs = None -> new_beam A a k f0 fs at_ bs = (h, e) ->
  beam_of h (a_beam A a) = Some (fst (fill_beam A a k f0 fs)) /\ e = snd (fill_beam A a k f0 fs) /\ h_attrs A h = at_
  /\ forall b, b <> a_beam A a -> beam_of h b = get_key (beam_name b) bs.
Proof.
  intros a k f0 fs at_ bs h e N H. unfold new_beam in H. destruct (fill_beam A a k f0 fs) as (b, e'). injection H as <- <-. unfold P_Reduced.beam_of. cbn [h_sap h_attrs fst snd].
  split; [rewrite get_app, N, String.eqb_refl; reflexivity|]. split; [reflexivity|]. split; [reflexivity|]. intros c C. rewrite get_app.
  assert (E : String.eqb (beam_name c) (beam_name (a_beam A a)) = false) by (apply String.eqb_neq; intro E; apply C; now apply beam_name_inj). rewrite E. now destruct (get_key (beam_name c) bs).
Qed.
Lemma store_stored : forall a l r k s h, good a l r k -> store a s = (Some h, None) -> exists b, beam_of h (a_beam A a) = Some b /\ stored A a l r k b.
Proof.
  intros a l r k s h G H. destruct (store_ready a s (good_ready _ _ _ _ G)) as (k' & f0 & fs & U & F & E). rewrite (g_unit _ _ _ _ _ _ G) in U. injection U as <-. rewrite E in H. clear E.
  destruct (fill_good A unit_of a l r k G) as (f0' & fs' & F' & at_ & FB). rewrite F in F'. injection F' as <- <-.
  assert (X : forall at' bs h e, get_key (beam_name (a_beam A a)) bs = None -> new_beam A a (Some k) f0 fs at' bs = (h, e) -> exists b, beam_of h (a_beam A a) = Some b /\ stored A a l r k b).
  { intros at' bs h' e' N B. destruct (new_beam_of _ _ _ _ _ _ _ _ N B) as (BO & _). rewrite FB in BO. eexists. split; [exact BO|]. now split. }
  destruct (open_file A _ s) as [h0|]; [|discriminate]. destruct (String.eqb _ "w").
  - destruct (root_attrs A a (Some k) f0 fs) as (at', [e|]); [discriminate|]. destruct (new_beam A a (Some k) f0 fs at' []) as (h', e') eqn:NB. injection H as <- _. now apply (X at' [] h' e').
  - destruct (String.eqb _ "a"); [|discriminate]. destruct (h_sap A h0) as [bs|]; [|discriminate]. destruct (get_key _ bs) eqn:GB; [discriminate|]. destruct (new_beam A a (Some k) f0 fs _ bs) as (h', e') eqn:NB. injection H as <- _. now apply (X (h_attrs A h0) bs h' e').
Qed.
(** ** What is there stays, unless the file is written anew *)
Lemma mode_w : forall a h, mode_of A (a_mode A a) (Some h) = "w"%string -> a_mode A a = "w"%string.
Proof. intros a h H. unfold mode_of in H. destruct (String.eqb _ "auto"); [discriminate|exact H]. Qed.
Lemma store_frame : forall a h, a_mode A a <> "w"%string -> exists h', fst (store a (Some h)) = Some h' /\ h_attrs A h' = h_attrs A h /\ forall b m, beam_of h b = Some m -> beam_of h' b = Some m.
Proof.
  intros a h N. unfold M_Reduced.store. destruct (negb _); [exists h; now repeat split|]. destruct (unit_of (a_unit A a)) as [k|]; [|exists h; now repeat split].
  destruct (a_freq A a) as [|f0 fs]; [exists h; now repeat split|]. set (m := mode_of A (a_mode A a) (Some h)).
  assert (W : String.eqb m "w" = false) by (apply String.eqb_neq; intro E; apply mode_w in E; contradiction). unfold open_file. rewrite W.
  destruct (String.eqb m "a") eqn:EA.
  - destruct (h_sap A h) as [bs|] eqn:S; [|exists h; now repeat split]. destruct (get_key (beam_name (a_beam A a)) bs) eqn:GB; [exists h; now repeat split|].
    destruct (new_beam A a k f0 fs (h_attrs A h) bs) as (h', e') eqn:NB. exists h'. split; [reflexivity|]. destruct (new_beam_of _ _ _ _ _ _ _ _ GB NB) as (_ & _ & AT & O). split; [exact AT|].
    intros b m' B. unfold P_Reduced.beam_of in B. rewrite S in B. rewrite O; [exact B|]. intros ->. congruence.
  - destruct (String.eqb m "r" || String.eqb m "r+"); [exists h; now repeat split|]. destruct (String.eqb m "x" || String.eqb m "w-"); exists h; now repeat split.
Qed.
Lemma run_frame : forall ops h, Forall (fun o => a_mode A o <> "w"%string) ops -> exists h', run ops (Some h) = Some h' /\ h_attrs A h' = h_attrs A h /\ forall b m, beam_of h b = Some m -> beam_of h' b = Some m.
Proof.
  induction ops as [|o ops IH]; intros h F; [exists h; now repeat split|]. inversion F; subst. destruct (store_frame o h H1) as (h1 & E1 & A1 & B1). destruct (IH h1 H2) as (h2 & E2 & A2 & B2).
  exists h2. unfold P_Reduced.run. cbn [fold_left]. rewrite E1. split; [exact E2|]. split; [congruence|]. intros b m B. apply B2. now apply B1.
Qed.
Theorem round_trip : forall a l r k s h ops, good a l r k -> store a s = (Some h, None) -> Forall (fun o => a_mode A o <> "w"%string) ops ->
  exists h' z, run ops (Some h) = Some h' /\ open_beam h' [0%Z; a_beam A a] = Ok z /\ delivers A a l r z.
Proof.
  intros a l r k s h ops G H F. destruct (store_stored a l r k s h G H) as (b & B & ST). destruct (run_frame ops h F) as (h' & R & _ & FR).
  destruct (open_stored A unit_of a l r k h' b G (FR _ _ B) ST) as (z & O & D). now exists h', z.
Qed.
Theorem accepted : forall a l r k s, good a l r k ->
  (snd (store a s) = None <-> a_mode A a = "w"%string \/ (auto a /\ s = None) \/ ((auto a \/ a_mode A a = "a"%string) /\ exists h bs, s = Some h /\ h_sap A h = Some bs /\ beam_of h (a_beam A a) = None)).
Proof.
  intros a l r k s G. destruct (store_ready a s (good_ready _ _ _ _ G)) as (k' & f0 & fs & U & F & E). rewrite (g_unit _ _ _ _ _ _ G) in U. injection U as <-. rewrite E. clear E.
  destruct (fill_good A unit_of a l r k G) as (f0' & fs' & F' & at_ & FB). rewrite F in F'. injection F' as <- <-.
  assert (X : forall at' bs, snd (new_beam A a (Some k) f0 fs at' bs) = None) by (intros; unfold new_beam; now rewrite FB).
  assert (RA : exists at', root_attrs A a (Some k) f0 fs = (at', None)).
  { unfold root_attrs. destruct (a_time A a) eqn:T; [destruct (g_time _ _ _ _ _ _ G T)|]. eexists. reflexivity. }
  destruct RA as (at' & RA). unfold auto. unfold mode_of. destruct (String.eqb (M_Pipeline.lower (a_mode A a)) "auto") eqn:AU.
  - apply String.eqb_eq in AU. assert (NW : a_mode A a <> "w"%string) by (intro W; rewrite W in AU; discriminate). destruct s as [h|]; cbn.
    + destruct (h_sap A h) as [bs|] eqn:S.
      * unfold P_Reduced.beam_of. destruct (get_key (beam_name (a_beam A a)) bs) eqn:GB.
        -- split; [cbn; discriminate|]. intros [W|[(_ & W)|(_ & h' & bs' & E & S' & B)]]; [contradiction|discriminate|]. injection E as <-. rewrite S in B. congruence.
        -- specialize (X (h_attrs A h) bs). destruct (new_beam _ _ _ _ _ _ _) as (h', e'). cbn in X |- *. split; [|intros; exact X]. intros _. right. right. split; [now left|]. exists h, bs. rewrite S. now repeat split.
      * split; [cbn; discriminate|]. intros [W|[(_ & W)|(_ & h' & bs' & E & S' & B)]]; [contradiction|discriminate|]. congruence.
    + rewrite RA. specialize (X at' []). destruct (new_beam _ _ _ _ _ _ _) as (h', e'). cbn in X |- *. split; [|intros; exact X]. intros _. right. left. now split.
  - apply String.eqb_neq in AU. destruct (String.eqb (a_mode A a) "w") eqn:W.
    + apply String.eqb_eq in W. unfold open_file. rewrite W. cbn. rewrite RA. specialize (X at' []). destruct (new_beam _ _ _ _ _ _ _) as (h', e'). cbn in X |- *. split; [now left|intros; exact X].
    + apply String.eqb_neq in W. destruct (String.eqb (a_mode A a) "a") eqn:EA.
      * apply String.eqb_eq in EA. unfold open_file. rewrite EA in *. cbn. destruct s as [h|].
        -- destruct (h_sap A h) as [bs|] eqn:S.
           ++ unfold P_Reduced.beam_of. destruct (get_key (beam_name (a_beam A a)) bs) eqn:GB.
              ** split; [cbn; discriminate|]. intros [E|[(_ & E)|(_ & h' & bs' & E & S' & B)]]; [discriminate|discriminate|]. injection E as <-. rewrite S in B. congruence.
              ** specialize (X (h_attrs A h) bs). destruct (new_beam _ _ _ _ _ _ _) as (h', e'). cbn in X |- *. split; [|intros; exact X]. intros _. right. right. split; [now right|]. exists h, bs. rewrite S. now repeat split.
           ++ split; [cbn; discriminate|]. intros [E|[(_ & E)|(_ & h' & bs' & E & S' & B)]]; [discriminate|discriminate|congruence].
        -- cbn. split; [cbn; discriminate|]. intros [E|[(E & _)|(_ & h' & bs' & E & _)]]; [discriminate| |discriminate]. discriminate.
      * apply String.eqb_neq in EA. split.
        -- destruct (open_file A (a_mode A a) s) as [h|]; cbn; discriminate.
        -- intros [E|[(E & _)|([E|E] & _)]]; contradiction.
Qed.
(** ** One polarization *)
Theorem one_key : forall a l r k s h ops, good a l r k -> store a s = (Some h, None) -> Forall (fun o => a_mode A o <> "w"%string) ops ->
  exists h', run ops (Some h) = Some h' /\
  (forall n p, nth_error (names l r) p = Some n -> exists f d, read h' (Some n) 0 (a_beam A a) = Ok (a_time A a, f, [n], d) /\ Forall2 Qeq f (a_freq A a) /\
     sh d = [length (a_time A a); length (a_freq A a); 1] /\ forall i j, get d [i; j; 0] = get (a_data A a) (i :: j :: unravel r p)) /\
  (forall n, ~ In n (names l r) -> read h' (Some n) 0 (a_beam A a) = Err EKeyError).
Proof.
  intros a l r k s h ops G H F. destruct (store_stored a l r k s h G H) as (b & B & ST). destruct (run_frame ops h F) as (h' & R & _ & FR). exists h'. split; [exact R|]. specialize (FR _ _ B). split.
  - intros n p NP. destruct (read_stored A unit_of a l r k h' b [n] (Some n) G FR ST) as (f & d & E & FF & SD & C); [discriminate|intros x [<-|[]]; now apply nth_error_In in NP|reflexivity|].
    exists f, d. split; [exact E|]. split; [exact FF|]. split; [exact SD|]. intros i j. now apply (C i j 0 p n).
  - intros n N. unfold M_Reduced.read. rewrite sap_name_0. cbn [Z.eqb]. unfold P_Reduced.beam_of in FR. destruct (h_sap A h') as [bs|]; [|discriminate]. rewrite FR. unfold available. destruct ST as (SC & SB). rewrite SC, SB. cbn [bind].
    rewrite (sets_names A a l r (g_enough _ _ _ _ _ _ G)). destruct (existsb (String.eqb n) (sort (names l r))) eqn:X; [|reflexivity]. exfalso. apply N. apply existsb_exists in X as (m & M & E). apply String.eqb_eq in E. subst. exact (Permutation_in _ (sort_perm _) M).
Qed.
(** The order in which the polarizations were given is lost. *)
Theorem order_refuted : forall a l r k s h z, good a l r k -> store a s = (Some h, None) -> open_beam h [0%Z; a_beam A a] = Ok z -> ~ Sorted (fun x y => String.leb x y = true) (names l r) -> z_pol A z <> names l r.
Proof.
  intros a l r k s h z G H O N E. destruct (round_trip a l r k s h [] G H) as (h' & z' & R & O' & D); [constructor|]. injection R as <-. rewrite O in O'. injection O' as <-. apply N. rewrite <- E. exact (v_sorted _ _ _ _ _ D).
Qed.
(** Other beams and analog beams *)
Theorem read_missing : forall h key sap b, (sap <> 0%Z \/ beam_of h b = None) -> read h key sap b = Err EKeyError.
Proof.
  intros h key sap b H. unfold M_Reduced.read. rewrite sap_name_0. destruct (Z.eqb_spec sap 0) as [E|E]; [|reflexivity]. destruct H as [H|H]; [contradiction|]. unfold P_Reduced.beam_of in H. destruct (h_sap A h) as [bs|]; [|reflexivity]. now rewrite H.
Qed.

(** ** Failures *)
Theorem overwritten : forall a s, ready a -> a_mode A a = "w"%string -> exists h, fst (store a s) = Some h /\ forall b, b <> a_beam A a -> beam_of h b = None.
Proof.
  intros a s R W. destruct (store_ready a s R) as (k & f0 & fs & _ & _ & E). rewrite E. unfold mode_of. rewrite W. cbn. destruct (root_attrs A a k f0 fs) as (at', [e|]).
  - eexists. split; [reflexivity|]. reflexivity.
  - destruct (new_beam A a k f0 fs at' []) as (h', e') eqn:NB. exists h'. split; [reflexivity|]. destruct (new_beam_of a k f0 fs at' [] h' e' eq_refl NB) as (_ & _ & _ & O). intros b B. now rewrite O.
Qed.
Theorem append_nothing : forall a, ready a -> a_mode A a = "a"%string -> store a None = (Some (empty_file A), Some EKeyError).
Proof. intros a R W. destruct (store_ready a None R) as (k & f0 & fs & _ & _ & E). rewrite E. unfold mode_of. rewrite W. reflexivity. Qed.
Theorem stuck : forall ops h, h_sap A h = None -> Forall (fun o => a_mode A o <> "w"%string) ops -> run ops (Some h) = Some h /\ forall o, In o ops -> snd (store o (Some h)) <> None.
Proof.
  assert (X : forall o h, h_sap A h = None -> a_mode A o <> "w"%string -> fst (store o (Some h)) = Some h /\ snd (store o (Some h)) <> None).
  { intros o h S N. unfold M_Reduced.store. destruct (negb _); [split; [reflexivity|discriminate]|]. destruct (unit_of (a_unit A o)) as [k|]; [|split; [reflexivity|discriminate]]. destruct (a_freq A o) as [|f0 fs]; [split; [reflexivity|discriminate]|].
    set (m := mode_of A (a_mode A o) (Some h)). assert (W : String.eqb m "w" = false) by (apply String.eqb_neq; intro E; apply mode_w in E; contradiction). unfold open_file. rewrite W.
    destruct (String.eqb m "a"); [rewrite S; split; [reflexivity|discriminate]|]. destruct (String.eqb m "r" || String.eqb m "r+"); [split; [reflexivity|discriminate]|]. destruct (String.eqb m "x" || String.eqb m "w-"); split; (reflexivity || discriminate). }
  intros ops h S F. induction ops as [|o ops IH]; [split; [reflexivity|contradiction]|]. inversion F; subst. destruct (X o h S H1) as (X1 & X2). destruct (IH H2) as (I1 & I2). split; [unfold P_Reduced.run; cbn [fold_left]; rewrite X1; exact I1|]. intros o' [<-|I]; [exact X2|now apply I2].
Qed.
(** Too few names: the beam stays in the file, incomplete, and cannot be stored again. *)
Theorem blocked : forall a h m, ready a -> (auto a \/ a_mode A a = "a"%string) -> beam_of h (a_beam A a) = Some m -> store a (Some h) = (Some h, Some EException).
Proof.
  intros a h m R M B. destruct (store_ready a (Some h) R) as (k & f0 & fs & _ & _ & E). rewrite E. assert (MO : mode_of A (a_mode A a) (Some h) = "a"%string).
  { unfold mode_of. destruct (String.eqb _ "auto") eqn:AU; [reflexivity|]. destruct M as [M|M]; [|exact M]. unfold auto in M. rewrite M in AU. discriminate. }
  rewrite MO. cbn. unfold P_Reduced.beam_of in B. destruct (h_sap A h) as [bs|]; [|discriminate]. now rewrite B.
Qed.
Lemma write_short : forall d r l ks b b', write_sets A d r (PList l) ks b = (b', None) -> Forall (fun k => k < length l) ks.
Proof.
  intros d r l ks. induction ks as [|k ks IH]; intros b b' H; [constructor|]. cbn [write_sets] in H. destruct (pol_at (PList l) k) as [n|] eqn:P; [|discriminate].
  cbn [bind] in H. destruct (create_dataset A (M_Bst.upper n) (plane A d r k) b) as [b1|]; [|discriminate]. constructor; [|now apply (IH b1 b')]. cbn in P. destruct (nth_error l k) eqn:N; [|discriminate]. apply nth_error_Some. congruence.
Qed.
Theorem too_few_refuted : forall a l nt nf r, ready a -> a_mode A a = "w"%string \/ auto a -> a_pols A a = PList l -> sh (a_data A a) = nt :: nf :: r -> length l < size r -> a_time A a <> [] -> (exists k, unit_of (a_unit A a) = Some (Some k)) ->
  exists h e m, store a None = (Some h, Some e) /\ beam_of h (a_beam A a) = Some m /\
    forall a', ready a' -> (auto a' \/ a_mode A a' = "a"%string) -> a_beam A a' = a_beam A a -> store a' (Some h) = (Some h, Some EException).
Proof.
  intros a l nt nf r R M P S L T (k & U). destruct (store_ready a None R) as (k' & f0 & fs & U' & F & E). rewrite U in U'. injection U' as <-.
  assert (MO : mode_of A (a_mode A a) None = "w"%string) by (unfold mode_of; destruct M as [->|M]; [reflexivity|unfold auto in M; rewrite M; reflexivity]). rewrite MO in E. cbn in E.
  destruct (root_attrs A a (Some k) f0 fs) as (at', e0) eqn:RA. assert (e0 = None) as ->. { unfold root_attrs in RA. destruct (a_time A a); [contradiction|]. now injection RA as _ <-. }
  destruct (new_beam A a (Some k) f0 fs at' []) as (h', e') eqn:NB. destruct (new_beam_of a (Some k) f0 fs at' [] h' e' eq_refl NB) as (BO & EE & _ & _).
  assert (X : e' <> None).
  { rewrite EE. unfold fill_beam. destruct (a_time A a); [discriminate|]. unfold flatten. rewrite S. destruct (nt * nf =? 0); [discriminate|]. rewrite P. intro W.
    match type of W with snd ?t = None => destruct t as (b', e'') eqn:WS end. cbn in W. subst e''. apply write_short in WS. rewrite Forall_forall in WS. specialize (WS (length l)). assert (In (length l) (seq 0 (size r))) by (apply in_seq; lia). specialize (WS H). lia. }
  destruct e' as [e|]; [|contradiction]. exists h', e, (fst (fill_beam A a (Some k) f0 fs)). split; [exact E|]. split; [exact BO|]. intros a' R' M' B'. apply (blocked a' h' (fst (fill_beam A a (Some k) f0 fs)) R' M'). now rewrite B'.
Qed.

(** ** Attributes of the file *)
Lemma fold_min : forall l x, (In (qmin x l) (x :: l)) /\ forall y, In y (x :: l) -> (qmin x l <= y)%Q.
Proof.
  induction l as [|z l IH]; intro x; [split; [now left|intros y [<-|[]]; apply Qle_refl]|]. unfold qmin. cbn [fold_left]. fold (qmin (if Qle_bool x z then x else z) l). destruct (IH (if Qle_bool x z then x else z)) as (I & M). destruct (Qle_bool x z) eqn:E.
  - apply Qle_bool_iff in E. split; [destruct I as [I|I]; [now left|now right; right]|]. intros y [<-|[<-|Y]]; [apply M; now left|apply (Qle_trans _ x); [apply M; now left|exact E]|apply M; now right].
  - assert (E' : (z <= x)%Q) by (destruct (Qlt_le_dec x z) as [X|X]; [apply Qlt_le_weak, Qle_bool_iff in X; congruence|exact X]). split; [destruct I as [I|I]; [now right; left|now right; right]|]. intros y [<-|[<-|Y]]; [apply (Qle_trans _ z); [apply M; now left|exact E']|apply M; now left|apply M; now right].
Qed.
Lemma fold_max : forall l x, (In (qmax x l) (x :: l)) /\ forall y, In y (x :: l) -> (y <= qmax x l)%Q.
Proof.
  induction l as [|z l IH]; intro x; [split; [now left|intros y [<-|[]]; apply Qle_refl]|]. unfold qmax. cbn [fold_left]. fold (qmax (if Qle_bool z x then x else z) l). destruct (IH (if Qle_bool z x then x else z)) as (I & M). destruct (Qle_bool z x) eqn:E.
  - apply Qle_bool_iff in E. split; [destruct I as [I|I]; [now left|now right; right]|]. intros y [<-|[<-|Y]]; [apply M; now left|apply (Qle_trans _ x); [exact E|apply M; now left]|apply M; now right].
  - assert (E' : (x <= z)%Q) by (destruct (Qlt_le_dec z x) as [X|X]; [apply Qlt_le_weak, Qle_bool_iff in X; congruence|exact X]). split; [destruct I as [I|I]; [now right; left|now right; right]|]. intros y [<-|[<-|Y]]; [apply (Qle_trans _ z); [exact E'|apply M; now left]|apply M; now left|apply M; now right].
Qed.
Definition reserved : list string :=
  ["FILENAME"; "SOFTWARE_MAINTAINER"; "SOFTWARE_NAME"; "TOTAL_INTEGRATION_TIME"; "OBSERVATION_END_MJD"; "OBSERVATION_START_MJD"; "OBSERVATION_FREQUENCY_UNIT"; "OBSERVATION_FREQUENCY_CENTER"; "OBSERVATION_FREQUENCY_MAX"; "OBSERVATION_FREQUENCY_MIN"]%string.
(** The attributes of a file written are those of its first beam, whatever is appended. *)
Theorem root_kept : forall a l r k s h ops, good a l r k -> a_mode A a = "w"%string \/ (auto a /\ s = None) -> store a s = (Some h, None) -> Forall (fun o => a_mode A o <> "w"%string) ops ->
  exists h' t0 ts lo hi, run ops (Some h) = Some h' /\ a_time A a = t0 :: ts /\
    In lo (a_freq A a) /\ In hi (a_freq A a) /\ (forall f, In f (a_freq A a) -> (lo <= f <= hi)%Q) /\
    let at_ n := get_key n (h_attrs A h') in
    at_ "OBSERVATION_FREQUENCY_MIN"%string = Some (ANum (lo / k)) /\ at_ "OBSERVATION_FREQUENCY_MAX"%string = Some (ANum (hi / k)) /\
    at_ "OBSERVATION_FREQUENCY_CENTER"%string = Some (ANum ((hi + lo) / 2 / k)) /\ at_ "OBSERVATION_FREQUENCY_UNIT"%string = Some (AText (a_unit A a)) /\
    at_ "OBSERVATION_START_MJD"%string = Some (ANum (t0 - (4800001 # 2))) /\ at_ "OBSERVATION_END_MJD"%string = Some (ANum (last ts t0 - (4800001 # 2))) /\
    at_ "TOTAL_INTEGRATION_TIME"%string = Some (ANum ((last ts t0 - t0) * 86400)) /\ at_ "FILENAME"%string = Some (AText (a_name A a)) /\
    forall n, ~ In n reserved -> at_ n = get_key n (a_meta A a).
Proof.
  intros a l r k s h ops G M H F. destruct (run_frame ops h F) as (h' & R & AT & _). destruct (store_ready a s (good_ready _ _ _ _ G)) as (k' & f0 & fs & U & FQ & E). rewrite (g_unit _ _ _ _ _ _ G) in U. injection U as <-.
  assert (MO : mode_of A (a_mode A a) s = "w"%string) by (unfold mode_of; destruct M as [->|(M & ->)]; [reflexivity|unfold auto in M; rewrite M; reflexivity]). rewrite E, MO in H. cbn in H. clear E.
  destruct (root_attrs A a (Some k) f0 fs) as (at', e0) eqn:RA. unfold root_attrs in RA. destruct (a_time A a) as [|t0 ts] eqn:T; [destruct (g_time _ _ _ _ _ _ G T)|]. injection RA as RA <-.
  destruct (new_beam A a (Some k) f0 fs at' []) as (h1, e1) eqn:NB. injection H as -> ->. destruct (new_beam_of a (Some k) f0 fs at' [] h None eq_refl NB) as (_ & _ & AT' & _). rewrite AT' in AT. rewrite <- RA in AT.
  destruct (fold_min fs f0) as (I1 & M1). destruct (fold_max fs f0) as (I2 & M2). exists h', t0, ts, (qmin f0 fs), (qmax f0 fs). rewrite FQ. split; [exact R|]. split; [reflexivity|]. split; [exact I1|]. split; [exact I2|]. split; [intros f FF; split; [now apply M1|now apply M2]|].
  cbn zeta. rewrite AT. do 8 (split; [rewrite !get_set; reflexivity|]).
  intros n N. rewrite !get_set.
  repeat match goal with |- context [String.eqb n ?y] => let E := fresh in assert (E : String.eqb n y = false) by (apply String.eqb_neq; intros ->; apply N; cbn; tauto); rewrite E; clear E end. reflexivity.
Qed.
End Reduced.
