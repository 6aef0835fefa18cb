(** Durations of the statistics, sets of observations. *)
From Coq Require Import Ascii String List Arith ZArith QArith Qround Qabs Bool Lia Lqa Permutation Sorted.
From Verif Require Import Base M_Polar M_Dedisperse M_Pipeline M_PText M_POptions M_Parset P_PText M_Config P_Config P_Config2 P_Config3 P_Config4 P_Config5 P_Config6.
Import ListNotations.
Open Scope list_scope.

(** ** Specification *)
(** The beam [db] starts at the integral second [s] and lasts [n] seconds. *)
Definition window {ck} (secs : date ck -> Q) (db : property ck) (s n : Z) : Prop :=
  lasts db n /\ exists t, dict_get String.eqb "startTime"%string db = Some (PTime ck t) /\ secs t == inject_Z s.
Definition covered {ck} (secs : date ck -> Q) (beams : list (property ck)) (z : Z) : Prop :=
  exists db s n, In db beams /\ window secs db s n /\ (s <= z < s + n)%Z.

(** ** The union of the times *)
Definition rep (l : list Q) (zs : list Z) : Prop := NoDup zs /\ Forall2 (fun q z => q == inject_Z z) l zs.
Lemma rep_exists l zs t z : Forall2 (fun q z => q == inject_Z z) l zs -> t == inject_Z z -> (existsb (Qeq_bool t) l = true <-> In z zs).
Proof.
  induction 1 as [|q y l zs E F IH]; intro T; cbn; [split; [discriminate|tauto]|]. rewrite orb_true_iff, (IH T), Qeq_bool_iff, T, E. rewrite inject_Z_injective. split; intros [A|A]; auto.
Qed.
Lemma insert_rep l zs t z : rep l zs -> t == inject_Z z -> exists zs', rep (insert_time l t) zs' /\ forall y, In y zs' <-> In y zs \/ y = z.
Proof.
  intros [N F] T. unfold insert_time. assert (X := rep_exists l zs t z F T). destruct (existsb (Qeq_bool t) l).
  - exists zs. split; [split; assumption|]. intro y. split; [auto|]. intros [I| ->]; [exact I|now apply X].
  - exists (zs ++ [z]). assert (NI : ~ In z zs) by (intro I; apply X in I; discriminate). split; [split|].
    + apply NoDup_rev in N. rewrite <- (rev_involutive zs). change (NoDup (rev (z :: rev zs))). apply NoDup_rev. constructor; [now rewrite <- in_rev|exact N].
    + apply Forall2_app; [exact F|]. constructor; [exact T|constructor].
    + intro y. rewrite in_app_iff. cbn. intuition.
Qed.
Lemma inserts_rep : forall ts l zs (f : nat -> Z), rep l zs -> exists zs', rep (fold_left insert_time (map (fun i => inject_Z (f i)) ts) l) zs' /\ forall y, In y zs' <-> In y zs \/ exists i, In i ts /\ y = f i.
Proof.
  induction ts as [|i ts IH]; intros l zs f R; cbn [map fold_left]; [exists zs; split; [exact R|]; intro y; split; [auto|intros [I|(i & [] & _)]; exact I]|].
  destruct (insert_rep l zs (inject_Z (f i)) (f i) R ltac:(reflexivity)) as (zs1 & R1 & I1). destruct (IH _ zs1 f R1) as (zs' & R' & I'). exists zs'. split; [exact R'|]. intro y. rewrite I', I1. split.
  - intros [[A| ->]|(j & J & ->)]; [auto|right; exists i; split; [now left|reflexivity]|right; exists j; split; [now right|reflexivity]].
  - intros [A|(j & [<-|J] & ->)]; [auto|auto|right; eauto].
Qed.
Lemma fold_inserts_eq : forall ts ts' l l', Forall2 Qeq ts ts' -> Forall2 Qeq l l' -> Forall2 Qeq (fold_left insert_time ts l) (fold_left insert_time ts' l').
Proof.
  intros ts ts' l l' F. revert l l'. induction F as [|t t' ts ts' E F IH]; intros l l' L; cbn [fold_left]; [exact L|]. apply IH. unfold insert_time.
  assert (X : existsb (Qeq_bool t) l = existsb (Qeq_bool t') l'). { clear -E L. induction L as [|a b l l' A L IH]; cbn; [reflexivity|]. rewrite IH. f_equal. apply eq_true_iff_eq. rewrite !Qeq_bool_iff, E, A. reflexivity. }
  rewrite X. destruct (existsb _ l'); [exact L|]. apply Forall2_app; [exact L|]. constructor; [exact E|constructor].
Qed.
Lemma bst_times_spec ck (secs : date ck -> Q) : forall beams l zs, rep l zs -> Forall (fun db => exists s n, window secs db s n) beams ->
  exists l' zs', bst_times ck secs l beams = Ok l' /\ rep l' zs' /\ forall z, In z zs' <-> In z zs \/ covered secs beams z.
Proof.
  induction beams as [|db beams IH]; intros l zs R F; cbn [bst_times].
  - exists l, zs. split; [reflexivity|]. split; [exact R|]. intro z. split; [auto|]. intros [A|(db & _ & _ & [] & _)]; exact A.
  - inversion F as [|? ? (s & n & D & t & G & S) F']; subst. apply duration_ok in D. rewrite D. cbn [bind]. unfold item_get. rewrite G. cbn [bind].
    destruct (inserts_rep (seq 0 (Z.to_nat n)) l zs (fun i => s + Z.of_nat i)%Z R) as (zs1 & R1 & I1).
    set (new := fold_left insert_time (map (fun i => secs t + inject_Z (Z.of_nat i)) (seq 0 (Z.to_nat n))) l).
    assert (R1' : rep new zs1).
    { destruct R1 as [N1 F1]. split; [exact N1|]. assert (Q : Forall2 Qeq new (fold_left insert_time (map (fun i => inject_Z (s + Z.of_nat i)) (seq 0 (Z.to_nat n))) l)).
      { apply fold_inserts_eq; [|clear; induction l; constructor; [reflexivity|assumption]]. generalize (seq 0 (Z.to_nat n)). intro q. induction q as [|i q IHq]; constructor; [rewrite inject_Z_plus, S; reflexivity|exact IHq]. }
      revert F1 Q. generalize (fold_left insert_time (map (fun i => inject_Z (s + Z.of_nat i)) (seq 0 (Z.to_nat n))) l). generalize new. clear. intros a b F Q. revert a Q. induction F as [|x z b zs E F IH]; intros a Q; inversion Q; subst; constructor; [etransitivity; eassumption|now apply IH]. }
    destruct (IH new zs1 R1' F') as (l' & zs' & B & R' & I'). exists l', zs'. split; [exact B|]. split; [exact R'|]. intro z. rewrite I', I1.
    assert (W : forall s' n', window secs db s' n' <-> s' = s /\ n' = n).
    { intros s' n'. split; [|intros [-> ->]; split; [now apply duration_ok|exists t; auto]]. intros [D' (t' & G' & S')]. rewrite G in G'. injection G' as <-. apply duration_ok in D'. rewrite D in D'. injection D' as <-. split; [|reflexivity]. rewrite S in S'. apply inject_Z_injective. symmetry. exact S'. }
    split.
    + intros [[A|(i & Ii & ->)]|(db' & s' & n' & Id & Wd & B')]; [auto| |right; exists db', s', n'; split; [now right|auto]]. apply in_seq in Ii. right. exists db, s, n. split; [now left|]. split; [now apply W|lia].
    + intros [A|(db' & s' & n' & [<-|Id] & Wd & B')]; [auto| |right; exists db', s', n'; auto]. apply W in Wd. destruct Wd as [-> ->]. left. right. exists (Z.to_nat (z - s)). split; [apply in_seq; lia|lia].
Qed.
Theorem bst_duration : forall ck secs pf (p : parset ck) t, dict_get String.eqb "startTime"%string (p_observation ck p) = Some t ->
  Forall (fun db => exists s n, window secs db s n) (map snd (p_digibeams ck p)) ->
  exists c l, from_parset secs pf Bst p = Ok (One c) /\ NoDup l /\ (forall z, In z l <-> covered secs (map snd (p_digibeams ck p)) z) /\ c_duration c = inject_Z (Z.of_nat (length l)).
Proof.
  intros ck secs pf p t T F. destruct (bst_times_spec ck secs (map snd (p_digibeams ck p)) [] [] ltac:(split; constructor) F) as (l' & zs & B & [N R] & I).
  cbn [from_parset]. unfold bst_from. rewrite B. cbn [bind]. unfold start_of, item_get. rewrite T. cbn [bind].
  set (k := [("durationSec"%string, AInt (Z.of_nat (length l')))]). destruct (init_made true Bst k (match t with PTime _ t => Some (secs t) | _ => None end) (inject_Z (Z.of_nat (length l')))) as (c & C); [reflexivity| | |].
  - intros x K. apply not_refused. cbn in K. cbn. repeat destruct K as [<-|K]; try destruct K; auto 20.
  - intros b r x Ia K. cbn [props In] in Ia. repeat match type of Ia with _ \/ _ => destruct Ia as [Ia|Ia] | False => destruct Ia end; injection Ia as <- <-; cbn in K; discriminate K.
  - exists c, zs. unfold make. rewrite C. split; [reflexivity|]. split; [exact N|]. split; [intro z; rewrite I; split; [intros [[]|A]; exact A|auto]|].
    destruct (init_spec _ _ _ _ _ C) as (_ & D & _). cbn in D. injection D as <-. assert (L : length l' = length zs) by (clear -R; induction R; cbn; congruence). now rewrite L.
Qed.
(** ** Sums *)
Lemma receivers_add o o' b : receivers (obs_add o o') b = receivers o b ++ receivers o' b.
Proof. destruct b; reflexivity. Qed.
Theorem obs_monoid : forall a b c k, receivers (obs_add obs_empty a) k = receivers a k /\ receivers (obs_add a obs_empty) k = receivers a k /\ receivers (obs_add (obs_add a b) c) k = receivers (obs_add a (obs_add b c)) k.
Proof. intros a b c k. rewrite !receivers_add. assert (E : receivers obs_empty k = []) by (destruct k; reflexivity). rewrite E, app_nil_r, app_assoc. auto. Qed.
Lemma adds_app l l' s t : adds_up l s -> adds_up l' t -> adds_up (l ++ l') (s + t).
Proof. induction 1 as [|v s l u A IH E]; intro B; cbn [app]. { inversion B; subst; [constructor|]. econstructor; [eassumption|]. rewrite H0. ring. } econstructor; [exact (IH B)|]. rewrite E. ring. Qed.
Theorem obs_volume_add : forall a b k s t, adds_up (map receiver_volume (receivers a k)) s -> adds_up (map receiver_volume (receivers b k)) t ->
  exists v, obs_volume (obs_add a b) k = Some v /\ v == s + t.
Proof. intros a b k s t A B. unfold obs_volume. rewrite receivers_add, map_app. apply adds_sum. now apply adds_app. Qed.
Lemma obs_all_spec ck (secs : date ck -> Q) pf p : forall l o, NoDup l -> obs_all secs pf p l = Ok o -> forall b, (In b l -> exists r, from_parset secs pf b p = Ok r /\ receivers o b = [r]) /\ (~ In b l -> receivers o b = []).
Proof.
  assert (BE : forall a b, backend_eqb a b = true <-> a = b) by (intros [] []; cbn; split; intro; congruence).
  induction l as [|a l IH]; intros o N H b; cbn [obs_all] in H.
  - injection H as <-. split; [intros []|reflexivity].
  - inversion N as [|? ? NI N']; subst. apply bind_ok in H. destruct H as (r & R & H). apply bind_ok in H. destruct H as (o' & O & H). injection H as <-. unfold receivers. cbn [find fst]. destruct (backend_eqb a b) eqn:E.
    + apply BE in E. subst b. cbn [snd]. split; [intros _; eauto|]. intro X. elim X. now left.
    + assert (NE : a <> b) by (intro X; apply BE in X; congruence). destruct (IH o' N' O b) as [A B]. split; [intros [X|X]; [contradiction|now apply A]|]. intro X. apply B. intro Y. apply X. now right.
Qed.
Theorem obs_one : forall ck (secs : date ck -> Q) pf p o b, obs_from secs pf p = Ok o -> exists r, from_parset secs pf b p = Ok r /\ receivers o b = [r].
Proof. intros ck secs pf p o b H. apply (obs_all_spec ck secs pf p backends o); [repeat (constructor; [cbn; intuition discriminate|]); constructor|exact H|destruct b; cbn; auto 8]. Qed.
Lemma obs_list_spec ck (secs : date ck -> Q) pf : forall l t o, obs_from_list secs pf t l = Ok o -> exists os, Forall2 (fun p x => obs_from secs pf p = Ok x) l os /\ forall b, receivers o b = receivers t b ++ flat_map (fun x => receivers x b) os.
Proof.
  induction l as [|p l IH]; intros t o H; cbn [obs_from_list] in H.
  - injection H as <-. exists []. split; [constructor|]. intro b. cbn. now rewrite app_nil_r.
  - apply bind_ok in H. destruct H as (x & X & H). destruct (IH _ _ H) as (os & F & E). exists (x :: os). split; [constructor; assumption|]. intro b. rewrite E, receivers_add. cbn. now rewrite app_assoc.
Qed.
Theorem obs_list : forall ck (secs : date ck -> Q) pf l o b, obs_from_list secs pf obs_empty l = Ok o ->
  exists rs, Forall2 (fun p r => from_parset secs pf b p = Ok r) l rs /\ receivers o b = rs /\ forall s, adds_up (map receiver_volume rs) s -> exists v, obs_volume o b = Some v /\ v == s.
Proof.
  intros ck secs pf l o b H. destruct (obs_list_spec _ _ _ _ _ _ H) as (os & F & E). assert (X : exists rs, Forall2 (fun p r => from_parset secs pf b p = Ok r) l rs /\ flat_map (fun x => receivers x b) os = rs).
  { clear -F. induction F as [|p x l os P F (rs & R & E)]; [exists []; split; constructor|]. destruct (obs_one _ _ _ _ _ b P) as (r & Rr & Rx). exists (r :: rs). split; [constructor; assumption|]. cbn. rewrite Rx, E. reflexivity. }
  destruct X as (rs & R & Er). exists rs. split; [exact R|]. specialize (E b). assert (E0 : receivers obs_empty b = []) by (destruct b; reflexivity). rewrite E0, Er in E. cbn in E. split; [exact E|]. intros s A. unfold obs_volume. rewrite E. now apply adds_sum.
Qed.
(** One parset that cannot be read spoils the list. *)
Theorem obs_list_error : forall ck (secs : date ck -> Q) pf l p l' e t o, obs_from_list secs pf t l = Ok o -> obs_from secs pf p = Err e -> obs_from_list secs pf t (l ++ p :: l') = Err e.
Proof.
  intros ck secs pf. induction l as [|q l IH]; intros p l' e t o H E; cbn [app obs_from_list] in *; [rewrite E; reflexivity|]. apply bind_ok in H. destruct H as (x & X & H). rewrite X. cbn [bind]. exact (IH p l' e _ o H E).
Qed.
(** ** Along the time *)
Lemma insert_obs_perm x l : Permutation (insert_obs x l) (x :: l).
Proof. induction l as [|y l IH]; cbn; [reflexivity|]. destruct (Qgt_bool _ _); [reflexivity|]. rewrite IH. apply perm_swap. Qed.
Lemma insert_obs_sorted x l : StronglySorted (fun a b => fst a <= fst b) l -> StronglySorted (fun a b => fst a <= fst b) (insert_obs x l).
Proof.
  induction 1 as [|y l S IH F]; cbn; [repeat constructor|]. destruct (Qgt_bool (fst y) (fst x)) eqn:E.
  - apply Qgt_bool_iff in E. constructor; [constructor; assumption|]. constructor; [now apply Qlt_le_weak|]. eapply Forall_impl; [|exact F]. intros z Z. cbn beta in Z. apply Qle_trans with (fst y); [now apply Qlt_le_weak|exact Z].
  - apply Qgt_bool_false in E. constructor; [exact IH|]. rewrite (insert_obs_perm x l). constructor; assumption.
Qed.
Lemma sort_obs_spec l : Permutation (sort_obs l) l /\ StronglySorted (fun a b => fst a <= fst b) (sort_obs l).
Proof.
  unfold sort_obs. assert (G : forall l s, StronglySorted (fun a b => fst a <= fst b) s -> Permutation (fold_left (fun s x => insert_obs x s) l s) (l ++ s) /\ StronglySorted (fun a b => fst a <= fst b) (fold_left (fun s x => insert_obs x s) l s)).
  { induction l0 as [|x l0 IH]; intros s S; cbn [fold_left app]; [split; [reflexivity|exact S]|]. destruct (IH (insert_obs x s) (insert_obs_sorted x s S)) as [P Q]. split; [|exact Q]. rewrite P, insert_obs_perm. symmetry. apply Permutation_middle. }
  destruct (G l [] ltac:(constructor)) as [P S]. rewrite app_nil_r in P. auto.
Qed.
Lemma running_nth : forall l s i, (i < length l)%nat -> nth i (running s l) 0 == s + fold_right Qplus 0 (firstn (Datatypes.S i) l).
Proof.
  induction l as [|v l IH]; intros s i I; [cbn in I; lia|]. destruct i as [|i]; cbn [running nth firstn fold_right]; [ring|]. rewrite IH by (cbn in I; lia). cbn [firstn fold_right]. ring.
Qed.
Lemma running_length s l : length (running s l) = length l. Proof. revert s. induction l as [|v l IH]; intro s; cbn; [reflexivity|]. now rewrite IH. Qed.
(** The volume accumulated at a date counts the observations up to it. *)
Theorem cumulative_spec : forall l, exists s, Permutation s l /\ fst (cumulative l) = map fst s /\ StronglySorted Qle (fst (cumulative l)) /\ length (snd (cumulative l)) = length l /\
  forall i, (i < length l)%nat -> nth i (snd (cumulative l)) 0 == fold_right Qplus 0 (map snd (firstn (Datatypes.S i) s)).
Proof.
  intro l. exists (sort_obs l). destruct (sort_obs_spec l) as [P S]. split; [exact P|]. split; [reflexivity|]. split.
  - unfold cumulative. cbn [fst]. clear P. induction S as [|x r S IH F]; cbn; [constructor|constructor; [exact IH|]]. apply Forall_forall. intros y Y. apply in_map_iff in Y. destruct Y as (z & <- & Z). rewrite Forall_forall in F. now apply F.
  - unfold cumulative. cbn [snd]. rewrite running_length, map_length. split; [now apply Permutation_length|]. intros i I. rewrite running_nth by (rewrite map_length, (Permutation_length P); exact I). rewrite firstn_map. ring.
Qed.
Theorem cumulative_grows : forall l, (forall x, In x l -> 0 <= snd x) -> StronglySorted Qle (snd (cumulative l)).
Proof.
  intros l H. unfold cumulative. cbn [snd]. assert (G : Forall (fun v => 0 <= v) (map snd (sort_obs l))). { apply Forall_forall. intros v V. apply in_map_iff in V. destruct V as (x & <- & X). apply H. exact (Permutation_in _ (proj1 (sort_obs_spec l)) X). }
  revert G. generalize (map snd (sort_obs l)). clear. intro l. generalize 0 at 2. intro s. assert (LB : forall l s, Forall (fun v => 0 <= v) l -> Forall (fun v => s <= v) (running s l)).
  { induction l0 as [|v l0 IH]; intros s0 F; cbn; [constructor|]. inversion F; subst. constructor; [lra|]. eapply Forall_impl; [|apply IH; assumption]. intros w W. cbn beta in W. lra. }
  revert s. induction l as [|v l IH]; intros s F; cbn; [constructor|]. inversion F; subst. constructor; [now apply IH|]. now apply LB.
Qed.

(** ** Beams out of step *)
(** Dates in half seconds. *)
Definition half_clock : clock := mkClock Z string (fun s => py_int s) show_int show_int Some (fun a => a).
Definition half_secs : date half_clock -> Q := fun n => n # 2.
Definition half_beam (start : Z) : property half_clock := [("startTime"%string, PTime half_clock start); ("duration"%string, PStr half_clock "10s")].
Definition half_parset : parset half_clock := mkParset half_clock [("startTime"%string, PTime half_clock 0%Z)] [] [] [(0%Z, half_beam 0); (1%Z, half_beam 1)] [].
(** Two beams of ten seconds, the second half a second after the first, count for twenty. *)
Theorem bst_duration_refuted : exists ck (secs : date ck -> Q) pf p c, from_parset secs pf Bst p = Ok (One c) /\ c_duration c == 20 /\
  forall db, In db (map snd (p_digibeams ck p)) -> lasts db 10 /\ exists t, dict_get String.eqb "startTime"%string db = Some (PTime ck t) /\ 0 <= secs t <= 1 # 2.
Proof.
  exists half_clock, half_secs, (fun _ => None), half_parset. eexists. split; [vm_compute; reflexivity|]. split; [reflexivity|].
  intros db [<-|[<-|[]]]; (split; [exists "10s"%string; split; reflexivity|]); eexists; (split; [reflexivity|]); split; vm_compute; discriminate.
Qed.
(** ** Asked and recorded time resolutions *)
Definition slow_beam : property half_clock := [("toDo"%string, PStr half_clock "Dynamicspectrum"); ("parameters"%string, PStr half_clock "TF: DF=3.05 DT=200"); ("duration"%string, PStr half_clock "10s"); ("subbandList"%string, PList half_clock [IInt half_clock 200])].
Definition some_floats (s : string) : option Q := if String.eqb s "3.05" then Some (305 # 100) else if String.eqb s "200" then Some 200 else None.
(** 200 ms give 5 ms. *)
Theorem tf_slow_refuted : exists c, beam_from half_clock some_floats Tf slow_beam = Ok (Some c) /\ value c TimeRes == 5 # 1000 /\ ~ allowed (value c TimeRes) (value c FreqRes).
Proof.
  eexists. split; [vm_compute; reflexivity|]. split; [reflexivity|]. cbn [value get assoc c_values attr_eqb]. intros (i & j & I & J & T & _).
  assert (X : inject_Z (2 ^ i) * inject_Z (2 ^ j) == 15625 # 16). { set (a := inject_Z (2 ^ i)) in *. set (b := inject_Z (2 ^ j)) in *. clearbody a b. lra. }
  rewrite <- inject_Z_mult, <- Z.pow_add_r in X by lia. assert (Y : inject_Z (2 ^ (i + j)) * 16 == 15625) by (rewrite X; reflexivity). change 16 with (inject_Z 16) in Y. change 15625 with (inject_Z 15625) in Y. rewrite <- inject_Z_mult, inject_Z_injective in Y. assert (Z0 : (2 ^ (i + j) * 16 = 15625)%Z) by exact Y. lia.
Qed.
