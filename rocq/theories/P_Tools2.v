(** Corrections of pointing, attenuations and factors of correction. *)
From Coq Require Import ZArith QArith Qround Qabs Bool String List Lia Lqa.
From Verif Require Import Base M_Pointing M_Tools P_Pointing.
Import ListNotations.
Open Scope nat_scope.
Open Scope list_scope.

(** ** C198: corrections of pointing *)

Definition applied (year : string) : Prop := year = "2022"%string \/ year = "2019"%string.
Lemma applied_check : forall year, ((year =? "2022") || (year =? "2019"))%string = true <-> applied year.
Proof. intros year. rewrite orb_true_iff, !String.eqb_eq. reflexivity. Qed.
(** A direction of the sky *)
Definition direction (d : azel) : Prop := (0 <= azimuth d /\ azimuth d < 360 /\ -90 <= elevation d /\ elevation d <= 90)%Q.
Definition same_dir (a b : azel) : Prop := (azimuth a == azimuth b /\ elevation a == elevation b)%Q.

Theorem correction_frame : forall tables c year, pointing_correction tables false c year = Err EValueError.
Proof. reflexivity. Qed.
Theorem correction_none : forall tables c year, ~ applied year -> pointing_correction tables true c year = Ok c.
Proof.
  intros tables c year A. unfold pointing_correction. cbn [negb]. destruct (_ || _)%string eqn:E; [|reflexivity]. apply applied_check in E. contradiction.
Qed.
Theorem correction_scalar : forall tables d year, applied year -> pointing_correction tables true (Alone d) year = Err ETypeError.
Proof. intros tables d year A. unfold pointing_correction. cbn [negb]. now rewrite (proj2 (applied_check year) A). Qed.

Lemma wrap_range : forall a, (0 <= wrap360 a /\ wrap360 a < 360)%Q.
Proof.
  intros a. unfold wrap360. pose proof (Qfloor_le (a / 360)) as A. pose proof (Qlt_floor (a / 360)) as B. rewrite inject_Z_plus in B.
  assert (E : (a == 360 * (a / 360))%Q) by (field; discriminate).
  set (x := (a / 360)%Q) in *. set (k := inject_Z (Qfloor x)) in *. clearbody x k. change (inject_Z 1) with 1%Q in B. lra.
Qed.
Lemma wrap_same : forall a, (0 <= a)%Q -> (a < 360)%Q -> (wrap360 a == a)%Q.
Proof.
  intros a A B. unfold wrap360. assert (F : Qfloor (a / 360) = 0%Z).
  { assert (X : (0 <= a / 360)%Q) by (apply Qle_shift_div_l; lra). assert (Y : (a / 360 < 1)%Q) by (apply Qlt_shift_div_r; lra).
    pose proof (Qfloor_le (a / 360)) as L. pose proof (Qlt_floor (a / 360)) as U.
    assert (L' : (inject_Z (Qfloor (a / 360)) < inject_Z 1)%Q) by (change (inject_Z 1) with 1%Q; lra). rewrite <- Zlt_Qlt in L'.
    assert (U' : (inject_Z 0 < inject_Z (Qfloor (a / 360) + 1))%Q) by (change (inject_Z 0) with 0%Q; lra). rewrite <- Zlt_Qlt in U'. lia. }
  rewrite F. change (inject_Z 0) with 0%Q. ring.
Qed.
Lemma Qltb_spec : forall a b, M_Tools.Qltb a b = true <-> (a < b)%Q.
Proof. exact Qltb_lt. Qed.
Lemma Qltb_ge : forall a b, (b <= a)%Q -> M_Tools.Qltb a b = false.
Proof. intros a b L. unfold M_Tools.Qltb. rewrite (proj2 (Qle_bool_iff b a) L). reflexivity. Qed.

(** At 15 degrees or lower the direction is the same. *)
Theorem low_same : forall daz dalt d, direction d -> (elevation d <= 15)%Q -> same_dir (corrected daz dalt d) d.
Proof.
  intros daz dalt d (A & B & _) L. unfold corrected, shifts. rewrite (Qltb_ge _ _ L). cbn [fst snd]. unfold same_dir. cbn [azimuth elevation]. split.
  - assert (E : forall a b, (a == b)%Q -> (wrap360 a == wrap360 b)%Q).
    { intros a b E. unfold wrap360. assert (F : (a / 360 == b / 360)%Q) by (rewrite E; reflexivity). rewrite (Qfloor_comp _ _ F). now rewrite E. }
    rewrite (E _ (azimuth d)); [now apply wrap_same|]. assert (Z0 : (0 / 60 == 0)%Q) by reflexivity. rewrite Z0. ring.
  - assert (Z0 : (0 / 60 == 0)%Q) by reflexivity. rewrite Z0. ring.
Qed.

(** The position within a cell *)
Lemma cell_spec : forall n x, (0 < n)%Z -> (0 <= x)%Q -> (x <= inject_Z n)%Q ->
  (0 <= cell n x < n)%Z /\ (0 <= x - inject_Z (cell n x) /\ x - inject_Z (cell n x) <= 1)%Q.
Proof.
  intros n x N A B. unfold cell. pose proof (Qfloor_le x) as L. pose proof (Qlt_floor x) as U. rewrite inject_Z_plus in U. change (inject_Z 1) with 1%Q in U.
  assert (F0 : (0 <= Qfloor x)%Z) by (change 0%Z with (Qfloor 0); now apply Qfloor_resp_le).
  destruct (Z.min_spec (n - 1) (Qfloor x)) as [[H E]|[H E]]; rewrite E.
  - assert (H' : (inject_Z n <= inject_Z (Qfloor x))%Q) by (rewrite <- Zle_Qle; lia). split; [lia|].
    unfold Z.sub. rewrite inject_Z_plus, inject_Z_opp. change (inject_Z 1) with 1%Q. lra.
  - split; [lia|]. lra.
Qed.
Definition cornered (f : table) (i j : nat) (lo hi : Q) : Prop :=
  forall a b, (a = i \/ a = S i) -> (b = j \/ b = S j) -> (lo <= f a b /\ f a b <= hi)%Q.
Lemma mix_bounds : forall t a b lo hi, (0 <= t)%Q -> (t <= 1)%Q -> (lo <= a)%Q -> (a <= hi)%Q -> (lo <= b)%Q -> (b <= hi)%Q ->
  (lo <= (1 - t) * a + t * b /\ (1 - t) * a + t * b <= hi)%Q.
Proof. intros t a b lo hi T0 T1 A0 A1 B0 B1. nra. Qed.
(** Between the corners of a cell of the table which holds the direction *)
Theorem interpolate_bounds : forall f d, direction d -> (15 < elevation d)%Q -> exists i j, (i < 75)%nat /\ (j < 360)%nat /\
  (inject_Z (Z.of_nat i) <= elevation d - 15 <= inject_Z (Z.of_nat (S i)))%Q /\ (inject_Z (Z.of_nat j) <= azimuth d <= inject_Z (Z.of_nat (S j)))%Q /\
  forall lo hi, cornered f i j lo hi -> (lo <= interpolate f (elevation d) (azimuth d) /\ interpolate f (elevation d) (azimuth d) <= hi)%Q.
Proof.
  intros f d (A & B & _ & C) E.
  destruct (cell_spec 75 (elevation d - 15)) as [[I0 I1] [U0 U1]]; [lia|lra|change (inject_Z 75) with 75%Q; lra|].
  destruct (cell_spec 360 (azimuth d)) as [[J0 J1] [V0 V1]]; [lia|lra|change (inject_Z 360) with 360%Q; lra|].
  unfold interpolate. set (ci := cell 75 (elevation d - 15)) in *. set (cj := cell 360 (azimuth d)) in *. clearbody ci cj.
  exists (Z.to_nat ci), (Z.to_nat cj). split; [lia|]. split; [lia|].
  rewrite !Nat2Z.inj_succ, !Z2Nat.id by lia. unfold Z.succ. rewrite !inject_Z_plus. change (inject_Z 1) with 1%Q. split; [lra|]. split; [lra|].
  intros lo hi K. cbv zeta.
  destruct (K (Z.to_nat ci) (Z.to_nat cj)) as [K1 K2]; auto. destruct (K (Z.to_nat ci) (S (Z.to_nat cj))) as [K3 K4]; auto.
  destruct (K (S (Z.to_nat ci)) (Z.to_nat cj)) as [K5 K6]; auto. destruct (K (S (Z.to_nat ci)) (S (Z.to_nat cj))) as [K7 K8]; auto.
  set (u := (elevation d - 15 - inject_Z ci)%Q) in *. set (v := (azimuth d - inject_Z cj)%Q) in *.
  destruct (mix_bounds v _ _ lo hi V0 V1 K1 K2 K3 K4) as [P1 P2]. destruct (mix_bounds v _ _ lo hi V0 V1 K5 K6 K7 K8) as [P3 P4].
  exact (mix_bounds u _ _ lo hi U0 U1 P1 P2 P3 P4).
Qed.
(** At the degrees of the table, its own values *)
Theorem interpolate_node : forall f i j, (i < 75)%nat -> (j < 360)%nat ->
  (interpolate f (15 + inject_Z (Z.of_nat i)) (inject_Z (Z.of_nat j)) == f i j)%Q.
Proof.
  intros f i j I J. unfold interpolate, cell.
  assert (E : (15 + inject_Z (Z.of_nat i) - 15 == inject_Z (Z.of_nat i))%Q) by ring. rewrite (Qfloor_comp _ _ E), !Qfloor_Z, !Z.min_r by lia.
  cbv zeta. rewrite !Nat2Z.id. ring.
Qed.
(** Shifts are not larger than those of the table. *)
Theorem correction_bound : forall daz dalt d m, direction d -> (forall i j, (i <= 75)%nat -> (j <= 360)%nat -> (Qabs (dalt i j) <= m)%Q) -> (0 <= m)%Q ->
  (Qabs (elevation (corrected daz dalt d) - elevation d) <= m / 60)%Q.
Proof.
  intros daz dalt d m D M P. unfold corrected. cbn [elevation].
  assert (X : (- m <= snd (shifts daz dalt d) /\ snd (shifts daz dalt d) <= m)%Q).
  { unfold shifts. destruct (M_Tools.Qltb 15 (elevation d)) eqn:E; cbn [snd]; [|lra]. apply Qltb_spec in E.
    destruct (interpolate_bounds dalt d D E) as (i & j & I & J & _ & _ & H). apply H. intros a b Ha Hb.
    apply Qabs_Qle_condition. apply M; lia. }
  assert (E : (elevation d + snd (shifts daz dalt d) / 60 - elevation d == snd (shifts daz dalt d) / 60)%Q) by ring. rewrite E.
  apply Qabs_Qle_condition. unfold Qdiv. change (/ 60)%Q with (1 # 60)%Q. lra.
Qed.
(** Each direction is corrected alone. One which goes above the zenith refuses all. *)
Theorem correction_each : forall tables l year, applied year -> (forall d, In d l -> latitude_ok (corrected (fst (tables year)) (snd (tables year)) d) = true) ->
  pointing_correction tables true (Array l) year = Ok (Array (map (corrected (fst (tables year)) (snd (tables year))) l)).
Proof.
  intros tables l year A H. unfold pointing_correction. cbn [negb]. rewrite (proj2 (applied_check year) A). cbv zeta.
  assert (F : forallb latitude_ok (map (corrected (fst (tables year)) (snd (tables year))) l) = true).
  { apply forallb_forall. intros x X. apply in_map_iff in X. destruct X as (d & <- & D). now apply H. }
  now rewrite F.
Qed.
Theorem correction_over : forall tables l year d, applied year -> In d l -> (90 < elevation (corrected (fst (tables year)) (snd (tables year)) d))%Q ->
  pointing_correction tables true (Array l) year = Err EValueError.
Proof.
  intros tables l year d A D H. unfold pointing_correction. cbn [negb]. rewrite (proj2 (applied_check year) A). cbv zeta.
  destruct (forallb latitude_ok _) eqn:F; [|reflexivity]. rewrite forallb_forall in F. specialize (F _ (in_map _ _ _ D)). unfold latitude_ok in F.
  apply andb_true_iff in F. destruct F as [F _]. apply Qle_bool_iff in F. lra.
Qed.
Theorem corrected_azimuth : forall daz dalt d, (0 <= azimuth (corrected daz dalt d) /\ azimuth (corrected daz dalt d) < 360)%Q.
Proof. intros. apply wrap_range. Qed.
(** The correction jumps at 15 degrees: just above it is the one of the table. *)
Theorem correction_jump_refuted : forall daz dalt j e, (j < 360)%nat -> (0 < e)%Q -> (e < 1)%Q ->
  (snd (shifts daz dalt (mkAzel (inject_Z (Z.of_nat j)) 15)) == 0 /\
   snd (shifts daz dalt (mkAzel (inject_Z (Z.of_nat j)) (15 + e))) == dalt 0%nat j + e * (dalt 1%nat j - dalt 0%nat j))%Q.
Proof.
  intros daz dalt j e J E0 E1. split; [reflexivity|]. unfold shifts. cbn [elevation azimuth].
  rewrite (proj2 (Qltb_spec 15 (15 + e))) by lra. cbn [snd]. unfold interpolate, cell.
  assert (E : (15 + e - 15 == e)%Q) by ring. rewrite (Qfloor_comp _ _ E), Qfloor_Z.
  assert (F : Qfloor e = 0%Z).
  { pose proof (Qfloor_le e) as L. pose proof (Qlt_floor e) as U.
    assert (L' : (inject_Z (Qfloor e) < inject_Z 1)%Q) by (change (inject_Z 1) with 1%Q; lra). rewrite <- Zlt_Qlt in L'.
    assert (U' : (inject_Z 0 < inject_Z (Qfloor e + 1))%Q) by (change (inject_Z 0) with 0%Q; lra). rewrite <- Zlt_Qlt in U'. lia. }
  rewrite F, Z.min_r, (Z.min_r (360 - 1)) by lia. cbv zeta. rewrite Nat2Z.id. change (Z.to_nat 0) with 0%nat. change (inject_Z 0) with 0%Q. ring.
Qed.

(** ** C199: attenuation *)
Section Attenuation.
Context {C : Type}.
Variable gain : Q -> nat -> nat -> C -> Q.
Variable zenith : Q -> C.
Variable altitude : Q -> C -> Q.
Variable site : Z.
Notation attenuation := (attenuation gain zenith altitude site).

(** What a direction should give *)
Definition attenuated (t : Q) (f p : nat) (c : C) (v : option Q) : Prop :=
  if Qle_bool (altitude t c) 0 then v = None
  else (gain t f p (zenith t) == 0 /\ v = None)%Q \/ (~ gain t f p (zenith t) == 0 /\ exists x, v = Some x /\ x * gain t f p (zenith t) == gain t f p c)%Q.
(** Coordinates without attributes, or with those of the call *)
Definition suits (c : @sky_coord C) (t : Q) : Prop :=
  match obstime c with None => True | Some o => (o == t)%Q end /\ match location c with None => True | Some l => l = site end.
Lemma combine_map_r : forall A B (g : A -> B) l, combine l (map g l) = map (fun x => (x, g x)) l.
Proof. induction l as [|x l IH]; [reflexivity|]. cbn. now rewrite IH. Qed.
Theorem attenuation_right : forall c t nf np, suits c t -> exists out,
  snd (attenuation c [t] nf np) = Ok out /\ length out = nf /\
  forall f p k x, f < nf -> p < np -> nth_error (positions c) k = Some x ->
    exists a b v, nth_error out f = Some a /\ length a = np /\ nth_error a p = Some b /\ length b = length (positions c) /\ nth_error b k = Some v /\ attenuated t f p x v.
Proof.
  intros c t nf np [O L]. unfold M_Tools.attenuation. cbn [snd obstime location positions].
  assert (G : match (match obstime c with None => Some t | Some o => Some o end), (match location c with None => Some site | Some l => Some l end) with
    Some o, Some l => Qeq_bool o t && (l =? site)%Z | _, _ => false end = true).
  { destruct (obstime c), (location c); subst; rewrite ?Z.eqb_refl, ?andb_true_r; try (apply Qeq_bool_iff; auto; reflexivity). }
  rewrite G. cbn [map hd tl]. eexists. split; [reflexivity|]. split; [now rewrite map_length, seq_length|].
  intros f p k x F P X. rewrite nth_error_map, (nth_error_nth' _ 0) by (now rewrite seq_length). rewrite seq_nth by exact F. cbn [option_map Nat.add].
  eexists. eexists. eexists. split; [reflexivity|]. split; [now rewrite map_length, seq_length|].
  rewrite nth_error_map, (nth_error_nth' _ 0) by (now rewrite seq_length). rewrite seq_nth by exact P. cbn [option_map Nat.add]. split; [reflexivity|].
  rewrite !map_map, combine_map_r, map_map. split; [now rewrite map_length|]. rewrite nth_error_map, X. cbn [option_map fst snd]. split; [reflexivity|].
  unfold attenuated. destruct (Qle_bool (altitude t x) 0); [reflexivity|]. unfold ratio. destruct (Qeq_bool _ 0) eqn:Z0.
  - left. split; [now apply Qeq_bool_iff|reflexivity].
  - right. apply Qeq_bool_neq in Z0. split; [exact Z0|]. eexists. split; [reflexivity|]. field. exact Z0.
Qed.
Theorem attenuation_zenith : forall c t nf np out f p k a b, suits c t -> snd (attenuation c [t] nf np) = Ok out -> f < nf -> p < np ->
  nth_error (positions c) k = Some (zenith t) -> (0 < altitude t (zenith t))%Q -> ~ (gain t f p (zenith t) == 0)%Q ->
  nth_error out f = Some a -> nth_error a p = Some b -> exists v, nth_error b k = Some (Some v) /\ (v == 1)%Q.
Proof.
  intros c t nf np out f p k a b S H F P K U N A B. destruct (attenuation_right c t nf np S) as (out' & H' & _ & R). rewrite H in H'. injection H' as <-.
  destruct (R f p k (zenith t) F P K) as (a' & b' & v & A' & _ & B' & _ & V & W). rewrite A in A'. injection A' as <-. rewrite B in B'. injection B' as <-.
  unfold attenuated in W. destruct (Qle_bool _ 0) eqn:E; [apply Qle_bool_iff in E; lra|]. destruct W as [[Z0 _]|[_ (x & -> & X)]]; [contradiction|].
  exists x. split; [exact V|]. apply Qmult_inj_r with (gain t f p (zenith t)); [exact N|]. rewrite X. ring.
Qed.
Theorem attenuation_times : forall c ts nf np, length ts <> 1 -> attenuation c ts nf np = (c, Err EValueError).
Proof. intros c [|t [|]] nf np H; cbn in *; try reflexivity. lia. Qed.
(** Calls one after the other with the same object *)
Fixpoint calls (c : @sky_coord C) (ts : list Q) (nf np : nat) : @sky_coord C * list (res (list (list (list (option Q))))) :=
  match ts with [] => (c, []) | t :: r => let (c', o) := attenuation c [t] nf np in let (c'', os) := calls c' r nf np in (c'', o :: os) end.
Lemma attenuation_marks : forall c t nf np o, obstime c = Some o -> obstime (fst (attenuation c [t] nf np)) = Some o.
Proof. intros c t nf np o H. cbn. now rewrite H. Qed.
Lemma attenuation_other : forall c t nf np o, obstime c = Some o -> ~ (o == t)%Q -> snd (attenuation c [t] nf np) = Err EValueError.
Proof.
  intros c t nf np o H N. unfold M_Tools.attenuation. cbn [snd obstime location]. rewrite H.
  assert (E : Qeq_bool o t = false) by (destruct (Qeq_bool o t) eqn:E; [apply Qeq_bool_iff in E; contradiction|reflexivity]). rewrite E.
  now destruct (location c).
Qed.
(** The first call marks the object: any later call at another time is refused. *)
Theorem attenuation_again_refuted : forall ts c t nf np, obstime c = None ->
  obstime (fst (calls c (t :: ts) nf np)) = Some t /\
  forall k t', nth_error ts k = Some t' -> ~ (t == t')%Q -> nth_error (snd (calls c (t :: ts) nf np)) (S k) = Some (Err EValueError).
Proof.
  intros ts c t nf np O. cbn [calls]. destruct (attenuation c [t] nf np) as [c1 o1] eqn:E1.
  assert (M : obstime c1 = Some t). { change c1 with (fst (c1, o1)). rewrite <- E1. cbn. now rewrite O. }
  clear E1 O.
  assert (G : forall ts c1, obstime c1 = Some t -> obstime (fst (calls c1 ts nf np)) = Some t /\
    forall k t', nth_error ts k = Some t' -> ~ (t == t')%Q -> nth_error (snd (calls c1 ts nf np)) k = Some (Err EValueError)).
  { clear. induction ts as [|s ts IH]; intros c1 M; [split; [exact M|]; intros [|k]; discriminate|]. cbn [calls].
    destruct (attenuation c1 [s] nf np) as [c2 o2] eqn:E2.
    assert (M2 : obstime c2 = Some t). { change c2 with (fst (c2, o2)). rewrite <- E2. now apply attenuation_marks. }
    destruct (IH c2 M2) as [A B]. destruct (calls c2 ts nf np) as [c3 os] eqn:E3. cbn [fst snd] in *. split; [exact A|].
    intros [|k] t' K N; [|now apply (B k t')]. cbn in K. injection K as <-. cbn [nth_error]. f_equal.
    change o2 with (snd (c2, o2)). rewrite <- E2. now apply attenuation_other with t. }
  destruct (G ts c1 M) as [A B]. destruct (calls c1 ts nf np) as [c3 os]. cbn [fst snd] in *. split; [exact A|]. intros k t' K N. cbn [nth_error]. now apply (B k t').
Qed.
End Attenuation.

(** ** C200: factors of correction *)
Section Factor.
Context {C H : Type}.
Variable beam : pt C H -> Q -> nat -> nat -> C -> Q.
Variable zen : Q -> C.
Variable up : H.
Variable radec : Q -> H -> C.
Variable really : H -> H.

(** Where a pointing is at a time *)
Definition aims (p : pt C H) (t : Q) (c : C) : Prop :=
  (shown p t None /\ c = zen t) \/ exists i, shown p t (Some i) /\ coord_at p i = Some c.
Lemma at_aims : forall p t, sized p -> exists c h, at_time zen up p t = Ok (c, h) /\ aims p t c.
Proof.
  intros p t Z0. destruct (shown_exists C H p t) as ([i|] & S & _); [apply Z0| |].
  - destruct (at_interval C H zen up p t i Z0 S) as (c & h & A & _ & B). exists c, h. split; [exact B|]. right. exists i. auto.
  - rewrite (at_zenith C H zen up p t S). eexists. eexists. split; [reflexivity|]. left. auto.
Qed.
Lemma all_aims : forall p ts, sized p -> exists l, all_times (at_time zen up p) ts = Ok l /\ length l = length ts /\
  forall k t, nth_error ts k = Some t -> exists c, nth_error (map fst l) k = Some c /\ aims p t c.
Proof.
  intros p ts Z0. induction ts as [|t ts IH]; [exists []; repeat split; intros [|k]; discriminate|].
  destruct (at_aims p t Z0) as (c & h & A & B). destruct IH as (l & E & L & K). exists ((c, h) :: l). cbn [all_times]. rewrite A. cbn [bind]. rewrite E. cbn [bind].
  split; [reflexivity|]. split; [cbn; now rewrite L|]. intros [|k] t' T; cbn [nth_error map fst] in *; [injection T as <-; exists c; auto|now apply K].
Qed.
Lemma steps_length : forall ts, length (steps ts) = length ts.
Proof. induction ts as [|t [|t' ts] IH]; [reflexivity|reflexivity|]. cbn [steps length] in *. now rewrite IH. Qed.
(** What is really pointed at *)
Definition true_pointing (times : list Q) (horizontal : list H) : pt C H :=
  mkPt (Many (map (fun x => radec (fst x) (really (snd x))) (combine times horizontal))) times (steps times) None.
Lemma real_ok : forall times horizontal, real_pointing radec really times horizontal = Ok (true_pointing times horizontal).
Proof.
  intros. unfold real_pointing, new_pointing. rewrite steps_length, Nat.eqb_refl. cbn. now rewrite andb_false_r.
Qed.
Lemma real_sized : forall times horizontal, length horizontal = length times -> sized (true_pointing times horizontal).
Proof.
  intros times horizontal L. split; [right; apply steps_length|]. split; [|exact I]. cbn. rewrite map_length, combine_length. lia.
Qed.
Theorem factor_right : forall digital horizontal ts nf np, sized digital -> length horizontal = length (pt_times digital) -> exists a,
  factor beam zen up radec really digital horizontal ts nf np = Ok a /\ d3 a = (length ts, nf, np) /\
  forall k t, nth_error ts k = Some t -> exists cd cr, aims digital t cd /\ aims (true_pointing (pt_times digital) horizontal) t cr /\
    forall f q, let real := true_pointing (pt_times digital) horizontal in
      (beam real t f q cd == 0 /\ v3 a k f q = None)%Q \/ (~ beam real t f q cd == 0 /\ exists x, v3 a k f q = Some x /\ x * beam real t f q cd == beam real t f q cr)%Q.
Proof.
  intros digital horizontal ts nf np S L. unfold factor. rewrite real_ok. cbn [bind].
  destruct (all_aims digital ts S) as (ld & Ed & Ld & Kd). destruct (all_aims (true_pointing (pt_times digital) horizontal) ts (real_sized _ _ L)) as (lr & Er & Lr & Kr).
  rewrite Ed. cbn [bind]. rewrite Er. cbn [bind]. eexists. split; [reflexivity|]. cbn [d3 v3]. split; [rewrite Lr, Nat.min_id; reflexivity|].
  intros k t T. destruct (Kd k t T) as (cd & D & AD). destruct (Kr k t T) as (cr & R & AR). exists cd, cr. split; [exact AD|]. split; [exact AR|].
  intros f q. cbv zeta. unfold values. rewrite T, D, R. unfold ratio. destruct (Qeq_bool _ 0) eqn:Z0.
  - left. split; [now apply Qeq_bool_iff|reflexivity].
  - right. apply Qeq_bool_neq in Z0. split; [exact Z0|]. eexists. split; [reflexivity|]. field. exact Z0.
Qed.
Lemma aims_unique : forall p t a b, sized p -> aims p t a -> aims p t b -> a = b.
Proof.
  intros p t a b S A B. destruct (shown_exists C H p t) as (o & O & U); [apply S|].
  destruct A as [[A ->]|(i & A & Ai)], B as [[B ->]|(j & B & Bj)].
  - reflexivity.
  - apply U in A. apply U in B. congruence.
  - apply U in A. apply U in B. congruence.
  - apply U in A. apply U in B. rewrite <- B in A. injection A as ->. congruence.
Qed.
(** No shift, no correction *)
Theorem factor_one : forall digital horizontal ts nf np a k t c f q, sized digital -> length horizontal = length (pt_times digital) ->
  factor beam zen up radec really digital horizontal ts nf np = Ok a -> nth_error ts k = Some t ->
  aims digital t c -> aims (true_pointing (pt_times digital) horizontal) t c -> ~ (beam (true_pointing (pt_times digital) horizontal) t f q c == 0)%Q ->
  exists x, v3 a k f q = Some x /\ (x == 1)%Q.
Proof.
  intros digital horizontal ts nf np a k t c f q S L F T A B N. destruct (factor_right digital horizontal ts nf np S L) as (a' & F' & _ & K). rewrite F in F'. injection F' as <-.
  destruct (K k t T) as (cd & cr & AD & AR & V). rewrite <- (aims_unique _ t c cd S A AD) in V. rewrite <- (aims_unique _ t c cr (real_sized _ _ L) B AR) in V.
  destruct (V f q) as [[Z0 _]|[_ (x & X & E)]]; [contradiction|]. exists x. split; [exact X|].
  apply Qmult_inj_r with (beam (true_pointing (pt_times digital) horizontal) t f q c); [exact N|]. rewrite E. ring.
Qed.
(** After the end of the digital pointing, the zenith is compared with the last direction pointed. *)
Theorem factor_after_refuted : forall s d h t, (0 < d)%Q -> (s + d <= t)%Q -> (t < s + 1)%Q ->
  let digital := mkPt (Many [radec s h]) [s] [d] None in
  aims digital t (zen t) /\ aims (true_pointing [s] [h]) t (radec s (really h)).
Proof.
  intros s d h t D A B digital. split.
  - left. split; [|reflexivity]. intros j (s' & d' & J & K & L1 & L2). destruct j as [|[|j]]; try discriminate. cbn in J, K. injection J as <-. injection K as <-. lra.
  - right. exists 0. split; [|reflexivity]. split.
    + exists s, 1%Q. cbn. repeat split; lra.
    + intros [|[|j]] L (s' & d' & J & _); [lia|discriminate|discriminate].
Qed.
End Factor.
