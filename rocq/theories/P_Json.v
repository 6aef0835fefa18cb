(** Centres, dates and receivers of the description of a parset. *)
From Coq Require Import Ascii String List Arith ZArith QArith Qround Lqa Bool Lia.
From Verif Require Import Base M_Polar M_Pipeline M_Subbands M_PText P_PText M_Parset M_Config P_Config4 M_Json.
Import ListNotations.
Open Scope nat_scope.

(** ** Vocabulary *)
(** The entry of a dictionary. *)
Definition holds {ck} (p : property ck) (k : string) (v : pval ck) : Prop := dict_get String.eqb k p = Some v.
Definition lacks {ck} (p : property ck) (k : string) : Prop := dict_get String.eqb k p = None.
(** [y] is the value of [lo, hi] closest to [x]. *)
Definition clamped (lo hi x y : Q) : Prop := (x < lo /\ y == lo \/ hi < x /\ y == hi \/ lo <= x <= hi /\ y == x)%Q.
Definition clamped_to (lo hi x : Q) (o : option Q) : Prop := exists y, o = Some y /\ clamped lo hi x y.
(** The number of degrees asked by one of the "decal" entries. *)
Inductive asked {ck} (W : world ck) (p : property ck) (k : string) : Q -> Prop :=
| asked_none : lacks p k -> asked W p k 0
| asked_int n : holds p k (PInt ck n) -> asked W p k (inject_Z n)
| asked_bool b : holds p k (PBool ck b) -> asked W p k (if b then 1%Q else 0%Q)
| asked_text s q : holds p k (PStr ck s) -> w_float ck W s = Some q -> asked W p k q.
(** A start, and a duration in seconds. *)
Definition lasting {ck} (W : world ck) (p : property ck) (t : date ck) (d : Q) : Prop :=
  holds p "startTime" (PTime ck t) /\ exists v, holds p "duration" v /\ w_delta ck W v = Ok d.
(** The kind of direction, whatever its case. *)
Definition directs {ck} (p : property ck) (kind : string) : Prop := exists s, holds p "directionType" (PStr ck s) /\ lower s = kind.
Definition has_angles {ck} (W : world ck) (p : property ck) (x y : Q) : Prop :=
  exists a b, holds p "angle1" (PAngle ck a) /\ holds p "angle2" (PAngle ck b) /\ w_deg ck W a = x /\ w_deg ck W b = y.

Lemma constrain_spec : forall lo hi x, (lo <= hi)%Q -> clamped lo hi x (constrain lo hi x).
Proof.
  intros lo hi x L. unfold constrain, clamped. destruct (Qle_bool lo x) eqn:A; cbn [negb].
  - apply Qle_bool_iff in A. destruct (Qle_bool x hi) eqn:B; cbn [negb].
    + apply Qle_bool_iff in B. right; right. split; [split; assumption|reflexivity].
    + right; left. split; [|reflexivity]. destruct (Qlt_le_dec hi x) as [H|H]; [exact H|]. apply Qle_bool_iff in H. congruence.
  - left. split; [|reflexivity]. destruct (Qlt_le_dec x lo) as [H|H]; [exact H|]. apply Qle_bool_iff in H. congruence.
Qed.
Lemma constrain_range : forall lo hi x, (lo <= hi)%Q -> (lo <= constrain lo hi x <= hi)%Q.
Proof. intros lo hi x L. destruct (constrain_spec lo hi x L) as [[_ E]|[[_ E]|[A E]]]; rewrite E; lra. Qed.

Section Centers.
Context {ck : clock}.
Variable W : world ck.
Notation property := (M_Parset.property ck).

Lemma shift_asked : forall p k q, asked W p k q -> shift_of W k p = Ok q.
Proof. intros p k q [H|n H|b H|s r H F]; unfold shift_of; unfold holds, lacks in H; rewrite H; try reflexivity. now rewrite F. Qed.
Lemma shift_inv : forall p k q, shift_of W k p = Ok q -> asked W p k q.
Proof.
  intros p k q. unfold shift_of. destruct (dict_get String.eqb k p) as [v|] eqn:E; [|intro H; injection H as <-; now apply asked_none].
  destruct v; try discriminate; try (intro H; injection H as <-); [now apply asked_int| |now apply asked_bool].
  destruct (w_float ck W s) eqn:F; [|discriminate]. intro H; injection H as <-. now apply (asked_text W p k s).
Qed.
Lemma times_lasting : forall p t d, lasting W p t d -> times_of W p = Ok (t, w_add ck W t d, d).
Proof. intros p t d (S & v & D & E). unfold times_of, item_get. unfold holds in *. rewrite D. cbn [bind]. rewrite E. cbn [bind]. now rewrite S. Qed.
Lemma times_inv : forall p t e d, times_of W p = Ok (t, e, d) -> lasting W p t d /\ e = w_add ck W t d.
Proof.
  intros p t e d. unfold times_of, item_get. destruct (dict_get String.eqb "duration"%string p) as [v|] eqn:D; cbn [bind]; [|discriminate].
  destruct (w_delta ck W v) as [q|] eqn:E; cbn [bind]; [|discriminate]. destruct (dict_get String.eqb "startTime"%string p) as [[]|] eqn:S; cbn [bind]; try discriminate.
  intro H; injection H as <- <- <-. split; [|reflexivity]. split; [exact S|]. exists v. now split.
Qed.
Lemma get_set : forall V k k' (v : V) d, dict_get String.eqb k (dict_set String.eqb k' v d) = if String.eqb k k' then Some v else dict_get String.eqb k d.
Proof.
  intros V k k' v d. induction d as [|[a b] d IH]; cbn [dict_set dict_get].
  - destruct (String.eqb k k'); reflexivity.
  - destruct (String.eqb k' a) eqn:E; cbn [dict_get].
    + apply String.eqb_eq in E as <-. destruct (String.eqb k k'); reflexivity.
    + rewrite IH. destruct (String.eqb k a) eqn:F; [|reflexivity]. apply String.eqb_eq in F as ->. rewrite String.eqb_sym, E. reflexivity.
Qed.
Lemma directed_get : forall (p : property) k, k <> "directionType"%string -> dict_get String.eqb k (directed p) = dict_get String.eqb k p.
Proof. intros p k N. unfold directed. destruct (has_key "azelFile" p); [|reflexivity]. rewrite get_set. now apply String.eqb_neq in N as ->. Qed.
Lemma directed_plain : forall p : property, lacks p "azelFile" -> directed p = p.
Proof. intros p L. unfold directed, has_key. now rewrite L. Qed.
Lemma has_key_spec : forall k (p : property), has_key k p = true <-> exists v, holds p k v.
Proof. intros k p. unfold has_key, holds. destruct (dict_get String.eqb k p) as [v|]; split; intro H; try discriminate; try reflexivity; [eauto|destruct H; discriminate]. Qed.
Lemma has_key_lacks : forall k (p : property), has_key k p = false <-> lacks p k.
Proof. intros k p. unfold has_key, lacks. destruct (dict_get String.eqb k p); split; congruence. Qed.
Lemma angle_ok : forall e p k a, holds p k (PAngle ck a) -> angle_of W e k p = Ok (w_deg ck W a).
Proof. intros e p k a H. unfold angle_of, item_get. unfold holds in H. now rewrite H. Qed.

(** The direction, its angles and the shifts asked. *)
Theorem center_tracked : forall p t d ra dec dr dd, lacks p "azelFile" -> lasting W p t d -> directs p "j2000" -> has_angles W p ra dec ->
  lacks p "decal_az" -> lacks p "decal_el" -> asked W p "decal_ra" dr -> asked W p "decal_dec" dd ->
  exists c, center_of W p = Ok c /\ clamped_to 0 360 (ra + dr) (c_ra c) /\ clamped_to (-90) 90 (dec + dd) (c_dec c) /\ c_type c = "j2000"%string.
Proof.
  intros p t d ra dec dr dd NA L (s & S & K) (a & b & A1 & A2 & DA & DB) N1 N2 R D. unfold center_of. rewrite (times_lasting _ _ _ L). cbn [bind].
  rewrite (directed_plain _ NA). unfold item_get at 1. unfold holds in S. rewrite S. cbn [bind lower_of]. rewrite K. change (String.eqb "j2000" "j2000") with true. cbn iota.
  rewrite (angle_ok _ _ _ _ A1), (angle_ok _ _ _ _ A2). cbn [bind]. unfold by_horizon. rewrite (proj2 (has_key_lacks _ _) N1), (proj2 (has_key_lacks _ _) N2). cbn [orb bind].
  unfold shifted_radec. rewrite (shift_asked _ _ _ R), (shift_asked _ _ _ D). cbn [bind fst snd]. rewrite DA, DB. eexists. split; [reflexivity|]. cbn [c_ra c_dec c_type].
  split; [eexists; split; [reflexivity|apply constrain_spec; lra]|]. split; [eexists; split; [reflexivity|apply constrain_spec; lra]|reflexivity].
Qed.
(** Shifted along the horizon: [az] and [alt] are those at half the duration. *)
Definition sky_shifted (p : property) (m : date ck) (az alt : Q) (c : center) : Prop :=
  exists da de dr dd x y, asked W p "decal_az" da /\ asked W p "decal_el" de /\ asked W p "decal_ra" dr /\ asked W p "decal_dec" dd /\
    clamped 0 360 (az + da) x /\ clamped 0 90 (alt + de) y /\
    clamped_to 0 360 (fst (w_icrs ck W m x y) + dr) (c_ra c) /\ clamped_to (-90) 90 (snd (w_icrs ck W m x y) + dd) (c_dec c).
Lemma shifted_both : forall p m az alt r, bind (shifted_altaz W p m az alt) (shifted_radec W p) = Ok r -> forall k, sky_shifted p m az alt (mkCenter (fst r) (snd r) k).
Proof.
  intros p m az alt r. unfold shifted_altaz, shifted_radec.
  destruct (shift_of W "decal_az" p) as [da|] eqn:A; cbn [bind]; [|discriminate]. destruct (shift_of W "decal_el" p) as [de|] eqn:B; cbn [bind]; [|discriminate].
  destruct (shift_of W "decal_ra" p) as [dr|] eqn:C; cbn [bind]; [|discriminate]. destruct (shift_of W "decal_dec" p) as [dd|] eqn:D; cbn [bind]; [|discriminate].
  intros H k. injection H as <-. exists da, de, dr, dd, (constrain 0 360 (az + da)), (constrain 0 90 (alt + de)). cbn [fst snd c_ra c_dec].
  repeat (split; [now apply shift_inv || (apply constrain_spec; lra)|]). split; (eexists; split; [reflexivity|apply constrain_spec; lra]).
Qed.
Lemma shifted_both_ok : forall p m az alt da de dr dd, asked W p "decal_az" da -> asked W p "decal_el" de -> asked W p "decal_ra" dr -> asked W p "decal_dec" dd ->
  exists r, bind (shifted_altaz W p m az alt) (shifted_radec W p) = Ok r.
Proof.
  intros p m az alt da de dr dd A B C D. unfold shifted_altaz, shifted_radec. rewrite (shift_asked _ _ _ A), (shift_asked _ _ _ B). cbn [bind].
  rewrite (shift_asked _ _ _ C), (shift_asked _ _ _ D). cbn [bind]. eexists. reflexivity.
Qed.
(** All the shifts can be read. *)
Definition shifts_read (p : property) : Prop :=
  forall k, In k ["decal_az"; "decal_el"; "decal_ra"; "decal_dec"]%string -> exists q, asked W p k q.
Lemma shifts_ok : forall p m az alt, shifts_read p -> exists r, bind (shifted_altaz W p m az alt) (shifted_radec W p) = Ok r.
Proof.
  intros p m az alt S. destruct (S "decal_az"%string) as (a & A); [cbn; tauto|]. destruct (S "decal_el"%string) as (b & B); [cbn; tauto|].
  destruct (S "decal_ra"%string) as (c & C); [cbn; tauto|]. destruct (S "decal_dec"%string) as (e & E); [cbn; tauto|]. eapply shifted_both_ok; eassumption.
Qed.
Theorem center_tracked_horizon : forall p t d ra dec, lacks p "azelFile" -> lasting W p t d -> directs p "j2000" -> has_angles W p ra dec ->
  (exists v, holds p "decal_az" v \/ holds p "decal_el" v) -> shifts_read p ->
  exists c, center_of W p = Ok c /\ c_type c = "j2000"%string /\
    let m := w_add ck W t (d / 2)%Q in sky_shifted p m (fst (w_altaz ck W m ra dec)) (snd (w_altaz ck W m ra dec)) c.
Proof.
  intros p t d ra dec NA L (s & S & K) (a & b & A1 & A2 & DA & DB) (v & N) SR. unfold center_of. rewrite (times_lasting _ _ _ L). cbn [bind].
  rewrite (directed_plain _ NA). unfold item_get at 1. unfold holds in S. rewrite S. cbn [bind lower_of]. rewrite K. change (String.eqb "j2000" "j2000") with true. cbn iota.
  rewrite (angle_ok _ _ _ _ A1), (angle_ok _ _ _ _ A2). cbn [bind].
  assert (BH : by_horizon p = true). { unfold by_horizon. destruct N as [N|N]; [rewrite (proj2 (has_key_spec _ _) (ex_intro _ v N))|rewrite (proj2 (has_key_spec "decal_el" _) (ex_intro _ v N)), orb_true_r]; reflexivity. }
  rewrite BH, DA, DB. set (m := w_add ck W t (d / 2)). destruct (shifts_ok p m (fst (w_altaz ck W m ra dec)) (snd (w_altaz ck W m ra dec)) SR) as (r & E). rewrite E. cbn [bind].
  eexists. split; [reflexivity|]. split; [reflexivity|]. now apply shifted_both.
Qed.
Theorem center_transit : forall p t d az alt, lacks p "azelFile" -> lasting W p t d -> directs p "azelgeo" -> has_angles W p az alt -> shifts_read p ->
  exists c, center_of W p = Ok c /\ c_type c = "azelgeo"%string /\ sky_shifted p (w_add ck W t (d / 2)%Q) az alt c.
Proof.
  intros p t d az alt NA L (s & S & K) (a & b & A1 & A2 & DA & DB) SR. unfold center_of. rewrite (times_lasting _ _ _ L). cbn [bind].
  rewrite (directed_plain _ NA). unfold item_get at 1. unfold holds in S. rewrite S. cbn [bind lower_of]. rewrite K. change (String.eqb "azelgeo" "j2000") with false. change (String.eqb "azelgeo" "azelgeo") with true. cbn iota.
  rewrite (angle_ok _ _ _ _ A1), (angle_ok _ _ _ _ A2). cbn [bind]. rewrite DA, DB. destruct (shifts_ok p (w_add ck W t (d / 2)%Q) az alt SR) as (r & E). rewrite E. cbn [bind].
  eexists. split; [reflexivity|]. split; [reflexivity|]. now apply shifted_both.
Qed.
(** A file of directions stands for the zenith, whatever else is said. *)
Theorem center_file : forall p t d v, holds p "azelFile" v -> lasting W p t d ->
  let z := w_icrs ck W (w_add ck W t (d / 2)%Q) 0 90 in center_of W p = Ok (mkCenter (Some (fst z)) (Some (snd z)) "azelgeo_azelfile").
Proof.
  intros p t d v A L z. unfold center_of. rewrite (times_lasting _ _ _ L). cbn [bind]. unfold directed. rewrite (proj2 (has_key_spec _ _) (ex_intro _ v A)).
  unfold item_get. rewrite get_set. reflexivity.
Qed.
Theorem center_natif : forall p t d, lacks p "azelFile" -> lasting W p t d -> directs p "natif" -> center_of W p = Ok (mkCenter None None "natif").
Proof.
  intros p t d NA L (s & S & K). unfold center_of. rewrite (times_lasting _ _ _ L). cbn [bind]. rewrite (directed_plain _ NA). unfold item_get. unfold holds in S. rewrite S. cbn [bind lower_of]. rewrite K. reflexivity.
Qed.
(** Any other kind is a source of the Solar System. *)
Definition other_kind (k : string) : Prop := ~ In k ["j2000"; "azelgeo"; "azelgeo_azelfile"; "natif"]%string.
Theorem center_solar : forall p t d k, lacks p "azelFile" -> lasting W p t d -> directs p k -> other_kind k ->
  let m := w_add ck W t (d / 2)%Q in
  (forall e, w_solar ck W k m = Err e -> center_of W p = Err e) /\
  (forall radec altaz, w_solar ck W k m = Ok (radec, altaz) -> shifts_read p ->
     exists c, center_of W p = Ok c /\ c_type c = k /\
       ((exists v, holds p "decal_az" v \/ holds p "decal_el" v) -> sky_shifted p m (fst altaz) (snd altaz) c) /\
       (lacks p "decal_az" -> lacks p "decal_el" -> forall dr dd, asked W p "decal_ra" dr -> asked W p "decal_dec" dd ->
          clamped_to 0 360 (fst radec + dr) (c_ra c) /\ clamped_to (-90) 90 (snd radec + dd) (c_dec c))).
Proof.
  intros p t d k NA L (s & S & K) O m. unfold center_of. rewrite (times_lasting _ _ _ L). cbn [bind]. rewrite (directed_plain _ NA).
  assert (KD : bind (item_get ck "directionType" p) (fun v => lower_of ck v) = Ok k) by (unfold item_get; unfold holds in S; rewrite S; cbn [bind lower_of]; now rewrite K).
  rewrite KD. cbn [bind]. fold m.
  assert (N : forall x, In x ["j2000"; "azelgeo"; "azelgeo_azelfile"; "natif"]%string -> String.eqb k x = false).
  { intros x I. apply String.eqb_neq. intros ->. now apply O. }
  rewrite !(N "j2000"%string), !(N "azelgeo"%string), !(N "azelgeo_azelfile"%string), !(N "natif"%string) by (cbn; tauto). split.
  - intros e ->. reflexivity.
  - intros radec altaz -> SR. cbn [bind fst snd].
    destruct (SR "decal_ra"%string) as (dr & DR); [cbn; tauto|]. destruct (SR "decal_dec"%string) as (dd & DD); [cbn; tauto|].
    destruct (by_horizon p) eqn:BH.
    + destruct (shifts_ok p m (fst altaz) (snd altaz) SR) as (r & E). rewrite E. cbn [bind]. eexists. split; [reflexivity|]. split; [reflexivity|]. split; [intros _; now apply shifted_both|].
      intros N1 N2. unfold by_horizon in BH. rewrite (proj2 (has_key_lacks _ _) N1), (proj2 (has_key_lacks _ _) N2) in BH. discriminate.
    + cbn [bind]. unfold shifted_radec. rewrite (shift_asked _ _ _ DR), (shift_asked _ _ _ DD). cbn [bind]. eexists. split; [reflexivity|]. split; [reflexivity|]. split.
      * intros (v & [H|H]); unfold by_horizon in BH; [rewrite (proj2 (has_key_spec _ _) (ex_intro _ v H)) in BH|rewrite (proj2 (has_key_spec "decal_el" _) (ex_intro _ v H)), orb_true_r in BH]; discriminate.
      * intros _ _ r q R Q. apply shift_asked in R, Q. apply shift_asked in DR, DD. rewrite DR in R. rewrite DD in Q. injection R as <-. injection Q as <-.
        cbn [c_ra c_dec fst snd]. split; (eexists; split; [reflexivity|apply constrain_spec; lra]).
Qed.

(** Whatever is asked, the coordinates are those of a point of the sky. *)
Theorem center_range : forall p c, center_of W p = Ok c -> c_type c <> "azelgeo_azelfile"%string ->
  (c_type c = "natif"%string /\ c_ra c = None /\ c_dec c = None) \/
  exists ra dec, c_ra c = Some ra /\ c_dec c = Some dec /\ (0 <= ra <= 360)%Q /\ (-90 <= dec <= 90)%Q.
Proof.
  intros p c. unfold center_of. destruct (times_of W p) as [[[t e] d]|]; cbn [bind]; [|discriminate].
  destruct (bind (item_get ck "directionType" (directed p)) _) as [k|]; cbn [bind]; [|discriminate].
  assert (R : forall q r, shifted_radec W (directed p) q = Ok r -> exists ra dec, fst r = Some ra /\ snd r = Some dec /\ (0 <= ra <= 360)%Q /\ (-90 <= dec <= 90)%Q).
  { intros q r. unfold shifted_radec. destruct (shift_of W "decal_ra" _); cbn [bind]; [|discriminate]. destruct (shift_of W "decal_dec" _); cbn [bind]; [|discriminate].
    intro H. injection H as <-. do 2 eexists. split; [reflexivity|]. split; [reflexivity|]. split; apply constrain_range; lra. }
  assert (F : forall x, bind x (fun c0 => Ok (mkCenter (fst c0) (snd c0) k)) = Ok c -> (forall r, x = Ok r -> exists ra dec, fst r = Some ra /\ snd r = Some dec /\ (0 <= ra <= 360)%Q /\ (-90 <= dec <= 90)%Q) ->
    exists ra dec, c_ra c = Some ra /\ c_dec c = Some dec /\ (0 <= ra <= 360)%Q /\ (-90 <= dec <= 90)%Q).
  { intros [r|] H G; cbn [bind] in H; [|discriminate]. injection H as <-. exact (G r eq_refl). }
  assert (B : forall A (x : res A) f r, bind x f = Ok r -> exists y, x = Ok y /\ f y = Ok (r : option Q * option Q)) by (intros A [y|] f r H; [now exists y|discriminate]).
  destruct (String.eqb k "j2000"); [|destruct (String.eqb k "azelgeo"); [|destruct (String.eqb k "azelgeo_azelfile") eqn:KF; [|destruct (String.eqb k "natif") eqn:KN]]]; intros H N.
  - right. apply (F _ H). intros r E. apply B in E as (x & _ & E). apply B in E as (y & _ & E). apply B in E as (z & _ & E). exact (R z r E).
  - right. apply (F _ H). intros r E. apply B in E as (x & _ & E). apply B in E as (y & _ & E). apply B in E as (z & _ & E). exact (R z r E).
  - cbn [bind] in H. injection H as <-. apply String.eqb_eq in KF. now elim N.
  - left. cbn [bind] in H. injection H as <-. apply String.eqb_eq in KN as ->. now repeat split.
  - right. apply (F _ H). intros r E. apply B in E as (x & _ & E). apply B in E as (z & _ & E). exact (R z r E).
Qed.
(** Recording the file of directions in the property changes nothing later. *)
Theorem center_again : forall p, center_of W (directed p) = center_of W p /\ directed (directed p) = directed p.
Proof.
  intros p. assert (T : times_of W (directed p) = times_of W p) by (unfold times_of, item_get; now rewrite !directed_get by discriminate).
  assert (D : directed (directed p) = directed p).
  { unfold directed at 1. unfold has_key at 1. rewrite directed_get by discriminate. fold (has_key "azelFile" p). destruct (has_key "azelFile" p) eqn:E; [|reflexivity].
    unfold directed. rewrite E. clear. induction p as [|[a b] p IH]; [reflexivity|]. cbn [dict_set]. destruct (String.eqb "directionType" a) eqn:F; cbn [dict_set]; rewrite F; [reflexivity|now rewrite IH]. }
  split; [|exact D]. unfold center_of. now rewrite T, D.
Qed.
(** A shifted right ascension is not taken modulo a turn. *)
Theorem center_wrap_refuted : forall p t d ra dec dr dd, lacks p "azelFile" -> lasting W p t d -> directs p "j2000" -> has_angles W p ra dec ->
  lacks p "decal_az" -> lacks p "decal_el" -> asked W p "decal_ra" dr -> asked W p "decal_dec" dd -> (360 < ra + dr < 720 \/ -360 < ra + dr < 0)%Q ->
  exists c x, center_of W p = Ok c /\ c_ra c = Some x /\ forall k : Z, ~ (x == ra + dr + 360 * inject_Z k)%Q.
Proof.
  intros p t d ra dec dr dd NA L K A N1 N2 R D O. destruct (center_tracked p t d ra dec dr dd NA L K A N1 N2 R D) as (c & E & (x & X & C) & _).
  exists c, x. split; [exact E|]. split; [exact X|]. intros k Hk. unfold clamped in C.
  assert (Z : (x == 360 \/ x == 0)%Q) by (destruct C as [[_ C]|[[_ C]|[C _]]]; lra).
  destruct O as [O|O].
  - assert (x == 360)%Q by (destruct C as [[C _]|[[_ C]|[C _]]]; lra). assert (B : (-1 < inject_Z k < 0)%Q) by lra.
    change (-1)%Q with (inject_Z (-1)) in B. change 0%Q with (inject_Z 0) in B. rewrite <- !Zlt_Qlt in B. lia.
  - assert (x == 0)%Q by (destruct C as [[_ C]|[[C _]|[C _]]]; lra). assert (B : (0 < inject_Z k < 1)%Q) by lra.
    change 1%Q with (inject_Z 1) in B. change 0%Q with (inject_Z 0) in B. rewrite <- !Zlt_Qlt in B. lia.
Qed.
(** What is missing. *)
Theorem center_refused : forall p,
  (lacks p "duration" -> center_of W p = Err EKeyError) /\
  (forall v d, holds p "duration" v -> w_delta ck W v = Ok d -> lacks p "startTime" -> center_of W p = Err EKeyError) /\
  (forall t d, lasting W p t d -> lacks p "azelFile" -> lacks p "directionType" -> center_of W p = Err EKeyError) /\
  (forall v e, holds p "duration" v -> w_delta ck W v = Err e -> center_of W p = Err e).
Proof.
  intros p. unfold holds, lacks. split; [|split; [|split]].
  - intro D. unfold center_of, times_of, item_get. now rewrite D.
  - intros v d D E S. unfold center_of, times_of, item_get. rewrite D. cbn [bind]. rewrite E. cbn [bind]. now rewrite S.
  - intros t d L A D. unfold center_of. rewrite (times_lasting _ _ _ L). cbn [bind]. rewrite (directed_plain _ A). unfold item_get. now rewrite D.
  - intros v e D E. unfold center_of, times_of, item_get. rewrite D. cbn [bind]. now rewrite E.
Qed.
End Centers.
