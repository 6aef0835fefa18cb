(** Replayed parsets: the dates, the directions, the whole parset. *)
From Coq Require Import Ascii String List Arith ZArith QArith Bool Lia.
From Verif Require Import Base M_Polar M_Dedisperse M_Pipeline M_PText P_PText M_POptions M_Parset P_Parset P_Parset2 P_Parset3 M_Replay P_Replay.
Import ListNotations.
Open Scope nat_scope.
Open Scope list_scope.

(** The dates are moved by [d]: the new start has the day of [from] and the time of the old one, to
    the nearest second. *)
Definition shift (from start d : Z) : Prop := exists D D' sec tod : Z,
  (D * 86400000 <= from < (D + 1) * 86400000 /\ 1000 * sec - 500 <= start < 1000 * sec + 500
   /\ 1000 * sec = D' * 86400000 + tod /\ 0 <= tod < 86400000 /\ start + d = D * 86400000 + tod)%Z.
(** The index of the analog beam, written [noBeam]. *)
Definition parent_number {ck} (q : property ck) : option Z :=
  match dict_get String.eqb "noBeam"%string q with
  | None => Some 0%Z
  | Some (PInt _ k) => Some k
  | Some (PBool _ b) => Some (if b then 1%Z else 0%Z)
  | Some _ => None
  end.
Definition belongs {ck} (n i : nat) (b : Z * property ck) : bool :=
  match parent_number (snd b) with
  | Some k => ((k =? Z.of_nat i) || (k =? Z.of_nat i - Z.of_nat n))%Z
  | None => false
  end.
Definition first_start {ck} (p : parset ck) (v : pval ck) : Prop :=
  exists a, dict_get Z.eqb 0%Z (p_anabeams ck p) = Some a /\ dict_get String.eqb "startTime"%string a = Some v.
Lemma parent_number_ok : forall ck (q : property ck) k, parent_index ck q = Ok k <-> parent_number q = Some k.
Proof. intros ck q k. unfold parent_index, parent_number. destruct (dict_get _ _ q) as [[]|]; split; intro H; try discriminate; injection H as <-; reflexivity. Qed.

Section Replay.
Variable ck : clock.
Variable plus : date ck -> Z -> date ck.
Variable target : Type.
Variable fixed : property ck -> res (target * (string * string)).
Variable solar : pval ck -> date ck -> res target.
Variable next_transit : target -> date ck -> date ck.
Notation get := (dict_get String.eqb).
Notation new_parameters := (new_parameters ck plus target fixed solar next_transit).
Notation replayed := (replayed ck plus).

(** ** Directions *)
Lemma params_before : forall o d duration q kw, point_fields o -> keyed q -> new_parameters d duration q o = Ok kw ->
  exists p, keyed p /\ get "startTime"%string p = (match get "startTime"%string q with Some (PTime _ t) => Some (UTime ck (plus t d)) | _ => None end)
    /\ (forall k, ~ In k ["startTime"; "duration"; "filterTime"]%string -> get k p = get k (copy_fields ck q o))
    /\ match get "trackingType"%string q with None => kw = p | Some _ => pointed ck target fixed solar next_transit q p = Ok kw end.
Proof.
  intros o d duration q kw P K H. pose proof P as (FT & FS & FD & FR & FC & FX & NH). unfold M_Replay.new_parameters in H. apply is_field_ok in FT. rewrite FT in H.
  pose proof (copy_keyed ck q o K) as KC. pose proof (copy_get ck q o) as CG. set (p0 := copy_fields ck q o) in *.
  apply res_bind in H as (p1 & H1 & H). apply res_bind in H as (p3 & H3 & H).
  assert (S1 : keyed p1 /\ get "startTime"%string p1 = (match get "startTime"%string q with Some (PTime _ t) => Some (UTime ck (plus t d)) | _ => None end)
               /\ forall k, k <> "startTime"%string -> get k p1 = get k p0).
  { unfold move_start in H1. rewrite CG in H1. pose proof FS as FS'. apply is_field_ok in FS'. rewrite FS' in H1. destruct (get "startTime"%string q) as [v|] eqn:E; cbn [option_map] in H1.
    - destruct v; cbn [uval_of] in H1; try discriminate. injection H1 as <-. split; [now apply set_keyed|]. split; [now rewrite get_set_same|]. intros k N. rewrite get_set_same. apply String.eqb_neq in N. now rewrite N.
    - injection H1 as <-. split; [exact KC|]. split; [rewrite CG, FS', E; reflexivity|reflexivity]. }
  destruct S1 as (K1 & G1 & O1).
  assert (S2 : keyed (move_duration ck duration p1) /\ forall k, k <> "duration"%string -> get k (move_duration ck duration p1) = get k p1).
  { unfold move_duration. destruct duration as [x|]; [|split; [exact K1|reflexivity]]. split; [now apply set_keyed|]. intros k N. rewrite get_set_same. apply String.eqb_neq in N. now rewrite N. }
  destruct S2 as (K2 & O2). set (p2 := move_duration ck duration p1) in *.
  assert (S3 : keyed p3 /\ forall k, k <> "filterTime"%string -> get k p3 = get k p2).
  { unfold move_filter in H3. destruct (get "filterTime"%string p2) as [v|]; [|injection H3 as <-; split; [exact K2|reflexivity]].
    assert (X : exists l, p3 = dict_set String.eqb "filterTime"%string (UList ck l) p2).
    { destruct v; try discriminate. - destruct s; [|discriminate]. injection H3 as <-. now eexists. - apply res_bind in H3 as (l' & _ & H3). injection H3 as <-. now eexists. }
    destruct X as (l & ->). split; [now apply set_keyed|]. intros k N. rewrite get_set_same. apply String.eqb_neq in N. now rewrite N. }
  destruct S3 as (K3 & O3). exists p3. split; [exact K3|]. split; [rewrite O3, O2 by discriminate; exact G1|]. split.
  - intros k N. assert (k <> "startTime" /\ k <> "duration" /\ k <> "filterTime")%string as (N1 & N2 & N3) by (repeat split; intros ->; apply N; cbn; tauto). now rewrite O3, O2, O1.
  - destruct (get "trackingType"%string q) as [v|]; [|injection H as <-; reflexivity]. apply res_bind in H as (p4 & H4 & H). pose proof H4 as H5. apply pointed_get in H5 as (K4 & O4); [|exact K3].
    assert (N4 : get "hd_receivers"%string p4 = None).
    { rewrite O4 by (cbn; intuition discriminate). rewrite O3, O2, O1 by discriminate. rewrite CG. destruct (has_field "hd_receivers" o) eqn:F; [apply is_field_ok in F; contradiction|reflexivity]. }
    unfold fewer_receivers in H. rewrite N4 in H. injection H as <-. exact H4.
Qed.
(** The direction and the transit of a beam. *)
Definition equatorial (q : property ck) : Prop :=
  get "directionType"%string q = None \/ get "directionType"%string q = Some (PStr ck "J2000").
Record aimed (o : list option_entry) (d : Z) (q : property ck) (b : block) : Prop := {
  a_parent : get "trackingType"%string q = None -> forall key, In key ["ra"; "dec"; "transitDate"]%string -> value b key = value (loaded ck o q) key;
  a_kind : forall v, get "trackingType"%string q = Some v -> v = PStr ck "tracking";
  a_fixed : get "trackingType"%string q <> None -> equatorial q -> exists tg ra dec t, fixed q = Ok (tg, (ra, dec)) /\ get "startTime"%string q = Some (PTime ck t)
    /\ value b "ra" = Some (SStr ("'" ++ ra ++ "'")%string) /\ value b "dec" = Some (SStr ("'" ++ dec ++ "'")%string)
    /\ value b "transitDate" = Some (SStr (show_isot ck (next_transit tg (plus t d)) ++ "Z")%string);
  a_solar : get "trackingType"%string q <> None -> ~ equatorial q -> exists v tg t, get "directionType"%string q = Some v /\ get "startTime"%string q = Some (PTime ck t)
    /\ solar v (plus t d) = Ok tg /\ value b "ra" = value (loaded ck o q) "ra" /\ value b "dec" = value (loaded ck o q) "dec"
    /\ value b "transitDate" = Some (SStr (show_isot ck (next_transit tg (plus t d)) ++ "Z")%string) }.
Lemma is_text_ok : forall s (v : pval ck), is_text ck s v = true <-> v = PStr ck s.
Proof. intros s [| | | | |]; cbn; split; intro H; try discriminate; [apply String.eqb_eq in H; now subst|injection H as ->; apply String.eqb_refl]. Qed.
Lemma params_aimed : forall o d duration q kw, point_fields o -> keyed q -> new_parameters d duration q o = Ok kw ->
  aimed o d q (modify_properties ck kw (new_block o)).
Proof.
  intros o d duration q kw P K H. destruct (params_before o d duration q kw P K H) as (p & KP & SP & OP & T). destruct P as (FT & FS & FD & FR & FC & FX & NH).
  destruct (get "trackingType"%string q) as [v|] eqn:ET.
  2: { subst kw. constructor; try congruence. intros _ key I. assert (F : is_field o key) by (cbn in I; destruct I as [<-|[<-|[<-|[]]]]; assumption). rewrite value_new, value_loaded by assumption. rewrite OP by (cbn in I |- *; intuition (subst; discriminate)). rewrite copy_get. apply is_field_ok in F. rewrite F. now destruct (get key q). }
  pose proof (pointed_get ck target fixed solar next_transit _ _ _ T KP) as (KW & OW). unfold pointed in T. rewrite ET in T. destruct (is_text ck "tracking" v) eqn:IT; [|discriminate]. apply is_text_ok in IT. subst v.
  apply res_bind in T as ((tg & angles) & D & T).
  assert (ST : start_of ck p = match get "startTime"%string q with Some (PTime _ t) => Ok (plus t d) | _ => Err EKeyError end).
  { unfold start_of. rewrite SP. now destruct (get "startTime"%string q) as [[]|]. }
  assert (ST2 : start_of ck (match angles with None => p | Some (ra, dec) => dict_set String.eqb "dec"%string (UStr ck (quoted dec)) (dict_set String.eqb "ra"%string (UStr ck (quoted ra)) p) end) = start_of ck p).
  { destruct angles as [(ra & dec)|]; [|reflexivity]. unfold start_of. now rewrite !get_set_same. }
  apply res_bind in T as (t0 & T0 & T). pose proof (eq_trans (eq_sym ST2) T0) as T1. rewrite ST in T1. destruct (get "startTime"%string q) as [[]|] eqn:ES; try discriminate. injection T1 as <-. injection T as <-.
  assert (TR : forall ps, keyed ps -> value (modify_properties ck (dict_set String.eqb "transitDate"%string (UTime ck (next_transit tg (plus t d))) ps) (new_block o)) "transitDate" = Some (SStr (show_isot ck (next_transit tg (plus t d)) ++ "Z")%string)).
  { intros ps KS. rewrite value_new; [|now apply set_keyed|exact FX]. now rewrite get_set_same. }
  constructor.
  - congruence.
  - intros v E. congruence.
  - intros _ EQ. assert (DF : bind (fixed q) (fun x => Ok (fst x, Some (snd x))) = Ok (tg, angles)).
    { destruct EQ as [E|E]; rewrite E in D; exact D. }
    apply res_bind in DF as ((tg' & (ra & dec)) & F & DF). injection DF as <- <-. exists tg', ra, dec, t. split; [exact F|]. split; [exact ES|].
    rewrite !value_new by assumption. rewrite !get_set_same. cbn. repeat split.
  - intros _ NE. unfold equatorial in NE. destruct (get "directionType"%string q) as [v|] eqn:ED; [|exfalso; apply NE; now left].
    destruct (is_text ck "J2000" v) eqn:J; [apply is_text_ok in J; subst v; exfalso; apply NE; now right|]. rewrite ST in D. cbn [bind] in D. apply res_bind in D as (x & X & D). injection D as -> <-. exists v, tg, t. split; [reflexivity|]. split; [exact ES|]. split; [exact X|].
    rewrite !(value_loaded ck) by assumption. rewrite !value_new by assumption. rewrite !get_set_same. cbn [String.eqb Ascii.eqb Bool.eqb].
    rewrite !OP by (cbn; intuition discriminate). rewrite !copy_get. apply is_field_ok in FR, FC. rewrite FR, FC. repeat split; match goal with |- context [get ?k q] => now destruct (get k q) end.
Qed.

(** ** All beams *)
Definition made (o : list option_entry) (d : Z) (duration : option Q) (q : property ck) (b : block) : Prop :=
  replayed o d duration q b /\ aimed o d q b.
Lemma aimed_plain : forall o d q b, aimed o d q b -> aimed o d q (plain b).
Proof.
  intros o d q b [A1 A2 A3 A4]. constructor; [|exact A2| |].
  - intros E key I. rewrite plain_value; [now apply A1|]. intros ->. cbn in I. intuition discriminate.
  - intros E1 E2. rewrite !plain_value by discriminate. now apply A3.
  - intros E1 E2. rewrite !plain_value by discriminate. now apply A4.
Qed.
Lemma params_made : forall o d duration q kw, point_fields o -> keyed q -> new_parameters d duration q o = Ok kw -> made o d duration q (modify_properties ck kw (new_block o)).
Proof. intros. split; [now apply (params_replayed ck plus target fixed solar next_transit)|now apply (params_aimed o d duration)]. Qed.
Lemma made_plain : forall o d duration q b, made o d duration q b -> made o d duration q (plain b).
Proof. intros o d duration q b [A B]. split; [now apply replayed_plain|now apply aimed_plain]. Qed.

Lemma anas_made : forall d duration l u u', Forall (fun b => keyed (snd b)) l -> replay_anas ck plus target fixed solar next_transit d duration l u = Ok u' ->
  exists cs, contents u' = contents u ++ cs /\ Forall2 (fun (b : Z * property ck) c => made anabeam_options d duration (snd b) (fst (fst c)) /\ num_blocks c = [] /\ pc_blocks c = []) l cs
    /\ u_observation u' = u_observation u /\ u_output u' = u_output u.
Proof.
  induction l as [|(k & q) l IH]; intros u u' F H; cbn [replay_anas] in H.
  - injection H as <-. exists []. rewrite app_nil_r. repeat split; constructor.
  - inversion F as [|? ? K F']; subst. apply res_bind in H as (kw & N & H). apply IH in H as (cs & C & F2 & O1 & O2); [|exact F']. exists ((modify_properties ck kw (new_block anabeam_options), [], []) :: cs). rewrite add_analog_effect in C. rewrite C, <- app_assoc. split; [reflexivity|]. split.
    + constructor; [|exact F2]. split; [|split; reflexivity]. cbn [fst]. now apply params_made; [apply ana_points| |].
    + now split.
Qed.

Record adds (sel other : beam_set -> list block) (o : list option_entry) (add : Z -> params ck -> puser -> res puser) : Prop := {
  adds_ok : forall k kw u u', add k kw u = Ok u' -> exists pre c c' post, contents u = pre ++ c :: post /\ contents u' = pre ++ c' :: post
    /\ place (length (contents u)) k (length pre) /\ fst (fst c') = fst (fst c) /\ other c' = other c /\ sel c' = sel c ++ [plain (modify_properties ck kw (new_block o))];
  adds_rest : forall k kw u u', add k kw u = Ok u' -> u_observation u' = u_observation u /\ u_output u' = u_output u }.
Lemma adds_num : adds num_blocks pc_blocks beam_options (add_numerical_beam ck).
Proof.
  constructor; intros k kw u u' H.
  - pose proof (add_numerical_effect ck u k kw) as E. rewrite H in E. destruct E as (pre & c & ns & ps & post & E1 & P & E2). exists pre, (c, ns, ps), (c, ns ++ [plain (modify_properties ck kw (new_block beam_options))], ps), post. repeat split; try assumption; apply P.
  - unfold add_numerical_beam in H. apply res_bind in H as (l & _ & H). injection H as <-. now split.
Qed.
Lemma adds_center : adds pc_blocks num_blocks phasecenter_options (add_phase_center ck).
Proof.
  constructor; intros k kw u u' H.
  - pose proof (add_center_effect ck u k kw) as E. rewrite H in E. destruct E as (pre & c & ns & ps & post & E1 & P & E2). exists pre, (c, ns, ps), (c, ns, ps ++ [plain (modify_properties ck kw (new_block phasecenter_options))]), post. repeat split; try assumption; apply P.
  - unfold add_phase_center in H. apply res_bind in H as (l & _ & H). injection H as <-. now split.
Qed.
Lemma beams_made : forall sel other o add d duration, adds sel other o add -> point_fields o -> forall l u u', Forall (fun b => keyed (snd b)) l ->
  replay_beams ck plus target fixed solar next_transit d duration add o l u = Ok u' ->
  length (contents u') = length (contents u) /\ u_observation u' = u_observation u /\ u_output u' = u_output u
  /\ (forall b, In b l -> exists i, i < length (contents u) /\ belongs (length (contents u)) i b = true)
  /\ forall i c, nth_error (contents u) i = Some c -> exists c' bs, nth_error (contents u') i = Some c' /\ fst (fst c') = fst (fst c) /\ other c' = other c
       /\ sel c' = sel c ++ bs /\ Forall2 (fun (b : Z * property ck) blk => made o d duration (snd b) blk) (filter (belongs (length (contents u)) i) l) bs.
Proof.
  intros sel other o add d duration A P. induction l as [|(x & q) l IH]; intros u u' F H; cbn [replay_beams] in H.
  - injection H as <-. split; [reflexivity|]. split; [reflexivity|]. split; [reflexivity|]. split; [intros b []|]. intros i c E. exists c, []. rewrite app_nil_r. repeat split; [exact E|constructor].
  - inversion F as [|? ? K F']; subst. cbn [snd] in K. apply res_bind in H as (kw & N & H). apply res_bind in H as (k & PI & H). apply res_bind in H as (u1 & AD & H).
    apply IH in H as (L & O1 & O2 & IN & NE); [|exact F']. destruct (adds_rest _ _ _ _ A _ _ _ _ AD) as (R1 & R2). destruct (adds_ok _ _ _ _ A _ _ _ _ AD) as (pre & c0 & c1 & post & E & E1 & PL & Q1 & Q2 & Q3).
    assert (L1 : length (contents u1) = length (contents u)) by (rewrite E, E1, !app_length; reflexivity). rewrite L1 in *. apply parent_number_ok in PI.
    split; [exact L|]. split; [congruence|]. split; [congruence|]. split.
    + intros b [<-|I]; [|now apply IN]. exists (length pre). destruct PL as (PL & PK). split; [exact PL|]. unfold belongs. cbn [snd]. rewrite PI. apply orb_true_iff. rewrite !Z.eqb_eq. exact PK.
    + intros i c EC. assert (LI : i < length (contents u)) by (apply nth_error_Some; congruence). destruct (Nat.eq_dec i (length pre)) as [->|NI].
      * assert (c = c0) by (rewrite E, nth_error_app2, Nat.sub_diag in EC by lia; cbn in EC; congruence). subst c.
        destruct (NE (length pre) c1) as (c' & bs & G1 & G2 & G3 & G4 & G5); [rewrite E1, nth_error_app2, Nat.sub_diag by lia; reflexivity|]. exists c', (plain (modify_properties ck kw (new_block o)) :: bs). split; [exact G1|]. split; [congruence|]. split; [congruence|]. split; [rewrite G4, Q3, <- app_assoc; reflexivity|].
        assert (B : belongs (length (contents u)) (length pre) (x, q) = true) by (unfold belongs; cbn [snd]; rewrite PI; apply orb_true_iff; rewrite !Z.eqb_eq; apply PL). cbn [filter]. rewrite B. constructor; [|exact G5]. cbn [snd]. apply made_plain. now apply params_made.
      * destruct (NE i c) as (c' & bs & G); [|exists c', bs].
        { rewrite E1. rewrite E in EC. destruct (Nat.lt_ge_cases i (length pre)) as [LT|GE]; [rewrite nth_error_app1 in EC |- * by lia; exact EC|]. rewrite nth_error_app2 in EC |- * by lia. destruct (i - length pre) as [|m] eqn:EM; [lia|exact EC]. }
        assert (B : belongs (length (contents u)) i (x, q) = false).
        { unfold belongs. cbn [snd]. rewrite PI. apply orb_false_iff. rewrite !Z.eqb_neq. destruct PL as (PL1 & PL2). lia. }
        cbn [filter]. rewrite B. exact G.
Qed.

(** ** The whole parset *)
Record replay_of (p : parset ck) (d : Z) (duration : option Q) (u : puser) : Prop := {
  ro_length : length (contents u) = length (p_anabeams ck p);
  ro_beams : forall i b c, nth_error (p_anabeams ck p) i = Some b -> nth_error (contents u) i = Some c ->
    made anabeam_options d duration (snd b) (fst (fst c))
    /\ Forall2 (fun (x : Z * property ck) blk => made beam_options d duration (snd x) blk) (filter (belongs (length (p_anabeams ck p)) i) (p_digibeams ck p)) (num_blocks c)
    /\ Forall2 (fun (x : Z * property ck) blk => made phasecenter_options d duration (snd x) blk) (filter (belongs (length (p_anabeams ck p)) i) (p_centers ck p)) (pc_blocks c);
  ro_parents : forall b, In b (p_digibeams ck p ++ p_centers ck p) -> exists i, i < length (p_anabeams ck p) /\ belongs (length (p_anabeams ck p)) i b = true;
  ro_observation : u_observation u = loaded ck observation_options (p_observation ck p);
  ro_output : forall key, key <> "hd_receivers"%string -> value (u_output u) key = value (loaded ck output_options (p_output ck p)) key }.
Lemma forall2_at : forall A B (R : A -> B -> Prop) l m i a b, Forall2 R l m -> nth_error l i = Some a -> nth_error m i = Some b -> R a b.
Proof. intros A B R l m i a b F. revert i. induction F as [|x y l m H F IH]; intros [|i] E1 E2; try discriminate; cbn in *; [congruence|eauto]. Qed.
Lemma forall2_len : forall A B (R : A -> B -> Prop) l m, Forall2 R l m -> length l = length m.
Proof. intros A B R l m F. induction F; cbn; congruence. Qed.
Lemma texts_keyed : forall l, beams_from ck l -> Forall (fun b => keyed (snd b)) l.
Proof. intros l F. apply Forall_forall. intros b I. unfold beams_from in F. rewrite Forall_forall in F. now destruct (F b I). Qed.
Lemma output_params : forall d duration q kw, keyed q -> new_parameters d duration q output_options = Ok kw ->
  keyed kw /\ (forall k, k <> "hd_receivers"%string -> get k kw = get k (copy_fields ck q output_options)) /\ fewer_receivers ck (copy_fields ck q output_options) = Ok kw.
Proof.
  intros d duration q kw K H. unfold M_Replay.new_parameters in H. change (has_field "trackingType" output_options) with false in H. cbn iota in H. pose proof H as H'. apply receivers_get in H' as (A & B); [|now apply copy_keyed]. now split.
Qed.
Variable ms : date ck -> Z.
Notation replay := (replay ck ms plus target fixed solar next_transit).
Lemma shift_ok : forall from start, shift (ms from) (ms start) (new_start ck ms from start - ms start).
Proof.
  intros from start. unfold new_start, whole_second, day. set (w := ((ms start + 500) / 1000)%Z).
  exists (ms from / 86400000)%Z, (w * 1000 / 86400000)%Z, w, (w * 1000 mod 86400000)%Z.
  pose proof (Z.div_mod (ms start + 500) 1000 ltac:(lia)) as A. pose proof (Z.mod_pos_bound (ms start + 500) 1000 ltac:(lia)) as B. fold w in A.
  pose proof (Z.div_mod (ms from) 86400000 ltac:(lia)) as C. pose proof (Z.mod_pos_bound (ms from) 86400000 ltac:(lia)) as D.
  pose proof (Z.div_mod (w * 1000) 86400000 ltac:(lia)) as E. pose proof (Z.mod_pos_bound (w * 1000) 86400000 ltac:(lia)) as F. lia.
Qed.
(** Only one such [d]. *)
Lemma shift_unique : forall from start d e, shift from start d -> shift from start e -> d = e.
Proof. intros from start d e (D & D' & sec & tod & H1 & H2 & H3 & H4 & H5) (E & E' & sec' & tod' & K1 & K2 & K3 & K4 & K5). lia. Qed.
Theorem replay_whole : forall text p from duration same u, decode ck text = Ok p -> replay p from duration same = Ok u ->
  same = false /\ exists start d, first_start p (PTime ck start) /\ shift (ms from) (ms start) d /\ (0 <= d)%Z /\ replay_of p d duration u.
Proof.
  intros text p from duration same u D H. destruct (decode_texts ck text p D) as ((KO & _) & (KU & _) & FA & FB & FC). apply texts_keyed in FA, FB, FC.
  unfold M_Replay.replay in H. destruct (dict_get Z.eqb 0%Z (p_anabeams ck p)) as [a|] eqn:EA; [|discriminate]. destruct (get "startTime"%string a) as [v|] eqn:ES; [|discriminate]. destruct same; [discriminate|]. split; [reflexivity|]. destruct v as [| | |start| |]; try discriminate.
  destruct (new_start ck ms from start - ms start <? 0)%Z eqn:LT; [discriminate|]. set (d := (new_start ck ms from start - ms start)%Z) in *. exists start, d. split; [now exists a|]. split; [apply shift_ok|]. split; [lia|].
  apply res_bind in H as (ko & HO & H). apply res_bind in H as (u1 & H1 & H). apply res_bind in H as (u2 & H2 & H). apply res_bind in H as (u3 & H3 & H). apply res_bind in H as (kw & HW & H). injection H as <-.
  apply anas_made in H1 as (cs & C1 & F1 & O1 & P1); [|exact FA]. cbn in C1.
  apply (beams_made num_blocks pc_blocks) in H2 as (L2 & O2 & P2 & I2 & N2); [|apply adds_num|apply beam_points|exact FB].
  apply (beams_made pc_blocks num_blocks) in H3 as (L3 & O3 & P3 & I3 & N3); [|apply adds_center|apply center_points|exact FC].
  apply output_params in HW as (KW & OW & _); [|exact KU]. pose proof (forall2_len _ _ _ _ _ F1) as LF. assert (LC : length (contents u1) = length (p_anabeams ck p)) by (rewrite C1; symmetry; exact LF). rewrite LC in L2, I2, N2. rewrite L2 in L3, I3, N3.
  assert (CE : contents (set_output_config ck kw u3) = contents u3) by reflexivity.
  constructor.
  - rewrite CE. exact L3.
  - intros i b c EB EC. rewrite CE in EC. destruct (nth_error cs i) as [c0|] eqn:E0; [|apply nth_error_None in E0; assert (i < length (p_anabeams ck p)) by (apply nth_error_Some; congruence); change (@length beam_set cs) with (length cs) in *; exfalso; apply (Nat.lt_irrefl i); eapply Nat.lt_le_trans; [eassumption|]; rewrite LF; exact E0].
    destruct (forall2_at _ _ _ _ _ _ _ _ F1 EB E0) as (M0 & N0 & Q0). destruct (N2 i c0) as (c2 & bs & E2 & A2 & B2 & S2 & G2); [rewrite C1; exact E0|]. destruct (N3 i c2 E2) as (c3 & bs3 & E3 & A3 & B3 & S3 & G3). assert (c3 = c) by congruence. subst c3.
    rewrite N0 in S2. rewrite B2, Q0 in S3. cbn [app] in S2, S3. rewrite A3, A2, B3, S2, S3. now split.
  - intros b I. apply in_app_or in I as [I|I]; [now apply I2|now apply I3].
  - cbn [set_output_config u_observation]. rewrite O3, O2, O1. cbn [set_observation_config u_observation new_user]. unfold loaded. f_equal.
    unfold M_Replay.new_parameters in HO. change (has_field "trackingType" observation_options) with false in HO. cbn iota in HO. unfold fewer_receivers in HO. rewrite copy_get in HO. change (has_field "hd_receivers" observation_options) with false in HO. cbn iota in HO. now injection HO as <-.
  - intros key NK. cbn [set_output_config u_output]. rewrite P3, P2, P1. cbn [set_observation_config u_output new_user]. destruct (in_dec string_dec key (map o_key output_options)) as [FK|FK].
    + rewrite value_new, value_loaded by assumption. rewrite (OW key NK), copy_get. apply is_field_ok in FK. rewrite FK. now destruct (get key (p_output ck p)).
    + unfold loaded. now rewrite !value_absent.
Qed.
End Replay.
