(** Replayed parsets: errors, J2000 directions, receivers. *)
From Coq Require Import Ascii String List Arith ZArith QArith Bool Lia.
From Verif Require Import Base M_Polar M_Dedisperse M_Pipeline M_PText P_PText M_POptions M_Parset P_Parset P_Parset2 P_Parset3 M_Replay P_Replay P_Replay2.
Import ListNotations.
Open Scope nat_scope.
Open Scope list_scope.

(** A receiver of that name. *)
Definition named {ck} (s : string) (x : item ck) : bool := match x with IStr _ t => String.eqb t s | _ => false end.
Definition at_most_once {ck} (s : string) (l : list (item ck)) : Prop := length (filter (named s) l) <= 1.
Definition list_text {ck} (l : list (item ck)) : string := ("[" ++ join "," (map (show_item ck) l) ++ "]")%string.

Section Replay.
Variable ck : clock.
Variable ms : date ck -> Z.
Variable plus : date ck -> Z -> date ck.
Variable target : Type.
Variable fixed : property ck -> res (target * (string * string)).
Variable solar : pval ck -> date ck -> res target.
Variable next_transit : target -> date ck -> date ck.
Notation get := (dict_get String.eqb).
Notation replay := (replay ck ms plus target fixed solar next_transit).

(** ** Dates *)
Lemma shift_days : forall from start d, (start mod 1000 = 0)%Z -> shift from start d -> (d = (from / 86400000 - start / 86400000) * 86400000)%Z.
Proof.
  intros from start d W (D & D' & sec & tod & H1 & H2 & H3 & H4 & H5).
  pose proof (Z.div_mod start 1000 ltac:(lia)) as A. rewrite W in A. assert (E : start = (1000 * sec)%Z) by lia.
  assert (F : (from / 86400000 = D)%Z) by (symmetry; apply (Z.div_unique from 86400000 D (from - D * 86400000)); lia).
  assert (G : (start / 86400000 = D')%Z) by (symmetry; apply (Z.div_unique start 86400000 D' tod); lia). lia.
Qed.
Theorem replay_days : forall text p from duration u start, decode ck text = Ok p -> replay p from duration false = Ok u -> first_start p (PTime ck start) -> (ms start mod 1000 = 0)%Z ->
  exists n, (0 <= n)%Z /\ replay_of ck plus target fixed solar next_transit p (n * 86400000) duration u
    /\ ((forall t d, ms (plus t d) = ms t + d)%Z ->
        (ms (plus start (n * 86400000)) / 86400000 = ms from / 86400000 /\ ms (plus start (n * 86400000)) mod 86400000 = ms start mod 86400000)%Z).
Proof.
  intros text p from duration u start D H (a & A & S0) W. destruct (replay_whole ck plus target fixed solar next_transit ms text p from duration false u D H) as (_ & start' & d & (a' & A' & S') & SH & P & R).
  assert (a' = a) by congruence. subst a'. assert (start' = start) by congruence. subst start'. apply shift_days in SH; [|exact W]. exists (ms from / 86400000 - ms start / 86400000)%Z. split; [lia|]. rewrite <- SH. split; [exact R|]. intro LAW. rewrite LAW.
  pose proof (Z.div_mod (ms start) 86400000 ltac:(lia)) as B. pose proof (Z.mod_pos_bound (ms start) 86400000 ltac:(lia)) as C. split.
  - symmetry. apply (Z.div_unique _ 86400000 _ (ms start mod 86400000)); lia.
  - symmetry. apply (Z.mod_unique _ 86400000 (ms from / 86400000)); lia.
Qed.
(** The new start may be before [from_time]. *)
Theorem replay_before_refuted : forall from start d, (forall t e, ms (plus t e) = ms t + e)%Z -> (ms start mod 1000 = 0)%Z -> shift (ms from) (ms start) d ->
  (ms (plus start d) < ms from <-> ms start mod 86400000 < ms from mod 86400000)%Z.
Proof.
  intros from start d LAW W SH. apply shift_days in SH; [|exact W]. rewrite LAW, SH. pose proof (Z.div_mod (ms start) 86400000 ltac:(lia)). pose proof (Z.div_mod (ms from) 86400000 ltac:(lia)). lia.
Qed.

(** ** Errors *)
Theorem replay_errors : forall p from duration same,
  ((forall v, ~ first_start p v) -> replay p from duration same = Err EKeyError)
  /\ (forall v, first_start p v -> same = true -> replay p from duration same = Err ETypeError)
  /\ (forall v, first_start p v -> same = false -> (forall t, v <> PTime ck t) -> replay p from duration same = Err EAttributeError)
  /\ (forall t d, first_start p (PTime ck t) -> same = false -> shift (ms from) (ms t) d -> (d < 0)%Z -> replay p from duration same = Err EValueError).
Proof.
  intros p from duration same. unfold M_Replay.replay. split; [|split; [|split]].
  - intro N. destruct (dict_get Z.eqb 0%Z (p_anabeams ck p)) as [a|] eqn:EA; [|reflexivity]. destruct (get "startTime"%string a) as [v|] eqn:ES; [|reflexivity]. exfalso. apply (N v). now exists a.
  - intros v (a & A & S0) ->. now rewrite A, S0.
  - intros v (a & A & S0) -> N. rewrite A, S0. destruct v; try reflexivity. now destruct (N t).
  - intros t d (a & A & S0) -> SH L. rewrite A, S0. rewrite <- (shift_unique _ _ _ _ SH (shift_ok ck ms from t)). apply Z.ltb_lt in L. now rewrite L.
Qed.
Theorem replay_past : forall p from duration t, first_start p (PTime ck t) -> (ms t mod 1000 = 0)%Z -> (ms from / 86400000 < ms t / 86400000)%Z -> replay p from duration false = Err EValueError.
Proof.
  intros p from duration t F W L. pose proof (shift_ok ck ms from t) as SH. destruct (replay_errors p from duration false) as (_ & _ & _ & E). apply (E t _ F eq_refl SH). apply shift_days in SH; [|exact W]. lia.
Qed.
(** Later on the same day, the replay is refused if the start has a small fraction of a second. *)
Theorem replay_fraction_refuted : forall p from duration t, first_start p (PTime ck t) -> (0 < ms t mod 1000 < 500)%Z -> (ms from / 86400000 = ms t / 86400000)%Z -> replay p from duration false = Err EValueError.
Proof.
  intros p from duration t F W L. pose proof (shift_ok ck ms from t) as SH. destruct (replay_errors p from duration false) as (_ & _ & _ & E). apply (E t _ F eq_refl SH).
  set (d := (new_start ck ms from t - ms t)%Z) in *. destruct SH as (D & D' & sec & tod & H1 & H2 & H3 & H4 & H5).
  pose proof (Z.div_mod (ms t) 1000 ltac:(lia)) as A. assert (S0 : (sec = ms t / 1000)%Z) by lia.
  assert (F1 : (ms from / 86400000 = D)%Z) by (symmetry; apply (Z.div_unique (ms from) 86400000 D (ms from - D * 86400000)); lia).
  pose proof (Z.div_mod (ms t) 86400000 ltac:(lia)) as B. pose proof (Z.mod_pos_bound (ms t) 86400000 ltac:(lia)) as C. lia.
Qed.

(** ** J2000 *)
Lemma direction_text : forall text s, read_value ck "directionType" text = Ok (PStr ck s) -> has_char ":" s = true \/ exists t, s = lower t.
Proof.
  intros text s H. unfold read_value in H. change (has_sub "angle" (lower "directionType")) with false in H. change (has_sub "duration" (lower "directionType")) with false in H. cbv zeta in H. set (t := drop_char quote (drop_char newline text)) in *.
  destruct (starts_with "[" t && ends_with "]" t); [apply res_bind in H as (? & _ & H); discriminate|]. destruct (String.eqb (lower t) "true"); [discriminate|]. destruct (String.eqb (lower t) "false"); [discriminate|]. destruct (isdigit t); [discriminate|].
  destruct (has_char ":" t) eqn:C; [destruct (read_time ck (strip t)); [discriminate|]; injection H as <-; now left|]. injection H as <-. right. now exists t.
Qed.
Lemma all_beams : forall text p b, decode ck text = Ok p -> In b (p_anabeams ck p ++ p_digibeams ck p ++ p_centers ck p) -> from_texts ck (snd b).
Proof.
  intros text p b D I. destruct (decode_texts ck text p D) as (_ & _ & FA & FB & FC). unfold beams_from in *. rewrite Forall_forall in FA, FB, FC. apply in_app_or in I as [I|I]; [now apply FA|]. apply in_app_or in I as [I|I]; [now apply FB|now apply FC].
Qed.
Theorem direction_refuted : forall text p b, decode ck text = Ok p -> In b (p_anabeams ck p ++ p_digibeams ck p ++ p_centers ck p) -> get "directionType"%string (snd b) <> Some (PStr ck "J2000").
Proof.
  intros text p b D I G. destruct (all_beams text p b D I) as (_ & R). apply R in G as (tx & G). apply direction_text in G as [G|(t & G)]; [discriminate|].
  destruct t as [|c t]; [discriminate|]. cbn in G. injection G as G _. revert G. clear. destruct c as [[] [] [] [] [] [] [] []]; discriminate.
Qed.
Theorem direction_written : read_value ck "directionType" "J2000" = Ok (PStr ck "j2000") /\ read_value ck "directionType" "j2000" = Ok (PStr ck "j2000").
Proof. split; reflexivity. Qed.
Lemma forall2_in : forall A B (R : A -> B -> Prop) l m a, Forall2 R l m -> In a l -> exists b, In b m /\ R a b.
Proof. intros A B R l m a F. induction F as [|x y l m H F IH]; intros []; [subst; exists y; split; [now left|exact H]|]. destruct IH as (b & I & E); [assumption|]. exists b. split; [now right|exact E]. Qed.
Lemma some_block : forall p d duration u b, replay_of ck plus target fixed solar next_transit p d duration u -> In b (p_anabeams ck p ++ p_digibeams ck p ++ p_centers ck p) ->
  exists o blk, made ck plus target fixed solar next_transit o d duration (snd b) blk.
Proof.
  intros p d duration u b [L M P _ _] I. assert (N : forall i x, nth_error (p_anabeams ck p) i = Some x -> exists c, nth_error (contents u) i = Some c).
  { intros i x E. apply nth_error_lt. rewrite L. apply nth_error_Some. congruence. }
  apply in_app_or in I as [I|I].
  - apply In_nth_error in I as (i & I). destruct (N i b I) as (c & C). destruct (M i b c I C) as (X & _). now exists anabeam_options, (fst (fst c)).
  - destruct (P b I) as (i & LI & BI). destruct (nth_error_lt _ _ _ LI) as (x & EX). destruct (N i x EX) as (c & C). destruct (M i x c EX C) as (_ & X & Y). apply in_app_or in I as [I|I].
    + destruct (forall2_in _ _ _ _ _ b X) as (blk & _ & Q); [now apply filter_In|]. now exists beam_options, blk.
    + destruct (forall2_in _ _ _ _ _ b Y) as (blk & _ & Q); [now apply filter_In|]. now exists phasecenter_options, blk.
Qed.
(** A file with a beam tracking J2000 coordinates is not replayed. *)
Theorem j2000_refuted : forall text p b, decode ck text = Ok p -> In b (p_anabeams ck p ++ p_digibeams ck p ++ p_centers ck p) ->
  get "trackingType"%string (snd b) <> None -> get "directionType"%string (snd b) = Some (PStr ck "j2000") -> (forall t x, solar (PStr ck "j2000") t <> Ok x) ->
  forall from duration same u, replay p from duration same <> Ok u.
Proof.
  intros text p b D I T G N from duration same u H. destruct (replay_whole ck plus target fixed solar next_transit ms text p from duration same u D H) as (_ & start & d & _ & _ & _ & R).
  destruct (some_block p d duration u b R I) as (o & blk & _ & A). assert (NE : ~ equatorial ck (snd b)) by (unfold equatorial; rewrite G; intros [E|E]; discriminate).
  destruct (a_solar _ _ _ _ _ _ _ _ _ _ A T NE) as (v & tg & t & E & _ & X & _). rewrite G in E. injection E as <-. exact (N _ _ X).
Qed.
(** The transit kept is the next one after the new start. *)
Theorem transit_kept : forall text p from duration u i b c, decode ck text = Ok p -> replay p from duration false = Ok u ->
  nth_error (p_anabeams ck p) i = Some b -> nth_error (contents u) i = Some c -> get "trackingType"%string (snd b) <> None ->
  exists start d t tg, first_start p (PTime ck start) /\ shift (ms from) (ms start) d /\ get "startTime"%string (snd b) = Some (PTime ck t)
    /\ ((exists angles, fixed (snd b) = Ok (tg, angles)) \/ exists v, get "directionType"%string (snd b) = Some v /\ solar v (plus t d) = Ok tg)
    /\ value (fst (fst c)) "transitDate" = Some (SStr (show_isot ck (next_transit tg (plus t d)) ++ "Z")%string).
Proof.
  intros text p from duration u i b c D H EB EC T. destruct (replay_whole ck plus target fixed solar next_transit ms text p from duration false u D H) as (_ & start & d & F & SH & _ & R).
  destruct (ro_beams _ _ _ _ _ _ _ _ _ _ R i b c EB EC) as ((_ & A) & _). exists start, d.
  destruct (get "directionType"%string (snd b)) as [v|] eqn:G.
  - assert (NE : ~ equatorial ck (snd b)).
    { assert (I : In b (p_anabeams ck p ++ p_digibeams ck p ++ p_centers ck p)) by (apply in_or_app; left; now apply nth_error_In in EB). pose proof (direction_refuted text p b D I) as N. unfold equatorial. rewrite G in *. intros [E|E]; [discriminate|contradiction]. }
    destruct (a_solar _ _ _ _ _ _ _ _ _ _ A T NE) as (v' & tg & t & E & S0 & X & _ & _ & V). assert (v' = v) by congruence. subst v'. exists t, tg. split; [exact F|]. split; [exact SH|]. split; [exact S0|]. split; [right; exists v; now split|exact V].
  - assert (EQ : equatorial ck (snd b)) by now left. destruct (a_fixed _ _ _ _ _ _ _ _ _ _ A T EQ) as (tg & ra & dec & t & X & S0 & _ & _ & V). exists t, tg. split; [exact F|]. split; [exact SH|]. split; [exact S0|]. split; [left; exists (ra, dec); exact X|exact V].
Qed.

(** ** Receivers *)
Lemma remove_first_none : forall s (l : list (item ck)), filter (named s) l = [] -> filter (fun x => negb (named s x)) l = l.
Proof. induction l as [|x l IH]; intro H; [reflexivity|]. cbn [filter] in *. destruct (named s x); [discriminate|]. cbn [negb]. now rewrite IH. Qed.
Lemma remove_first_filter : forall s l, at_most_once s l -> remove_first ck s l = filter (fun x => negb (named s x)) l.
Proof.
  unfold at_most_once. induction l as [|x l IH]; intro H; [reflexivity|]. cbn [filter] in H. destruct x as [n|t|t]; cbn [remove_first filter named negb] in *; [rewrite IH by exact H; reflexivity| |rewrite IH by exact H; reflexivity].
  destruct (String.eqb t s) eqn:E; cbn [negb].
  - symmetry. apply remove_first_none. cbn [length] in H. destruct (filter (named s) l) eqn:F; [reflexivity|]. exfalso. cbn in H. lia.
  - now rewrite IH.
Qed.
Lemma once_filter : forall s f (l : list (item ck)), at_most_once s l -> at_most_once s (filter f l).
Proof.
  intros s f l. unfold at_most_once. induction l as [|x l IH]; intro H; [exact H|]. cbn [filter] in *. destruct (named s x) eqn:N; destruct (f x); cbn [filter]; rewrite ?N; cbn [length] in *; try (apply IH; lia); try lia.
  assert (Z0 : length (filter (named s) l) = 0) by lia. apply length_zero_iff_nil in Z0. clear - Z0. assert (G : filter (named s) (filter f l) = []).
  { induction l as [|y l IH]; [reflexivity|]. cbn [filter] in *. destruct (named s y) eqn:E; [discriminate|]. destruct (f y); cbn [filter]; rewrite ?E; apply IH; exact Z0. } rewrite G. cbn. lia.
Qed.
Theorem receivers : forall text p from duration u, decode ck text = Ok p -> replay p from duration false = Ok u ->
  match get "hd_receivers"%string (p_output ck p) with
  | None => value (u_output u) "hd_receivers" = Some (SStr "[undysputed]")
  | Some (PList _ l) => at_most_once "seti" l -> at_most_once "codalema" l ->
      value (u_output u) "hd_receivers" = Some (SStr (list_text (filter (fun x => negb (named "seti" x || named "codalema" x)) l)))
  | Some _ => False
  end.
Proof.
  intros text p from duration u D H. destruct (decode_texts ck text p D) as ((KO & _) & (KU & _) & FA & FB & FC). apply texts_keyed in FA, FB, FC.
  unfold M_Replay.replay in H. destruct (dict_get Z.eqb 0%Z (p_anabeams ck p)) as [a|] eqn:EA; [|discriminate]. destruct (get "startTime"%string a) as [v|] eqn:ES; [|discriminate]. destruct v as [| | |start| |]; try discriminate.
  destruct (new_start ck ms from start - ms start <? 0)%Z eqn:LT; [discriminate|]. set (d := (new_start ck ms from start - ms start)%Z) in *.
  apply res_bind in H as (ko & HO & H). apply res_bind in H as (u1 & H1 & H). apply res_bind in H as (u2 & H2 & H). apply res_bind in H as (u3 & H3 & H). apply res_bind in H as (kw & HW & H). injection H as <-.
  apply anas_made in H1 as (cs & C1 & F1 & O1 & P1); [|exact FA].
  apply (beams_made _ _ _ _ _ _ num_blocks pc_blocks) in H2 as (L2 & O2 & P2 & I2 & N2); [|apply adds_num|apply beam_points|exact FB].
  apply (beams_made _ _ _ _ _ _ pc_blocks num_blocks) in H3 as (L3 & O3 & P3 & I3 & N3); [|apply adds_center|apply center_points|exact FC].
  apply output_params in HW as (KW & _ & HR); [|exact KU]. cbn [set_output_config u_output]. rewrite P3, P2, P1. cbn [set_observation_config u_output new_user].
  assert (FK : is_field output_options "hd_receivers") by (unfold is_field; cbn; tauto). rewrite value_new by assumption.
  unfold fewer_receivers in HR. rewrite copy_get in HR. change (has_field "hd_receivers" output_options) with true in HR. cbn iota in HR.
  destruct (get "hd_receivers"%string (p_output ck p)) as [w|] eqn:G; cbn [option_map] in HR.
  - destruct w; cbn [uval_of] in HR; try discriminate. injection HR as <-. intros S1 S2. rewrite get_set_same. cbn [String.eqb Ascii.eqb Bool.eqb]. cbn [store]. unfold list_text. do 6 f_equal.
    rewrite (remove_first_filter "seti" l S1), remove_first_filter by now apply once_filter. clear. induction l as [|x l IH]; [reflexivity|]. cbn [filter]. destruct (named "seti" x); cbn [negb orb filter]; [exact IH|]. destruct (named "codalema" x); cbn [negb]; [exact IH|]. now rewrite IH.
  - injection HR as <-. rewrite copy_get. change (has_field "hd_receivers" output_options) with true. cbn iota. rewrite G. reflexivity.
Qed.
(** With a space after the comma, the receiver is not recognised. *)
Theorem receiver_space_refuted : forall text p from duration u v, decode ck text = Ok p -> replay p from duration false = Ok u ->
  read_value ck "hd_receivers" "[undysputed, seti]" = Ok v -> get "hd_receivers"%string (p_output ck p) = Some v -> value (u_output u) "hd_receivers" = Some (SStr "[undysputed, seti]").
Proof.
  intros text p from duration u v D H V G. pose proof (receivers text p from duration u D H) as R. assert (E : v = PList ck [IStr ck "undysputed"; IStr ck " seti"]) by (change (read_value ck "hd_receivers" "[undysputed, seti]") with (Ok (PList ck [IStr ck "undysputed"; IStr ck " seti"])) in V; congruence).
  rewrite G, E in R. rewrite R; [reflexivity| |]; unfold at_most_once; cbn; lia.
Qed.
End Replay.
