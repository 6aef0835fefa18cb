(** Replayed parsets: what a replay needs. *)
From Coq Require Import Ascii String List Arith ZArith QArith Bool Lia.
From Verif Require Import Base M_Polar M_Dedisperse M_Pipeline M_PText P_PText M_POptions M_Parset P_Parset P_Parset2 P_Parset3 M_Replay P_Replay P_Replay2 P_Replay3.
Import ListNotations.
Open Scope nat_scope.
Open Scope list_scope.

Section Replay.
Variable ck : clock.
Variable ms : date ck -> Z.
Variable plus : date ck -> Z -> date ck.
Variable target : Type.
Variable fixed : property ck -> res (target * (string * string)).
Variable solar : pval ck -> date ck -> res target.
Variable next_transit : target -> date ck -> date ck.
Notation get := (dict_get String.eqb).
Notation replay := (replay ck ms plus target fixed solar next_transit).
Notation new_parameters := (new_parameters ck plus target fixed solar next_transit).

Definition possible (q : property ck) : Prop :=
  (forall v, get "startTime"%string q = Some v -> exists t, v = PTime ck t) /\
  (forall v, get "trackingType"%string q = Some v -> v = PStr ck "tracking" /\ exists t, get "startTime"%string q = Some (PTime ck t)).
Lemma params_possible : forall o d duration q kw, has_field "trackingType" o = true -> has_field "startTime" o = true -> new_parameters d duration q o = Ok kw -> possible q.
Proof.
  intros o d duration q kw FT FS H. unfold M_Replay.new_parameters in H. rewrite FT in H. apply res_bind in H as (p1 & H1 & H). apply res_bind in H as (p3 & H3 & H).
  pose proof (copy_get ck q o "startTime") as CG. rewrite FS in CG.
  assert (D : forall v, get "startTime"%string q = Some v -> exists t, v = PTime ck t).
  { intros v V. rewrite V in CG. unfold move_start in H1. rewrite CG in H1. cbn [option_map] in H1. destruct v; try discriminate. now eexists. }
  split; [exact D|]. intros v V. rewrite V in H. apply res_bind in H as (p4 & H4 & _). unfold pointed in H4. rewrite V in H4. destruct (is_text ck "tracking" v) eqn:T; [|discriminate]. apply is_text_ok in T. split; [exact T|].
  destruct (get "startTime"%string q) as [w|] eqn:S; [destruct (D w eq_refl) as (t & ->); now exists t|]. exfalso.
  cbn [option_map] in CG. unfold move_start in H1. rewrite CG in H1. injection H1 as <-.
  assert (C3 : get "startTime"%string p3 = None).
  { assert (C2 : get "startTime"%string (move_duration ck duration (copy_fields ck q o)) = None) by (unfold move_duration; destruct duration; [rewrite get_set_same|]; exact CG).
    unfold move_filter in H3. destruct (get "filterTime"%string (move_duration ck duration (copy_fields ck q o))) as [[| | | |l| |]|]; try discriminate; try (injection H3 as <-; exact C2);
      try (destruct s; [|discriminate]; injection H3 as <-; now rewrite get_set_same).
    apply res_bind in H3 as (l' & _ & H3). injection H3 as <-. now rewrite get_set_same. }
  apply res_bind in H4 as ((tg, angles) & _ & H4). apply res_bind in H4 as (t & H4 & _). unfold start_of in H4.
  destruct angles as [(ra, dec)|]; [rewrite !get_set_same in H4; cbn in H4|]; rewrite C3 in H4; discriminate.
Qed.
Lemma anas_possible : forall d duration l u u', replay_anas ck plus target fixed solar next_transit d duration l u = Ok u' -> Forall (fun b => possible (snd b)) l.
Proof.
  intros d duration l. induction l as [|(i, q) l IH]; intros u u' H; [constructor|]. cbn [replay_anas] in H. apply res_bind in H as (kw & H1 & H2). constructor; [|exact (IH _ _ H2)].
  exact (params_possible anabeam_options _ _ _ _ eq_refl eq_refl H1).
Qed.
Lemma beams_possible : forall d duration add o l, has_field "trackingType" o = true -> has_field "startTime" o = true -> forall u u',
  replay_beams ck plus target fixed solar next_transit d duration add o l u = Ok u' -> Forall (fun b => possible (snd b)) l.
Proof.
  intros d duration add o l FT FS. induction l as [|(i, q) l IH]; intros u u' H; [constructor|]. cbn [replay_beams] in H. apply res_bind in H as (kw & H1 & H). apply res_bind in H as (k & _ & H). apply res_bind in H as (u2 & _ & H).
  constructor; [|exact (IH _ _ H)]. exact (params_possible _ _ _ _ _ FT FS H1).
Qed.
Theorem replay_needs : forall p from duration same u b, replay p from duration same = Ok u -> In b (p_anabeams ck p ++ p_digibeams ck p ++ p_centers ck p) ->
  (forall v, get "startTime"%string (snd b) = Some v -> exists t, v = PTime ck t) /\
  (forall v, get "trackingType"%string (snd b) = Some v -> v = PStr ck "tracking" /\ exists t, get "startTime"%string (snd b) = Some (PTime ck t)).
Proof.
  intros p from duration same u b H I. change (possible (snd b)). unfold M_Replay.replay in H. destruct (dict_get Z.eqb 0%Z (p_anabeams ck p)) as [a|]; [|discriminate]. destruct (get "startTime"%string a) as [v|]; [|discriminate].
  destruct same; [discriminate|]. destruct v; try discriminate. cbv zeta in H. destruct (_ <? 0)%Z in H; [discriminate|].
  apply res_bind in H as (kw & _ & H). apply res_bind in H as (u1 & H1 & H). apply res_bind in H as (u2 & H2 & H). apply res_bind in H as (u3 & H3 & _).
  apply anas_possible in H1. apply beams_possible in H2; [|reflexivity|reflexivity]. apply beams_possible in H3; [|reflexivity|reflexivity]. rewrite Forall_forall in H1, H2, H3.
  apply in_app_or in I as [I|I]; [exact (H1 b I)|]. apply in_app_or in I as [I|I]; [exact (H2 b I)|exact (H3 b I)].
Qed.
End Replay.
