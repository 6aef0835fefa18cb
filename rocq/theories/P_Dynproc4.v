(** The processing of a lane which only averages. *)
From Coq Require Import ZArith QArith Qabs Lqa String Bool List Arith Lia.
From Verif Require Import Base M_Nd P_Nd M_Rebin P_Rebin M_TFArray P_TFArray M_Select M_SData P_SData M_Lane M_Dynspec M_Dynproc P_Dynproc.
Import ListNotations.
Open Scope nat_scope.
Open Scope list_scope.

Section Averaged.
Variable bandpass : nat -> res (list Q).
Variable background : nd M_Rebin.sample -> nd M_Rebin.sample.
Variable nanstd : nd M_Rebin.sample -> M_Rebin.sample.
Variable jump_index : nd M_Rebin.sample -> nat.
Variable time_profile : nd M_Rebin.sample -> list M_Rebin.sample.
Variable fit : list M_Rebin.sample -> list M_Rebin.sample.
Context {A U : Type}.
Variable stokes : lane A -> list Q -> list Q -> nd A -> res (nd M_Rebin.sample).
Variable polar : list U.
Notation proc := (process bandpass background nanstd jump_index time_profile fit stokes polar).

(** Only the averages asked for, in steps of the lane. *)
Definition averages_only (d : dynspec A) (wt wf : Q) : Prop :=
  d_bp d = "none"%string /\ d_edge d = 0%Z /\ (d_rfi d == 0)%Q /\ d_jump d = false /\ d_dm d = None /\
  d_rebin_dt d = Some wt /\ d_rebin_df d = Some wf.
Theorem process_averaged : forall d l f t raw x wt wf bt bf, averages_only d wt wf -> d_lanes d <> [] ->
  select_data d l = Ok (Some (f, t, raw)) -> stokes l f t raw = Ok x -> sh x = [length t; length f; length polar] ->
  (0 < l_dt l)%Q -> (0 < l_df l)%Q -> asked_steps bt wt (l_dt l) -> asked_steps bf wf (l_df l) ->
  0 < bt <= length t -> 0 < bf <= length f ->
  let nt := length t / bt in let nf := length f / bf in
  exists s y, proc d l = Ok (Some s) /\ s_polar s = polar /\
    rebinned nt (length t / nt) t (s_time s) /\ rebinned nf (length f / nf) f (s_freq s) /\
    (forall i k p, i < nt -> k < length f -> p < length polar -> mean_of (bin (fun j => get x [j; k; p]) (length t / nt) i) (get y [i; k; p])) /\
    (forall i k p, i < nt -> k < nf -> p < length polar -> mean_of (bin (fun j => get y [i; j; p]) (length f / nf) k) (get (s_data s) [i; k; p])).
Proof.
  intros d l f t raw x wt wf bt bf (B & E & R & J & D & RT & RF) NE S X Sh PT PF AT AF BT BF nt nf.
  destruct (rebin_spec [] (length t) [length f; length polar] wt (l_dt l) bt x t Sh eq_refl PT AT BT) as (y & t' & E1 & S1 & R1 & G1). fold nt in E1, S1, R1, G1.
  destruct (rebin_spec [nt] (length f) [length polar] wf (l_df l) bf y f S1 eq_refl PF AF BF) as (z & f' & E2 & S2 & R2 & G2). fold nf in E2, S2, R2, G2.
  unfold process. rewrite S. cbn [bind]. rewrite X. cbn [bind].
  rewrite B, E, J, RT, RF. unfold bp_correct.
  change (String.eqb "none" "standard") with false. change (String.eqb "none" "median") with false. change (String.eqb "none" "adjusted") with false.
  cbn iota. cbn [bind]. destruct (d_lanes d) as [|l0 ls] eqn:L; [contradiction|]. cbn [obs_nchan bind]. unfold remove_edges. cbn [Z.ltb Z.compare bind].
  unfold clean. rewrite (proj2 (Qle_bool_iff (d_rfi d) 0)) by lra. cbn [negb correct_jumps]. unfold dedisperse. rewrite D. cbn [bind].
  cbn [length] in E1, E2. rewrite E1. cbn [bind fst snd]. rewrite E2. cbn [bind fst snd].
  destruct (new_valid M_Rebin.sample U t' f' polar z) as (V1 & _). rewrite V1; [|rewrite S2; cbn [app]; now rewrite (proj1 R1), (proj1 R2)]. cbn [bind].
  eexists. exists y. split; [reflexivity|]. split; [reflexivity|]. split; [exact R1|]. split; [exact R2|]. split.
  - intros i k p I K P. apply (G1 [] i [k; p]); [constructor|exact I|repeat constructor; assumption].
  - intros i k p I K P. apply (G2 [i] k [p]); [repeat constructor; assumption|exact K|repeat constructor; assumption].
Qed.
End Averaged.
