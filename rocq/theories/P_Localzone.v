(** Local time *)
From Coq Require Import List ZArith Bool Lia.
From Verif Require Import Base M_Localzone.
Import ListNotations.
Open Scope Z_scope.

(** ** Specification *)
(** What a clock of the zone shows at a UTC instant *)
Definition summer_at (z : zone) (t : Z) : Prop := exists p, In p (z_periods z) /\ fst p <= t < snd p.
Definition clock (z : zone) (t c : Z) : Prop := (summer_at z t /\ c = t + z_summer z) \/ (~ summer_at z t /\ c = t + z_winter z).
(** A zone east of Greenwich with summers that last and do not meet *)
Definition eastern (z : zone) : Prop := 0 <= z_winter z < z_summer z /\
  (forall p, In p (z_periods z) -> fst p + z_summer z <= snd p) /\
  forall p q, In p (z_periods z) -> In q (z_periods z) -> p = q \/ snd p + z_winter z <= fst q \/ snd q + z_winter z <= fst p.
(** The hours that follow a change *)
Definition changing (z : zone) (t : Z) : Prop := exists p, In p (z_periods z) /\ (fst p <= t < fst p + z_summer z \/ snd p <= t < snd p + z_winter z).
Definition instants (t : time) : list Z := match t with Scalar x => [x] | Times l => l end.

(** ** Proofs *)
Lemma clock_det : forall z t c c', clock z t c -> clock z t c' -> c = c'.
Proof. intros z t c c' [[A ->]|[A ->]] [[B ->]|[B ->]]; try reflexivity; contradiction. Qed.
Lemma offset_spec : forall z n, (localize_offset z n = z_summer z /\ exists p, In p (z_periods z) /\ fst p + z_summer z <= n < snd p + z_winter z) \/
  (localize_offset z n = z_winter z /\ ~ exists p, In p (z_periods z) /\ fst p + z_summer z <= n < snd p + z_winter z).
Proof.
  intros z n. unfold localize_offset. destruct (existsb _ _) eqn:E.
  - left. split; [reflexivity|]. apply existsb_exists in E as (p & I & H). apply andb_true_iff in H as [A B]. apply Z.leb_le in A. apply Z.ltb_lt in B. exists p. split; [exact I|lia].
  - right. split; [reflexivity|]. intros (p & I & H). apply not_true_iff_false in E. apply E. apply existsb_exists. exists p. split; [exact I|]. apply andb_true_iff. split; [apply Z.leb_le|apply Z.ltb_lt]; lia.
Qed.
Theorem local_each : forall z t, (match t, to_local_time z t with Scalar _, Scalar _ => True | Times _, Times _ => True | _, _ => False end) /\
  instants (to_local_time z t) = map (fun x => x + localize_offset z x) (instants t).
Proof.
  intros z [t|l]; (split; [exact I|]); [reflexivity|]. cbn. induction l as [|x l IH]; [reflexivity|]. cbn. now rewrite IH.
Qed.
Theorem local_right : forall z t, eastern z -> (clock z t (t + localize_offset z t) <-> ~ changing z t).
Proof.
  intros z t (S & L & D). split.
  - intros C (p & I & H). destruct H as [H|H].
    + (* after the start *) assert (SU : summer_at z t) by (exists p; split; [exact I|]; pose proof (L p I); lia).
      assert (O : localize_offset z t = z_summer z) by (destruct C as [[_ E]|[N _]]; [lia|contradiction]).
      destruct (offset_spec z t) as [(_ & q & J & Q)|(E & _)]; [|lia]. destruct (D p q I J) as [->|[X|X]]; [lia| |].
      * pose proof (L p I). lia.
      * lia.
    + assert (NS : ~ summer_at z t). { intros (q & J & Q). destruct (D p q I J) as [<-|[X|X]]; [lia| |]; [lia|]. pose proof (L p I). lia. }
      destruct (offset_spec z t) as [(E & _)|(E & N)]; [destruct C as [[SU _]|[_ C]]; [contradiction|lia]|]. apply N. exists p. split; [exact I|]. pose proof (L p I). lia.
  - intro N. destruct (offset_spec z t) as [(E & q & J & Q)|(E & M)]; rewrite E.
    + left. split; [|reflexivity]. exists q. split; [exact J|]. split; [lia|]. destruct (Z.lt_ge_cases t (snd q)) as [A|A]; [exact A|]. exfalso. apply N. exists q. split; [exact J|]. right. lia.
    + right. split; [|reflexivity]. intros (q & J & Q). destruct (Z.lt_ge_cases t (fst q + z_summer z)) as [A|A]; [apply N; exists q; split; [exact J|left; lia]|]. apply M. exists q. split; [exact J|]. lia.
Qed.
Theorem local_fixed : forall z x, z_periods z = [] -> clock z x (x + localize_offset z x).
Proof. intros z x P. right. unfold summer_at, localize_offset. rewrite P. split; [intros (p & [] & _)|reflexivity]. Qed.
Theorem local_wrong : forall z p t, eastern z -> In p (z_periods z) ->
  (fst p <= t < fst p + z_summer z -> clock z t (t + localize_offset z t + (z_summer z - z_winter z))) /\
  (snd p <= t < snd p + z_winter z -> clock z t (t + localize_offset z t - (z_summer z - z_winter z))).
Proof.
  intros z p t (S & L & D) I. split; intro H.
  - left. split; [exists p; split; [exact I|]; pose proof (L p I); lia|]. destruct (offset_spec z t) as [(_ & q & J & Q)|(E & _)]; [|lia]. exfalso. destruct (D p q I J) as [<-|[X|X]]; [lia| |lia]. pose proof (L p I). lia.
  - right. split; [intros (q & J & Q); destruct (D p q I J) as [<-|[X|X]]; [lia|lia|pose proof (L p I); lia]|]. destruct (offset_spec z t) as [(E & _)|(_ & N)]; [lia|]. exfalso. apply N. exists p. split; [exact I|]. pose proof (L p I). lia.
Qed.
Lemma local_nth : forall z t i, (i < length (instants t))%nat -> nth i (instants (to_local_time z t)) 0 = nth i (instants t) 0 + localize_offset z (nth i (instants t) 0).
Proof.
  intros z t i I. rewrite (proj2 (local_each z t)). set (g := fun x => x + localize_offset z x). rewrite (nth_indep _ 0 (g 0)) by (now rewrite map_length). now rewrite map_nth.
Qed.
Theorem local_shape : forall z t, (match t, to_local_time z t with Scalar _, Scalar _ => True | Times _, Times _ => True | _, _ => False end) /\ length (instants (to_local_time z t)) = length (instants t).
Proof. intros z t. split; [apply local_each|]. rewrite (proj2 (local_each z t)). apply map_length. Qed.
Theorem local_right_at : forall z t i, eastern z -> (i < length (instants t))%nat -> let x := nth i (instants t) 0 in let c := nth i (instants (to_local_time z t)) 0 in
  clock z x c <-> ~ changing z x.
Proof. intros z t i E I. cbv zeta. rewrite local_nth by exact I. now apply local_right. Qed.
Theorem local_fixed_at : forall z t i, z_periods z = [] -> (i < length (instants t))%nat -> clock z (nth i (instants t) 0) (nth i (instants (to_local_time z t)) 0).
Proof. intros z t i E I. rewrite local_nth by exact I. now apply local_fixed. Qed.
Theorem local_wrong_at : forall z t i p, eastern z -> In p (z_periods z) -> (i < length (instants t))%nat -> let x := nth i (instants t) 0 in let c := nth i (instants (to_local_time z t)) 0 in
  (fst p <= x < fst p + z_summer z -> clock z x (c + (z_summer z - z_winter z))) /\ (snd p <= x < snd p + z_winter z -> clock z x (c - (z_summer z - z_winter z))).
Proof. intros z t i p E P I. cbv zeta. rewrite local_nth by exact I. now apply local_wrong. Qed.
