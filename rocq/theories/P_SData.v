(** Concatenation and arithmetic of dynamic spectra. *)
From Coq Require Import String List Arith ZArith QArith Qabs Bool Lia Lqa Sorted.
From Verif Require Import Base M_Nd M_Select P_Select3 M_SData.
Import ListNotations.
Open Scope nat_scope.

Definition valid {A U} (s : sdata A U) : Prop :=
  sh (s_data s) = [length (s_time s); length (s_freq s); length (s_polar s)].
(** A sample with its coordinates. *)
Definition sample {A U} (s : sdata A U) (i j k : nat) (t f : Q) (p : U) (x : A) : Prop :=
  nth_error (s_time s) i = Some t /\ nth_error (s_freq s) j = Some f /\ nth_error (s_polar s) k = Some p /\
  get (s_data s) [i; j; k] = x.

Lemma new_spec : forall A U (t f : list Q) (p : list U) (d : nd A) r,
  sdata_new t f p d = Ok r <-> r = mkS t f p d /\ sh d = [length t; length f; length p].
Proof.
  intros. unfold sdata_new. split.
  - destruct (sh d) as [|ts [|fs [|ps [|? ?]]]]; try discriminate.
    destruct (length t =? ts) eqn:E1; [|discriminate]. destruct (length f =? fs) eqn:E2; [|discriminate].
    destruct (length p =? ps) eqn:E3; [|discriminate]. cbn. intros E. injection E as <-.
    apply Nat.eqb_eq in E1, E2, E3. now subst.
  - intros (-> & ->). now rewrite !Nat.eqb_refl.
Qed.
Theorem new_valid : forall A U (t f : list Q) (p : list U) (d : nd A),
  (sh d = [length t; length f; length p] -> sdata_new t f p d = Ok (mkS t f p d)) /\
  (length (sh d) = 3 -> sh d <> [length t; length f; length p] -> sdata_new t f p d = Err EAssertionError) /\
  (length (sh d) <> 3 -> sdata_new t f p d = Err EValueError).
Proof.
  intros. split; [intros H; now apply new_spec|]. unfold sdata_new. split.
  - intros L N. destruct (sh d) as [|ts [|fs [|ps [|? ?]]]]; try discriminate.
    destruct (length t =? ts) eqn:E1; [|reflexivity]. destruct (length f =? fs) eqn:E2; [|reflexivity].
    destruct (length p =? ps) eqn:E3; [|reflexivity]. apply Nat.eqb_eq in E1, E2, E3. subst. congruence.
  - intros L. destruct (sh d) as [|ts [|fs [|ps [|? ?]]]]; try reflexivity. cbn in L. lia.
Qed.
Lemma same_polar_spec : forall U (U0 : units U) p q, same_polar U0 p q = true <-> map (u_str U0) p = map (u_str U0) q.
Proof. intros. unfold same_polar. destruct (list_eq_dec _ _ _); split; intros; auto; discriminate. Qed.
Lemma same_polar_length : forall U (U0 : units U) p q, map (u_str U0) p = map (u_str U0) q -> length p = length q.
Proof. intros U U0 p q H. apply (f_equal (@length _)) in H. now rewrite !map_length in H. Qed.
Lemma qlt_spec : forall a b, qlt a b = true <-> (a < b)%Q.
Proof.
  intros a b. unfold qlt. rewrite negb_true_iff. split.
  - intros H. apply Qnot_le_lt. intros X. apply Qle_bool_iff in X. congruence.
  - intros H. destruct (Qle_bool b a) eqn:E; [|reflexivity]. apply Qle_bool_iff in E. lra.
Qed.
Lemma combine_forallb : forall (g : Q * Q -> bool) l m, length l = length m ->
  forallb g (combine l m) = true <-> forall i x y, nth_error l i = Some x -> nth_error m i = Some y -> g (x, y) = true.
Proof.
  intros g l. induction l as [|a l IH]; intros [|b m] L; try discriminate; cbn [combine forallb].
  - split; auto. intros _ [|i] x y X; discriminate.
  - rewrite andb_true_iff, IH by (cbn in L; lia). split.
    + intros (G & H) [|i] x y X Y; cbn in X, Y; [congruence|eauto].
    + intros H. split; [apply (H 0); reflexivity|]. intros i x y X Y. apply (H (S i)); assumption.
Qed.

(** ** Frequency *)

(** All frequencies of [a] are below all frequencies of [b]. *)
Definition below (l m : list Q) : Prop := forall x y, In x l -> In y m -> (x < y)%Q.
(** The times of [b] are those of [a] up to the first step of [a]. *)
Definition times_match (t u : list Q) : Prop :=
  exists t0 t1 r, t = t0 :: t1 :: r /\ length u = length t /\
  forall i x y, nth_error t i = Some x -> nth_error u i = Some y -> (Qabs (x - y) <= t1 - t0)%Q.
(** [r] is made of [x], then [y], along the frequencies. *)
Definition joined_freq {A U} (x y r : sdata A U) : Prop :=
  s_freq r = s_freq x ++ s_freq y /\
  forall i j k,
    (j < length (s_freq x) -> get (s_data r) [i; j; k] = get (s_data x) [i; j; k]) /\
    get (s_data r) [i; length (s_freq x) + j; k] = get (s_data y) [i; j; k].

Lemma hstack_spec : forall A (a b : nd A) ta fa fb pa, sh a = [ta; fa; pa] -> sh b = [ta; fb; pa] ->
  exists d, hstack a b = Ok d /\ sh d = [ta; fa + fb; pa] /\
  forall i j k, (j < fa -> get d [i; j; k] = get a [i; j; k]) /\ get d [i; fa + j; k] = get b [i; j; k].
Proof.
  intros A a b ta fa fb pa H1 H2. unfold hstack. rewrite H1, H2, !Nat.eqb_refl. cbn [andb].
  eexists. split; [reflexivity|]. split; [reflexivity|]. intros i j k. cbn [get]. split.
  - intros J. now rewrite (proj2 (Nat.ltb_lt j fa) J).
  - rewrite (proj2 (Nat.ltb_ge (fa + j) fa)) by lia. now replace (fa + j - fa) with j by lia.
Qed.
Lemma vstack_spec : forall A (a b : nd A) ta tb fa pa, sh a = [ta; fa; pa] -> sh b = [tb; fa; pa] ->
  exists d, vstack a b = Ok d /\ sh d = [ta + tb; fa; pa] /\
  forall i j k, (i < ta -> get d [i; j; k] = get a [i; j; k]) /\ get d [ta + i; j; k] = get b [i; j; k].
Proof.
  intros A a b ta tb fa pa H1 H2. unfold vstack. rewrite H1, H2, !Nat.eqb_refl. cbn [andb].
  eexists. split; [reflexivity|]. split; [reflexivity|]. intros i j k. cbn [get]. split.
  - intros J. now rewrite (proj2 (Nat.ltb_lt i ta) J).
  - rewrite (proj2 (Nat.ltb_ge (ta + i) ta)) by lia. now replace (ta + i - ta) with i by lia.
Qed.
Lemma below_maxmin : forall l m x y, qmax_list l = Ok x -> qmin_list m = Ok y -> (qlt x y = true <-> below l m).
Proof.
  intros l m x y X Y. apply qmax_spec in X. apply qmin_spec in Y. destruct X as (IX & HX), Y as (IY & HY).
  rewrite qlt_spec. split.
  - intros H u v U V. specialize (HX u U). specialize (HY v V). lra.
  - intros H. now apply H.
Qed.
Lemma qmax_total : forall l, l <> [] -> exists x, qmax_list l = Ok x.
Proof. intros [|x l] H; [congruence|]. eexists. reflexivity. Qed.
Lemma qmin_total : forall l, l <> [] -> exists x, qmin_list l = Ok x.
Proof. intros [|x l] H; [congruence|]. eexists. reflexivity. Qed.
Lemma close_spec : forall t u t0 t1 r, t = t0 :: t1 :: r -> length u = length t ->
  exists c, all_close t u (t1 - t0)%Q = Ok c /\ (c = true <-> times_match t u).
Proof.
  intros t u t0 t1 r E L. unfold all_close. rewrite L, Nat.eqb_refl. eexists. split; [reflexivity|].
  rewrite combine_forallb by congruence. cbn [fst snd]. split.
  - intros H. exists t0, t1, r. split; [exact E|]. split; [exact L|]. intros i x y X Y. apply Qle_bool_iff. eauto.
  - intros (t0' & t1' & r' & E' & _ & H) i x y X Y. rewrite E in E'. injection E' as <- <- <-. apply Qle_bool_iff. eauto.
Qed.

Lemma match2 : forall X (l : list Q) t0 t1 r (f : Q -> Q -> X) (g : X), l = t0 :: t1 :: r ->
  match l with x :: y :: _ => f x y | _ => g end = f t0 t1.
Proof. intros. now subst. Qed.

(** When it is accepted, and what comes out. *)
Definition and_accepts {A U} (U0 : units U) (a b : sdata A U) : Prop :=
  map (u_str U0) (s_polar a) = map (u_str U0) (s_polar b) /\ times_match (s_time a) (s_time b) /\
  s_freq a <> [] /\ s_freq b <> [].
Theorem and_accepted : forall A U (U0 : units U) (a b : sdata A U), valid a -> valid b ->
  and_accepts U0 a b ->
  exists r, s_and U0 a (OSData b) = Ok r /\ valid r /\ s_time r = s_time a /\ s_polar r = s_polar a /\
    (below (s_freq a) (s_freq b) -> joined_freq a b r) /\
    (~ below (s_freq a) (s_freq b) -> joined_freq b a r).
Proof.
  intros A U U0 a b VA VB (PO & TM & FA & FB). unfold s_and.
  rewrite (proj2 (same_polar_spec U U0 _ _) PO). cbn [negb].
  destruct TM as (t0 & t1 & rt & ET & LT & HT). pose proof (same_polar_length _ _ _ _ PO) as LP.
  destruct (close_spec _ _ _ _ _ ET LT) as (c & C & CT).
  assert (c = true) by (apply CT; exists t0, t1, rt; auto). subst c. erewrite match2; [|exact ET]. rewrite C. cbn [bind negb].
  destruct (qmax_total _ FA) as (m & M). destruct (qmin_total _ FB) as (m' & M'). rewrite M, M'. cbn [bind].
  pose proof (below_maxmin _ _ _ _ M M') as BM. unfold valid in VA, VB. rewrite LT, <- LP in VB.
  destruct (qlt m m') eqn:Q.
  - destruct (hstack_spec _ _ _ _ _ _ _ VA VB) as (d & D & S & G). rewrite D. cbn [bind].
    assert (N : sdata_new (s_time a) (s_freq a ++ s_freq b) (s_polar a) d = Ok (mkS (s_time a) (s_freq a ++ s_freq b) (s_polar a) d)).
    { apply new_spec. split; [reflexivity|]. now rewrite app_length. }
    rewrite N. eexists. split; [reflexivity|]. unfold valid. cbn. rewrite app_length. split; [exact S|].
    split; [reflexivity|]. split; [reflexivity|]. split; [intros _; split; [reflexivity|exact G]|].
    intros X. exfalso. apply X, BM. reflexivity.
  - destruct (hstack_spec _ _ _ _ _ _ _ VB VA) as (d & D & S & G). rewrite D. cbn [bind].
    assert (N : sdata_new (s_time a) (s_freq b ++ s_freq a) (s_polar a) d = Ok (mkS (s_time a) (s_freq b ++ s_freq a) (s_polar a) d)).
    { apply new_spec. split; [reflexivity|]. now rewrite app_length. }
    rewrite N. eexists. split; [reflexivity|]. unfold valid. cbn. rewrite app_length. split; [exact S|].
    split; [reflexivity|]. split; [reflexivity|]. split; [intros X; apply BM in X; congruence|].
    intros _. split; [reflexivity|exact G].
Qed.
Theorem and_refused : forall A U (U0 : units U) (a b : sdata A U), valid a -> valid b ->
  ~ and_accepts U0 a b -> exists e, s_and U0 a (OSData b) = Err e.
Proof.
  intros A U U0 a b VA VB NA. unfold s_and.
  destruct (same_polar U0 (s_polar a) (s_polar b)) eqn:SP; [|eexists; reflexivity].
  apply same_polar_spec in SP. cbn [negb]. destruct (s_time a) as [|t0 [|t1 rt]] eqn:ET; [eexists; reflexivity..|].
  destruct (all_close _ _ _) as [c|e] eqn:C; [|eexists; reflexivity]. cbn [bind].
  destruct c; [|eexists; reflexivity]. cbn [negb].
  destruct (s_freq a) as [|fa ra] eqn:FA; [eexists; reflexivity|].
  destruct (s_freq b) as [|fb rb] eqn:FB; [eexists; reflexivity|].
  destruct (Nat.eq_dec (length (s_time b)) (length (s_time a))) as [L|L].
  - exfalso. apply NA. split; [exact SP|]. split; [|rewrite FA, FB; split; discriminate].
    destruct (close_spec _ _ _ _ _ ET L) as (c & C' & CT). rewrite ET in C'. rewrite C' in C. injection C as ->.
    now apply CT.
  - cbn [qmax_list qmin_list bind]. unfold valid in VA, VB.
    assert (H : forall x y, hstack (s_data a) (s_data b) = x -> hstack (s_data b) (s_data a) = y -> x = Err EValueError /\ y = Err EValueError).
    { intros x y <- <-. unfold hstack. rewrite VA, VB. 
      rewrite (proj2 (Nat.eqb_neq _ _) L), (proj2 (Nat.eqb_neq (length (s_time a)) (length (s_time b)))) by congruence. auto. }
    destruct (H _ _ eq_refl eq_refl) as (-> & ->). destruct (qlt _ _); eexists; reflexivity.
Qed.
Theorem and_type : forall A U (U0 : units U) (a : sdata A U) o, (forall b, o <> OSData b) ->
  s_and U0 a o = Err ETypeError /\ s_or U0 a o = Err ETypeError.
Proof. intros A U U0 a [b| | |] H; auto. exfalso. now apply (H b). Qed.

(** Every sample of the operands is in the result with its own frequency, and
    conversely; times and polarisations are those of the first operand. *)
Definition from {A U} (r x : sdata A U) (i j k : nat) (f : Q) (v : A) : Prop :=
  exists j', nth_error (s_freq x) j' = Some f /\ nth_error (s_freq r) j = Some f /\
             get (s_data x) [i; j'; k] = v /\ get (s_data r) [i; j; k] = v.
Lemma joined_from : forall A U (x y r : sdata A U), joined_freq x y r ->
  (forall i j k, j < length (s_freq r) -> exists f v, from r x i j k f v \/ from r y i j k f v) /\
  (forall i j' k, j' < length (s_freq x) -> exists j f, nth_error (s_freq x) j' = Some f /\ nth_error (s_freq r) j = Some f /\
      get (s_data r) [i; j; k] = get (s_data x) [i; j'; k]) /\
  (forall i j' k, j' < length (s_freq y) -> exists j f, nth_error (s_freq y) j' = Some f /\ nth_error (s_freq r) j = Some f /\
      get (s_data r) [i; j; k] = get (s_data y) [i; j'; k]).
Proof.
  intros A U x y r (F & G). split; [|split].
  - intros i j k J. rewrite F, app_length in J. destruct (lt_dec j (length (s_freq x))) as [L|L].
    + destruct (nth_error (s_freq x) j) as [f|] eqn:E; [|apply nth_error_None in E; lia].
      exists f, (get (s_data x) [i; j; k]). left. exists j. split; [exact E|]. rewrite F, nth_error_app1 by exact L.
      split; [exact E|]. split; [reflexivity|]. now apply G.
    + destruct (nth_error (s_freq y) (j - length (s_freq x))) as [f|] eqn:E; [|apply nth_error_None in E; lia].
      exists f, (get (s_data y) [i; j - length (s_freq x); k]). right. exists (j - length (s_freq x)). split; [exact E|].
      rewrite F, nth_error_app2 by lia. split; [exact E|]. split; [reflexivity|].
      destruct (G i (j - length (s_freq x)) k) as (_ & H). now replace (length (s_freq x) + (j - length (s_freq x))) with j in H by lia.
  - intros i j' k J. destruct (nth_error (s_freq x) j') as [f|] eqn:E; [|apply nth_error_None in E; lia].
    exists j', f. split; [reflexivity|]. rewrite F, nth_error_app1 by exact J. split; [exact E|]. now apply G.
  - intros i j' k J. destruct (nth_error (s_freq y) j') as [f|] eqn:E; [|apply nth_error_None in E; lia].
    exists (length (s_freq x) + j'), f. split; [reflexivity|]. rewrite F, nth_error_app2 by lia.
    replace (length (s_freq x) + j' - length (s_freq x)) with j' by lia. split; [exact E|]. apply G.
Qed.
Theorem and_attached : forall A U (U0 : units U) (a b r : sdata A U), valid a -> valid b ->
  s_and U0 a (OSData b) = Ok r ->
  length (s_freq r) = length (s_freq a) + length (s_freq b) /\
  (forall i j k, j < length (s_freq r) -> exists f v, from r a i j k f v \/ from r b i j k f v) /\
  (forall i j' k, j' < length (s_freq a) -> exists j f, nth_error (s_freq a) j' = Some f /\ nth_error (s_freq r) j = Some f /\
      get (s_data r) [i; j; k] = get (s_data a) [i; j'; k]) /\
  (forall i j' k, j' < length (s_freq b) -> exists j f, nth_error (s_freq b) j' = Some f /\ nth_error (s_freq r) j = Some f /\
      get (s_data r) [i; j; k] = get (s_data b) [i; j'; k]).
Proof.
  intros A U U0 a b r VA VB E.
  assert (AC : and_accepts U0 a b \/ ~ and_accepts U0 a b).
  { unfold s_and in E. destruct (same_polar U0 (s_polar a) (s_polar b)) eqn:SP; [|discriminate]. cbn [negb] in E.
    apply same_polar_spec in SP. destruct (s_time a) as [|t0 [|t1 rt]] eqn:ET; try discriminate.
    destruct (s_freq a) as [|fa ra] eqn:FA; [right; intros (_ & _ & X & _); congruence|].
    destruct (s_freq b) as [|fb rb] eqn:FB; [right; intros (_ & _ & _ & X); congruence|].
    destruct (Nat.eq_dec (length (s_time b)) (length (s_time a))) as [L|L].
    - destruct (close_spec _ _ _ _ _ ET L) as (c & C' & CT). destruct c.
      + left. split; [exact SP|]. split; [now apply CT|]. rewrite FA, FB. split; discriminate.
      + right. intros (_ & X & _). apply CT in X. discriminate.
    - right. intros (_ & (? & ? & ? & ? & X & _) & _). congruence. }
  destruct AC as [AC|AC]; [|destruct (and_refused _ _ _ _ _ VA VB AC); congruence].
  destruct (and_accepted _ _ _ _ _ VA VB AC) as (r' & E' & _ & _ & _ & H1 & H2). rewrite E in E'. injection E' as <-.
  assert (D : below (s_freq a) (s_freq b) \/ ~ below (s_freq a) (s_freq b)).
  { destruct AC as (_ & _ & FA & FB). destruct (qmax_total _ FA) as (m & M). destruct (qmin_total _ FB) as (m' & M').
    pose proof (below_maxmin _ _ _ _ M M') as BM. destruct (qlt m m'); [left; now apply BM|right; intros X; apply BM in X; discriminate]. }
  destruct D as [D|D].
  - specialize (H1 D). destruct (joined_from _ _ _ _ _ H1) as (J1 & J2 & J3).
    split; [destruct H1 as (-> & _); apply app_length|]. exact (conj J1 (conj J2 J3)).
  - specialize (H2 D). destruct (joined_from _ _ _ _ _ H2) as (J1 & J2 & J3).
    split; [destruct H2 as (-> & _); rewrite app_length; lia|]. split; [|exact (conj J3 J2)].
    intros i j k J. destruct (J1 i j k J) as (f & v & [X|X]); exists f, v; auto.
Qed.
(** Disjoint bands: increasing frequencies, whatever the order of the operands. *)
Definition increasing (l : list Q) : Prop := forall i j x y, i < j -> nth_error l i = Some x -> nth_error l j = Some y -> (x < y)%Q.
Lemma increasing_app : forall l m, increasing l -> increasing m -> below l m -> increasing (l ++ m).
Proof.
  intros l m L M B i j x y I X Y.
  destruct (lt_dec j (length l)) as [J|J].
  - rewrite nth_error_app1 in X, Y by lia. exact (L i j x y I X Y).
  - rewrite (nth_error_app2 l m) in Y by lia. destruct (lt_dec i (length l)) as [K|K].
    + rewrite nth_error_app1 in X by lia. apply B; eapply nth_error_In; eauto.
    + rewrite nth_error_app2 in X by lia. eapply M; [|exact X|exact Y]. lia.
Qed.
Lemma below_not : forall l m, l <> [] -> m <> [] -> below l m -> ~ below m l.
Proof.
  intros [|x l] [|y m] L M B C; try congruence. specialize (B x y (or_introl eq_refl) (or_introl eq_refl)).
  specialize (C y x (or_introl eq_refl) (or_introl eq_refl)). lra.
Qed.
Theorem and_disjoint : forall A U (U0 : units U) (a b : sdata A U), valid a -> valid b ->
  and_accepts U0 a b -> and_accepts U0 b a -> below (s_freq a) (s_freq b) ->
  exists r r', s_and U0 a (OSData b) = Ok r /\ s_and U0 b (OSData a) = Ok r' /\
    joined_freq a b r /\ joined_freq a b r' /\ s_freq r = s_freq r' /\
    s_time r = s_time a /\ s_time r' = s_time b /\
    (increasing (s_freq a) -> increasing (s_freq b) -> increasing (s_freq r)).
Proof.
  intros A U U0 a b VA VB AC AC' B.
  destruct (and_accepted _ _ _ _ _ VA VB AC) as (r & E & _ & T & _ & H1 & _).
  destruct (and_accepted _ _ _ _ _ VB VA AC') as (r' & E' & _ & T' & _ & _ & H2).
  assert (NB : ~ below (s_freq b) (s_freq a)) by (apply below_not; auto; apply AC).
  specialize (H1 B). specialize (H2 NB). exists r, r'.
  split; [exact E|]. split; [exact E'|]. split; [exact H1|]. split; [exact H2|].
  destruct H1 as (F1 & _), H2 as (F2 & _). split; [congruence|]. split; [exact T|]. split; [exact T'|].
  intros IA IB. rewrite F1. now apply increasing_app.
Qed.

(** ** Time *)
Definition or_accepts {A U} (U0 : units U) (a b : sdata A U) : Prop :=
  map (u_str U0) (s_polar a) = map (u_str U0) (s_polar b) /\
  length (s_freq a) = length (s_freq b) /\
  (forall j x y, nth_error (s_freq a) j = Some x -> nth_error (s_freq b) j = Some y -> (x == y)%Q) /\
  s_time a <> [] /\ s_time b <> [].
(** The rows of [r] are those of [x], then those of [y]. *)
Definition rows_of {A U} (x y r : sdata A U) : Prop :=
  forall i j k,
    (i < length (s_time x) -> get (s_data r) [i; j; k] = get (s_data x) [i; j; k]) /\
    get (s_data r) [length (s_time x) + i; j; k] = get (s_data y) [i; j; k].
Theorem or_accepted : forall A U (U0 : units U) (a b : sdata A U), valid a -> valid b -> or_accepts U0 a b ->
  exists r, s_or U0 a (OSData b) = Ok r /\ valid r /\ s_time r = s_time a ++ s_time b /\
    s_freq r = s_freq a /\ s_polar r = s_polar a /\
    (below (s_time a) (s_time b) -> rows_of a b r) /\
    (~ below (s_time a) (s_time b) -> rows_of b a r).
Proof.
  intros A U U0 a b VA VB (PO & LF & FE & TA & TB). unfold s_or.
  rewrite (proj2 (same_polar_spec U U0 _ _) PO). cbn [negb]. pose proof (same_polar_length _ _ _ _ PO) as LP.
  unfold all_equal. rewrite LF, Nat.eqb_refl. cbn [bind].
  assert (X : forallb (fun xy => Qeq_bool (fst xy) (snd xy)) (combine (s_freq a) (s_freq b)) = true).
  { apply combine_forallb; [exact LF|]. intros i x y X Y. apply Qeq_bool_iff. cbn. eauto. }
  rewrite X. cbn [negb].
  destruct (qmax_total _ TA) as (m & M). destruct (qmin_total _ TB) as (m' & M'). rewrite M, M'. cbn [bind].
  pose proof (below_maxmin _ _ _ _ M M') as BM. unfold valid in VA, VB. rewrite <- LF, <- LP in VB.
  destruct (qlt m m') eqn:Q.
  - destruct (vstack_spec _ _ _ _ _ _ _ VA VB) as (d & D & S & G). rewrite D. cbn [bind].
    rewrite (proj2 (new_spec _ _ (s_time a ++ s_time b) (s_freq a) (s_polar a) d _)) by (split; [reflexivity|now rewrite app_length]).
    eexists. split; [reflexivity|]. unfold valid. cbn. rewrite app_length. split; [exact S|].
    split; [reflexivity|]. split; [reflexivity|]. split; [reflexivity|]. split; [intros _; exact G|].
    intros Y. exfalso. apply Y, BM. reflexivity.
  - destruct (vstack_spec _ _ _ _ _ _ _ VB VA) as (d & D & S & G). rewrite D. cbn [bind].
    rewrite (proj2 (new_spec _ _ (s_time a ++ s_time b) (s_freq a) (s_polar a) d _)) by (split; [reflexivity|rewrite app_length, S; f_equal; lia]).
    eexists. split; [reflexivity|]. unfold valid. cbn. rewrite app_length. split; [rewrite S; f_equal; lia|].
    split; [reflexivity|]. split; [reflexivity|]. split; [reflexivity|]. split; [intros Y; apply BM in Y; congruence|].
    intros _. exact G.
Qed.
Theorem or_refused : forall A U (U0 : units U) (a b : sdata A U), valid a -> valid b ->
  ~ or_accepts U0 a b -> exists e, s_or U0 a (OSData b) = Err e.
Proof.
  intros A U U0 a b VA VB NA. unfold s_or.
  destruct (same_polar U0 (s_polar a) (s_polar b)) eqn:SP; [|eexists; reflexivity].
  apply same_polar_spec in SP. cbn [negb]. unfold all_equal.
  destruct (length (s_freq a) =? length (s_freq b)) eqn:L; [|eexists; reflexivity]. apply Nat.eqb_eq in L. cbn [bind].
  destruct (forallb _ _) eqn:F; [|eexists; reflexivity]. cbn [negb].
  destruct (s_time a) as [|x l] eqn:TA; [eexists; reflexivity|].
  destruct (s_time b) as [|y m] eqn:TB; [eexists; reflexivity|].
  exfalso. apply NA. split; [exact SP|]. split; [exact L|]. split; [|rewrite TA, TB; split; discriminate].
  intros j u v U1 V1. rewrite (combine_forallb _ _ _ L) in F. specialize (F j u v U1 V1). now apply Qeq_bool_iff in F.
Qed.
(** The first operand is the earlier one: each sample keeps its time. *)
Theorem or_attached : forall A U (U0 : units U) (a b r : sdata A U), valid a -> valid b -> or_accepts U0 a b ->
  below (s_time a) (s_time b) -> s_or U0 a (OSData b) = Ok r ->
  (increasing (s_time a) -> increasing (s_time b) -> increasing (s_time r)) /\
  (forall i j k t, nth_error (s_time a) i = Some t ->
     nth_error (s_time r) i = Some t /\ get (s_data r) [i; j; k] = get (s_data a) [i; j; k]) /\
  (forall i j k t, nth_error (s_time b) i = Some t ->
     nth_error (s_time r) (length (s_time a) + i) = Some t /\
     get (s_data r) [length (s_time a) + i; j; k] = get (s_data b) [i; j; k]).
Proof.
  intros A U U0 a b r VA VB AC B E. destruct (or_accepted _ _ _ _ _ VA VB AC) as (r' & E' & _ & T & _ & _ & H & _).
  rewrite E in E'. injection E' as <-. specialize (H B). rewrite T. split; [|split].
  - intros. now apply increasing_app.
  - intros i j k t X. assert (i < length (s_time a)) by (apply nth_error_Some; congruence).
    rewrite nth_error_app1 by assumption. split; [exact X|]. now apply H.
  - intros i j k t X. rewrite nth_error_app2 by lia.
    replace (length (s_time a) + i - length (s_time a)) with i by lia. split; [exact X|]. apply H.
Qed.
(** Otherwise, with as many times on both sides, all samples change times: those of
    [b] get the times of [a] and conversely. *)
Theorem or_exchanged : forall A U (U0 : units U) (a b r : sdata A U), valid a -> valid b -> or_accepts U0 a b ->
  ~ below (s_time a) (s_time b) -> length (s_time a) = length (s_time b) -> s_or U0 a (OSData b) = Ok r ->
  (forall i j k t, nth_error (s_time a) i = Some t ->
     nth_error (s_time r) i = Some t /\ get (s_data r) [i; j; k] = get (s_data b) [i; j; k]) /\
  (forall i j k t, nth_error (s_time b) i = Some t ->
     nth_error (s_time r) (length (s_time a) + i) = Some t /\
     get (s_data r) [length (s_time a) + i; j; k] = get (s_data a) [i; j; k]).
Proof.
  intros A U U0 a b r VA VB AC B L E. destruct (or_accepted _ _ _ _ _ VA VB AC) as (r' & E' & _ & T & _ & _ & _ & H).
  rewrite E in E'. injection E' as <-. specialize (H B). unfold rows_of in H. rewrite <- L in H. rewrite T. split.
  - intros i j k t X. assert (i < length (s_time a)) by (apply nth_error_Some; congruence).
    rewrite nth_error_app1 by assumption. split; [exact X|]. now apply H.
  - intros i j k t X. rewrite nth_error_app2 by lia.
    replace (length (s_time a) + i - length (s_time a)) with i by lia. split; [exact X|]. apply H.
Qed.
