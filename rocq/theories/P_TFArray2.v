(** Channels set to NaN and edges of the beams. *)
From Coq Require Import List Arith ZArith QArith Lia Bool Sorted.
From Verif Require Import Base M_Slots M_Nd P_Nd M_Rebin M_TFArray P_TFArray.
Import ListNotations.
Open Scope nat_scope.

(** ** Setting channels *)

(** [r] has the samples of [data], those of the channels [sel] of each sub-band
    of [n] channels being replaced by [nan]. *)
Definition blanked {A} (nan : A) (n : nat) (sel : nat -> Prop) (data r : nd A) : Prop :=
  sh r = sh data /\
  forall t f p, inside (sh data) (t :: f :: p) ->
    (sel (f mod n) -> get r (t :: f :: p) = nan) /\
    (~ sel (f mod n) -> get r (t :: f :: p) = get data (t :: f :: p)).

(** Two arrays with the same elements. *)
Definition same {A} (a b : nd A) : Prop :=
  sh a = sh b /\ forall idx, inside (sh a) idx -> get a idx = get b idx.

Lemma subbands_spec : forall A (data : nd A) n nt m rest, 0 < n -> sh data = nt :: m * n :: rest ->
  exists d, reshape_to_subbands data n = Ok d /\ sh d = nt :: m :: n :: rest /\
    forall t s c p, t < nt -> s < m -> c < n -> inside rest p ->
      get d (t :: s :: c :: p) = get data (t :: (s * n + c) :: p).
Proof.
  intros A data n nt m rest N E. unfold reshape_to_subbands. rewrite E.
  destruct (Nat.eqb_spec n 0); [lia|]. rewrite Nat.mod_mul by lia. cbn [Nat.eqb negb].
  rewrite Nat.div_mul by lia. cbn [app].
  destruct (reshape_split A data [nt] rest m n E) as (d & D1 & D2 & D3).
  exists d. split; [exact D1|]. split; [exact D2|]. intros t s c p T S0 C P.
  apply (D3 [t] s c p); auto. constructor; [exact T|constructor].
Qed.

Lemma fill_spec : forall A (nan : A) (data d : nd A) n nt m rest (sel : nat -> bool), 0 < n -> sh data = nt :: m * n :: rest ->
  sh d = nt :: m :: n :: rest ->
  (forall t s c p, t < nt -> s < m -> c < n -> inside rest p ->
     get d (t :: s :: c :: p) = if sel c then nan else get data (t :: (s * n + c) :: p)) ->
  exists r, reshape (sh data) d = Ok r /\ sh r = sh data /\
    forall t f p, inside (sh data) (t :: f :: p) ->
      get r (t :: f :: p) = if sel (f mod n) then nan else get data (t :: f :: p).
Proof.
  intros A nan data d n nt m rest sel N E D H.
  destruct (reshape_join A d [nt] rest m n D) as (r & R1 & R2 & R3).
  exists r. rewrite E. split; [exact R1|]. split; [exact R2|].
  intros t f p I. inversion I as [|a b l1 l2 T I']; subst. inversion I' as [|a b l3 l4 F P]; subst.
  pose proof (Nat.div_mod f n ltac:(lia)) as DM. pose proof (Nat.mod_upper_bound f n ltac:(lia)) as MU.
  assert (S0 : f / n < m) by (apply Nat.div_lt_upper_bound; lia).
  specialize (R3 [t] (f / n) (f mod n) p). cbn [app] in R3.
  replace (f / n * n + f mod n) with f in R3 by lia.
  rewrite R3; auto; [|constructor; [exact T|constructor]].
  rewrite H by assumption. replace (f / n * n + f mod n) with f by lia. reflexivity.
Qed.

Lemma subbands_err : forall A (data : nd A) n, (exists d, reshape_to_subbands data n = Ok d) <->
  0 < n /\ exists nt m rest, sh data = nt :: m * n :: rest.
Proof.
  intros A data n. split.
  - intros (d & H). unfold reshape_to_subbands in H. destruct (sh data) as [|nt [|nf rest]] eqn:E; try discriminate.
    destruct (Nat.eqb_spec n 0); [discriminate|]. split; [lia|].
    destruct (Nat.eqb_spec (nf mod n) 0) as [M|]; [|discriminate].
    exists nt, (nf / n), rest. f_equal. f_equal.
    pose proof (Nat.div_mod nf n ltac:(lia)). lia.
  - intros (N & nt & m & rest & E). destruct (subbands_spec A data n nt m rest N E) as (d & D & _). eauto.
Qed.

(** ** remove_channels_per_subband *)

(** Channel [c] is designated by an index of the list, from the beginning or
    from the end. *)
Definition designated (n : nat) (l : list Z) (c : nat) : Prop :=
  exists k, In k l /\ (k = Z.of_nat c \/ k = Z.of_nat c - Z.of_nat n)%Z.
Definition valid_channel (n : nat) (k : Z) : Prop := (- Z.of_nat n <= k < Z.of_nat n)%Z.

Lemma removed_iff : forall n l c, c < n -> Forall (valid_channel n) l ->
  removed n l c = true <-> designated n l c.
Proof.
  intros n l c C V. unfold removed, designated. rewrite existsb_exists. rewrite Forall_forall in V.
  split; intros (k & K & H); exists k; (split; [exact K|]); specialize (V k K); unfold valid_channel in V.
  - apply Z.eqb_eq in H. destruct (Z_lt_le_dec k 0) as [L|L].
    + right. rewrite <- (Z_mod_plus_full k 1 (Z.of_nat n)) in H. rewrite Z.mod_small in H by lia. lia.
    + left. rewrite Z.mod_small in H by lia. lia.
  - apply Z.eqb_eq. destruct H as [-> | ->].
    + apply Z.mod_small. lia.
    + rewrite <- (Z_mod_plus_full _ 1 (Z.of_nat n)). replace (Z.of_nat c - Z.of_nat n + 1 * Z.of_nat n)%Z with (Z.of_nat c) by lia.
      apply Z.mod_small. lia.
Qed.
Lemma valid_bool : forall n l,
  forallb (fun k => (- Z.of_nat n <=? k)%Z && (k <? Z.of_nat n)%Z) l = true <-> Forall (valid_channel n) l.
Proof.
  intros n l. rewrite forallb_forall, Forall_forall. unfold valid_channel.
  split; intros H k K; specialize (H k K).
  - apply andb_true_iff in H. destruct H as [A B]. apply Z.leb_le in A. apply Z.ltb_lt in B. lia.
  - apply andb_true_iff. rewrite Z.leb_le, Z.ltb_lt. lia.
Qed.

Theorem remove_spec : forall A inplace (nan : A) data n l nt m rest,
  Forall (valid_channel n) l -> 0 < n -> sh data = nt :: m * n :: rest ->
  exists r, snd (remove_channels inplace nan data n (Some l)) = Ok r /\
    blanked nan n (designated n l) data r /\
    fst (remove_channels inplace nan data n (Some l)) = (if inplace then r else data).
Proof.
  intros A inplace nan data n l nt m rest V N E. destruct l as [|k l].
  - exists data. cbn [remove_channels fst snd]. split; [reflexivity|]. split; [|now destruct inplace].
    split; [reflexivity|]. intros t f p I. split; [|reflexivity]. intros (k & [] & _).
  - cbn [remove_channels]. rewrite (proj2 (valid_bool n (k :: l)) V). cbn [negb].
    destruct (subbands_spec A data n nt m rest N E) as (d & D1 & D2 & D3). rewrite D1.
    destruct (fill_spec A nan data (fill2 (removed n (k :: l)) nan d) n nt m rest (removed n (k :: l)) N E D2) as (r & R1 & R2 & R3).
    { intros t s c p T S0 C P. cbn [fill2 get nth]. destruct (removed n (k :: l) c); [reflexivity|]. now apply D3. }
    rewrite R1. exists r. cbn [fst snd]. split; [reflexivity|]. split; [|reflexivity].
    split; [exact R2|]. intros t f p I. rewrite (R3 t f p I).
    assert (C : f mod n < n) by (apply Nat.mod_upper_bound; lia).
    pose proof (removed_iff n (k :: l) (f mod n) C V) as RI. destruct (removed n (k :: l) (f mod n)).
    + split; [reflexivity|]. intros X. exfalso. apply X. now apply RI.
    + split; [|reflexivity]. intros X. apply RI in X. discriminate.
Qed.

(** What is refused, and with which exception; the data are untouched. *)
Theorem remove_refused : forall A inplace (nan : A) data n l,
  (Exists (fun k => ~ valid_channel n k) l ->
     remove_channels inplace nan data n (Some l) = (data, Err EIndexError)) /\
  (l <> [] -> Forall (valid_channel n) l -> length (sh data) < 2 ->
     remove_channels inplace nan data n (Some l) = (data, Err EIndexError)) /\
  (forall nt nf rest, l <> [] -> Forall (valid_channel n) l -> sh data = nt :: nf :: rest ->
     nf mod n <> 0 -> remove_channels inplace nan data n (Some l) = (data, Err EValueError)).
Proof.
  intros A inplace nan data n l. split; [|split].
  - intros X. destruct l as [|k l]; [inversion X|]. cbn [remove_channels].
    destruct (forallb _ (k :: l)) eqn:F; [|reflexivity]. apply (proj1 (valid_bool _ _)) in F.
    exfalso. apply Exists_exists in X. destruct X as (x & I & X). apply X. rewrite Forall_forall in F. now apply F.
  - intros L V S0. destruct l as [|k l]; [congruence|]. cbn [remove_channels].
    rewrite (proj2 (valid_bool n (k :: l)) V). cbn [negb]. unfold reshape_to_subbands.
    destruct (sh data) as [|a [|b t]]; cbn [length] in S0; try lia; reflexivity.
  - intros nt nf rest L V E M. destruct l as [|k l]; [congruence|]. cbn [remove_channels].
    rewrite (proj2 (valid_bool n (k :: l)) V). cbn [negb]. unfold reshape_to_subbands. rewrite E.
    inversion V as [|x y V1 V2]; subst. unfold valid_channel in V1.
    destruct (Nat.eqb_spec n 0); [lia|]. destruct (Nat.eqb_spec (nf mod n) 0); [contradiction|reflexivity].
Qed.
Theorem remove_none : forall A inplace (nan : A) data n,
  remove_channels inplace nan data n None = (data, Ok data).
Proof. reflexivity. Qed.

Lemma blanked_twice : forall A (nan : A) n sel data r r', (forall c, sel c \/ ~ sel c) ->
  2 <= length (sh data) ->
  blanked nan n sel data r -> blanked nan n sel r r' -> same r r'.
Proof.
  intros A nan n sel data r r' D L (S1 & H1) (S2 & H2). split; [congruence|].
  intros idx I. assert (LI := inside_length _ _ I).
  destruct idx as [|t [|f p]]; cbn [length] in LI; try (rewrite S1 in LI; lia).
  destruct (H2 t f p I) as [A2 B2]. rewrite S1 in I. destruct (H1 t f p I) as [A1 B1].
  destruct (D (f mod n)) as [X|X].
  - rewrite (A1 X), (A2 X). reflexivity.
  - now rewrite (B2 X).
Qed.
Lemma designated_dec : forall n l c, designated n l c \/ ~ designated n l c.
Proof.
  intros n l c. unfold designated. induction l as [|x l IH].
  - right. intros (k & [] & _).
  - destruct (Z.eq_dec x (Z.of_nat c)) as [E|E]; [left; exists x; split; [now left|now left]|].
    destruct (Z.eq_dec x (Z.of_nat c - Z.of_nat n)) as [E'|E']; [left; exists x; split; [now left|now right]|].
    destruct IH as [(k & K & H)|H]; [left; exists k; split; [now right|exact H]|].
    right. intros (k & [<-|K] & H'); [destruct H'; contradiction|]. apply H. eauto.
Qed.

Theorem remove_twice : forall A inplace (nan : A) data n l r,
  2 <= length (sh data) ->
  snd (remove_channels inplace nan data n (Some l)) = Ok r ->
  exists r', snd (remove_channels inplace nan r n (Some l)) = Ok r' /\ same r r'.
Proof.
  intros A inplace nan data n l r L H. destruct l as [|k l].
  - cbn [remove_channels snd] in *. injection H as <-. exists data. split; [reflexivity|]. split; reflexivity.
  - assert (V : Forall (valid_channel n) (k :: l)).
    { cbn [remove_channels] in H. destruct (forallb _ (k :: l)) eqn:F; [|discriminate]. now apply valid_bool. }
    assert (D : exists d, reshape_to_subbands data n = Ok d).
    { cbn [remove_channels] in H. rewrite (proj2 (valid_bool n (k :: l)) V) in H. cbn [negb] in H.
      destruct (reshape_to_subbands data n) as [d|e]; [eauto|discriminate]. }
    apply (proj1 (subbands_err _ _ _)) in D. destruct D as (N & nt & m & rest & E).
    destruct (remove_spec A inplace nan data n (k :: l) nt m rest V N E) as (r0 & R1 & R2 & _).
    rewrite H in R1. injection R1 as <-. pose proof R2 as [S2 _]. rewrite E in S2.
    destruct (remove_spec A inplace nan r n (k :: l) nt m rest V N S2) as (r' & R3 & R4 & _).
    exists r'. split; [exact R3|]. eapply blanked_twice; eauto using designated_dec.
Qed.

(** ** crop_subband_edges *)
Definition edge (n : nat) (lower higher : Z) (c : nat) : Prop :=
  (Z.of_nat c < lower \/ Z.of_nat n - higher <= Z.of_nat c)%Z.

Theorem crop_spec : forall A inplace (nan : A) data n lower higher nt m rest,
  (0 <= lower)%Z -> (0 <= higher)%Z -> (lower + higher < Z.of_nat n)%Z -> sh data = nt :: m * n :: rest ->
  exists r, snd (crop_edges inplace nan data n lower higher) = Ok r /\
    blanked nan n (edge n lower higher) data r /\
    fst (crop_edges inplace nan data n lower higher) = (if inplace then r else data).
Proof.
  intros A inplace nan data n lower higher nt m rest L H S0 E. unfold crop_edges.
  destruct (Z.leb_spec (Z.of_nat n) (lower + higher)); [lia|].
  assert (LS : (length (sh data) <? 2) = false) by (now rewrite E). rewrite LS. assert (N : 0 < n) by lia.
  destruct (subbands_spec A data n nt m rest N E) as (d & D1 & D2 & D3). rewrite D1.
  assert (B1 : slice_bound n lower = Z.to_nat lower).
  { unfold slice_bound. destruct (Z.ltb_spec lower 0); [lia|]. lia. }
  assert (B2 : slice_bound n (Z.of_nat n - higher) = Z.to_nat (Z.of_nat n - higher)).
  { unfold slice_bound. destruct (Z.ltb_spec (Z.of_nat n - higher) 0); [lia|]. lia. }
  rewrite B1, B2.
  set (sel := fun c => (c <? Z.to_nat lower) || (Z.to_nat (Z.of_nat n - higher) <=? c)).
  destruct (fill_spec A nan data (fill2 (fun c => Z.to_nat (Z.of_nat n - higher) <=? c) nan
      (fill2 (fun c => c <? Z.to_nat lower) nan d)) n nt m rest sel N E D2) as (r & R1 & R2 & R3).
  { intros t s c p T S1 C P. cbn [fill2 get nth]. unfold sel.
    destruct (Nat.leb_spec (Z.to_nat (Z.of_nat n - higher)) c); [now rewrite orb_true_r|].
    destruct (Nat.ltb_spec c (Z.to_nat lower)); [reflexivity|]. cbn [orb]. now apply D3. }
  rewrite R1. exists r. cbn [fst snd]. split; [reflexivity|]. split; [|reflexivity].
  split; [exact R2|]. intros t f p I. rewrite (R3 t f p I). unfold sel, edge.
  destruct (Nat.ltb_spec (f mod n) (Z.to_nat lower)); destruct (Nat.leb_spec (Z.to_nat (Z.of_nat n - higher)) (f mod n));
    cbn [orb]; (split; [intros X; try reflexivity; exfalso; lia|intros X; try reflexivity; exfalso; apply X; lia]).
Qed.
Theorem crop_refused : forall A inplace (nan : A) data n lower higher,
  ((Z.of_nat n <= lower + higher)%Z ->
     crop_edges inplace nan data n lower higher = (data, Err EValueError)) /\
  ((lower + higher < Z.of_nat n)%Z -> length (sh data) < 2 ->
     crop_edges inplace nan data n lower higher = (data, Err EIndexError)) /\
  (forall nt nf rest, (lower + higher < Z.of_nat n)%Z -> sh data = nt :: nf :: rest ->
     0 < n -> nf mod n <> 0 -> crop_edges inplace nan data n lower higher = (data, Err EValueError)).
Proof.
  intros A inplace nan data n lower higher. unfold crop_edges. split; [|split].
  - intros H. apply Z.leb_le in H. now rewrite H.
  - intros H L. destruct (Z.leb_spec (Z.of_nat n) (lower + higher)); [lia|].
    apply Nat.ltb_lt in L. now rewrite L.
  - intros nt nf rest H E N M. destruct (Z.leb_spec (Z.of_nat n) (lower + higher)); [lia|].
    assert (LS : (length (sh data) <? 2) = false) by (now rewrite E). rewrite LS. unfold reshape_to_subbands. rewrite E.
    destruct (Nat.eqb_spec n 0); [lia|]. destruct (Nat.eqb_spec (nf mod n) 0); [contradiction|reflexivity].
Qed.

(** Cropping is the removal of the channels of the edges. *)
Definition edge_channels (lower higher : nat) : list Z :=
  map Z.of_nat (seq 0 lower) ++ map (fun k => - Z.of_nat k)%Z (seq 1 higher).
Theorem crop_is_remove : forall A (nan : A) data n lower higher nt m rest,
  lower + higher < n -> sh data = nt :: m * n :: rest ->
  exists r r', snd (crop_edges false nan data n (Z.of_nat lower) (Z.of_nat higher)) = Ok r /\
    snd (remove_channels false nan data n (Some (edge_channels lower higher))) = Ok r' /\ same r r'.
Proof.
  intros A nan data n lower higher nt m rest L E.
  assert (V : Forall (valid_channel n) (edge_channels lower higher)).
  { apply Forall_forall. intros k K. unfold edge_channels in K. apply in_app_iff in K. unfold valid_channel.
    destruct K as [K|K]; apply in_map_iff in K; destruct K as (x & <- & I); apply in_seq in I; lia. }
  destruct (crop_spec A false nan data n (Z.of_nat lower) (Z.of_nat higher) nt m rest) as (r & R1 & (R2 & R3) & _); try lia; auto.
  destruct (remove_spec A false nan data n (edge_channels lower higher) nt m rest V ltac:(lia) E) as (r' & Q1 & (Q2 & Q3) & _).
  exists r, r'. split; [exact R1|]. split; [exact Q1|]. split; [congruence|].
  intros idx I. assert (LI := inside_length _ _ I). rewrite R2 in I, LI. rewrite E in LI.
  destruct idx as [|t [|f p]]; cbn [length] in LI; try lia.
  destruct (R3 t f p I) as [A1 B1]. destruct (Q3 t f p I) as [A2 B2].
  assert (C : f mod n < n) by (apply Nat.mod_upper_bound; lia).
  assert (EQ : edge n (Z.of_nat lower) (Z.of_nat higher) (f mod n) <-> designated n (edge_channels lower higher) (f mod n)).
  { unfold edge, designated, edge_channels. split.
    - intros [X|X].
      + exists (Z.of_nat (f mod n)). split; [|now left]. apply in_app_iff. left. apply in_map. apply in_seq. lia.
      + exists (Z.of_nat (f mod n) - Z.of_nat n)%Z. split; [|now right]. apply in_app_iff. right.
        apply in_map_iff. exists (n - f mod n). split; [lia|]. apply in_seq. lia.
    - intros (k & K & H). apply in_app_iff in K.
      destruct K as [K|K]; apply in_map_iff in K; destruct K as (x & <- & I'); apply in_seq in I'; lia. }
  destruct (designated_dec n (edge_channels lower higher) (f mod n)) as [X|X].
  - rewrite (A2 X). apply A1. now apply EQ.
  - rewrite (B2 X). apply B1. intros Y. apply X. now apply EQ.
Qed.

(** A negative width is accepted and blanks the rest of the sub-band. *)
Definition demo : nd (option Q) := mkNd [1; 4] (fun idx => Some (inject_Z (Z.of_nat (nth 1 idx 0)))).
Theorem crop_negative : exists r, snd (crop_edges false None demo 4 (-1) 0) = Ok r /\
  map (fun f => get r [0; f]) [0; 1; 2; 3] = [None; None; None; Some 3%Q].
Proof. eexists. split; [reflexivity|]. reflexivity. Qed.

(** ** sort_beam_edges *)
Lemma insert_u_in : forall x l y, In y (insert_u x l) <-> y = x \/ In y l.
Proof.
  induction l as [|z l IH]; intros y; cbn [insert_u].
  - cbn [In]. intuition.
  - destruct (x <? z)%Z; [cbn [In]; intuition|]. destruct (Z.eqb_spec x z) as [->|].
    + cbn [In]. intuition.
    + cbn [In]. rewrite IH. intuition.
Qed.
Lemma unique_in : forall l y, In y (unique l) <-> In y l.
Proof.
  induction l as [|x l IH]; intros y; cbn [unique fold_right]; [reflexivity|].
  fold (unique l). rewrite insert_u_in, IH. cbn [In]. intuition.
Qed.
Lemma insert_u_sorted : forall x l, StronglySorted Z.lt l -> StronglySorted Z.lt (insert_u x l).
Proof.
  induction l as [|z l IH]; intros H; cbn [insert_u]; [now repeat constructor|].
  inversion H as [|a b S0 F]; subst. destruct (Z.ltb_spec x z).
  - constructor; [exact H|]. constructor; [assumption|]. eapply Forall_impl; [|exact F]. cbv beta. intros; lia.
  - destruct (Z.eqb_spec x z) as [->|]; [exact H|]. constructor; [now apply IH|].
    apply Forall_forall. intros y Y. apply insert_u_in in Y. destruct Y as [->|Y]; [lia|].
    rewrite Forall_forall in F. now apply F.
Qed.
Lemma unique_sorted : forall l, StronglySorted Z.lt (unique l).
Proof. induction l; cbn; [constructor|]. now apply insert_u_sorted. Qed.

(** [lo] and [hi] are the first and last sub-bands of beam [b]. *)
Definition first_sub (beams : list Z) (b : Z) (lo : nat) : Prop :=
  nth_error beams lo = Some b /\ forall i, nth_error beams i = Some b -> lo <= i.
Definition last_sub (beams : list Z) (b : Z) (hi : nat) : Prop :=
  nth_error beams hi = Some b /\ forall i, nth_error beams i = Some b -> i <= hi.

Lemma sorted_hd_last : forall l, StronglySorted lt l -> l <> [] ->
  In (hd 0 l) l /\ In (last l 0) l /\ forall i, In i l -> hd 0 l <= i <= last l 0.
Proof.
  induction l as [|x l IH]; intros S0 N; [congruence|]. inversion S0 as [|a b S1 F]; subst.
  destruct l as [|y l].
  - cbn. repeat split; auto; intros; intuition lia.
  - destruct IH as (A & B & C); [exact S1|congruence|].
    change (last (x :: y :: l) 0) with (last (y :: l) 0). rewrite Forall_forall in F.
    split; [now left|]. split; [now right|]. cbn [hd]. intros i [<-|I].
    + split; [lia|]. specialize (F _ B). lia.
    + split; [specialize (F _ I); lia|]. now apply C.
Qed.

Theorem beam_edges_spec : forall beams n, 
  StronglySorted Z.lt (map fst (beam_edges beams n)) /\
  (forall b, In b (map fst (beam_edges beams n)) <-> In b beams) /\
  forall b start stop, In (b, (start, stop)) (beam_edges beams n) ->
    exists lo hi, first_sub beams b lo /\ last_sub beams b hi /\ start = lo * n /\ stop = (hi + 1) * n - 1.
Proof.
  intros beams n.
  assert (M : map fst (beam_edges beams n) = unique beams).
  { unfold beam_edges. rewrite map_map. cbn [fst]. apply map_id. }
  rewrite M. split; [apply unique_sorted|]. split; [apply unique_in|].
  intros b start stop I. unfold beam_edges in I. apply in_map_iff in I. destruct I as (b' & E & I).
  injection E as -> <- <-. apply (proj1 (unique_in _ _)) in I.
  set (idx := filter (fun i => (nth i beams 0 =? b)%Z) (seq 0 (length beams))).
  assert (X : forall i, In i idx <-> nth_error beams i = Some b).
  { intros i. unfold idx. rewrite filter_In, in_seq, Z.eqb_eq. split.
    - intros ((_ & L) & <-). apply nth_error_nth'. lia.
    - intros H. assert (i < length beams) by (apply nth_error_Some; congruence). split; [lia|]. now apply nth_error_nth. }
  assert (N : idx <> []).
  { apply In_nth_error in I. destruct I as (i & H). apply X in H. destruct idx; [contradiction|congruence]. }
  destruct (sorted_hd_last idx) as (A & B & C); [|exact N|].
  { unfold idx. apply StronglySorted_filter. apply StronglySorted_seq. }
  exists (hd 0 idx), (last idx 0). repeat split; try (now apply X); intros i H; apply X in H; now apply C.
Qed.

(** The sub-bands of each beam are consecutive. *)
Definition grouped (beams : list Z) : Prop :=
  forall i j k b, i <= j <= k -> nth_error beams i = Some b -> nth_error beams k = Some b -> nth_error beams j = Some b.

Theorem beam_edges_partition : forall beams n, grouped beams -> 0 < n ->
  forall f, f < length beams * n ->
  forall b start stop, In (b, (start, stop)) (beam_edges beams n) ->
    (start <= f <= stop <-> nth_error beams (f / n) = Some b).
Proof.
  intros beams n G N f F b start stop I.
  destruct (beam_edges_spec beams n) as (_ & _ & H).
  destruct (H b start stop I) as (lo & hi & (L1 & L2) & (H1 & H2) & -> & ->).
  pose proof (Nat.div_mod f n ltac:(lia)) as DM. pose proof (Nat.mod_upper_bound f n ltac:(lia)) as MU.
  split.
  - intros (A & B). apply (G lo (f / n) hi b); auto. split.
    + apply Nat.div_le_lower_bound; lia.
    + apply Nat.lt_succ_r. apply Nat.div_lt_upper_bound; nia.
  - intros E. specialize (L2 _ E). specialize (H2 _ E). nia.
Qed.

(** Interleaved beams: the range of a beam contains channels of another. *)
Theorem beam_edges_interleaved :
  beam_edges [0; 1; 0; 1]%Z 2 = [(0%Z, (0, 5)); (1%Z, (2, 7))].
Proof. reflexivity. Qed.
