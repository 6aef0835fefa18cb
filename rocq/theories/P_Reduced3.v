(** Files of reduced spectra: names with a slash, polarizations given as a text, slices. *)
From Coq Require Import Ascii String List Arith ZArith QArith Bool Lia Lqa Permutation Sorting.Sorted.
From Verif Require Import Base M_Nd P_Nd M_PText P_PText M_Reduced P_Reduced P_Reduced2.
From Verif Require M_Pipeline M_Bst M_Parset.
Import ListNotations.
Open Scope nat_scope.
Open Scope list_scope.

Local Opaque beam_name.
Section Reduced.
Variable A : Type.
Variable unit_of : string -> option (option Q).
Notation args := (args A). Notation h5 := (h5 A). Notation beam := (beam A). Notation node := (node A). Notation part := (part A).
Notation store := (store A unit_of). Notation read := (read A unit_of). Notation open_beam := (open_beam A unit_of).
Notation beam_of := (beam_of A).

(** ** Names with a slash *)
Lemma put_group : forall n m r d g g', put A (n :: m :: r) d g = Ok g' -> exists q, get_key n g' = Some (Group A q).
Proof.
  intros n m r d g g' H. cbn [put] in H. destruct (get_key n g) as [[x|q]|] eqn:G; [discriminate| |].
  - destruct (put A (m :: r) d q) as [q'|] eqn:P; [|cbn in P; rewrite P in H; discriminate]. change (bind (put A (m :: r) d q) (fun g' => Ok (set_key n (Group A g') g)) = Ok g') in H. rewrite P in H. injection H as <-. exists q'. rewrite get_set. now rewrite String.eqb_refl.
  - change (bind (put A (m :: r) d []) (fun g' => Ok (g ++ [(n, Group A g')])) = Ok g') in H. destruct (put A (m :: r) d []) as [q'|]; [|discriminate]. injection H as <-. exists q'. rewrite get_app, G. now rewrite String.eqb_refl.
Qed.
Lemma put_keeps : forall path d g g' n q, put A path d g = Ok g' -> get_key n g = Some (Group A q) -> exists q', get_key n g' = Some (Group A q').
Proof.
  intros [|m [|m2 r]] d g g' n q H G; [discriminate| |].
  - cbn [put] in H. destruct (get_key m g) eqn:GM; [discriminate|]. injection H as <-. exists q. rewrite get_app. now rewrite G.
  - change (match get_key m g with None => bind (put A (m2 :: r) d []) (fun g' => Ok (g ++ [(m, Group A g')])) | Some (Group _ q) => bind (put A (m2 :: r) d q) (fun g' => Ok (set_key m (Group A g') g)) | Some (Dset _ _) => Err ETypeError end = Ok g') in H.
    destruct (get_key m g) as [[x|q0]|] eqn:GM; [discriminate| |].
    + destruct (put A (m2 :: r) d q0) as [q'|]; [|discriminate]. injection H as <-. rewrite get_set. destruct (String.eqb n m); [now exists q'|now exists q].
    + destruct (put A (m2 :: r) d []) as [q'|]; [|discriminate]. injection H as <-. rewrite get_app, G. now exists q.
Qed.
Lemma set_keys : forall V n m (v : V) g, get_key m g <> None -> In n (map fst (set_key m v g)) -> In n (map fst g).
Proof. intros V n m v g N I. apply get_in in I. rewrite get_set in I. apply get_in. destruct (String.eqb n m) eqn:E; [|exact I]. apply String.eqb_eq in E. now subst. Qed.
Lemma put_names : forall path d g g', put A path d g = Ok g' -> Forall (fun n => has_char "/" n = false) path -> (forall n, In n (map fst g) -> has_char "/" n = false) -> forall n, In n (map fst g') -> has_char "/" n = false.
Proof.
  intros [|m [|m2 r]] d g g' H F N n I; [discriminate| |]; inversion F; subst.
  - cbn [put] in H. destruct (get_key m g) eqn:GM; [discriminate|]. injection H as <-. rewrite map_app in I. apply in_app_or in I as [I|[<-|[]]]; [now apply N|assumption].
  - change (match get_key m g with None => bind (put A (m2 :: r) d []) (fun g' => Ok (g ++ [(m, Group A g')])) | Some (Group _ q) => bind (put A (m2 :: r) d q) (fun g' => Ok (set_key m (Group A g') g)) | Some (Dset _ _) => Err ETypeError end = Ok g') in H.
    destruct (get_key m g) as [[x|q0]|] eqn:GM; [discriminate| |].
    + destruct (put A (m2 :: r) d q0) as [q'|]; [|discriminate]. injection H as <-. apply N. apply set_keys in I; [exact I|congruence].
    + destruct (put A (m2 :: r) d []) as [q'|]; [|discriminate]. injection H as <-. rewrite map_app in I. apply in_app_or in I as [I|[<-|[]]]; [now apply N|assumption].
Qed.
Lemma path_slashes : forall n, Forall (fun x => has_char "/" x = false) (path_of n).
Proof. intro n. unfold path_of. pose proof (split_char_without "/" n) as H. rewrite Forall_forall in *. intros x X. apply filter_In in X as (X & _). exact (H x X). Qed.
Lemma create_put : forall n d b b', create_dataset A n d b = Ok b' -> put A (path_of n) d (b_sets A b) = Ok (b_sets A b') /\ b_coords A b' = b_coords A b.
Proof.
  intros n d b b' H. unfold create_dataset in H. destruct (path_of n) as [|m r] eqn:P; [discriminate|]. destruct (String.eqb m "COORDINATES"); [discriminate|]. destruct (put A (m :: r) d (b_sets A b)) as [g|]; [|discriminate]. injection H as <-. now split.
Qed.
Lemma write_slash : forall d r p ks b b', write_sets A d r p ks b = (b', None) ->
  b_coords A b' = b_coords A b /\
  (forall n q, get_key n (b_sets A b) = Some (Group A q) -> exists q', get_key n (b_sets A b') = Some (Group A q')) /\
  ((forall n, In n (map fst (b_sets A b)) -> has_char "/" n = false) -> forall n, In n (map fst (b_sets A b')) -> has_char "/" n = false) /\
  (forall k s x y t, In k ks -> pol_at p k = Ok s -> path_of (M_Bst.upper s) = x :: y :: t -> exists q, get_key x (b_sets A b') = Some (Group A q)).
Proof.
  intros d r p ks. induction ks as [|k ks IH]; intros b b' H.
  - injection H as <-. split; [reflexivity|]. split; [intros n q Q; now exists q|]. split; [trivial|]. intros k s x y t [].
  - cbn [write_sets] in H. destruct (pol_at p k) as [s|] eqn:P; [|discriminate]. cbn [bind] in H. destruct (create_dataset A (M_Bst.upper s) (plane A d r k) b) as [b1|] eqn:C; [|discriminate].
    destruct (IH b1 b' H) as (I1 & I2 & I3 & I4). destruct (create_put _ _ _ _ C) as (PU & CO). split; [congruence|]. split; [|split].
    + intros n q G. destruct (put_keeps _ _ _ _ _ _ PU G) as (q1 & G1). exact (I2 n q1 G1).
    + intros N. apply I3. intros n. apply (put_names _ _ _ _ PU (path_slashes _) N).
    + intros k' s' x y t [<-|K] P' PA; [|exact (I4 k' s' x y t K P' PA)]. rewrite P in P'. injection P' as <-. rewrite PA in PU. destruct (put_group _ _ _ _ _ _ PU) as (q & G). exact (I2 x q G).
Qed.
Lemma planes_group : forall b ns n q, (forall m, In m ns -> get_key m (b_sets A b) <> None) -> In n ns -> get_key n (b_sets A b) = Some (Group A q) -> planes A b ns = Err EValueError.
Proof.
  intros b ns n q. induction ns as [|m ns IH]; intros F I G; [destruct I|]. cbn [planes]. destruct (get_key m (b_sets A b)) as [[d|g]|] eqn:GM; [|reflexivity|exfalso; apply (F m); [now left|exact GM]].
  destruct I as [->|I]; [congruence|]. rewrite IH; [reflexivity| |exact I|exact G]. intros x X. apply F. now right.
Qed.
Lemma store_filled : forall a s h, store a s = (Some h, None) -> exists k f0 fs, unit_of (a_unit A a) = Some k /\
  beam_of h (a_beam A a) = Some (fst (fill_beam A a k f0 fs)) /\ snd (fill_beam A a k f0 fs) = None.
Proof.
  intros a s h H. unfold M_Reduced.store in H. destruct (negb _); [discriminate|]. destruct (unit_of (a_unit A a)) as [k|] eqn:U; [|discriminate]. destruct (a_freq A a) as [|f0 fs]; [discriminate|].
  exists k, f0, fs. split; [reflexivity|].
  assert (X : forall at' bs h' e', get_key (beam_name (a_beam A a)) bs = None -> new_beam A a k f0 fs at' bs = (h', e') -> (Some h', e') = (Some h, None) -> beam_of h (a_beam A a) = Some (fst (fill_beam A a k f0 fs)) /\ snd (fill_beam A a k f0 fs) = None).
  { intros at' bs h' e' N B E. injection E as -> ->. destruct (new_beam_of A a k f0 fs at' bs h None N B) as (B1 & B2 & _). split; [exact B1|now symmetry]. }
  destruct (open_file A _ s) as [h0|]; [|discriminate]. destruct (String.eqb _ "w").
  - destruct (root_attrs A a k f0 fs) as (at', [e|]); [discriminate|]. destruct (new_beam A a k f0 fs at' []) as (h', e') eqn:NB. now apply (X at' [] h' e').
  - destruct (String.eqb _ "a"); [|discriminate]. destruct (h_sap A h0) as [bs|]; [|discriminate]. destruct (get_key _ bs) eqn:GB; [discriminate|]. destruct (new_beam A a k f0 fs _ bs) as (h', e') eqn:NB. now apply (X (h_attrs A h0) bs h' e').
Qed.
Theorem slash_refuted : forall a s h nt nf r p n x y, store a s = (Some h, None) -> sh (a_data A a) = nt :: nf :: r -> p < size r -> pol_at (a_pols A a) p = Ok n ->
  M_Bst.upper n = (x ++ "/" ++ y)%string -> has_char "/" x = false -> has_char "/" y = false -> x <> EmptyString -> y <> EmptyString ->
  open_beam h [0%Z; a_beam A a] = Err EValueError /\ read h (Some (M_Bst.upper n)) 0 (a_beam A a) = Err EKeyError.
Proof.
  intros a s h nt nf r p n x y H SH P PN U SX SY NX NY.
  assert (PA : path_of (M_Bst.upper n) = [x; y]).
  { unfold path_of. rewrite U. change ("/" ++ y)%string with (String "/" y). rewrite split_char_app by exact SX. rewrite split_char_one by exact SY. cbn [filter]. apply String.eqb_neq in NX, NY. now rewrite NX, NY. }
  assert (SL : has_char "/" (M_Bst.upper n) = true).
  { rewrite U. clear. change ("/" ++ y)%string with (String "/" y). induction x as [|c x IH]; [reflexivity|]. cbn [append has_char]. rewrite IH. apply orb_true_r. }
  destruct (store_filled a s h H) as (k & f0 & fs & UN & B & E). unfold fill_beam in B, E. destruct (a_time A a) as [|t0 ts] eqn:T; [discriminate|]. destruct k as [k|]; [|discriminate].
  unfold flatten in B, E. rewrite SH in B, E. destruct (nt * nf =? 0); [discriminate|]. match type of E with snd ?w = None => destruct w as (b, e) eqn:W end. cbn [fst snd] in B, E. subst e.
  destruct (write_slash _ _ _ _ _ _ W) as (W1 & _ & W3 & W4). cbn [b_coords b_sets map] in W1, W3. destruct (W4 p n x y [] ltac:(apply in_seq; lia) PN PA) as (q & G).
  assert (R : forall key, read h key 0 (a_beam A a) = bind (match key with None => Ok (sort (map fst (b_sets A b))) | Some k => if existsb (String.eqb k) (sort (map fst (b_sets A b))) then Ok [k] else Err EKeyError end)
      (fun pol => bind (planes A b pol) (fun l => bind (stack A l) (fun d => Ok (t0 :: ts, map (fun x => x * k)%Q (map (fun f => f / k)%Q (a_freq A a)), pol, d))))).
  { intro key. unfold M_Reduced.read. rewrite sap_name_0. cbn [Z.eqb]. unfold P_Reduced.beam_of in B. destruct (h_sap A h) as [bs|]; [|discriminate]. rewrite B. unfold available. rewrite W1. cbn [bind]. rewrite UN. reflexivity. }
  split.
  - unfold M_Reduced.open_beam. rewrite R. cbn [bind]. rewrite (planes_group b (sort (map fst (b_sets A b))) x q); [reflexivity| | |exact G].
    + intros m M. apply get_in. exact (Permutation_in _ (sort_perm _) M).
    + apply (Permutation_in _ (Permutation_sym (sort_perm _))). apply get_in. congruence.
  - rewrite R. destruct (existsb (String.eqb (M_Bst.upper n)) (sort (map fst (b_sets A b)))) eqn:X; [|reflexivity]. exfalso. apply existsb_exists in X as (m & M & EM). apply String.eqb_eq in EM. subst m. apply (Permutation_in _ (sort_perm _)) in M.
    specialize (W3 (fun n F => match F : False with end) _ M). congruence.
Qed.
(** ** Polarizations given as a text: one for each character *)
Definition letters (s : string) : list string := map (fun c => String c EmptyString) (list_ascii_of_string s).
Definition with_pols (a : args) (p : pols) : args := mkArgs A (a_name A a) (a_data A a) (a_time A a) (a_freq A a) p (a_beam A a) (a_unit A a) (a_mode A a) (a_meta A a).
Lemma pol_letters : forall s k, pol_at (PText s) k = pol_at (PList (letters s)) k.
Proof. intros s. unfold letters. induction s as [|c s IH]; intros [|k]; try reflexivity. exact (IH k). Qed.
Lemma write_letters : forall d r s ks b, write_sets A d r (PText s) ks b = write_sets A d r (PList (letters s)) ks b.
Proof. intros d r s ks. induction ks as [|k ks IH]; intro b; [reflexivity|]. cbn [write_sets]. rewrite pol_letters. destruct (bind _ _); [apply IH|reflexivity]. Qed.
Theorem text_refuted : forall a s f, a_pols A a = PText s -> store a f = store (with_pols a (PList (letters s))) f.
Proof.
  intros a s f P. assert (FB : forall k f0 fs, fill_beam A a k f0 fs = fill_beam A (with_pols a (PList (letters s))) k f0 fs).
  { intros k f0 fs. unfold fill_beam, with_pols. cbn. destruct (a_time A a) as [|t0 ts]; [reflexivity|]. destruct k as [k|]; [|reflexivity]. destruct (flatten A (a_data A a)) as [(r, n)|]; [|reflexivity]. rewrite P. apply write_letters. }
  assert (NB : forall k f0 fs at_ bs, new_beam A a k f0 fs at_ bs = new_beam A (with_pols a (PList (letters s))) k f0 fs at_ bs) by (intros; unfold new_beam; now rewrite FB).
  unfold M_Reduced.store. cbn [with_pols a_name a_mode a_unit a_freq a_beam]. destruct (negb _); [reflexivity|]. destruct (unit_of (a_unit A a)) as [k|]; [|reflexivity]. destruct (a_freq A a) as [|f0 fs]; [reflexivity|].
  destruct (open_file A _ f) as [h0|]; [|reflexivity]. destruct (String.eqb _ "w").
  - change (root_attrs A (with_pols a (PList (letters s))) k f0 fs) with (root_attrs A a k f0 fs). destruct (root_attrs A a k f0 fs) as (at', [e|]); [reflexivity|]. now rewrite NB.
  - destruct (String.eqb _ "a"); [|reflexivity]. destruct (h_sap A h0) as [bs|]; [|reflexivity]. destruct (get_key _ bs); [reflexivity|]. now rewrite NB.
Qed.

(** ** Slices *)
Definition sound (z : part) : Prop :=
  z_time A z <> [] /\ z_freq A z <> [] /\ z_pol A z <> [] /\ sh (z_data A z) = [length (z_time A z); length (z_freq A z); length (z_pol A z)].
Theorem opened_sound : forall h ids z, open_beam h ids = Ok z -> sound z.
Proof.
  intros h ids z H. unfold M_Reduced.open_beam in H. destruct ids as [|x [|y [|w ids]]]; try discriminate. destruct (read h None x y) as [(((t, f), p), d)|]; [|discriminate]. cbn [bind] in H. unfold make_part in H.
  destruct (length t =? 0) eqn:T; [discriminate|]. destruct (length f =? 0) eqn:F; [discriminate|]. destruct (length p =? 0) eqn:P; [discriminate|]. cbn [orb] in H. unfold reshape in H. destruct (_ =? _) in H; [|discriminate]. cbn [bind] in H. injection H as <-.
  unfold sound. cbn. apply Nat.eqb_neq in T, F, P. destruct t, f, p; try contradiction. repeat split; discriminate.
Qed.
(** The positions meant by an index on an axis of [n] *)
Definition norm (n : nat) (x : Z) : Z := if (x <? 0)%Z then Z.max 0 (x + Z.of_nat n) else Z.min x (Z.of_nat n).
Definition chosen (n : nat) (i : index) (k : nat) : Prop :=
  k < n /\ match i with
  | IInt z => (z = Z.of_nat k \/ z = Z.of_nat k - Z.of_nat n)%Z
  | ISlice a b => (match a with Some a => norm n a <= Z.of_nat k | None => True end)%Z /\ (match b with Some b => Z.of_nat k < norm n b | None => True end)%Z
  | IEllipsis => True
  end.
Lemma positions_spec : forall n i, match positions n i with
  | Ok l => StronglySorted lt l /\ forall k, In k l <-> chosen n i k
  | Err e => e = EIndexError /\ forall k, ~ chosen n i k
  end.
Proof.
  intros n [z|a b|]; unfold positions, chosen.
  - destruct ((- Z.of_nat n <=? z)%Z && (z <? Z.of_nat n)%Z) eqn:B.
    + apply andb_prop in B as (B1 & B2). apply Z.leb_le in B1. apply Z.ltb_lt in B2. split; [repeat constructor|]. intro k. cbn [In].
      assert (M : (z mod Z.of_nat n = if z <? 0 then z + Z.of_nat n else z)%Z).
      { destruct (Z.ltb_spec z 0); [|apply Z.mod_small; lia]. rewrite <- (Z.mod_add z 1) by lia. rewrite Z.mod_small; lia. }
      rewrite M. destruct (Z.ltb_spec z 0); split; [intros [<-|[]]; split; [lia|right; lia]|intros (K & [E|E]); left; lia|intros [<-|[]]; split; [lia|left; lia]|intros (K & [E|E]); left; lia].
    + split; [reflexivity|]. intros k (K & E). apply andb_false_iff in B as [B|B]; [apply Z.leb_gt in B|apply Z.ltb_ge in B]; lia.
  - split; [apply StronglySorted_seq|]. intro k. rewrite in_seq.
    assert (X : forall x, Z.of_nat (slice_bound n x) = norm n x) by (intro x; unfold slice_bound, norm; destruct (Z.ltb_spec x 0); lia).
    assert (Y : forall x, slice_bound n x <= n) by (intro x; unfold slice_bound; destruct (Z.ltb_spec x 0); lia).
    destruct a as [a|], b as [b|]; try rewrite <- (X a); try rewrite <- (X b); try pose proof (Y a); try pose proof (Y b); lia.
  - split; [apply StronglySorted_seq|]. intro k. rewrite in_seq. lia.
Qed.
Definition axis (l : list index) (q : nat) : index := nth q l (ISlice None None).
Lemma reshape_same : forall (s : list nat) (g : list nat -> A) idx, inside s idx -> exists d, reshape s (mkNd s g) = Ok d /\ sh d = s /\ get d idx = g idx.
Proof. intros s g idx I. unfold reshape. cbn [sh]. rewrite Nat.eqb_refl. eexists. split; [reflexivity|]. cbn. split; [reflexivity|]. now rewrite unravel_ravel. Qed.
Theorem slice_exact : forall z l p, sound z -> slice_part A z l = Ok p ->
  sound p /\ exists ts fs ps, StronglySorted lt ts /\ StronglySorted lt fs /\ StronglySorted lt ps /\
    (forall k, In k ts <-> chosen (length (z_time A z)) (axis l 0) k) /\ (forall k, In k fs <-> chosen (length (z_freq A z)) (axis l 1) k) /\ (forall k, In k ps <-> chosen (length (z_pol A z)) (axis l 2) k) /\
    z_time A p = map (fun i => nth i (z_time A z) 0%Q) ts /\ z_freq A p = map (fun i => nth i (z_freq A z) 0%Q) fs /\ z_pol A p = map (fun i => nth i (z_pol A z) EmptyString) ps /\
    forall i j k, i < length ts -> j < length fs -> k < length ps -> get (z_data A p) [i; j; k] = get (z_data A z) [nth i ts 0; nth j fs 0; nth k ps 0].
Proof.
  intros z l p S H. unfold slice_part in H. destruct l as [|ti r]; [discriminate|]. destruct (3 <? length (ti :: r)); [discriminate|]. cbn zeta in H.
  pose proof (positions_spec (length (z_time A z)) ti) as P1. pose proof (positions_spec (length (z_freq A z)) (nth 0 r (ISlice None None))) as P2. pose proof (positions_spec (length (z_pol A z)) (nth 1 r (ISlice None None))) as P3.
  destruct (positions _ ti) as [ts|]; [|discriminate]. cbn [bind] in H. destruct (positions _ (nth 0 r _)) as [fs|]; [|discriminate]. cbn [bind] in H. destruct (positions _ (nth 1 r _)) as [ps|]; [|discriminate]. cbn [bind] in H.
  destruct (1 <? _) in H; [discriminate|]. unfold make_part, pick in H. rewrite !map_length in H.
  destruct (length ts =? 0) eqn:T; [discriminate|]. destruct (length fs =? 0) eqn:F; [discriminate|]. destruct (length ps =? 0) eqn:P; [discriminate|]. cbn [orb] in H.
  apply Nat.eqb_neq in T, F, P. unfold reshape in H. cbn [sh get] in H. rewrite Nat.eqb_refl in H. cbn [bind] in H. injection H as <-. split.
  - unfold sound. cbn [z_time z_freq z_pol z_data sh]. rewrite !map_length. destruct ts, fs, ps; try (cbn in T, F, P; lia). repeat split; discriminate.
  - exists ts, fs, ps. destruct P1 as (S1 & C1), P2 as (S2 & C2), P3 as (S3 & C3). do 6 (split; [first [exact S1|exact S2|exact S3|exact C1|exact C2|exact C3]|]). do 3 (split; [reflexivity|]).
    intros i j k I J K. pose proof (unravel_ravel [length ts; length fs; length ps] [i; j; k] ltac:(repeat constructor; assumption)) as U.
    change (get (z_data A z) [nth (nth 0 (unravel [length ts; length fs; length ps] (ravel [length ts; length fs; length ps] [i; j; k])) 0) ts 0;
      nth (nth 1 (unravel [length ts; length fs; length ps] (ravel [length ts; length fs; length ps] [i; j; k])) 0) fs 0;
      nth (nth 2 (unravel [length ts; length fs; length ps] (ravel [length ts; length fs; length ps] [i; j; k])) 0) ps 0] = get (z_data A z) [nth i ts 0; nth j fs 0; nth k ps 0]). rewrite U. reflexivity.
Qed.
Theorem slice_errors : forall z l, sound z ->
  (forall e, slice_part A z l = Err e -> e = EIndexError) /\
  ((exists p, slice_part A z l = Ok p) <-> 1 <= length l <= 3 /\ length (filter is_ellipsis l) <= 1 /\
     (exists k, chosen (length (z_time A z)) (axis l 0) k) /\ (exists k, chosen (length (z_freq A z)) (axis l 1) k) /\ (exists k, chosen (length (z_pol A z)) (axis l 2) k)).
Proof.
  intros z l S. unfold slice_part. destruct l as [|ti r]; [split; [intros e H; now injection H|split; [intros (p & H); discriminate|cbn; lia]]|].
  destruct (Nat.ltb_spec 3 (length (ti :: r))) as [L|L]; [split; [intros e H; now injection H|split; [intros (p & H); discriminate|lia]]|]. cbn zeta.
  pose proof (positions_spec (length (z_time A z)) ti) as P1. pose proof (positions_spec (length (z_freq A z)) (nth 0 r (ISlice None None))) as P2. pose proof (positions_spec (length (z_pol A z)) (nth 1 r (ISlice None None))) as P3.
  unfold axis. cbn [nth]. change (nth 1 (ti :: r) (ISlice None None)) with (nth 0 r (ISlice None None)). change (nth 2 (ti :: r) (ISlice None None)) with (nth 1 r (ISlice None None)).
  destruct (positions _ ti) as [ts|e1]; [|destruct P1 as (-> & P1); split; [intros e H; now injection H|split; [intros (p & H); discriminate|intros (_ & _ & (k & K) & _); exfalso; exact (P1 k K)]]]. cbn [bind].
  destruct (positions _ (nth 0 r _)) as [fs|e1]; [|destruct P2 as (-> & P2); split; [intros e H; now injection H|split; [intros (p & H); discriminate|intros (_ & _ & _ & (k & K) & _); exfalso; exact (P2 k K)]]]. cbn [bind].
  destruct (positions _ (nth 1 r _)) as [ps|e1]; [|destruct P3 as (-> & P3); split; [intros e H; now injection H|split; [intros (p & H); discriminate|intros (_ & _ & _ & _ & (k & K)); exfalso; exact (P3 k K)]]]. cbn [bind].
  assert (EL : length (filter is_ellipsis [ti; nth 0 r (ISlice None None); nth 1 r (ISlice None None)]) = length (filter is_ellipsis (ti :: r))).
  { destruct r as [|x [|y [|w r]]]; [destruct ti; reflexivity|destruct ti, x; reflexivity|reflexivity|cbn in L; lia]. }
  rewrite EL. destruct (Nat.ltb_spec 1 (length (filter is_ellipsis (ti :: r)))) as [E|E]; [split; [intros e H; now injection H|split; [intros (p & H); discriminate|lia]]|].
  unfold make_part, pick. rewrite !map_length. destruct P1 as (_ & P1), P2 as (_ & P2), P3 as (_ & P3).
  destruct ts as [|t ts]; [split; [intros e H; now injection H|split; [intros (p & H); discriminate|intros (_ & _ & (k & K) & _); apply P1 in K; destruct K]]|].
  destruct fs as [|f fs]; [split; [intros e H; now injection H|split; [intros (p & H); discriminate|intros (_ & _ & _ & (k & K) & _); apply P2 in K; destruct K]]|].
  destruct ps as [|q ps]; [split; [intros e H; now injection H|split; [intros (p & H); discriminate|intros (_ & _ & _ & _ & (k & K)); apply P3 in K; destruct K]]|].
  cbn [length Nat.eqb orb]. unfold reshape. cbn [sh]. rewrite Nat.eqb_refl. cbn [bind]. split; [discriminate|]. split; [intros _|intros _; eexists; reflexivity].
  split; [cbn [length] in *; lia|]. split; [exact E|]. split; [exists t; apply P1; now left|]. split; [exists f; apply P2; now left|exists q; apply P3; now left].
Qed.
End Reduced.
