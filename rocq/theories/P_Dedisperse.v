(** Specification and proofs: de-dispersion. *)
From Coq Require Import List Arith ZArith QArith Qabs Lqa Lia Bool.
From Verif Require Import Base M_Nd P_Nd M_TFArray P_TFArray M_Polar P_Polar2 M_Dedisperse.
Import ListNotations.
Open Scope nat_scope.

(** ** Fortran order *)
Lemma inside_rev : forall s idx, inside s idx -> inside (rev s) (rev idx).
Proof.
  induction 1 as [|n i s idx H F IH]; simpl; [constructor|]. apply Forall2_app; [exact IH|].
  constructor; [exact H|constructor].
Qed.
Lemma size_rev : forall s, size (rev s) = size s.
Proof.
  induction s as [|n s IH]; [reflexivity|]. simpl rev. rewrite size_app, IH.
  change (size [n]) with (n * 1). rewrite size_cons. lia.
Qed.
Lemma reshape_f_ok : forall A (a : nd A) s, size s = size (sh a) -> exists r, reshape_f s a = Ok r /\ sh r = s.
Proof. intros A a s E. unfold reshape_f. rewrite E, Nat.eqb_refl. eexists. split; reflexivity. Qed.
Lemma reshape_f_at : forall A (a r : nd A) s idx jdx, reshape_f s a = Ok r -> inside (sh a) jdx ->
  ravel (rev s) (rev idx) = ravel (rev (sh a)) (rev jdx) -> get r idx = get a jdx.
Proof.
  intros A a r s idx jdx H J E. unfold reshape_f in H. destruct (size s =? size (sh a)); [|discriminate].
  injection H as <-. cbn [get]. rewrite E, unravel_ravel by now apply inside_rev. now rewrite rev_involutive.
Qed.
Lemma flat_ravel : forall T F pol t f p, inside pol p ->
  ravel (rev (T * F :: pol)) (rev (t + T * f :: p)) = ravel (rev (T :: F :: pol)) (rev (t :: f :: p)).
Proof.
  intros T F pol t f p H. simpl rev. rewrite <- !app_assoc.
  assert (L : length (rev p) = length (rev pol)) by (rewrite !rev_length; now apply inside_length).
  rewrite !ravel_app by exact L. simpl app. unfold size; cbn [fold_right ravel]. unfold size; cbn [fold_right]. lia.
Qed.

(** ** Rows *)
Lemma last_position_spec : forall rows r k found,
  match last_position r k rows found with
  | Some j => (exists i, j = k + i /\ nth_error rows i = Some r) \/ (found = Some j /\ ~ In r rows)
  | None => found = None /\ ~ In r rows
  end.
Proof.
  induction rows as [|x rows IH]; intros r k found; cbn [last_position].
  - destruct found; [right|]; auto.
  - specialize (IH r (S k) (if x =? r then Some k else found)).
    destruct (last_position _ _ _ _) as [j|].
    + destruct IH as [(i & E1 & E2)|[E N]].
      * left. exists (S i). split; [lia|exact E2].
      * destruct (Nat.eqb_spec x r) as [->|D].
        -- injection E as <-. left. exists 0. split; [lia|reflexivity].
        -- right. split; [exact E|]. intros [C|C]; congruence || tauto.
    + destruct IH as [E N]. destruct (Nat.eqb_spec x r) as [->|D]; [discriminate|].
      split; [exact E|]. intros [C|C]; congruence || tauto.
Qed.
Lemma last_position_none : forall rows r, ~ In r rows -> last_position r 0 rows None = None.
Proof.
  intros rows r N. pose proof (last_position_spec rows r 0 None) as H.
  destruct (last_position r 0 rows None) as [j|]; [|reflexivity].
  destruct H as [(i & _ & E)|[E _]]; [|discriminate]. apply nth_error_In in E. contradiction.
Qed.
Lemma last_position_some : forall rows r, In r rows ->
  exists k, last_position r 0 rows None = Some k /\ nth_error rows k = Some r.
Proof.
  intros rows r N. pose proof (last_position_spec rows r 0 None) as H.
  destruct (last_position r 0 rows None) as [j|]; [|tauto]. exists j. split; [reflexivity|].
  destruct H as [(i & -> & E)|[E _]]; [exact E|discriminate].
Qed.

Lemma py_indices_ok : forall n l, Forall (fun k => 0 <= k < Z.of_nat n)%Z l -> py_indices n l = Ok (map Z.to_nat l).
Proof.
  intros n l. induction 1 as [|k l H F IH]; [reflexivity|]. cbn [py_indices]. unfold py_index.
  destruct ((0 <=? k) && (k <? Z.of_nat n))%Z eqn:E; [|lia]. cbn [bind]. rewrite IH. reflexivity.
Qed.

(** ** The kept indices, for delays that are not negative *)
Lemma in_arange : forall n j, In j (arange n) <-> (0 <= j < n)%Z.
Proof.
  intros n j. unfold arange. rewrite in_map_iff. split.
  - intros (x & <- & H). apply in_seq in H. lia.
  - intro H. exists (Z.to_nat j). split; [lia|]. apply in_seq. lia.
Qed.
Lemma in_concat_imap : forall A B (g : nat -> A -> list B) l x,
  In x (concat (imap g l)) <-> exists i a, nth_error l i = Some a /\ In x (g i a).
Proof.
  intros A B g l x. rewrite in_concat. split.
  - intros (y & Y & X). apply In_nth_error in Y as [i Y]. rewrite nth_error_imap in Y.
    destruct (nth_error l i) as [a|] eqn:E; [|discriminate]. injection Y as <-. exists i, a. auto.
  - intros (i & a & E & X). exists (g i a). split; [|exact X]. apply nth_error_In with i.
    now rewrite nth_error_imap, E.
Qed.
Lemma in_keep : forall T ds k, In k (indices_to_keep T ds) <->
  exists i d t, nth_error ds i = Some d /\ (k = t + Z.of_nat (i * T))%Z /\ (d <= t < Z.of_nat T)%Z.
Proof.
  intros T ds k. unfold indices_to_keep. rewrite in_concat_imap. split.
  - intros (i & d & E & H). apply in_map_iff in H as (j & <- & J). apply in_arange in J.
    exists i, d, (d + j)%Z. split; [exact E|]. lia.
  - intros (i & d & t & E & -> & H). exists i, d. split; [exact E|]. apply in_map_iff.
    exists (t - d)%Z. split; [lia|]. apply in_arange. lia.
Qed.

Section Shift.
Context {A B : Type} (real : A -> B) (nan : B) (data : nd A) (T : nat) (pol : list nat) (ds : list Z).
Hypothesis Sh : sh data = T :: length ds :: pol.
Hypothesis Pos : forall d, In d ds -> (0 <= d)%Z.

Let keep := indices_to_keep T ds.
Lemma keep_range : forall k, In k keep -> exists i d t, nth_error ds i = Some d /\
  (k = t + Z.of_nat (i * T))%Z /\ (0 <= d <= t)%Z /\ (t < Z.of_nat T)%Z /\ i < length ds /\
  (k / Z.of_nat T = Z.of_nat i)%Z.
Proof.
  intros k H. apply in_keep in H as (i & d & t & E & K & D). exists i, d, t.
  assert (0 <= d)%Z by (apply Pos; eapply nth_error_In; eauto).
  split; [exact E|]. split; [exact K|]. split; [lia|]. split; [lia|].
  split; [apply nth_error_Some; congruence|].
  symmetry. apply Z.div_unique with t; lia.
Qed.
Lemma run_shift : exists r,
  bind (py_indices (length ds) (map (fun k => Z.div k (Z.of_nat T)) keep)) (fun channels =>
  let news := map (fun kc => fst kc - nth (snd kc) ds 0)%Z (combine keep channels) in
  bind (reshape_f (T * length ds :: pol) data) (fun flat =>
  bind (py_indices (T * length ds) keep) (fun from =>
  bind (py_indices (T * length ds) news) (fun to =>
  reshape_f (sh data) (set_rows (mkNd (T * length ds :: pol) (fun _ => nan)) to
     (fun k p => real (get flat (nth k from 0 :: p)))))))) = Ok r /\ sh r = sh data /\
  forall t f p d, t < T -> nth_error ds f = Some d -> inside pol p ->
    get r (t :: f :: p) = if t + Z.to_nat d <? T then real (get data (t + Z.to_nat d :: f :: p)) else nan.
Proof.
  rewrite py_indices_ok.
  2:{ apply Forall_forall. intros x X. apply in_map_iff in X as (k & <- & K).
      destruct (keep_range k K) as (i & d & t & _ & _ & _ & _ & L & ->). lia. }
  cbn [bind]. rewrite map_map.
  set (new := fun k => (k - nth (Z.to_nat (k / Z.of_nat T)) ds 0)%Z).
  assert (EN : forall l, map (fun kc => (fst kc - nth (snd kc) ds 0)%Z)
    (combine l (map (fun x => Z.to_nat (x / Z.of_nat T)) l)) = map new l).
  { induction l as [|x l IH]; [reflexivity|]. cbn [map combine]. rewrite IH. reflexivity. }
  rewrite EN. cbv zeta.
  assert (New : forall k, In k keep -> exists i d t, nth_error ds i = Some d /\
    (k = t + Z.of_nat (i * T))%Z /\ (0 <= d <= t)%Z /\ (t < Z.of_nat T)%Z /\ i < length ds /\
    (new k = t - d + Z.of_nat (i * T))%Z).
  { intros k K. destruct (keep_range k K) as (i & d & t & E & E1 & E2 & E3 & E4 & E5). exists i, d, t.
    repeat (split; [assumption|]). unfold new. rewrite E5, Nat2Z.id, (nth_error_nth _ _ _ E). lia. }
  destruct (reshape_f_ok _ data (T * length ds :: pol)) as (flat & Ef & Sf).
  { rewrite Sh, !size_cons. lia. }
  rewrite Ef. cbn [bind].
  rewrite py_indices_ok.
  2:{ apply Forall_forall. intros k K. destruct (keep_range k K) as (i & d & t & _ & -> & ? & ? & ? & _). nia. }
  cbn [bind]. rewrite py_indices_ok.
  2:{ apply Forall_forall. intros x X. apply in_map_iff in X as (k & <- & K).
      destruct (New k K) as (i & d & t & _ & _ & ? & ? & ? & ->). nia. }
  cbn [bind].
  set (to := map Z.to_nat (map new keep)). set (x := set_rows _ to _).
  destruct (reshape_f_ok _ x (sh data)) as (r & Er & Sr).
  { unfold x, set_rows; cbn [sh]. rewrite Sh, !size_cons. lia. }
  exists r. split; [exact Er|]. split; [exact Sr|]. intros t f p d Ht Ed Hp.
  assert (Hf : f < length ds) by (apply nth_error_Some; congruence).
  rewrite (reshape_f_at _ _ _ _ (t :: f :: p) (t + T * f :: p) Er).
  2:{ unfold x, set_rows; cbn [sh]. constructor; [nia|exact Hp]. }
  2:{ rewrite Sh. unfold x, set_rows; cbn [sh]. symmetry. now apply flat_ravel. }
  unfold x, set_rows; cbn [get hd tl].
  assert (D0 : (0 <= d)%Z) by (apply Pos; eapply nth_error_In; eauto).
  assert (Row : forall k, In k keep -> Z.to_nat (new k) = t + T * f ->
    t + Z.to_nat d < T /\ Z.to_nat k = t + Z.to_nat d + T * f).
  { intros k K E. destruct (New k K) as (i & d' & t' & Ed' & -> & H1 & H2 & H3 & H4). rewrite H4 in E.
    assert (i = f) by nia. subst i. rewrite Ed in Ed'. injection Ed' as <-. split; nia. }
  destruct (t + Z.to_nat d <? T) eqn:C.
  - apply Nat.ltb_lt in C.
    assert (K : In (Z.of_nat (t + Z.to_nat d + f * T)) keep).
    { apply in_keep. exists f, d, (Z.of_nat (t + Z.to_nat d)). split; [exact Ed|]. lia. }
    assert (I1 : In (t + T * f) to).
    { unfold to. apply in_map_iff. exists (new (Z.of_nat (t + Z.to_nat d + f * T))). split.
      - destruct (New _ K) as (i & d' & t' & Ed' & E & H1 & H2 & H3 & ->).
        assert (i = f) by nia. subst i. rewrite Ed in Ed'. injection Ed' as <-. nia.
      - now apply in_map. }
    destruct (last_position_some to (t + T * f) I1) as (k & -> & N).
    unfold to in N. rewrite map_map in N.
    destruct (nth_error keep k) as [key|] eqn:Ek.
    2:{ rewrite (nth_error_None keep k) in Ek. apply nth_error_In in N as N'. 
        assert (k < length (map (fun x0 => Z.to_nat (new x0)) keep)) by (apply nth_error_Some; congruence).
        rewrite map_length in *. lia. }
    rewrite (map_nth_error _ _ _ Ek) in N. injection N as N.
    destruct (Row key (nth_error_In _ _ Ek) N) as [_ R2].
    rewrite (nth_error_nth (map Z.to_nat keep) k 0 (map_nth_error _ _ _ Ek)), R2. f_equal.
    apply (reshape_f_at _ _ _ _ _ _ Ef).
    + rewrite Sh. apply inside2; [lia|lia|exact Hp].
    + rewrite Sh. now apply flat_ravel.
  - apply Nat.ltb_ge in C. rewrite last_position_none; [reflexivity|].
    intro I1. unfold to in I1. apply in_map_iff in I1 as (x0 & E & X). apply in_map_iff in X as (k & <- & K).
    destruct (Row k K E). lia.
Qed.
End Shift.

(** ** Delays *)
(** [fmax] is the highest frequency. *)
Definition highest (fs : list Q) (m : Q) : Prop := In m fs /\ forall f, In f fs -> (f <= m)%Q.
Lemma fold_max : forall l x, let m := fold_left (fun m y => if Qle_bool m y then y else m) l x in
  In m (x :: l) /\ (x <= m)%Q /\ forall f, In f l -> (f <= m)%Q.
Proof.
  cbv zeta. induction l as [|y l IH]; intros x; cbn [fold_left].
  - split; [now left|]. split; [apply Qle_refl|contradiction].
  - destruct (IH (if Qle_bool x y then y else x)) as (I1 & I2 & I3).
    destruct (Qle_bool x y) eqn:E.
    + apply Qle_bool_iff in E. split; [right; exact I1|].
      split; [eapply Qle_trans; eauto|]. intros f [<-|F]; auto.
    + assert (L : (y <= x)%Q).
      { destruct (Qlt_le_dec y x) as [L|L]; [now apply Qlt_le_weak|]. apply Qle_bool_iff in L. congruence. }
      split; [destruct I1 as [I1|I1]; [left; exact I1|right; right; exact I1]|].
      split; [exact I2|]. intros f [<-|F]; [eapply Qle_trans; eauto|auto].
Qed.
Lemma qmax_highest : forall fs, fs <> [] -> exists m, qmax_list fs = Ok m /\ highest fs m.
Proof.
  intros [|x l] N; [congruence|]. exists (fold_left (fun m y => if Qle_bool m y then y else m) l x).
  split; [reflexivity|]. destruct (fold_max l x) as (I1 & I2 & I3). split; [exact I1|].
  intros f [<-|F]; auto.
Qed.
(** The delay of a frequency with respect to another one, in seconds. *)
Definition relative_delay (dm f m : Q) : Q := (4140 * dm / (f * f) - 4140 * dm / (m * m))%Q.
Lemma relative_nonneg : forall dm f m, (0 <= dm)%Q -> (0 < f)%Q -> (f <= m)%Q -> (0 <= relative_delay dm f m)%Q.
Proof.
  intros dm f m D F M. unfold relative_delay.
  assert (M0 : (0 < m)%Q) by lra.
  assert (F2 : (0 < f * f)%Q) by now apply Qmult_lt_0_compat. assert (M2 : (0 < m * m)%Q) by now apply Qmult_lt_0_compat.
  assert (FM : (f * f <= m * m)%Q) by (apply Qmult_le_compat_nonneg; split; lra).
  assert (L : (4140 * dm / (m * m) <= 4140 * dm / (f * f))%Q).
  { apply Qle_shift_div_l; [exact F2|].
    setoid_replace (4140 * dm / (m * m) * (f * f))%Q with (4140 * dm * (f * f) / (m * m))%Q by (field; lra).
    apply Qle_shift_div_r; [exact M2|]. apply Qmult_le_compat_nonneg; split; lra. }
  lra.
Qed.
Lemma round_even_nonneg : forall x, (0 <= x)%Q -> (0 <= round_even x)%Z.
Proof.
  intros x X. pose proof (nearest_le _ _ (round_even_nearest x)) as H.
  assert (K : (- (1) < inject_Z (round_even x))%Q) by lra. unfold Qlt in K; simpl in K. lia.
Qed.
Lemma round_even_comp : forall x y, (x == y)%Q -> round_even x = round_even y.
Proof.
  intros x y E. apply round_even_eq. pose proof (round_even_nearest y) as [H|H]; [left|right]; now rewrite E.
Qed.

Theorem de_disperse_spec : forall A B (real : A -> B) (nan : B) data T fs pol step dm fmax,
  sh data = T :: length fs :: pol -> (0 <= dm)%Q -> (0 < step)%Q -> (forall f, In f fs -> (0 < f)%Q) ->
  highest fs fmax ->
  exists r, de_disperse real nan data fs step dm = Ok r /\ sh r = sh data /\
    forall t c f d p, t < T -> nth_error fs c = Some f -> inside pol p ->
      nearest (relative_delay dm f fmax / step) (Z.of_nat d) ->
      get r (t :: c :: p) = if t + d <? T then real (get data (t + d :: c :: p)) else nan.
Proof.
  intros A B real nan data T fs pol step dm fmax Sh D St Fp [H1 H2].
  unfold de_disperse. rewrite Sh, Nat.eqb_refl. cbn [negb].
  destruct (qmax_highest fs) as (m & Em & [M1 M2]); [intro; subst; contradiction|].
  assert (Mx : (m == fmax)%Q) by (apply Qle_antisym; auto).
  unfold cell_delays. rewrite Em. cbn [bind].
  set (ds := map (fun f => round_even ((dispersion_delay f dm - dispersion_delay m dm) / step)) fs).
  assert (L : length fs = length ds) by (unfold ds; now rewrite map_length).
  rewrite L in Sh |- *.
  assert (Pos : forall d, In d ds -> (0 <= d)%Z).
  { intros d I1. apply in_map_iff in I1 as (f & <- & F). apply round_even_nonneg.
    apply Qle_shift_div_l; [exact St|]. rewrite Qmult_0_l. apply (relative_nonneg dm f m); auto. }
  destruct (run_shift real nan data T pol ds Sh Pos) as (r & R1 & R2 & R3). rewrite <- Sh.
  exists r. split; [exact R1|]. split; [exact R2|].
  intros t c f d p Ht Ec Hp Nd.
  assert (Ed : nth_error ds c = Some (Z.of_nat d)).
  { unfold ds. rewrite (map_nth_error _ _ _ Ec). f_equal. apply round_even_eq.
    replace (dispersion_delay f dm - dispersion_delay m dm)%Q with (relative_delay dm f m) by reflexivity.
    assert (E : (relative_delay dm f m == relative_delay dm f fmax)%Q).
    { unfold relative_delay. now rewrite Mx. }
    destruct Nd as [N|N]; [left|right]; now rewrite E. }
  rewrite (R3 t c p (Z.of_nat d) Ht Ed Hp), Nat2Z.id. reflexivity.
Qed.
(** There is a delay for every channel. *)
Theorem delay_exists : forall dm f m step, (0 <= dm)%Q -> (0 < step)%Q -> (0 < f)%Q -> (f <= m)%Q ->
  exists d, nearest (relative_delay dm f m / step) (Z.of_nat d).
Proof.
  intros dm f m step D St F M. pose proof (round_even_nearest (relative_delay dm f m / step)) as N.
  assert (P : (0 <= round_even (relative_delay dm f m / step))%Z).
  { apply round_even_nonneg. apply Qle_shift_div_l; [exact St|]. rewrite Qmult_0_l. now apply relative_nonneg. }
  exists (Z.to_nat (round_even (relative_delay dm f m / step))). now rewrite Z2Nat.id.
Qed.
Theorem top_unchanged : forall A B (real : A -> B) (nan : B) data T fs pol step dm c fmax r,
  sh data = T :: length fs :: pol -> (0 <= dm)%Q -> (0 < step)%Q -> (forall f, In f fs -> (0 < f)%Q) ->
  highest fs fmax -> nth_error fs c = Some fmax -> de_disperse real nan data fs step dm = Ok r ->
  forall t p, t < T -> inside pol p -> get r (t :: c :: p) = real (get data (t :: c :: p)).
Proof.
  intros A B real nan data T fs pol step dm c fmax r Sh D St Fp H Ec E t p Ht Hp.
  destruct (de_disperse_spec A B real nan data T fs pol step dm fmax Sh D St Fp H) as (r0 & E0 & _ & G).
  rewrite E0 in E. injection E as <-. rewrite (G t c fmax 0 p Ht Ec Hp).
  - rewrite Nat.add_0_r. destruct (Nat.ltb_spec t T); [reflexivity|lia].
  - left. assert (K : (relative_delay dm fmax fmax / step == 0)%Q).
    { unfold relative_delay, Qdiv. ring. }
    rewrite K. reflexivity.
Qed.
Theorem no_delay : forall A B (real : A -> B) (nan : B) data T fs pol step r,
  sh data = T :: length fs :: pol -> (0 < step)%Q -> (forall f, In f fs -> (0 < f)%Q) -> fs <> [] ->
  de_disperse real nan data fs step 0 = Ok r ->
  forall t c p, t < T -> c < length fs -> inside pol p -> get r (t :: c :: p) = real (get data (t :: c :: p)).
Proof.
  intros A B real nan data T fs pol step r Sh St Fp Ne E t c p Ht Hc Hp.
  destruct (qmax_highest fs Ne) as (m & _ & M).
  destruct (de_disperse_spec A B real nan data T fs pol step 0 m Sh (Qle_refl 0) St Fp M) as (r0 & E0 & _ & G).
  rewrite E0 in E. injection E as <-. destruct (nth_error fs c) as [f|] eqn:Ec; [|apply nth_error_None in Ec; lia].
  rewrite (G t c f 0 p Ht Ec Hp).
  - rewrite Nat.add_0_r. destruct (Nat.ltb_spec t T); [reflexivity|lia].
  - left. assert (K : (relative_delay 0 f m / step == 0)%Q).
    { unfold relative_delay, Qdiv. ring. }
    rewrite K. reflexivity.
Qed.
Theorem de_disperse_refused : forall A B (real : A -> B) (nan : B) data fs step dm,
  (length (sh data) < 2 -> de_disperse real nan data fs step dm = Err EException) /\
  (2 <= length (sh data) -> nth 1 (sh data) 0 <> length fs ->
     de_disperse real nan data fs step dm = Err EValueError) /\
  (2 <= length (sh data) -> fs = [] -> de_disperse real nan data fs step dm = Err EValueError).
Proof.
  intros A B real nan data fs step dm. unfold de_disperse.
  destruct (sh data) as [|a [|b pol]]; simpl length; repeat split; intros; try lia; try reflexivity.
  - cbn [nth] in H0. destruct (Nat.eqb_spec b (length fs)); [contradiction|reflexivity].
  - subst fs. simpl. now destruct (b =? 0).
Qed.

(** A signal dispersed in the data is aligned again. *)
Theorem de_disperse_aligns : forall A B (real : A -> B) (nan : B) data T fs pol step dm fmax r
    (signal : nat -> nat -> list nat -> A) (delay : nat -> nat),
  sh data = T :: length fs :: pol -> (0 <= dm)%Q -> (0 < step)%Q -> (forall f, In f fs -> (0 < f)%Q) ->
  highest fs fmax ->
  (forall c f, nth_error fs c = Some f -> nearest (relative_delay dm f fmax / step) (Z.of_nat (delay c))) ->
  (forall t c p, t + delay c < T -> c < length fs -> inside pol p ->
     get data (t + delay c :: c :: p) = signal t c p) ->
  de_disperse real nan data fs step dm = Ok r ->
  forall t c p, t < T -> c < length fs -> inside pol p ->
    (t + delay c < T -> get r (t :: c :: p) = real (signal t c p)) /\
    (T <= t + delay c -> get r (t :: c :: p) = nan).
Proof.
  intros A B real nan data T fs pol step dm fmax r signal delay Sh D St Fp H Dl Sg E t c p Ht Hc Hp.
  destruct (de_disperse_spec A B real nan data T fs pol step dm fmax Sh D St Fp H) as (r0 & E0 & _ & G).
  rewrite E0 in E. injection E as <-. destruct (nth_error fs c) as [f|] eqn:Ec; [|apply nth_error_None in Ec; lia].
  rewrite (G t c f (delay c) p Ht Ec Hp (Dl c f Ec)).
  split; intro C; destruct (Nat.ltb_spec (t + delay c) T); try lia; [|reflexivity]. now rewrite Sg.
Qed.

(** ** Negative dispersion measures *)
Definition demo_tf : nd nat := mkNd [4; 3] (fun idx => match idx with [t; c] => 10 * c + t | _ => 0 end).
Theorem negative_leak : exists r, de_disperse Some None demo_tf [10; 14; 20]%Q 15 (-1) = Ok r /\
  (forall t c, t < 4 -> c < 3 -> get demo_tf [t; c] = 10 * c + t) /\
  (* the middle channel starts with the end of the lower one *)
  map (fun t => get r [t; 1]) [0; 1; 2; 3] = [Some 2; Some 10; Some 11; Some 12].
Proof.
  destruct (de_disperse Some None demo_tf [10; 14; 20]%Q 15 (-1)) as [r|] eqn:E; [|vm_compute in E; discriminate].
  exists r. split; [reflexivity|]. split; [reflexivity|].
  assert (K : map (fun t => get r [t; 1]) [0; 1; 2; 3] =
    match de_disperse Some None demo_tf [10; 14; 20]%Q 15 (-1) with
    | Ok r => map (fun t => get r [t; 1]) [0; 1; 2; 3] | Err _ => [] end) by (now rewrite E).
  rewrite K. vm_compute. reflexivity.
Qed.
Theorem negative_refused : de_disperse Some (@None nat) demo_tf [20; 14; 10]%Q 15 (-1) = Err EIndexError.
Proof. vm_compute. reflexivity. Qed.

(** ** The imaginary part *)
Lemma de_disperse_image : forall A B (real : A -> B) (nan : B) data fs step dm r,
  de_disperse real nan data fs step dm = Ok r -> forall idx, get r idx = nan \/ exists x, get r idx = real x.
Proof.
  intros A B real nan data fs step dm r E idx. unfold de_disperse in E.
  destruct (sh data) as [|a [|b pol]]; try discriminate.
  destruct (negb (b =? length fs)); [discriminate|].
  destruct (cell_delays fs dm step) as [ds|]; [|discriminate]. cbn [bind] in E.
  destruct (py_indices b _) as [ch|]; [|discriminate]. cbn [bind] in E.
  destruct (reshape_f (a * b :: pol) data) as [flat|]; [|discriminate]. cbn [bind] in E.
  destruct (py_indices (a * b) (indices_to_keep a ds)) as [from|]; [|discriminate]. cbn [bind] in E.
  destruct (py_indices (a * b) _) as [to|]; [|discriminate]. cbn [bind] in E.
  unfold reshape_f in E. destruct (_ =? _); [|discriminate]. injection E as <-. cbn [get].
  unfold set_rows; cbn [get]. destruct (last_position _ _ _ _); [right; eexists; reflexivity|now left].
Qed.
