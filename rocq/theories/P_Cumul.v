(** Volumes added up over time. *)
From Coq Require Import String List Arith ZArith QArith Bool Lia Lqa Permutation Sorted.
From Verif Require Import Base M_Parset M_Config M_Cumul.
Import ListNotations.
Open Scope nat_scope.
Open Scope list_scope.

(** ** Specification *)
(** A sort of indices, whatever it does of equal values. *)
Definition sorts (argsort : list Q -> list nat) : Prop := forall l, Permutation (argsort l) (seq 0 (length l)) /\
  StronglySorted Qle (map (fun i => nth i l 0%Q) (argsort l)).
(** [s] is the sum of the volumes, none being infinite. *)
Fixpoint sums_to (l : list (option Q)) (s : Q) : Prop :=
  match l with [] => (s == 0)%Q | None :: _ => False | Some v :: r => exists t, sums_to r t /\ (s == v + t)%Q end.
Definition same_sum (l : list (option Q)) (x : option Q) (unit : Q) : Prop :=
  match x with Some q => sums_to l (q * unit) | None => In None l end.
Definition start_at (now : Q) (r : receiver) : Q := match receiver_start r with Some t => t | None => now end.
Definition dated (now : Q) (r : receiver) : Q * option Q := (start_at now r, receiver_volume r).

(** ** Names *)
Lemma key_injective b b' : receiver_key b = receiver_key b' -> b = b'.
Proof. destruct b, b'; cbn; intro H; reflexivity || discriminate. Qed.
Lemma named_iff name b : receiver_named name = Some b <-> name = receiver_key b.
Proof.
  unfold receiver_named. split.
  - intro H. apply find_some in H. destruct H as [_ H]. now apply String.eqb_eq in H.
  - intros ->. destruct b; reflexivity.
Qed.
Lemma named_none name : receiver_named name = None <-> forall b, name <> receiver_key b.
Proof.
  split.
  - intros H b E. apply named_iff in E. congruence.
  - intro H. destruct (receiver_named name) as [b|] eqn:E; [|reflexivity]. apply named_iff in E. now elim (H b).
Qed.

(** ** Sums *)
Lemma sums_ext l s t : (s == t)%Q -> sums_to l s -> sums_to l t.
Proof.
  destruct l as [|[v|] l]; cbn; [|intros E (x & H & K); exists x|auto]; [intros E H; now rewrite <- E|].
  split; [exact H|]. now rewrite <- E.
Qed.
Lemma sums_det l : forall s t, sums_to l s -> sums_to l t -> (s == t)%Q.
Proof.
  induction l as [|[v|] l IH]; cbn; intros s t H K; [|destruct H as (x & X & A), K as (y & Y & B)|contradiction].
  - now rewrite H, K.
  - rewrite A, B, (IH _ _ X Y). reflexivity.
Qed.
Lemma sums_snoc l v s : sums_to l s -> sums_to (l ++ [Some v]) (s + v).
Proof.
  revert s. induction l as [|[w|] l IH]; cbn; intros s H; [|destruct H as (x & X & A)|contradiction].
  - exists 0%Q. split; [reflexivity|]. rewrite H. ring.
  - exists (x + v)%Q. split; [now apply IH|]. rewrite A. ring.
Qed.
Lemma sums_perm l l' s : Permutation l l' -> sums_to l s -> sums_to l' s.
Proof.
  intro P. revert s. induction P as [|o l l' P IH|o o' l|l l' l'' P IH P' IH']; intros s H.
  - exact H.
  - destruct o as [v|]; cbn in *; [|exact H]. destruct H as (t & H & K). exists t. auto.
  - destruct o as [v|], o' as [w|]; cbn in *; try (destruct H as (t & H & K); contradiction); try contradiction.
    destruct H as (t & (u & H & K) & L). exists (w + u)%Q. split.
    + exists u. split; [exact H|reflexivity].
    + rewrite L, K. ring.
  - auto.
Qed.
Lemma sum_volumes_to l v : sum_volumes l = Some v -> sums_to l v.
Proof.
  revert v. induction l as [|[w|] l IH]; cbn; intros v H; [injection H as <-; reflexivity| |discriminate].
  destruct (sum_volumes l) as [s|]; cbn in H; [|discriminate]. injection H as <-. exists s. split; [now apply IH|reflexivity].
Qed.
Lemma sum_volumes_none l : sum_volumes l = None <-> In None l.
Proof.
  induction l as [|[w|] l IH]; cbn; [intuition discriminate| |intuition].
  destruct (sum_volumes l); cbn; [split; [discriminate|intros [X|X]; [discriminate|apply IH in X; discriminate]]|]. split; [intros _; right; now apply IH|reflexivity].
Qed.
(** The running sums, [unit] bytes each, of the volumes before [k]. *)
Definition scaled (unit : Q) (l : list (option Q)) : list (option Q) := map (option_map (fun v => v / unit)%Q) l.
Lemma cumsum_length acc l : length (cumsum acc l) = length l.
Proof. revert acc. induction l as [|v l IH]; intro acc; cbn; [reflexivity|]. now rewrite IH. Qed.
Lemma cumsum_none l k : k < length l -> nth_error (cumsum None l) k = Some None.
Proof. revert k. induction l as [|v l IH]; intros k H; cbn in *; [lia|]. destruct k as [|k]; [reflexivity|]. cbn. apply IH. lia. Qed.
Lemma cumsum_nth unit : ~ (unit == 0)%Q -> forall l before acc, same_sum before acc unit -> forall k, k < length l ->
  exists x, nth_error (cumsum acc (scaled unit l)) k = Some x /\ same_sum (before ++ firstn (S k) l) x unit.
Proof.
  intro U. induction l as [|v l IH]; intros before acc H k K; cbn [length] in K; [lia|].
  cbn [scaled map cumsum]. set (s := match acc with Some a => match option_map (fun v0 => (v0 / unit)%Q) v with Some x => Some (a + x)%Q | None => None end | None => None end).
  assert (S1 : same_sum (before ++ [v]) s unit).
  { unfold s. destruct acc as [a|]; [destruct v as [v|]|]; cbn [option_map same_sum] in *.
    - eapply sums_ext; [|apply sums_snoc; exact H]. field. exact U.
    - apply in_or_app. right. now left.
    - apply in_or_app. now left. }
  destruct k as [|k]; cbn [nth_error].
  - exists s. split; [reflexivity|]. cbn [firstn]. exact S1.
  - destruct (IH (before ++ [v]) s S1 k) as (x & X & Y); [lia|]. exists x. split; [exact X|]. rewrite <- app_assoc in Y. exact Y.
Qed.

(** ** Sorting *)
Lemma pick_map {A B} (f : A -> B) a b (l : list A) idx : f a = b -> (forall i, In i idx -> i < length l) -> pick b (map f l) idx = map f (pick a l idx).
Proof. intros <- H. unfold pick. rewrite map_map. apply map_ext_in. intros i I. apply map_nth. Qed.
Lemma pick_all {A} (d : A) l : pick d l (seq 0 (length l)) = l.
Proof.
  unfold pick. induction l as [|x l IH]; cbn; [reflexivity|]. f_equal. rewrite <- seq_shift, map_map. exact IH.
Qed.
Lemma pick_perm {A} (d : A) l idx : Permutation idx (seq 0 (length l)) -> Permutation (pick d l idx) l.
Proof. intro P. rewrite <- (pick_all d l) at 2. unfold pick. now apply Permutation_map. Qed.

(** ** The volumes over time *)
Section Any.
  Variable argsort : list Q -> list nat.
  Hypothesis A : sorts argsort.
  Lemma cumulative_sorted unit now o name times cums : ~ (unit == 0)%Q -> cumulative argsort unit now o name = Ok (times, cums) ->
    exists b l, name = receiver_key b /\ Permutation l (map (dated now) (receivers o b)) /\ StronglySorted Qle (map fst l) /\ times = map fst l /\ length cums = length l /\
      cums = cumsum (Some 0%Q) (scaled unit (map snd l)) /\ receivers o b <> [].
  Proof.
    intros U H. unfold cumulative in H. destruct (receiver_named name) as [b|] eqn:E; [|discriminate]. apply named_iff in E.
    destruct (receivers o b) as [|r rs] eqn:R; [discriminate|]. set (L := r :: rs) in *.
    set (T := map (fun r => match receiver_start r with Some t => t | None => now end) L) in *.
    assert (HT : T = map (start_at now) L) by reflexivity.
    destruct (A T) as [P S]. injection H as <- <-. set (idx := argsort T) in *.
    assert (In_idx : forall i, In i idx -> i < length L).
    { intros i I. apply (Permutation_in _ P) in I. apply in_seq in I. unfold T in I. rewrite map_length in I. lia. }
    exists b, (pick (0%Q, None) (map (dated now) L) idx). split; [exact E|]. split; [rewrite R; apply pick_perm; rewrite map_length; unfold T in P; rewrite map_length in P; exact P|].
    assert (F : map fst (pick (0%Q, None) (map (dated now) L) idx) = pick 0%Q T idx).
    { rewrite <- (pick_map fst (0%Q, @None Q) 0%Q (map (dated now) L) idx); [|reflexivity|rewrite map_length; exact In_idx]. rewrite map_map. reflexivity. }
    rewrite F. split; [exact S|]. split; [reflexivity|]. split; [rewrite cumsum_length; unfold pick; now rewrite !map_length|]. split; [|rewrite R; discriminate].
    f_equal. unfold scaled. rewrite map_map. rewrite <- (pick_map (fun p => option_map (fun v => (v / unit)%Q) (snd p)) (0%Q, @None Q) None (map (dated now) L) idx); [|reflexivity|rewrite map_length; exact In_idx].
    rewrite map_map. reflexivity.
  Qed.
  Theorem cumulative_spec : forall unit now o name times cums, ~ (unit == 0)%Q -> cumulative argsort unit now o name = Ok (times, cums) ->
    exists b l, name = receiver_key b /\ Permutation l (map (dated now) (receivers o b)) /\ StronglySorted Qle times /\ times = map fst l /\ length cums = length times /\
      forall k, k < length l -> exists x, nth_error cums k = Some x /\ same_sum (firstn (S k) (map snd l)) x unit.
  Proof.
    intros unit now o name times cums U H. destruct (cumulative_sorted _ _ _ _ _ _ U H) as (b & l & N & P & S & -> & L & C & _).
    exists b, l. repeat split; auto; [now rewrite map_length|]. intros k K. rewrite C.
    apply (cumsum_nth unit U (map snd l) [] (Some 0%Q)); [cbn; ring|now rewrite map_length].
  Qed.
  (** The last value is the volume of the receiver. *)
  Theorem cumulative_total : forall unit now o b times cums, ~ (unit == 0)%Q -> cumulative argsort unit now o (receiver_key b) = Ok (times, cums) ->
    exists x, nth_error cums (length cums - 1) = Some x /\
      match x, obs_volume o b with Some q, Some v => (q * unit == v)%Q | None, None => True | _, _ => False end.
  Proof.
    intros unit now o b times cums U H. destruct (cumulative_sorted _ _ _ _ _ _ U H) as (b' & l & N & P & S & -> & L & C & NE).
    apply key_injective in N. subst b'. assert (LP : length l <> 0).
    { intro Z0. apply Permutation_length in P. rewrite map_length in P. destruct (receivers o b); [now elim NE|cbn in P; lia]. }
    destruct (cumsum_nth unit U (map snd l) [] (Some 0%Q)) with (k := length l - 1) as (x & X & Y); [cbn; ring|rewrite map_length; lia|].
    exists x. rewrite L, C. split; [exact X|]. cbn [app] in Y. replace (Datatypes.S (length l - 1)) with (length (map snd l)) in Y by (rewrite map_length; lia). rewrite firstn_all in Y.
    assert (Q1 : Permutation (map snd l) (map receiver_volume (receivers o b))).
    { apply (Permutation_map snd) in P. rewrite map_map in P. exact P. }
    unfold obs_volume. destruct x as [q|]; cbn [same_sum] in Y.
    - destruct (sum_volumes (map receiver_volume (receivers o b))) as [v|] eqn:V.
      + apply sum_volumes_to in V. apply (sums_det (map receiver_volume (receivers o b))); [|exact V]. eapply sums_perm; eauto.
      + apply sum_volumes_none in V. apply (Permutation_in _ (Permutation_sym Q1)) in V. exfalso. clear -Y V. revert Y. generalize (q * unit)%Q.
        induction (map snd l) as [|[w|] m IH]; cbn in *; intros s Y; [contradiction| |contradiction]. destruct V as [V|V]; [discriminate|]. destruct Y as (t & Y & _). eauto.
    - destruct (sum_volumes (map receiver_volume (receivers o b))) as [v|] eqn:V; [|exact I]. apply (Permutation_in _ Q1) in Y. apply sum_volumes_none in Y. congruence.
  Qed.
  Theorem cumulative_error : forall unit now o name e, cumulative argsort unit now o name = Err e <->
    e = EValueError /\ ((forall b, name <> receiver_key b) \/ exists b, name = receiver_key b /\ receivers o b = []).
  Proof.
    intros unit now o name e. unfold cumulative. destruct (receiver_named name) as [b|] eqn:E.
    - apply named_iff in E. destruct (receivers o b) as [|r rs] eqn:R.
      + split; [intro H; injection H as <-; split; [reflexivity|right; eauto]|intros [-> _]; reflexivity].
      + split; [discriminate|]. intros [_ [H|(b' & H & K)]]; [now elim (H b)|]. rewrite E in H. apply key_injective in H. subst. congruence.
    - pose proof (proj1 (named_none name) E) as E0. split; [intro H; injection H as <-; auto|intros [-> _]; reflexivity].
  Qed.
  (** Volumes that are not negative: the sums never fall. *)
  Theorem cumulative_grows : forall unit now o b times cums, (0 < unit)%Q -> cumulative argsort unit now o (receiver_key b) = Ok (times, cums) ->
    (forall r, In r (receivers o b) -> exists v, receiver_volume r = Some v /\ (0 <= v)%Q) ->
    forall k x y, nth_error cums k = Some (Some x) -> nth_error cums (S k) = Some (Some y) -> (x <= y)%Q.
  Proof.
    intros unit now o b times cums U H V. assert (U0 : ~ (unit == 0)%Q) by (intro E; rewrite E in U; now apply Qlt_irrefl in U).
    destruct (cumulative_sorted _ _ _ _ _ _ U0 H) as (b' & l & N & P & S & -> & L & C & NE). apply key_injective in N. subst b'.
    assert (G : Forall (fun o => exists v, o = Some v /\ (0 <= v)%Q) (map snd l)).
    { apply Forall_forall. intros x X. apply in_map_iff in X. destruct X as (p & <- & X). apply (Permutation_in _ P) in X. apply in_map_iff in X. destruct X as (r & <- & X). cbn. auto. }
    rewrite C. clear -G U. generalize (Some 0%Q) as acc. induction (map snd l) as [|v m IH]; intros acc k x y X Y; [destruct k; discriminate|].
    inversion G as [|? ? (w & -> & W) G']; subst. cbn [scaled map cumsum option_map] in X, Y.
    destruct k as [|k]; [|cbn [nth_error] in X, Y; eapply IH; eauto].
    cbn [nth_error] in X, Y. destruct m as [|u m]; [discriminate|]. inversion G' as [|? ? (z & -> & Z0) _]; subst. destruct acc as [a|]; [|discriminate]. cbn in X, Y. injection X as <-. injection Y as <-.
    assert (D : (0 <= z / unit)%Q) by (apply Qle_shift_div_l; [exact U|]; lra). lra.
  Qed.
End Any.
(** ** Two sorts, two units *)
Theorem cumulative_units : forall argsort u u' now o name times times' cums cums', ~ (u == 0)%Q -> ~ (u' == 0)%Q ->
  cumulative argsort u now o name = Ok (times, cums) -> cumulative argsort u' now o name = Ok (times', cums') ->
  times = times' /\ forall k x y, nth_error cums k = Some x -> nth_error cums' k = Some y ->
    match x, y with Some p, Some q => (p * u == q * u')%Q | None, None => True | _, _ => False end.
Proof.
  intros argsort u u' now o name times times' cums cums' U U' H H'. unfold cumulative in *. destruct (receiver_named name) as [b|]; [|discriminate].
  destruct (receivers o b) as [|r rs]; [discriminate|]. set (L := r :: rs) in *. clearbody L. set (idx := argsort _) in *. clearbody idx. injection H as <- <-. injection H' as <- <-. split; [reflexivity|].
  assert (W : forall idx a a', match a, a' with Some p, Some q => (p * u == q * u')%Q | None, None => True | _, _ => False end ->
    forall k x y, nth_error (cumsum a (pick None (map (fun r => option_map (fun v => (v / u)%Q) (receiver_volume r)) L) idx)) k = Some x ->
      nth_error (cumsum a' (pick None (map (fun r => option_map (fun v => (v / u')%Q) (receiver_volume r)) L) idx)) k = Some y ->
      match x, y with Some p, Some q => (p * u == q * u')%Q | None, None => True | _, _ => False end).
  { clear -U U'. induction idx as [|i idx IH]; intros a a' HA k x y X Y; [destruct k; discriminate|]. cbn [pick map cumsum] in X, Y.
    assert (N : exists w, nth i (map (fun r => option_map (fun v => (v / u)%Q) (receiver_volume r)) L) None = option_map (fun v => (v / u)%Q) w /\
      nth i (map (fun r => option_map (fun v => (v / u')%Q) (receiver_volume r)) L) None = option_map (fun v => (v / u')%Q) w).
    { clear. revert i. induction L as [|r L IH]; intro i; [exists None; destruct i; auto|]. destruct i as [|i]; cbn [map nth]; eauto. }
    destruct N as (w & N1 & N2). rewrite N1 in X. rewrite N2 in Y.
    set (s := match a with Some a0 => match option_map (fun v : Q => (v / u)%Q) w with Some x0 => Some (a0 + x0)%Q | None => None end | None => None end) in X.
    set (s' := match a' with Some a0 => match option_map (fun v : Q => (v / u')%Q) w with Some x0 => Some (a0 + x0)%Q | None => None end | None => None end) in Y.
    assert (HS : match s, s' with Some p, Some q => (p * u == q * u')%Q | None, None => True | _, _ => False end).
    { unfold s, s'. destruct a as [a|], a' as [a'|]; try contradiction; destruct w as [w|]; cbn; auto.
      transitivity (a * u + w)%Q; [field; exact U|]. rewrite HA. field. exact U'. }
    destruct k as [|k]; cbn [nth_error] in X, Y; [injection X as <-; injection Y as <-; exact HS|]. eapply IH; eauto. }
  intros k x y X Y. eapply W; [|exact X|exact Y]. cbn. ring.
Qed.

(** ** A sort there is *)
Fixpoint put (x : Q * nat) (l : list (Q * nat)) : list (Q * nat) :=
  match l with [] => [x] | y :: r => if Qle_bool (fst x) (fst y) then x :: l else y :: put x r end.
Definition order (l : list Q) : list nat := map snd (fold_right put [] (combine l (seq 0 (length l)))).
Lemma put_perm x l : Permutation (put x l) (x :: l).
Proof. induction l as [|y l IH]; cbn; [reflexivity|]. destruct (Qle_bool _ _); [reflexivity|]. rewrite IH. apply perm_swap. Qed.
Lemma fold_perm l : Permutation (fold_right put [] l) l.
Proof. induction l as [|x l IH]; cbn; [reflexivity|]. rewrite put_perm. now rewrite IH. Qed.
Lemma put_sorted x l : StronglySorted (fun p q => (fst p <= fst q)%Q) l -> StronglySorted (fun p q => (fst p <= fst q)%Q) (put x l).
Proof.
  induction 1 as [|y l S IH F]; cbn; [repeat constructor|]. destruct (Qle_bool (fst x) (fst y)) eqn:E.
  - apply Qle_bool_iff in E. constructor; [now constructor|]. constructor; [exact E|]. eapply Forall_impl; [|exact F]. cbn. intros z Z0. now apply Qle_trans with (fst y).
  - constructor; [exact IH|]. apply (Permutation_Forall (Permutation_sym (put_perm x l))). constructor; [|exact F].
    apply Qlt_le_weak. apply Qnot_le_lt. intro K. apply Qle_bool_iff in K. congruence.
Qed.
Lemma map_snd_combine {A B} (l : list A) (m : list B) : length l = length m -> map snd (combine l m) = m.
Proof. revert m. induction l as [|x l IH]; intros [|y m] H; cbn in *; try discriminate; [reflexivity|]. f_equal. apply IH. lia. Qed.
Theorem order_sorts : sorts order.
Proof.
  intro l. assert (P := fold_perm (combine l (seq 0 (length l)))). split.
  - unfold order. rewrite P. rewrite map_snd_combine; [reflexivity|now rewrite seq_length].
  - unfold order. rewrite map_map.
    assert (E : map (fun x => nth (snd x) l 0%Q) (fold_right put [] (combine l (seq 0 (length l)))) = map fst (fold_right put [] (combine l (seq 0 (length l))))).
    { apply map_ext_in. intros [q i] I. apply (Permutation_in _ P) in I. cbn [fst snd]. clear P.
      assert (G : forall (l : list Q) n q i, In (q, i) (combine l (seq n (length l))) -> n <= i /\ nth (i - n) l 0%Q = q).
      { clear. induction l as [|x l IH]; intros n q i H; cbn in H; [contradiction|]. destruct H as [H|H]; [injection H as <- <-; split; [lia|]; now rewrite Nat.sub_diag|].
        apply IH in H. destruct H as [H K]. split; [lia|]. replace (i - n) with (S (i - S n)) by lia. exact K. }
      apply G in I. destruct I as [_ I]. now rewrite Nat.sub_0_r in I. }
    rewrite E. clear. assert (S : StronglySorted (fun p q => (fst p <= fst q)%Q) (fold_right put [] (combine l (seq 0 (length l))))).
    { induction (combine l (seq 0 (length l))) as [|x m IH]; cbn; [constructor|]. now apply put_sorted. }
    induction S as [|x m S IH F]; cbn; [constructor|]. constructor; [exact IH|]. apply Forall_forall. intros y Y. apply in_map_iff in Y. destruct Y as (z & <- & Z0). rewrite Forall_forall in F. now apply F.
Qed.

(** The names of the receivers. *)
Definition listed : list (string * backend) :=
  [("nickel", Nickel); ("raw", Raw); ("tf", Tf); ("bst", Bst); ("pulsar_fold", Fold); ("pulsar_waveolaf", Wave); ("pulsar_single", Single)]%string.
Theorem cumulative_names : forall argsort unit now o name,
  (forall b, In (name, b) listed -> receivers o b <> [] -> exists r, cumulative argsort unit now o name = Ok r) /\
  (~ In name (map fst listed) -> cumulative argsort unit now o name = Err EValueError).
Proof.
  intros argsort unit now o name. split.
  - intros b I R. assert (E : name = receiver_key b) by (cbn in I; repeat (destruct I as [I|I]; [injection I as <- <-; reflexivity|]); contradiction).
    apply named_iff in E. unfold cumulative. rewrite E. destruct (receivers o b); [contradiction|]. eexists. reflexivity.
  - intro N. unfold cumulative. replace (receiver_named name) with (@None backend); [reflexivity|]. symmetry. apply named_none. intros b ->. apply N. destruct b; cbn; tauto.
Qed.
