(** Specification and proofs for the genetic booking and the fine tuning. *)
From Coq Require Import List Arith ZArith QArith Bool Lia Lqa Permutation Sorted.
From Verif Require Import Base M_Slots M_Sched M_Genetic P_Slots P_Booking P_Book P_Book2 P_Book3.
Import ListNotations.
Open Scope nat_scope.

(** ** Genomes *)

(** A start such that the block ends before the last slot. *)
Definition gene_ok (size n : nat) (x : Z) : Prop := (0 <= x /\ x + Z.of_nat n < Z.of_nat size)%Z.

Lemma bound1_ok : forall size n x, n < size -> gene_ok size n (bound1 size n x).
Proof.
  intros size n x H. unfold gene_ok, bound1.
  destruct (Z.ltb_spec x 0); cbv zeta;
    match goal with |- context [Z.leb ?a ?b] => destruct (Z.leb_spec a b) end; lia.
Qed.

Lemma bound1_id : forall size n x, gene_ok size n x -> bound1 size n x = x.
Proof.
  intros size n x [A B]. unfold bound1.
  destruct (Z.ltb_spec x 0); [lia|]. destruct (Z.leb_spec (Z.of_nat size) (x + Z.of_nat n)); lia.
Qed.

(** Bounding moves a gene no further than needed. *)
Lemma bound1_nearest : forall size n x y, n < size -> gene_ok size n y ->
  (Z.abs (bound1 size n x - x) <= Z.abs (y - x))%Z.
Proof.
  intros size n x y H [A B]. unfold bound1.
  destruct (Z.ltb_spec x 0); cbv zeta;
    match goal with |- context [Z.leb ?a ?b] => destruct (Z.leb_spec a b) end; lia.
Qed.

Definition genome_ok (size : nat) (ns : list nat) (g : list Z) : Prop :=
  Forall2 (gene_ok size) ns g.

Lemma bound_genome_ok : forall size ns g, length g = length ns ->
  (forall n, In n ns -> n < size) ->
  genome_ok size ns (bound_genome size ns g) /\
  (genome_ok size ns g -> bound_genome size ns g = g) /\
  bound_genome size ns (bound_genome size ns g) = bound_genome size ns g.
Proof.
  intros size. unfold bound_genome.
  assert (ID : forall ns g, genome_ok size ns g ->
      map (fun nx : nat * Z => bound1 size (fst nx) (snd nx)) (combine ns g) = g).
  { intros ns g F. induction F as [|n x ns g H F IH]; [reflexivity|]. simpl.
    rewrite bound1_id by assumption. now rewrite IH. }
  assert (OK : forall ns g, length g = length ns -> (forall n, In n ns -> n < size) ->
      genome_ok size ns (map (fun nx : nat * Z => bound1 size (fst nx) (snd nx)) (combine ns g))).
  { induction ns as [|n ns IH]; intros [|x g] L H; try discriminate; simpl; constructor.
    - apply bound1_ok, H; now left.
    - apply IH; [simpl in L; lia|]. intros; apply H; now right. }
  intros ns g L H. split; [now apply OK|]. split; [apply ID|]. now apply ID, OK.
Qed.

Lemma bound_genome_nth : forall size ns g k, length g = length ns -> k < length ns ->
  nth k (bound_genome size ns g) 0%Z = bound1 size (nth k ns 0) (nth k g 0%Z).
Proof.
  intros size. unfold bound_genome. induction ns as [|n ns IH]; intros [|x g] k L H; simpl in *; try lia.
  destruct k; [reflexivity|]. apply IH; lia.
Qed.

Lemma bound_genome_length : forall size ns g, length g = length ns ->
  length (bound_genome size ns g) = length ns.
Proof. intros. unfold bound_genome. rewrite map_length, combine_length. lia. Qed.

Lemma mutate_spec : forall size ns k v g, length g = length ns ->
  (forall n, In n ns -> n < size) -> genome_ok size ns g ->
  genome_ok size ns (mutate size ns k v g) /\
  forall j, j < length ns -> j <> k -> nth j (mutate size ns k v g) 0%Z = nth j g 0%Z.
Proof.
  intros size ns k v g L H G. unfold mutate.
  assert (LU : length (upd k v g) = length ns) by now rewrite upd_length.
  split; [now apply bound_genome_ok|].
  intros j Hj Hjk. rewrite bound_genome_nth by assumption.
  rewrite nth_upd by lia. destruct (Nat.eqb_spec j k); [contradiction|].
  apply bound1_id. clear -G Hj. revert j Hj. induction G as [|n x ns g A F IH]; intros j Hj.
  - simpl in Hj. lia.
  - destruct j; [exact A|]. simpl. apply IH. simpl in Hj. lia.
Qed.

(** Blocks to schedule are shorter than the schedule, so that the hypothesis
    of the lemmas above holds whenever a genome is built. *)
Lemma todo_short : forall p st st2 i b, sched_inv st -> nonneg_scores (sc_blocks st) -> book_prepare p st = (st2, true, None) ->
  nth_error (sc_blocks st2) i = Some b -> nth i (sc_todo st2) false = true ->
  bk_nslots b < sc_size st2.
Proof.
  intros p st st2 i b [S NS BK DJ] NN PR H T.
  pose proof (prepare_prepared p st st2 S NN PR) as (P1 & P2 & P3).
  destruct (P3 i b H) as [P4 P5].
  unfold book_prepare in PR. fold (base_state p st) in PR.
  pose proof (sizes_base p st S) as SB.
  destruct (compute_scores (base_state p st)) as [sc [e1|]] eqn:C; [discriminate|].
  apply compute_scores_spec in C; [|assumption].
  destruct C as (C1 & C2 & C3 & C4 & C5 & C6 & C7 & C8 & C9 & C10 & C11 & C12 & C13 & C14).
  destruct (count_true (sc_todo sc) =? 0); [discriminate|].
  assert (E : sc_blocks st2 = sc_blocks sc /\ sc_cnst st2 = sc_cnst sc /\
    (nth i (sc_todo st2) false = true -> nth i (sc_todo sc) false = true)).
  { injection PR; intros <-. destruct (bp_strict p); [|repeat split; tauto]. simpl.
    split; [reflexivity|]. split; [reflexivity|]. intros X. unfold strict_filter in X.
    destruct (le_lt_dec (length (sc_todo sc)) i).
    { rewrite nth_overflow in X by now rewrite imap_length. discriminate. }
    rewrite nth_imap with (d' := false) in X by assumption. now apply andb_true_iff in X. }
  destruct E as (E1 & E2 & E3). apply E3 in T.
  assert (L : i < length (sc_blocks (base_state p st))).
  { rewrite E1, C9 in H.
    match type of H with nth_error ?l i = _ => assert (X : nth_error l i <> None) by congruence end.
    apply nth_error_Some in X. now rewrite map_length in X. }
  rewrite (C13 i L), <- E2, P5 in T.
  destruct (all_zero (cnst_row (sc_free st2) (bk_score b) (bk_nslots b))) eqn:AZ; [discriminate|].
  rewrite <- P1.
  destruct (lt_dec (bk_nslots b) (length (sc_free st2))) as [Q|Q]; [assumption|].
  exfalso. rewrite <- not_true_iff_false in AZ. apply AZ. unfold all_zero. apply forallb_forall.
  intros x I. apply In_nth with (d := 0%Q) in I. destruct I as (k & _ & <-).
  apply Qeq_bool_iff. rewrite cnst_row_zero by (intros [X _]; lia). reflexivity.
Qed.

(** ** Removal of overlaps *)

Lemma nth_skipn_add : forall A s (l : list A) k d, nth k (skipn s l) d = nth (s + k) l d.
Proof.
  induction s as [|s IH]; intros l k d; [reflexivity|].
  destruct l; simpl; [destruct k; reflexivity|apply IH].
Qed.

Lemma skipn_add : forall A s t (l : list A), skipn s (skipn t l) = skipn (t + s) l.
Proof.
  intros A s t. induction t as [|t IH]; intros l; [reflexivity|].
  destruct l; simpl; [now destruct s|apply IH].
Qed.

Lemma forallb_window : forall f s n, s + n <= length f ->
  (forallb (fun x => x) (firstn n (skipn s f)) = true <-> forall k, s <= k < s + n -> slot_free f k).
Proof.
  intros f s n. revert f s. induction n as [|n IH]; intros f s L.
  - simpl. split; [intros _ k H; lia|reflexivity].
  - destruct (skipn s f) as [|x t] eqn:E.
    { assert (length (skipn s f) = 0) by now rewrite E. rewrite skipn_length in H. lia. }
    assert (X : nth s f false = x).
    { rewrite <- (Nat.add_0_r s). rewrite <- nth_skipn_add. now rewrite E. }
    assert (T : t = skipn (S s) f).
    { replace (S s) with (s + 1) by lia. rewrite <- skipn_add. now rewrite E. }
    simpl. rewrite andb_true_iff. subst t. rewrite IH by lia. split.
    + intros [A B] k Hk. destruct (Nat.eq_dec k s) as [->|]; [unfold slot_free; congruence|apply B; lia].
    + intros H. split; [rewrite <- X; apply H; lia|]. intros k Hk. apply H. lia.
Qed.

(** Every booked block is inside the schedule of [size] slots. *)
Definition placed_inside (size : nat) (bs : list blk) : Prop :=
  forall i b s, nth_error bs i = Some b -> bk_start b = Some s ->
    0 < bk_nslots b /\ s + bk_nslots b <= size.

Record clean_inv (f0 : list bool) (bs0 : list blk) (done : list nat)
    (fb : list bool * list blk) : Prop := mkCI {
  ci_len : length (fst fb) = length f0;
  ci_blen : length (snd fb) = length bs0;
  ci_blk : forall i b, nth_error (snd fb) i = Some b ->
    exists b0, nth_error bs0 i = Some b0 /\
      (b = b0 \/
       (In i done /\ b = with_start b0 None /\
        exists k, covers b0 k /\
          (~ slot_free f0 k \/
           exists j c, j <> i /\ In j done /\ nth_error (snd fb) j = Some c /\ covers c k)));
  ci_free : forall k, slot_free (fst fb) k <->
    slot_free f0 k /\
    forall j c, In j done -> nth_error (snd fb) j = Some c -> ~ covers c k;
  ci_win : forall j c k, In j done -> nth_error (snd fb) j = Some c -> covers c k -> slot_free f0 k;
  ci_disj : forall i j b c k, i <> j -> In i done -> In j done ->
    nth_error (snd fb) i = Some b -> nth_error (snd fb) j = Some c ->
    covers b k -> covers c k -> False;
}.

Lemma nth_error_nth_blk : forall (bs : list blk) i, i < length bs ->
  nth_error bs i = Some (nth i bs no_blk).
Proof. intros; now apply nth_error_nth'. Qed.

Lemma covers_None : forall b k, bk_start b = None -> ~ covers b k.
Proof. intros b k H (s & E & _). congruence. Qed.

Lemma slot_free_dec : forall f k, slot_free f k \/ ~ slot_free f k.
Proof. intros. unfold slot_free. destruct (nth k f false); [now left|right; discriminate]. Qed.

Lemma bounded_dec : forall (P : nat -> Prop) n, (forall k, P k \/ ~ P k) ->
  (exists k, k < n /\ P k) \/ (forall k, k < n -> ~ P k).
Proof.
  intros P n D. induction n as [|n [(k & L & H)|IH]].
  - right; intros; lia.
  - left; exists k; split; [lia|assumption].
  - destruct (D n) as [H|H].
    + left; exists n; split; [lia|assumption].
    + right. intros k L. destruct (Nat.eq_dec k n) as [->|]; [assumption|apply IH; lia].
Qed.

Lemma clean_step_inv : forall f0 bs0 done fb i,
  placed_inside (length f0) bs0 ->
  clean_inv f0 bs0 done fb -> ~ In i done -> i < length bs0 ->
  clean_inv f0 bs0 (i :: done) (clean_step fb i).
Proof.
  intros f0 bs0 done fb i PI CI NI LI. destruct CI as [L BL BK FR WN DJ].
  assert (HB : nth_error (snd fb) i = Some (nth i (snd fb) no_blk))
    by (apply nth_error_nth_blk; lia).
  set (b := nth i (snd fb) no_blk) in *.
  destruct (BK i b HB) as (b0 & H0 & Q).
  assert (E0 : b = b0) by (destruct Q as [Q|(X & _)]; [assumption|contradiction]).
  clear Q. unfold clean_step. fold b.
  destruct (bk_start b) as [s|] eqn:ST.
  2:{ (* not booked *)
    assert (NC : forall k c, nth_error (snd fb) i = Some c -> ~ covers c k).
    { intros k c H. rewrite HB in H; injection H; intros <-. now apply covers_None. }
    constructor; try assumption.
    - intros j c H. destruct (BK j c H) as (c0 & Hc & Q). exists c0. split; [assumption|].
      destruct Q as [Q|(X & Y & k & Z & W)]; [now left|right]. split; [now right|].
      split; [assumption|]. exists k. split; [assumption|].
      destruct W as [W|(j2 & c2 & W1 & W2 & W3)]; [now left|right].
      exists j2, c2. repeat split; try tauto. now right.
    - intros k. rewrite FR. split; intros [A B]; (split; [assumption|]).
      + intros j c [<-|J] H; [now apply NC|now apply (B j)].
      + intros j c J H. apply (B j); [now right|assumption].
    - intros j c k [<-|J] H C; [exfalso; now apply (NC k c)|now apply (WN j c)].
    - intros j1 j2 c1 c2 k N [<-|J1] [<-|J2] A1 A2 C1 C2.
      + contradiction.
      + now apply (NC k c1).
      + now apply (NC k c2).
      + now apply (DJ j1 j2 c1 c2 k). }
  destruct (PI i b0 s H0 ltac:(congruence)) as [P1 P2]. rewrite <- E0 in P1, P2.
  destruct (forallb _ _) eqn:FB.
  - (* kept *)
    rewrite forallb_window in FB by lia.
    assert (CB : forall k, covers b k <-> s <= k < s + bk_nslots b).
    { intros k. split; [intros (s1 & X & Y); rewrite ST in X; injection X; intros <-; exact Y|].
      intros H; exists s; now split. }
    constructor; cbn [fst snd]; try assumption.
    + now rewrite set_range_length.
    + intros j c H. destruct (BK j c H) as (c0 & Hc & Q). exists c0. split; [assumption|].
      destruct Q as [Q|(X & Y & k & Z & W)]; [now left|right]. split; [now right|].
      split; [assumption|]. exists k. split; [assumption|].
      destruct W as [W|(j2 & c2 & W1 & W2 & W3)]; [now left|right].
      exists j2, c2. repeat split; try tauto. now right.
    + intros k. destruct (le_lt_dec (length (fst fb)) k) as [O|O].
      * unfold slot_free. rewrite !nth_overflow by (rewrite ?set_range_length; lia).
        split; [discriminate|intros [X _]; discriminate].
      * unfold slot_free at 1. rewrite nth_set_range by assumption.
        destruct (in_range s (s + bk_nslots b) k) eqn:R.
        -- apply in_range_true in R. split; [discriminate|]. intros [_ X]. exfalso.
           apply (X i b); [now left|assumption|now apply CB].
        -- apply in_range_false in R. fold (slot_free (fst fb) k). rewrite FR.
           split; intros [A B]; (split; [assumption|]).
           ++ intros j c [<-|J] H; [|now apply (B j)].
              rewrite HB in H; injection H; intros <-. now rewrite CB.
           ++ intros j c J H. apply (B j); [now right|assumption].
    + intros j c k [<-|J] H C; [|now apply (WN j c)].
      rewrite HB in H; injection H; intros <-. apply CB, FB, FR in C. tauto.
    + assert (KK : forall j c k, In j done -> nth_error (snd fb) j = Some c -> covers c k -> covers b k -> False).
      { intros j c k J H C1 C2. apply CB, FB, FR in C2. destruct C2 as [_ X]. now apply (X j c). }
      intros j1 j2 c1 c2 k N [<-|J1] [<-|J2] A1 A2 C1 C2.
      * contradiction.
      * rewrite HB in A1; injection A1; intros <-. now apply (KK j2 c2 k).
      * rewrite HB in A2; injection A2; intros <-. now apply (KK j1 c1 k).
      * now apply (DJ j1 j2 c1 c2 k).
  - (* removed *)
    assert (NJ : forall j, In j done -> j <> i) by (intros j J ->; contradiction).
    assert (UP : forall j c, In j done -> (nth_error (upd i (with_start b None) (snd fb)) j = Some c
                  <-> nth_error (snd fb) j = Some c)).
    { intros j c J. rewrite nth_error_upd. destruct (Nat.eqb_spec j i) as [->|]; [contradiction|tauto]. }
    assert (UI : forall c, nth_error (upd i (with_start b None) (snd fb)) i = Some c -> c = with_start b None).
    { intros c H. rewrite nth_error_upd, Nat.eqb_refl, HB in H. simpl in H. congruence. }
    assert (NC : forall k c, nth_error (upd i (with_start b None) (snd fb)) i = Some c -> ~ covers c k).
    { intros k c H. apply UI in H. subst c. now apply covers_None. }
    constructor; cbn [fst snd].
    + assumption.
    + now rewrite upd_length.
    + intros j c H. rewrite nth_error_upd in H. destruct (Nat.eqb_spec j i) as [->|N].
      * rewrite HB in H; simpl in H; injection H; intros <-. exists b0. split; [assumption|].
        right. split; [now left|]. split; [now rewrite E0|].
        assert (X : exists k, s <= k < s + bk_nslots b /\ ~ slot_free (fst fb) k).
        { destruct (bounded_dec (fun j => ~ slot_free (fst fb) (s + j)) (bk_nslots b)) as [(j & A & B)|A].
          - intros k; destruct (slot_free_dec (fst fb) (s + k)); tauto.
          - exists (s + j). split; [lia|assumption].
          - exfalso. rewrite <- not_true_iff_false in FB. apply FB. apply forallb_window; [lia|].
            intros k Hk. specialize (A (k - s) ltac:(lia)). replace (s + (k - s)) with k in A by lia.
            destruct (slot_free_dec (fst fb) k); tauto. }
        destruct X as (k & K1 & K2). exists k. split; [exists s; rewrite <- E0; now split|].
        rewrite FR in K2. destruct (slot_free_dec f0 k) as [F0|F0]; [right|now left].
        destruct (bounded_dec (fun j => In j done /\ exists c, nth_error (snd fb) j = Some c /\ covers c k)
                    (length (snd fb))) as [(j & A & B & c & C1 & C2)|A].
        -- intros j. destruct (in_dec Nat.eq_dec j done) as [J|J]; [|tauto].
           destruct (nth_error (snd fb) j) as [c|]; [|right; intros (_ & c & X & _); discriminate].
           destruct (bk_start c) as [t|] eqn:T.
           ++ destruct (in_range t (t + bk_nslots c) k) eqn:RR.
              ** apply in_range_true in RR. left. split; [assumption|]. exists c. split; [reflexivity|].
                 exists t; now split.
              ** apply in_range_false in RR. right. intros (_ & c' & X & (t' & Y & Z)).
                 injection X; intros <-. rewrite T in Y; injection Y; intros <-. contradiction.
           ++ right. intros (_ & c' & X & Y). injection X; intros <-. revert Y. now apply covers_None.
        -- exists j, c. split; [now apply NJ|]. split; [now right|]. split; [|assumption]. now apply UP.
        -- exfalso. apply K2. split; [assumption|]. intros j c J HJ C. apply (A j).
           ++ apply nth_error_Some. congruence.
           ++ split; [assumption|]. now exists c.
      * destruct (BK j c H) as (c0 & Hc & Q). exists c0. split; [assumption|].
        destruct Q as [Q|(X & Y & k & Z & W)]; [now left|right]. split; [now right|].
        split; [assumption|]. exists k. split; [assumption|].
        destruct W as [W|(j2 & c2 & W1 & W2 & W3 & W4)]; [now left|right].
        exists j2, c2. split; [assumption|]. split; [now right|]. split; [now apply UP|assumption].
    + intros k. rewrite FR. split; intros [A B]; (split; [assumption|]).
      * intros j c [<-|J] H; [now apply NC|]. apply UP in H; [|assumption]. now apply (B j).
      * intros j c J H. apply (B j); [now right|now apply UP].
    + intros j c k [<-|J] H C; [exfalso; now apply (NC k c)|]. apply UP in H; [|assumption]. now apply (WN j c).
    + intros j1 j2 c1 c2 k N [<-|J1] [<-|J2] A1 A2 C1 C2.
      * contradiction.
      * now apply (NC k c1).
      * now apply (NC k c2).
      * apply UP in A1; [|assumption]. apply UP in A2; [|assumption].
        now apply (DJ j1 j2 c1 c2 k).
Qed.

Lemma clean_fold_inv : forall f0 bs0 l done fb,
  placed_inside (length f0) bs0 ->
  clean_inv f0 bs0 done fb -> NoDup l ->
  (forall i, In i l -> ~ In i done /\ i < length bs0) ->
  clean_inv f0 bs0 (rev l ++ done) (fold_left clean_step l fb).
Proof.
  induction l as [|i l IH]; intros done fb PI CI ND H; [exact CI|].
  inversion ND; subst. simpl. rewrite <- app_assoc. simpl. apply IH; try assumption.
  - apply clean_step_inv; try assumption; apply H; now left.
  - intros j J. split; [|apply H; now right]. intros [->|X]; [contradiction|].
    revert X. apply H. now right.
Qed.

Lemma clean_init : forall f0 bs0, clean_inv f0 bs0 [] (f0, bs0).
Proof.
  intros. constructor; cbn [fst snd]; try reflexivity.
  - intros i b H. exists b. split; [assumption|now left].
  - intros k. split; [intros H; split; [assumption|intros j c []]|tauto].
  - intros j c k [].
  - intros i j b c k _ [].
Qed.

Lemma clean_step_other : forall fb i j, i <> j ->
  nth_error (snd (clean_step fb i)) j = nth_error (snd fb) j.
Proof.
  intros fb i j N. unfold clean_step. destruct (bk_start _); [|reflexivity].
  destruct (forallb _ _); [reflexivity|]. simpl. rewrite nth_error_upd.
  destruct (Nat.eqb_spec j i); [congruence|reflexivity].
Qed.

Lemma clean_fold_other : forall l fb j, ~ In j l ->
  nth_error (snd (fold_left clean_step l fb)) j = nth_error (snd fb) j.
Proof.
  induction l as [|i l IH]; intros fb j H; [reflexivity|]. simpl. rewrite IH by (intros X; apply H; now right).
  apply clean_step_other. intros ->. apply H; now left.
Qed.

(** ** Stable sort *)

Lemma insert_by_perm : forall sc i l, Permutation (i :: l) (insert_by sc i l).
Proof.
  induction l as [|x t IH]; simpl; [apply Permutation_refl|].
  destruct (Qltb (sc i) (sc x)); [apply Permutation_refl|].
  eapply perm_trans; [apply perm_swap|]. now constructor.
Qed.

Lemma sort_fold_perm : forall sc l acc,
  Permutation (l ++ acc) (fold_left (fun acc i => insert_by sc i acc) l acc).
Proof.
  induction l as [|i l IH]; intros acc; simpl; [apply Permutation_refl|].
  eapply perm_trans; [|apply IH].
  eapply perm_trans; [apply Permutation_middle|]. apply Permutation_app_head. apply insert_by_perm.
Qed.

Lemma sort_by_perm : forall sc l, Permutation l (sort_by sc l).
Proof. intros. unfold sort_by. rewrite <- (app_nil_r l) at 1. apply sort_fold_perm. Qed.

Definition by_score (sc : nat -> Q) (i j : nat) : Prop := (sc i <= sc j)%Q.

Lemma insert_by_sorted : forall sc i l, StronglySorted (by_score sc) l ->
  StronglySorted (by_score sc) (insert_by sc i l).
Proof.
  induction l as [|x t IH]; intros H; simpl; [repeat constructor|].
  inversion H as [|? ? H1 H2]; subst.
  destruct (Qltb (sc i) (sc x)) eqn:E.
  - apply Qltb_lt in E. constructor; [assumption|]. constructor; [unfold by_score; lra|].
    rewrite Forall_forall in *. intros y Y. specialize (H2 y Y). unfold by_score in *. lra.
  - apply Qltb_ge in E. constructor; [now apply IH|].
    rewrite Forall_forall in *. intros y Y.
    apply (Permutation_in _ (Permutation_sym (insert_by_perm sc i t))) in Y.
    destruct Y as [<-|Y]; [exact E|now apply H2].
Qed.

Lemma sort_by_sorted : forall sc l, StronglySorted (by_score sc) (sort_by sc l).
Proof.
  intros sc l. unfold sort_by. assert (H : StronglySorted (by_score sc) []) by constructor.
  revert H. generalize (@nil nat) as acc. induction l as [|i l IH]; intros acc H; simpl; [assumption|].
  apply IH. now apply insert_by_sorted.
Qed.

Lemma sorted_before : forall sc l i j, StronglySorted (by_score sc) l -> In i l -> In j l ->
  (sc i < sc j)%Q -> exists l1 l2, l = l1 ++ i :: l2 /\ In j l2 /\ (~ In j l1 -> True).
Proof.
  induction l as [|x t IH]; intros i j H I J L; [destruct I|].
  inversion H as [|? ? H1 H2]; subst. rewrite Forall_forall in H2.
  destruct I as [->|I].
  - exists [], t. split; [reflexivity|]. split; [|tauto]. destruct J as [->|J]; [lra|assumption].
  - destruct J as [->|J].
    + specialize (H2 i I). unfold by_score in H2. lra.
    + destruct (IH i j H1 I J L) as (l1 & l2 & -> & A & _). exists (x :: l1), l2. now repeat split.
Qed.

(** ** Clean-up of the genetic booking *)

Lemma clean_done : forall sc f0 bs0, placed_inside (length f0) bs0 ->
  exists done, (forall i, In i done <-> i < length bs0) /\ clean_inv f0 bs0 done (clean sc f0 bs0).
Proof.
  intros sc f0 bs0 PI. exists (rev (sort_by sc (seq 0 (length bs0))) ++ []).
  assert (IN : forall i, In i (sort_by sc (seq 0 (length bs0))) <-> i < length bs0).
  { intros i. split; intros H.
    - apply (Permutation_in _ (Permutation_sym (sort_by_perm sc _))) in H. apply in_seq in H. lia.
    - apply (Permutation_in _ (sort_by_perm sc _)). apply in_seq. lia. }
  split.
  - intros i. rewrite app_nil_r, <- in_rev. apply IN.
  - apply clean_fold_inv; [assumption|apply clean_init| |].
    + apply (Permutation_NoDup (sort_by_perm sc _)). apply seq_NoDup.
    + intros i H. split; [intros []|now apply IN].
Qed.

Lemma clean_spec : forall sc f0 bs0, placed_inside (length f0) bs0 ->
  let f := fst (clean sc f0 bs0) in let bs := snd (clean sc f0 bs0) in
  length f = length f0 /\ length bs = length bs0 /\
  no_overlap bs /\
  (forall i b, nth_error bs i = Some b ->
     exists b0, nth_error bs0 i = Some b0 /\
       (b = b0 \/
        (b = with_start b0 None /\ exists k, covers b0 k /\
           (~ slot_free f0 k \/ exists j c, j <> i /\ nth_error bs j = Some c /\ covers c k)))) /\
  (forall i b k, nth_error bs i = Some b -> covers b k -> slot_free f0 k) /\
  (forall k, slot_free f k <-> slot_free f0 k /\ forall b, In b bs -> ~ covers b k).
Proof.
  intros sc f0 bs0 PI f bs. destruct (clean_done sc f0 bs0 PI) as (done & D & [L BL BK FR WN DJ]).
  fold f in L, FR. fold bs in BL, BK, FR, WN, DJ.
  assert (ID : forall i b, nth_error bs i = Some b -> In i done).
  { intros i b H. apply D. rewrite <- BL. apply nth_error_Some. congruence. }
  split; [assumption|]. split; [assumption|]. split; [|split; [|split]].
  - intros i j b c k N A B. apply (DJ i j b c k N (ID _ _ A) (ID _ _ B) A B).
  - intros i b H. destruct (BK i b H) as (b0 & H0 & Q). exists b0. split; [assumption|].
    destruct Q as [Q|(_ & X & k & Y & Z)]; [now left|right]. split; [assumption|].
    exists k. split; [assumption|]. destruct Z as [Z|(j & c & A & _ & B & C)]; [now left|right].
    exists j, c. now repeat split.
  - intros i b k H. apply (WN i b k (ID _ _ H) H).
  - intros k. rewrite FR. split; intros [A B]; (split; [assumption|]).
    + intros b I. apply In_nth_error in I. destruct I as (i & I). apply (B i b (ID _ _ I) I).
    + intros j c _ H. apply B. now apply nth_error_In in H.
Qed.

Lemma clean_priority : forall sc f0 bs0 i j bi bj k0, placed_inside (length f0) bs0 ->
  nth_error bs0 i = Some bi -> nth_error bs0 j = Some bj ->
  (sc i < sc j)%Q -> covers bi k0 -> covers bj k0 ->
  (forall k, covers bi k -> slot_free f0 k) ->
  (forall l c k, l <> i -> l <> j -> nth_error bs0 l = Some c -> covers bi k -> ~ covers c k) ->
  nth_error (snd (clean sc f0 bs0)) i = Some bi /\
  nth_error (snd (clean sc f0 bs0)) j = Some (with_start bj None).
Proof.
  intros sc f0 bs0 i j bi bj k0 PI HI HJ LT CI CJ FI OT.
  assert (LI : i < length bs0) by (apply nth_error_Some; congruence).
  assert (LJ : j < length bs0) by (apply nth_error_Some; congruence).
  set (l := sort_by sc (seq 0 (length bs0))).
  assert (IN : forall x, In x l <-> x < length bs0).
  { intros x. unfold l. split; intros H.
    - apply (Permutation_in _ (Permutation_sym (sort_by_perm sc _))) in H. apply in_seq in H. lia.
    - apply (Permutation_in _ (sort_by_perm sc _)). apply in_seq. lia. }
  assert (ND : NoDup l) by (apply (Permutation_NoDup (sort_by_perm sc _)); apply seq_NoDup).
  destruct (sorted_before sc l i j (sort_by_sorted sc _) (proj2 (IN i) LI) (proj2 (IN j) LJ) LT)
    as (l1 & l2 & EL & J2 & _).
  assert (NI : ~ In i l1 /\ ~ In i l2 /\ ~ In j l1 /\ NoDup l1).
  { rewrite EL in ND. pose proof (NoDup_remove_2 _ _ _ ND) as X. rewrite in_app_iff in X.
    pose proof (NoDup_remove_1 _ _ _ ND) as Y.
    repeat split; try tauto.
    - intros J1. clear -Y J1 J2. induction l1 as [|a l1 IH]; [destruct J1|].
      inversion Y; subst. destruct J1 as [->|J1]; [apply H1; apply in_or_app; now right|now apply IH].
    - clear -Y. induction l1 as [|a l1 IH]; [constructor|]. inversion Y; subst. constructor; [|now apply IH].
      intros H. apply H1. apply in_or_app. now left. }
  destruct NI as (N1 & N2 & N3 & N4).
  assert (KI : nth_error (snd (clean sc f0 bs0)) i = Some bi).
  { unfold clean. fold l. rewrite EL, fold_left_app. cbn [fold_left].
    rewrite clean_fold_other by assumption.
    set (fb := fold_left clean_step l1 (f0, bs0)).
    assert (C : clean_inv f0 bs0 (rev l1 ++ []) fb).
    { apply clean_fold_inv; [assumption|apply clean_init|assumption|].
      intros x X. split; [intros []|]. apply IN. rewrite EL. apply in_or_app. now left. }
    destruct C as [L BL BK FR WN DJ].
    assert (HB : nth_error (snd fb) i = Some bi).
    { unfold fb. rewrite clean_fold_other by assumption. exact HI. }
    unfold clean_step. rewrite (nth_error_nth _ _ _ HB).
    destruct (bk_start bi) as [s|] eqn:ST; [|now rewrite HB].
    destruct (PI i bi s HI ST) as [P1 P2].
    assert (FB : forallb (fun x => x) (firstn (bk_nslots bi) (skipn s (fst fb))) = true).
    { apply forallb_window; [lia|]. intros k Hk.
      assert (CK : covers bi k) by (exists s; now split).
      apply FR. split; [now apply FI|]. intros x c X H C.
      rewrite app_nil_r, <- in_rev in X.
      destruct (BK x c H) as (c0 & H0 & Q).
      assert (C0 : covers c0 k).
      { destruct Q as [<-|(_ & -> & _)]; [assumption|]. exfalso. revert C. now apply covers_None. }
      apply (OT x c0 k); try assumption; intros ->; contradiction. }
    rewrite FB. exact HB. }
  split; [assumption|].
  destruct (clean_spec sc f0 bs0 PI) as (_ & BL & NO & BK & _).
  destruct (nth_error (snd (clean sc f0 bs0)) j) as [c|] eqn:HC.
  - destruct (BK j c HC) as (c0 & H0 & Q). rewrite HJ in H0. injection H0; intros <-.
    destruct Q as [->|(-> & _)]; [|reflexivity]. exfalso.
    assert (IJ : i <> j) by (intros ->; lra).
    now apply (NO i j bi bj k0 IJ KI HC).
  - apply nth_error_None in HC. lia.
Qed.
