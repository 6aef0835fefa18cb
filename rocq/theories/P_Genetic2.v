(** Placement of the genome, fine tuning, whole genetic booking, fitness. *)
From Coq Require Import List Arith ZArith QArith Bool Lia Lqa Permutation Sorted.
From Verif Require Import Base M_Slots M_Sched M_Genetic P_Slots P_Booking P_Book P_Book2 P_Book3
  P_Genetic.
Import ListNotations.
Open Scope nat_scope.

(** The times a block gets when it starts on slot [s]. *)
Definition times_at (st : sched) (s n : nat) : Z * Z :=
  (nth s (sc_starts st) 0%Z, nth (s + n - 1) (sc_stops st) 0%Z).

(** [b] is [b0], or [b0] placed on a start where it fits. *)
Definition replaced (st : sched) (b0 b : blk) : Prop :=
  b = b0 \/ exists s, s + bk_nslots b0 <= sc_size st /\
    b = with_place b0 s (times_at st s (bk_nslots b0)).

(** Same blocks, possibly placed elsewhere. *)
Definition tuned (st : sched) (bs0 bs : list blk) : Prop :=
  length bs = length bs0 /\
  forall i b, nth_error bs i = Some b -> exists b0, nth_error bs0 i = Some b0 /\ replaced st b0 b.

Lemma replaced_same : forall st b0 b, replaced st b0 b ->
  bk_nslots b = bk_nslots b0 /\ bk_score b = bk_score b0 /\ bk_ndelay b = bk_ndelay b0 /\
  bk_idx b = bk_idx b0 /\ bk_dur b = bk_dur b0.
Proof. intros st b0 b [->|(s & _ & ->)]; repeat split. Qed.

Lemma replaced_again : forall st b0 b s, replaced st b0 b -> s + bk_nslots b <= sc_size st ->
  replaced st b0 (with_place b s (times_at st s (bk_nslots b))).
Proof.
  intros st b0 b s [->|(s1 & _ & ->)] H; right; exists s; (split; [exact H|reflexivity]).
Qed.

Lemma tuned_refl : forall st bs, tuned st bs bs.
Proof. intros st bs. split; [reflexivity|]. intros i b H. exists b. split; [assumption|now left]. Qed.

Lemma tuned_upd : forall st bs0 bs i b s, tuned st bs0 bs -> nth_error bs i = Some b ->
  s + bk_nslots b <= sc_size st ->
  tuned st bs0 (upd i (with_place b s (times_at st s (bk_nslots b))) bs).
Proof.
  intros st bs0 bs i b s [L T] H F. split; [now rewrite upd_length|].
  intros j c C. rewrite nth_error_upd in C. destruct (Nat.eqb_spec j i) as [->|N]; [|now apply T].
  rewrite H in C. injection C; intros <-. destruct (T i b H) as (b0 & H0 & R).
  exists b0. split; [assumption|]. now apply replaced_again.
Qed.

Lemma tuned_inside : forall st bs0 bs, placed_inside (sc_size st) bs0 ->
  (forall b, In b bs0 -> 0 < bk_nslots b) -> tuned st bs0 bs -> placed_inside (sc_size st) bs.
Proof.
  intros st bs0 bs P N [_ T] i b s H E. destruct (T i b H) as (b0 & H0 & [->|(s0 & F & ->)]).
  - now apply (P i).
  - simpl in E. injection E; intros <-. split; [apply (N b0); now apply nth_error_In in H0|exact F].
Qed.

(** ** Placement of the genome *)

Lemma ga_place_tuned : forall st bs i g bs' e,
  ga_place st i bs g = (bs', e) -> e = None -> tuned st bs bs'.
Proof.
  intros st. induction bs as [|b bs IH]; intros i g bs' e E EN.
  - injection E; intros; subst. apply tuned_refl.
  - simpl in E.
    assert (CONS : forall c r, replaced st b c -> tuned st bs r -> tuned st (b :: bs) (c :: r)).
    { intros c r R [L T]. split; [simpl; lia|]. intros [|j] d H.
      - injection H; intros <-. now exists b.
      - now apply T. }
    assert (SAME : forall g', (b :: fst (ga_place st (S i) bs g'), snd (ga_place st (S i) bs g')) = (bs', e) ->
        tuned st (b :: bs) bs').
    { intros g' E'. injection E'; intros X <-. apply CONS; [now left|].
      destruct (ga_place st (S i) bs g') as [r e'] eqn:G. apply (IH _ _ _ _ G). now subst. }
    destruct (negb (nth i (sc_todo st) false)); [now apply SAME in E|].
    destruct g as [|s g]; [injection E; intros; subst; discriminate|].
    destruct (null_from _ _ _); [now apply SAME in E|].
    destruct (Nat.leb_spec (s + bk_nslots b) (sc_size st)) as [F|F].
    + injection E; intros X <-. apply CONS; [right; exists s; now split|].
      destruct (ga_place st (S i) bs g) as [r e'] eqn:G. apply (IH _ _ _ _ G). now subst.
    + injection E; intros; subst; discriminate.
Qed.

(** The genes in front of the blocks to schedule, each fitting its block. *)
Fixpoint genome_fits (st : sched) (i : nat) (bs : list blk) (g : list nat) : Prop :=
  match bs with
  | [] => g = []
  | b :: t =>
      if nth i (sc_todo st) false
      then match g with
           | [] => False
           | s :: gs => s + bk_nslots b < sc_size st /\ genome_fits st (S i) t gs
           end
      else genome_fits st (S i) t g
  end.

Lemma ga_place_ok : forall st bs i g, genome_fits st i bs g -> snd (ga_place st i bs g) = None.
Proof.
  intros st. induction bs as [|b bs IH]; intros i g F; [reflexivity|]. simpl in *.
  destruct (nth i (sc_todo st) false); cbn [negb].
  - destruct g as [|s g]; [contradiction|]. destruct F as [F1 F2].
    destruct (null_from _ _ _); [now apply IH|].
    destruct (Nat.leb_spec (s + bk_nslots b) (sc_size st)); [now apply IH|lia].
  - now apply IH.
Qed.

(** A placed block gets the start given by its gene, and at least one slot of
    its window has a positive score. *)
Lemma ga_place_gene : forall st bs i g bs', ga_place st i bs g = (bs', None) ->
  forall j b b', nth_error bs j = Some b -> nth_error bs' j = Some b' ->
    bk_start b' <> bk_start b ->
    nth (i + j) (sc_todo st) false = true /\
    exists s, bk_start b' = Some s /\ In s g.
Proof.
  intros st. induction bs as [|b bs IH]; intros i g bs' E j c c' H H' N; [destruct j; discriminate|].
  simpl in E. destruct (negb (nth i (sc_todo st) false)) eqn:T.
  - injection E; intros X <-. destruct j as [|j].
    + simpl in H, H'. congruence.
    + destruct (ga_place st (S i) bs g) as [r e'] eqn:G. simpl in H, H', X. subst e'.
      replace (i + S j) with (S i + j) by lia. now apply (IH _ _ _ G j c c').
  - apply negb_false_iff in T. destruct g as [|s g]; [discriminate|].
    destruct (null_from _ _ _).
    + injection E; intros X <-. destruct j as [|j].
      * simpl in H, H'. congruence.
      * destruct (ga_place st (S i) bs g) as [r e'] eqn:G. simpl in H, H', X. subst e'.
        replace (i + S j) with (S i + j) by lia.
        destruct (IH _ _ _ G j c c' H H' N) as (A & s' & B & C). split; [assumption|].
        exists s'. split; [assumption|now right].
    + destruct (s + bk_nslots b <=? sc_size st); [|discriminate].
      injection E; intros X <-. destruct j as [|j].
      * rewrite Nat.add_0_r. split; [assumption|]. simpl in H'. injection H'; intros <-.
        exists s. split; [reflexivity|now left].
      * destruct (ga_place st (S i) bs g) as [r e'] eqn:G. simpl in H, H', X. subst e'.
        replace (i + S j) with (S i + j) by lia.
        destruct (IH _ _ _ G j c c' H H' N) as (A & s' & B & C). split; [assumption|].
        exists s'. split; [assumption|now right].
Qed.

(** ** Fine tuning *)

(** [np.argsort] of the starts of the booked blocks, as positions. *)
Definition valid_order (bs : list blk) (ord : list nat) : Prop :=
  NoDup ord /\
  (forall i, In i ord <-> exists b, nth_error bs i = Some b /\ bk_start b <> None) /\
  StronglySorted (fun i j => start_of (nth i bs no_blk) <= start_of (nth j bs no_blk)) ord.

(** Score of block [b] starting on slot [s], computed before the placement. *)
Definition cnst_at (st : sched) (i s : nat) : Q := nth s (nth i (sc_cnst st) []) 0%Q.

(** One move: a booked block shifted by one slot to a strictly better start,
    inside the schedule and on slots free when the scores were computed. *)
Definition one_shift (st : sched) (bs bs' : list blk) : Prop :=
  exists i b s s', nth_error bs i = Some b /\ bk_start b = Some s /\
    (s' = S s \/ s = S s') /\
    (cnst_at st i s < cnst_at st i s')%Q /\
    s' + bk_nslots b < sc_size st /\ window_free (sc_free st) s' (bk_nslots b) /\
    bs' = upd i (with_place b s' (times_at st s' (bk_nslots b))) bs.

Inductive shifts (st : sched) : nat -> list blk -> list blk -> Prop :=
| shifts_O : forall bs, shifts st 0 bs bs
| shifts_S : forall n bs bs1 bs2, one_shift st bs bs1 -> shifts st n bs1 bs2 -> shifts st (S n) bs bs2.

Lemma shifts_tuned : forall st n bs bs', shifts st n bs bs' ->
  forall bs0, tuned st bs0 bs -> tuned st bs0 bs'.
Proof.
  intros st n bs bs' H. induction H as [|n bs bs1 bs2 O _ IH]; intros bs0 T; [assumption|].
  apply IH. destruct O as (i & b & s & s' & A & _ & _ & _ & F & _ & ->).
  apply tuned_upd; [assumption|assumption|lia].
Qed.

(** Scores are not negative, and positive only where the block fits. *)
Lemma tuned_row : forall st bs i b, prepared st -> tuned st (sc_blocks st) bs ->
  nth_error bs i = Some b ->
  nth i (sc_cnst st) [] = cnst_row (sc_free st) (bk_score b) (bk_nslots b) /\
  0 < bk_nslots b /\
  (forall s, (0 <= cnst_at st i s)%Q) /\
  (forall s, (0 < cnst_at st i s)%Q -> s + bk_nslots b < sc_size st /\
      window_free (sc_free st) s (bk_nslots b)).
Proof.
  intros st bs i b (P1 & P2 & P3) [_ T] H. destruct (T i b H) as (b0 & H0 & R).
  apply replaced_same in R. destruct R as (R1 & R2 & _). destruct (P3 i b0 H0) as [Q1 Q2].
  rewrite <- R1, <- R2 in Q2. unfold cnst_at. rewrite Q2.
  split; [reflexivity|]. split; [lia|]. split.
  - intros s. apply cnst_row_nonneg; [lia|]. intros x X. rewrite R2 in X.
    apply (P2 b0); [now apply nth_error_In in H0|assumption].
  - intros s X. rewrite <- P1. destruct (window_free_dec' (sc_free st) s (bk_nslots b)) as [W|W].
    + destruct (le_lt_dec (length (sc_free st)) (s + bk_nslots b)) as [L|L]; [|now split].
      rewrite cnst_row_zero in X by (intros [Y _]; lia). lra.
    + rewrite cnst_row_zero in X by tauto. lra.
Qed.

Lemma nth_ft : forall bs ord k, k < length ord ->
  nth k (map (ft_of bs) ord) ftb0 = ft_of bs (nth k ord 0).
Proof.
  intros bs ord k H. apply nth_error_nth. rewrite nth_error_map.
  rewrite (nth_error_nth' ord 0 H). reflexivity.
Qed.

Lemma ft_left_pos : forall st fs i, (0 < ft_left st fs i)%Q ->
  let f := nth i fs ftb0 in
  0 < ft_s f /\ (ft_left st fs i == cnst_at st (ft_i f) (ft_s f - 1) - cnst_at st (ft_i f) (ft_s f))%Q.
Proof.
  intros st fs i. unfold ft_left, cnst_at.
  set (f := nth i fs ftb0). set (lo := if 1 <? i then _ else 0).
  destruct (Nat.ltb_spec lo (ft_s f)) as [L|L].
  2:{ destruct (ft_d f =? 0); [intros; lra|]. destruct (i <? _); [intros; lra|].
      destruct (_ <=? _); intros; lra. }
  destruct (ft_d f =? 0); [intros _; split; [lia|reflexivity]|].
  destruct (i <? _); [intros _; split; [lia|reflexivity]|].
  destruct (_ <=? _); [intros; lra|intros _; split; [lia|reflexivity]].
Qed.

Lemma ft_right_pos : forall st fs i, (0 < ft_right st fs i)%Q ->
  let f := nth i fs ftb0 in
  (ft_right st fs i == cnst_at st (ft_i f) (S (ft_s f)) - cnst_at st (ft_i f) (ft_s f))%Q.
Proof.
  intros st fs i. unfold ft_right, cnst_at.
  set (f := nth i fs ftb0). set (room := if S i <? _ then _ else _).
  replace (ft_s f + 1) with (S (ft_s f)) by lia.
  destruct room; destruct (ft_d f =? 0); try (intros; lra); try (intros _; reflexivity);
    destruct (_ <? i); try (intros; lra); try (intros _; reflexivity);
    destruct (_ <=? _); intros; try lra; reflexivity.
Qed.

Lemma bests_nth : forall st fs m, m < length fs ->
  nth m (map (ft_best st fs) (seq 0 (length fs))) 0%Q = ft_best st fs m.
Proof.
  intros st fs m H. apply nth_error_nth. rewrite nth_error_map.
  rewrite (nth_error_nth' (seq 0 (length fs)) 0) by now rewrite seq_length.
  simpl. now rewrite seq_nth.
Qed.

Lemma bests_argmax : forall st fs, fs <> [] ->
  let bests := map (ft_best st fs) (seq 0 (length fs)) in
  argmax bests < length fs /\
  forall j, j < length fs -> (ft_best st fs j <= ft_best st fs (argmax bests))%Q.
Proof.
  intros st fs N bests.
  assert (NB : bests <> []) by (unfold bests; destruct fs; [contradiction|discriminate]).
  assert (LB : length bests = length fs) by (unfold bests; now rewrite map_length, seq_length).
  destruct (argmax_spec bests NB) as (x & E & M & _).
  assert (A : argmax bests < length fs) by (rewrite <- LB; apply nth_error_Some; congruence).
  split; [assumption|]. intros j J. apply nth_error_nth with (d := 0%Q) in E.
  pose proof (bests_nth st fs (argmax bests) A : nth (argmax bests) bests 0%Q = _) as E2.
  rewrite <- E2, E. apply (M j).
  rewrite (nth_error_nth' bests 0%Q) by lia. f_equal. unfold bests. now apply bests_nth.
Qed.

Lemma ft_step_cases : forall st ord bs, prepared st -> tuned st (sc_blocks st) bs ->
  (forall i, In i ord -> exists b, nth_error bs i = Some b /\ bk_start b <> None) ->
  match ft_step st ord bs with
  | FDone => ord <> [] /\
      forall k, k < length ord ->
        (ft_left st (map (ft_of bs) ord) k <= 0)%Q /\ (ft_right st (map (ft_of bs) ord) k <= 0)%Q
  | FMove bs' => one_shift st bs bs'
  | FErr bs' e => ord = [] /\ bs' = bs /\ e = EValueError
  end.
Proof.
  intros st ord bs P T V. unfold ft_step. set (fs := map (ft_of bs) ord).
  assert (LF : length fs = length ord) by (unfold fs; apply map_length).
  assert (NE : ord = [] \/ ord <> []) by (destruct ord; [now left|right; discriminate]).
  destruct NE as [->|NE]; [simpl; now repeat split|].
  assert (NF : fs <> []) by (unfold fs; destruct ord; [contradiction|discriminate]).
  destruct fs as [|f0 ft] eqn:EF; [contradiction|]. rewrite <- EF in *. clear EF f0 ft.
  destruct (bests_argmax st fs NF) as [AM MX].
  set (bests := map (ft_best st fs) (seq 0 (length fs))) in *.
  set (m := argmax bests) in *.
  assert (BM : nth m bests 0%Q = ft_best st fs m) by (unfold bests; now apply bests_nth).
  rewrite BM.
  destruct (Qle_bool (ft_best st fs m) 0) eqn:B0.
  - apply Qle_bool_iff in B0. split; [assumption|]. intros k K. specialize (MX k ltac:(lia)).
    assert (X : (ft_best st fs k <= 0)%Q) by lra.
    unfold ft_best in X. destruct (Qltb (ft_left st fs k) (ft_right st fs k)) eqn:Q.
    + apply Qltb_lt in Q. split; lra.
    + apply Qltb_ge in Q. split; lra.
  - assert (B1 : (0 < ft_best st fs m)%Q).
    { rewrite <- not_true_iff_false in B0. rewrite Qle_bool_iff in B0. lra. }
    assert (NM : nth m fs ftb0 = ft_of bs (nth m ord 0)) by (unfold fs; apply nth_ft; lia).
    rewrite NM. cbn [ft_of ft_i]. set (i := nth m ord 0).
    assert (IO : In i ord) by (apply nth_In; lia).
    destruct (V i IO) as (b & HB & SB). rewrite (nth_error_nth _ _ _ HB).
    destruct (bk_start b) as [s|] eqn:ES; [|contradiction].
    assert (SO : start_of b = s) by (unfold start_of; now rewrite ES).
    destruct (tuned_row st bs i b P T HB) as (R1 & R2 & R3 & R4).
    assert (FS : ft_s (nth m fs ftb0) = s /\ ft_i (nth m fs ftb0) = i).
    { rewrite NM. unfold ft_of. fold i. rewrite (nth_error_nth _ _ _ HB). simpl. now split. }
    destruct FS as [FS FI].
    set (s' := if ft_goes_right st fs m then S (start_of b) else start_of b - 1).
    assert (MV : (s' = S s \/ s = S s') /\ (cnst_at st i s < cnst_at st i s')%Q).
    { unfold s'. rewrite SO. unfold ft_goes_right. unfold ft_best in B1.
      destruct (Qltb (ft_left st fs m) (ft_right st fs m)).
      - split; [now left|]. pose proof (ft_right_pos st fs m B1) as X. cbv zeta in X.
        rewrite FS, FI in X. lra.
      - pose proof (ft_left_pos st fs m B1) as X. cbv zeta in X. rewrite FS, FI in X.
        destruct X as [X1 X2]. split; [right; lia|lra]. }
    destruct MV as [MV1 MV2]. specialize (R3 s).
    destruct (R4 s' ltac:(lra)) as [R5 R6].
    destruct (Nat.leb_spec (s' + bk_nslots b) (sc_size st)); [|lia].
    exists i, b, s, s'. repeat (split; [assumption|]). reflexivity.
Qed.

Lemma fine_tune_path : forall st sorter, prepared st ->
  (forall bs, tuned st (sc_blocks st) bs -> valid_order bs (sorter bs)) ->
  forall m bs bs' e, tuned st (sc_blocks st) bs ->
  fine_tune st sorter m bs = (bs', e) ->
  exists n, n <= m /\ shifts st n bs bs' /\
    match e with
    | None => n < m -> ft_step st (sorter bs') bs' = FDone
    | Some x => x = EValueError /\ bs' = bs /\ forall b, In b bs -> bk_start b = None
    end.
Proof.
  intros st sorter P V. induction m as [|m IH]; intros bs bs' e T E.
  - injection E; intros; subst. exists 0. split; [lia|]. split; [constructor|]. lia.
  - simpl in E. destruct (V bs T) as (V1 & V2 & V3).
    pose proof (ft_step_cases st (sorter bs) bs P T (fun i => proj1 (V2 i))) as C.
    destruct (ft_step st (sorter bs) bs) as [|bs1|bs1 e1] eqn:F.
    + injection E; intros; subst. exists 0. split; [lia|]. split; [constructor|]. now intros.
    + assert (T1 : tuned st (sc_blocks st) bs1).
      { eapply shifts_tuned; [|exact T]. eapply shifts_S; [exact C|constructor]. }
      destruct (IH bs1 bs' e T1 E) as (n & N1 & N2 & N3).
      exists (S n). split; [lia|]. split; [now apply shifts_S with bs1|].
      destruct e as [x|]; [|intros; apply N3; lia].
      (* an error after a move cannot happen: the moved block is booked *)
      exfalso. destruct N3 as (_ & _ & X).
      destruct C as (i & b & s & s' & A & _ & _ & _ & _ & _ & ->).
      assert (Y : nth_error (upd i (with_place b s' (times_at st s' (bk_nslots b))) bs) i
                  = Some (with_place b s' (times_at st s' (bk_nslots b)))).
      { now rewrite nth_error_upd, Nat.eqb_refl, A. }
      apply nth_error_In in Y. apply X in Y. discriminate.
    + injection E; intros; subst. destruct C as (O & -> & ->). exists 0.
      split; [lia|]. split; [constructor|]. repeat split.
      intros b I. apply In_nth_error in I. destruct I as (i & I).
      destruct (bk_start b) as [s|] eqn:ES; [|reflexivity]. exfalso.
      assert (X : In i (sorter bs)) by (apply V2; exists b; split; [assumption|congruence]).
      rewrite O in X. destruct X.
Qed.

Lemma fine_tune_tuned : forall st sorter m bs bs' e bs0,
  tuned st bs0 bs ->
  (forall bs1 i, tuned st bs0 bs1 -> In i (sorter bs1) -> i < length bs1) ->
  fine_tune st sorter m bs = (bs', e) -> e = None -> tuned st bs0 bs'.
Proof.
  intros st sorter. induction m as [|m IH]; intros bs bs' e bs0 T V E EN.
  - injection E; intros; now subst.
  - simpl in E. destruct (ft_step st (sorter bs) bs) as [|bs1|bs1 e1] eqn:F.
    + injection E; intros; now subst.
    + apply (IH bs1 bs' e bs0); try assumption.
      unfold ft_step in F. set (fs := map (ft_of bs) (sorter bs)) in *.
      destruct fs as [|f0 ft] eqn:EF; [discriminate|]. rewrite <- EF in F.
      destruct (Qle_bool _ _); [discriminate|].
      set (m0 := argmax (map (ft_best st fs) (seq 0 (length fs)))) in *.
      set (i := ft_i (nth m0 fs ftb0)) in *.
      destruct (Nat.leb_spec ((if ft_goes_right st fs m0 then S (start_of (nth i bs no_blk))
            else start_of (nth i bs no_blk) - 1) + bk_nslots (nth i bs no_blk)) (sc_size st)) as [L|L];
        [|discriminate].
      injection F; intros <-.
      assert (AM : m0 < length fs) by (apply bests_argmax; rewrite EF; discriminate).
      assert (LF : length fs = length (sorter bs)) by (unfold fs; apply map_length).
      assert (II : i = nth m0 (sorter bs) 0).
      { unfold i, fs. rewrite nth_ft by lia. reflexivity. }
      assert (IL : i < length bs) by (apply (V bs); [assumption|rewrite II; apply nth_In; lia]).
      apply tuned_upd; [assumption|now apply nth_error_nth_blk|exact L].
    + injection E; intros; subst. discriminate.
Qed.

(** Where fine tuning stops, no undelayed block can be improved by a shift of
    one slot onto slots no other block uses. *)
Lemma ft_done_optimal : forall st ord bs, prepared st -> tuned st (sc_blocks st) bs ->
  placed_inside (sc_size st) bs -> no_overlap bs -> valid_order bs ord ->
  ft_step st ord bs = FDone ->
  forall i b s s', nth_error bs i = Some b -> bk_start b = Some s -> bk_ndelay b = 0 ->
    (s' = S s \/ s = S s') ->
    (forall j c k, j <> i -> nth_error bs j = Some c -> s' <= k < s' + bk_nslots b -> ~ covers c k) ->
    (cnst_at st i s' <= cnst_at st i s)%Q.
Proof.
  intros st ord bs P T PI NO (V1 & V2 & V3) D i b s s' HB HS HD MV FR.
  pose proof (ft_step_cases st ord bs P T (fun i => proj1 (V2 i))) as C. rewrite D in C.
  destruct C as [NE C].
  assert (IO : In i ord) by (apply V2; exists b; split; [assumption|congruence]).
  destruct (In_nth ord i 0 IO) as (m & ML & MI). specialize (C m ML). destruct C as [CL CR].
  destruct (tuned_row st bs i b P T HB) as (R1 & R2 & R3 & R4).
  destruct (PI i b s HB HS) as [_ PIs].
  set (fs := map (ft_of bs) ord) in *.
  assert (LF : length fs = length ord) by (unfold fs; apply map_length).
  assert (NM : nth m fs ftb0 = mkFtb i s (bk_nslots b) 0).
  { unfold fs. rewrite nth_ft by assumption. rewrite MI. unfold ft_of.
    rewrite (nth_error_nth _ _ _ HB). unfold start_of. now rewrite HS, HD. }
  assert (OTH : forall m', m' < length ord -> m' <> m -> exists i' b' s',
     i' <> i /\ nth_error bs i' = Some b' /\ bk_start b' = Some s' /\ 0 < bk_nslots b' /\
     s' + bk_nslots b' <= sc_size st /\
     nth m' fs ftb0 = mkFtb i' s' (bk_nslots b') (bk_ndelay b') /\
     ((m' < m -> s' <= s) /\ (m < m' -> s <= s'))).
  { intros m' L N. destruct (proj1 (V2 (nth m' ord 0))) as (b' & HB' & SB'); [now apply nth_In|].
    destruct (bk_start b') as [t|] eqn:ST'; [|contradiction].
    exists (nth m' ord 0), b', t.
    destruct (PI (nth m' ord 0) b' t HB' ST') as [PN PS].
    split; [|split; [assumption|split; [assumption|split; [assumption|split; [assumption|split]]]]].
    - rewrite <- MI. intros X. apply N. now apply (proj1 (NoDup_nth ord 0) V1).
    - unfold fs. rewrite nth_ft by assumption. unfold ft_of. rewrite (nth_error_nth _ _ _ HB').
      unfold start_of. now rewrite ST'.
    - assert (G : forall x y, x < y -> y < length ord ->
         start_of (nth (nth x ord 0) bs no_blk) <= start_of (nth (nth y ord 0) bs no_blk)).
      { clear -V3. induction V3 as [|a l S IH F]; intros x y XY YL; [simpl in YL; lia|].
        destruct y as [|y]; [lia|]. simpl in YL. destruct x as [|x].
        - simpl. rewrite Forall_forall in F. apply F. apply nth_In. lia.
        - simpl. apply IH; lia. }
      assert (E1 : start_of (nth (nth m' ord 0) bs no_blk) = t).
      { rewrite (nth_error_nth _ _ _ HB'). unfold start_of. now rewrite ST'. }
      assert (E2 : start_of (nth (nth m ord 0) bs no_blk) = s).
      { rewrite MI, (nth_error_nth _ _ _ HB). unfold start_of. now rewrite HS. }
      split; intros O.
      + specialize (G m' m O ML). lia.
      + specialize (G m m' O L). lia. }
  assert (CB : forall k, s <= k < s + bk_nslots b -> covers b k) by (intros k K; now exists s).
  destruct MV as [->|MV].
  - (* right *)
    destruct (Qlt_le_dec 0 (cnst_at st i (S s))) as [POS|]; [|specialize (R3 s); lra].
    destruct (R4 _ POS) as [R5 _].
    assert (RM : (if S m <? length fs then s + bk_nslots b <? ft_s (nth (S m) fs ftb0)
                  else s + 1 <? sc_size st - 1) = true).
    { destruct (Nat.ltb_spec (S m) (length fs)) as [L|L].
      - destruct (OTH (S m) ltac:(lia) ltac:(lia)) as (i' & b' & t & N & HB' & HS' & PN & PS & E & _ & O).
        rewrite E. cbn [ft_s]. specialize (O ltac:(lia)). apply Nat.ltb_lt.
        destruct (le_lt_dec t (s + bk_nslots b)) as [X|X]; [|assumption]. exfalso.
        destruct (Nat.eq_dec t (s + bk_nslots b)) as [Y|Y].
        + apply (FR i' b' t N HB'); [lia|]. exists t. split; [assumption|lia].
        + apply (NO i i' b b' t); try assumption; [congruence|apply CB; lia|].
          exists t; split; [assumption|lia].
      - apply Nat.ltb_lt. lia. }
    unfold ft_right in CR. rewrite NM in CR. cbn [ft_i ft_s ft_n ft_d] in CR.
    rewrite RM in CR. simpl Nat.eqb in CR. cbv iota in CR. unfold cnst_at.
    replace (s + 1) with (S s) in CR by lia. lra.
  - (* left *)
    assert (LO : (if 1 <? m then ft_s (nth (m - 1) fs ftb0) + ft_n (nth (m - 1) fs ftb0) else 0) < s).
    { destruct (Nat.ltb_spec 1 m) as [L|L]; [|lia].
      destruct (OTH (m - 1) ltac:(lia) ltac:(lia)) as (i' & b' & t & N & HB' & HS' & PN & PS & E & O & _).
      rewrite E. cbn [ft_s ft_n]. specialize (O ltac:(lia)).
      destruct (le_lt_dec s (t + bk_nslots b')) as [X|X]; [|assumption]. exfalso.
      destruct (Nat.eq_dec s (t + bk_nslots b')) as [Y|Y].
      + apply (FR i' b' (s - 1) N HB'); [lia|]. exists t. split; [assumption|lia].
      + apply (NO i i' b b' s); try assumption; [congruence|apply CB; lia|].
        exists t; split; [assumption|lia]. }
    unfold ft_left in CL. rewrite NM in CL. cbn [ft_i ft_s ft_n ft_d] in CL.
    apply Nat.ltb_lt in LO. rewrite LO in CL. simpl Nat.eqb in CL. cbv iota in CL. unfold cnst_at.
    replace (s - 1) with s' in CL by lia. lra.
Qed.

(** A block that is the only one with a delay is never moved. *)
Lemma lone_delay_fixed : forall st fs i, delayed fs = [i] ->
  (ft_left st fs i == -1)%Q /\ (ft_right st fs i == -1)%Q.
Proof.
  intros st fs i D.
  assert (I : In i (delayed fs)) by (rewrite D; now left).
  unfold delayed in I. apply filter_In in I. destruct I as [_ I]. apply negb_true_iff in I.
  unfold ft_left, ft_right. rewrite D, I.
  assert (P : cyc_prev i [i] = i /\ cyc_next i [i] = i).
  { unfold cyc_prev, cyc_next. cbn [index_of]. rewrite Nat.eqb_refl. now split. }
  destruct P as [-> ->]. rewrite Nat.ltb_irrefl.
  assert (E : forall x y z, x <=? x + y + z = true) by (intros; apply Nat.leb_le; lia).
  rewrite E. split; reflexivity.
Qed.
