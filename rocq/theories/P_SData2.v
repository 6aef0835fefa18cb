(** Arithmetic and slices of dynamic spectra. *)
From Coq Require Import String List Arith ZArith QArith Qabs Bool Lia Lqa.
From Verif Require Import Base M_Nd M_Select M_SData P_SData.
Import ListNotations.
Open Scope nat_scope.

(** ** Arithmetic *)
Definition share (l m : list Q) : Prop := exists i x y, nth_error l i = Some x /\ nth_error m i = Some y /\ (x == y)%Q.
Definition conforms {A U} (a b : sdata A U) : Prop :=
  sh (s_data a) = sh (s_data b) /\ share (s_time a) (s_time b) /\ share (s_freq a) (s_freq b).
Lemma none_equal_spec : forall l m, length l = length m -> (none_equal l m = false <-> share l m).
Proof.
  intros l m L. unfold none_equal, share. rewrite <- not_true_iff_false, (combine_forallb _ _ _ L). split.
  - intros H. revert m L H. induction l as [|x l IH]; intros [|y m] L H; try discriminate.
    + exfalso. apply H. intros [|i] ? ? X; discriminate.
    + destruct (Qeq_bool x y) eqn:E.
      * exists 0, x, y. split; [reflexivity|]. split; [reflexivity|]. now apply Qeq_bool_iff.
      * destruct (IH m) as (i & u & v & X & Y & Z); [cbn in L; lia| |exists (S i), u, v; auto].
        intros K. apply H. intros [|i] u v X Y; cbn in X, Y; [injection X as <-; injection Y as <-; cbn; now rewrite E|eauto].
  - intros (i & x & y & X & Y & E) H. specialize (H i x y X Y). cbn in H. apply Qeq_bool_iff in E. rewrite E in H. discriminate.
Qed.
Lemma valid_lengths : forall A U (a b : sdata A U), valid a -> valid b -> sh (s_data a) = sh (s_data b) ->
  length (s_time a) = length (s_time b) /\ length (s_freq a) = length (s_freq b) /\ length (s_polar a) = length (s_polar b).
Proof. intros A U a b VA VB E. unfold valid in *. rewrite VA, VB in E. injection E as E1 E2 E3. auto. Qed.
Theorem conformity_spec : forall A U (a b : sdata A U), valid a -> valid b ->
  (conforms a b -> check_conformity a b = Ok tt) /\ (~ conforms a b -> check_conformity a b = Err EValueError).
Proof.
  intros A U a b VA VB. unfold check_conformity. destruct (list_eq_dec _ _ _) as [E|E]; cbn [negb].
  - destruct (valid_lengths _ _ _ _ VA VB E) as (L1 & L2 & _).
    destruct (none_equal (s_time a) (s_time b)) eqn:T.
    + split; [intros (_ & X & _); apply none_equal_spec in X; [congruence|exact L1]|auto].
    + apply (none_equal_spec _ _ L1) in T. destruct (none_equal (s_freq a) (s_freq b)) eqn:F.
      * split; [intros (_ & _ & X); apply none_equal_spec in X; [congruence|exact L2]|auto].
      * apply (none_equal_spec _ _ L2) in F. split; [auto|]. intros X. exfalso. apply X. split; auto.
  - split; [intros (X & _); contradiction|auto].
Qed.
(** Sample by sample. *)
Definition pointwise {A U V} (f : A -> V -> A) (a r : sdata A U) (y : list nat -> V) : Prop :=
  s_time r = s_time a /\ s_freq r = s_freq a /\ valid r /\
  forall idx, get (s_data r) idx = f (get (s_data a) idx) (y idx).
Definition polar_kind (o : op) : bool := match o with Add | Sub => true | _ => false end.
Theorem op_sdata : forall A U (U0 : units U) (N : numbers A) o (a b : sdata A U), valid a -> valid b ->
  conforms a b -> (polar_kind o = true -> map (u_str U0) (s_polar a) = map (u_str U0) (s_polar b)) ->
  exists r, s_op U0 N o a (OSData b) = Ok r /\ pointwise (on_numbers N o) a r (get (s_data b)) /\
    (polar_kind o = true -> s_polar r = s_polar a) /\
    (polar_kind o = false -> forall k p q, nth_error (s_polar a) k = Some p -> nth_error (s_polar b) k = Some q ->
       nth_error (s_polar r) k = Some (match o with Mul => u_mul U0 p q | _ => u_div U0 p q end)).
Proof.
  intros A U U0 N o a b VA VB C P. unfold s_op. destruct (conformity_spec _ _ _ _ VA VB) as (K & _). rewrite (K C). cbn [bind].
  destruct (valid_lengths _ _ _ _ VA VB (proj1 C)) as (_ & _ & LP). unfold valid in VA.
  assert (CN : forall (f : U -> U -> U) k p q, nth_error (s_polar a) k = Some p -> nth_error (s_polar b) k = Some q ->
     nth_error (map (fun pq => f (fst pq) (snd pq)) (combine (s_polar a) (s_polar b))) k = Some (f p q)).
  { intros f. clear. generalize (s_polar b). induction (s_polar a) as [|x l IH]; intros [|y m] [|k] p q X Y; try discriminate; cbn in *; [congruence|eauto]. }
  assert (CL : forall (f : U -> U -> U), length (map (fun pq => f (fst pq) (snd pq)) (combine (s_polar a) (s_polar b))) = length (s_polar a)).
  { intros f. rewrite map_length, combine_length. lia. }
  destruct o; cbn [polar_kind] in *.
  1, 2: (rewrite (proj2 (same_polar_spec U U0 _ _) (P eq_refl)); cbn [negb];
    rewrite (proj2 (new_spec _ _ (s_time a) (s_freq a) (s_polar a) _ _)) by (split; [reflexivity|exact VA]);
    eexists; split; [reflexivity|]; split; [repeat split; exact VA|]; split; [reflexivity|discriminate]).
  1: (rewrite (proj2 (new_spec _ _ (s_time a) (s_freq a) _ _ _)) by (split; [reflexivity|rewrite (CL (u_mul U0)); exact VA])).
  2: (rewrite (proj2 (new_spec _ _ (s_time a) (s_freq a) _ _ _)) by (split; [reflexivity|rewrite (CL (u_div U0)); exact VA])).
  all: eexists; split; [reflexivity|]; split; [split; [reflexivity|]; split; [reflexivity|]; split; [|reflexivity]|].
  1: unfold valid; cbn; rewrite (CL (u_mul U0)); exact VA.
  2: unfold valid; cbn; rewrite (CL (u_div U0)); exact VA.
  all: split; [discriminate|intros _ k p q X Y; cbn; auto].
Qed.
Theorem op_refused : forall A U (U0 : units U) (N : numbers A) o (a b : sdata A U), valid a -> valid b ->
  ~ conforms a b \/ (polar_kind o = true /\ map (u_str U0) (s_polar a) <> map (u_str U0) (s_polar b)) ->
  s_op U0 N o a (OSData b) = Err EValueError.
Proof.
  intros A U U0 N o a b VA VB H. unfold s_op. destruct (conformity_spec _ _ _ _ VA VB) as (K1 & K2).
  destruct H as [H|(P & H)]; [now rewrite (K2 H)|].
  destruct (check_conformity a b) as [[]|e] eqn:C; cbn [bind].
  - assert (S : same_polar U0 (s_polar a) (s_polar b) = false).
    { apply not_true_iff_false. intros X. apply same_polar_spec in X. contradiction. }
    destruct o; try discriminate; now rewrite S.
  - unfold check_conformity in C. destruct (list_eq_dec _ _ _); cbn [negb] in C;
    destruct (none_equal (s_time a) (s_time b)); destruct (none_equal (s_freq a) (s_freq b)); congruence.
Qed.
Theorem op_others : forall A U (U0 : units U) (N : numbers A) o (a : sdata A U), valid a ->
  (forall v, sh v = sh (s_data a) -> exists r, s_op U0 N o a (OArray v) = Ok r /\ pointwise (on_numbers N o) a r (get v) /\ s_polar r = s_polar a) /\
  (forall v, sh v <> sh (s_data a) -> s_op U0 N o a (OArray v) = Err EValueError) /\
  (forall x, exists r, s_op U0 N o a (ONumber x) = Ok r /\ pointwise (on_numbers N o) a r (fun _ => x) /\ s_polar r = s_polar a) /\
  s_op U0 N o a OOther = Err EException.
Proof.
  intros A U U0 N o a VA. unfold valid in VA. split; [|split; [|split]].
  - intros v V. unfold s_op, check_value. destruct (list_eq_dec _ _ _); [|contradiction]. cbn [bind].
    rewrite (proj2 (new_spec _ _ (s_time a) (s_freq a) (s_polar a) _ _)) by (split; [reflexivity|exact VA]).
    eexists. split; [reflexivity|]. split; [repeat split; exact VA|reflexivity].
  - intros v V. unfold s_op, check_value. destruct (list_eq_dec _ _ _); [contradiction|]. reflexivity.
  - intros x. unfold s_op, check_value. cbn [bind].
    rewrite (proj2 (new_spec _ _ (s_time a) (s_freq a) (s_polar a) _ _)) by (split; [reflexivity|exact VA]).
    eexists. split; [reflexivity|]. split; [repeat split; exact VA|reflexivity].
  - reflexivity.
Qed.
(** Undoing an addition or a product by a number. *)
Theorem op_undo : forall A U (U0 : units U) (N : numbers A) o o' (a b : sdata A U), valid a -> valid b ->
  (o = Add /\ o' = Sub \/ o = Sub /\ o' = Add) ->
  (forall x y, on_numbers N o' (on_numbers N o x y) y = x) ->
  conforms a b -> map (u_str U0) (s_polar a) = map (u_str U0) (s_polar b) ->
  exists r r', s_op U0 N o a (OSData b) = Ok r /\ s_op U0 N o' r (OSData b) = Ok r' /\
    s_time r' = s_time a /\ s_freq r' = s_freq a /\ s_polar r' = s_polar a /\ forall idx, get (s_data r') idx = get (s_data a) idx.
Proof.
  intros A U U0 N o o' a b VA VB OO LAW C P.
  assert (PK : polar_kind o = true /\ polar_kind o' = true) by (destruct OO as [(-> & ->)|(-> & ->)]; auto).
  destruct PK as (PK & PK').
  destruct (op_sdata A U U0 N o a b VA VB C (fun _ => P)) as (r & E & (T & F & V & G) & PO & _). specialize (PO PK).
  assert (C' : conforms r b).
  { destruct C as (C1 & C2 & C3). unfold conforms. rewrite T, F. split; [|split; assumption].
    unfold valid in V. rewrite V, T, F, PO. rewrite <- VA. exact C1. }
  destruct (op_sdata A U U0 N o' r b V VB C' (fun _ => eq_trans (f_equal _ PO) P)) as (r' & E' & (T' & F' & V' & G') & PO' & _).
  specialize (PO' PK'). exists r, r'. split; [exact E|]. split; [exact E'|]. split; [congruence|]. split; [congruence|]. split; [congruence|].
  intros idx. rewrite G', G. apply LAW.
Qed.

(** ** Slices *)
Definition step_of (s : pslice) : Z := match sl_step s with Some k => k | None => 1%Z end.
Definition resolve (n : nat) (x : Z) : Z := if (x <? 0)%Z then (x + Z.of_nat n)%Z else x.
(** The positions designated by a slice, [x[start:stop:step]], as documented:
    counted from the start (the first or last position if it is outside or absent),
    by steps, up to the stop, which is excluded. *)
Definition designates (n : nat) (s : pslice) (i : nat) : Prop :=
  i < n /\
  if (0 <? step_of s)%Z
  then let a := match sl_start s with Some x => Z.max 0 (resolve n x) | None => 0%Z end in
       (a <= Z.of_nat i)%Z /\ (match sl_stop s with Some x => Z.of_nat i < resolve n x | None => True end)%Z /\
       exists k, (0 <= k)%Z /\ Z.of_nat i = (a + k * step_of s)%Z
  else let a := match sl_start s with Some x => Z.min (Z.of_nat n - 1) (resolve n x) | None => (Z.of_nat n - 1)%Z end in
       (Z.of_nat i <= a)%Z /\ (match sl_stop s with Some x => resolve n x < Z.of_nat i | None => True end)%Z /\
       exists k, (0 <= k)%Z /\ Z.of_nat i = (a + k * step_of s)%Z.

Theorem slice_spec : forall n s l, slice_indices n s = Ok l ->
  step_of s <> 0%Z /\ (forall i, In i l <-> designates n s i) /\
  (forall k i j, nth_error l k = Some i -> nth_error l (S k) = Some j -> Z.of_nat j = (Z.of_nat i + step_of s)%Z).
Proof.
  intros n s l E. unfold slice_indices in E. fold (step_of s) in E.
  destruct (step_of s =? 0)%Z eqn:Z0; [discriminate|]. apply Z.eqb_neq in Z0. split; [exact Z0|].
  unfold designates. destruct (0 <? step_of s)%Z eqn:SG.
  - apply Z.ltb_lt in SG.
    set (a := match sl_start s with Some x => _ | None => _ end) in E.
    set (b := match sl_stop s with Some x => _ | None => _ end) in E.
    assert (A : (0 <= a <= Z.of_nat n)%Z /\ (a = match sl_start s with Some x => Z.max 0 (resolve n x) | None => 0 end \/
       a = Z.of_nat n /\ Z.of_nat n <= match sl_start s with Some x => Z.max 0 (resolve n x) | None => 0 end)%Z).
    { unfold a, resolve. destruct (sl_start s) as [x|]; [|lia].
      destruct (x <? 0)%Z eqn:X; [apply Z.ltb_lt in X; destruct (x + Z.of_nat n <? 0)%Z eqn:Y; [apply Z.ltb_lt in Y|apply Z.ltb_ge in Y]; lia|].
      apply Z.ltb_ge in X. destruct (Z.of_nat n <? x)%Z eqn:Y; [apply Z.ltb_lt in Y|apply Z.ltb_ge in Y]; lia. }
    assert (B : (0 <= b <= Z.of_nat n)%Z /\ forall i, i < n -> (Z.of_nat i < b <-> match sl_stop s with Some x => Z.of_nat i < resolve n x | None => True end)%Z).
    { unfold b, resolve. destruct (sl_stop s) as [x|]; [|split; [lia|intros; split; intros; auto; lia]].
      destruct (x <? 0)%Z eqn:X; [apply Z.ltb_lt in X; destruct (x + Z.of_nat n <? 0)%Z eqn:Y; [apply Z.ltb_lt in Y|apply Z.ltb_ge in Y]; split; [lia| |lia|]; intros; lia|].
      apply Z.ltb_ge in X. destruct (Z.of_nat n <? x)%Z eqn:Y; [apply Z.ltb_lt in Y|apply Z.ltb_ge in Y]; split; try lia; intros; lia. }
    clearbody a b. destruct A as (A1 & A2), B as (B1 & B2).
    set (len := if (a <? b)%Z then ((b - a - 1) / step_of s + 1)%Z else 0%Z) in E.
    assert (LEN : forall k, (0 <= k)%Z -> (k < len <-> a + k * step_of s < b)%Z).
    { intros k K. unfold len. destruct (a <? b)%Z eqn:C; [apply Z.ltb_lt in C|apply Z.ltb_ge in C; nia].
      pose proof (Z.div_mod (b - a - 1) (step_of s) Z0). pose proof (Z.mod_pos_bound (b - a - 1) (step_of s) SG). nia. }
    injection E as <-. split.
    + intros i. rewrite in_map_iff. split.
      * intros (k & <- & K). apply in_seq in K. assert (KL : (Z.of_nat k < len)%Z) by lia.
        apply LEN in KL; [|lia]. rewrite Z2Nat.id by nia. split; [apply Nat2Z.inj_lt; rewrite Z2Nat.id; nia|].
        destruct A2 as [A2|(A2 & _)]; [|nia]. rewrite <- A2. split; [nia|]. split.
        -- assert (Z.to_nat (a + Z.of_nat k * step_of s) < n) by (apply Nat2Z.inj_lt; rewrite Z2Nat.id; nia).
           specialize (B2 _ H). rewrite Z2Nat.id in B2 by nia. apply B2. exact KL.
        -- exists (Z.of_nat k). split; [lia|reflexivity].
      * intros (I & A3 & B3 & k & K & EI). destruct A2 as [A2|(A2 & A4)]; [|lia]. rewrite <- A2 in *.
        apply (B2 _ I) in B3. exists (Z.to_nat k). rewrite Z2Nat.id by lia. rewrite <- EI. split; [apply Nat2Z.id|].
        apply in_seq. rewrite EI in B3. apply LEN in B3; lia.
    + intros k i j I J. rewrite nth_error_map in I, J.
      destruct (nth_error (seq 0 (Z.to_nat len)) k) as [u|] eqn:KU; [|discriminate].
      destruct (nth_error (seq 0 (Z.to_nat len)) (S k)) as [w|] eqn:KW; [|discriminate]. cbn [option_map] in I, J. apply (f_equal (fun o => match o with Some z => z | None => 0 end)) in I, J. cbv beta iota in I, J.
      assert (LS : S k < length (seq 0 (Z.to_nat len))) by (apply nth_error_Some; congruence). rewrite seq_length in LS.
      apply nth_error_nth with (d := 0) in KU, KW. rewrite seq_nth in KU, KW by lia. cbn in KU, KW. subst u w.
      assert (PO : forall q : nat, (0 <= a + Z.of_nat q * step_of s)%Z) by (intros q; apply Z.add_nonneg_nonneg; [lia|apply Z.mul_nonneg_nonneg; lia]).
      rewrite <- I, <- J. rewrite !Z2Nat.id by apply PO. rewrite Nat2Z.inj_succ. ring.
  - apply Z.ltb_ge in SG. assert (SN : (step_of s < 0)%Z) by lia. clear SG.
    set (a := match sl_start s with Some x => _ | None => _ end) in E.
    set (b := match sl_stop s with Some x => _ | None => _ end) in E.
    assert (A : (-1 <= a <= Z.of_nat n - 1)%Z /\ (a = match sl_start s with Some x => Z.min (Z.of_nat n - 1) (resolve n x) | None => (Z.of_nat n - 1) end \/
       a = -1 /\ match sl_start s with Some x => Z.min (Z.of_nat n - 1) (resolve n x) | None => (Z.of_nat n - 1) end <= -1)%Z).
    { unfold a, resolve. destruct (sl_start s) as [x|]; [|lia].
      destruct (x <? 0)%Z eqn:X; [apply Z.ltb_lt in X; destruct (x + Z.of_nat n <? -1)%Z eqn:Y; [apply Z.ltb_lt in Y|apply Z.ltb_ge in Y]; lia|].
      apply Z.ltb_ge in X. destruct (Z.of_nat n - 1 <? x)%Z eqn:Y; [apply Z.ltb_lt in Y|apply Z.ltb_ge in Y]; lia. }
    assert (B : (-1 <= b <= Z.of_nat n - 1)%Z /\ forall i, i < n -> (b < Z.of_nat i <-> match sl_stop s with Some x => resolve n x < Z.of_nat i | None => True end)%Z).
    { unfold b, resolve. destruct (sl_stop s) as [x|]; [|split; [lia|intros; split; intros; auto; lia]].
      destruct (x <? 0)%Z eqn:X; [apply Z.ltb_lt in X; destruct (x + Z.of_nat n <? -1)%Z eqn:Y; [apply Z.ltb_lt in Y|apply Z.ltb_ge in Y]; split; [lia| |lia|]; intros; lia|].
      apply Z.ltb_ge in X. destruct (Z.of_nat n - 1 <? x)%Z eqn:Y; [apply Z.ltb_lt in Y|apply Z.ltb_ge in Y]; split; try lia; intros; lia. }
    clearbody a b. destruct A as (A1 & A2), B as (B1 & B2).
    set (len := if (b <? a)%Z then ((a - b - 1) / (- step_of s) + 1)%Z else 0%Z) in E.
    assert (LEN : forall k, (0 <= k)%Z -> (k < len <-> b < a + k * step_of s)%Z).
    { intros k K. unfold len. destruct (b <? a)%Z eqn:C; [apply Z.ltb_lt in C|apply Z.ltb_ge in C; nia].
      pose proof (Z.div_mod (a - b - 1) (- step_of s) ltac:(lia)). pose proof (Z.mod_pos_bound (a - b - 1) (- step_of s) ltac:(lia)). nia. }
    injection E as <-. split.
    + intros i. rewrite in_map_iff. split.
      * intros (k & <- & K). apply in_seq in K. assert (KL : (Z.of_nat k < len)%Z) by lia.
        apply LEN in KL; [|lia]. rewrite Z2Nat.id by nia. split; [apply Nat2Z.inj_lt; rewrite Z2Nat.id; nia|].
        destruct A2 as [A2|(A2 & _)]; [|nia]. rewrite <- A2. split; [nia|]. split.
        -- assert (Z.to_nat (a + Z.of_nat k * step_of s) < n) by (apply Nat2Z.inj_lt; rewrite Z2Nat.id; nia).
           specialize (B2 _ H). rewrite Z2Nat.id in B2 by nia. apply B2. exact KL.
        -- exists (Z.of_nat k). split; [lia|reflexivity].
      * intros (I & A3 & B3 & k & K & EI). destruct A2 as [A2|(A2 & A4)]; [|lia]. rewrite <- A2 in *.
        apply (B2 _ I) in B3. exists (Z.to_nat k). rewrite Z2Nat.id by lia. rewrite <- EI. split; [apply Nat2Z.id|].
        apply in_seq. rewrite EI in B3. apply LEN in B3; lia.
    + intros k i j I J. rewrite nth_error_map in I, J.
      destruct (nth_error (seq 0 (Z.to_nat len)) k) as [u|] eqn:KU; [|discriminate].
      destruct (nth_error (seq 0 (Z.to_nat len)) (S k)) as [w|] eqn:KW; [|discriminate]. cbn [option_map] in I, J. apply (f_equal (fun o => match o with Some z => z | None => 0 end)) in I, J. cbv beta iota in I, J.
      assert (LS : S k < length (seq 0 (Z.to_nat len))) by (apply nth_error_Some; congruence). rewrite seq_length in LS.
      apply nth_error_nth with (d := 0) in KU, KW. rewrite seq_nth in KU, KW by lia. cbn in KU, KW. subst u w.
      assert (KL : (b < a + Z.of_nat (S k) * step_of s)%Z) by (apply LEN; lia).
      assert (KM : (b < a + Z.of_nat k * step_of s)%Z) by (apply LEN; lia).
      rewrite <- I, <- J. rewrite !Z2Nat.id by lia. rewrite Nat2Z.inj_succ. ring.
Qed.
Theorem slice_error : forall n s,
  (step_of s = 0%Z -> slice_indices n s = Err EValueError) /\ (step_of s <> 0%Z -> exists l, slice_indices n s = Ok l).
Proof.
  intros n s. unfold slice_indices. fold (step_of s). split.
  - intros ->. reflexivity.
  - intros H. rewrite (proj2 (Z.eqb_neq _ _) H). destruct (0 <? step_of s)%Z; eexists; reflexivity.
Qed.
Lemma nth_error_pick : forall A (d : A) l is i v, (forall j, In j is -> j < length l) ->
  nth_error (pick d l is) i = Some v <-> exists j, nth_error is i = Some j /\ nth_error l j = Some v.
Proof.
  intros A d l is i v H. unfold pick. rewrite nth_error_map. destruct (nth_error is i) as [j|] eqn:E; cbn.
  - assert (J : j < length l) by (apply H; eapply nth_error_In; exact E).
    split; [intros X; injection X as <-; exists j; split; [reflexivity|apply nth_error_nth'; exact J]|].
    intros (j' & X & Y). injection X as <-. rewrite (nth_error_nth' l d J) in Y. congruence.
  - split; [discriminate|intros (j & X & _); discriminate].
Qed.
(** The samples of a slice are those designated, with their coordinates. *)
Theorem getitem_spec : forall A U (d : U) (a : sdata A U) s0 s1 s2, valid a ->
  step_of s0 <> 0%Z -> step_of s1 <> 0%Z -> step_of s2 <> 0%Z ->
  exists r i0 i1 i2, s_getitem d a (Some (s0, s1, s2)) = Ok r /\ valid r /\
    slice_indices (length (s_time a)) s0 = Ok i0 /\ slice_indices (length (s_freq a)) s1 = Ok i1 /\
    slice_indices (length (s_polar a)) s2 = Ok i2 /\
    length (s_time r) = length i0 /\ length (s_freq r) = length i1 /\ length (s_polar r) = length i2 /\
    forall i j k u v w, nth_error i0 i = Some u -> nth_error i1 j = Some v -> nth_error i2 k = Some w ->
      forall t f p x, sample r i j k t f p x <-> sample a u v w t f p x.
Proof.
  intros A U d a s0 s1 s2 VA H0 H1 H2. unfold valid in VA.
  destruct (proj2 (slice_error (length (s_time a)) s0) H0) as (i0 & E0).
  destruct (proj2 (slice_error (length (s_freq a)) s1) H1) as (i1 & E1).
  destruct (proj2 (slice_error (length (s_polar a)) s2) H2) as (i2 & E2).
  unfold s_getitem. rewrite VA. cbn [nth]. rewrite E0. cbn [bind]. rewrite E1. cbn [bind]. rewrite E2. cbn [bind].
  rewrite (proj2 (new_spec _ _ (pick 0%Q (s_time a) i0) (pick 0%Q (s_freq a) i1) (pick d (s_polar a) i2) _ _))
    by (split; [reflexivity|unfold pick; now rewrite !map_length]).
  do 4 eexists. split; [reflexivity|]. split; [unfold valid; cbn; unfold pick; now rewrite !map_length|].
  split; [reflexivity|]. split; [reflexivity|]. split; [reflexivity|].
  split; [cbn; unfold pick; apply map_length|]. split; [cbn; unfold pick; apply map_length|]. split; [cbn; unfold pick; apply map_length|].
  intros i j k u v w U1 V1 W1 t f p x.
  assert (L0 : forall j, In j i0 -> j < length (s_time a)) by (intros z Z1; apply (proj1 (proj2 (slice_spec _ _ _ E0))) in Z1; apply Z1).
  assert (L1 : forall j, In j i1 -> j < length (s_freq a)) by (intros z Z1; apply (proj1 (proj2 (slice_spec _ _ _ E1))) in Z1; apply Z1).
  assert (L2 : forall j, In j i2 -> j < length (s_polar a)) by (intros z Z1; apply (proj1 (proj2 (slice_spec _ _ _ E2))) in Z1; apply Z1).
  unfold sample. cbn [s_time s_freq s_polar s_data get].
  rewrite (nth_error_pick _ _ _ _ _ _ L0), (nth_error_pick _ _ _ _ _ _ L1), (nth_error_pick _ _ _ _ _ _ L2).
  rewrite (nth_error_nth _ _ 0 U1), (nth_error_nth _ _ 0 V1), (nth_error_nth _ _ 0 W1).
  split.
  - intros ((u' & X & X') & (v' & Y & Y') & (w' & Z1 & Z') & G). assert (u' = u) by congruence. assert (v' = v) by congruence. assert (w' = w) by congruence.
    subst. auto.
  - intros (X & Y & Z1 & G). split; [eauto|]. split; [eauto|]. split; [eauto|]. exact G.
Qed.
Theorem getitem_refused : forall A U (d : U) (a : sdata A U),
  s_getitem d a None = Err EIndexError /\
  (forall s0 s1 s2, step_of s0 = 0%Z \/ step_of s1 = 0%Z \/ step_of s2 = 0%Z -> s_getitem d a (Some (s0, s1, s2)) = Err EValueError).
Proof.
  intros A U d a. split; [reflexivity|]. intros s0 s1 s2 H. unfold s_getitem.
  assert (E : forall n s, (exists l, slice_indices n s = Ok l) \/ slice_indices n s = Err EValueError).
  { intros n s. destruct (Z.eq_dec (step_of s) 0); [right|left]; now apply slice_error. }
  destruct (E (nth 0 (sh (s_data a)) 0) s0) as [(l0 & E0)|E0]; rewrite E0; [|reflexivity]. cbn [bind].
  destruct (E (nth 1 (sh (s_data a)) 0) s1) as [(l1 & E1)|E1]; rewrite E1; [|reflexivity]. cbn [bind].
  destruct (E (nth 2 (sh (s_data a)) 0) s2) as [(l2 & E2)|E2]; rewrite E2; [|reflexivity].
  exfalso. destruct H as [H|[H|H]]; [rewrite (proj1 (slice_error _ _) H) in E0|rewrite (proj1 (slice_error _ _) H) in E1|rewrite (proj1 (slice_error _ _) H) in E2]; discriminate.
Qed.
