(** C55 and C56: arrays of antennas. *)
From Coq Require Import ZArith QArith Bool String List Arith Lia Sorting.Sorted Sorting.Permutation.
From Verif Require Import Base M_Instru P_Instru P_Instru2 P_Instru3.
Import ListNotations.
Open Scope nat_scope.
Open Scope list_scope.

Definition demo (names : list string) : interf string nat nat :=
  mkInterf 0 names names (map (fun _ => 1) names) (map (fun _ => 0%Q) names) (map (fun _ => Some (1 # 2)%Q) names).

(** * C55: sums and differences *)
Section Algebra.
Context {P G L : Type}.
Implicit Types a b c : interf P G L.
Theorem C55_new : forall (pl : L) n p g d w, length n = length p -> length g = length p ->
  match w with Some w => ~ In None w | None => True end ->
  (exists a, new_interf pl n p g d w = Ok a /\ wf a /\ i_names a = n /\ i_positions a = p /\ i_gains a = g /\ i_place a = pl /\
     (forall d', d = Some d' -> i_delays a = d') /\ (d = None -> i_delays a = repeat 0%Q (length p)) /\
     (forall w', w = Some w' -> i_weights a = w') /\ (w = None -> i_weights a = repeat (Some 1%Q) (length p))) \/
  (new_interf pl n p g d w = Err EValueError /\
    ((exists d', d = Some d' /\ length d' <> length p) \/
     (exists w', w = Some w' /\ (length w' <> length p \/ w' = [] \/ ~ Forall weight_ok w')))).
Proof. exact new_wf. Qed.
Theorem C55_add : forall a b, wf a -> wf b -> 0 < i_size a \/ 0 < i_size b ->
  exists c, i_add a b = Ok c /\ wf c /\ rows c = rows a ++ filter (outside (i_names a)) (rows b) /\ i_place c = i_place a.
Proof. exact add_spec. Qed.
Theorem C55_add_nothing : forall a b, wf a -> wf b -> i_size a = 0 -> i_size b = 0 -> i_add a b = Err EValueError.
Proof. exact add_empty. Qed.
Theorem C55_union : forall a b c, wf a -> wf b -> i_add a b = Ok c ->
  (forall x, In x (i_names c) <-> In x (i_names a) \/ In x (i_names b)) /\ (unique a -> unique b -> unique c).
Proof. exact add_union. Qed.
Theorem C55_sub : forall a b, wf a ->
  (exists r, In r (rows a) /\ ~ In (rname r) (i_names b)) ->
  exists c, i_sub a b = Ok c /\ wf c /\ rows c = filter (outside (i_names b)) (rows a) /\ i_place c = i_place a.
Proof. exact sub_spec. Qed.
Theorem C55_sub_nothing : forall a b, wf a -> incl (i_names a) (i_names b) -> i_sub a b = Err EValueError.
Proof. exact sub_empty. Qed.
Theorem C55_difference : forall a b c, wf a -> i_sub a b = Ok c ->
  (forall x, In x (i_names c) <-> In x (i_names a) /\ ~ In x (i_names b)) /\ (unique a -> unique c).
Proof. exact sub_difference. Qed.
Theorem C55_disjoint : forall a b c, wf a -> i_sub a b = Ok c -> forall x, In x (i_names c) -> ~ In x (i_names b).
Proof. exact sub_disjoint. Qed.
Theorem C55_add_self : forall a, wf a -> 0 < i_size a -> i_add a a = Ok a.
Proof. exact add_self. Qed.
Theorem C55_associative : forall a b c x y, wf a -> wf b -> wf c -> i_add a b = Ok x -> i_add b c = Ok y -> i_add x c = i_add a y.
Proof. exact add_assoc. Qed.
Theorem C55_add_then_sub : forall a b c, wf a -> wf b -> i_add a b = Ok c -> i_sub c b = i_sub a b.
Proof. exact add_then_sub. Qed.
Theorem C55_sub_twice : forall a b c x y, wf a -> wf b -> wf c -> i_sub a b = Ok x -> i_add b c = Ok y -> i_sub x c = i_sub a y.
Proof. exact sub_twice. Qed.
Theorem C55_commutative : forall a b c d, wf a -> wf b -> unique a -> unique b -> agree a b ->
  i_add a b = Ok c -> i_add b a = Ok d -> Permutation (rows c) (rows d).
Proof. exact add_comm_rows. Qed.
Theorem C55_sub_then_add : forall a b c d e, wf a -> wf b -> i_sub a b = Ok c -> i_add c b = Ok d -> i_add a b = Ok e ->
  (forall x, In x (i_names d) <-> In x (i_names e)) /\
  (unique a -> unique b -> agree a b -> Permutation (rows d) (rows e)).
Proof. exact sub_then_add. Qed.
Theorem C55_sub_self_refuted : forall a, wf a -> i_sub a a = Err EValueError.
Proof. exact sub_self_refuted. Qed.
Theorem C55_expressions : forall (x : expr (interf P G L)) c,
  (forall a, In a (leaves x) -> wf a /\ unique a) -> eval x = Ok c ->
  wf c /\ unique c /\ (forall r, In r (rows c) -> exists a, In a (leaves x) /\ In r (rows a)) /\
  (exists a, In a (leaves x) /\ i_place c = i_place a).
Proof. exact expressions. Qed.
Theorem C55_never_empty : forall (x : expr (interf P G L)) c,
  (forall a, In a (leaves x) -> wf a /\ unique a) -> eval x = Ok c -> 0 < i_size c \/ (exists a, x = ELeaf a).
Proof. exact expressions_nonempty. Qed.
End Algebra.
Print Assumptions C55_new.
Print Assumptions C55_add.
Print Assumptions C55_add_nothing.
Print Assumptions C55_union.
Print Assumptions C55_sub.
Print Assumptions C55_sub_nothing.
Print Assumptions C55_difference.
Print Assumptions C55_disjoint.
Print Assumptions C55_add_self.
Print Assumptions C55_associative.
Print Assumptions C55_add_then_sub.
Print Assumptions C55_sub_twice.
Print Assumptions C55_commutative.
Print Assumptions C55_sub_then_add.
Print Assumptions C55_sub_self_refuted.
Print Assumptions C55_expressions.
Print Assumptions C55_never_empty.
Theorem C55_new_names_refuted : exists a : interf nat nat nat,
  new_interf 0 ["A"; "B"]%string [10; 11; 12] [20; 21; 22] None None = Ok a /\ ~ wf a /\
  i_getitem a (SNames ["A"]%string) = Err EIndexError.
Proof. exact new_names_refuted. Qed.
Print Assumptions C55_new_names_refuted.
Theorem C55_nan_weight_refuted : exists a : interf nat nat nat,
  new_interf 0 ["A"; "B"]%string [10; 11] [20; 21] None (Some [None; Some (5 # 1)%Q]) = Ok a /\
  i_getitem a (SNames ["B"]%string) = Err EValueError.
Proof. exact nan_weight_refuted. Qed.
Print Assumptions C55_nan_weight_refuted.
Theorem C55_commutative_refuted : exists a b c d : interf nat nat nat, wf a /\ wf b /\ unique a /\ unique b /\
  i_add a b = Ok c /\ i_add b a = Ok d /\ ~ Permutation (rows c) (rows d).
Proof. exact add_order_refuted. Qed.
Print Assumptions C55_commutative_refuted.

Example C55_ex : let a := demo ["A"; "B"; "C"]%string in let b := demo ["C"; "D"]%string in
  wf a /\ wf b /\ unique a /\ unique b /\ agree a b /\
  i_add a b = Ok (demo ["A"; "B"; "C"; "D"]%string) /\ i_sub a b = Ok (demo ["A"; "B"]%string) /\
  i_sub (demo ["A"; "B"; "C"; "D"]%string) b = i_sub a b /\
  eval (EGet (EAdd (ELeaf a) (ESub (ELeaf b) (ELeaf a))) (SNames ["D"; "A"]%string)) = Ok (demo ["A"; "D"]%string).
Proof.
  cbv zeta. split; [repeat split; repeat constructor; discriminate|]. split; [repeat split; repeat constructor; discriminate|].
  split; [repeat constructor; cbn; intuition discriminate|]. split; [repeat constructor; cbn; intuition discriminate|]. split.
  - intros r s Hr Hs E. repeat (destruct Hr as [<-|Hr]); try destruct Hr; repeat (destruct Hs as [<-|Hs]); try destruct Hs; cbn in E; congruence.
  - repeat split; vm_compute; reflexivity.
Qed.

(** * C56: selections *)
Section Selection.
Context {P G L : Type}.
Implicit Types a b c : interf P G L.
Theorem C56_names : forall a l, wf a -> NoDup l -> l <> [] -> incl l (i_names a) ->
  exists c, i_getitem a (SNames l) = Ok c /\ wf c /\ i_place c = i_place a /\
    picked (fun r => In (rname r) l) (rows a) (rows c) /\ picked (fun x => In x l) (i_names a) (i_names c).
Proof. exact by_names. Qed.
Theorem C56_names_duplicate : forall a l, ~ NoDup l -> i_getitem a (SNames l) = Err EDuplicateAntenna.
Proof. exact by_names_duplicate. Qed.
Theorem C56_names_unknown : forall a l x, NoDup l -> In x l -> ~ In x (i_names a) -> i_getitem a (SNames l) = Err EAntennaName.
Proof. exact by_names_unknown. Qed.
Theorem C56_names_nothing : forall a, wf a -> i_getitem a (SNames []) = Err EValueError.
Proof. exact by_names_nothing. Qed.
Theorem C56_positions : forall a l k, wf a -> distinct l -> (forall x, In x l -> (x < inject_Z (Z.of_nat (i_size a)))%Q) ->
  k < i_size a -> asked l k ->
  exists c, i_getitem a (SNums l) = Ok c /\ wf c /\ i_place c = i_place a /\ picked_at (asked l) (rows a) (rows c).
Proof. exact by_positions. Qed.
Theorem C56_positions_duplicate : forall a l, ~ distinct l -> i_getitem a (SNums l) = Err EDuplicateAntenna.
Proof. exact by_positions_duplicate. Qed.
Theorem C56_positions_beyond : forall a l x, distinct l -> In x l -> (inject_Z (Z.of_nat (i_size a)) <= x)%Q ->
  i_getitem a (SNums l) = Err EAntennaIndex.
Proof. exact by_positions_beyond. Qed.
Theorem C56_positions_nowhere : forall a l, wf a -> distinct l -> (forall x, In x l -> (x < inject_Z (Z.of_nat (i_size a)))%Q) ->
  (forall k, k < i_size a -> ~ asked l k) -> i_getitem a (SNums l) = Err EValueError.
Proof. exact by_positions_nowhere. Qed.
Theorem C56_negative_refuted : forall a, wf a -> i_getitem a (SNums [(-1)%Q]) = Err EValueError.
Proof. exact negative_refuted. Qed.
Theorem C56_order_names : forall a l l', wf a -> Permutation l l' -> i_getitem a (SNames l) = i_getitem a (SNames l').
Proof. exact request_order_names. Qed.
Theorem C56_order_positions : forall a l l', wf a -> Permutation l l' -> i_getitem a (SNums l) = i_getitem a (SNums l').
Proof. exact request_order_positions. Qed.
Theorem C56_partition : forall a s x y, wf a -> unique a -> i_getitem a s = Ok x -> i_sub a x = Ok y ->
  Permutation (rows x ++ rows y) (rows a).
Proof. exact partition. Qed.
Theorem C56_slice : forall a start e step, wf a ->
  let s := bound start 0 in let st := bound step 1 in
  (0 < st)%Z -> (0 <= s < e)%Z -> (e <= Z.of_nat (i_size a))%Z ->
  exists c, i_getitem a (SSlice start (Some e) step) = Ok c /\ wf c /\ i_place c = i_place a /\
    picked_at (fun k => (s <= Z.of_nat k < e)%Z /\ exists j, (0 <= j)%Z /\ (Z.of_nat k = s + j * st)%Z) (rows a) (rows c).
Proof. exact by_slice. Qed.
Theorem C56_interval : forall a start (e : nat), wf a -> match start with Some s => s | None => 0 end < e -> e <= i_size a ->
  exists c, i_getitem a (SSlice (option_map Z.of_nat start) (Some (Z.of_nat e)) None) = Ok c /\ wf c /\ i_place c = i_place a /\
    let s := match start with Some s => s | None => 0 end in rows c = firstn (e - s) (skipn s (rows a)).
Proof. exact by_interval. Qed.
Theorem C56_slice_beyond : forall a start e, let s := bound start 0 in (s < e)%Z -> (Z.of_nat (i_size a) < e)%Z ->
  i_getitem a (SSlice start (Some e) None) = Err EAntennaIndex.
Proof. exact slice_beyond. Qed.
Theorem C56_slice_tail_refuted : forall a k, wf a -> 0 < k -> k <= i_size a ->
  exists c, i_getitem a (SSlice (Some (Z.of_nat k)) None None) = Ok c /\ rows c = firstn k (rows a).
Proof. exact slice_tail_refuted. Qed.
Theorem C56_slice_all_refuted : forall a step, bound step 1 <> 0%Z -> i_getitem a (SSlice None None step) = Err EValueError.
Proof. exact slice_all_refuted. Qed.
Theorem C56_slice_but_last_refuted : forall a k, (0 <= k)%Z -> i_getitem a (SSlice None (Some (- k)%Z) None) = Err EValueError.
Proof. exact slice_but_last_refuted. Qed.
Theorem C56_mask_refuted : forall a l, 2 < length l -> i_getitem a (SBools l) = Err EDuplicateAntenna.
Proof. exact mask_refuted. Qed.
Theorem C56_mask_two_refuted : forall a, wf a -> 2 <= i_size a ->
  exists c, i_getitem a (SBools [true; false]) = Ok c /\ rows c = firstn 2 (rows a).
Proof. exact mask_two_refuted. Qed.
End Selection.
Print Assumptions C56_names.
Print Assumptions C56_names_duplicate.
Print Assumptions C56_names_unknown.
Print Assumptions C56_names_nothing.
Print Assumptions C56_positions.
Print Assumptions C56_positions_duplicate.
Print Assumptions C56_positions_beyond.
Print Assumptions C56_positions_nowhere.
Print Assumptions C56_negative_refuted.
Print Assumptions C56_order_names.
Print Assumptions C56_order_positions.
Print Assumptions C56_partition.
Print Assumptions C56_slice.
Print Assumptions C56_interval.
Print Assumptions C56_slice_beyond.
Print Assumptions C56_slice_tail_refuted.
Print Assumptions C56_slice_all_refuted.
Print Assumptions C56_slice_but_last_refuted.
Print Assumptions C56_mask_refuted.
Print Assumptions C56_mask_two_refuted.
Theorem C56_names_positions : forall P G L (a : interf P G L) ks, wf a -> unique a -> NoDup ks -> ks <> [] -> (forall k, In k ks -> k < i_size a) ->
  i_getitem a (SNums (map (fun k => inject_Z (Z.of_nat k)) ks)) = i_getitem a (SNames (map (fun k => nth k (i_names a) ""%string) ks)).
Proof. exact names_positions. Qed.
Print Assumptions C56_names_positions.

Example C56_ex : let a := demo ["A"; "B"; "C"; "D"; "E"]%string in wf a /\ unique a /\
  i_getitem a (SNames ["D"; "A"]%string) = Ok (demo ["A"; "D"]%string) /\
  i_getitem a (SNums [3%Q; 0%Q]) = Ok (demo ["A"; "D"]%string) /\
  i_getitem a (SSlice (Some 1%Z) (Some 5%Z) (Some 2%Z)) = Ok (demo ["B"; "D"]%string) /\
  i_getitem a (SSlice (Some 2%Z) None None) = Ok (demo ["A"; "B"]%string) /\
  i_getitem a (SNums [(-1)%Q; 2%Q]) = Ok (demo ["C"]%string) /\
  i_getitem a (SSlice (Some 3%Z) (Some 6%Z) None) = Err EAntennaIndex.
Proof.
  cbv zeta. split; [repeat split; repeat constructor; discriminate|].
  split; [repeat constructor; cbn; intuition discriminate|]. repeat split; vm_compute; reflexivity.
Qed.
