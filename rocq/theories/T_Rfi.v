(** Properties of the mitigation of interferences (C169, C170). *)
From Coq Require Import QArith Qabs ZArith Bool List Lia Lqa.
From Verif Require Import Base M_Rebin P_Rebin M_Rfi P_Rfi P_Rfi2.
Import ListNotations.
Open Scope nat_scope.
Open Scope list_scope.

(** ** C169: samples removed *)
Theorem C169_kept : forall fit std a axis sigma degree b, mitigate fit std a axis sigma degree = Ok b ->
  a_dim b = a_dim a /\ a_times b = a_times a /\ a_freqs b = a_freqs a /\ a_pols b = a_pols a /\ forall t f p, a_value b t f p = None \/ a_value b t f p = a_value a t f p.
Proof. exact kept. Qed.
Print Assumptions C169_kept.
Theorem C169_refused : forall fit std a axis sigma degree e, mitigate fit std a axis sigma degree = Err e ->
  (e = EException <-> a_dim a < 2) /\ (e = EIndexError <-> 2 <= a_dim a /\ axis <> 0%Z /\ axis <> 1%Z) /\
  (e = EException \/ e = EIndexError \/ e = EValueError /\ ((degree < 0)%Z \/ a_pols a = 0 \/ along_size a axis = 0) \/ e = ETypeError /\ (0 <= degree)%Z).
Proof. exact refused. Qed.
Print Assumptions C169_refused.
Theorem C169_first : forall fit std a axis sigma degree, (a_dim a < 2 -> mitigate fit std a axis sigma degree = Err EException) /\
  (2 <= a_dim a -> axis <> 0%Z -> axis <> 1%Z -> mitigate fit std a axis sigma degree = Err EIndexError).
Proof. exact refused_first. Qed.
Print Assumptions C169_first.
Theorem C169_accepts : forall fit std a axis sigma degree, 2 <= a_dim a -> (axis = 0 \/ axis = 1)%Z -> (0 <= degree)%Z -> a_times a <> 0 -> a_freqs a <> 0 -> a_pols a <> 0 ->
  (forall t f p, t < a_times a -> f < a_freqs a -> p < a_pols a -> exists v, a_value a t f p = Some v /\ ~ (v == 0)%Q) -> exists b, mitigate fit std a axis sigma degree = Ok b.
Proof. exact complete. Qed.
Print Assumptions C169_accepts.
Theorem C169_threshold : forall fit std a axis s s' degree b b' t f p, (forall l, (0 <= std l)%Q) -> (s <= s')%Q ->
  mitigate fit std a axis s degree = Ok b -> mitigate fit std a axis s' degree = Ok b' -> a_value b' t f p = None -> a_value b t f p = None.
Proof. exact sigma_monotone. Qed.
Print Assumptions C169_threshold.
Theorem C169_order : forall fit std a axis sigma degree b o o' x p v v' m m', mitigate fit std a axis sigma degree = Ok b ->
  line a axis o x p = Some v -> line a axis o' x p = Some v' -> level_of a axis o p m -> level_of a axis o' p m' -> (0 < m)%Q -> (0 < m')%Q ->
  (Qabs v / m <= Qabs v' / m')%Q -> line b axis o x p = None -> line b axis o' x p = None.
Proof. exact ordered. Qed.
Print Assumptions C169_order.
Theorem C169_null_refuted : forall fit std a axis sigma degree b o x p v, mitigate fit std a axis sigma degree = Ok b -> line a axis o x p = Some v -> level_of a axis o p 0 ->
  (line b axis o x p = None <-> ~ (v == 0)%Q).
Proof. exact null_level. Qed.
Print Assumptions C169_null_refuted.
Open Scope Q_scope.
(** The background is the value of the first point, the deviation the difference of the extremes. *)
Definition demo_fit (_ : Z) (l : list (nat * Q)) (_ : nat) : Q := match l with (_, v) :: _ => v | [] => 0 end.
Definition demo_std (l : list Q) : Q := match l with a :: _ => Qabs (a - last l a) | [] => 0 end.
Definition demo : array := mkArray 2 2 3 1 (fun t f _ => Some (nth f (nth t [[1; 1; 8]; [2; 30; 2]] []) 0)).
Definition zeros : array := mkArray 2 2 3 1 (fun t f _ => Some (nth f (nth t [[0; 1; 0]; [2; 2; 2]] []) 0)).
Definition table (a : array) : list (list (option Q)) := map (fun t => map (fun f => option_map Qred (a_value a t f 0)) (seq 0 (a_freqs a))) (seq 0 (a_times a)).
Definition shown (r : res array) : res (list (list (option Q))) := match r with Ok a => Ok (table a) | Err e => Err e end.
Example C169_ex : shown (mitigate demo_fit demo_std demo 0 2 4) = Ok [[Some 1; Some 1; None]; [Some 2; None; Some 2]] /\
  shown (mitigate demo_fit demo_std demo 0 10 (-1)) = Err EValueError /\ shown (mitigate demo_fit demo_std demo 2 10 4) = Err EIndexError /\
  shown (mitigate demo_fit demo_std zeros 0 2 4) = Ok [[Some 0; None; Some 0]; [Some 2; Some 2; Some 2]] /\ (forall l, (0 <= demo_std l)%Q).
Proof. split; [reflexivity|]. split; [reflexivity|]. split; [reflexivity|]. split; [reflexivity|]. intros [|a l]; cbn [demo_std]; [discriminate|apply Qabs_nonneg]. Qed.
Example C169_levels : level_of demo 0 0 0 1 /\ level_of demo 0 1 0 2 /\ level_of zeros 0 0 0 0 /\ (Qabs 8 / 1 <= Qabs 30 / 2)%Q /\ line demo 0 0 2 0 = Some 8.
Proof.
  split; [exists 1%Q, 1%Q|split; [exists 2%Q, 2%Q|split; [exists 0%Q, 0%Q|]]].
  - repeat split; cbn; try lia; auto 6.
  - repeat split; cbn; try lia; auto 6.
  - repeat split; cbn; try lia; auto 6.
  - split; [discriminate|reflexivity].
Qed.

(** ** C170: gains *)
Theorem C170_gain : forall fit std a axis k sigma degree, fit_scales fit -> std_scales std -> (forall o p, ~ (k o p == 0)%Q) ->
  match mitigate fit std a axis sigma degree, mitigate fit std (amplified a axis k) axis sigma degree with
  | Ok b, Ok c => forall t f p, (a_value b t f p = None <-> a_value c t f p = None)
  | Err e, Err e' => e = e'
  | _, _ => False
  end.
Proof. exact gain_free. Qed.
Print Assumptions C170_gain.
Example C170_ex : fit_scales demo_fit /\ std_scales demo_std /\
  shown (mitigate demo_fit demo_std (amplified demo 0 (fun t _ => if (t =? 0)%nat then 100 else -(1 # 7))) 0 2 4) = Ok [[Some 100; Some 100; None]; [Some (-2 # 7); None; Some (-2 # 7)]].
Proof.
  split; [|split; [|reflexivity]].
  - intros degree l l' r x R F. destruct F as [|[a u] [b v] l l' [_ E] F]; cbn; [ring|exact E].
  - intros l l' r R F. destruct F as [|a b l l' E F]; cbn [demo_std]; [ring|].
    assert (G : forall c c', (c' == r * c)%Q -> (last (b :: l') c' == r * last (a :: l) c)%Q).
    { clear -E F. revert a b E. induction F as [|x y l l' X F IH]; intros a b E c c' C; [exact E|]. change (last (b :: y :: l') c') with (last (y :: l') c'). change (last (a :: x :: l) c) with (last (x :: l) c). apply IH; assumption. }
    rewrite (G a b E), E. setoid_replace (r * a - r * last (a :: l) a)%Q with (r * (a - last (a :: l) a))%Q by ring. rewrite Qabs_Qmult. rewrite (Qabs_pos r) by lra. reflexivity.
Qed.
