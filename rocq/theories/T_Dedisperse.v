(** C40: de-dispersion. *)
From Coq Require Import List Arith ZArith QArith Reals Lia.
From Verif Require Import Base M_Nd P_Nd M_Polar P_Polar P_Polar2 M_Dedisperse P_Dedisperse P_Dedisperse2.
Import ListNotations.
Open Scope nat_scope.

Theorem C40_shift : forall A B (real : A -> B) (nan : B) data T fs pol step dm fmax,
  sh data = T :: length fs :: pol -> (0 <= dm)%Q -> (0 < step)%Q -> (forall f, In f fs -> (0 < f)%Q) ->
  highest fs fmax ->
  exists r, de_disperse real nan data fs step dm = Ok r /\ sh r = sh data /\
    forall t c f d p, t < T -> nth_error fs c = Some f -> inside pol p ->
      nearest (relative_delay dm f fmax / step) (Z.of_nat d) ->
      get r (t :: c :: p) = if t + d <? T then real (get data (t + d :: c :: p)) else nan.
Proof. exact de_disperse_spec. Qed.
Print Assumptions C40_shift.
Theorem C40_delay : forall dm f m step, (0 <= dm)%Q -> (0 < step)%Q -> (0 < f)%Q -> (f <= m)%Q ->
  exists d, nearest (relative_delay dm f m / step) (Z.of_nat d).
Proof. exact delay_exists. Qed.
Print Assumptions C40_delay.
Theorem C40_top_unchanged : forall A B (real : A -> B) (nan : B) data T fs pol step dm c fmax r,
  sh data = T :: length fs :: pol -> (0 <= dm)%Q -> (0 < step)%Q -> (forall f, In f fs -> (0 < f)%Q) ->
  highest fs fmax -> nth_error fs c = Some fmax -> de_disperse real nan data fs step dm = Ok r ->
  forall t p, t < T -> inside pol p -> get r (t :: c :: p) = real (get data (t :: c :: p)).
Proof. exact top_unchanged. Qed.
Print Assumptions C40_top_unchanged.
Theorem C40_no_delay : forall A B (real : A -> B) (nan : B) data T fs pol step r,
  sh data = T :: length fs :: pol -> (0 < step)%Q -> (forall f, In f fs -> (0 < f)%Q) -> fs <> [] ->
  de_disperse real nan data fs step 0 = Ok r ->
  forall t c p, t < T -> c < length fs -> inside pol p -> get r (t :: c :: p) = real (get data (t :: c :: p)).
Proof. exact no_delay. Qed.
Print Assumptions C40_no_delay.
Theorem C40_aligns : forall A B (real : A -> B) (nan : B) data T fs pol step dm fmax r
    (signal : nat -> nat -> list nat -> A) (delay : nat -> nat),
  sh data = T :: length fs :: pol -> (0 <= dm)%Q -> (0 < step)%Q -> (forall f, In f fs -> (0 < f)%Q) ->
  highest fs fmax ->
  (forall c f, nth_error fs c = Some f -> nearest (relative_delay dm f fmax / step) (Z.of_nat (delay c))) ->
  (forall t c p, t + delay c < T -> c < length fs -> inside pol p ->
     get data (t + delay c :: c :: p) = signal t c p) ->
  de_disperse real nan data fs step dm = Ok r ->
  forall t c p, t < T -> c < length fs -> inside pol p ->
    (t + delay c < T -> get r (t :: c :: p) = real (signal t c p)) /\
    (T <= t + delay c -> get r (t :: c :: p) = nan).
Proof. exact de_disperse_aligns. Qed.
Print Assumptions C40_aligns.
Theorem C40_refused : forall A B (real : A -> B) (nan : B) data fs step dm,
  (length (sh data) < 2 -> de_disperse real nan data fs step dm = Err EException) /\
  (2 <= length (sh data) -> nth 1 (sh data) 0 <> length fs ->
     de_disperse real nan data fs step dm = Err EValueError) /\
  (2 <= length (sh data) -> fs = [] -> de_disperse real nan data fs step dm = Err EValueError).
Proof. exact de_disperse_refused. Qed.
Print Assumptions C40_refused.
Theorem C40_negative_leak_refuted : exists r, de_disperse Some None demo_tf [10; 14; 20]%Q 15 (-1) = Ok r /\
  (forall t c, t < 4 -> c < 3 -> get demo_tf [t; c] = 10 * c + t) /\
  (* the middle channel starts with the end of the lower one *)
  map (fun t => get r [t; 1]) [0; 1; 2; 3] = [Some 2; Some 10; Some 11; Some 12].
Proof. exact negative_leak. Qed.
Print Assumptions C40_negative_leak_refuted.
Theorem C40_negative_error_refuted : de_disperse Some (@None nat) demo_tf [20; 14; 10]%Q 15 (-1) = Err EIndexError.
Proof. exact negative_refused. Qed.
Print Assumptions C40_negative_error_refuted.
Theorem C40_circular_lost_refuted : forall data fs step dm r, de_disperse to_float None data fs step dm = Ok r ->
  forall t c z, get r [t; c; 0; 1] = Some z -> (-2 * im z = 0)%R.
Proof. exact circular_lost. Qed.
Print Assumptions C40_circular_lost_refuted.
Example C40_circular_ex : sV (mat_at circular_data [0; 0]) = 2%R /\
  exists r, de_disperse to_float None circular_data [50%Q] 1 0 = Ok r /\
    get r [0; 0; 0; 1] = Some (0%R, 0%R).
Proof. exact circular_lost_case. Qed.
Example C40_ex : highest [10; 14; 20]%Q 20%Q /\ nearest (relative_delay 1 14 20 / 15) (Z.of_nat 1) /\
  match de_disperse Some None demo_tf [10; 14; 20]%Q 15 1 with
  | Ok r => map (fun t => get r [t; 0]) [0; 1; 2; 3] = [Some 2; Some 3; None; None] /\
            map (fun t => get r [t; 1]) [0; 1; 2; 3] = [Some 11; Some 12; Some 13; None] /\
            map (fun t => get r [t; 2]) [0; 1; 2; 3] = [Some 20; Some 21; Some 22; Some 23]
  | Err _ => False
  end.
Proof.
  split; [split; [simpl; tauto|intros f H; simpl in H; decompose [or] H; try contradiction; subst f; vm_compute; discriminate]|].
  split; [left; vm_compute; reflexivity|]. vm_compute. repeat split; reflexivity.
Qed.
