(** Properties of the correction of polarization by given Jones matrices (C258). *)
From Coq Require Import List Arith ZArith QArith Qabs Bool Lia Lqa.
From Verif Require Import Base M_Jonescal P_Jonescal.
Import ListNotations.
Open Scope nat_scope.

(** ** C258: correction of polarization by given Jones matrices *)
Theorem C258_nearest : forall A (mul : A -> A -> A) jt jf jones n times freqs d r, sorted times -> sorted freqs -> correct2 mul (Some jt) (Some jf) (Some jones) n times freqs d = Ok r ->
  sorted jt /\ sorted jf /\ 0 < n /\ forall t f a b, t < length times -> f < length freqs ->
  let x := at_ times t in let y := at_ freqs (f / n * n) in
  (reached times jt x /\ reached (subband_first n freqs) jf y -> exists i j, nearest jt x i /\ nearest jf y j /\ r t f a b = mul (d t f a b) (jones i j a b)) /\
  (~ (reached times jt x /\ reached (subband_first n freqs) jf y) -> r t f a b = d t f a b).
Proof. exact @corrected. Qed.
Print Assumptions C258_nearest.
Theorem C258_error : forall A (mul : A -> A -> A) jt jf jones n times freqs d e, correct2 mul (Some jt) (Some jf) (Some jones) n times freqs d = Err e <->
  (e = EValueError /\ (~ sorted jt \/ ~ sorted jf)) \/
  (sorted jt /\ sorted jf /\ ((e = EZeroDivisionError /\ n = 0) \/ (e = EValueError /\ 0 < n /\ length freqs mod n <> 0) \/
    (e = EIndexError /\ 0 < n /\ length freqs mod n = 0 /\ (times = [] \/ jt = [] \/ freqs = [] \/ jf = [])))).
Proof. exact @correct2_error. Qed.
Print Assumptions C258_error.
Theorem C258_none : forall A (mul : A -> A -> A) jt jf jones n times freqs d, jt = None \/ jf = None \/ jones = None -> correct2 mul jt jf jones n times freqs d = Ok d.
Proof. exact correct2_none. Qed.
Print Assumptions C258_none.
Theorem C258_last_refuted : forall A (mul : A -> A -> A) jt jf jones n times freqs d r, sorted times -> sorted freqs -> correct2 mul (Some jt) (Some jf) (Some jones) n times freqs d = Ok r ->
  (at_ times (length times - 1) == at_ jt (length jt - 1))%Q -> forall f a b, times <> [] -> f < length freqs -> r (length times - 1) f a b = d (length times - 1) f a b.
Proof. exact last_left. Qed.
Print Assumptions C258_last_refuted.
(** Two subbands of two channels, matrices that swap the polarizations *)
Definition demo_data (t f a b : nat) : Z := Z.of_nat (1 + 2 * a + b + 10 * f + 100 * t).
Definition swap (i j a b : nat) : Z := if a =? b then 0%Z else Z.of_nat (1 + i + j).
Definition demo := correct2 Z.mul (Some [0; 4; 10]%Q) (Some [20; 30]%Q) (Some swap) 2 [0; 1; 3; 8; 10]%Q [20; 21; 27; 35]%Q demo_data.
Theorem C258_product_refuted : match demo with
  | Ok r => r 0 0 0 0 <> (swap 0 0 0 0 * demo_data 0 0 0 0 + swap 0 0 0 1 * demo_data 0 0 1 0)%Z /\ r 0 0 0 0 <> (demo_data 0 0 0 0 * swap 0 0 0 0 + demo_data 0 0 0 1 * swap 0 0 1 0)%Z
  | Err _ => False
  end.
Proof. assert (H : match demo with Ok r => r 0 0 0 0 = 0%Z | Err _ => False end) by (vm_compute; reflexivity). destruct demo as [r|]; [|exact H]. rewrite H. split; discriminate. Qed.
Print Assumptions C258_product_refuted.
Example C258_ex : sorted [0; 1; 3; 8; 10]%Q /\ sorted [20; 21; 27; 35]%Q /\
  match demo with Ok r => map (fun t => map (fun f => r t f 0 1) [0; 1; 2; 3]) [0; 1; 2; 3; 4] =
    [[2; 12; 44; 64]; [102; 112; 244; 264]; [404; 424; 666; 696]; [906; 936; 1288; 1328]; [402; 412; 422; 432]]%Z | Err _ => False end.
Proof. split; [now apply ascending_sorted|]. split; [now apply ascending_sorted|]. vm_compute. reflexivity. Qed.
