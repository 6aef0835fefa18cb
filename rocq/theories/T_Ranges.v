(** C251 and C252: ranges of mini-arrays, durations of user parsets. *)
From Coq Require Import Ascii String List ZArith Bool Lia.
From Verif Require Import Base M_PText M_Ranges P_Ranges.
Import ListNotations.
Open Scope Z_scope.
Open Scope list_scope.

(** * C251 *)
Theorem C251_ranges : forall l, l <> [] -> exists rs, miniarray_ranges l = Ok rs /\ maximal rs /\ listed rs = l.
Proof. exact ranges_spec. Qed.
Print Assumptions C251_ranges.
Theorem C251_unique : forall l rs rs', miniarray_ranges l = Ok rs -> maximal rs' -> listed rs' = l -> rs = rs'.
Proof. exact ranges_unique. Qed.
Print Assumptions C251_unique.
Theorem C251_member : forall l rs x, miniarray_ranges l = Ok rs -> In x l <-> exists a b, In (a, b) rs /\ a <= x <= b.
Proof. exact ranges_member. Qed.
Print Assumptions C251_member.
Theorem C251_error : forall l e, miniarray_ranges l = Err e <-> l = [] /\ e = EIndexError.
Proof. exact ranges_error. Qed.
Print Assumptions C251_error.
Example C251_ex : miniarray_ranges [0; 1; 2; 5; 7; 8] = Ok [(0, 2); (5, 5); (7, 8)] /\ maximal [(0, 2); (5, 5); (7, 8)] /\ listed [(0, 2); (5, 5); (7, 8)] = [0; 1; 2; 5; 7; 8] /\
  miniarray_ranges [3; 3; 2] = Ok [(3, 3); (3, 3); (2, 2)] /\ miniarray_ranges [] = Err EIndexError.
Proof. cbn. repeat split; lia. Qed.

(** * C252 *)
Theorem C252_back : forall n, 0 <= n -> get_duration (duration_text n) = Ok n.
Proof. exact duration_back. Qed.
Print Assumptions C252_back.
Theorem C252_iff : forall s v, get_duration s = Ok v <-> exists d n c u rest, s = (d ++ String c rest)%string /\ writes d n /\ unit_of c u /\ v = n * u.
Proof. exact duration_iff. Qed.
Print Assumptions C252_iff.
Theorem C252_error : forall s e, get_duration s = Err e <-> e = EAttributeError /\ ~ exists d n c u rest, s = (d ++ String c rest)%string /\ writes d n /\ unit_of c u.
Proof. exact duration_error. Qed.
Print Assumptions C252_error.
Theorem C252_given : forall n c u, 0 <= n -> unit_of c u -> get_duration (show_int n ++ String c EmptyString)%string = Ok (n * u).
Proof. exact duration_given. Qed.
Print Assumptions C252_given.
Theorem C252_negative : forall n, n < 0 -> get_duration (duration_text n) = Err EAttributeError.
Proof. exact duration_negative. Qed.
Print Assumptions C252_negative.
(** Hours followed by minutes: the minutes are lost. *)
Theorem C252_sum_refuted : forall a b, 0 <= a -> 0 < b -> exists v, get_duration (show_int a ++ "h" ++ show_int b ++ "m")%string = Ok v /\ v = a * 3600 /\ v <> a * 3600 + b * 60.
Proof. exact duration_sum_refuted. Qed.
Print Assumptions C252_sum_refuted.
(** A decimal number is refused. *)
Theorem C252_decimal_refuted : forall a b c, 0 <= a -> get_duration (show_int a ++ "." ++ show_int b ++ String c EmptyString)%string = Err EAttributeError.
Proof. exact duration_decimal_refuted. Qed.
Print Assumptions C252_decimal_refuted.
Example C252_ex : get_duration "3600s" = Ok 3600 /\ get_duration "2h" = Ok 7200 /\ get_duration "1h30m" = Ok 3600 /\ get_duration "1.5h" = Err EAttributeError /\
  get_duration "10" = Err EAttributeError /\ get_duration "2H" = Err EAttributeError /\ get_duration "" = Err EAttributeError /\ duration_text 3600 = "3600s"%string /\ unit_of "m" 60 /\ writes "12" 12.
Proof. repeat split; try reflexivity; [right; left; auto|]. exact (writes_more "1" 1 "2" (writes_one "1" eq_refl) eq_refl). Qed.
