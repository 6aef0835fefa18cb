(** Properties of the queries of the database of observations (C221 to C225). *)
From Coq Require Import Ascii String List Arith ZArith QArith Bool Lia Lqa.
From Verif Require Import Base M_PText M_Tap P_Tap.
Import ListNotations.
Open Scope nat_scope.
Open Scope list_scope.

(** ** C221: the query is what was set last *)
Theorem C221_query : forall time mjd read_time show ops,
  let l := rev ops in
  query time (run time mjd read_time show ops)
  = query_text (latest time (sets_names time) usual_columns l)
      (asked time mjd show (latest time (sets_time time read_time) None l) (latest time (sets_freq time) None l) (latest_center time l)).
Proof. exact query_history. Qed.
Print Assumptions C221_query.
Theorem C221_attributes : forall time mjd read_time show ops, let l := rev ops in let d := run time mjd read_time show ops in
  d_names time d = latest time (sets_names time) usual_columns l /\ d_time time d = latest time (sets_time time read_time) None l
  /\ d_freq time d = latest time (sets_freq time) None l
  /\ d_radius time d = latest time (sets_radius time) (Angle 180) l /\ d_center time d = option_map fst (latest_center time l).
Proof. exact attributes. Qed.
Print Assumptions C221_attributes.
(** Dates are days, read from one text; numbers are shown by their integral part. *)
Definition demo_read (s : string) : option Z := if String.eqb s "2021-01-01" then Some 59215%Z else None.
Fixpoint digits (k : nat) (n : Z) : string :=
  match k with 0 => EmptyString | S k => ((if (n <? 10)%Z then EmptyString else digits k (n / 10)%Z) ++ String (ascii_of_nat (48 + Z.to_nat (n mod 10))) EmptyString)%string end.
Definition demo_show (q : Q) : string := digits 12 (Qnum q / Zpos (Qden q))%Z.
Notation demo := (run Z inject_Z demo_read demo_show).
Definition demo_ops : list (op Z) :=
  [ONames Z (GList ["obs_id"; "s_ra"]%string); OTime Z (GList [TText Z "2021-01-01"; TTime Z 59217%Z]%string); ONames Z (GList ["flux"%string]);
   ORadius Z (RNumber 5); OCenter Z (CPoint 350 58); OFreq Z (GList [FNumber 20; FNumber 30]); OTime Z (GList [TText Z "yesterday"; TTime Z 1%Z]%string); OFreq Z (GList [FQuantity (Freq 29); FQuantity (Wave 3)])].
Example C221_ex : query Z (demo demo_ops)
  = "SELECT obs_id, s_ra from nenufar.bst WHERE ((t_min >= 59215 AND t_max <= 59217) AND (em_min >= 3 AND em_max <= 10) AND 1 = CONTAINS(POINT('ICRS', s_ra, s_dec), CIRCLE('ICRS', 350, 58, 5)))"%string.
Proof. vm_compute. reflexivity. Qed.

(** ** C222: the range of frequencies *)
Theorem C222_frequencies : forall f0 f1 em_min em_max l0 l1, (0 < f0)%Q -> (0 < f1)%Q -> (0 < em_min)%Q -> (0 < em_max)%Q -> wave_of (Freq f0) l0 -> wave_of (Freq f1) l1 ->
  ((l1 <= em_min /\ em_max <= l0)%Q <-> ((299792458 # 1000000) / em_min <= f1 /\ f0 <= (299792458 # 1000000) / em_max)%Q).
Proof. exact freq_meaning. Qed.
Print Assumptions C222_frequencies.
Theorem C222_written : forall time mjd read_time show ops f0 f1,
  d_cond_freq time (run time mjd read_time show (ops ++ [OFreq time (GList [FNumber f0; FNumber f1])]))
  = ("(em_min >= " ++ show ((299792458 # 1000000) / f1)%Q ++ " AND em_max <= " ++ show ((299792458 # 1000000) / f0)%Q ++ ")")%string.
Proof. exact freq_written. Qed.
Print Assumptions C222_written.
Theorem C222_reversed : forall f0 f1 em_min em_max l0 l1, (0 < f1)%Q -> (f1 < f0)%Q -> (em_min <= em_max)%Q -> wave_of (Freq f0) l0 -> wave_of (Freq f1) l1 -> ~ (l1 <= em_min /\ em_max <= l0)%Q.
Proof. exact freq_reversed. Qed.
Print Assumptions C222_reversed.
Example C222_ex : wave_of (Freq 20) ((299792458 # 1000000) / 20) /\ wave_of (Freq 40) ((299792458 # 1000000) / 40)
  /\ ((299792458 # 1000000) / 40 <= 10 /\ 12 <= (299792458 # 1000000) / 20)%Q /\ ((299792458 # 1000000) / 10 <= 40 /\ 20 <= (299792458 # 1000000) / 12)%Q.
Proof. split; [constructor|]. split; [constructor|]. repeat split; now vm_compute. Qed.

(** ** C223: the radius *)
Theorem C223_ignored_refuted : forall time mjd read_time show ops r, query time (run time mjd read_time show (ops ++ [ORadius time r])) = query time (run time mjd read_time show ops).
Proof. exact radius_ignored_refuted. Qed.
Print Assumptions C223_ignored_refuted.
Theorem C223_order_refuted : forall time mjd read_time show ra dec r r', show r <> show r' ->
  let a := run time mjd read_time show [ORadius time (RNumber r); OCenter time (CPoint ra dec); ORadius time (RNumber r')] in
  let b := run time mjd read_time show [ORadius time (RNumber r'); OCenter time (CPoint ra dec)] in
  d_names time a = d_names time b /\ d_time time a = d_time time b /\ d_freq time a = d_freq time b /\ d_radius time a = d_radius time b /\ d_center time a = d_center time b
  /\ query time a <> query time b.
Proof. exact radius_order_refuted. Qed.
Print Assumptions C223_order_refuted.
Example C223_ex : demo_show 5 <> demo_show 8 /\
  conditions Z (demo [OCenter Z (CPoint 350 58); ORadius Z (RNumber 8)]) = "1 = CONTAINS(POINT('ICRS', s_ra, s_dec), CIRCLE('ICRS', 350, 58, 180))"%string.
Proof. split; [discriminate|vm_compute; reflexivity]. Qed.

(** ** C224: searches and resets *)
Theorem C224_search : forall time mjd read_time show ops, let d := run time mjd read_time show ops in
  (search time d = Err EValueError <-> d_time time d = None /\ d_freq time d = None /\ d_center time d = None)
  /\ (forall q, search time d = Ok q -> q = query time d)
  /\ (forall e, search time d = Err e -> e = EValueError).
Proof. exact search_history. Qed.
Print Assumptions C224_search.
Theorem C224_reset : forall time mjd read_time show ops, run time mjd read_time show (ops ++ [OReset time]) = run time mjd read_time show [].
Proof. exact reset_history. Qed.
Print Assumptions C224_reset.
Theorem C224_columns_refuted : forall time mjd read_time show ops, query time (run time mjd read_time show (ops ++ [ONames time (GList [])]))
  = ("SELECT  from nenufar.bst WHERE (" ++ conditions time (run time mjd read_time show ops) ++ ")")%string.
Proof. exact no_column_refuted. Qed.
Print Assumptions C224_columns_refuted.
Example C224_ex : search Z (demo [ORadius Z (RNumber 5)]) = Err EValueError /\
  search Z (demo [OTime Z (GList [TText Z "2021-01-01"; TTime Z 59217%Z]%string); ONames Z (GList [])]) = Ok "SELECT  from nenufar.bst WHERE ((t_min >= 59215 AND t_max <= 59217))"%string /\
  search Z (demo (demo_ops ++ [OReset Z])) = Err EValueError.
Proof. repeat split; vm_compute; reflexivity. Qed.

(** ** C225: refused values *)
Theorem C225_refused : forall time mjd read_time show (d : db time) (o : op time),
  let apply := apply time mjd read_time show in
  (forall e, apply d o = Err e -> step time mjd read_time show d o = d) /\
  match o with
  | ONames _ m => (apply d o = Err ETypeError <-> m = GOther) /\ (apply d o = Err EValueError <-> exists l n, m = GList l /\ In n l /\ ~ In n table_columns)
  | OTime _ t => (apply d o = Err ETypeError <-> t = GOther) /\ (forall l, t = GList l -> length l <> 2 -> apply d o = Err EValueError)
      /\ (forall x y, t = GList [x; y] -> (exists d', apply d o = Ok d') <-> (x = TNone time /\ y = TNone time) \/ (date_of time read_time x <> None /\ date_of time read_time y <> None))
  | OFreq _ f => (f = GOther -> apply d o = Err ETypeError) /\ (forall l, f = GList l -> length l <> 2 -> apply d o = Err EValueError)
      /\ (forall x y, f = GList [FQuantity x; FNumber y] \/ f = GList [FNumber y; FQuantity x] -> apply d o = Err EValueError)
      /\ (forall x, (f = GList [FNone; FNumber x] \/ f = GList [FNumber x; FNone]) -> apply d o = Err ETypeError)
  | ORadius _ r => (exists e, apply d o = Err e) <-> r = RArray
  | OCenter _ c => (apply d o = Err ETypeError <-> c = COther) /\ (apply d o = Err EValueError <-> c = CPoints \/ (d_radius time d = NotAngle /\ exists ra dec, c = CPoint ra dec))
  | OReset _ => apply d o = Ok (new_db time)
  end.
Proof. exact refused. Qed.
Print Assumptions C225_refused.
Example C225_ex : apply Z inject_Z demo_read demo_show (demo demo_ops) (OFreq Z (GList [FQuantity (Freq 20); FNumber 30])) = Err EValueError /\
  apply Z inject_Z demo_read demo_show (demo [ORadius Z (RQuantity NotAngle)]) (OCenter Z (CPoint 1 1)) = Err EValueError /\
  apply Z inject_Z demo_read demo_show (demo []) (OTime Z (GList [TNone Z; TTime Z 1%Z])) = Err EValueError.
Proof. repeat split. Qed.
