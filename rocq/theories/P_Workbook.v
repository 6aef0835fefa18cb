(** Reading a workbook of bookings. *)
From Coq Require Import ZArith Bool Ascii String List Lia.
From Verif Require Import Base M_Open M_Workbook P_Open.
Import ListNotations.
Open Scope list_scope.

(** ** Specification *)
(** The name of a sheet that is not read, in any case. *)
Definition is_example (s : sheet) : Prop := lower (s_title s) = "example"%string.
(** The sheets that are read, in order. *)
Inductive picked : list sheet -> list sheet -> Prop :=
| picked_nil : picked [] []
| picked_skip : forall s wb l, is_example s -> picked wb l -> picked (s :: wb) l
| picked_keep : forall s wb l, ~ is_example s -> picked wb l -> picked (s :: wb) (s :: l).
(** The rows of the days, one after the other. *)
Inductive booked : list row -> list (Z * values) -> Prop :=
| booked_nil : booked [] []
| booked_more : forall d hours v rows l, row_to_list hours = Ok v -> booked rows l -> booked (mkRow (Some d) hours :: rows) ((d, v) :: l).
Definition ends (rows : list row) : Prop := match rows with [] => True | r :: _ => r_day r = None end.
(** The days read from a sheet. *)
Definition month_of (s : sheet) (l : list (Z * values)) : Prop := exists days rest, s_rows s = days ++ rest /\ ends rest /\ booked days l.

(** ** Sheets *)
Lemma picked_filter wb : picked wb (filter (fun s => negb (String.eqb (lower (s_title s)) "example")) wb).
Proof.
  induction wb as [|s wb IH]; cbn [filter]; [constructor|]. destruct (String.eqb_spec (lower (s_title s)) "example"); cbn [negb]; constructor; assumption.
Qed.
Lemma picked_det wb l : picked wb l -> forall l', picked wb l' -> l = l'.
Proof. induction 1; intros l' P; inversion P; subst; try contradiction; [reflexivity|auto|f_equal; auto]. Qed.
Theorem sheets_iff : forall wb l, read_sheets wb = Ok l <-> picked wb l /\ length l = 6%nat.
Proof.
  intros wb l. unfold read_sheets. pose proof (picked_filter wb) as F. destruct (Nat.eqb_spec (length (filter (fun s => negb (String.eqb (lower (s_title s)) "example")) wb)) 6) as [E|E]; split.
  - intro H. injection H as <-. auto.
  - intros [P _]. f_equal. now apply (picked_det wb).
  - discriminate.
  - intros [P L]. elim E. now rewrite (picked_det _ _ F _ P).
Qed.
Theorem sheets_error : forall wb e, read_sheets wb = Err e <-> e = EValueError /\ exists l, picked wb l /\ length l <> 6%nat.
Proof.
  intros wb e. unfold read_sheets. pose proof (picked_filter wb) as F. destruct (Nat.eqb_spec (length (filter (fun s => negb (String.eqb (lower (s_title s)) "example")) wb)) 6) as [E|E]; split.
  - discriminate.
  - intros (_ & l & P & L). elim L. now rewrite <- (picked_det _ _ F _ P).
  - intro H. injection H as <-. eauto.
  - intros [-> _]. reflexivity.
Qed.

(** ** Months *)
Lemma month_booked : forall days l, booked days l -> forall rest, ends rest -> parse_month (days ++ rest) = Ok (map fst l, map snd l).
Proof.
  induction 1 as [|d hours v rows l H B IH]; intros rest E; cbn [app parse_month r_day r_hours].
  - destruct rest as [|r rest]; cbn; [reflexivity|]. cbn in E. now rewrite E.
  - rewrite H. cbn [bind]. rewrite (IH rest E). reflexivity.
Qed.
Lemma month_split : forall rows t, parse_month rows = Ok t -> exists days rest l, rows = days ++ rest /\ ends rest /\ booked days l /\ t = (map fst l, map snd l).
Proof.
  induction rows as [|[[d|] hours] rows IH]; intros t H; cbn [parse_month r_day r_hours] in H.
  - injection H as <-. exists [], [], []. repeat split; constructor.
  - destruct (row_to_list hours) as [v|] eqn:R; cbn [bind] in H; [|discriminate]. destruct (parse_month rows) as [[a b]|]; cbn [bind] in H; [|discriminate].
    injection H as <-. destruct (IH _ eq_refl) as (days & rest & l & -> & E & B & X). injection X as -> ->. exists (mkRow (Some d) hours :: days), rest, ((d, v) :: l). repeat split; auto. now constructor.
  - injection H as <-. exists [], (mkRow None hours :: rows), []. repeat split; constructor.
Qed.
Theorem month_iff : forall s t, parse_month (s_rows s) = Ok t <-> exists l, month_of s l /\ t = (map fst l, map snd l).
Proof.
  intros s t. split.
  - intro H. apply month_split in H. destruct H as (days & rest & l & E & D & B & T). exists l. split; [exists days, rest; auto|exact T].
  - intros (l & (days & rest & E & D & B) & ->). rewrite E. now apply month_booked.
Qed.
Lemma row_error hours e : row_to_list hours = Err e -> e = EValueError /\ length hours <> 24%nat.
Proof.
  intro H. assert (e = EValueError).
  { destruct (row_total hours) as (vs & R & _). unfold row_to_list in H. rewrite R in H. cbn [bind] in H. destruct (Nat.eqb (length vs) 24); congruence. }
  subst e. split; [reflexivity|]. now apply row_length.
Qed.
Theorem month_error : forall rows e, parse_month rows = Err e <-> e = EValueError /\ exists days hours d rest l, rows = days ++ mkRow (Some d) hours :: rest /\ booked days l /\ length hours <> 24%nat.
Proof.
  intros rows e. split.
  - revert e. induction rows as [|[[d|] hours] rows IH]; intros e H; cbn [parse_month r_day r_hours] in H; [discriminate| |discriminate].
    destruct (row_to_list hours) as [v|e'] eqn:R; cbn [bind] in H.
    + destruct (parse_month rows) as [[a b]|e'] eqn:P; cbn [bind] in H; [discriminate|]. injection H as ->. destruct (IH _ eq_refl) as (-> & days & h & d' & rest & l & -> & B & N).
      split; [reflexivity|]. exists (mkRow (Some d) hours :: days), h, d', rest, ((d, v) :: l). repeat split; auto. now constructor.
    + injection H as ->. apply row_error in R. destruct R as [-> N]. split; [reflexivity|]. exists [], hours, d, rows, []. repeat split; auto. constructor.
  - intros (-> & days & hours & d & rest & l & -> & B & N). induction B as [|d0 h0 v rs l R B IH]; cbn [app parse_month r_day r_hours].
    + apply row_length in N. now rewrite N.
    + rewrite R. cbn [bind]. now rewrite IH.
Qed.
(** Nothing below the first row without a date is read. *)
Theorem month_gap_refuted : forall days hours more l, booked days l -> parse_month (days ++ mkRow None hours :: more) = parse_month days.
Proof.
  intros days hours more l B. rewrite (month_booked days l B); [|reflexivity]. rewrite <- (app_nil_r days) at 1. symmetry. now apply month_booked.
Qed.

(** ** Workbooks *)
Lemma store_new k m data : ~ In k (map fst data) -> store_month k m data = data ++ [(k, m)].
Proof.
  induction data as [|[k' m'] data IH]; cbn; intro N; [reflexivity|]. destruct (String.eqb_spec k k') as [->|D]; [elim N; auto|]. f_equal. apply IH. tauto.
Qed.
Lemma months_read : forall sheets ms data, NoDup (map fst data ++ map s_title sheets) -> Forall2 month_of sheets ms ->
  read_months sheets data = Ok (data ++ map (fun p => (s_title (fst p), (map fst (snd p), map snd (snd p)))) (combine sheets ms)).
Proof.
  intros sheets ms data N F. revert data N. induction F as [|s l sheets ms M F IH]; intros data N; cbn [read_months combine map].
  - now rewrite app_nil_r.
  - assert (X : parse_month (s_rows s) = Ok (map fst l, map snd l)) by (apply month_iff; eauto). rewrite X. cbn [bind].
    cbn [map] in N. rewrite store_new; [|intro I; apply NoDup_remove_2 in N; apply N, in_or_app; auto].
    rewrite IH; [cbn [fst snd]; now rewrite <- app_assoc|]. rewrite map_app. cbn [map fst]. rewrite <- app_assoc. exact N.
Qed.
(** A workbook of six months: each sheet with its days, in order. *)
Theorem workbook_read : forall wb sheets ms, picked wb sheets -> length sheets = 6%nat -> NoDup (map s_title wb) -> Forall2 month_of sheets ms ->
  read_workbook wb = Ok (map (fun p => (s_title (fst p), (map fst (snd p), map snd (snd p)))) (combine sheets ms)).
Proof.
  intros wb sheets ms P L N F. unfold read_workbook. assert (R : read_sheets wb = Ok sheets) by (apply sheets_iff; auto). rewrite R. cbn [bind].
  apply (months_read sheets ms []); [cbn [map app]|exact F]. clear -P N. induction P as [|s wb l X P IH|s wb l X P IH]; cbn [map] in *; [constructor|inversion N; auto|].
  inversion N as [|? ? A B]; subst. constructor; [|auto]. intro I. apply A. clear -P I. induction P as [|s0 wb l X P IH|s0 wb l X P IH]; cbn in *; [contradiction|auto|]. destruct I; auto.
Qed.
Lemma combine_split_app {A B} (l l' : list (A * B)) : combine (map fst l ++ map fst l') (map snd l ++ map snd l') = l ++ l'.
Proof. induction l as [|[a b] l IH]; cbn; [induction l' as [|[a b] l' IH]; cbn; congruence|now rewrite IH]. Qed.
Lemma concat_fst {A B} (ms : list (list (A * B))) : concat (map (fun l => map fst l) ms) = map fst (concat ms) /\ concat (map (fun l => map snd l) ms) = map snd (concat ms).
Proof. induction ms as [|l ms [IH IH']]; cbn; [auto|]. rewrite IH, IH', !map_app. auto. Qed.
Definition stored (ts : list string) (ms : list (list (Z * values))) : list (string * month) := map (fun p => (fst p, (map fst (snd p), map snd (snd p)))) (combine ts ms).
Lemma stored_parts ts ms : length ts = length ms -> map (fun p => fst (snd p)) (stored ts ms) = map (fun l => map fst l) ms /\ map (fun p => snd (snd p)) (stored ts ms) = map (fun l => map snd l) ms.
Proof.
  revert ms. induction ts as [|t ts IH]; intros [|l ms] L; cbn in *; try discriminate; [auto|]. destruct (IH ms) as [A B]; [lia|]. unfold stored in A, B. rewrite A, B. auto.
Qed.
Lemma combine_pairs {A B} (l : list (A * B)) : combine (map fst l) (map snd l) = l.
Proof. induction l as [|[a b] l IH]; cbn; congruence. Qed.
(** All days of all months, in order, when every month has one. *)
Theorem gather_all : forall ts ms, length ts = length ms -> ms <> [] -> (forall l, In l ms -> l <> []) -> gather (stored ts ms) = Ok (concat ms).
Proof.
  intros ts ms L N F. unfold gather. destruct (stored_parts ts ms L) as [A B]. rewrite A, B. destruct (concat_fst ms) as [C D]. rewrite C, D, combine_pairs.
  assert (E : filter (fun p : string * month => match snd (snd p) with [] => true | _ :: _ => false end) (stored ts ms) = []).
  { clear -F. revert ms F. induction ts as [|t ts IH]; intros [|l ms] F; cbn; try reflexivity. destruct l as [|p l]; [now elim (F []); [left|]|]. cbn. apply IH. intros l' I. apply F. now right. }
  rewrite E. destruct ts as [|t ts], ms as [|l ms]; try discriminate; [now elim N|]. reflexivity.
Qed.
(** A month without a day beside one with days: no calendar. *)
Theorem gather_empty_refuted : forall ts ms l, length ts = length ms -> In [] ms -> In l ms -> l <> [] -> gather (stored ts ms) = Err EValueError.
Proof.
  intros ts ms l L I J N. unfold gather. destruct (stored_parts ts ms L) as [A B]. rewrite A, B. destruct (concat_fst ms) as [C D]. rewrite C, D.
  assert (E : filter (fun p : string * month => match snd (snd p) with [] => true | _ :: _ => false end) (stored ts ms) <> []).
  { clear -I L. revert ms I L. induction ts as [|t ts IH]; intros [|m ms] I L; cbn in *; try discriminate; [contradiction|]. destruct m as [|p m]; cbn; [discriminate|]. destruct I as [I|I]; [discriminate|]. apply IH; [exact I|lia]. }
  assert (R : map snd (concat ms) <> []).
  { destruct l as [|p l]; [now elim N|]. intro H. assert (X : In p (concat ms)) by (apply in_concat; exists (p :: l); split; [exact J|now left]). apply (in_map snd) in X. rewrite H in X. contradiction. }
  destruct (stored ts ms) as [|p0 st] eqn:S0; [now elim E|]. destruct (filter _ (p0 :: st)); [now elim E|]. destruct (map snd (concat ms)); [now elim R|]. reflexivity.
Qed.
Lemma stored_workbook sheets ms : map (fun p => (s_title (fst p), (map fst (snd p), map snd (snd p)))) (combine sheets ms) = stored (map s_title sheets) ms.
Proof. revert ms. induction sheets as [|s sheets IH]; intros [|l ms]; cbn; try reflexivity. f_equal. apply IH. Qed.
(** The bookings of the calendars: every day of every sheet, once and in order. *)
Theorem workbook_days : forall wb sheets ms, picked wb sheets -> length sheets = 6%nat -> NoDup (map s_title wb) -> Forall2 month_of sheets ms ->
  exists data, read_workbook wb = Ok data /\ ((forall l, In l ms -> l <> []) -> gather data = Ok (concat ms)) /\
    (In [] ms -> concat ms <> [] -> gather data = Err EValueError) /\ (concat ms = [] -> gather data = Ok []).
Proof.
  intros wb sheets ms P L N F. assert (LM : length (map s_title sheets) = length ms) by (rewrite map_length; clear -F; induction F; cbn; congruence).
  exists (stored (map s_title sheets) ms). split; [rewrite (workbook_read wb sheets ms P L N F); now rewrite stored_workbook|]. split; [|split].
  - intro G. apply gather_all; auto. intros ->. rewrite map_length, L in LM. discriminate.
  - intros I K. assert (X : exists l, In l ms /\ l <> []).
    { clear -K. induction ms as [|l ms IH]; [now elim K|]. destruct l as [|p l]; [destruct IH as (l & A & B); [exact K|]; exists l; split; [now right|exact B]|]. exists (p :: l). split; [now left|discriminate]. }
    destruct X as (l & A & B). eapply gather_empty_refuted; eauto.
  - intro K. unfold gather. destruct (stored_parts (map s_title sheets) ms LM) as [A B]. rewrite A, B. destruct (concat_fst ms) as [C D]. rewrite C, D, K. cbn [map combine].
    destruct (stored (map s_title sheets) ms) as [|p0 st] eqn:S0; [|destruct (filter _ (p0 :: st)); reflexivity].
    exfalso. destruct sheets as [|s sheets]; [discriminate|]. destruct ms; discriminate.
Qed.
