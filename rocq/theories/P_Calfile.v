(** Files of calendars: what is written is read back. *)
From Coq Require Import ZArith Bool Ascii String List Lia.
From Verif Require Import Base M_PText P_PText M_Open P_Open2 M_Calfile.
From Verif Require M_Parset.
Import ListNotations.
Open Scope Z_scope.
Open Scope list_scope.

(** ** Texts *)
Lemma append_assoc : forall a b c, ((a ++ b) ++ c = a ++ (b ++ c))%string.
Proof. induction a as [|x a IH]; intros b c; [reflexivity|]. cbn. now rewrite IH. Qed.
Lemma cut_app : forall a b, has_char "#" a = false -> cut (a ++ b)%string = (a ++ cut b)%string.
Proof.
  induction a as [|x a IH]; intros b H; [reflexivity|]. cbn [has_char] in H. apply orb_false_elim in H as (H1 & H2). cbn [append cut]. rewrite H1. now rewrite IH.
Qed.
Lemma truncate_all : forall s, truncate (String.length s) s = s.
Proof. unfold truncate. induction s as [|c s IH]; [reflexivity|]. cbn. now rewrite IH. Qed.
Lemma has_app : forall c a b, has_char c (a ++ b)%string = has_char c a || has_char c b.
Proof. intros c a b. induction a as [|x a IH]; [reflexivity|]. cbn. now rewrite IH, orb_assoc. Qed.
Definition text_of (ls : list string) : string := fold_right (fun l t => (l ++ line_end ++ t)%string) EmptyString ls.
Lemma split_text : forall ls, Forall (fun s => has_char newline s = false) ls -> split_char newline (text_of ls) = ls ++ [EmptyString].
Proof.
  intros ls H. induction H as [|s ls H F IH]; [reflexivity|]. cbn [text_of fold_right]. fold (text_of ls). change (line_end ++ text_of ls)%string with (String newline (text_of ls)). rewrite split_char_app by exact H. now rewrite IH.
Qed.
Lemma split_two : forall c s, has_char c s = true -> exists x y t, split_char c s = x :: y :: t.
Proof.
  intros c s. induction s as [|a s IH]; intro H; [discriminate|]. cbn [split_char]. cbn [has_char] in H. destruct (Ascii.eqb a c).
  - pose proof (split_char_nonempty c s) as N. destruct (split_char c s) as [|y t]; [contradiction|]. now exists EmptyString, y, t.
  - destruct (IH H) as (x & y & t & ->). now exists (String a x), y, t.
Qed.
Lemma collect_ok : forall X Y (f : X -> res Y) g l, (forall x, In x l -> f x = Ok (g x)) -> collect (map f l) = Ok (map g l).
Proof.
  intros X Y f g l. induction l as [|x l IH]; intro H; [reflexivity|]. cbn [map collect]. rewrite (H x (or_introl eq_refl)), IH by (intros y I; apply H; now right). reflexivity.
Qed.
Lemma collect_err : forall X (l : list (res X)) e, In (Err e) l -> (forall x, In (Err x) l -> x = e) -> collect l = Err e.
Proof.
  intros X l e. induction l as [|a l IH]; intros I U; [contradiction|]. cbn [collect]. destruct a as [x|x]; cbn [bind].
  - destruct I as [I|I]; [discriminate|]. rewrite IH; [reflexivity|exact I|]. intros y Y. apply U. now right.
  - now rewrite (U x (or_introl eq_refl)).
Qed.
Lemma kp_length : forall s k, find_kp s = Some k -> String.length k = 4%nat.
Proof.
  intros s k. induction s as [|a s IH]; [discriminate|]. rewrite find_kp_here. destruct (kp_here (String a s)) as [x|] eqn:E; [|exact IH]. intro H. injection H as <-. unfold kp_here in E.
  destruct s as [|b [|c [|d s]]]; try discriminate. destruct (_ && _ && _); [|discriminate]. now injection E as <-.
Qed.

Section Calfile.
Variable iso : Z -> string.
Variable parse : string -> option Z.
(** The dates that are written in 19 characters, those of the years 0 to 9999 *)
Variable valid : Z -> Prop.
(** ** Specification *)
Record dates : Prop := {
  d_parse : forall t, valid t -> parse (iso t) = Some t;
  d_length : forall t, valid t -> String.length (iso t) = 19%nat;
  d_comma : forall t, valid t -> has_char "," (iso t) = false;
  d_sharp : forall t, valid t -> has_char "#" (iso t) = false;
  d_line : forall t, valid t -> has_char newline (iso t) = false }.
(** The key project of the calendar is the first one of the name. *)
Definition named (e : event) : Prop := find_kp (e_name e) = Some (e_kp e).
(** Dates of 19 characters, no comma except in a comment, no line feed *)
Definition dated (e : event) : Prop := valid (iso_second (e_begin e)) /\ valid (iso_second (e_end e)).
Definition writable (e : event) : Prop :=
  dated e /\ has_char "," (e_kp e) = false /\ has_char "#" (e_kp e) = false /\ has_char "," (cut (e_name e)) = false /\ has_char newline (e_name e) = false /\ has_char newline (e_kp e) = false.
Definition excluded (ex : list string) (kp : string) : bool := existsb (fun x => String.eqb (lower kp) (lower x)) ex.
Definition reserved (e : event) : booking := mkBooking (iso_second (e_begin e)) (iso_second (e_end e)) (e_kp e).
Definition good_name (f : string) : Prop := f = EmptyString \/ exists stem, f = (stem ++ ".csv")%string.

(** ** Reading *)
Definition entry (s : string) (b : booking) : Prop := row_of (cut s) = Ok (iso (b_start b), iso (b_stop b), b_kp b) /\ cut s <> EmptyString /\ has_char newline s = false /\ valid (b_start b) /\ valid (b_stop b).
Definition outcome (bs : list booking) (ex : list string) : res (list booking) :=
  match bs with
  | [_] => Err ETypeError
  | _ => match filter (fun b => negb (excluded ex (b_kp b))) bs with [] => Err ETypeError | l => Ok l end
  end.
Lemma rows_entries : forall ls bs, Forall2 entry ls bs -> collect (map row_of (filter (fun s => negb (String.eqb s "")) (map cut (ls ++ [EmptyString])))) = Ok (map (fun b => (iso (b_start b), iso (b_stop b), b_kp b)) bs).
Proof.
  intros ls bs H. induction H as [|s b ls bs (R & N & _) F IH]; [reflexivity|]. cbn [app map filter]. apply String.eqb_neq in N. rewrite N. cbn [negb map collect]. rewrite R. cbn [bind]. now rewrite IH.
Qed.
Lemma rows_read : forall ls bs ex text, dates -> Forall2 entry ls bs -> tl (split_char newline text) = ls ++ [EmptyString] -> from_vcr parse text ex = outcome bs ex.
Proof.
  intros ls bs ex text D F T. unfold from_vcr, rows_of. rewrite T, (rows_entries ls bs F). cbn [bind].
  assert (V : forall b, In b bs -> valid (b_start b) /\ valid (b_stop b)) by (clear -F; induction F as [|s b ls bs (_ & _ & _ & E) F IH]; [intros ? []|]; intros x [<-|I]; [exact E|now apply IH]).
  rewrite map_map. cbn [fst snd]. rewrite (collect_ok _ _ _ b_start) by (intros b I; unfold date; now rewrite (d_parse D) by apply (V b I)). cbn [bind]. rewrite map_map. cbn [fst snd]. rewrite (collect_ok _ _ _ b_stop) by (intros b I; unfold date; now rewrite (d_parse D) by apply (V b I)). cbn [bind]. rewrite map_map. cbn [snd].
  assert (C : map (fun x => mkBooking (fst (fst x)) (snd (fst x)) (snd x)) (combine (combine (map b_start bs) (map b_stop bs)) (map (fun b => b_kp b) bs)) = bs).
  { clear. induction bs as [|[s t k] bs IH]; [reflexivity|]. cbn in *. now rewrite IH. }
  rewrite C. assert (E : filter (fun b => negb (existsb (String.eqb (lower (b_kp b))) (map lower ex))) bs = filter (fun b => negb (excluded ex (b_kp b))) bs).
  { apply filter_ext. intro b. f_equal. unfold excluded. induction ex as [|x ex IH]; [reflexivity|]. cbn. now rewrite IH. }
  rewrite E. unfold outcome. destruct bs as [|b [|b' bs]]; reflexivity.
Qed.
Lemma line_entry : forall s t k n, dates -> valid s -> valid t -> String.length k = 4%nat -> has_char "," k = false -> has_char "#" k = false -> has_char newline k = false -> has_char "," (cut n) = false -> has_char newline n = false ->
  entry (line iso s t k n) (mkBooking s t k).
Proof.
  intros s t k n D VS VT L C S N CN NN. unfold entry, line. cbn [b_start b_stop b_kp].
  assert (CU : cut (iso s ++ "," ++ iso t ++ "," ++ k ++ "," ++ n)%string = (iso s ++ String "," (iso t ++ String "," (k ++ String "," (cut n))))%string).
  { rewrite (cut_app _ _ (d_sharp D s VS)). f_equal. cbn [append cut]. cbn. f_equal. rewrite (cut_app _ _ (d_sharp D t VT)). f_equal. cbn. f_equal. rewrite (cut_app _ _ S). reflexivity. }
  split; [|split; [|split; [|now split]]].
  - rewrite CU. unfold row_of. rewrite (split_char_app "," (iso s) _ (d_comma D s VS)), (split_char_app "," (iso t) _ (d_comma D t VT)), (split_char_app "," k _ C), (split_char_one "," _ CN).
    rewrite <- (d_length D s VS) at 1. rewrite truncate_all. rewrite <- (d_length D t VT) at 1. rewrite truncate_all. rewrite <- L, truncate_all. reflexivity.
  - rewrite CU. pose proof (d_length D s VS) as Z. destruct (iso s); [discriminate|]. discriminate.
  - rewrite !has_app. rewrite (d_line D s VS), (d_line D t VT), N, NN. reflexivity.
Qed.

(** ** Writing *)
Definition line_of (e : event) : string := line iso (iso_second (e_begin e)) (iso_second (e_end e)) (e_kp e) (e_name e).
Lemma summary_good : forall l, Forall named l -> summary_lines iso l = (text_of (map line_of l), None).
Proof.
  intros l H. induction H as [|e l N F IH]; [reflexivity|]. cbn [summary_lines]. unfold named in N. rewrite N, String.eqb_refl, IH. reflexivity.
Qed.
Lemma summary_stops : forall a b c, Forall named a -> ~ named b -> summary_lines iso (a ++ b :: c) = (text_of (map line_of a), Some EException).
Proof.
  intros a b c H N. induction H as [|e l E F IH].
  - cbn [app summary_lines map]. destruct (find_kp (e_name b)) as [k|] eqn:K; [|reflexivity]. destruct (String.eqb_spec k (e_kp b)) as [X|X]; [|reflexivity]. exfalso. apply N. unfold named. congruence.
  - cbn [app summary_lines]. unfold named in E. rewrite E, String.eqb_refl, IH. reflexivity.
Qed.
Lemma substring_end : forall s t n, substring (String.length s) n (s ++ t)%string = substring 0 n t.
Proof. induction s as [|c s IH]; intros t n; [reflexivity|]. cbn [String.length append substring]. apply IH. Qed.
Lemma length_app : forall s t, String.length (s ++ t)%string = (String.length s + String.length t)%nat.
Proof. induction s as [|c s IH]; intro t; [reflexivity|]. cbn. now rewrite IH. Qed.
Lemma good_name_ok : forall f l, good_name f -> write_summary iso f l = (Some (header ++ line_end ++ fst (summary_lines iso l))%string, snd (summary_lines iso l)).
Proof.
  intros f l G. unfold write_summary. assert (X : negb (String.eqb f "") && negb (is_csv f) = false).
  { destruct G as [->|(stem & ->)]; [reflexivity|]. unfold is_csv. rewrite length_app. cbn [String.length]. replace (String.length stem + 4 - 4)%nat with (String.length stem) by lia. rewrite substring_end.
    replace (4 <=? String.length stem + 4)%nat with true by (symmetry; apply Nat.leb_le; lia). apply andb_false_r. }
  rewrite X. now destruct (summary_lines iso l).
Qed.
Lemma events_entries : forall l, dates -> Forall named l -> Forall writable l -> Forall2 entry (map line_of l) (map reserved l).
Proof.
  intros l D N W. induction N as [|e l E F IH]; [constructor|]. inversion W as [|? ? ((V1 & V2) & W1 & W2 & W3 & W4 & W5) W']; subst. cbn [map]. constructor; [|now apply IH]. apply line_entry; try assumption. exact (kp_length _ _ E).
Qed.
Lemma entries_lines : forall ls bs, Forall2 entry ls bs -> Forall (fun s => has_char newline s = false) ls.
Proof. intros ls bs H. induction H as [|s b ls bs (_ & _ & N & _) F IH]; constructor; assumption. Qed.
Lemma header_line : forall t, split_char newline (header ++ line_end ++ t)%string = header :: split_char newline t.
Proof. intro t. change (line_end ++ t)%string with (String newline t). apply split_char_app. reflexivity. Qed.
Lemma read_events : forall l ex, dates -> Forall named l -> Forall writable l -> from_vcr parse (header ++ line_end ++ text_of (map line_of l))%string ex = outcome (map reserved l) ex.
Proof.
  intros l ex D N W. pose proof (events_entries l D N W) as F. apply (rows_read (map line_of l)); [exact D|exact F|]. rewrite header_line. cbn [tl]. apply split_text. exact (entries_lines _ _ F).
Qed.
Definition kept (ex : list string) (l : list event) : list event := filter (fun e => negb (excluded ex (e_kp e))) l.
Lemma kept_map : forall ex l, filter (fun b => negb (excluded ex (b_kp b))) (map reserved l) = map reserved (kept ex l).
Proof. intros ex l. unfold kept. induction l as [|e l IH]; [reflexivity|]. cbn. destruct (negb (excluded ex (e_kp e))); cbn; now rewrite IH. Qed.
Lemma outcome_events : forall l ex, outcome (map reserved l) ex = if (length l =? 1)%nat then Err ETypeError else match kept ex l with [] => Err ETypeError | k => Ok (map reserved k) end.
Proof.
  intros l ex. unfold outcome. rewrite kept_map. destruct l as [|a [|b l]]; [reflexivity|reflexivity|]. cbn [map length Nat.eqb]. now destruct (kept ex (a :: b :: l)).
Qed.
Theorem round_trip : forall f l ex, dates -> good_name f -> Forall named l -> Forall writable l ->
  exists t, write_summary iso f l = (Some t, None) /\
    (length l <> 1%nat -> kept ex l <> [] -> from_vcr parse t ex = Ok (map reserved (kept ex l))) /\
    (length l = 1%nat \/ kept ex l = [] -> from_vcr parse t ex = Err ETypeError).
Proof.
  intros f l ex D G N W. eexists. split; [rewrite (good_name_ok f l G), (summary_good l N); reflexivity|]. cbn [fst]. rewrite (read_events l ex D N W), outcome_events. split.
  - intros L K. apply Nat.eqb_neq in L. rewrite L. now destruct (kept ex l).
  - intros [L|K]; [now rewrite L|]. rewrite K. now destruct (length l =? 1)%nat.
Qed.
Theorem interrupted_refuted : forall f a b c ex, dates -> good_name f -> Forall named a -> Forall writable a -> ~ named b -> length a <> 1%nat -> kept ex a <> [] ->
  exists t, write_summary iso f (a ++ b :: c) = (Some t, Some EException) /\ from_vcr parse t ex = Ok (map reserved (kept ex a)).
Proof.
  intros f a b c ex D G N W B L K. eexists. split; [rewrite (good_name_ok f _ G), (summary_stops a b c N B); reflexivity|]. cbn [fst]. rewrite (read_events a ex D N W), outcome_events. apply Nat.eqb_neq in L. rewrite L. now destruct (kept ex a).
Qed.
Lemma row_value_error : forall s e, row_of s = Err e -> e = EValueError.
Proof. intros s e H. unfold row_of in H. destruct (split_char "," s) as [|a [|b [|c [|d [|x y]]]]]; congruence. Qed.
Theorem comma_refuted : forall f l e ex, dates -> good_name f -> Forall named l -> In e l -> Forall (fun e => dated e /\ has_char newline (e_name e) = false /\ has_char newline (e_kp e) = false) l ->
  has_char "," (e_kp e) = false -> has_char "#" (e_kp e) = false -> has_char "," (cut (e_name e)) = true ->
  exists t, write_summary iso f l = (Some t, None) /\ from_vcr parse t ex = Err EValueError.
Proof.
  intros f l e ex D G N I NL C S CN. assert (VE : dated e) by (rewrite Forall_forall in NL; apply (NL e I)). destruct VE as (VB & VE). eexists. split; [rewrite (good_name_ok f l G), (summary_good l N); reflexivity|]. cbn [fst]. unfold from_vcr, rows_of. rewrite header_line. cbn [tl].
  rewrite split_text; cycle 1.
  { apply Forall_forall. intros s H. apply in_map_iff in H as (x & <- & X). rewrite Forall_forall in NL. destruct (NL x X) as ((V1 & V2) & N1 & N2). unfold line_of, line. rewrite !has_app, (d_line D _ V1), (d_line D _ V2), N1, N2. reflexivity. }
  assert (E : cut (line_of e) = (iso (iso_second (e_begin e)) ++ String "," (iso (iso_second (e_end e)) ++ String "," (e_kp e ++ String "," (cut (e_name e)))))%string).
  { unfold line_of, line. rewrite (cut_app _ _ (d_sharp D _ VB)). f_equal. cbn. f_equal. rewrite (cut_app _ _ (d_sharp D _ VE)). f_equal. cbn. f_equal. rewrite (cut_app _ _ S). reflexivity. }
  rewrite (collect_err _ _ EValueError); [reflexivity| |].
  - apply in_map_iff. exists (cut (line_of e)). split.
    + rewrite E. unfold row_of. rewrite (split_char_app "," _ _ (d_comma D _ VB)), (split_char_app "," _ _ (d_comma D _ VE)), (split_char_app "," _ _ C). destruct (split_two "," _ CN) as (x & y & t & ->). reflexivity.
    + apply filter_In. split; [apply in_map, in_or_app; left; now apply in_map|]. rewrite E. pose proof (d_length D _ VB) as Z. destruct (iso (iso_second (e_begin e))); [discriminate|]. reflexivity.
  - intros x X. apply in_map_iff in X as (s & X & _). exact (row_value_error s x X).
Qed.
Theorem refused_name : forall f l, f <> EmptyString -> (forall stem, f <> (stem ++ ".csv")%string) -> write_summary iso f l = (None, Some EAssertionError).
Proof.
  intros f l N X. unfold write_summary. apply String.eqb_neq in N. rewrite N. destruct (is_csv f) eqn:E; [|reflexivity]. exfalso. unfold is_csv in E. apply andb_true_iff in E as (L & E). apply Nat.leb_le in L. apply String.eqb_eq in E.
  apply (X (substring 0 (String.length f - 4) f)). rewrite <- E.
  assert (Cut : forall n s, (n <= String.length s)%nat -> s = (substring 0 n s ++ substring n (String.length s - n) s)%string).
  { induction n as [|n IH]; intros s Z; [rewrite Nat.sub_0_r; pose proof (truncate_all s) as T; unfold truncate in T; rewrite T; now destruct s|]. destruct s as [|c s]; [cbn in Z; lia|]. cbn [String.length substring append Nat.sub] in *. f_equal. apply IH. lia. }
  rewrite (Cut (String.length f - 4)%nat f) at 1 by lia. do 3 f_equal. lia.
Qed.
(** The file for the VCR has no header: its first booking is lost. *)
Theorem headerless_refuted : forall b bs ex, dates -> Forall (fun b => (valid (b_start b) /\ valid (b_stop b)) /\ String.length (b_kp b) = 4%nat /\ has_char "," (b_kp b) = false /\ has_char "#" (b_kp b) = false /\ has_char newline (b_kp b) = false) (b :: bs) ->
  from_vcr parse (vcr_text iso (b :: bs)) ex = outcome bs ex.
Proof.
  intros b bs ex D F. set (ls := map (fun b => line iso (b_start b) (b_stop b) (b_kp b) "NenuFAR booking") (b :: bs)). assert (T : vcr_text iso (b :: bs) = text_of ls) by (unfold ls, vcr_text, text_of; clear; induction (b :: bs) as [|x l IH]; [reflexivity|]; cbn; cbn in IH; now rewrite IH).
  assert (E : Forall2 entry ls (b :: bs)).
  { unfold ls. clear -D F. induction F as [|x l ((V1 & V2) & K1 & K2 & K3 & K4) F IH]; [constructor|]. cbn [map]. constructor; [|exact IH]. destruct x as [s t k]. now apply line_entry. }
  rewrite T. inversion E as [|? ? ? ? E1 E2]; subst. apply (rows_read (tl ls)); [exact D|exact E2|]. rewrite split_text by exact (entries_lines _ _ E). reflexivity.
Qed.
End Calfile.

(** ** Calendars read from files *)
Lemma get_set : forall V n m (v : V) g, get_key n (set_key m v g) = if String.eqb n m then Some v else get_key n g.
Proof.
  intros V n m v g. induction g as [|(k, w) g IH]; cbn; [reflexivity|]. destruct (String.eqb m k) eqn:E; cbn.
  - apply String.eqb_eq in E. subst. now destruct (String.eqb n k).
  - rewrite IH. destruct (String.eqb n k) eqn:E2; [|reflexivity]. apply String.eqb_eq in E2. subst. rewrite String.eqb_sym, E. reflexivity.
Qed.
Lemma keys_set : forall V k (v : V) g, NoDup (map fst g) -> NoDup (map fst (set_key k v g)).
Proof.
  intros V k v g. assert (I : forall x, In x (map fst (set_key k v g)) -> x = k \/ In x (map fst g)).
  { intros x. induction g as [|(a, w) g IH]; cbn; [intros [<-|[]]; now left|]. destruct (String.eqb k a); cbn; [tauto|]. intros [H|H]; [tauto|]. destruct (IH H); tauto. }
  revert I. induction g as [|(a, w) g IH]; cbn; intros I N; [repeat constructor; intros []|]. inversion N; subst. destruct (String.eqb k a) eqn:E; cbn; constructor; try assumption.
  - intro X. apply String.eqb_neq in E. assert (H : a = k \/ In a (map fst g)).
    { clear -X. induction g as [|(b, w) g IH]; cbn in *; [destruct X as [X|[]]; left; now symmetry|]. destruct (String.eqb k b); cbn in *; [tauto|]. destruct X as [X|X]; [tauto|]. destruct (IH X); tauto. }
    destruct H; [congruence|contradiction].
  - apply IH; [|assumption]. clear. intro x. induction g as [|(b, w) g IH]; cbn; [intros [<-|[]]; now left|]. destruct (String.eqb k b); cbn; [tauto|]. intros [H|H]; [tauto|]. destruct (IH H); tauto.
Qed.
Lemma get_in : forall V k (v : V) g, NoDup (map fst g) -> (In (k, v) g <-> get_key k g = Some v).
Proof.
  intros V k v g. induction g as [|(a, w) g IH]; cbn; intro N; [split; [contradiction|discriminate]|]. inversion N; subst. destruct (String.eqb_spec k a) as [->|X].
  - split; [intros [E|E]; [now injection E as <-|exfalso; apply H1; apply (in_map fst) in E; exact E]|intro E; injection E as <-; now left].
  - rewrite <- IH by assumption. split; [intros [E|E]; [congruence|exact E]|now right].
Qed.
(** An event of a key project, as it is in the calendar *)
Definition same (e e0 : event) : Prop := e_begin e = e_begin e0 /\ e_end e = e_end e0 /\ e_name e = e_name e0.
Lemma events_in : forall cal e, NoDup (map fst cal) -> (In e (events_of cal) <-> exists es e0, get_key (e_kp e) cal = Some es /\ In e0 es /\ same e e0).
Proof.
  intros cal e N. unfold events_of. rewrite in_flat_map. split.
  - intros ((k, es) & I & X). apply in_map_iff in X as (e0 & <- & X). cbn. exists es, e0. split; [now apply get_in|]. now repeat split.
  - intros (es & e0 & G & I & (S1 & S2 & S3)). apply get_in in G; [|exact N]. exists (e_kp e, es). split; [exact G|]. apply in_map_iff. exists e0. split; [|exact I]. destruct e. cbn in *. now subst.
Qed.
Definition with_kp (k : string) (f : file) : Prop := find_kp (f_name f) = Some k.
Definition last_of (k : string) (l : list file) (f : file) : Prop := exists pre post, l = pre ++ f :: post /\ with_kp k f /\ Forall (fun g => ~ with_kp k g) post.
Lemma ics_get : forall l cal out, NoDup (map fst cal) -> ics_calendars l cal = Ok out -> NoDup (map fst out) /\
  forall k es, get_key k out = Some es <-> ((exists f, last_of k l f /\ f_events f = es) \/ (Forall (fun g => ~ with_kp k g) l /\ get_key k cal = Some es)).
Proof.
  intros l. induction l as [|f l IH]; intros cal out N H; cbn [ics_calendars] in H.
  - injection H as <-. split; [exact N|]. intros k es. split; [intro G; right; now split|]. intros [(f & (pre & post & E & _) & _)|(_ & G)]; [destruct pre; discriminate|exact G].
  - destruct (find_kp (f_name f)) as [kp|] eqn:K; [|discriminate]. destruct (IH _ _ (keys_set _ _ _ _ N) H) as (N' & G). split; [exact N'|]. intros k es. rewrite G, get_set. split.
    + intros [(g & (pre & post & -> & W & F) & E)|(F & E)].
      * left. exists g. split; [|exact E]. exists (f :: pre), post. now repeat split.
      * destruct (String.eqb_spec k kp) as [->|X].
        -- left. exists f. split; [|now injection E]. exists [], l. now repeat split.
        -- right. split; [|exact E]. constructor; [unfold with_kp; congruence|exact F].
    + intros [(g & (pre & post & L & W & F) & E)|(F & E)].
      * destruct pre as [|p pre]; injection L as -> ->.
        -- right. split; [exact F|]. unfold with_kp in W. rewrite K in W. injection W as ->. now rewrite String.eqb_refl, E.
        -- left. exists g. split; [|exact E]. exists pre, post. now repeat split.
      * inversion F as [|? ? F1 F2]; subst. right. split; [exact F2|]. destruct (String.eqb_spec k kp) as [->|X]; [exfalso; apply F1; exact K|exact E].
Qed.
Theorem ics_last : forall l es, from_ics l = Ok es -> forall e, In e es <-> exists f e0, last_of (e_kp e) l f /\ In e0 (f_events f) /\ same e e0.
Proof.
  intros l es H e. unfold from_ics in H. destruct (ics_calendars l []) as [cal|] eqn:C; [|discriminate]. injection H as <-. destruct (ics_get l [] cal ltac:(constructor) C) as (N & G). rewrite (events_in cal e N). split.
  - intros (x & e0 & E & I & S). apply G in E as [(f & L & <-)|(_ & E)]; [|discriminate]. now exists f, e0.
  - intros (f & e0 & L & I & S). exists (f_events f), e0. split; [|now split]. apply G. left. now exists f.
Qed.
Theorem ics_lost_refuted : forall a f b g c es e0 k, from_ics (a ++ f :: b ++ g :: c) = Ok es -> with_kp k f -> with_kp k g -> In e0 (f_events f) ->
  Forall (fun h => with_kp k h -> forall e1, In e1 (f_events h) -> ~ same e0 e1) (g :: c) -> forall e, In e es -> e_kp e = k -> ~ same e e0.
Proof.
  intros a f b g c es e0 k H F G I U e E K (S1 & S2 & S3). apply (ics_last _ _ H) in E as (h & e1 & (pre & post & L & W & P) & I1 & (T1 & T2 & T3)). rewrite K in W, P.
  assert (X : In h (g :: c)).
  { assert (L' : (a ++ f :: b) ++ g :: c = pre ++ h :: post) by (rewrite <- app_assoc; exact L). clear L. revert L'. generalize (a ++ f :: b). intro q. revert pre. induction q as [|x q IHq]; intros pre L.
    - cbn in L. rewrite L. apply in_or_app. right. now left.
    - destruct pre as [|y pre]; cbn in L; injection L as -> L; [|exact (IHq pre L)]. exfalso. rewrite Forall_forall in P. apply (P g); [|exact G]. rewrite <- L. apply in_or_app. right. now left. }
  rewrite Forall_forall in U. apply (U h X W e1 I1). unfold same. rewrite <- S1, <- S2, <- S3. now repeat split.
Qed.
Lemma csv_get : forall l cal out, NoDup (map fst cal) -> csv_calendars l cal = Ok out -> NoDup (map fst out) /\
  forall k e, (exists es, get_key k out = Some es /\ In e es) <-> ((exists f, In f l /\ with_kp k f /\ In e (f_events f)) \/ exists es, get_key k cal = Some es /\ In e es).
Proof.
  intros l. induction l as [|f l IH]; intros cal out N H; cbn [csv_calendars] in H.
  - injection H as <-. split; [exact N|]. intros k e. split; [now right|]. intros [(f & [] & _)|X]; exact X.
  - destruct (find_kp (f_name f)) as [kp|] eqn:K; [|discriminate]. destruct (IH _ _ (keys_set _ _ _ _ N) H) as (N' & G). split; [exact N'|]. intros k e. rewrite G. split.
    + intros [(g & I & W & E)|(es & E & I)]; [left; exists g; split; [now right|now split]|]. rewrite get_set in E. destruct (String.eqb_spec k kp) as [->|X]; [|right; now exists es]. injection E as <-.
      destruct (get_key kp cal) as [x|]; [apply in_app_or in I as [I|I]; [right; now exists x|]|]; left; exists f; (split; [now left|now split]).
    + intros [(g & [<-|I] & W & E)|(es & E & I)].
      * right. rewrite get_set. unfold with_kp in W. rewrite K in W. injection W as ->. rewrite String.eqb_refl. eexists. split; [reflexivity|]. destruct (get_key k cal); [apply in_or_app; now right|exact E].
      * left. now exists g.
      * right. rewrite get_set. destruct (String.eqb_spec k kp) as [->|X]; [|now exists es]. rewrite E. eexists. split; [reflexivity|]. apply in_or_app. now left.
Qed.
Theorem csv_all : forall l es, from_csv l = Ok es -> forall e, In e es <-> exists f e0, In f l /\ with_kp (e_kp e) f /\ In e0 (f_events f) /\ same e e0.
Proof.
  intros l es H e. unfold from_csv in H. destruct (csv_calendars l []) as [cal|] eqn:C; [|discriminate]. injection H as <-. destruct (csv_get l [] cal ltac:(constructor) C) as (N & G). rewrite (events_in cal e N). split.
  - intros (x & e0 & E & I & S). destruct (proj1 (G (e_kp e) e0) (ex_intro _ x (conj E I))) as [(f & F & W & J)|(y & Y & _)]; [|discriminate]. now exists f, e0.
  - intros (f & e0 & F & W & I & S). destruct (proj2 (G (e_kp e) e0) (or_introl (ex_intro _ f (conj F (conj W I))))) as (x & E & J). now exists x, e0.
Qed.
Theorem files_named : forall l, (from_ics l = Err EValueError <-> exists f, In f l /\ find_kp (f_name f) = None) /\ (from_csv l = Err EValueError <-> exists f, In f l /\ find_kp (f_name f) = None) /\
  (Forall (fun f => find_kp (f_name f) <> None) l -> (exists a, from_ics l = Ok a) /\ exists b, from_csv l = Ok b).
Proof.
  assert (A : forall l cal, (exists f, In f l /\ find_kp (f_name f) = None) /\ ics_calendars l cal = Err EValueError \/ Forall (fun f => find_kp (f_name f) <> None) l /\ exists c, ics_calendars l cal = Ok c).
  { induction l as [|f l IH]; intro cal; cbn [ics_calendars]; [right; split; [constructor|now eexists]|]. destruct (find_kp (f_name f)) as [k|] eqn:K; [|left; split; [exists f; split; [now left|exact K]|reflexivity]].
    destruct (IH (set_key k (f_events f) cal)) as [((g & I & G) & E)|(F & E)]; [left; split; [exists g; split; [now right|exact G]|exact E]|right; split; [constructor; [congruence|exact F]|exact E]]. }
  assert (B : forall l cal, (exists f, In f l /\ find_kp (f_name f) = None) /\ csv_calendars l cal = Err EValueError \/ Forall (fun f => find_kp (f_name f) <> None) l /\ exists c, csv_calendars l cal = Ok c).
  { induction l as [|f l IH]; intro cal; cbn [csv_calendars]; [right; split; [constructor|now eexists]|]. destruct (find_kp (f_name f)) as [k|] eqn:K; [|left; split; [exists f; split; [now left|exact K]|reflexivity]].
    destruct (IH (set_key k (match get_key k cal with Some es => es ++ f_events f | None => f_events f end) cal)) as [((g & I & G) & E)|(F & E)]; [left; split; [exists g; split; [now right|exact G]|exact E]|right; split; [constructor; [congruence|exact F]|exact E]]. }
  assert (C : forall l, Forall (fun f => find_kp (f_name f) <> None) l -> ~ exists f, In f l /\ find_kp (f_name f) = None).
  { intros l F (f & I & X). rewrite Forall_forall in F. exact (F f I X). }
  intro l. unfold from_ics, from_csv. split; [|split].
  - destruct (A l []) as [(X & ->)|(F & c & ->)]; cbn [bind]; [tauto|]. split; [discriminate|]. intro X. destruct (C l F X).
  - destruct (B l []) as [(X & ->)|(F & c & ->)]; cbn [bind]; [tauto|]. split; [discriminate|]. intro X. destruct (C l F X).
  - intro F. split; [destruct (A l []) as [(X & _)|(_ & c & ->)]; [destruct (C l F X)|now eexists]|destruct (B l []) as [(X & _)|(_ & c & ->)]; [destruct (C l F X)|now eexists]].
Qed.
(** Excel files: the last one with the key project *)
Definition last_book (k : string) (l : list (list (string * list event))) (es : list event) : Prop :=
  exists pre c post, l = pre ++ c :: post /\ In (k, es) c /\ Forall (fun d => ~ In k (map fst d)) post.
Lemma fold_keys : forall (c : list (string * list event)) cal, NoDup (map fst cal) -> NoDup (map fst c) ->
  NoDup (map fst (fold_left (fun cal ke => set_key (fst ke) (snd ke) cal) c cal)) /\
  forall k, get_key k (fold_left (fun cal ke => set_key (fst ke) (snd ke) cal) c cal) = match get_key k c with Some es => Some es | None => get_key k cal end.
Proof.
  intros c. induction c as [|(a, es) c IH]; intros cal N M; [now split|]. cbn [fold_left fst snd map] in *. inversion M; subst. destruct (IH (set_key a es cal) (keys_set _ _ _ _ N) H2) as (N' & G). split; [exact N'|]. intro k. rewrite G, get_set. cbn.
  destruct (String.eqb_spec k a) as [->|X]; [|reflexivity]. destruct (get_key a c) as [y|] eqn:E; [|reflexivity]. exfalso. apply (get_in _ a y c H2) in E. apply (in_map fst) in E. contradiction.
Qed.
Lemma get_none : forall V k (g : list (string * V)), get_key k g = None <-> ~ In k (map fst g).
Proof.
  intros V k g. induction g as [|(a, w) g IH]; cbn; [tauto|]. destruct (String.eqb_spec k a) as [->|X]; [split; [discriminate|tauto]|]. rewrite IH. split; [intros H [E|E]; [congruence|tauto]|tauto].
Qed.
Theorem xls_last : forall l, Forall (fun c => NoDup (map fst c)) l -> forall e, In e (from_xls l) <-> exists es e0, last_book (e_kp e) l es /\ In e0 es /\ same e e0.
Proof.
  intros l F. assert (X : NoDup (map fst (xls_calendars l)) /\ forall k es, get_key k (xls_calendars l) = Some es <-> last_book k l es).
  { unfold xls_calendars. induction l as [|c l IH] using rev_ind; [split; [constructor|]; intros k es; split; [discriminate|intros (pre & c & post & E & _); destruct pre; discriminate]|].
    apply Forall_app in F as (F1 & F2). inversion F2; subst. rewrite fold_left_app. cbn [fold_left]. destruct (IH F1) as (N & G). destruct (fold_keys c _ N H1) as (N' & G'). split; [exact N'|]. intros k es. rewrite G'. split.
    - destruct (get_key k c) as [y|] eqn:E.
      + intro Q. injection Q as ->. exists l, c, []. split; [reflexivity|]. split; [now apply get_in|constructor].
      + rewrite G. intros (pre & d & post & -> & I & P). exists pre, d, (post ++ [c]). split; [now rewrite <- app_assoc|]. split; [exact I|]. apply Forall_app. split; [exact P|]. constructor; [now apply get_none|constructor].
    - intros (pre & d & post & E & I & P). destruct post as [|z post] using rev_ind.
      + apply app_inj_tail in E as (-> & ->). apply get_in in I; [|exact H1]. now rewrite I.
      + clear IHpost. rewrite app_comm_cons, app_assoc in E. apply app_inj_tail in E as (-> & ->). apply Forall_app in P as (P1 & P2). inversion P2; subst. rewrite (proj2 (get_none _ k z) H3), G. exists pre, d, post. now repeat split. }
  destruct X as (N & G). intro e. unfold from_xls. rewrite (events_in _ e N). split; intros (es & e0 & H & I); exists es, e0; (split; [now apply G|exact I]).
Qed.
