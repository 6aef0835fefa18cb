(** Specifications and lemmas for M_Antenna: names of files, headers, temperatures. *)
From Coq Require Import Ascii String List Arith ZArith QArith Qabs Bool Lia Lqa.
From Verif Require Import Base M_Antenna.
Import ListNotations.
Open Scope nat_scope.
Open Scope list_scope.

(** * Names *)
Inductive char_in (c : ascii) : string -> Prop :=
| here : forall r, char_in c (String c r)
| there : forall a r, char_in c r -> char_in c (String a r).
Lemma not_in_cons : forall c a r, ~ char_in c (String a r) -> a <> c /\ ~ char_in c r.
Proof. intros c a r H; split; [intros ->; apply H; constructor|intros I; apply H; constructor; exact I]. Qed.
Lemma not_in_cons_intro : forall c a r, a <> c -> ~ char_in c r -> ~ char_in c (String a r).
Proof. intros c a r Ha Hr I; inversion I; subst; [now apply Ha|now apply Hr]. Qed.
Lemma not_in_nil : forall c, ~ char_in c EmptyString.
Proof. intros c I; inversion I. Qed.
Lemma in_app : forall c a b, char_in c (a ++ b)%string <-> char_in c a \/ char_in c b.
Proof.
  intros c a b; induction a as [|x a IH]; cbn.
  - split; [now right|intros [H|H]; [inversion H|exact H]].
  - split.
    + intros H; inversion H; subst; [left; constructor|apply IH in H1; destruct H1; [left; now constructor|now right]].
    + intros [H|H]; [inversion H; subst; [constructor|constructor; apply IH; now left]|constructor; apply IH; now right].
Qed.

Lemma upto_some : forall c s t, upto c s = Some t ->
  (exists b, s = (t ++ String c b)%string) /\ ~ char_in c t /\ ~ char_in "010" t.
Proof.
  intros c s; induction s as [|a s IH]; cbn; intros t H; [discriminate|].
  destruct (Ascii.eqb_spec a c) as [->|N].
  - injection H as <-; split; [exists s; reflexivity|split; apply not_in_nil].
  - destruct (Ascii.eqb_spec a "010") as [->|M]; [discriminate|].
    destruct (upto c s) as [u|]; [|discriminate]. injection H as <-.
    destruct (IH u eq_refl) as ((b & ->) & A & B).
    split; [exists b; reflexivity|split; apply not_in_cons_intro; assumption].
Qed.
(** A text without line break before a [c] *)
Lemma upto_finds : forall c t b, c <> "010"%char -> ~ char_in "010" t -> upto c (t ++ String c b)%string <> None.
Proof.
  intros c t b Hc; induction t as [|a t IH]; cbn; intros H.
  - rewrite Ascii.eqb_refl; discriminate.
  - apply not_in_cons in H; destruct H as (A & B).
    destruct (Ascii.eqb a c); [discriminate|].
    destruct (Ascii.eqb_spec a "010"); [contradiction|].
    destruct (upto c (t ++ String c b)); [discriminate|now destruct (IH B)].
Qed.
Lemma upto_short : forall c t b, c <> "010"%char -> ~ char_in "010" t -> ~ char_in c t -> upto c (t ++ String c b)%string = Some t.
Proof.
  intros c t b Hc; induction t as [|a t IH]; cbn; intros H K.
  - now rewrite Ascii.eqb_refl.
  - apply not_in_cons in H, K; destruct H as (A & B), K as (C & D).
    destruct (Ascii.eqb_spec a c); [contradiction|].
    destruct (Ascii.eqb_spec a "010"); [contradiction|]. now rewrite IH.
Qed.
Lemma after_spec : forall p s r, after p s = Some r <-> s = (p ++ r)%string.
Proof.
  induction p as [|a p IH]; cbn; intros s r.
  - split; [now intros [= ->]|now intros ->].
  - destruct s as [|b s]; [split; discriminate|].
    destruct (Ascii.eqb_spec a b) as [->|N].
    + rewrite IH; split; [now intros ->|now intros [= ->]].
    + split; [discriminate|intros [= E _]; congruence].
Qed.

(** The places of "(f=...)": a text without line break between "(f=" and ")". *)
Definition marked (name a t b : string) : Prop := name = (a ++ "(f=" ++ t ++ ")" ++ b)%string /\ ~ char_in "010" t.
(** The first of them, as short as possible *)
Definition first_mark (name t : string) : Prop :=
  (exists a b, marked name a t b /\ (forall a' t' b', marked name a' t' b' -> String.length a <= String.length a')) /\
  ~ char_in ")" t.
Lemma found_some : forall name t, found name = Some t -> first_mark name t.
Proof.
  induction name as [|c s IH]; intros t H; cbn [found] in H; [discriminate|].
  destruct (after "(f=" (String c s)) as [r|] eqn:E.
  - destruct (upto ")" r) as [u|] eqn:U.
    + injection H as <-. apply after_spec in E. destruct (upto_some _ _ _ U) as ((b & ->) & A & B).
      split; [|exact A]. exists EmptyString, b. split; [split; [exact E|exact B]|]. intros; cbn; lia.
    + destruct (IH _ H) as ((a & b & (M & N) & F) & P). split; [|exact P].
      exists (String c a), b. split; [split; [now rewrite M|exact N]|].
      intros a' t' b' (M' & N'). destruct a' as [|x a'].
      * exfalso. apply after_spec in E. rewrite E in M'. cbn in M'. injection M' as M'. subst r.
        exact (upto_finds ")" t' b' ltac:(discriminate) N' U).
      * cbn. injection M' as _ M'. specialize (F a' t' b' (conj M' N')). lia.
  - destruct (IH _ H) as ((a & b & (M & N) & F) & P). split; [|exact P].
    exists (String c a), b. split; [split; [now rewrite M|exact N]|].
    intros a' t' b' (M' & N'). destruct a' as [|x a'].
    + exfalso. cbn in M'. assert (E' : after "(f=" (String c s) = Some (t' ++ ")" ++ b')%string) by (apply after_spec; exact M'). congruence.
    + cbn. injection M' as _ M'. specialize (F a' t' b' (conj M' N')). lia.
Qed.
Lemma found_none : forall name, found name = None -> forall a t b, ~ marked name a t b.
Proof.
  induction name as [|c s IH]; intros H a t b (M & N); cbn [found] in H.
  - destruct a; discriminate.
  - destruct a as [|x a].
    + assert (E : after "(f=" (String c s) = Some (t ++ ")" ++ b)%string) by (apply after_spec; exact M).
      rewrite E in H. destruct (upto ")" (t ++ ")" ++ b)) eqn:U; [discriminate|].
      exact (upto_finds ")" t b ltac:(discriminate) N U).
    + injection M as _ M. refine (IH _ a t b (conj M N)).
      destruct (match after "(f=" (String c s) with Some r => upto ")" r | None => None end); [discriminate|exact H].
Qed.
Lemma app_assoc_s : forall a b c, ((a ++ b) ++ c = a ++ (b ++ c))%string.
Proof. induction a as [|x a IH]; intros; cbn; [reflexivity|now rewrite IH]. Qed.
Lemma app_eq_len : forall a b c d : string, (a ++ b = c ++ d)%string -> String.length a = String.length c -> a = c /\ b = d.
Proof.
  induction a as [|x a IH]; intros b [|y c] d E L; cbn in *; try discriminate; [now split|].
  injection E as -> E. injection L as L. destruct (IH _ _ _ E L) as (-> & ->). now split.
Qed.
Lemma first_mark_unique : forall name t u, first_mark name t -> first_mark name u -> t = u.
Proof.
  intros name t u ((a & b & M & F) & P) ((a' & b' & M' & F') & P').
  pose proof (F _ _ _ M'). pose proof (F' _ _ _ M). destruct M as (E & _), M' as (E' & _).
  rewrite E in E'. destruct (app_eq_len _ _ _ _ E' ltac:(lia)) as (_ & X).
  cbn in X. injection X as X. clear - X P P'. revert u P' X; induction t as [|x t IH]; intros [|y u] P' X; cbn in X; try reflexivity.
  - injection X as <- _. now destruct P'; constructor.
  - injection X as -> _. now destruct P; constructor.
  - injection X as -> X. apply not_in_cons in P, P'. f_equal. apply IH; tauto.
Qed.
Theorem frequency_of_name : forall float name q,
  infer_frequency float name = Ok q <-> exists t, first_mark name t /\ float t = Some q.
Proof.
  intros; unfold infer_frequency. destruct (found name) as [t|] eqn:E.
  - pose proof (found_some _ _ E) as F. destruct (float t) eqn:G; split.
    + intros [= <-]; exists t; now split.
    + intros (u & U & V). rewrite (first_mark_unique _ _ _ F U) in G; congruence.
    + discriminate.
    + intros (u & U & V). rewrite (first_mark_unique _ _ _ F U) in G; congruence.
  - split; [discriminate|]. intros (t & ((a & b & M & _) & _) & _). now destruct (found_none _ E a t b).
Qed.
Theorem frequency_absent : forall float name,
  infer_frequency float name = Err EIndexError <-> forall a t b, ~ marked name a t b.
Proof.
  intros; unfold infer_frequency. destruct (found name) as [t|] eqn:E.
  - split; [destruct (float t); discriminate|]. destruct (found_some _ _ E) as ((a & b & M & _) & _).
    intros H; now destruct (H a t b).
  - split; [intros _; exact (found_none _ E)|reflexivity].
Qed.
Theorem frequency_text : forall float a t b q, ~ char_in "("%char a -> ~ char_in ")"%char t -> ~ char_in "010"%char t -> float t = Some q ->
  infer_frequency float (a ++ "(f=" ++ t ++ ")" ++ b)%string = Ok q.
Proof.
  intros float a t b q A T N Q. unfold infer_frequency.
  assert (E : found (a ++ "(f=" ++ t ++ ")" ++ b)%string = Some t).
  { induction a as [|x a IH].
    - cbn [append]. cbn [found after]. cbn. rewrite upto_short; auto. discriminate.
    - apply not_in_cons in A; destruct A as (A & B). cbn [append found after].
      destruct (Ascii.eqb_spec "(" x) as [<-|_]; [now destruct A|]. now apply IH. }
  now rewrite E, Q.
Qed.

(** * Headers *)
Lemma split_on_cons : forall c s, exists x l, split_on c s = x :: l.
Proof. intros c s; induction s as [|a s (x & l & E)]; cbn; [eauto|]. destruct (Ascii.eqb a c); [eauto|rewrite E; eauto]. Qed.
Lemma split_on_absent : forall c s, ~ char_in c s -> split_on c s = [s].
Proof.
  intros c s; induction s as [|a s IH]; intros H; cbn; [reflexivity|]. apply not_in_cons in H; destruct H as (A & B).
  destruct (Ascii.eqb_spec a c); [contradiction|]. now rewrite IH.
Qed.
Lemma split_on_app : forall c s r, ~ char_in c s -> split_on c (s ++ String c r)%string = s :: split_on c r.
Proof.
  intros c s r; induction s as [|a s IH]; intros H; cbn; [now rewrite Ascii.eqb_refl|]. apply not_in_cons in H; destruct H as (A & B).
  destruct (Ascii.eqb_spec a c); [contradiction|]. now rewrite IH.
Qed.
(** The text of a header: each column is a name and a unit between brackets; something may
    follow the last one. *)
Definition header_text (l : list (string * string)) (end_ : string) : string :=
  fold_right (fun c s => (fst c ++ "[" ++ snd c ++ "]" ++ s)%string) end_ l.
Definition plain (s : string) : Prop := ~ char_in "[" s /\ ~ char_in "]" s.
Lemma header_split : forall l e, Forall (fun c => plain (fst c) /\ plain (snd c)) l -> ~ char_in "]" e ->
  split_on "]" (header_text l e) = map (fun c => fst c ++ "[" ++ snd c)%string l ++ [e].
Proof.
  intros l e F E; induction F as [|[n u] l ((A & B) & (C & D)) F IH]; cbn [header_text fold_right map app fst snd].
  - now apply split_on_absent.
  - cbn in A, B, C, D. change (fold_right _ e l) with (header_text l e).
    replace (n ++ "[" ++ u ++ "]" ++ header_text l e)%string with ((n ++ "[" ++ u) ++ String "]" (header_text l e))%string by (rewrite !app_assoc_s; reflexivity).
    rewrite split_on_app; [now rewrite IH|]. rewrite !in_app. cbn. intros [H|[H|H]]; [contradiction| |contradiction].
    inversion H as [|? ? K]; inversion K.
Qed.
Lemma collect_ok : forall {A B} (f : A -> res B) (l : list A) (r : list B), collect (map f l) = Ok r <-> Forall2 (fun a b => f a = Ok b) l r.
Proof.
  intros A B f l; induction l as [|a l IH]; cbn; intros r.
  - split; [intros [= <-]; constructor|intros H; inversion H; reflexivity].
  - destruct (f a) as [b|e] eqn:E; cbn.
    + destruct (collect (map f l)) as [t|e] eqn:C; cbn.
      * split; [intros [= <-]; constructor; [exact E|now apply IH]|].
        intros H; inversion H as [|? ? ? ? H1 H2]; subst. apply IH in H2. congruence.
      * split; [discriminate|]. intros H; inversion H as [|? ? ? ? H1 H2]; subst. apply IH in H2. congruence.
    + split; [discriminate|]. intros H; inversion H; congruence.
Qed.
Lemma column_text : forall U (unit : string -> option U) n u, plain n -> plain u ->
  column unit (n ++ "[" ++ u)%string = match unit u with Some v => Ok (without " " n, v) | None => Err EValueError end.
Proof.
  intros U unit n u (A & B) (C & D). unfold column. change (n ++ "[" ++ u)%string with (n ++ String "[" u)%string.
  rewrite split_on_app, split_on_absent by assumption. reflexivity.
Qed.
(** A text with its characters other than spaces *)
Definition spaceless (s : string) : string :=
  string_of_list_ascii (filter (fun c => negb (Ascii.eqb c " ")) (list_ascii_of_string s)).
Lemma without_spaces : forall s, without " " s = spaceless s.
Proof.
  unfold spaceless. induction s as [|a s IH]; [reflexivity|]. cbn [without list_ascii_of_string filter].
  destruct (Ascii.eqb a " "); cbn [negb string_of_list_ascii]; now rewrite IH.
Qed.
Theorem header_columns : forall U (unit : string -> option U) l e r,
  Forall (fun c => plain (fst c) /\ plain (snd c)) l -> ~ char_in "]" e ->
  (columns unit (header_text l e) = Ok r <->
   map fst r = map (fun c => spaceless (fst c)) l /\ map (fun c => Some (snd c)) r = map (fun c => unit (snd c)) l).
Proof.
  intros U unit l e r F E. rewrite <- (map_ext (fun c : string * string => without " " (fst c)) _ (fun c => without_spaces (fst c))).
  unfold columns. rewrite header_split by assumption. rewrite removelast_last, map_map, collect_ok.
  revert r; induction F as [|[n u] l (A & B) F IH]; intros r; cbn [map fst snd].
  - split; [intros H; inversion H; now split|intros (H & _); destruct r; [constructor|discriminate]].
  - rewrite <- (column_text U unit n u A B) at 0 || idtac. split.
    + intros H; inversion H as [|? [m v] ? r' H1 H2]; subst. cbn [fst snd] in H1. rewrite column_text in H1 by assumption.
      apply IH in H2. destruct H2 as (X & Y). destruct (unit u) as [w|]; [|discriminate]. injection H1 as <- <-.
      cbn [map fst snd]. now rewrite X, Y.
    + intros (X & Y). destruct r as [|[m v] r]; [discriminate|]. cbn [map fst snd] in X, Y. injection X as -> X. injection Y as Y1 Y.
      constructor; [|apply IH; now split]. cbn [fst snd]. rewrite column_text by assumption. now rewrite <- Y1.
Qed.
Theorem header_refused : forall U (unit : string -> option U) header col,
  In col (removelast (split_on "]" header)) -> length (split_on "[" col) <> 2 -> exists e, columns unit header = Err e.
Proof.
  intros U unit header col I N. unfold columns. destruct (collect _) as [r|e] eqn:C; [|eauto]. exfalso.
  apply collect_ok in C. clear -C I N. induction C as [|a b l r H C IH]; [contradiction|].
  destruct I as [->|I]; [|now apply IH]. unfold column in H. destruct (split_on "[" col) as [|x [|y [|z t]]]; try discriminate; now destruct N.
Qed.

(** * Temperatures *)
Fixpoint pow (x : Q) (n : nat) : Q := match n with O => 1%Q | S n => (x * pow x n)%Q end.
(** The first coefficient is that of the highest power. *)
Fixpoint poly (c : list Q) (x : Q) : Q := match c with [] => 0%Q | a :: r => (a * pow x (length r) + poly r x)%Q end.
Lemma horner_poly : forall c acc x, (horner c acc x == acc * pow x (length c) + poly c x)%Q.
Proof.
  induction c as [|a c IH]; intros acc x; cbn [horner poly length pow]; [ring|]. rewrite IH. ring.
Qed.
(** The fits, in kelvins of megahertz *)
Definition fit_low : list Q := [6.2699888333e-05; -0.019932340239; 2.60625093843; -179.560314268; 6890.14953844; -140196.209123; 1189842.07708]%Q.
Definition fit_high : list Q := [6.64031379234e-08; -6.27815750717e-05; 0.0246844426766; -5.16281033712; 605.474082663; -37730.3913315; 975867.990312]%Q.
Lemma poly_same : forall c d x, Forall2 Qeq c d -> (poly c x == poly d x)%Q.
Proof.
  intros c d x H; induction H as [|a b c d E H IH]; cbn [poly]; [reflexivity|]. assert (L : length c = length d) by (clear -H; induction H; cbn; congruence).
  now rewrite L, E, IH.
Qed.
Lemma assign_nth : forall mask v l t k f, length t = length l -> nth_error l k = Some f ->
  exists o, nth_error t k = Some o /\ nth_error (assign mask v l t) k = Some (if mask f then v f else o).
Proof.
  unfold assign. induction l as [|x l IH]; intros [|y t] k f L H; try discriminate; [destruct k; discriminate|].
  destruct k as [|k]; cbn in *; [injection H as ->; exists y; now split|]. apply IH; [lia|exact H].
Qed.
Lemma assign_length : forall mask v l t, length t = length l -> length (assign mask v l t) = length l.
Proof. intros. unfold assign. rewrite map_length, combine_length. lia. Qed.
Theorem temperature_array : forall l empty, length empty = length l ->
  length (lofar_instrument_temperature l empty) = length l /\
  forall k f, nth_error l k = Some f -> exists o, nth_error (lofar_instrument_temperature l empty) k = Some o /\
    (o = None <-> 90 < f /\ f < 110)%Q /\
    forall v, o = Some v -> ((f <= 90)%Q /\ v == poly fit_low f)%Q \/ ((110 <= f)%Q /\ v == poly fit_high f)%Q.
Proof.
  intros l empty L. unfold lofar_instrument_temperature. cbv zeta. split; [repeat (rewrite assign_length; [try reflexivity|]); auto; now rewrite ?assign_length|].
  intros k f H.
  assert (FL : Forall2 Qeq lba fit_low) by (repeat constructor). assert (FH : Forall2 Qeq hba fit_high) by (repeat constructor).
  set (t1 := assign _ _ l empty). assert (L1 : length t1 = length l) by (now apply assign_length).
  set (t2 := assign _ _ l t1). assert (L2 : length t2 = length l) by (now apply assign_length).
  destruct (assign_nth (fun f => Qle_bool f 90) (fun f => Some (horner lba 0 f)) l empty k f L H) as (o0 & _ & E1). fold t1 in E1.
  destruct (assign_nth (fun f => Qle_bool 110 f) (fun f => Some (horner hba 0 f)) l t1 k f L1 H) as (o1 & F1 & E2). fold t2 in E2.
  destruct (assign_nth (fun f => negb (Qle_bool f 90 || Qle_bool 110 f)) (fun _ => None) l t2 k f L2 H) as (o2 & F2 & E3).
  eexists; split; [exact E3|]. assert (X1 : o1 = if Qle_bool f 90 then Some (horner lba 0 f) else o0) by congruence.
  assert (X2 : o2 = if Qle_bool 110 f then Some (horner hba 0 f) else o1) by congruence. clear E1 E2 E3 F1 F2. subst o1 o2.
  destruct (Qle_bool f 90) eqn:A; [|destruct (Qle_bool 110 f) eqn:B]; cbn [orb negb].
  - apply Qle_bool_iff in A. assert (B : Qle_bool 110 f = false) by (apply not_true_is_false; intro B; apply Qle_bool_iff in B; lra). rewrite B.
    split; [split; [discriminate|intros (X & _); exfalso; lra]|]. intros v V. assert (W : v = horner lba 0 f) by congruence. left. split; [exact A|].
    rewrite W, horner_poly, (poly_same _ _ f FL). ring.
  - apply Qle_bool_iff in B. split; [split; [discriminate|intros (_ & X); exfalso; lra]|]. intros v V. assert (W : v = horner hba 0 f) by congruence. right. split; [exact B|].
    rewrite W, horner_poly, (poly_same _ _ f FH). ring.
  - split; [|discriminate]. split; [intros _|reflexivity]. split; apply Qnot_le_lt; intros X; apply Qle_bool_iff in X; congruence.
Qed.
