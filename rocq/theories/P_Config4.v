(** The parameters of a digital beam. *)
From Coq Require Import Ascii String List Arith ZArith QArith Qround Qabs Bool Lia Lqa.
From Verif Require Import Base M_Polar M_Dedisperse M_Pipeline M_PText M_POptions M_Parset P_PText M_Config P_Config P_Config2 P_Config3.
Import ListNotations.
Open Scope list_scope.

(** ** Specification *)
(** Letters of names and values. *)
Definition letter (c : ascii) : Prop := is_space c = false /\ c <> "="%char /\ c <> ":"%char /\ c <> "-"%char.
Fixpoint plain (s : string) : Prop := match s with EmptyString => True | String c r => letter c /\ plain r end.
Definition concat_text (l : list string) : string := fold_right String.append EmptyString l.
(** "tf: dt=10 df=3.05" *)
Definition tf_text (mode : string) (l : list (string * string)) : string :=
  (mode ++ ":" ++ concat_text (map (fun p => " " ++ fst p ++ "=" ++ snd p) l))%string.
(** "fold: --tfold=10 --onlyi " *)
Definition option_text (o : string * option string) : string :=
  (fst o ++ match snd o with Some v => "=" ++ v | None => "" end ++ " ")%string.
Definition pulsar_text (mode : string) (l : list (string * option string)) : string :=
  (mode ++ ": " ++ concat_text (map (fun o => "--" ++ option_text o) l))%string.
(** The last value given. *)
Inductive last_given {V} (k : string) : list (string * V) -> V -> Prop :=
| last_here v l : ~ In k (map fst l) -> last_given k ((k, v) :: l) v
| last_later p l v : last_given k l v -> last_given k (p :: l) v.

(** ** Texts *)
Lemma app_nil_s s : (s ++ "" = s)%string. Proof. induction s as [|c s IH]; cbn; [reflexivity|now rewrite IH]. Qed.
Lemma app_assoc_s a b c : ((a ++ b) ++ c = a ++ b ++ c)%string. Proof. induction a as [|x a IH]; cbn; [reflexivity|now rewrite IH]. Qed.
Lemma plain_app a b : plain (a ++ b)%string <-> plain a /\ plain b.
Proof. induction a as [|c a IH]; cbn; [tauto|]. rewrite IH. tauto. Qed.
Lemma plain_without c s : (c = "="%char \/ c = ":"%char \/ c = "-"%char) -> plain s -> without c s.
Proof.
  intros C. induction s as [|x s IH]; cbn; [reflexivity|]. intros [[_ (A & B & D)] P]. apply without_cons. split; [destruct C as [->|[->| ->]]; assumption|now apply IH].
Qed.
Lemma plain_no_char c s s' : has_char c s = true -> plain s' -> (c = "="%char \/ c = ":"%char \/ c = "-"%char) -> s' <> s.
Proof. intros H P C ->. rewrite (plain_without c s C P) in H. discriminate. Qed.
Lemma words_plain w : forall cur rest, plain w -> words_from cur (w ++ rest) = words_from (cur ++ w) rest.
Proof.
  induction w as [|c w IH]; intros cur rest P; [cbn; now rewrite app_nil_s|]. destruct P as [[S _] P]. cbn [String.append words_from]. rewrite S, IH by exact P. f_equal. rewrite app_assoc_s. reflexivity.
Qed.
Lemma words_space cur rest : cur <> EmptyString -> words_from cur (String " " rest) = cur :: words_from "" rest.
Proof. intro H. cbn [words_from]. change (is_space " ") with true. cbn iota. destruct (String.eqb cur "") eqn:E; [apply String.eqb_eq in E; contradiction|reflexivity]. Qed.
Definition no_space (s : string) : Prop := forall cur rest, words_from cur (s ++ rest) = words_from (cur ++ s) rest.
Lemma no_space_app a b : no_space a -> no_space b -> no_space (a ++ b)%string.
Proof. intros A B cur rest. rewrite app_assoc_s, A, B, app_assoc_s. reflexivity. Qed.
Lemma no_space_char c : is_space c = false -> no_space (String c "").
Proof. intros H cur rest. cbn [String.append words_from]. now rewrite H. Qed.
Lemma no_space_plain s : plain s -> no_space s. Proof. intros P cur rest. now apply words_plain. Qed.
Lemma pair_no_space p : plain (fst p) -> plain (snd p) -> no_space (fst p ++ "=" ++ snd p)%string.
Proof. intros A B. apply no_space_app; [now apply no_space_plain|]. apply no_space_app; [now apply no_space_char|now apply no_space_plain]. Qed.
Lemma words_pairs l : Forall (fun p => plain (fst p) /\ plain (snd p)) l -> forall cur, cur <> EmptyString ->
  words_from cur (concat_text (map (fun p => " " ++ fst p ++ "=" ++ snd p) l))%string = cur :: map (fun p => (fst p ++ "=" ++ snd p)%string) l.
Proof.
  induction l as [|p l IH]; intros F cur N; cbn [map concat_text fold_right].
  - cbn. destruct (String.eqb cur "") eqn:E; [apply String.eqb_eq in E; contradiction|reflexivity].
  - inversion F as [|? ? [A B] F']; subst. change (words_from cur (String " " ((fst p ++ "=" ++ snd p) ++ concat_text (map (fun p => " " ++ fst p ++ "=" ++ snd p) l)))%string = cur :: (fst p ++ "=" ++ snd p)%string :: map (fun p => (fst p ++ "=" ++ snd p)%string) l).
    rewrite words_space by exact N. f_equal. rewrite pair_no_space by assumption. cbn [String.append]. apply IH; [exact F'|]. destruct (fst p); discriminate.
Qed.
Lemma dashes_none s : without "-" s -> split_dashes s = [s].
Proof.
  induction s as [|c s IH]; [reflexivity|]. intro W. apply without_cons in W. destruct W as [A B]. cbn [split_dashes]. rewrite (IH B). destruct s as [|d s]; [reflexivity|]. apply Ascii.eqb_neq in A. rewrite A. reflexivity.
Qed.
Lemma dashes_first s rest : without "-" s -> split_dashes (s ++ "--" ++ rest)%string = s :: split_dashes rest.
Proof.
  induction s as [|c s IH]; [reflexivity|]. intro W. apply without_cons in W. destruct W as [A B]. apply Ascii.eqb_neq in A.
  change ((String c s ++ "--" ++ rest)%string) with (String c (s ++ "--" ++ rest))%string. cbn [split_dashes]. rewrite (IH B). destruct (s ++ "--" ++ rest)%string eqn:E; [destruct s; discriminate|]. rewrite A. reflexivity.
Qed.
Lemma option_without o : plain (fst o) -> (forall v, snd o = Some v -> plain v) -> without "-" (option_text o).
Proof.
  intros A B. unfold option_text. apply without_app; [apply plain_without; auto|]. apply without_app; [|reflexivity]. destruct (snd o) as [v|]; [|reflexivity]. apply without_app; [reflexivity|apply plain_without; auto].
Qed.
Definition plain_option (o : string * option string) : Prop := plain (fst o) /\ forall v, snd o = Some v -> plain v.
Lemma dashes_options l : Forall plain_option l -> forall s, without "-" s -> split_dashes (s ++ concat_text (map (fun o => "--" ++ option_text o) l))%string = s :: map option_text l.
Proof.
  induction l as [|o l IH]; intros F s W; cbn [map concat_text fold_right].
  - rewrite app_nil_s. now apply dashes_none.
  - inversion F as [|? ? [A B] F']; subst. change ((("--" ++ option_text o) ++ fold_right String.append "" (map (fun o => "--" ++ option_text o) l))%string) with ("--" ++ (option_text o ++ concat_text (map (fun o => "--" ++ option_text o) l)))%string.
    rewrite dashes_first by exact W. f_equal. apply IH; [exact F'|now apply option_without].
Qed.
(** ** Dictionaries *)
Lemma pget_set {V} k (v : V) d k' : dict_get String.eqb k' (dict_set String.eqb k v d) = if String.eqb k' k then Some v else dict_get String.eqb k' d.
Proof.
  induction d as [|[n w] d IH]; cbn [dict_set dict_get]; [reflexivity|]. destruct (String.eqb k n) eqn:E; cbn [dict_get].
  - apply String.eqb_eq in E. subst n. destruct (String.eqb k' k); reflexivity.
  - destruct (String.eqb k' n) eqn:F; [|exact IH]. apply String.eqb_eq in F. subst n. rewrite String.eqb_sym, E. reflexivity.
Qed.
Lemma last_in {V} k l (v : V) : last_given k l v -> In (k, v) l.
Proof. induction 1; [now left|now right]. Qed.
Lemma last_or {V} k (l : list (string * V)) : (exists v, last_given k l v) \/ ~ In k (map fst l).
Proof.
  induction l as [|[n v] l [(w & IH)|IH]]; [now right|left; exists w; now constructor|]. destruct (string_dec n k) as [->|N]; [left; exists v; now constructor|right]. cbn. intros [E|E]; contradiction.
Qed.
Lemma fold_sets {V} k : forall (l : list (string * V)) d, match dict_get String.eqb k (fold_left (fun d p => dict_set String.eqb (fst p) (snd p) d) l d) with
  | Some v => last_given k l v \/ (~ In k (map fst l) /\ dict_get String.eqb k d = Some v)
  | None => ~ In k (map fst l) /\ dict_get String.eqb k d = None end.
Proof.
  induction l as [|[n v] l IH]; intro d; cbn [fold_left map fst snd].
  - destruct (dict_get String.eqb k d); auto.
  - specialize (IH (dict_set String.eqb n v d)). destruct (dict_get _ _ (fold_left _ _ _)) as [w|].
    + destruct IH as [L|[N G]]; [left; now constructor|]. rewrite pget_set in G. destruct (String.eqb k n) eqn:E.
      * apply String.eqb_eq in E. subst n. injection G as ->. left. now constructor.
      * right. apply String.eqb_neq in E. split; [|exact G]. cbn. intros [X|X]; [now subst|contradiction].
    + destruct IH as [N G]. rewrite pget_set in G. destruct (String.eqb k n) eqn:E; [discriminate|]. apply String.eqb_neq in E. split; [|exact G]. cbn. intros [X|X]; [now subst|contradiction].
Qed.
Lemma last_unique {V} k l (v w : V) : last_given k l v -> last_given k l w -> v = w.
Proof.
  intro A. revert w. induction A as [v l N|p l v L IH]; intros w B; inversion B as [? ? N'|? ? ? L']; subst; [reflexivity| | |now apply IH].
  - elim N. apply in_map_iff. exists (k, w). split; [reflexivity|now apply last_in].
  - elim N'. apply in_map_iff. exists (k, v). split; [reflexivity|now apply last_in].
Qed.
(** ** Theorems *)
Lemma put_pairs l d : Forall (fun p => plain (fst p) /\ plain (snd p)) l ->
  fold_left (fun d s => match split_char "=" s with k :: v :: _ => dict_set String.eqb k (DText v) d | _ => d end) (map (fun p => (fst p ++ "=" ++ snd p)%string) l) d =
  fold_left (fun d p => dict_set String.eqb (fst p) (snd p) d) (map (fun p => (fst p, DText (snd p))) l) d.
Proof.
  revert d. induction l as [|p l IH]; intros d F; [reflexivity|]. inversion F as [|? ? [A B] F']; subst. cbn [map fold_left fst snd]. change ((fst p ++ "=" ++ snd p)%string) with (fst p ++ String "=" (snd p))%string.
  rewrite split_char_app by (apply plain_without; auto). rewrite split_char_one by (apply plain_without; auto). apply IH. exact F'.
Qed.
Lemma has_pair p : has_char "=" (fst p ++ "=" ++ snd p)%string = true.
Proof. rewrite has_char_app. cbn. apply orb_true_r. Qed.
Lemma mode_first mode rest : plain mode -> match split_char ":" (mode ++ ":" ++ rest)%string with m :: _ => m | [] => EmptyString end = mode.
Proof. intro P. change ((mode ++ ":" ++ rest)%string) with (mode ++ String ":" rest)%string. rewrite split_char_app by (apply plain_without; auto). reflexivity. Qed.
Lemma filter_all {A} f (l : list A) : (forall x, In x l -> f x = true) -> filter f l = l.
Proof. induction l as [|x l IH]; intro H; cbn; [reflexivity|]. rewrite (H x (or_introl eq_refl)), IH; [reflexivity|]. intros y Y. apply H. now right. Qed.
Lemma concat_without c l : (forall s, In s l -> without c s) -> without c (concat_text l).
Proof. induction l as [|s l IH]; intro H; cbn [concat_text fold_right]; [reflexivity|]. apply without_app; [apply H; now left|apply IH; intros t T; apply H; now right]. Qed.
Lemma last_texts k l s : last_given k (map (fun p => (fst p, DText (snd p))) l) (DText s) <-> last_given k l s.
Proof.
  assert (E : forall l : list (string * string), map fst (map (fun p => (fst p, DText (snd p))) l) = map fst l) by (intro l'; rewrite map_map; reflexivity).
  induction l as [|[n v] l IH]; cbn [map fst snd]; split; intro H; inversion H; subst.
  - constructor. now rewrite <- E.
  - constructor. now apply IH.
  - constructor. now rewrite E.
  - constructor. now apply IH.
Qed.
Lemma last_text k l d : last_given k (map (fun p => (fst p, DText (snd p))) l) d -> exists s : string, d = DText s.
Proof. intro H. apply last_in in H. apply in_map_iff in H. destruct H as (p & E & _). injection E as _ <-. eauto. Qed.
Lemma tf_equal mode p l : has_char "=" (tf_text mode (p :: l)) = true.
Proof.
  unfold tf_text. cbn [map concat_text fold_right]. rewrite !has_char_app. change (has_char "=" "=") with true. destruct (has_char "=" mode), (has_char "=" ":"), (has_char "=" " "), (has_char "=" (fst p)); reflexivity.
Qed.
Theorem tf_parameters : forall text mode l, lower text = tf_text mode l -> plain mode -> Forall (fun p => plain (fst p) /\ plain (snd p)) l ->
  fst (parse_parameters text false) = mode /\
  forall k, plain k -> (forall v, dict_get String.eqb k (snd (parse_parameters text false)) = Some v <-> exists s, v = DText s /\ last_given k l s).
Proof.
  intros text mode l E M F. unfold parse_parameters. rewrite E. cbn [fst snd]. split; [now apply mode_first|]. intros k K v.
  assert (W : words (tf_text mode l) = (mode ++ ":")%string :: map (fun p => (fst p ++ "=" ++ snd p)%string) l).
  { unfold words, tf_text. rewrite (words_plain mode) by exact M. change ((":" ++ concat_text (map (fun p => " " ++ fst p ++ "=" ++ snd p) l))%string) with ((String ":" "") ++ concat_text (map (fun p => " " ++ fst p ++ "=" ++ snd p) l))%string.
    rewrite (no_space_char ":") by reflexivity. cbn [String.append]. apply words_pairs; [exact F|]. destruct mode; discriminate. }
  rewrite W. cbn [filter]. assert (H0 : has_char "=" (mode ++ ":")%string = false) by (apply without_app; [apply plain_without; auto|reflexivity]). rewrite H0.
  rewrite (filter_all (has_char "=")) by (intros s S; apply in_map_iff in S; destruct S as (p & <- & _); apply has_pair). rewrite put_pairs by exact F.
  assert (D : split_dashes (tf_text mode l) = [tf_text mode l]).
  { apply dashes_none. unfold tf_text. apply without_app; [apply plain_without; auto|]. apply without_app; [reflexivity|]. apply concat_without. intros s S. apply in_map_iff in S. destruct S as (p & <- & I). rewrite Forall_forall in F. destruct (F p I) as [A B].
    apply without_app; [reflexivity|]. apply without_app; [apply plain_without; auto|]. apply without_app; [reflexivity|apply plain_without; auto]. }
  rewrite D. set (d := fold_left _ (map _ l) []). assert (G : dict_get String.eqb k (fold_left (fun d s => dict_set String.eqb (rstrip_sp s) DTrue d) (filter (fun s => negb (has_char "=" s)) [tf_text mode l]) d) = dict_get String.eqb k d).
  { cbn [filter]. destruct (has_char "=" (tf_text mode l)) eqn:X; [reflexivity|]. cbn [negb fold_left]. rewrite pget_set. destruct l as [|p l]; [|rewrite tf_equal in X; discriminate].
    unfold tf_text. cbn [map concat_text fold_right]. rewrite app_nil_s. assert (N : rstrip_sp (mode ++ ":")%string = (mode ++ ":")%string). { clear. induction mode as [|c m IH]; [reflexivity|]. cbn [String.append rstrip_sp]. rewrite IH. destruct (m ++ ":")%string eqn:Y; [destruct m; discriminate|reflexivity]. }
    rewrite N. destruct (String.eqb k (mode ++ ":")) eqn:Y; [|reflexivity]. apply String.eqb_eq in Y. subst k. apply plain_app in K. destruct K as [_ [[_ (_ & C & _)] _]]. congruence. }
  rewrite G. subst d. assert (S := fold_sets k (map (fun p => (fst p, DText (snd p))) l) []). destruct (dict_get String.eqb k (fold_left _ (map _ l) [])) as [w|].
  - destruct S as [L|[_ S]]; [|discriminate]. split.
    + intro X. injection X as <-. destruct (last_text _ _ _ L) as (s & ->). exists s. split; [reflexivity|now apply last_texts].
    + intros (s & -> & L'). f_equal. apply (last_unique k _ _ _ L). now apply last_texts.
  - split; [discriminate|]. intros (s & _ & L'). apply last_texts, last_in in L'. elim (proj1 S). apply in_map_iff. eexists. split; [|exact L']. reflexivity.
Qed.

(** Pulsars. *)
Definition valued (l : list (string * option string)) : list (string * string) := flat_map (fun o => match snd o with Some v => [(fst o, v)] | None => [] end) l.
Lemma rstrip_word s : plain s -> s <> EmptyString -> rstrip_sp s = s.
Proof.
  induction s as [|c s IH]; [congruence|]. intros [[C _] P] _. cbn [rstrip_sp]. destruct s as [|d s]; [cbn; now rewrite C|]. rewrite IH by (try exact P; discriminate). reflexivity.
Qed.
Lemma rstrip_space s : rstrip_sp (s ++ " ") = rstrip_sp s.
Proof. induction s as [|c s IH]; [reflexivity|]. cbn [String.append rstrip_sp]. rewrite IH. reflexivity. Qed.
Lemma option_equal o : plain_option o -> has_char "=" (option_text o) = match snd o with Some _ => true | None => false end.
Proof.
  intros [A B]. unfold option_text. rewrite has_char_app, (plain_without "=" _ (or_introl eq_refl) A). destruct (snd o) as [v|]; reflexivity.
Qed.
Lemma put_options l d : Forall plain_option l ->
  fold_left (fun d s => match split_char "=" s with k :: v :: _ => dict_set String.eqb k (DText v) d | _ => d end) (filter (has_char "=") (map option_text l)) d =
  fold_left (fun d p => dict_set String.eqb (fst p) (snd p) d) (map (fun p => (fst p, DText (snd p ++ " ")%string)) (valued l)) d.
Proof.
  revert d. induction l as [|o l IH]; intros d F; [reflexivity|]. inversion F as [|? ? A F']; subst. cbn [map filter valued flat_map]. rewrite (option_equal o A). destruct o as [n [v|]]; cbn [snd fst app map fold_left]; [|apply IH; exact F'].
  destruct A as [A B]. cbn [fst snd] in *. specialize (B v eq_refl). unfold option_text. cbn [fst snd]. change ((n ++ ("=" ++ v) ++ " ")%string) with (n ++ String "=" (v ++ " "))%string. rewrite split_char_app by (apply plain_without; auto). rewrite split_char_one by (apply without_app; [apply plain_without; auto|reflexivity]). apply IH. exact F'.
Qed.
Lemma put_flags l d : Forall plain_option l ->
  fold_left (fun d s => dict_set String.eqb (rstrip_sp s) DTrue d) (filter (fun s => negb (has_char "=" s)) (map option_text l)) d =
  fold_left (fun d p => dict_set String.eqb (fst p) (snd p) d) (flat_map (fun o => match snd o with Some _ => [] | None => [(rstrip_sp (fst o), DTrue)] end) l) d.
Proof.
  revert d. induction l as [|o l IH]; intros d F; [reflexivity|]. inversion F as [|? ? A F']; subst. cbn [map filter flat_map]. rewrite (option_equal o A). destruct o as [n [v|]]; cbn [snd fst app map fold_left negb]; [apply IH; exact F'|].
  unfold option_text. cbn [fst snd]. change (("" ++ " ")%string) with " "%string. rewrite rstrip_space. apply IH. exact F'.
Qed.
Theorem pulsar_parameters : forall text mode l, lower text = pulsar_text mode l -> plain mode -> Forall plain_option l -> Forall (fun o => fst o <> EmptyString) l ->
  fst (parse_parameters text true) = mode /\
  forall k, plain k -> (dict_get String.eqb k (snd (parse_parameters text true)) = Some DTrue <-> In (k, None) l) /\
    forall s, dict_get String.eqb k (snd (parse_parameters text true)) = Some (DText s) <-> ~ In (k, None) l /\ exists v, s = (v ++ " ")%string /\ last_given k (valued l) v.
Proof.
  intros text mode l E M F NE. unfold parse_parameters. rewrite E. cbn [fst snd]. split.
  { unfold pulsar_text. exact (mode_first mode (" " ++ concat_text (map (fun o => "--" ++ option_text o) l))%string M). }
  intros k K. assert (D : split_dashes (pulsar_text mode l) = (mode ++ ": ")%string :: map option_text l).
  { unfold pulsar_text. rewrite <- app_assoc_s. apply dashes_options; [exact F|]. apply without_app; [apply plain_without; auto|reflexivity]. }
  rewrite D. assert (H0 : has_char "=" (mode ++ ": ")%string = false) by (apply without_app; [apply plain_without; auto|reflexivity]). cbn [filter]. rewrite H0. cbn [negb fold_left]. rewrite put_options, put_flags by exact F.
  assert (R : rstrip_sp (mode ++ ": ")%string = (mode ++ ":")%string). { clear. induction mode as [|c m IH]; [reflexivity|]. cbn [String.append rstrip_sp]. rewrite IH. destruct (m ++ ":")%string eqn:Y; [destruct m; discriminate|reflexivity]. }
  rewrite R. set (fl := flat_map _ l). set (d0 := fold_left _ (map _ (valued l)) []).
  assert (NK : String.eqb k (mode ++ ":") = false). { apply String.eqb_neq. intros ->. apply plain_app in K. destruct K as [_ [[_ (_ & C & _)] _]]. congruence. }
  assert (FL : In k (map fst fl) <-> In (k, None) l).
  { unfold fl. rewrite Forall_forall in F, NE. rewrite in_map_iff. split.
    - intros ([n t] & <- & I). apply in_flat_map in I. destruct I as ([n' [v|]] & I & J); [destruct J|]. destruct J as [J|[]]. injection J as <- <-. cbn [fst]. rewrite rstrip_word; [exact I|exact (proj1 (F _ I))|exact (NE _ I)].
    - intro I. exists (k, DTrue). split; [reflexivity|]. apply in_flat_map. exists (k, None). split; [exact I|]. cbn [snd fst]. left. rewrite rstrip_word; [reflexivity|exact (proj1 (F _ I))|exact (NE _ I)]. }
  assert (TR : forall v, last_given k fl v -> v = DTrue). { intros v L. apply last_in in L. unfold fl in L. apply in_flat_map in L. destruct L as ([n' [w|]] & I & J); [destruct J|]. destruct J as [J|[]]. now injection J as _ <-. }
  assert (S := fold_sets k fl (dict_set String.eqb (mode ++ ":")%string DTrue d0)). rewrite pget_set, NK in S.
  assert (S0 := fold_sets k (map (fun p => (fst p, DText (snd p ++ " ")%string)) (valued l)) []). fold d0 in S0.
  assert (VK : forall x, In (k, x) (map (fun p => (fst p, DText (snd p ++ " ")%string)) (valued l)) -> exists v, x = DText (v ++ " ")%string /\ In (k, v) (valued l)).
  { intros x I. apply in_map_iff in I. destruct I as ([n v] & J & I). cbn in J. injection J as -> <-. eauto. }
  assert (LT : forall v, last_given k (map (fun p => (fst p, DText (snd p ++ " ")%string)) (valued l)) v <-> exists s, v = DText (s ++ " ")%string /\ last_given k (valued l) s).
  { intro v. generalize (valued l). clear. intro l. assert (Q : forall l : list (string * string), map fst (map (fun p => (fst p, DText (snd p ++ " ")%string)) l) = map fst l) by (intro l'; rewrite map_map; reflexivity).
    induction l as [|[n w] l IH]; cbn [map fst snd]; split.
    - intro H. inversion H.
    - intros (s & _ & H). inversion H.
    - intro H. inversion H as [? ? N|? ? ? L]; subst; [exists w; split; [reflexivity|constructor; now rewrite <- Q]|]. apply IH in L. destruct L as (s & -> & L). exists s. split; [reflexivity|now constructor].
    - intros (s & -> & H). inversion H as [? ? N|? ? ? L]; subst; [constructor; now rewrite Q|constructor; apply IH; eauto]. }
  set (g := dict_get String.eqb k (fold_left _ fl _)) in *. clearbody g. set (g0 := dict_get String.eqb k d0) in *. clearbody g0. split.
  - rewrite <- FL. split.
    + intros ->. destruct S as [L|[_ S]]; [apply last_in in L; apply in_map_iff; eexists; split; [|exact L]; reflexivity|]. rewrite S in S0. destruct S0 as [L|[_ X]]; [|discriminate]. apply LT in L. destruct L as (s & X & _). discriminate.
    + intro I. destruct g as [w|]; [|elim (proj1 S); exact I]. destruct S as [L|[N _]]; [now rewrite (TR _ L)|contradiction].
  - intro s. rewrite <- FL. split.
    + intros ->. destruct S as [L|[N S]]; [apply TR in L; discriminate|]. split; [exact N|]. rewrite S in S0. destruct S0 as [L|[_ X]]; [|discriminate]. apply LT in L. destruct L as (v & X & L). injection X as ->. eauto.
    + intros (N & v & -> & L). assert (L' : last_given k (map (fun p => (fst p, DText (snd p ++ " ")%string)) (valued l)) (DText (v ++ " ")%string)) by (apply LT; eauto).
      destruct g0 as [w0|]; [|elim (proj1 S0); apply in_map_iff; eexists; split; [|exact (last_in _ _ _ L')]; reflexivity]. destruct S0 as [L0|[_ X]]; [|discriminate]. rewrite (last_unique _ _ _ _ L0 L') in S.
      destruct g as [w|]; [destruct S as [X|[_ S]]; [elim N; apply in_map_iff; eexists; split; [|exact (last_in _ _ _ X)]; reflexivity|now symmetry]|destruct S as [_ S]; discriminate].
Qed.
