(** Reading the text of a user parset: the lines of the file. *)
From Coq Require Import Ascii String List Arith ZArith QArith Bool Lia Sorted.
From Verif Require Import Base M_Polar M_Pipeline M_PText M_POptions M_Parset P_PText P_PValue P_Parset P_Parset2 P_Parset3.
Import ListNotations.
Open Scope nat_scope.

(** ** Lines *)
(** The block a line belongs to. *)
Inductive owner := OObs | OOut | OAna (i : nat) | ONum (i : nat) | OPc (i : nat).
Inductive lline := Blank | Line (o : owner) (key val : string).
Definition header (o : owner) : string :=
  match o with
  | OObs => "Observation"
  | OOut => "Output"
  | OAna i => "Anabeam" ++ counter_text i
  | ONum i => "Beam" ++ counter_text i
  | OPc i => "PhaseCenter" ++ counter_text i
  end%string.
Definition line_text (l : lline) : string :=
  match l with
  | Blank => ""
  | Line o key val => header o ++ String "." (key ++ String "=" val)
  end%string.

Lemma cons_app_s : forall c x y, (String c x ++ y)%string = String c (x ++ y)%string.
Proof. reflexivity. Qed.
Lemma join_app : forall sep A B, A <> [] -> B <> [] -> join sep (A ++ B) = (join sep A ++ sep ++ join sep B)%string.
Proof.
  intros sep A B HA HB. induction A as [|x r IH]; [easy|]. destruct r as [|y t].
  - cbn [app]. destruct B as [|z s]; [easy|]. reflexivity.
  - cbn [app]. change (join sep (x :: y :: t ++ B)) with (x ++ sep ++ join sep ((y :: t) ++ B))%string.
    rewrite IH by discriminate. change (join sep (x :: y :: t)) with (x ++ sep ++ join sep (y :: t))%string.
    now rewrite !app_assoc_s.
Qed.

(** Groups of lines separated by a blank line. *)
Definition filled (l : list lline) : list lline := match l with [] => [Blank] | _ => l end.
Fixpoint spaced (ls : list (list lline)) : list lline :=
  match ls with
  | [] => [Blank]
  | [l] => filled l
  | l :: r => filled l ++ Blank :: spaced r
  end.
Lemma filled_nonempty : forall l, filled l <> [].
Proof. destruct l; discriminate. Qed.
Lemma spaced_nonempty : forall ls, spaced ls <> [].
Proof.
  intros [|l [|m r]]; cbn; [discriminate|apply filled_nonempty|]. destruct l; discriminate.
Qed.
Definition text_of (l : list lline) : string := join nl (map line_text l).
Lemma text_filled : forall l, text_of (filled l) = text_of l.
Proof. destruct l; reflexivity. Qed.
Lemma text_app : forall A B, A <> [] -> B <> [] -> text_of (A ++ B) = (text_of A ++ nl ++ text_of B)%string.
Proof.
  intros A B HA HB. unfold text_of. rewrite map_app. apply join_app; [now destruct A|now destruct B].
Qed.
Lemma text_spaced : forall ls, text_of (spaced ls) = join blank_line (map text_of ls).
Proof.
  induction ls as [|l r IH]; [reflexivity|]. destruct r as [|m t].
  - cbn. apply text_filled.
  - change (spaced (l :: m :: t)) with (filled l ++ Blank :: spaced (m :: t)).
    rewrite text_app; [|apply filled_nonempty|discriminate].
    change (Blank :: spaced (m :: t)) with ([Blank] ++ spaced (m :: t)).
    rewrite text_app; [|discriminate|apply spaced_nonempty]. rewrite IH, text_filled. reflexivity.
Qed.

Section WithClock.
Variable ck : clock.

Definition block_lines (o : owner) (b : block) : list lline :=
  map (fun e => Line o (e_key e) (show_sval (e_value e))) (filter written b).
Lemma block_text : forall o f c b, header o = (f ++ c)%string -> write_block f c b = text_of (block_lines o b).
Proof.
  intros o f c b H. unfold write_block, text_of, block_lines. f_equal. rewrite map_map. apply map_ext. intro e.
  cbn [line_text]. rewrite H, app_assoc_s. reflexivity.
Qed.
Definition user_lines (u : puser) : list lline :=
  spaced [block_lines OObs (u_observation u);
          spaced (map (fun a => block_lines (OAna (a_index a)) (a_conf a)) (u_anabeams u));
          spaced (map (fun b => block_lines (ONum (b_index b)) (b_conf b)) (nums u));
          spaced (map (fun b => block_lines (OPc (b_index b)) (b_conf b)) (centers u));
          block_lines OOut (u_output u)].
Lemma map_flat_map : forall A B C (g : B -> C) (f : A -> list B) l,
  map g (flat_map f l) = flat_map (fun a => map g (f a)) l.
Proof. induction l as [|x r IH]; cbn; [reflexivity|]. now rewrite map_app, IH. Qed.
Lemma user_text_lines : forall u, user_text u = text_of (user_lines u).
Proof.
  intro u. unfold user_lines. rewrite text_spaced. unfold user_text. f_equal. cbn [map].
  rewrite (block_text OObs "Observation" "") by reflexivity.
  rewrite (block_text OOut "Output" "") by reflexivity.
  rewrite !text_spaced.
  assert (A : map (fun a => write_block "Anabeam" (counter_text (a_index a)) (a_conf a)) (u_anabeams u)
              = map text_of (map (fun a => block_lines (OAna (a_index a)) (a_conf a)) (u_anabeams u))).
  { rewrite map_map. apply map_ext. intro a. now apply block_text. }
  assert (B : flat_map (fun a => map (fun b => write_block "Beam" (counter_text (b_index b)) (b_conf b)) (a_nums a)) (u_anabeams u)
              = map text_of (map (fun b => block_lines (ONum (b_index b)) (b_conf b)) (nums u))).
  { unfold nums. rewrite <- (map_flat_map _ _ _ (fun b => write_block "Beam" (counter_text (b_index b)) (b_conf b))), map_map.
    apply map_ext. intro b. now apply block_text. }
  assert (C : flat_map (fun a => map (fun b => write_block "PhaseCenter" (counter_text (b_index b)) (b_conf b)) (a_pcs a)) (u_anabeams u)
              = map text_of (map (fun b => block_lines (OPc (b_index b)) (b_conf b)) (centers u))).
  { unfold centers. rewrite <- (map_flat_map _ _ _ (fun b => write_block "PhaseCenter" (counter_text (b_index b)) (b_conf b))), map_map.
    apply map_ext. intro b. now apply block_text. }
  rewrite A, B, C. reflexivity.
Qed.

(** ** Effect of a line *)
Definition put_beam (label : string) (beams : list (Z * property ck)) (i : nat) (key val : string)
  : res (list (Z * property ck)) :=
  bind (match dict_get Z.eqb (Z.of_nat i) beams with
        | Some b => Ok b
        | None => Ok [(label, PInt ck (Z.of_nat i))]
        end) (fun b =>
  bind (set_property ck b key val) (fun b' => Ok (dict_set Z.eqb (Z.of_nat i) b' beams))).
Definition effect (p : parset ck) (l : lline) : res (parset ck) :=
  match l with
  | Blank => Ok p
  | Line OObs key val =>
      bind (set_property ck (p_observation ck p) key val) (fun o =>
      Ok (mkParset ck o (p_output ck p) (p_anabeams ck p) (p_digibeams ck p) (p_centers ck p)))
  | Line OOut key val =>
      bind (set_property ck (p_output ck p) key val) (fun o =>
      Ok (mkParset ck (p_observation ck p) o (p_anabeams ck p) (p_digibeams ck p) (p_centers ck p)))
  | Line (OAna i) key val =>
      bind (put_beam "anaIdx" (p_anabeams ck p) i key val) (fun b =>
      Ok (mkParset ck (p_observation ck p) (p_output ck p) b (p_digibeams ck p) (p_centers ck p)))
  | Line (ONum i) key val =>
      bind (put_beam "digiIdx" (p_digibeams ck p) i key val) (fun b =>
      Ok (mkParset ck (p_observation ck p) (p_output ck p) (p_anabeams ck p) b (p_centers ck p)))
  | Line (OPc i) key val =>
      bind (put_beam "pcIdx" (p_centers ck p) i key val) (fun b =>
      Ok (mkParset ck (p_observation ck p) (p_output ck p) (p_anabeams ck p) (p_digibeams ck p) b))
  end.
Fixpoint effects (p : parset ck) (l : list lline) : res (parset ck) :=
  match l with [] => Ok p | x :: r => bind (effect p x) (fun p' => effects p' r) end.

Definition line_ok (l : lline) : Prop :=
  match l with
  | Blank => True
  | Line _ key val => without "=" key /\ without newline key /\ without newline val
  end.
Lemma counter_without : forall i c, is_digit c = false -> c <> "-"%char -> c <> "["%char -> c <> "]"%char ->
  without c (counter_text i).
Proof.
  intros i c H1 H2 H3 H4. unfold counter_text. apply without_app; [apply without_cons; split; [congruence|reflexivity]|].
  apply without_app; [now apply show_int_without|]. apply without_cons. split; [congruence|reflexivity].
Qed.
Lemma header_dot : forall o, without "." (header o).
Proof.
  intros []; try reflexivity; cbn [header]; (apply without_app; [reflexivity|]); apply counter_without; (reflexivity || discriminate).
Qed.
Lemma header_nl : forall o, without newline (header o).
Proof.
  intros []; try reflexivity; cbn [header]; (apply without_app; [reflexivity|]); apply counter_without; (reflexivity || discriminate).
Qed.
Lemma line_nl : forall l, line_ok l -> without newline (line_text l).
Proof.
  intros [|o key val] H; [reflexivity|]. destruct H as [_ [H2 H3]]. cbn [line_text].
  apply without_app; [apply header_nl|]. apply without_cons. split; [discriminate|].
  apply without_app; [exact H2|]. apply without_cons. split; [discriminate|exact H3].
Qed.
Lemma bracket_digits : forall d, all_digits d = true -> bracket_here (d ++ "]")%string = Some d.
Proof.
  induction d as [|a r IH]; intro H; [reflexivity|]. cbn in H. apply andb_prop in H. destruct H as [H1 H2].
  cbn. rewrite H1. now rewrite (IH H2).
Qed.
Lemma counter_digits : forall i, isdigit (show_int (Z.of_nat i)) = true /\ all_digits (show_int (Z.of_nat i)) = true.
Proof.
  intro i. destruct (show_nonneg (Z.of_nat i)) as [D _]; [lia|]. split; [exact D|].
  destruct (show_int (Z.of_nat i)); [discriminate|exact D].
Qed.
Lemma search_counter : forall f i, without "[" f -> search_bracket (f ++ counter_text i)%string = Some (show_int (Z.of_nat i)).
Proof.
  intros f i. unfold counter_text. induction f as [|a r IH]; intro H.
  - cbn -[show_int]. rewrite bracket_digits by apply counter_digits. reflexivity.
  - apply without_cons in H. destruct H as [H1 H2]. apply Ascii.eqb_neq in H1. cbn -[show_int append].
    change ((String a r ++ "[" ++ show_int (Z.of_nat i) ++ "]")%string) with (String a (r ++ "[" ++ show_int (Z.of_nat i) ++ "]")%string).
    cbn [search_bracket]. rewrite H1. now apply IH.
Qed.
Lemma set_beam_put : forall label beams f i key val,
  without "[" f -> has_sub "angle" (lower label) = false -> has_sub "duration" (lower label) = false ->
  set_beam ck label beams (f ++ counter_text i)%string key val = put_beam label beams i key val.
Proof.
  intros label beams f i key val Hf Ha Hd. unfold set_beam, put_beam. rewrite (search_counter f i Hf), py_int_show.
  destruct (dict_get Z.eqb (Z.of_nat i) beams); [reflexivity|].
  assert (E : set_property ck [] label (show_int (Z.of_nat i)) = Ok [(label, PInt ck (Z.of_nat i))]).
  { unfold set_property, read_value. destruct (show_nonneg (Z.of_nat i)) as [D V]; [lia|].
    rewrite tidy_clean by apply show_int_tidy. cbv zeta. rewrite (starts_digit _ D). cbn [andb].
    rewrite (digits_not_word _ "true" D eq_refl), (digits_not_word _ "false" D eq_refl), Ha, Hd, D, V. reflexivity. }
  rewrite E. reflexivity.
Qed.
Lemma set_property_nl : forall p key val, set_property ck p key (val ++ nl)%string = set_property ck p key val.
Proof. intros. unfold set_property. now rewrite read_value_nl. Qed.
Lemma put_beam_nl : forall label beams i key val, put_beam label beams i key (val ++ nl)%string = put_beam label beams i key val.
Proof.
  intros. unfold put_beam. destruct (dict_get Z.eqb (Z.of_nat i) beams); cbn [bind]; now rewrite set_property_nl.
Qed.

Definition mem_ok (mem : option (string * string)) : Prop :=
  exists n c k v, mem = Some (n, c) /\ split_once "=" c = Some (k, v).
(** One line of the file. *)
Lemma read_set : forall mem p o key val tail,
  line_ok (Line o key val) -> tail = ""%string \/ tail = nl ->
  exists mem', mem_ok mem' /\
  read_line ck (mem, p) (line_text (Line o key val) ++ tail)%string
  = bind (effect p (Line o key val)) (fun p' => Ok (mem', p')).
Proof.
  intros mem p o key val tail [H1 [H2 H3]] Ht.
  exists (Some (header o, (key ++ String "=" (val ++ tail))%string)). split.
  { exists (header o), (key ++ String "=" (val ++ tail))%string, key, (val ++ tail)%string.
    split; [reflexivity|]. now apply split_once_app. }
  assert (E : (line_text (Line o key val) ++ tail)%string = (header o ++ String "." (key ++ String "=" (val ++ tail)))%string).
  { cbn [line_text]. now rewrite app_assoc_s, cons_app_s, app_assoc_s, cons_app_s. }
  rewrite E. unfold read_line. rewrite (split_once_app "." (header o) _ (header_dot o)).
  cbv beta iota zeta. rewrite (split_once_app "=" key _ H1). cbv beta iota.
  assert (V : forall q, set_property ck q key (val ++ tail)%string = set_property ck q key val).
  { intro q. destruct Ht as [-> | ->]; [now rewrite app_nil_r_s|apply set_property_nl]. }
  assert (W : forall label beams i, put_beam label beams i key (val ++ tail)%string = put_beam label beams i key val).
  { intros. destruct Ht as [-> | ->]; [now rewrite app_nil_r_s|apply put_beam_nl]. }
  destruct o as [| |i|i|i]; cbn [header effect].
  - rewrite prefix_app. now rewrite V.
  - change (String.prefix "Observation" ("Output" ++ ?x)) with false. cbv iota.
    rewrite prefix_app. now rewrite V.
  - rewrite !app_assoc_s. set (rest := (counter_text i ++ _)%string).
    change (String.prefix "Observation" ("Anabeam" ++ rest)) with false.
    change (String.prefix "Output" ("Anabeam" ++ rest)) with false. cbv iota.
    rewrite lower_app. change (lower "Anabeam") with "anabeam"%string. rewrite prefix_app.
    rewrite set_beam_put by reflexivity. now rewrite W.
  - rewrite !app_assoc_s. set (rest := (counter_text i ++ _)%string).
    change (String.prefix "Observation" ("Beam" ++ rest)) with false.
    change (String.prefix "Output" ("Beam" ++ rest)) with false. cbv iota.
    rewrite lower_app. change (lower "Beam") with "beam"%string.
    change (String.prefix "anabeam" ("beam" ++ lower rest)) with false. cbv iota. rewrite prefix_app.
    rewrite set_beam_put by reflexivity. now rewrite W.
  - rewrite !app_assoc_s. set (rest := (counter_text i ++ _)%string).
    change (String.prefix "Observation" ("PhaseCenter" ++ rest)) with false.
    change (String.prefix "Output" ("PhaseCenter" ++ rest)) with false. cbv iota.
    rewrite lower_app. change (lower "PhaseCenter") with "phasecenter"%string.
    change (String.prefix "anabeam" ("phasecenter" ++ lower rest)) with false.
    change (String.prefix "beam" ("phasecenter" ++ lower rest)) with false. cbv iota. rewrite prefix_app.
    rewrite set_beam_put by reflexivity. now rewrite W.
Qed.
Lemma read_blank : forall mem p, mem_ok mem -> read_line ck (mem, p) nl = Ok (mem, p).
Proof.
  intros mem p [n [c [k [v [-> H]]]]]. unfold read_line. change (split_once "." nl) with (@None (string * string)).
  cbv beta iota zeta. rewrite H. reflexivity.
Qed.
Lemma read_all : forall L mem p, Forall line_ok L -> mem_ok mem ->
  read_lines ck (mem, p) (lines (text_of L)) = effects p L.
Proof.
  induction L as [|l r IH]; intros mem p HL Hm.
  - reflexivity.
  - inversion HL as [|? ? Hl Hr]; subst. destruct r as [|m t].
    + unfold text_of. cbn [map join effects]. destruct l as [|o key val].
      * reflexivity.
      * rewrite lines_last; [|now apply line_nl|].
        2: { cbn [line_text]. destruct (header o) eqn:E; cbn; discriminate. }
        cbn [read_lines]. destruct (read_set mem p o key val "" Hl (or_introl eq_refl)) as [mem' [_ E]].
        rewrite app_nil_r_s in E. rewrite E. now destruct (effect p (Line o key val)).
    + change (text_of (l :: m :: t)) with (line_text l ++ nl ++ text_of (m :: t))%string.
      rewrite lines_app by now apply line_nl. cbn [read_lines effects]. destruct l as [|o key val].
      * cbn [line_text]. change (("" ++ nl)%string) with nl. rewrite (read_blank _ _ Hm). cbn [bind effect]. now apply IH.
      * destruct (read_set mem p o key val nl Hl (or_intror eq_refl)) as [mem' [Hm' E]].
        rewrite E. destruct (effect p (Line o key val)) as [p'|]; [|reflexivity]. cbn [bind]. now apply IH.
Qed.
(** The file begins with a line that sets a field. *)
Lemma decode_all : forall o key val L, Forall line_ok (Line o key val :: L) ->
  decode ck (text_of (Line o key val :: L)) = effects (empty_parset ck) (Line o key val :: L).
Proof.
  intros o key val L HL. unfold decode. inversion HL as [|? ? Hl Hr]; subst. destruct L as [|m t].
  - unfold text_of. cbn [map join effects]. rewrite lines_last; [|now apply line_nl|].
    2: { cbn [line_text]. destruct (header o) eqn:E; cbn; discriminate. }
    cbn [read_lines]. destruct (read_set None (empty_parset ck) o key val "" Hl (or_introl eq_refl)) as [mem' [_ E]].
    rewrite app_nil_r_s in E. rewrite E. now destruct (effect _ (Line o key val)).
  - change (text_of (Line o key val :: m :: t)) with (line_text (Line o key val) ++ nl ++ text_of (m :: t))%string.
    rewrite lines_app by now apply line_nl. cbn [read_lines effects].
    destruct (read_set None (empty_parset ck) o key val nl Hl (or_intror eq_refl)) as [mem' [Hm' E]].
    rewrite E. destruct (effect _ (Line o key val)) as [p'|]; [|reflexivity]. cbn [bind]. now apply read_all.
Qed.

Lemma effects_app : forall A B p, effects p (A ++ B) = bind (effects p A) (fun p' => effects p' B).
Proof.
  induction A as [|x r IH]; intros B p; [reflexivity|]. cbn [app effects].
  destruct (effect p x) as [p'|]; [|reflexivity]. cbn [bind]. apply IH.
Qed.
Lemma effects_filled : forall l p, effects p (filled l) = effects p l.
Proof. destruct l; reflexivity. Qed.
Lemma effects_spaced : forall ls p, effects p (spaced ls) = effects p (concat ls).
Proof.
  induction ls as [|l r IH]; intro p; [reflexivity|]. destruct r as [|m t].
  - cbn. rewrite effects_filled, app_nil_r. reflexivity.
  - change (spaced (l :: m :: t)) with (filled l ++ [Blank] ++ spaced (m :: t)).
    rewrite !effects_app, effects_filled.
    change (concat (l :: m :: t)) with (l ++ concat (m :: t)). rewrite effects_app.
    destruct (effects p l) as [p'|]; [|reflexivity]. cbn [bind]. rewrite effects_app. cbn [effects effect bind]. apply IH.
Qed.

(** ** Effect of a block *)
(** The value read for an entry. *)
Definition parsed (e : entry) : pval ck :=
  match read_value ck (e_key e) (show_sval (e_value e)) with Ok v => v | Err _ => PStr ck "" end.
Definition entry_fine (e : entry) : Prop :=
  without newline (show_sval (e_value e)) /\ exists v, read_value ck (e_key e) (show_sval (e_value e)) = Ok v.
Definition block_fine (b : block) : Prop := forall e, In e b -> written e = true -> entry_fine e.
Definition pairs (b : block) : property ck := map (fun e => (e_key e, parsed e)) (filter written b).

Lemma dict_set_new : forall V (d : list (string * V)) k v, ~ In k (map fst d) ->
  dict_set String.eqb k v d = d ++ [(k, v)].
Proof.
  induction d as [|[k' v'] r IH]; intros k v H; cbn; [reflexivity|].
  destruct (String.eqb k k') eqn:E.
  - exfalso. apply H. left. apply String.eqb_eq in E. now symmetry.
  - rewrite IH; [reflexivity|]. intro F. apply H. now right.
Qed.

Fixpoint set_all (p : property ck) (es : list entry) : res (property ck) :=
  match es with [] => Ok p | e :: r => bind (set_property ck p (e_key e) (show_sval (e_value e))) (fun q => set_all q r) end.
Lemma set_all_ok : forall es p, Forall entry_fine es -> NoDup (map fst p ++ map e_key es) ->
  set_all p es = Ok (p ++ map (fun e => (e_key e, parsed e)) es).
Proof.
  induction es as [|e r IH]; intros p Hf Hd; cbn; [now rewrite app_nil_r|].
  inversion Hf as [|? ? [_ [v E]] Hr]; subst. unfold set_property at 1. unfold parsed at 1. rewrite E. cbn [bind].
  assert (N : ~ In (e_key e) (map fst p)).
  { intro F. cbn in Hd. apply NoDup_remove_2 in Hd. apply Hd. apply in_or_app. now left. }
  rewrite (dict_set_new _ p _ v N). rewrite IH.
  - rewrite <- app_assoc. reflexivity.
  - exact Hr.
  - rewrite map_app. cbn. rewrite <- app_assoc. exact Hd.
Qed.

Definition with_obs (p : parset ck) (o : property ck) :=
  mkParset ck o (p_output ck p) (p_anabeams ck p) (p_digibeams ck p) (p_centers ck p).
Definition with_out (p : parset ck) (o : property ck) :=
  mkParset ck (p_observation ck p) o (p_anabeams ck p) (p_digibeams ck p) (p_centers ck p).
Definition with_ana (p : parset ck) (b : list (Z * property ck)) :=
  mkParset ck (p_observation ck p) (p_output ck p) b (p_digibeams ck p) (p_centers ck p).
Definition with_num (p : parset ck) (b : list (Z * property ck)) :=
  mkParset ck (p_observation ck p) (p_output ck p) (p_anabeams ck p) b (p_centers ck p).
Definition with_pc (p : parset ck) (b : list (Z * property ck)) :=
  mkParset ck (p_observation ck p) (p_output ck p) (p_anabeams ck p) (p_digibeams ck p) b.

Lemma effects_obs : forall es p,
  effects p (map (fun e => Line OObs (e_key e) (show_sval (e_value e))) es)
  = bind (set_all (p_observation ck p) es) (fun o => Ok (with_obs p o)).
Proof.
  induction es as [|e r IH]; intro p; cbn [map effects set_all]; [now destruct p|].
  cbn [effect]. destruct (set_property ck (p_observation ck p) _ _) as [q|]; [|reflexivity]. cbn [bind].
  rewrite IH. cbn [p_observation]. now destruct (set_all q r).
Qed.
Lemma effects_out : forall es p,
  effects p (map (fun e => Line OOut (e_key e) (show_sval (e_value e))) es)
  = bind (set_all (p_output ck p) es) (fun o => Ok (with_out p o)).
Proof.
  induction es as [|e r IH]; intro p; cbn [map effects set_all]; [now destruct p|].
  cbn [effect]. destruct (set_property ck (p_output ck p) _ _) as [q|]; [|reflexivity]. cbn [bind].
  rewrite IH. cbn [p_output]. now destruct (set_all q r).
Qed.

(** A new beam receives its fields after its number. *)
Lemma dict_get_last : forall V (d : list (Z * V)) i v, ~ In i (map fst d) -> dict_get Z.eqb i (d ++ [(i, v)]) = Some v.
Proof.
  induction d as [|[k w] r IH]; intros i v H; cbn.
  - now rewrite Z.eqb_refl.
  - destruct (Z.eqb i k) eqn:E; [exfalso; apply H; left; apply Z.eqb_eq in E; now symmetry|].
    apply IH. intro F. apply H. now right.
Qed.
Lemma dict_set_last : forall V (d : list (Z * V)) i v w, ~ In i (map fst d) ->
  dict_set Z.eqb i w (d ++ [(i, v)]) = d ++ [(i, w)].
Proof.
  induction d as [|[k x] r IH]; intros i v w H; cbn.
  - now rewrite Z.eqb_refl.
  - destruct (Z.eqb i k) eqn:E; [exfalso; apply H; left; apply Z.eqb_eq in E; now symmetry|].
    f_equal. apply IH. intro F. apply H. now right.
Qed.
Lemma dict_get_none : forall V (d : list (Z * V)) i, ~ In i (map fst d) -> dict_get Z.eqb i d = None.
Proof.
  induction d as [|[k x] r IH]; intros i H; cbn; [reflexivity|].
  destruct (Z.eqb i k) eqn:E; [exfalso; apply H; left; apply Z.eqb_eq in E; now symmetry|].
  apply IH. intro F. apply H. now right.
Qed.
Lemma dict_set_none : forall V (d : list (Z * V)) i v, ~ In i (map fst d) -> dict_set Z.eqb i v d = d ++ [(i, v)].
Proof.
  induction d as [|[k x] r IH]; intros i v H; cbn; [reflexivity|].
  destruct (Z.eqb i k) eqn:E; [exfalso; apply H; left; apply Z.eqb_eq in E; now symmetry|].
  f_equal. apply IH. intro F. apply H. now right.
Qed.
Fixpoint put_all (label : string) (beams : list (Z * property ck)) (i : nat) (es : list entry)
  : res (list (Z * property ck)) :=
  match es with
  | [] => Ok beams
  | e :: r => bind (put_beam label beams i (e_key e) (show_sval (e_value e))) (fun b => put_all label b i r)
  end.
Lemma put_all_known : forall label d i q es, ~ In (Z.of_nat i) (map fst d) ->
  put_all label (d ++ [(Z.of_nat i, q)]) i es = bind (set_all q es) (fun q' => Ok (d ++ [(Z.of_nat i, q')])).
Proof.
  intros label d i q es H. revert q. induction es as [|e r IH]; intro q; cbn; [reflexivity|].
  unfold put_beam. rewrite (dict_get_last _ _ _ _ H). cbn [bind].
  destruct (set_property ck q _ _) as [q'|]; [|reflexivity]. cbn [bind].
  rewrite (dict_set_last _ _ _ _ _ H). apply IH.
Qed.
Lemma put_all_new : forall label d i es, ~ In (Z.of_nat i) (map fst d) -> es <> [] ->
  Forall entry_fine es -> NoDup (label :: map e_key es) ->
  put_all label d i es
  = Ok (d ++ [(Z.of_nat i, (label, PInt ck (Z.of_nat i)) :: map (fun e => (e_key e, parsed e)) es)]).
Proof.
  intros label d i es Hi Hn Hf Hd. destruct es as [|e r]; [easy|]. cbn [put_all].
  unfold put_beam. rewrite (dict_get_none _ _ _ Hi). cbn [bind].
  pose proof (set_all_ok (e :: r) [(label, PInt ck (Z.of_nat i))] Hf Hd) as E. cbn [set_all] in E.
  destruct (set_property ck [(label, PInt ck (Z.of_nat i))] (e_key e) (show_sval (e_value e))) as [q|]; [|discriminate].
  cbn [bind] in *. rewrite (dict_set_none _ _ _ _ Hi), (put_all_known _ _ _ _ _ Hi), E. reflexivity.
Qed.

Lemma effects_ana : forall es i p,
  effects p (map (fun e => Line (OAna i) (e_key e) (show_sval (e_value e))) es)
  = bind (put_all "anaIdx" (p_anabeams ck p) i es) (fun b => Ok (with_ana p b)).
Proof.
  induction es as [|e r IH]; intros i p; cbn [map effects put_all]; [now destruct p|].
  cbn [effect]. destruct (put_beam "anaIdx" (p_anabeams ck p) i _ _) as [q|]; [|reflexivity]. cbn [bind].
  rewrite IH. cbn [p_anabeams]. now destruct (put_all "anaIdx" q i r).
Qed.
Lemma effects_num : forall es i p,
  effects p (map (fun e => Line (ONum i) (e_key e) (show_sval (e_value e))) es)
  = bind (put_all "digiIdx" (p_digibeams ck p) i es) (fun b => Ok (with_num p b)).
Proof.
  induction es as [|e r IH]; intros i p; cbn [map effects put_all]; [now destruct p|].
  cbn [effect]. destruct (put_beam "digiIdx" (p_digibeams ck p) i _ _) as [q|]; [|reflexivity]. cbn [bind].
  rewrite IH. cbn [p_digibeams]. now destruct (put_all "digiIdx" q i r).
Qed.
Lemma effects_pc : forall es i p,
  effects p (map (fun e => Line (OPc i) (e_key e) (show_sval (e_value e))) es)
  = bind (put_all "pcIdx" (p_centers ck p) i es) (fun b => Ok (with_pc p b)).
Proof.
  induction es as [|e r IH]; intros i p; cbn [map effects put_all]; [now destruct p|].
  cbn [effect]. destruct (put_beam "pcIdx" (p_centers ck p) i _ _) as [q|]; [|reflexivity]. cbn [bind].
  rewrite IH. cbn [p_centers]. now destruct (put_all "pcIdx" q i r).
Qed.

(** ** The whole file *)
Definition beam_entry (label : string) (i : nat) (b : block) : Z * property ck :=
  (Z.of_nat i, (label, PInt ck (Z.of_nat i)) :: pairs b).
(** A block with its fields: all distinct, the first one always written. *)
Definition options_fine (o : list option_entry) (label : string) : Prop :=
  NoDup (label :: map o_key o) /\ (exists oe r, o = oe :: r /\ o_required oe = true)
  /\ Forall (fun oe => without "=" (o_key oe) /\ without newline (o_key oe)) o.
Definition fine_block (o : list option_entry) (b : block) : Prop := block_ok o b /\ block_fine b.

Lemma NoDup_filter_keys : forall (b : block) label, NoDup (label :: map e_key b) -> NoDup (label :: map e_key (filter written b)).
Proof.
  intros b label H. apply NoDup_cons_iff in H. destruct H as [H1 H2]. apply NoDup_cons_iff. split.
  - intro F. apply H1. apply in_map_iff in F. destruct F as [e [E F]]. apply filter_In in F. apply in_map_iff. exists e. tauto.
  - clear H1. induction b as [|e r IH]; [constructor|]. cbn in *. apply NoDup_cons_iff in H2. destruct H2 as [H1 H2].
    destruct (written e); [|now apply IH]. cbn. apply NoDup_cons_iff. split; [|now apply IH].
    intro F. apply H1. apply in_map_iff in F. destruct F as [x [E F]]. apply filter_In in F. apply in_map_iff. exists x. tauto.
Qed.
Lemma fine_entries : forall b, block_fine b -> Forall entry_fine (filter written b).
Proof. intros b H. apply Forall_forall. intros e He. apply filter_In in He. apply H; tauto. Qed.
Lemma fine_nonempty : forall o label b, options_fine o label -> block_ok o b -> filter written b <> [].
Proof.
  intros o label b [_ [[oe [r [-> Hr]]] _]] H. inversion H as [|? e ? b' [_ [H2 _]] HF]; subst. cbn.
  unfold written. rewrite H2, Hr, orb_true_r. discriminate.
Qed.
Lemma fine_put : forall o label d i b, options_fine o label -> fine_block o b -> ~ In (Z.of_nat i) (map fst d) ->
  put_all label d i (filter written b) = Ok (d ++ [beam_entry label i b]).
Proof.
  intros o label d i b Ho [Hb Hf] Hi. rewrite put_all_new; [reflexivity|exact Hi|eapply fine_nonempty; eauto|now apply fine_entries|].
  apply NoDup_filter_keys. rewrite (block_keys _ _ Hb). apply Ho.
Qed.
Lemma fst_entries : forall label (l : list (nat * block)),
  map fst (map (fun x => beam_entry label (fst x) (snd x)) l) = map Z.of_nat (map fst l).
Proof. intros. rewrite !map_map. now apply map_ext. Qed.

Lemma blocks_ana : forall (l : list (nat * block)) p, options_fine anabeam_options "anaIdx" ->
  Forall (fun x => fine_block anabeam_options (snd x)) l -> NoDup (map fst (p_anabeams ck p) ++ map Z.of_nat (map fst l)) ->
  effects p (concat (map (fun x => block_lines (OAna (fst x)) (snd x)) l))
  = Ok (with_ana p (p_anabeams ck p ++ map (fun x => beam_entry "anaIdx" (fst x) (snd x)) l)).
Proof.
  induction l as [|[i b] r IH]; intros p Ho Hf Hd; cbn [map concat effects fst snd].
  - rewrite app_nil_r. now destruct p.
  - inversion Hf as [|? ? Hb Hr]; subst. cbn [snd] in Hb. rewrite effects_app. unfold block_lines. rewrite effects_ana.
    cbn [map fst] in Hd.
    assert (N : ~ In (Z.of_nat i) (map fst (p_anabeams ck p))).
    { intro F. apply NoDup_remove_2 in Hd. apply Hd. apply in_or_app. now left. }
    rewrite (fine_put _ _ _ _ _ Ho Hb N). cbn [bind]. rewrite IH; [|exact Ho|exact Hr|].
    + unfold with_ana. cbn [p_observation p_output p_anabeams p_digibeams p_centers]. rewrite <- app_assoc. reflexivity.
    + cbn [with_ana p_anabeams]. rewrite map_app. cbn [map beam_entry fst]. rewrite <- app_assoc. exact Hd.
Qed.
Lemma blocks_num : forall (l : list (nat * block)) p, options_fine beam_options "digiIdx" ->
  Forall (fun x => fine_block beam_options (snd x)) l -> NoDup (map fst (p_digibeams ck p) ++ map Z.of_nat (map fst l)) ->
  effects p (concat (map (fun x => block_lines (ONum (fst x)) (snd x)) l))
  = Ok (with_num p (p_digibeams ck p ++ map (fun x => beam_entry "digiIdx" (fst x) (snd x)) l)).
Proof.
  induction l as [|[i b] r IH]; intros p Ho Hf Hd; cbn [map concat effects fst snd].
  - rewrite app_nil_r. now destruct p.
  - inversion Hf as [|? ? Hb Hr]; subst. cbn [snd] in Hb. rewrite effects_app. unfold block_lines. rewrite effects_num.
    cbn [map fst] in Hd.
    assert (N : ~ In (Z.of_nat i) (map fst (p_digibeams ck p))).
    { intro F. apply NoDup_remove_2 in Hd. apply Hd. apply in_or_app. now left. }
    rewrite (fine_put _ _ _ _ _ Ho Hb N). cbn [bind]. rewrite IH; [|exact Ho|exact Hr|].
    + unfold with_num. cbn [p_observation p_output p_anabeams p_digibeams p_centers]. rewrite <- app_assoc. reflexivity.
    + cbn [with_num p_digibeams]. rewrite map_app. cbn [map beam_entry fst]. rewrite <- app_assoc. exact Hd.
Qed.
Lemma blocks_pc : forall (l : list (nat * block)) p, options_fine phasecenter_options "pcIdx" ->
  Forall (fun x => fine_block phasecenter_options (snd x)) l -> NoDup (map fst (p_centers ck p) ++ map Z.of_nat (map fst l)) ->
  effects p (concat (map (fun x => block_lines (OPc (fst x)) (snd x)) l))
  = Ok (with_pc p (p_centers ck p ++ map (fun x => beam_entry "pcIdx" (fst x) (snd x)) l)).
Proof.
  induction l as [|[i b] r IH]; intros p Ho Hf Hd; cbn [map concat effects fst snd].
  - rewrite app_nil_r. now destruct p.
  - inversion Hf as [|? ? Hb Hr]; subst. cbn [snd] in Hb. rewrite effects_app. unfold block_lines. rewrite effects_pc.
    cbn [map fst] in Hd.
    assert (N : ~ In (Z.of_nat i) (map fst (p_centers ck p))).
    { intro F. apply NoDup_remove_2 in Hd. apply Hd. apply in_or_app. now left. }
    rewrite (fine_put _ _ _ _ _ Ho Hb N). cbn [bind]. rewrite IH; [|exact Ho|exact Hr|].
    + unfold with_pc. cbn [p_observation p_output p_anabeams p_digibeams p_centers]. rewrite <- app_assoc. reflexivity.
    + cbn [with_pc p_centers]. rewrite map_app. cbn [map beam_entry fst]. rewrite <- app_assoc. exact Hd.
Qed.


(** *** The options *)
Definition distinctb (l : list string) : bool :=
  (fix go l := match l with [] => true | x :: r => negb (existsb (String.eqb x) r) && go r end) l.
Lemma distinctb_ok : forall l, distinctb l = true -> NoDup l.
Proof.
  induction l as [|x r IH]; intro H; [constructor|]. cbn in H. apply andb_prop in H. destruct H as [H1 H2].
  constructor; [|now apply IH]. intro F. apply negb_true_iff in H1.
  assert (E : existsb (String.eqb x) r = true); [|congruence].
  apply existsb_exists. exists x. split; [exact F|apply String.eqb_refl].
Qed.
Definition keys_fine (o : list option_entry) : bool :=
  forallb (fun oe => negb (has_char "=" (o_key oe)) && negb (has_char newline (o_key oe))) o.
Lemma keys_fine_ok : forall o, keys_fine o = true ->
  Forall (fun oe => without "=" (o_key oe) /\ without newline (o_key oe)) o.
Proof.
  intros o H. apply Forall_forall. intros oe Ho. unfold keys_fine in H. rewrite forallb_forall in H.
  specialize (H oe Ho). apply andb_prop in H. destruct H as [H1 H2].
  apply negb_true_iff in H1, H2. split; assumption.
Qed.
Definition fineb (o : list option_entry) (label : string) : bool :=
  distinctb (label :: map o_key o) && match o with oe :: _ => o_required oe | [] => false end && keys_fine o.
Lemma fineb_ok : forall o label, fineb o label = true -> options_fine o label.
Proof.
  intros o label H. unfold fineb in H. apply andb_prop in H. destruct H as [H H3]. apply andb_prop in H.
  destruct H as [H1 H2]. split; [now apply distinctb_ok|]. split; [|now apply keys_fine_ok].
  destruct o as [|oe r]; [discriminate|]. exists oe, r. split; [reflexivity|exact H2].
Qed.
Lemma obs_fine : options_fine observation_options "". Proof. apply fineb_ok. vm_compute. reflexivity. Qed.
Lemma ana_fine : options_fine anabeam_options "anaIdx". Proof. apply fineb_ok. vm_compute. reflexivity. Qed.
Lemma num_fine : options_fine beam_options "digiIdx". Proof. apply fineb_ok. vm_compute. reflexivity. Qed.
Lemma pc_fine : options_fine phasecenter_options "pcIdx". Proof. apply fineb_ok. vm_compute. reflexivity. Qed.
Lemma out_distinct : NoDup (map o_key output_options). Proof. apply distinctb_ok. vm_compute. reflexivity. Qed.
Lemma out_keys : keys_fine output_options = true. Proof. vm_compute. reflexivity. Qed.

Lemma block_lines_ok : forall o b w, block_ok o b -> keys_fine o = true -> block_fine b ->
  Forall line_ok (block_lines w b).
Proof.
  intros o b w Hb Hk Hf. apply Forall_forall. intros l Hl. apply in_map_iff in Hl. destruct Hl as [e [<- He]].
  apply filter_In in He. destruct He as [He Hw]. destruct (Hf e He Hw) as [Hn _]. cbn.
  apply keys_fine_ok in Hk. rewrite Forall_forall in Hk.
  assert (K : In (e_key e) (map o_key o)). { rewrite <- (block_keys _ _ Hb). now apply in_map. }
  apply in_map_iff in K. destruct K as [oe [<- Ho]]. destruct (Hk oe Ho) as [K1 K2]. now split.
Qed.
Lemma spaced_ok : forall ls, Forall (Forall line_ok) ls -> Forall line_ok (spaced ls).
Proof.
  assert (F : forall l, Forall line_ok l -> Forall line_ok (filled l)).
  { intros [|l r] H; [constructor; [exact Logic.I|constructor]|exact H]. }
  induction ls as [|l r IH]; intro H; [constructor; [exact Logic.I|constructor]|].
  inversion H as [|? ? H1 H2]; subst. destruct r as [|m t]; [now apply F|].
  change (spaced (l :: m :: t)) with (filled l ++ Blank :: spaced (m :: t)).
  apply Forall_app. split; [now apply F|]. constructor; [exact Logic.I|now apply IH].
Qed.

(** Every field written has a text that is one line and that can be read. *)
Definition readable (u : puser) : Prop :=
  block_fine (u_observation u) /\ block_fine (u_output u)
  /\ (forall a, In a (u_anabeams u) -> block_fine (a_conf a))
  /\ (forall b, In b (nums u) \/ In b (centers u) -> block_fine (b_conf b)).
(** What the file says of a user parset. *)
Definition file_of (u : puser) : parset ck :=
  mkParset ck (pairs (u_observation u)) (pairs (u_output u))
    (map (fun a => beam_entry "anaIdx" (a_index a) (a_conf a)) (u_anabeams u))
    (map (fun b => beam_entry "digiIdx" (b_index b) (b_conf b)) (nums u))
    (map (fun b => beam_entry "pcIdx" (b_index b) (b_conf b)) (centers u)).
Lemma sorted_nodup : forall l, StronglySorted lt l -> NoDup (map Z.of_nat l).
Proof.
  induction 1 as [|x r H IH F]; cbn; [constructor|]. constructor; [|exact IH].
  intro G. apply in_map_iff in G. destruct G as [y [E Hy]]. rewrite Forall_forall in F. specialize (F y Hy). lia.
Qed.
Lemma seq_sorted : forall n k, StronglySorted lt (seq k n).
Proof.
  induction n as [|n IH]; intro k; cbn; constructor; [apply IH|].
  apply Forall_forall. intros y Hy. apply in_seq in Hy. lia.
Qed.
Lemma fine_all : forall A (l : list A) (f : A -> nat * block) o,
  (forall a, In a l -> fine_block o (snd (f a))) -> Forall (fun x => fine_block o (snd x)) (map f l).
Proof. intros A l f o H. apply Forall_map, Forall_forall. exact H. Qed.
Lemma decode_ok : forall u, user_ok u -> readable u -> decode ck (user_text u) = Ok (file_of u).
Proof.
  intros u [B1 [B2 [[B3 B4] [B5 B6]]]] [R1 [R2 [R3 R4]]].
  assert (BA : forall a, In a (u_anabeams u) -> fine_block anabeam_options (a_conf a)).
  { intros a Ha. split; [|now apply R3]. rewrite Forall_map, Forall_forall in B4. now destruct (B4 a Ha). }
  assert (BN : forall b, In b (nums u) -> fine_block beam_options (b_conf b)).
  { intros b Hb. split; [|apply R4; now left]. apply in_flat_map in Hb. destruct Hb as [a [Ha Hb]].
    rewrite Forall_map, Forall_forall in B4. destruct (B4 a Ha) as [_ [H _]].
    rewrite Forall_map, Forall_forall in H. now apply H. }
  assert (BC : forall b, In b (centers u) -> fine_block phasecenter_options (b_conf b)).
  { intros b Hb. split; [|apply R4; now right]. apply in_flat_map in Hb. destruct Hb as [a [Ha Hb]].
    rewrite Forall_map, Forall_forall in B4. destruct (B4 a Ha) as [_ [_ H]].
    rewrite Forall_map, Forall_forall in H. now apply H. }
  rewrite user_text_lines.
  assert (L : Forall line_ok (user_lines u)).
  { apply spaced_ok. constructor; [|constructor; [|constructor; [|constructor; [|constructor; [|constructor]]]]].
    - now apply (block_lines_ok observation_options).
    - apply spaced_ok, Forall_map, Forall_forall. intros a Ha. destruct (BA a Ha). now apply (block_lines_ok anabeam_options).
    - apply spaced_ok, Forall_map, Forall_forall. intros a Ha. destruct (BN a Ha). now apply (block_lines_ok beam_options).
    - apply spaced_ok, Forall_map, Forall_forall. intros a Ha. destruct (BC a Ha). now apply (block_lines_ok phasecenter_options).
    - apply (block_lines_ok output_options); [exact B2|exact out_keys|exact R2]. }
  assert (E : decode ck (text_of (user_lines u)) = effects (empty_parset ck) (user_lines u)).
  { revert L. unfold user_lines at 1 2 3.
    assert (N : block_lines OObs (u_observation u) <> []).
    { pose proof (fine_nonempty _ _ _ obs_fine B1) as F. unfold block_lines. intro G. apply F. now destruct (filter written _). }
    destruct (block_lines OObs (u_observation u)) as [|l0 r0] eqn:E0; [easy|].
    assert (K : exists key val, l0 = Line OObs key val).
    { assert (I0 : In l0 (block_lines OObs (u_observation u))) by (rewrite E0; now left).
      apply in_map_iff in I0. destruct I0 as [e [<- _]]. eauto. }
    destruct K as [key [val ->]]. cbn [spaced filled app]. intro L. now apply decode_all. }
  rewrite E. unfold user_lines. rewrite effects_spaced. cbn [concat]. rewrite !effects_app.
  unfold block_lines at 1. rewrite effects_obs. cbn [p_observation empty_parset].
  rewrite set_all_ok; [|now apply fine_entries|].
  2: { cbn [map app]. apply (NoDup_cons_iff ""%string). apply NoDup_filter_keys. rewrite (block_keys _ _ B1). apply obs_fine. }
  cbn [bind app]. rewrite effects_app, effects_spaced.
  rewrite <- (map_map (fun a => (a_index a, a_conf a)) (fun x => block_lines (OAna (fst x)) (snd x))).
  rewrite blocks_ana; [|exact ana_fine|now apply fine_all|].
  2: { cbn [with_obs p_anabeams empty_parset map app]. apply sorted_nodup. rewrite map_map. change (StronglySorted lt (map a_index (u_anabeams u))). rewrite B3. apply seq_sorted. }
  cbn [bind with_ana with_obs p_anabeams empty_parset app p_observation p_output p_digibeams p_centers].
  rewrite effects_app, effects_spaced.
  rewrite <- (map_map (fun a => (b_index a, b_conf a)) (fun x => block_lines (ONum (fst x)) (snd x))).
  rewrite blocks_num; [|exact num_fine|now apply fine_all|].
  2: { cbn [p_digibeams map app]. apply sorted_nodup. rewrite map_map. change (StronglySorted lt (map b_index (nums u))). red in B5. rewrite B5. apply seq_sorted. }
  cbn [bind with_num p_anabeams app p_observation p_output p_digibeams p_centers].
  rewrite effects_app, effects_spaced.
  rewrite <- (map_map (fun a => (b_index a, b_conf a)) (fun x => block_lines (OPc (fst x)) (snd x))).
  rewrite blocks_pc; [|exact pc_fine|now apply fine_all|].
  2: { cbn [p_centers map app]. apply sorted_nodup. rewrite map_map. exact B6. }
  cbn [bind with_pc p_anabeams app p_observation p_output p_digibeams p_centers].
  rewrite app_nil_r. unfold block_lines. rewrite effects_out. cbn [p_output].
  rewrite set_all_ok; [|now apply fine_entries|].
  2: { cbn [map app]. apply (NoDup_cons_iff ""%string). apply NoDup_filter_keys. rewrite (block_keys _ _ B2).
       constructor; [|exact out_distinct]. cbn. intuition discriminate. }
  cbn [bind with_out app p_observation p_output p_anabeams p_digibeams p_centers]. unfold file_of. rewrite !map_map. reflexivity.
Qed.

End WithClock.
