(** Values written in and read from a parset: C52, and the values that survive a
    round trip. *)
From Coq Require Import Ascii String List Arith ZArith QArith Bool Lia Sorted.
From Verif Require Import Base M_Polar M_Pipeline M_PText M_POptions M_Parset P_PText.
Import ListNotations.
Open Scope nat_scope.

Definition quote_s : string := String quote EmptyString.
(** No character that separates the elements of a list or that reading removes. *)
Definition tidy (s : string) : Prop := without newline s /\ without quote s.
Lemma tidy_app : forall a b, tidy a -> tidy b -> tidy (a ++ b)%string.
Proof. intros a b [A1 A2] [B1 B2]. split; now apply without_app. Qed.
Lemma tidy_clean : forall s, tidy s -> drop_char quote (drop_char newline s) = s.
Proof. intros s [H1 H2]. rewrite (drop_char_id newline s H1). now apply drop_char_id. Qed.
Lemma clean_tidy : forall s, tidy (drop_char quote (drop_char newline s)).
Proof.
  intro s. split; [apply drop_char_keeps; apply drop_char_without|apply drop_char_without].
Qed.
Lemma join_without : forall c sep l, without c sep -> Forall (without c) l -> without c (join sep l).
Proof.
  intros c sep l Hs H. induction H as [|x r Hx Hr IH]; [reflexivity|].
  destruct r as [|y t]; [exact Hx|]. cbn [join] in *. apply without_app; [exact Hx|]. now apply without_app.
Qed.
Lemma tidy_join : forall l, Forall tidy l -> tidy (join "," l).
Proof.
  intros l H. split; apply join_without; try reflexivity; (eapply Forall_impl; [|exact H]); intros s [A B]; assumption.
Qed.
Lemma show_int_tidy : forall n, tidy (show_int n).
Proof. intro n. split; apply show_int_without; try reflexivity; discriminate. Qed.
Lemma prefix_cons : forall a p b s,
  String.prefix (String a p) (String b s) = if ascii_dec a b then String.prefix p s else false.
Proof. reflexivity. Qed.
Lemma no_dots : forall s, without "." s -> has_sub ".." s = false.
Proof.
  intros s. induction s as [|a r IH]; intro H; [reflexivity|]. apply without_cons in H. destruct H as [H1 H2].
  cbn [has_sub]. rewrite (IH H2), prefix_cons. destruct (ascii_dec "." a); [congruence|reflexivity].
Qed.
Lemma split_dots_app : forall x y, without "." x -> without "." y -> split_dots (x ++ ".." ++ y)%string = [x; y].
Proof.
  assert (G : forall y, without "." y -> split_dots y = [y]).
  { induction y as [|a r IH]; intro H; [reflexivity|]. apply without_cons in H. destruct H as [H1 H2].
    apply Ascii.eqb_neq in H1. cbn [split_dots]. rewrite (IH H2), H1. now destruct r. }
  intros x y Hx Hy. induction x as [|a r IH].
  - cbn. now rewrite (G y Hy).
  - apply without_cons in Hx. destruct Hx as [H1 H2]. apply Ascii.eqb_neq in H1.
    change ((String a r ++ ".." ++ y)%string) with (String a (r ++ ".." ++ y)%string).
    cbn [split_dots]. rewrite (IH H2), H1. now destruct (r ++ ".." ++ y)%string.
Qed.
Lemma has_dots_app : forall x y, has_sub ".." (x ++ ".." ++ y)%string = true.
Proof.
  induction x as [|a r IH]; intro y.
  - cbn. now destruct y.
  - change ((String a r ++ ".." ++ y)%string) with (String a (r ++ ".." ++ y)%string). cbn [has_sub].
    rewrite IH. now rewrite orb_true_r.
Qed.
Lemma has_char_true_not : forall c s t, has_char c s = true -> has_char c t = false -> String.eqb s t = false.
Proof. intros c s t H1 H2. apply String.eqb_neq. intros ->. congruence. Qed.

Section WithClock.
Variable ck : clock.

(** ** Lists *)
Lemma bracketed : forall s, tidy s ->
  drop_char quote (drop_char newline ("[" ++ s ++ "]")%string) = ("[" ++ s ++ "]")%string.
Proof. intros s H. apply tidy_clean. apply tidy_app; [split; reflexivity|]. apply tidy_app; [exact H|split; reflexivity]. Qed.
Lemma read_list : forall key pieces, pieces <> [] -> Forall (without ",") pieces -> Forall tidy pieces ->
  read_value ck key ("[" ++ join "," pieces ++ "]")%string
  = bind (read_items ck pieces) (fun l => Ok (PList ck l)).
Proof.
  intros key pieces Hn Hc Ht. unfold read_value. rewrite bracketed by now apply tidy_join.
  change (("[" ++ join "," pieces ++ "]")%string) with (String "[" (join "," pieces ++ String "]" "")%string).
  cbv zeta.
  replace (starts_with "[" (String "[" (join "," pieces ++ String "]" "")%string)) with true by reflexivity.
  replace (ends_with "]" (String "[" (join "," pieces ++ String "]" "")%string)) with true.
  2: { symmetry. exact (ends_with_snoc (String "[" (join "," pieces)) "]" "]"). }
  cbn [andb]. rewrite inner_bracket. rewrite split_join; [reflexivity|assumption|assumption].
Qed.
Lemma read_item_int : forall n, (0 <= n)%Z -> read_item ck (show_int n) = Ok [IInt ck n].
Proof.
  intros n Hn. destruct (show_nonneg n Hn) as [D V]. unfold read_item.
  rewrite no_dots by (apply (digits_not _ D); reflexivity).
  rewrite (digits_not _ D ":"%char eq_refl), D, V. reflexivity.
Qed.
Lemma read_item_range : forall a b,
  read_item ck (show_int a ++ ".." ++ show_int b)%string = Ok (map (IInt ck) (zrange a (b + 1))).
Proof.
  intros a b. unfold read_item. rewrite has_dots_app.
  rewrite split_dots_app by (apply show_int_without; [reflexivity|discriminate]).
  now rewrite !py_int_show.
Qed.
Lemma read_items_ok : forall l r, Forall2 (fun s x => read_item ck s = Ok x) l r -> read_items ck l = Ok (concat r).
Proof.
  intros l r H. induction H as [|s x l r Hs H IH]; cbn; [reflexivity|]. rewrite Hs, IH. reflexivity.
Qed.

(** Part of a subband list: one number, or the numbers from [a] to [b]. *)
Inductive seg := One (n : Z) | Range (a b : Z).
Definition seg_text (s : seg) : string :=
  match s with One n => show_int n | Range a b => (show_int a ++ ".." ++ show_int b)%string end.
(** What it stands for. *)
Definition denotes (s : seg) (l : list Z) : Prop :=
  match s with
  | One n => l = [n]
  | Range a b => StronglySorted Z.lt l /\ forall x, In x l <-> (a <= x <= b)%Z
  end.
Definition seg_ok (s : seg) : Prop := match s with One n => (0 <= n)%Z | Range _ _ => True end.
Definition list_text (l : list seg) : string := ("[" ++ join "," (map seg_text l) ++ "]")%string.

Lemma zrange_denotes : forall a b, denotes (Range a b) (zrange a (b + 1)).
Proof.
  intros a b. unfold zrange. split.
  - assert (G : forall n k, StronglySorted Z.lt (map (fun i => (a + Z.of_nat i)%Z) (seq k n))).
    { induction n as [|n IH]; intro k; cbn; constructor; [apply IH|]. apply Forall_forall. intros x Hx.
      apply in_map_iff in Hx. destruct Hx as [i [<- Hi]]. apply in_seq in Hi. lia. }
    apply G.
  - intro x. rewrite in_map_iff. split.
    + intros [i [<- Hi]]. apply in_seq in Hi. lia.
    + intro H. exists (Z.to_nat (x - a)). rewrite in_seq. lia.
Qed.
Lemma denotes_unique : forall s l l', denotes s l -> denotes s l' -> l = l'.
Proof.
  intros [n|a b] l l' H H'; cbn in *; [congruence|]. destruct H as [S1 M1], H' as [S2 M2].
  assert (G : forall l l' : list Z, StronglySorted Z.lt l -> StronglySorted Z.lt l' ->
              (forall x, In x l <-> In x l') -> l = l').
  { clear. induction l as [|x r IH]; intros [|y t] A B H.
    - reflexivity.
    - exfalso. apply (proj2 (H y)). now left.
    - exfalso. apply (proj1 (H x)). now left.
    - apply StronglySorted_inv in A. apply StronglySorted_inv in B. destruct A as [A1 A2], B as [B1 B2].
      rewrite Forall_forall in A2, B2.
      assert (E : x = y).
      { destruct (proj1 (H x) (or_introl eq_refl)) as [E|E]; [congruence|].
        destruct (proj2 (H y) (or_introl eq_refl)) as [F|F]; [congruence|].
        specialize (A2 _ F). specialize (B2 _ E). lia. }
      subst y. f_equal. apply IH; try assumption. intro z. split; intro Hz.
      + destruct (proj1 (H z) (or_intror Hz)) as [E|E]; [|exact E]. subst z. specialize (A2 _ Hz). lia.
      + destruct (proj2 (H z) (or_intror Hz)) as [E|E]; [|exact E]. subst z. specialize (B2 _ Hz). lia. }
  apply G; [assumption|assumption|]. intro x. now rewrite M1, M2.
Qed.
Lemma seg_text_ok : forall s, without "," (seg_text s) /\ tidy (seg_text s).
Proof.
  intros [n|a b]; cbn [seg_text].
  - split; [apply show_int_without; [reflexivity|discriminate]|apply show_int_tidy].
  - split.
    + apply without_app; [apply show_int_without; [reflexivity|discriminate]|].
      apply without_app; [reflexivity|apply show_int_without; [reflexivity|discriminate]].
    + apply tidy_app; [apply show_int_tidy|]. apply tidy_app; [split; reflexivity|apply show_int_tidy].
Qed.

(** *** C52 *)
(** A subband list reads as the numbers it stands for, in the order written. *)
Theorem segments_read : forall key segs ls,
  segs <> [] -> Forall seg_ok segs -> Forall2 denotes segs ls ->
  read_value ck key (list_text segs) = Ok (PList ck (map (IInt ck) (concat ls))).
Proof.
  intros key segs ls Hn Hok Hd. unfold list_text. rewrite read_list.
  - rewrite (read_items_ok _ (map (map (IInt ck)) ls)).
    + cbn. now rewrite concat_map.
    + revert Hok. clear Hn. induction Hd as [|s l segs ls H Hd IH]; intro Hok; cbn; constructor.
      * inversion Hok; subst. destruct s as [n|a b]; cbn [seg_text].
        -- cbn in H. subst l. now apply read_item_int.
        -- rewrite read_item_range. now rewrite (denotes_unique _ _ _ (zrange_denotes a b) H).
      * apply IH. now inversion Hok.
  - now destruct segs.
  - apply Forall_map. apply Forall_forall. intros s _. apply seg_text_ok.
  - apply Forall_map. apply Forall_forall. intros s _. apply seg_text_ok.
Qed.
(** A list of integers given by the user reads back as it was. *)
Theorem ints_round_trip : forall key l,
  l <> [] -> Forall (fun n => (0 <= n)%Z) l ->
  read_value ck key (show_sval (store ck (UList ck (map (IInt ck) l)))) = Ok (PList ck (map (IInt ck) l)).
Proof.
  intros key l Hn Hl. cbn [store show_sval].
  replace (map (show_item ck) (map (IInt ck) l)) with (map seg_text (map One l)).
  2: { rewrite !map_map. apply map_ext. reflexivity. }
  change (("[" ++ join "," (map seg_text (map One l)) ++ "]")%string) with (list_text (map One l)).
  rewrite (segments_read _ _ (map (fun n => [n]) l)).
  - do 3 f_equal. clear. induction l as [|x r IH]; cbn; [reflexivity|]. now rewrite IH.
  - now destruct l.
  - now apply Forall_map.
  - clear. induction l; cbn; constructor; [reflexivity|assumption].
Qed.
(** The empty list reads as a list of one empty text; a negative integer as a text. *)
Theorem empty_list_refuted : forall key,
  read_value ck key (show_sval (store ck (UList ck []))) = Ok (PList ck [IStr ck ""]).
Proof. reflexivity. Qed.
Theorem negative_refuted : forall key n, (n < 0)%Z ->
  read_value ck key (show_sval (store ck (UList ck [IInt ck n]))) = Ok (PList ck [IStr ck (show_int n)]).
Proof.
  intros key n Hn. cbn [store show_sval map show_item].
  rewrite (read_list key [show_int n]).
  - cbn [read_items bind]. unfold read_item.
    rewrite no_dots by (apply show_int_without; [reflexivity|discriminate]).
    rewrite (show_int_without n ":"%char eq_refl) by discriminate.
    rewrite (show_neg _ Hn). reflexivity.
  - discriminate.
  - constructor; [apply show_int_without; [reflexivity|discriminate]|constructor].
  - constructor; [apply show_int_tidy|constructor].
Qed.

(** ** Values kept by writing and reading *)
(** Dates whose text reads as the same date: those without fractions of seconds. *)
Definition whole_second (t : date ck) : Prop :=
  let s := (show_isot ck t ++ "Z")%string in
  tidy s /\ has_char ":" s = true /\ starts_with "[" s = false /\ read_time ck (strip s) = Some t.
Definition whole_item (t : date ck) : Prop :=
  let s := show_time ck t in
  tidy s /\ without "," s /\ has_char ":" s = true /\ has_sub ".." s = false /\ read_time ck (strip s) = Some t.
Definition item_kept (x : item ck) : Prop :=
  match x with IInt _ n => (0 <= n)%Z | IStr _ _ => True | ITime _ t => whole_item t end.
Definition kept (v : pval ck) : Prop :=
  match v with
  | PTime _ t => whole_second t
  | PList _ l => l <> [] /\ Forall item_kept l
  | PAngle _ _ => False
  | _ => True
  end.

Definition item_source (s : string) (x : item ck) : Prop :=
  match x with
  | IStr _ t => t = s /\ has_sub ".." s = false
                /\ (has_char ":" s = true -> read_time ck (strip s) = None)
                /\ (has_char ":" s = false -> isdigit s = false)
  | _ => True
  end.
Lemma read_item_source : forall s l, read_item ck s = Ok l -> Forall (item_source s) l.
Proof.
  intros s l H. unfold read_item in H. destruct (has_sub ".." s) eqn:D.
  - destruct (split_dots s) as [|a [|b [|]]]; try discriminate.
    destruct (py_int a), (py_int b); try discriminate. injection H as <-. apply Forall_map. apply Forall_forall.
    intros x _. exact I.
  - destruct (has_char ":" s) eqn:C.
    + destruct (read_time ck (strip s)) eqn:T; injection H as <-; repeat constructor; cbn; try congruence; auto.
    + destruct (isdigit s) eqn:E; injection H as <-; repeat constructor; cbn; congruence.
Qed.
Lemma read_items_source : forall l r, read_items ck l = Ok r ->
  Forall (fun x => exists s, In s l /\ item_source s x) r.
Proof.
  induction l as [|s l IH]; intros r H; cbn in H.
  - injection H as <-. constructor.
  - destruct (read_item ck s) as [a|] eqn:A; [|discriminate]. cbn in H.
    destruct (read_items ck l) as [b|] eqn:B; [|discriminate]. cbn in H. injection H as <-.
    apply Forall_app. split.
    + eapply Forall_impl; [|apply (read_item_source _ _ A)]. intros x Hx. exists s. split; [now left|exact Hx].
    + eapply Forall_impl; [|apply (IH _ eq_refl)]. intros x [t [Ht Hx]]. exists t. split; [now right|exact Hx].
Qed.
Lemma read_item_again : forall s x, item_kept x -> item_source s x -> without "," s -> tidy s ->
  read_item ck (show_item ck x) = Ok [x] /\ without "," (show_item ck x) /\ tidy (show_item ck x).
Proof.
  intros s [n|t|t] Hk Hs Hc Ht; cbn [show_item] in *.
  - split; [now apply read_item_int|]. split; [apply show_int_without; [reflexivity|discriminate]|apply show_int_tidy].
  - destruct Hs as [-> [H1 [H2 H3]]]. split; [|split; assumption]. unfold read_item. rewrite H1.
    destruct (has_char ":" s) eqn:C; [now rewrite (H2 eq_refl)|now rewrite (H3 eq_refl)].
  - destruct Hk as [K1 [K2 [K3 [K4 K5]]]]. split; [|split; assumption]. unfold read_item. now rewrite K4, K3, K5.
Qed.

Lemma starts_digit : forall s, isdigit s = true -> starts_with "[" s = false.
Proof.
  intros [|a r] H; [reflexivity|]. cbn in *. apply andb_prop in H. destruct H as [H _].
  apply Ascii.eqb_neq. intros ->. discriminate.
Qed.
Lemma lower_digits : forall s, isdigit s = true -> lower s = s.
Proof.
  intros s H. assert (A : all_digits s = true) by (destruct s; [discriminate|exact H]). clear H.
  induction s as [|a r IH]; [reflexivity|]. cbn in *. apply andb_prop in A. destruct A as [A1 A2].
  rewrite (IH A2). f_equal. revert A1. destruct a as [[] [] [] [] [] [] [] []]; (reflexivity || discriminate).
Qed.
Lemma digits_not_word : forall s w, isdigit s = true -> isdigit w = false -> String.eqb (lower s) w = false.
Proof.
  intros s w H1 H2. rewrite (lower_digits s H1). apply String.eqb_neq. intros ->. congruence.
Qed.
Lemma snoc_not_word : forall s c w, ends_with c w = false -> String.eqb (lower (s ++ String c "")) w = true ->
  low_char c = c -> False.
Proof.
  intros s c w H1 H2 H3. apply String.eqb_eq in H2. rewrite <- H2 in H1. rewrite lower_app in H1. cbn [lower] in H1.
  rewrite ends_with_snoc, H3, Ascii.eqb_refl in H1. discriminate.
Qed.

(** A value read is written as a text that reads as the same value. *)
Theorem value_again : forall key text v,
  read_value ck key text = Ok v -> has_sub "angle" (lower key) = false -> kept v ->
  read_value ck key (show_sval (store ck (uval_of ck v))) = Ok v.
Proof.
  intros key text v H Ha Hk. unfold read_value in H.
  set (s := drop_char quote (drop_char newline text)) in *. pose proof (clean_tidy text) as Ts. fold s in Ts.
  cbv zeta in H. destruct (starts_with "[" s && ends_with "]" s) eqn:L.
  - (* list *)
    destruct (read_items ck (split_char "," (inner s))) as [l|] eqn:R; [|discriminate]. cbn in H. injection H as <-.
    destruct Hk as [Hn Hk]. cbn [uval_of store show_sval].
    pose proof (read_items_source _ _ R) as Hs.
    assert (G : Forall (fun x => read_item ck (show_item ck x) = Ok [x] /\ without "," (show_item ck x) /\ tidy (show_item ck x)) l).
    { rewrite Forall_forall in *. intros x Hx. destruct (Hs x Hx) as [t [Ht Hi]].
      apply (read_item_again t x (Hk x Hx) Hi).
      - pose proof (split_char_without "," (inner s)) as F. rewrite Forall_forall in F. now apply F.
      - split.
        + pose proof (split_char_keeps newline "," (inner s) (inner_keeps _ _ (proj1 Ts))) as F. rewrite Forall_forall in F. now apply F.
        + pose proof (split_char_keeps quote "," (inner s) (inner_keeps _ _ (proj2 Ts))) as F. rewrite Forall_forall in F. now apply F. }
    rewrite read_list.
    + rewrite (read_items_ok _ (map (fun x => [x]) l)).
      * cbn. do 2 f_equal. clear. induction l as [|x r IH]; cbn; [reflexivity|]. now rewrite IH.
      * clear - G. induction G as [|x r [H _] G IH]; cbn; constructor; assumption.
    + now destruct l.
    + apply Forall_map. eapply Forall_impl; [|exact G]. now intros x [_ [B _]].
    + apply Forall_map. eapply Forall_impl; [|exact G]. now intros x [_ [_ B]].
  - destruct (String.eqb (lower s) "true") eqn:BT; [injection H as <-; reflexivity|].
    destruct (String.eqb (lower s) "false") eqn:BF; [injection H as <-; reflexivity|].
    rewrite Ha in H.
    destruct (has_sub "duration" (lower key)) eqn:Du.
    + (* duration *)
      injection H as <-. cbn [uval_of store show_sval]. set (t := if ends_with "s" s then rstrip "s" s else s).
      assert (Tt : tidy t) by (unfold t; destruct (ends_with "s" s); [split; apply rstrip_keeps; apply Ts|exact Ts]).
      assert (Rt : rstrip "s" t = t).
      { unfold t. destruct (ends_with "s" s) eqn:E; [apply rstrip_idem|now apply rstrip_id]. }
      unfold read_value. change ((t ++ "s")%string) with ((t ++ String "s" "")%string).
      rewrite tidy_clean by (apply tidy_app; [exact Tt|split; reflexivity]). cbv zeta.
      rewrite ends_with_snoc. cbn [Ascii.eqb]. change (Ascii.eqb "s" "]") with false. rewrite andb_false_r.
      destruct (String.eqb (lower (t ++ String "s" "")) "true") eqn:B1.
      { exfalso. exact (snoc_not_word t "s" "true" eq_refl B1 eq_refl). }
      destruct (String.eqb (lower (t ++ String "s" "")) "false") eqn:B2.
      { exfalso. exact (snoc_not_word t "s" "false" eq_refl B2 eq_refl). }
      rewrite Ha, Du, ends_with_snoc. change (Ascii.eqb "s" "s") with true. cbv iota.
      now rewrite rstrip_snoc, Rt.
    + destruct (isdigit s) eqn:Di.
      * (* integer *)
        injection H as <-. cbn [uval_of store show_sval].
        assert (Hn : (0 <= digits_value 0 s)%Z).
        { assert (G : forall w a, (0 <= a)%Z -> (0 <= digits_value a w)%Z).
          { induction w as [|c r IH]; intros a H; cbn [digits_value]; [exact H|]. apply IH. lia. }
          apply G. lia. }
        set (n := digits_value 0 s) in *. destruct (show_nonneg n Hn) as [D V].
        unfold read_value. rewrite tidy_clean by apply show_int_tidy. cbv zeta.
        rewrite (starts_digit _ D). cbn [andb]. rewrite (digits_not_word _ "true" D eq_refl), (digits_not_word _ "false" D eq_refl).
        now rewrite Ha, Du, D, V.
      * destruct (has_char ":" s) eqn:Co.
        -- destruct (read_time ck (strip s)) as [t|] eqn:T; injection H as <-; cbn [uval_of store show_sval].
           ++ destruct Hk as [K1 [K2 [K3 K4]]]. unfold read_value. rewrite tidy_clean by exact K1. cbv zeta.
              rewrite K3. cbn [andb].
              rewrite (has_char_true_not ":" _ "true") by (rewrite ?has_char_lower by reflexivity; (exact K2 || reflexivity)).
              rewrite (has_char_true_not ":" _ "false") by (rewrite ?has_char_lower by reflexivity; (exact K2 || reflexivity)).
              rewrite Ha, Du.
              replace (isdigit (show_isot ck t ++ "Z")%string) with false.
              2: { symmetry. destruct (isdigit (show_isot ck t ++ "Z")%string) eqn:E; [|reflexivity].
                   rewrite (digits_not _ E ":"%char eq_refl) in K2. discriminate. }
              now rewrite K2, K4.
           ++ unfold read_value. rewrite tidy_clean by exact Ts. cbv zeta.
              now rewrite L, BT, BF, Ha, Du, Di, Co, T.
        -- injection H as <-. cbn [uval_of store show_sval]. unfold read_value.
           assert (Tl : tidy (lower s)).
           { destruct Ts as [T1 T2]. unfold tidy, without in *. now rewrite !has_char_lower by reflexivity. }
           rewrite tidy_clean by exact Tl. cbv zeta.
           rewrite starts_with_lower, ends_with_lower, L, lower_idem, BT, BF, Ha, Du, isdigit_lower, Di, has_char_lower, Co by reflexivity.
           reflexivity.
Qed.

(** The newline at the end of a line is not part of the value. *)
Lemma read_value_nl : forall key s, read_value ck key (s ++ nl)%string = read_value ck key s.
Proof.
  intros key s. unfold read_value. rewrite drop_char_app. change (drop_char newline nl) with ""%string.
  now rewrite app_nil_r_s.
Qed.

End WithClock.
