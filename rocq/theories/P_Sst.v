(** Sets of statistics files *)
From Coq Require Import ZArith QArith Bool Ascii String List Lia Permutation Sorted.
From Verif Require Import Base M_PText M_Sst.
From Verif Require M_Parset P_PText.
Import ListNotations.
Open Scope nat_scope.
Open Scope list_scope.

(** ** Lists *)
Lemma insert_perm : forall s l, Permutation (insert s l) (s :: l).
Proof. intros s l. induction l as [|x r IH]; [reflexivity|]. cbn. destruct (String.leb s x); [reflexivity|]. rewrite IH. constructor. Qed.
Lemma sort_perm : forall l, Permutation (sort l) l.
Proof. induction l as [|s l IH]; [reflexivity|]. cbn [sort fold_right]. rewrite insert_perm. now constructor. Qed.
Lemma get_set : forall V n m (v : V) g, get_key n (set_key m v g) = if String.eqb n m then Some v else get_key n g.
Proof.
  intros V n m v g. induction g as [|(k, w) g IH]; cbn; [reflexivity|]. destruct (String.eqb m k) eqn:E; cbn.
  - apply String.eqb_eq in E. subst. now destruct (String.eqb n k).
  - rewrite IH. destruct (String.eqb n k) eqn:E2; [|reflexivity]. apply String.eqb_eq in E2. subst. rewrite String.eqb_sym, E. reflexivity.
Qed.
Lemma in_set : forall V k (v : V) g x, In x (map fst (set_key k v g)) <-> x = k \/ In x (map fst g).
Proof.
  intros V k v g x. induction g as [|(a, w) g IH]; cbn; [intuition congruence|]. destruct (String.eqb_spec k a) as [->|E]; cbn; [intuition congruence|]. rewrite IH. tauto.
Qed.
Lemma keys_set : forall V k (v : V) g, NoDup (map fst g) -> NoDup (map fst (set_key k v g)).
Proof.
  intros V k v g. induction g as [|(a, w) g IH]; cbn; intro N; [repeat constructor; intros []|]. inversion N; subst. destruct (String.eqb_spec k a) as [->|E]; cbn; constructor; auto.
  intro X. apply in_set in X as [X|X]; [congruence|contradiction].
Qed.
Lemma get_in : forall V k (v : V) g, NoDup (map fst g) -> (In (k, v) g <-> get_key k g = Some v).
Proof.
  intros V k v g. induction g as [|(a, w) g IH]; cbn; intro N; [split; [contradiction|discriminate]|]. inversion N; subst. destruct (String.eqb_spec k a) as [->|X].
  - split; [intros [E|E]; [now injection E as <-|exfalso; apply H1; apply (in_map fst) in E; exact E]|intro E; injection E as <-; now left].
  - rewrite <- IH by assumption. split; [intros [E|E]; [congruence|exact E]|now right].
Qed.

(** ** Specification *)
Section Sst.
Variable fs : string -> option props.
(** The objects made of these files by creations and sums *)
Inductive made : list string -> sst -> Prop :=
| made_new : forall l s, create fs true l = Ok s -> made l s
| made_add : forall l m a b c, made l a -> made m b -> add fs a b = Ok c -> made (l ++ m) c.
(** [s] holds the files [l], and their properties *)
Record holds (l : list string) (s : sst) : Prop := {
  h_files : Permutation (s_files s) l;
  h_nodup : NoDup (map fst (s_props s));
  h_props : forall f p, In (f, p) (s_props s) <-> In f l /\ fs f = Some p }.
Definition exist (l : list string) : Prop := Forall (fun f => fs f <> None) l.
Definition is_lowest (v : Q) (l : list Q) : Prop := In v l /\ forall x, In x l -> (v <= x)%Q.
Definition is_highest (v : Q) (l : list Q) : Prop := In v l /\ forall x, In x l -> (x <= v)%Q.
(** The values of the files *)
Definition values (f : props -> Q) (l : list string) : list Q := flat_map (fun n => match fs n with Some p => [f p] | None => [] end) l.

Lemma fill_true : forall l d out, NoDup (map fst d) -> (forall f p, In (f, p) d -> fs f = Some p) -> fill fs true l d = Ok out ->
  exist l /\ NoDup (map fst out) /\ forall f p, In (f, p) out <-> (In f l /\ fs f = Some p) \/ In (f, p) d.
Proof.
  induction l as [|g l IH]; intros d out N D H; cbn [fill] in H.
  - injection H as <-. split; [constructor|]. split; [exact N|]. intros f p. cbn. tauto.
  - destruct (fs g) as [q|] eqn:G; [|discriminate]. apply IH in H as (E & N' & X); cycle 1.
    { now apply keys_set. }
    { intros f p I. apply get_in in I; [|now apply keys_set]. rewrite get_set in I. destruct (String.eqb_spec f g) as [->|Y]; [congruence|]. apply D, get_in; assumption. }
    split; [constructor; [congruence|exact E]|]. split; [exact N'|]. intros f p. rewrite X. rewrite (get_in _ f p (set_key g q d)) by now apply keys_set. rewrite get_set. cbn [In]. destruct (String.eqb_spec f g) as [->|Y].
    + split; [intros [Z|Z]; [left; tauto|injection Z as <-; left; now split; [left|]]|]. intros [(_ & Z)|Z]; [right; congruence|right]. apply D in Z. congruence.
    + rewrite <- get_in by exact N. split; [tauto|]. intros [([Z|Z] & Z')|Z]; [congruence|tauto|tauto].
Qed.
Lemma fill_false : forall l d, exist l -> fill fs false l d = Ok d.
Proof. induction l as [|g l IH]; intros d E; [reflexivity|]. inversion E; subst. cbn [fill]. destruct (fs g); [now apply IH|contradiction]. Qed.
Lemma fill_missing : forall u l d, ~ exist l -> fill fs u l d = Err EException.
Proof.
  intros u l. induction l as [|g l IH]; intros d E; [exfalso; apply E; constructor|]. cbn [fill]. destruct (fs g) eqn:G; [|reflexivity]. apply IH. intro X. apply E. constructor; [congruence|exact X].
Qed.
Lemma fill_total : forall u l d, exist l -> exists out, fill fs u l d = Ok out.
Proof. intros u l. induction l as [|g l IH]; intros d E; [now exists d|]. inversion E; subst. cbn [fill]. destruct (fs g); [now apply IH|contradiction]. Qed.
Lemma exist_perm : forall l m, Permutation l m -> exist l -> exist m.
Proof. intros l m P E. unfold exist in *. rewrite Forall_forall in *. intros f I. apply E. now apply (Permutation_in _ (Permutation_sym P)). Qed.
Lemma merge_in : forall y x, NoDup (map fst x) -> NoDup (map fst (merge x y)) /\
  ((forall f p, In (f, p) x -> fs f = Some p) -> (forall f p, In (f, p) y -> fs f = Some p) -> forall f p, In (f, p) (merge x y) <-> In (f, p) x \/ In (f, p) y).
Proof.
  unfold merge. induction y as [|(k, v) y IH]; intros x N; [split; [exact N|]; intros _ _ f p; cbn; tauto|]. cbn [fold_left fst snd]. destruct (IH (set_key k v x) (keys_set _ _ _ _ N)) as (N' & X). split; [exact N'|]. intros Dx Dy f p.
  assert (Kv : fs k = Some v) by (apply Dy; now left).
  assert (S : forall f p, In (f, p) (set_key k v x) <-> In (f, p) x \/ (k, v) = (f, p)).
  { intros g q. rewrite (get_in _ g q _ (keys_set _ _ _ _ N)), get_set. destruct (String.eqb_spec g k) as [->|Y].
    - split; [intro Z; injection Z as <-; now right|]. intros [Z|Z]; [|congruence]. apply Dx in Z. congruence.
    - rewrite <- get_in by exact N. split; [tauto|]. intros [Z|Z]; [exact Z|congruence]. }
  rewrite X; cycle 1.
  { intros g q I. apply S in I as [I|I]; [now apply Dx|]. now injection I as <- <-. }
  { intros g q I. apply Dy. now right. }
  rewrite S. cbn [In]. tauto.
Qed.
Lemma holds_fs : forall l s, holds l s -> forall f p, In (f, p) (s_props s) -> fs f = Some p.
Proof. intros l s H f p I. now apply (h_props _ _ H) in I. Qed.
Lemma new_holds : forall l s, create fs true l = Ok s -> exist l /\ holds l s.
Proof.
  intros l s H. unfold create in H. destruct (fill fs true l []) as [d|] eqn:F; [|discriminate]. injection H as <-. apply fill_true in F as (E & N & X); [|constructor|intros ? ? []]. split; [exact E|]. split; [reflexivity|exact N|]. intros f p. cbn [s_props]. rewrite X. cbn. tauto.
Qed.
Lemma add_holds : forall l m a b, exist l -> exist m -> holds l a -> holds m b -> exists c, add fs a b = Ok c /\ holds (l ++ m) c.
Proof.
  intros l m a b El Em A B.
  assert (P : Permutation (names a ++ names b) (l ++ m)) by (apply Permutation_app; unfold names; rewrite sort_perm; [exact (h_files _ _ A)|exact (h_files _ _ B)]).
  unfold add, create. rewrite fill_false; cycle 1.
  { apply (exist_perm (l ++ m)); [now symmetry|]. now apply Forall_app. }
  cbn [bind s_files]. eexists. split; [reflexivity|]. destruct (merge_in (s_props b) (s_props a) (h_nodup _ _ A)) as (N & X). split; cbn [s_files s_props]; [exact P|exact N|].
  intros f p. rewrite X; [|exact (holds_fs l a A)|exact (holds_fs m b B)]. rewrite (h_props _ _ A), (h_props _ _ B), in_app_iff. tauto.
Qed.
Lemma made_holds : forall l s, made l s -> exist l /\ holds l s.
Proof.
  intros l s H. induction H as [l s H|l m a b c A (EA & HA) B (EB & HB) H]; [now apply new_holds|]. split; [now apply Forall_app|]. destruct (add_holds l m a b EA EB HA HB) as (c' & H' & X). congruence.
Qed.
Theorem creation : forall l, (exist l -> exists s, create fs true l = Ok s) /\ (~ exist l -> create fs true l = Err EException).
Proof.
  intro l. unfold create. split; intro E; [destruct (fill_total true l [] E) as (d & ->); now eexists|now rewrite fill_missing].
Qed.
Theorem files_of_sums : forall l s, made l s -> Permutation (names s) l /\ forall f p, get_key f (s_props s) = Some p <-> In f l /\ fs f = Some p.
Proof.
  intros l s M. destruct (made_holds l s M) as (E & H). split; [unfold names; rewrite sort_perm; apply (h_files _ _ H)|]. intros f p. rewrite <- get_in by apply (h_nodup _ _ H). apply (h_props _ _ H).
Qed.
Theorem sums_exist : forall l m a b, made l a -> made m b -> exists c, add fs a b = Ok c /\ made (l ++ m) c.
Proof.
  intros l m a b A B. destruct (made_holds _ _ A) as (EA & HA). destruct (made_holds _ _ B) as (EB & HB). destruct (add_holds l m a b EA EB HA HB) as (c & H & _). exists c. split; [exact H|]. exact (made_add l m a b c A B H).
Qed.
Theorem sum_of_list : forall ls l a, made l a -> forall ss, Forall2 made ls ss -> exists c, sum_from fs a ss = Ok c /\ made (l ++ concat ls) c.
Proof.
  intros ls l a A ss H. revert l a A. induction H as [|m b ls ss B F IH]; intros l a A; cbn [sum_from concat].
  - exists a. rewrite app_nil_r. now split.
  - destruct (sums_exist l m a b A B) as (c & -> & C). cbn [bind]. destruct (IH _ _ C) as (d & H1 & H2). exists d. split; [exact H1|]. now rewrite app_assoc.
Qed.

(** ** Ranges *)
Lemma less_spec : forall a b, less a b = true <-> (a < b)%Q.
Proof. intros a b. unfold less. rewrite negb_true_iff, <- not_true_iff_false, Qle_bool_iff. split; [apply Qnot_le_lt|apply Qlt_not_le]. Qed.
Lemma lowest_fold : forall r x, is_lowest (fold_left (fun m y => if less y m then y else m) r x) (x :: r).
Proof.
  induction r as [|y r IH]; intro x; cbn [fold_left]; [split; [now left|]; intros z [<-|[]]; apply Qle_refl|]. destruct (less y x) eqn:L.
  - apply less_spec in L. destruct (IH y) as (I & M). split; [now right|]. intros z [<-|Z]; [|now apply M]. apply Qle_trans with y; [apply M; now left|now apply Qlt_le_weak].
  - destruct (IH x) as (I & M). split; [destruct I as [I|I]; [now left|right; now right]|]. intros z [<-|[<-|Z]]; [apply M; now left| |apply M; now right]. apply Qle_trans with x; [apply M; now left|]. apply Qnot_lt_le. intro X. apply less_spec in X. congruence.
Qed.
Lemma highest_fold : forall r x, is_highest (fold_left (fun m y => if less m y then y else m) r x) (x :: r).
Proof.
  induction r as [|y r IH]; intro x; cbn [fold_left]; [split; [now left|]; intros z [<-|[]]; apply Qle_refl|]. destruct (less x y) eqn:L.
  - apply less_spec in L. destruct (IH y) as (I & M). split; [now right|]. intros z [<-|Z]; [|now apply M]. apply Qle_trans with y; [now apply Qlt_le_weak|apply M; now left].
  - destruct (IH x) as (I & M). split; [destruct I as [I|I]; [now left|right; now right]|]. intros z [<-|[<-|Z]]; [apply M; now left| |apply M; now right]. apply Qle_trans with x; [|apply M; now left]. apply Qnot_lt_le. intro X. apply less_spec in X. congruence.
Qed.
Lemma list_values : forall f l s, holds l s -> exist l -> forall x, In x (list_of f s) <-> In x (values f l).
Proof.
  intros f l s H E x. unfold list_of, values. rewrite in_map_iff, in_flat_map. split.
  - intros ((n, p) & <- & I). apply (h_props _ _ H) in I as (I & P). exists n. rewrite P. split; [exact I|now left].
  - intros (n & I & X). destruct (fs n) as [p|] eqn:P; [|destruct X]. destruct X as [<-|[]]. exists (n, p). split; [reflexivity|]. now apply (h_props _ _ H).
Qed.
Lemma values_nil : forall f l, exist l -> values f l = [] -> l = [].
Proof. intros f l E V. destruct E as [|n l E F]; [reflexivity|]. cbn in V. destruct (fs n); [discriminate|contradiction]. Qed.
Lemma lowest_spec : forall l m, (forall x, In x m <-> In x l) -> (l <> [] -> exists v, lowest m = Ok v /\ is_lowest v l) /\ (l = [] -> lowest m = Err EValueError).
Proof.
  intros l m E. split.
  - intro L. destruct m as [|x m]; [destruct l as [|y l]; [contradiction|]; exfalso; apply (E y); now left|]. cbn. eexists. split; [reflexivity|]. destruct (lowest_fold m x) as (I & M). split; [now apply E|]. intros z Z. apply M. now apply E.
  - intros ->. destruct m as [|x m]; [reflexivity|]. exfalso. apply (E x). now left.
Qed.
Lemma highest_spec : forall l m, (forall x, In x m <-> In x l) -> (l <> [] -> exists v, highest m = Ok v /\ is_highest v l) /\ (l = [] -> highest m = Err EValueError).
Proof.
  intros l m E. split.
  - intro L. destruct m as [|x m]; [destruct l as [|y l]; [contradiction|]; exfalso; apply (E y); now left|]. cbn. eexists. split; [reflexivity|]. destruct (highest_fold m x) as (I & M). split; [now apply E|]. intros z Z. apply M. now apply E.
  - intros ->. destruct m as [|x m]; [reflexivity|]. exfalso. apply (E x). now left.
Qed.
Definition ranges (l : list string) (s : sst) : Prop :=
  (l = [] -> t_min s = Err EValueError /\ t_max s = Err EValueError /\ f_min s = Err EValueError /\ f_max s = Err EValueError) /\
  (l <> [] -> (exists v, t_min s = Ok v /\ is_lowest v (values p_tmin l)) /\ (exists v, t_max s = Ok v /\ is_highest v (values p_tmax l)) /\
              (exists v, f_min s = Ok v /\ is_lowest v (values p_fmin l)) /\ (exists v, f_max s = Ok v /\ is_highest v (values p_fmax l))).
Lemma holds_ranges : forall l s, exist l -> holds l s -> ranges l s.
Proof.
  intros l s E H. unfold t_min, t_max, f_min, f_max. split.
  - intros ->. repeat split; first [apply (lowest_spec []) | apply (highest_spec [])]; try reflexivity; intro x; apply (list_values _ [] s H E).
  - intro L. assert (V : forall f, values f l <> []) by (intros f X; exact (L (values_nil f l E X))).
    split; [|split; [|split]]; first [apply lowest_spec|apply highest_spec]; try apply V; apply list_values; assumption.
Qed.
Theorem sums_ranges : forall l s, made l s -> ranges l s.
Proof. intros l s M. destruct (made_holds l s M). now apply holds_ranges. Qed.

(** ** Removal *)
Definition kept (l m : list string) : list string := filter (fun f => negb (existsb (String.eqb (base f)) (map base m))) l.
Lemma remove_filter : forall A (g : A -> string) l x, NoDup (map g l) -> remove_first (fun a => String.eqb (g a) x) l = filter (fun a => negb (String.eqb (g a) x)) l.
Proof.
  intros A g l x. induction l as [|a l IH]; intro N; [reflexivity|]. cbn in *. inversion N; subst. destruct (String.eqb_spec (g a) x) as [<-|E]; cbn; [|now rewrite IH].
  clear -H1. induction l as [|b l IH]; [reflexivity|]. cbn in *. destruct (String.eqb_spec (g b) (g a)) as [X|X]; [exfalso; apply H1; now left|]. cbn. f_equal. apply IH. tauto.
Qed.
Lemma filter_nodup : forall A (g : A -> string) p l, NoDup (map g l) -> NoDup (map g (filter p l)).
Proof.
  intros A g p l. induction l as [|a l IH]; intro N; [constructor|]. cbn in *. inversion N; subst. destruct (p a); [|now apply IH]. cbn. constructor; [|now apply IH]. intro X. apply H1. apply in_map_iff in X as (b & E & X). apply filter_In in X as (X & _). rewrite <- E. now apply in_map.
Qed.
Lemma drops_filter : forall A (g : A -> string) gone l, NoDup (map g l) -> fold_left (fun l x => remove_first (fun a => String.eqb (g a) x) l) gone l = filter (fun a => negb (existsb (String.eqb (g a)) gone)) l.
Proof.
  intros A g gone. induction gone as [|x gone IH]; intros l N; cbn [fold_left existsb].
  - clear. induction l as [|a l IH]; [reflexivity|]. cbn. f_equal. exact IH.
  - rewrite remove_filter by exact N. rewrite IH by now apply filter_nodup. clear. induction l as [|a l IH]; [reflexivity|]. cbn. destruct (String.eqb (g a) x); cbn; [exact IH|]. destruct (negb (existsb (String.eqb (g a)) gone)); now rewrite IH.
Qed.
Lemma exists_perm : forall x l m, Permutation l m -> existsb (String.eqb x) l = existsb (String.eqb x) m.
Proof. intros x l m P. induction P; cbn; [reflexivity|now rewrite IHP|now rewrite !orb_assoc, (orb_comm (String.eqb x y))|congruence]. Qed.
Lemma filter_perm : forall (p : string -> bool) l m, Permutation l m -> Permutation (filter p l) (filter p m).
Proof. intros p l m P. induction P; cbn; [constructor|destruct (p x); [now constructor|assumption]|destruct (p x), (p y); try constructor; reflexivity|now transitivity (filter p l')]. Qed.
Lemma nodup_base : forall l, NoDup (map base l) -> NoDup l.
Proof. intros l N. exact (NoDup_map_inv base l N). Qed.
Lemma keys_bases : forall l s, holds l s -> NoDup (map base l) -> NoDup (map (fun kv => base (fst kv)) (s_props s)).
Proof.
  intros l s H N. assert (I : forall kv, In kv (s_props s) -> In (fst kv) l) by (intros (f, p) X; now apply (h_props _ _ H) in X).
  assert (inj : forall x y, In x l -> In y l -> base x = base y -> x = y).
  { clear -N. induction l as [|a l IH]; intros x y [] ; cbn in N; inversion N; subst.
    - subst. intros [<-|Y] E; [reflexivity|]. exfalso. apply H2. rewrite E. now apply in_map.
    - intros [<-|Y] E; [exfalso; apply H2; rewrite <- E; now apply in_map|now apply IH]. }
  pose proof (h_nodup _ _ H) as K. clear H. induction (s_props s) as [|kv d IH]; [constructor|]. cbn in *. inversion K; subst. constructor; [|apply IH; [intros; apply I; now right|assumption]].
  intro X. apply in_map_iff in X as (kw & E & X). apply H1. rewrite <- (inj (fst kw) (fst kv)); [now apply in_map|apply I; now right|apply I; now left|exact E].
Qed.
Lemma sub_holds : forall l m a b, exist l -> holds l a -> holds m b -> NoDup (map base l) -> exists c, sub fs a b = Ok c /\ exist (kept l m) /\ holds (kept l m) c.
Proof.
  intros l m a b E A B N. unfold sub.
  assert (Pa : Permutation (names a) l) by (unfold names; rewrite sort_perm; apply (h_files _ _ A)).
  assert (Pb : Permutation (map base (names b)) (map base m)) by (apply Permutation_map; unfold names; rewrite sort_perm; apply (h_files _ _ B)).
  assert (F : fold_left drop (map base (names b)) (names a) = kept (names a) m).
  { unfold drop. rewrite (drops_filter _ base) by (apply (Permutation_NoDup (Permutation_map base (Permutation_sym Pa))); exact N). unfold kept. apply filter_ext. intro f. f_equal. now apply exists_perm. }
  assert (K : exist (kept l m)) by (unfold exist, kept in *; rewrite Forall_forall in *; intros f I; apply filter_In in I as (I & _); now apply E).
  assert (P : Permutation (kept (names a) m) (kept l m)) by now apply filter_perm.
  rewrite F. unfold create. rewrite fill_false by (apply (exist_perm (kept l m)); [now symmetry|exact K]). cbn [bind s_files]. eexists. split; [reflexivity|]. split; [exact K|].
  unfold drop_key. rewrite (drops_filter _ (fun kv : string * props => base (fst kv))) by exact (keys_bases l a A N). split; cbn [s_files s_props]; [exact P|apply filter_nodup, (h_nodup _ _ A)|].
  intros f p. rewrite filter_In. cbn [fst]. rewrite (exists_perm _ _ _ Pb). unfold kept. rewrite filter_In, (h_props _ _ A). tauto.
Qed.
Theorem removal : forall l m a b, made l a -> made m b -> NoDup (map base l) ->
  exists c, sub fs a b = Ok c /\ Permutation (names c) (kept l m) /\ (forall f p, get_key f (s_props c) = Some p <-> In f (kept l m) /\ fs f = Some p) /\ ranges (kept l m) c.
Proof.
  intros l m a b A B N. destruct (made_holds _ _ A) as (EA & HA). destruct (made_holds _ _ B) as (EB & HB). destruct (sub_holds l m a b EA HA HB N) as (c & H & E & C). exists c. split; [exact H|]. split; [unfold names; rewrite sort_perm; apply (h_files _ _ C)|]. split; [|now apply holds_ranges].
  intros f p. rewrite <- get_in by apply (h_nodup _ _ C). apply (h_props _ _ C).
Qed.
Lemma kept_app : forall l m, NoDup (map base (l ++ m)) -> kept (l ++ m) m = l.
Proof.
  intros l m N. unfold kept. rewrite filter_app. assert (R : forall k, (forall f, In f k -> In f m) -> filter (fun f => negb (existsb (String.eqb (base f)) (map base m))) k = []).
  { induction k as [|f k IH]; intro I; [reflexivity|]. cbn [filter]. replace (existsb (String.eqb (base f)) (map base m)) with true; [apply IH; intros; apply I; now right|]. symmetry. apply existsb_exists. exists (base f). split; [apply in_map, I; now left|apply String.eqb_refl]. }
  rewrite (R m) by auto. rewrite app_nil_r. rewrite map_app in N. revert N. generalize (map base m). intros bs N. clear R. induction l as [|f l IH]; [reflexivity|]. cbn in *. inversion N; subst.
  replace (existsb (String.eqb (base f)) bs) with false; [cbn; f_equal; now apply IH|]. symmetry. apply not_true_iff_false. rewrite existsb_exists. intros (x & I & E). apply String.eqb_eq in E. subst x. apply H1, in_or_app. now right.
Qed.
Theorem sum_then_removal : forall l m a b, made l a -> made m b -> NoDup (map base (l ++ m)) ->
  exists s c, add fs a b = Ok s /\ sub fs s b = Ok c /\ Permutation (names c) l /\ (forall f, get_key f (s_props c) = get_key f (s_props a)) /\ ranges l c /\ eq c a = true /\ eq a c = true.
Proof.
  intros l m a b A B N. destruct (sums_exist l m a b A B) as (s & H & S). destruct (removal (l ++ m) m s b S B N) as (c & H2 & P & G & R). rewrite (kept_app l m N) in *. exists s, c. split; [exact H|]. split; [exact H2|]. split; [exact P|].
  destruct (files_of_sums l a A) as (Pa & Ga).
  assert (Q : Permutation (names c) (names a)) by (now rewrite P, Pa).
  split; [|split; [exact R|]].
  - intro f. destruct (get_key f (s_props c)) as [p|] eqn:X; [apply G in X; symmetry; now apply Ga|]. destruct (get_key f (s_props a)) as [p|] eqn:Y; [|reflexivity]. apply Ga, G in Y. congruence.
  - unfold eq. rewrite !forallb_forall. split; intros f I; apply existsb_exists; exists (base f); (split; [apply in_map|apply String.eqb_refl]); [apply (Permutation_in _ (Permutation_sym Q))|apply (Permutation_in _ Q)]; exact I.
Qed.

(** ** Equality *)
Definition covers (l m : list string) : Prop := forall f, In f m -> exists g, In g l /\ base g = base f.
Lemma eq_covers : forall a b, eq a b = true <-> covers (names a) (names b).
Proof.
  intros a b. unfold eq. rewrite forallb_forall. split; intros H f I.
  - specialize (H f I). apply existsb_exists in H as (x & X & E). apply String.eqb_eq in E. subst x. apply in_map_iff in X as (g & E & G). now exists g.
  - destruct (H f I) as (g & G & E). apply existsb_exists. exists (base f). split; [|apply String.eqb_refl]. rewrite <- E. now apply in_map.
Qed.
Theorem equality : forall l m a b, made l a -> made m b -> (eq a b = true <-> covers l m).
Proof.
  intros l m a b A B. rewrite eq_covers. destruct (files_of_sums l a A) as (P & _). destruct (files_of_sums m b B) as (Q & _). split; intros H f I.
  - destruct (H f (Permutation_in _ (Permutation_sym Q) I)) as (g & G & E). exists g. split; [now apply (Permutation_in _ P)|exact E].
  - destruct (H f (Permutation_in _ Q I)) as (g & G & E). exists g. split; [now apply (Permutation_in _ (Permutation_sym P))|exact E].
Qed.
Theorem equality_order : (forall a, eq a a = true) /\ (forall a b c, eq a b = true -> eq b c = true -> eq a c = true).
Proof.
  split; [intro a; apply eq_covers; intros f I; now exists f|]. intros a b c H K. apply eq_covers in H, K. apply eq_covers. intros f I. destruct (K f I) as (g & G & E). destruct (H g G) as (h & X & Y). exists h. split; [exact X|congruence].
Qed.
Theorem symmetric_refuted : forall l m a b, made l a -> made m b -> exists c, add fs a b = Ok c /\ eq c a = true /\ (eq a c = true <-> covers l m).
Proof.
  intros l m a b A B. destruct (sums_exist l m a b A B) as (c & H & C). exists c. split; [exact H|]. split; [apply (equality (l ++ m) l c a C A); intros f I; exists f; split; [apply in_or_app; now left|reflexivity]|].
  rewrite (equality l (l ++ m) a c A C). split; intros K f I; [apply K, in_or_app; now right|]. apply in_app_or in I as [I|I]; [now exists f|now apply K].
Qed.
(** Two files of the same base name: the file of one with the properties of the other *)
Theorem shared_refuted : forall p q xp xq, base p = base q -> p <> q -> String.leb p q = true -> String.leb q p = false -> fs p = Some xp -> fs q = Some xq ->
  exists a b s c, create fs true [q] = Ok a /\ create fs true [p] = Ok b /\ add fs a b = Ok s /\ sub fs s a = Ok c /\ names c = [q] /\ s_props c = [(p, xp)] /\ t_min c = Ok (p_tmin xp).
Proof.
  intros p q xp xq B D L L' P Q. exists (mkSst [q] [(q, xq)]), (mkSst [p] [(p, xp)]), (mkSst [q; p] [(q, xq); (p, xp)]), (mkSst [q] [(p, xp)]).
  assert (E : String.eqb p q = false) by now apply String.eqb_neq.
  split; [unfold create; cbn; now rewrite Q|]. split; [unfold create; cbn; now rewrite P|]. split.
  - unfold add, create, names. cbn. rewrite Q, P. cbn. now rewrite E.
  - split; [|repeat split]. unfold sub, create, names. cbn [s_files s_props sort fold_right insert map]. rewrite L'. cbn [fold_left]. unfold drop, drop_key. cbn [remove_first fst]. rewrite B, String.eqb_refl. cbn. now rewrite Q.
Qed.
End Sst.

(** ** Selections *)
Lemma insert_q_perm : forall x l, Permutation (insert_q x l) (x :: l).
Proof. intros x l. induction l as [|y r IH]; [reflexivity|]. cbn. destruct (Qle_bool x y); [reflexivity|]. rewrite IH. constructor. Qed.
Lemma sorted_perm : forall l, Permutation (fold_right insert_q [] l) l.
Proof. induction l as [|s l IH]; [reflexivity|]. cbn [fold_right]. rewrite insert_q_perm. now constructor. Qed.
Theorem boundaries_two : (forall x, boundaries [x] = Ok [x; x]) /\
  (forall x y, exists a b, boundaries [x; y] = Ok [a; b] /\ (a <= b)%Q /\ ((a = x /\ b = y) \/ (a = y /\ b = x))) /\
  (forall l, 2 < length l -> boundaries l = Err EIndexError) /\ boundaries [] = Ok [].
Proof.
  split; [reflexivity|]. split; [|split; [|reflexivity]].
  - intros x y. unfold boundaries. cbn. destruct (Qle_bool x y) eqn:E.
    + exists x, y. split; [reflexivity|]. split; [now apply Qle_bool_iff|tauto].
    + exists y, x. split; [reflexivity|]. split; [|tauto]. apply Qlt_le_weak, Qnot_le_lt. intro X. apply Qle_bool_iff in X. congruence.
  - intros l L. unfold boundaries. pose proof (Permutation_length (sorted_perm l)) as P. destruct (fold_right insert_q [] l) as [|a [|b [|c r]]]; cbn in P; [lia|lia|lia|reflexivity].
Qed.
(** A file with samples in both ranges *)
Definition overlaps (p : props) (t0 t1 f0 f1 : Q) : Prop := (t0 <= p_tmax p)%Q /\ (p_tmin p <= t1)%Q /\ (f0 <= p_fmax p)%Q /\ (p_fmin p <= f1)%Q.
Theorem skipped_spec : forall p t0 t1 f0 f1, (f0 <= f1)%Q -> (skipped p t0 t1 f0 f1 = false <-> (t0 <= p_tmax p)%Q /\ (p_tmin p <= t1)%Q /\ (f1 <= p_fmax p)%Q).
Proof.
  intros p t0 t1 f0 f1 F. unfold skipped. assert (L : forall a b, less a b = false <-> (b <= a)%Q) by (intros a b; unfold less; now rewrite negb_false_iff, Qle_bool_iff). rewrite !orb_false_iff, !L. split; [tauto|]. intros (A & B & C). repeat split; try assumption. now apply Qle_trans with f1.
Qed.
Theorem skipped_refuted : forall p t0 t1 f0 f1, (overlaps p t0 t1 f0 f1 -> (p_fmax p < f1)%Q -> skipped p t0 t1 f0 f1 = true)
  /\ ((t0 <= p_tmax p)%Q -> (p_tmin p <= t1)%Q -> (f0 <= f1)%Q -> (f1 < p_fmin p)%Q -> (p_fmin p <= p_fmax p)%Q -> skipped p t0 t1 f0 f1 = false).
Proof.
  intros p t0 t1 f0 f1. split.
  - intros _ H. unfold skipped. apply less_spec in H. rewrite H. apply orb_true_r.
  - intros A B F C M. apply skipped_spec; [exact F|]. repeat split; try assumption. apply Qle_trans with (p_fmin p); [now apply Qlt_le_weak|exact M].
Qed.
Lemma keywords_ma : forall s l e, s_props s <> [] -> e_ma e = None -> e_ma (fst (set_keywords s e l)) = None.
Proof.
  intros s l. induction l as [|k l IH]; intros e P M; [exact M|]. cbn [set_keywords]. destruct (set_keyword s e k) as [e'|x] eqn:K; [|exact M]. apply IH; [exact P|]. unfold set_keyword in K.
  destruct k as [f|t|m|p|].
  - destruct (range (f_min s) (f_max s) f); [|discriminate]. injection K as <-. exact M.
  - destruct (range (t_min s) (t_max s) t); [|discriminate]. injection K as <-. exact M.
  - destruct m; [|discriminate]. destruct (s_props s); [contradiction|discriminate].
  - destruct p; [|discriminate]. destruct (forallb _ _); [|discriminate]. injection K as <-. exact M.
  - injection K as <-. exact M.
Qed.
(** Errors of the selection itself, not of the reading of the data *)
Definition refusal (x : err) : Prop := In x [ETypeError; EValueError; EIndexError; EAttributeError; EAntennaIndex].
Lemma lowest_err : forall l x, lowest l = Err x -> refusal x.
Proof. intros [|y l] x H; [injection H as <-; unfold refusal; cbn; tauto|discriminate]. Qed.
Lemma highest_err : forall l x, highest l = Err x -> refusal x.
Proof. intros [|y l] x H; [injection H as <-; unfold refusal; cbn; tauto|discriminate]. Qed.
Lemma boundaries_err : forall l x, boundaries l = Err x -> refusal x.
Proof. intros l x H. unfold boundaries in H. destruct (fold_right insert_q [] l) as [|a [|b r]]; try discriminate. destruct (2 <? length (a :: b :: r)); [injection H as <-; unfold refusal; cbn; tauto|discriminate]. Qed.
Lemma keyword_err : forall s e k x, set_keyword s e k = Err x -> refusal x.
Proof.
  assert (R : forall a b l x, range (lowest a) (highest b) l = Err x -> refusal x).
  { intros a b l x H. unfold range in H. destruct l as [l|]; [exact (boundaries_err l x H)|]. destruct (lowest a) eqn:A; cbn [bind] in H; [|injection H as <-; exact (lowest_err a _ A)]. destruct (highest b) eqn:B; cbn [bind] in H; [exact (boundaries_err _ x H)|injection H as <-; exact (highest_err b _ B)]. }
  intros s e k x H. unfold set_keyword in H. destruct k as [f|t|m|p|].
  - destruct (range (f_min s) (f_max s) f) eqn:E; [discriminate|]. injection H as <-. exact (R _ _ _ _ E).
  - destruct (range (t_min s) (t_max s) t) eqn:E; [discriminate|]. injection H as <-. exact (R _ _ _ _ E).
  - destruct m; [destruct (s_props s); [discriminate|]|]; injection H as <-; unfold refusal; cbn; tauto.
  - destruct p; [destruct (forallb _ _); [discriminate|]|]; injection H as <-; unfold refusal; cbn; tauto.
  - discriminate.
Qed.
Lemma keywords_err : forall s l e x, snd (set_keywords s e l) = Some x -> refusal x.
Proof.
  intros s l. induction l as [|k l IH]; intros e x H; [discriminate|]. cbn [set_keywords] in H. destruct (set_keyword s e k) as [e'|y] eqn:K; [exact (IH e' x H)|]. injection H as <-. exact (keyword_err s e k y K).
Qed.
Lemma getters_ma : forall s e, e_ma e = None -> exists x, snd (get_selection s e) = Some x /\ refusal x /\ e_ma (fst (get_selection s e)) = None.
Proof.
  assert (R : forall (o : option (list Q)) a b x, match o with Some l => Ok l | None => bind (lowest a) (fun a => bind (highest b) (fun b => Ok [a; b])) end = Err x -> refusal x).
  { intros [l|] a b x H; [discriminate|]. destruct (lowest a) eqn:A; cbn [bind] in H; [|injection H as <-; exact (lowest_err a _ A)]. destruct (highest b) eqn:B; cbn [bind] in H; [discriminate|injection H as <-; exact (highest_err b _ B)]. }
  intros s e M. unfold get_selection, f_min, f_max, t_min, t_max. destruct (match e_freq e with Some _ => _ | None => _ end) as [f|x] eqn:F; [|exists x; split; [reflexivity|split; [exact (R _ _ _ _ F)|exact M]]]. cbn [e_ma e_time].
  destruct (match e_time e with Some _ => _ | None => _ end) as [t|x] eqn:T; [|exists x; split; [reflexivity|split; [exact (R _ _ _ _ T)|exact M]]]. cbn [e_ma]. rewrite M. eexists. split; [reflexivity|]. split; [|reflexivity]. unfold refusal. destruct (s_props s); cbn; tauto.
Qed.
Theorem select_fails : forall s e l, s_props s <> [] -> e_ma e = None -> exists x, snd (select s e l) = Err x /\ refusal x /\ e_ma (fst (select s e l)) = None.
Proof.
  intros s e l P M. unfold select. pose proof (keywords_ma s l e P M) as K. pose proof (keywords_err s l e) as KE. destruct (set_keywords s e l) as (e', [x|]); cbn [fst snd] in *; [exists x; split; [reflexivity|split; [now apply KE|exact K]]|]. destruct (getters_ma s e' K) as (x & G & G' & G2). destruct (get_selection s e') as (e2, y). cbn [fst snd] in *. subst y. exists x. now repeat split.
Qed.
(** Any number of selections one after the other *)
Fixpoint selects (s : sst) (e : selection) (ls : list (list keyword)) : list (res unit) :=
  match ls with [] => [] | l :: r => let (e, x) := select s e l in x :: selects s e r end.
Theorem never_selects : forall s ls, s_props s <> [] -> Forall (fun r => exists x, r = Err x /\ refusal x) (selects s nothing ls).
Proof.
  intros s ls P. assert (G : forall e, e_ma e = None -> Forall (fun r => exists x, r = Err x /\ refusal x) (selects s e ls)); [|now apply G].
  induction ls as [|l ls IH]; intros e M; cbn [selects]; [constructor|]. destruct (select_fails s e l P M) as (x & X & R & Y). destruct (select s e l) as (e', r). cbn in *. constructor; [now exists x|now apply IH].
Qed.
Theorem select_plain : forall s m, s_props s <> [] -> snd (select s nothing []) = Err EAttributeError /\ snd (select s nothing [KMa (Some m)]) = Err EAntennaIndex /\ snd (select s nothing [KMa None]) = Err ETypeError.
Proof.
  intros s m P. unfold select, get_selection, f_min, f_max, t_min, t_max, list_of. cbn. destruct (s_props s) as [|x d]; [contradiction|]. repeat split.
Qed.
Theorem select_empty : forall s m p f t e, s_props s = [] -> boundaries f = Ok e -> forall e', boundaries t = Ok e' -> s_files s = [] -> snd (select s nothing [KFreq (Some f); KTime (Some t); KMa (Some m); KPolar (Some p)]) = Ok tt.
Proof.
  intros s m p f t e P F e' T N. unfold select. cbn [set_keywords set_keyword range]. rewrite F. cbn [bind]. rewrite T. cbn [bind]. rewrite P. unfold list_of. rewrite P. cbn. unfold names. now rewrite N.
Qed.

(** The base name of a path: what follows its last slash *)
Theorem base_name : forall dir f, has_char "/" f = false -> base f = f /\ base (dir ++ String "/" f) = f.
Proof.
  intros dir f W. assert (B : base f = f) by (unfold base; now rewrite (P_PText.split_char_one "/" f W)). split; [exact B|].
  assert (G : forall d, exists h t, split_char "/" (d ++ String "/" f) = h :: t /\ last t EmptyString = f /\ t <> []).
  { clear B. induction d as [|c d (h & t & E & L & N)].
    - exists EmptyString, [f]. split; [|split; [reflexivity|discriminate]]. transitivity (EmptyString :: split_char "/" f); [reflexivity|]. f_equal. exact (P_PText.split_char_one "/" f W).
    - cbn [append split_char]. rewrite E. destruct (Ascii.eqb c "/").
      + exists EmptyString, (h :: t). repeat split; [|discriminate]. destruct t; [now elim N|exact L].
      + exists (String c h), t. auto. }
  destruct (G dir) as (h & t & E & L & N). unfold base. rewrite E. destruct t; [now elim N|exact L].
Qed.
