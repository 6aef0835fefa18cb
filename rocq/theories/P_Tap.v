(** Queries of the database of observations. *)
From Coq Require Import Ascii String List Arith ZArith QArith Bool Lia Lqa.
From Verif Require Import Base M_PText M_Tap.
Import ListNotations.
Open Scope nat_scope.
Open Scope list_scope.

(** ** Texts *)
Lemma join_concat : forall sep l, join sep l = String.concat sep l.
Proof. induction l as [|x l IH]; [reflexivity|]. cbn [join String.concat]. destruct l; [reflexivity|]. now rewrite IH. Qed.
Lemma app_cancel : forall a b c : string, (a ++ b = a ++ c)%string -> b = c.
Proof. induction a as [|x a IH]; intros b c H; [exact H|]. cbn in H. injection H as H. now apply IH. Qed.
Lemma app_len : forall a b : string, String.length (a ++ b)%string = String.length a + String.length b.
Proof. induction a as [|x a IH]; intro b; [reflexivity|]. cbn. now rewrite IH. Qed.
Lemma app_cancel_r : forall a b c : string, (a ++ c = b ++ c)%string -> a = b.
Proof.
  induction a as [|x a IH]; intros b c H; destruct b as [|y b]; [reflexivity| | |].
  - exfalso. apply (f_equal String.length) in H. cbn in H. rewrite app_len in H. lia.
  - exfalso. apply (f_equal String.length) in H. cbn in H. rewrite app_len in H. lia.
  - cbn in H. injection H as -> H. f_equal. now apply (IH b c).
Qed.

(** ** Frequencies *)
(** The wavelength, in metres, of a quantity. *)
Inductive wave_of : fquantity -> Q -> Prop :=
| wave_freq : forall x, wave_of (Freq x) ((299792458 # 1000000) / x)
| wave_wave : forall x, wave_of (Wave x) x.
Lemma wave_of_ok : forall f w, wavelength f = Ok w <-> wave_of f w.
Proof. intros [x|x|] w; cbn; split; intro H; try discriminate; try (injection H as <-; constructor); inversion H; reflexivity. Qed.
(** Observations asked for: those whose frequencies are all in the range. *)
Theorem freq_meaning : forall f0 f1 em_min em_max l0 l1, (0 < f0)%Q -> (0 < f1)%Q -> (0 < em_min)%Q -> (0 < em_max)%Q -> wave_of (Freq f0) l0 -> wave_of (Freq f1) l1 ->
  ((l1 <= em_min /\ em_max <= l0)%Q <-> ((299792458 # 1000000) / em_min <= f1 /\ f0 <= (299792458 # 1000000) / em_max)%Q).
Proof.
  intros f0 f1 a b l0 l1 F0 F1 A B W0 W1. inversion W0; subst. inversion W1; subst. set (c := (299792458 # 1000000)%Q).
  assert (G : forall x y, (0 < x)%Q -> (0 < y)%Q -> ((c / x <= y)%Q <-> (c <= y * x)%Q)).
  { intros x y X Y. split; intro H; [|apply Qle_shift_div_r; assumption]. apply (Qmult_le_compat_r _ _ x) in H; [|lra]. assert (E : (c / x * x == c)%Q) by (field; lra). lra. }
  assert (G2 : forall x y, (0 < x)%Q -> (0 < y)%Q -> ((y <= c / x)%Q <-> (y * x <= c)%Q)).
  { intros x y X Y. split; intro H; [|apply Qle_shift_div_l; assumption]. apply (Qmult_le_compat_r _ _ x) in H; [|lra]. assert (E : (c / x * x == c)%Q) by (field; lra). lra. }
  rewrite (G f1 a), (G a f1), (G2 f0 b), (G2 b f0) by assumption. assert (E1 : (a * f1 == f1 * a)%Q) by ring. assert (E2 : (b * f0 == f0 * b)%Q) by ring. rewrite E1, E2. reflexivity.
Qed.
Theorem freq_reversed : forall f0 f1 em_min em_max l0 l1, (0 < f1)%Q -> (f1 < f0)%Q -> (em_min <= em_max)%Q -> wave_of (Freq f0) l0 -> wave_of (Freq f1) l1 -> ~ (l1 <= em_min /\ em_max <= l0)%Q.
Proof.
  intros f0 f1 a b l0 l1 F1 L E W0 W1 (H1 & H2). inversion W0; subst. inversion W1; subst. set (c := (299792458 # 1000000)%Q) in *. assert (H : (c / f1 <= c / f0)%Q) by lra.
  apply (Qmult_le_compat_r _ _ (f0 * f1)) in H; [|nra]. assert (E1 : (c / f1 * (f0 * f1) == c * f0)%Q) by (field; lra). assert (E2 : (c / f0 * (f0 * f1) == c * f1)%Q) by (field; lra). rewrite E1, E2 in H. unfold c in H. lra.
Qed.

(** The columns of the table *)
Definition table_columns : list string :=
  ["owner"; "embargo"; "mime"; "accsize"; "dataproduct_type"; "dataproduct_subtype"; "calib_level";
   "obs_collection"; "obs_id"; "obs_title"; "obs_publisher_did"; "obs_creator_did"; "access_url";
   "access_format"; "access_estsize"; "target_name"; "target_class"; "s_ra"; "s_dec"; "s_fov";
   "s_region"; "s_resolution"; "t_min"; "t_max"; "t_exptime"; "t_resolution"; "em_min"; "em_max";
   "em_res_power"; "o_ucd"; "pol_states"; "facility_name"; "instrument_name"; "s_xel1"; "s_xel2";
   "t_xel"; "em_xel"; "pol_xel"; "s_pixel_scale"; "em_ucd"; "preview"; "source_table"]%string.
Definition usual_columns : list string := ["target_name"; "obs_creator_did"; "s_ra"; "s_dec"; "t_min"; "t_max"; "em_min"; "em_max"]%string.

Section Tap.
Variable time : Type.
Variable mjd : time -> Q.
Variable read_time : string -> option time.
Variable show : Q -> string.
Notation db := (db time).
Notation tvalue := (tvalue time).

(** ** Histories *)
Inductive op := ONames (m : given string) | OTime (t : given tvalue) | OFreq (f : given fvalue) | ORadius (r : rvalue) | OCenter (c : cvalue) | OReset.
Definition apply (d : db) (o : op) : res db :=
  match o with
  | ONames m => set_names time m d
  | OTime t => set_time time mjd read_time show t d
  | OFreq f => set_freq time show f d
  | ORadius r => set_radius time r d
  | OCenter c => set_center time show c d
  | OReset => reset time mjd read_time show d
  end.
Definition step (d : db) (o : op) : db := match apply d o with Ok d' => d' | Err _ => d end.
Definition run (ops : list op) : db := fold_left step ops (new_db time).

(** What an operation sets, if it is accepted. *)
Definition sets_names (o : op) : option (list string) :=
  match o with
  | ONames (GList l) => if forallb (fun n => if in_dec string_dec n table_columns then true else false) l then Some l else None
  | OReset => Some usual_columns
  | _ => None
  end.
Definition date_of (x : tvalue) : option time := match x with TTime _ t => Some t | TText _ s => read_time s | TNone _ => None end.
Definition sets_time (o : op) : option (option (time * time)) :=
  match o with
  | OTime (GList [TNone _; TNone _]) | OReset => Some None
  | OTime (GList [x; y]) => match date_of x, date_of y with Some a, Some b => Some (Some (a, b)) | _, _ => None end
  | _ => None
  end.
Definition spectral (f : fquantity) : bool := match f with NotSpectral => false | _ => true end.
Definition sets_freq (o : op) : option (option (fquantity * fquantity)) :=
  match o with
  | OFreq (GList [FNone; FNone]) | OReset => Some None
  | OFreq (GList [FNumber x; FNumber y]) => Some (Some (Freq x, Freq y))
  | OFreq (GList [FQuantity a; FQuantity b]) => if spectral a && spectral b then Some (Some (a, b)) else None
  | _ => None
  end.
Definition sets_radius (o : op) : option rquantity :=
  match o with
  | ORadius RNone | OReset => Some (Angle 180)
  | ORadius (RNumber x) => Some (Angle x)
  | ORadius (RQuantity r) => Some r
  | _ => None
  end.
(** The latest value, the operations being given from the last to the first. *)
Fixpoint latest {A} (f : op -> option A) (default : A) (l : list op) : A :=
  match l with [] => default | o :: r => match f o with Some v => v | None => latest f default r end end.
(** The center, with the radius at the time when it was set. *)
Fixpoint latest_center (l : list op) : option (Q * Q * Q) :=
  match l with
  | [] => None
  | OCenter CNone :: _ | OReset :: _ => None
  | OCenter (CPoint ra dec) :: r => match latest sets_radius (Angle 180) r with Angle x => Some (ra, dec, x) | NotAngle => latest_center r end
  | _ :: r => latest_center r
  end.
Definition wave (f : fquantity) : Q := match f with Freq x => ((299792458 # 1000000) / x)%Q | Wave x => x | NotSpectral => 0%Q end.
Definition asked (t : option (time * time)) (f : option (fquantity * fquantity)) (c : option (Q * Q * Q)) : list string :=
  (match t with Some (a, b) => ["(t_min >= " ++ show (mjd a) ++ " AND t_max <= " ++ show (mjd b) ++ ")"]%string | None => [] end)
  ++ (match f with Some (a, b) => ["(em_min >= " ++ show (wave b) ++ " AND em_max <= " ++ show (wave a) ++ ")"]%string | None => [] end)
  ++ (match c with Some (ra, dec, r) => ["1 = CONTAINS(POINT('ICRS', s_ra, s_dec), CIRCLE('ICRS', " ++ show ra ++ ", " ++ show dec ++ ", " ++ show r ++ "))"]%string | None => [] end).
Definition query_text (names asked : list string) : string :=
  ("SELECT " ++ String.concat ", " names ++ " from nenufar.bst WHERE (" ++ String.concat " AND " asked ++ ")")%string.

Record inv (l : list op) (d : db) : Prop := {
  i_names : d_names time d = latest sets_names usual_columns l;
  i_time : d_time time d = latest sets_time None l;
  i_freq : d_freq time d = latest sets_freq None l;
  i_radius : d_radius time d = latest sets_radius (Angle 180) l;
  i_center : d_center time d = option_map fst (latest_center l);
  i_ctime : d_cond_time time d = match latest sets_time None l with Some (a, b) => time_text time mjd show a b | None => EmptyString end;
  i_cfreq : d_cond_freq time d = match latest sets_freq None l with Some (a, b) => freq_text show (wave b) (wave a) | None => EmptyString end;
  i_cpos : d_cond_pos time d = match latest_center l with Some (ra, dec, r) => pos_text show ra dec r | None => EmptyString end }.
Lemma reset_new : forall d, reset time mjd read_time show d = Ok (new_db time).
Proof. intro d. unfold reset. cbn. destruct d. reflexivity. Qed.
Lemma names_known : forall l, forallb (fun n => existsb (String.eqb n) colnames) l = forallb (fun n => if in_dec string_dec n table_columns then true else false) l.
Proof.
  change table_columns with colnames. intro l. induction l as [|n l IH]; [reflexivity|]. cbn [forallb]. rewrite IH. f_equal. destruct (in_dec string_dec n colnames) as [I|N].
  - apply existsb_exists. exists n. split; [exact I|apply String.eqb_refl].
  - destruct (existsb (String.eqb n) colnames) eqn:E; [|reflexivity]. exfalso. apply existsb_exists in E as (m & I & E). apply String.eqb_eq in E. subst. contradiction.
Qed.
Lemma to_time_date : forall x, to_time time read_time x = match date_of x with Some t => Ok t | None => Err EValueError end.
Proof. intros [|t|s]; try reflexivity. Qed.
Lemma step_inv : forall l d o, inv l d -> inv (o :: l) (step d o).
Proof.
  intros l d o [I1 I2 I3 I4 I5 I6 I7 I8]. unfold step. destruct o as [m|t|f|r|c|]; cbn [apply].
  - destruct m as [ns|]; cbn [set_names]; [|constructor; assumption]. rewrite names_known. destruct (forallb _ ns) eqn:E.
    + constructor; cbn [d_names d_time d_freq d_radius d_center d_cond_time d_cond_freq d_cond_pos latest sets_time sets_freq sets_radius latest_center]; try assumption. unfold sets_names. now rewrite E.
    + constructor; cbn [latest sets_time sets_freq sets_radius latest_center]; try assumption. unfold sets_names. rewrite E. exact I1.
  - assert (R : (exists p c, set_time time mjd read_time show t d = Ok (put_time time c p d) /\ sets_time (OTime t) = Some p /\ c = match p with Some (a, b) => time_text time mjd show a b | None => EmptyString end)
             \/ (exists e, set_time time mjd read_time show t d = Err e) /\ sets_time (OTime t) = None).
    { destruct t as [[|x [|y [|z q]]]|]; try (right; split; [eexists; reflexivity|reflexivity]).
      - right. split; [|destruct x; reflexivity]. cbn. destruct x; eexists; reflexivity.
      - destruct x, y; cbn [set_time sets_time]; rewrite ?to_time_date; cbn [date_of bind]; repeat match goal with |- context [read_time ?s] => destruct (read_time s); cbn [bind] end;
          first [solve [left; eexists; eexists; split; [reflexivity|split; reflexivity]] | solve [right; split; [eexists; reflexivity|reflexivity]]].
      - right. split; [|destruct x, y; reflexivity]. cbn. destruct x, y; eexists; reflexivity. }
    destruct R as [(p & c & -> & S0 & ->)|((e & ->) & S0)]; constructor; cbn [latest latest_center sets_names sets_freq sets_radius]; rewrite ?S0; cbn; assumption || reflexivity.
  - assert (R : (exists p c, set_freq time show f d = Ok (put_freq time c p d) /\ sets_freq (OFreq f) = Some p /\ c = match p with Some (a, b) => freq_text show (wave b) (wave a) | None => EmptyString end)
             \/ (exists e, set_freq time show f d = Err e) /\ sets_freq (OFreq f) = None).
    { destruct f as [[|x [|y [|z q]]]|]; try (right; split; [eexists; reflexivity|reflexivity]).
      - right. split; [|destruct x; reflexivity]. cbn. destruct x; eexists; reflexivity.
      - destruct x as [|x|[]], y as [|y|[]]; cbn; first [solve [left; eexists; eexists; split; [reflexivity|split; reflexivity]] | solve [right; split; [eexists; reflexivity|reflexivity]]].
      - right. split; [|destruct x, y; reflexivity]. cbn. destruct x, y; eexists; reflexivity. }
    destruct R as [(p & c & -> & S0 & ->)|((e & ->) & S0)]; constructor; cbn [latest latest_center sets_names sets_time sets_radius]; rewrite ?S0; cbn; assumption || reflexivity.
  - destruct r; cbn [set_radius]; constructor; cbn [latest sets_names sets_time sets_freq sets_radius latest_center]; cbn; assumption || reflexivity.
  - destruct c as [|ra dec| |]; cbn [set_center]; try (constructor; cbn [latest sets_names sets_time sets_freq sets_radius latest_center]; cbn; assumption || reflexivity).
    pose proof I4 as R. destruct (d_radius time d) as [x|] eqn:RD; constructor; cbn [latest sets_names sets_time sets_freq sets_radius latest_center]; try rewrite <- R; try assumption; try reflexivity; try (cbn; congruence).
  - rewrite reset_new. constructor; reflexivity.
Qed.
Lemma run_inv : forall ops, inv (rev ops) (run ops).
Proof.
  intro ops. unfold run. assert (G : forall ops l d, inv l d -> inv (rev ops ++ l) (fold_left step ops d)).
  { clear. induction ops as [|o ops IH]; intros l d H; [exact H|]. cbn [rev fold_left]. rewrite <- app_assoc. apply IH. now apply step_inv. }
  rewrite <- (app_nil_r (rev ops)). apply G. constructor; reflexivity.
Qed.
Lemma conditions_text : forall l d, inv l d -> conditions time d = String.concat " AND " (asked (latest sets_time None l) (latest sets_freq None l) (latest_center l)).
Proof.
  intros l d [I1 I2 I3 I4 I5 I6 I7 I8]. unfold conditions. rewrite I6, I7, I8, join_concat. unfold asked.
  destruct (latest sets_time None l) as [(a & b)|]; destruct (latest sets_freq None l) as [(x & y)|]; destruct (latest_center l) as [((ra & dec) & r)|]; reflexivity.
Qed.
(** The query says what was set last. *)
Theorem query_history : forall ops,
  query time (run ops) = query_text (latest sets_names usual_columns (rev ops)) (asked (latest sets_time None (rev ops)) (latest sets_freq None (rev ops)) (latest_center (rev ops))).
Proof. intro ops. pose proof (run_inv ops) as I. unfold query, query_text. rewrite (conditions_text _ _ I), join_concat, (i_names _ _ I). reflexivity. Qed.
Theorem attributes : forall ops, let l := rev ops in let d := run ops in
  d_names time d = latest sets_names usual_columns l /\ d_time time d = latest sets_time None l /\ d_freq time d = latest sets_freq None l
  /\ d_radius time d = latest sets_radius (Angle 180) l /\ d_center time d = option_map fst (latest_center l).
Proof. intros ops l d. destruct (run_inv ops). now repeat split. Qed.
Lemma asked_empty : forall t f c, String.concat " AND " (asked t f c) = EmptyString <-> t = None /\ f = None /\ c = None.
Proof.
  intros t f c. unfold asked. destruct t as [(a & b)|]; destruct f as [(x & y)|]; destruct c as [((ra & dec) & r)|]; cbn [app String.concat]; split; intro H; try discriminate; try (now repeat split); try (destruct H as (H1 & H2 & H3); discriminate).
Qed.
Theorem search_history : forall ops,
  (search time (run ops) = Err EValueError <-> d_time time (run ops) = None /\ d_freq time (run ops) = None /\ d_center time (run ops) = None)
  /\ (forall q, search time (run ops) = Ok q -> q = query time (run ops))
  /\ (forall e, search time (run ops) = Err e -> e = EValueError).
Proof.
  intro ops. pose proof (run_inv ops) as I. unfold search. rewrite (conditions_text _ _ I). pose proof (asked_empty (latest sets_time None (rev ops)) (latest sets_freq None (rev ops)) (latest_center (rev ops))) as A.
  rewrite (i_time _ _ I), (i_freq _ _ I), (i_center _ _ I). assert (C : option_map fst (latest_center (rev ops)) = None <-> latest_center (rev ops) = None) by (destruct (latest_center (rev ops)); split; intro H; try discriminate; reflexivity).
  rewrite C. destruct (String.eqb _ "") eqn:E.
  - apply String.eqb_eq in E. apply A in E. split; [split; [intros _; exact E|reflexivity]|]. split; [discriminate|]. intros e H. now injection H.
  - apply String.eqb_neq in E. split; [split; [discriminate|intro H; apply A in H; contradiction]|]. split; [intros q H; now injection H|discriminate].
Qed.
Theorem reset_history : forall ops, run (ops ++ [OReset]) = run [].
Proof. intro ops. unfold run. rewrite fold_left_app. cbn [fold_left]. unfold step at 1. cbn [apply]. rewrite reset_new. reflexivity. Qed.

Theorem freq_written : forall ops f0 f1,
  d_cond_freq time (run (ops ++ [OFreq (GList [FNumber f0; FNumber f1])]))
  = ("(em_min >= " ++ show ((299792458 # 1000000) / f1)%Q ++ " AND em_max <= " ++ show ((299792458 # 1000000) / f0)%Q ++ ")")%string.
Proof. intros ops f0 f1. rewrite (i_cfreq _ _ (run_inv _)), rev_app_distr. reflexivity. Qed.

(** ** The radius *)
Theorem radius_ignored_refuted : forall ops r, query time (run (ops ++ [ORadius r])) = query time (run ops).
Proof. intros ops r. rewrite !query_history, rev_app_distr. cbn [rev app latest latest_center sets_names sets_time sets_freq]. reflexivity. Qed.
Theorem radius_order_refuted : forall ra dec r r', show r <> show r' ->
  let a := run [ORadius (RNumber r); OCenter (CPoint ra dec); ORadius (RNumber r')] in
  let b := run [ORadius (RNumber r'); OCenter (CPoint ra dec)] in
  d_names time a = d_names time b /\ d_time time a = d_time time b /\ d_freq time a = d_freq time b /\ d_radius time a = d_radius time b /\ d_center time a = d_center time b
  /\ query time a <> query time b.
Proof.
  intros ra dec r r' N a b. repeat split. unfold a, b. rewrite !query_history. cbn [rev app latest latest_center sets_names sets_time sets_freq sets_radius]. unfold query_text, asked. cbn [app String.concat]. intro H.
  repeat apply app_cancel in H. apply app_cancel_r in H. repeat apply app_cancel in H. apply app_cancel_r in H. contradiction.
Qed.

(** ** Refused values *)
Theorem refused : forall d o,
  (forall e, apply d o = Err e -> step d o = d) /\
  match o with
  | ONames m => (apply d o = Err ETypeError <-> m = GOther) /\ (apply d o = Err EValueError <-> exists l n, m = GList l /\ In n l /\ ~ In n table_columns)
  | OTime t => (apply d o = Err ETypeError <-> t = GOther) /\ (forall l, t = GList l -> length l <> 2 -> apply d o = Err EValueError)
      /\ (forall x y, t = GList [x; y] -> (exists d', apply d o = Ok d') <-> (x = TNone time /\ y = TNone time) \/ (date_of x <> None /\ date_of y <> None))
  | OFreq f => (f = GOther -> apply d o = Err ETypeError) /\ (forall l, f = GList l -> length l <> 2 -> apply d o = Err EValueError)
      /\ (forall x y, f = GList [FQuantity x; FNumber y] \/ f = GList [FNumber y; FQuantity x] -> apply d o = Err EValueError)
      /\ (forall x, (f = GList [FNone; FNumber x] \/ f = GList [FNumber x; FNone]) -> apply d o = Err ETypeError)
  | ORadius r => (exists e, apply d o = Err e) <-> r = RArray
  | OCenter c => (apply d o = Err ETypeError <-> c = COther) /\ (apply d o = Err EValueError <-> c = CPoints \/ (d_radius time d = NotAngle /\ exists ra dec, c = CPoint ra dec))
  | OReset => apply d o = Ok (new_db time)
  end.
Proof.
  intros d o. split; [intros e H; unfold step; now rewrite H|]. destruct o as [m|t|f|r|c|]; cbn [apply].
  - destruct m as [l|]; cbn [set_names]; [|split; split; intro H; try discriminate; try reflexivity; destruct H as (? & ? & H & _); discriminate].
    destruct (forallb _ l) eqn:E.
    + split; (split; intro H; [discriminate|]); [discriminate|]. destruct H as (l' & n & EL & I & N). injection EL as <-. rewrite forallb_forall in E. specialize (E n I). apply existsb_exists in E as (m & IM & EM). apply String.eqb_eq in EM. subst. contradiction.
    + split; (split; intro H; [|try discriminate; try reflexivity]); [discriminate|]. rewrite names_known in E. exists l. assert (X : exists n, In n l /\ (if in_dec string_dec n table_columns then true else false) = false).
      { clear H. induction l as [|n l IH]; [discriminate|]. cbn [forallb] in E. destruct (in_dec string_dec n table_columns) as [I|N] eqn:D; [destruct IH as (k & K & F); [exact E|]; exists k; split; [now right|exact F]|]. exists n. split; [now left|]. now rewrite D. }
      destruct X as (n & I & F). exists n. split; [reflexivity|]. split; [exact I|]. destruct (in_dec string_dec n table_columns); [discriminate|assumption].
  - split; [|split].
    + destruct t as [[|x [|y [|z q]]]|]; try (split; intro H; [discriminate|discriminate]); try (destruct x; split; intro H; discriminate); try (split; reflexivity).
      * destruct x, y; cbn [set_time]; rewrite ?to_time_date; cbn [date_of bind]; repeat match goal with |- context [read_time ?s] => destruct (read_time s); cbn [bind] end; split; intro H; discriminate.
      * destruct x, y; split; intro H; discriminate.
    + intros l -> N. destruct l as [|x [|y [|z q]]]; try reflexivity; [destruct x; reflexivity|now destruct N|destruct x, y; reflexivity].
    + intros x y ->. destruct x, y; cbn [set_time]; rewrite ?to_time_date; cbn [date_of bind]; repeat match goal with |- context [read_time ?s] => destruct (read_time s); cbn [bind] end; split; intro H;
        try (now eexists); try (left; now split); try (right; split; discriminate); try (destruct H as (? & H); discriminate); destruct H as [(H1 & H2)|(H1 & H2)]; try discriminate; congruence.
  - split; [now intros ->|]. split; [|split].
    + intros l -> N. destruct l as [|x [|y [|z q]]]; try reflexivity; [destruct x; reflexivity|now destruct N|destruct x, y; reflexivity].
    + intros x y [->| ->]; reflexivity.
    + intros x [->| ->]; reflexivity.
  - destruct r; cbn [set_radius]; split; intro H; try discriminate; try (destruct H; discriminate); [reflexivity|now eexists].
  - destruct c as [|ra dec| |]; cbn [set_center]; (split; [split; intro H; try discriminate; try reflexivity; destruct (d_radius time d); discriminate|]); split; intro H; try discriminate; try (now left); try reflexivity; try (destruct H as [H|(_ & ? & ? & H)]; discriminate).
    + destruct (d_radius time d) eqn:R; [discriminate|]. right. split; [reflexivity|]. now exists ra, dec.
    + destruct H as [H|(R & _)]; [discriminate|]. now rewrite R.
  - apply reset_new.
Qed.
(** No column at all is accepted. *)
Theorem no_column_refuted : forall ops, query time (run (ops ++ [ONames (GList [])])) = ("SELECT  from nenufar.bst WHERE (" ++ conditions time (run ops) ++ ")")%string.
Proof.
  intro ops. rewrite query_history, (conditions_text _ _ (run_inv ops)), rev_app_distr. cbn [rev app latest latest_center sets_time sets_freq]. reflexivity.
Qed.
End Tap.
