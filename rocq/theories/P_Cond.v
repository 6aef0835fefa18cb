(** Specification and proofs for the selection strings. *)
From Coq Require Import List Arith ZArith QArith Qabs Lqa Lia Bool String Ascii Sorted.
From Verif Require Import Base M_Slots M_Nd P_Nd M_Cond.
Import ListNotations.
Open Scope nat_scope.
Open Scope list_scope.

(** ** Specification *)

(** The five comparisons as the user writes them. *)
Inductive cmp := Ge | Le | Eq_ | Lt_ | Gt_.
Definition sym (c : cmp) : string :=
  (match c with Ge => ">=" | Le => "<=" | Eq_ => "==" | Lt_ => "<" | Gt_ => ">" end)%string.
(** Their meaning; equality has a relative tolerance. *)
Definition holds (tol : Q) (c : cmp) (x v : Q) : Prop :=
  match c with
  | Ge => (v <= x)%Q | Le => (x <= v)%Q | Gt_ => (v < x)%Q | Lt_ => (x < v)%Q
  | Eq_ => (Qabs (x - v) <= tol * Qabs v)%Q
  end.

(** Text without operator, separator nor line break. *)
Fixpoint plain (s : string) : bool :=
  match s with
  | EmptyString => true
  | String c t =>
      negb (Ascii.eqb c "<" || Ascii.eqb c ">" || Ascii.eqb c "=" || Ascii.eqb c "&" || Ascii.eqb c (ascii_of_nat 10))
      && plain t
  end.

(** What lies between two separators: a comparison (text before, operator,
    value) or a text without operator. *)
Inductive piece := Comp (before : string) (c : cmp) (value : string) | Bare (text : string).
Definition write (p : piece) : string :=
  (match p with Comp b c v => b ++ sym c ++ v | Bare t => t end)%string.
Definition proper (p : piece) : bool :=
  match p with Comp b _ v => plain b && plain v | Bare t => plain t end.

(** The pieces joined by "&". *)
Fixpoint join (l : list string) : string :=
  match l with
  | [] => EmptyString
  | [s] => s
  | s :: t => (s ++ "&" ++ join t)%string
  end.

(** The value of a comparison, once blanks are removed. *)
Definition good_piece (conv : string -> res Q) (p : piece) (v : Q) : Prop :=
  match p with Comp _ _ t => conv (no_space t) = Ok v | Bare _ => False end.
Definition piece_holds (tol : Q) (x : Q) (p : piece) (v : Q) : Prop :=
  match p with Comp _ c _ => holds tol c x v | Bare _ => False end.

(** ** Strings *)
Open Scope string_scope.

Lemma app_assoc_s : forall a b c : string, (a ++ b) ++ c = a ++ (b ++ c).
Proof. induction a as [|x a IH]; intros b c; cbn; [reflexivity|now rewrite IH]. Qed.
Lemma app_nil_s : forall a : string, a ++ "" = a.
Proof. induction a as [|x a IH]; cbn; [reflexivity|now rewrite IH]. Qed.

Lemma no_space_app : forall a b, no_space (a ++ b) = no_space a ++ no_space b.
Proof.
  induction a as [|x a IH]; intros b; cbn; [reflexivity|].
  destruct (Ascii.eqb x c_space); [apply IH|]. cbn. now rewrite IH.
Qed.

Lemma plain_no_space : forall s, plain s = true -> plain (no_space s) = true.
Proof.
  induction s as [|c s IH]; intros H; cbn in *; [reflexivity|].
  apply andb_prop in H. destruct H as [H1 H2].
  destruct (Ascii.eqb c c_space); [now apply IH|]. cbn. rewrite H1. now apply IH.
Qed.

(** First character. *)
Definition starts (c : ascii) (s : string) : bool :=
  match s with String x _ => Ascii.eqb x c | EmptyString => false end.

Lemma mark_cons : forall k a s, Ascii.eqb a "=" && starts "=" s = false ->
  mark_eq k (String a s) = String a (mark_eq k s).
Proof.
  intros k a s H. destruct s as [|b t]; [reflexivity|]. cbn [starts] in H.
  cbn [mark_eq]. rewrite H. reflexivity.
Qed.

Lemma mark_plain : forall k a s, plain a = true -> mark_eq k (a ++ s) = a ++ mark_eq k s.
Proof.
  induction a as [|c a IH]; intros s H; [reflexivity|]. cbn [plain] in H.
  apply andb_prop in H. destruct H as [H1 H2]. cbn [append]. rewrite mark_cons.
  - now rewrite IH.
  - apply negb_true_iff in H1. repeat (apply orb_false_iff in H1; destruct H1 as [H1 ?]).
    match goal with X : Ascii.eqb c "=" = false |- _ => rewrite X end. reflexivity.
Qed.

(** The internal operator of a comparison. *)
Definition op_of (k : ascii) (c : cmp) : op :=
  match c with
  | Ge => OpGe | Le => OpLe | Lt_ => OpLt | Gt_ => OpGt
  | Eq_ => if Ascii.eqb k "t" then OpTeq else OpFeq
  end.
Definition mark_kind (k : ascii) : Prop := k = "t"%char \/ k = "f"%char.

Lemma mark_sym : forall k c s, mark_kind k -> starts "=" s = false ->
  mark_eq k (sym c ++ s) = op_text (op_of k c) ++ mark_eq k s.
Proof.
  intros k c s K H. destruct c; cbn [sym append op_of].
  - rewrite mark_cons by reflexivity. rewrite mark_cons by (rewrite H; reflexivity). reflexivity.
  - rewrite mark_cons by reflexivity. rewrite mark_cons by (rewrite H; reflexivity). reflexivity.
  - destruct K as [-> | ->]; reflexivity.
  - rewrite mark_cons by reflexivity. reflexivity.
  - rewrite mark_cons by reflexivity. reflexivity.
Qed.

Lemma starts_plain : forall v s, plain v = true -> starts "=" s = false -> starts "=" (v ++ s) = false.
Proof.
  intros [|c v] s P H; [exact H|]. cbn in *. apply andb_prop in P. destruct P as [P _].
  apply negb_true_iff in P. repeat (apply orb_false_iff in P; destruct P as [P ?]). assumption.
Qed.

(** What remains of a piece after marking and removal of the blanks. *)
Definition cooked (k : ascii) (p : piece) : string :=
  match p with
  | Comp b c v => no_space b ++ op_text (op_of k c) ++ no_space v
  | Bare t => no_space t
  end.

Lemma cook_piece : forall k p s, mark_kind k -> proper p = true -> starts "=" s = false ->
  no_space (mark_eq k (write p ++ s)) = cooked k p ++ no_space (mark_eq k s).
Proof.
  intros k [b c v|t] s K P H; cbn [write cooked proper] in *.
  - apply andb_prop in P. destruct P as [P1 P2]. rewrite !app_assoc_s.
    rewrite mark_plain by exact P1. rewrite mark_sym by (auto; apply starts_plain; auto).
    rewrite mark_plain by exact P2. rewrite !no_space_app.
    assert (X : no_space (op_text (op_of k c)) = op_text (op_of k c)).
    { destruct c; cbn [op_of]; try reflexivity. destruct K as [-> | ->]; reflexivity. }
    rewrite X. reflexivity.
  - rewrite mark_plain by exact P. apply no_space_app.
Qed.

Lemma cook_join : forall k ps, mark_kind k -> forallb proper ps = true ->
  no_space (mark_eq k (join (map write ps))) = join (map (cooked k) ps).
Proof.
  intros k ps K. induction ps as [|p [|q t] IH]; intros P; [reflexivity| |].
  - cbn [map join forallb] in *. apply andb_prop in P. destruct P as [P _].
    rewrite <- (app_nil_s (write p)). rewrite (cook_piece k p "" K P eq_refl). cbn. apply app_nil_s.
  - cbn [forallb] in P. apply andb_prop in P. destruct P as [P1 P2]. specialize (IH P2).
    change (join (map write (p :: q :: t))) with (write p ++ "&" ++ join (map write (q :: t))).
    change (join (map (cooked k) (p :: q :: t))) with (cooked k p ++ "&" ++ join (map (cooked k) (q :: t))).
    rewrite (cook_piece k p ("&" ++ join (map write (q :: t))) K P1 eq_refl). cbn [append]. rewrite mark_cons by reflexivity.
    cbn [no_space]. change (Ascii.eqb "&" c_space) with false. cbn [append]. rewrite IH. reflexivity.
Qed.

(** ** Splitting *)
Fixpoint amp_free (s : string) : bool :=
  match s with EmptyString => true | String c t => negb (Ascii.eqb c "&") && amp_free t end.
Lemma amp_free_app : forall a b, amp_free a = true -> amp_free b = true -> amp_free (a ++ b) = true.
Proof. induction a as [|c a IH]; intros b A B; cbn in *; [exact B|]. apply andb_prop in A. destruct A as [-> A]. now apply IH. Qed.
Lemma plain_amp_free : forall s, plain s = true -> amp_free s = true.
Proof.
  induction s as [|c s IH]; intros H; cbn in *; [reflexivity|]. apply andb_prop in H. destruct H as [H1 H2].
  apply negb_true_iff in H1. repeat (apply orb_false_iff in H1; destruct H1 as [H1 ?]).
  match goal with X : Ascii.eqb c "&" = false |- _ => rewrite X end. now apply IH.
Qed.
Lemma cooked_amp_free : forall k p, mark_kind k -> proper p = true -> amp_free (cooked k p) = true.
Proof.
  intros k [b c v|t] K P; cbn [cooked proper] in *.
  - apply andb_prop in P. destruct P as [P1 P2]. repeat apply amp_free_app.
    + now apply plain_amp_free, plain_no_space.
    + destruct c; cbn [op_of]; try reflexivity. destruct K as [-> | ->]; reflexivity.
    + now apply plain_amp_free, plain_no_space.
  - now apply plain_amp_free, plain_no_space.
Qed.
Lemma split_free : forall a, amp_free a = true -> split_amp a = [a].
Proof.
  induction a as [|c a IH]; intros H; [reflexivity|]. cbn [amp_free] in H. apply andb_prop in H. destruct H as [H1 H2].
  cbn [split_amp]. change c_amp with "&"%char. apply negb_true_iff in H1. rewrite H1. now rewrite IH.
Qed.
Lemma split_app : forall a s, amp_free a = true -> split_amp (a ++ "&" ++ s) = a :: split_amp s.
Proof.
  induction a as [|c a IH]; intros s H; [reflexivity|]. cbn [amp_free] in H. apply andb_prop in H. destruct H as [H1 H2].
  apply negb_true_iff in H1.
  change ((String c a ++ "&" ++ s)) with (String c (a ++ "&" ++ s)). cbn [split_amp].
  change c_amp with "&"%char. rewrite H1, IH by exact H2. reflexivity.
Qed.
Lemma split_join : forall l, l <> [] -> forallb amp_free l = true -> split_amp (join l) = l.
Proof.
  induction l as [|a [|b t] IH]; intros N H; [contradiction| |].
  - cbn [forallb] in H. apply andb_prop in H. cbn [join]. now apply split_free.
  - cbn [forallb] in H. apply andb_prop in H. destruct H as [H1 H2].
    change (join (a :: b :: t)) with (a ++ "&" ++ join (b :: t)). rewrite split_app by exact H1.
    rewrite IH; [reflexivity|discriminate|exact H2].
Qed.

(** ** One condition *)
Lemma no_match : forall o c s, Ascii.eqb c "<" = false -> Ascii.eqb c ">" = false -> starts "=" s = false ->
  prefix (op_text o) (String c s) = false.
Proof.
  intros o c s A B H. destruct o; cbn [op_text prefix].
  - destruct (ascii_dec ">" c) as [<-|]; [discriminate|reflexivity].
  - destruct (ascii_dec "<" c) as [<-|]; [discriminate|reflexivity].
  - destruct (ascii_dec "t" c) as [|]; [|reflexivity]. destruct s as [|d s]; [reflexivity|].
    cbn [starts] in H. cbn [prefix]. destruct (ascii_dec "=" d) as [<-|]; [discriminate|reflexivity].
  - destruct (ascii_dec "f" c) as [|]; [|reflexivity]. destruct s as [|d s]; [reflexivity|].
    cbn [starts] in H. cbn [prefix]. destruct (ascii_dec "=" d) as [<-|]; [discriminate|reflexivity].
  - destruct (ascii_dec "<" c) as [<-|]; [discriminate|reflexivity].
  - destruct (ascii_dec ">" c) as [<-|]; [discriminate|reflexivity].
Qed.

Lemma no_match_empty : forall o, prefix (op_text o) "" = false.
Proof. intros []; reflexivity. Qed.

Lemma search_skip : forall c s, Ascii.eqb c "<" = false -> Ascii.eqb c ">" = false -> starts "=" s = false ->
  search_op (String c s) = search_op s.
Proof.
  intros c s A B H. cbn [search_op alternatives find]. rewrite !no_match by assumption. reflexivity.
Qed.
Lemma after_skip : forall o c s, Ascii.eqb c "<" = false -> Ascii.eqb c ">" = false -> starts "=" s = false ->
  after_op (op_text o) (String c s) = after_op (op_text o) s.
Proof. intros o c s A B H. cbn [after_op]. rewrite no_match by assumption. reflexivity. Qed.

Lemma skip_plain : forall b s, plain b = true -> starts "=" s = false ->
  search_op (b ++ s) = search_op s /\ forall o, after_op (op_text o) (b ++ s) = after_op (op_text o) s.
Proof.
  induction b as [|c b IH]; intros s P H; [auto|]. cbn [plain] in P. apply andb_prop in P. destruct P as [P1 P2].
  apply negb_true_iff in P1. repeat (apply orb_false_iff in P1; destruct P1 as [P1 ?]).
  destruct (IH s P2 H) as [I1 I2]. pose proof (starts_plain b s P2 H) as ST. cbn [append]. split.
  - rewrite search_skip by assumption. exact I1.
  - intros o. rewrite after_skip by assumption. apply I2.
Qed.

Lemma to_newline_plain : forall v, plain v = true -> to_newline v = v.
Proof.
  induction v as [|c v IH]; intros H; [reflexivity|]. cbn [plain] in H. apply andb_prop in H. destruct H as [H1 H2].
  apply negb_true_iff in H1. repeat (apply orb_false_iff in H1; destruct H1 as [H1 ?]).
  cbn [to_newline]. unfold c_nl, chr.
  match goal with X : Ascii.eqb c (ascii_of_nat 10) = false |- _ => rewrite X end. now rewrite IH.
Qed.

Lemma prefix_nil : forall s, prefix "" s = true.
Proof. now intros []. Qed.
Lemma skip_str_app : forall o s, skip_str (String.length o) (o ++ s) = s.
Proof. induction o as [|c o IH]; intros s; cbn; [destruct s; reflexivity|apply IH]. Qed.
Lemma prefix_app : forall o s, prefix o (o ++ s) = true.
Proof.
  induction o as [|c o IH]; intros s; [apply prefix_nil|]. cbn [append prefix].
  destruct (ascii_dec c c); [apply IH|contradiction].
Qed.
Lemma after_here : forall o s, after_op o (o ++ s) = Some (to_newline s).
Proof.
  intros o s. assert (E : after_op o (o ++ s) = if prefix o (o ++ s) then Some (to_newline (skip_str (String.length o) (o ++ s)))
    else match o ++ s with EmptyString => None | String _ t => after_op o t end) by (destruct (o ++ s); reflexivity).
  rewrite E, prefix_app, skip_str_app. reflexivity.
Qed.
Lemma search_here : forall o s, starts "=" s = false -> search_op (op_text o ++ s) = Some o.
Proof.
  intros o s H. destruct s as [|d s]; [destruct o; reflexivity|]. cbn [starts] in H.
  assert (D : forall t, prefix "=" (String d t) = false).
  { intros t. cbn [prefix]. destruct (ascii_dec "=" d) as [<-|]; [discriminate|reflexivity]. }
  destruct o; try reflexivity.
  - assert (E : prefix "<=" (String "<" (String d s)) = false) by exact (D s).
    cbn [op_text append search_op alternatives find]. rewrite E. reflexivity.
  - assert (E : prefix ">=" (String ">" (String d s)) = false) by exact (D s).
    cbn [op_text append search_op alternatives find]. rewrite E. reflexivity.
Qed.

Lemma cooked_condition : forall conv k b c v, mark_kind k -> plain b = true -> plain v = true ->
  one_condition conv (cooked k (Comp b c v)) =
  bind (conv (no_space v)) (fun q => Ok (fun x => op_fun (op_of k c) x q)).
Proof.
  intros conv k b c v K PB PV. unfold one_condition. cbn [cooked].
  apply plain_no_space in PB. apply plain_no_space in PV.
  assert (SV : starts "=" (no_space v) = false).
  { rewrite <- (app_nil_s (no_space v)). now apply starts_plain. }
  assert (SO : starts "=" (op_text (op_of k c) ++ no_space v) = false).
  { destruct c; cbn [op_of]; try reflexivity. destruct K as [-> | ->]; reflexivity. }
  destruct (skip_plain (no_space b) (op_text (op_of k c) ++ no_space v) PB SO) as [S A].
  rewrite S, search_here by exact SV. rewrite A, after_here. now rewrite to_newline_plain.
Qed.

Lemma bare_condition : forall conv k t, plain t = true -> one_condition conv (cooked k (Bare t)) = Err EAttributeError.
Proof.
  intros conv k t P. unfold one_condition. cbn [cooked]. apply plain_no_space in P.
  destruct (skip_plain (no_space t) "" P eq_refl) as [S _]. rewrite app_nil_s in S. rewrite S. reflexivity.
Qed.

Lemma op_fun_holds : forall k c x v, mark_kind k ->
  op_fun (op_of k c) x v = true <->
  holds (if Ascii.eqb k "t" then 1 # 1000000000000 else 1 # 100000)%Q c x v.
Proof.
  intros k c x v K. destruct c; cbn [op_of op_fun holds].
  - apply Qle_bool_iff.
  - apply Qle_bool_iff.
  - destruct (Ascii.eqb k "t"); cbn [op_fun]; unfold isclose; apply Qle_bool_iff.
  - rewrite negb_true_iff. split; intros H.
    + destruct (Qlt_le_dec x v) as [L|L]; [exact L|]. apply Qle_bool_iff in L. congruence.
    + destruct (Qle_bool v x) eqn:C; [|reflexivity]. apply Qle_bool_iff in C. lra.
  - rewrite negb_true_iff. split; intros H.
    + destruct (Qlt_le_dec v x) as [L|L]; [exact L|]. apply Qle_bool_iff in L. congruence.
    + destruct (Qle_bool x v) eqn:C; [|reflexivity]. apply Qle_bool_iff in C. lra.
Qed.

(** ** Whole strings *)
Definition tol_of (k : ascii) : Q := (if Ascii.eqb k "t" then 1 # 1000000000000 else 1 # 100000)%Q.

Lemma parse_pieces : forall conv k ps, mark_kind k -> ps <> [] -> forallb proper ps = true ->
  parse_condition conv (mark_eq k (join (map write ps))) =
  bind (all_conditions conv (map (cooked k) ps)) (fun l =>
    match l with [p] => Ok p | [p; q] => Ok (fun x => p x && q x) | _ => Err EException end).
Proof.
  intros conv k ps K N P. unfold parse_condition. rewrite cook_join by assumption.
  rewrite split_join; [reflexivity|destruct ps; [contradiction|discriminate]|].
  clear N. induction ps as [|p t IH]; [reflexivity|]. cbn [map forallb] in *. apply andb_prop in P.
  destruct P as [P1 P2]. rewrite cooked_amp_free by assumption. now apply IH.
Qed.

Lemma all_good : forall conv k ps vs, mark_kind k -> forallb proper ps = true -> Forall2 (good_piece conv) ps vs ->
  exists l, all_conditions conv (map (cooked k) ps) = Ok l /\ List.length l = List.length ps /\
    forall x, forallb (fun p => p x) l = true <-> Forall2 (piece_holds (tol_of k) x) ps vs.
Proof.
  intros conv k ps vs K P G. induction G as [|p v ps vs H G IH].
  - exists []. cbn. repeat split; intros; auto; constructor.
  - cbn [forallb] in P. apply andb_prop in P. destruct P as [P1 P2].
    destruct (IH P2) as (l & E & L & X). destruct p as [b c t|t]; [|contradiction].
    cbn [proper] in P1. apply andb_prop in P1. destruct P1 as [PB PV]. cbn [good_piece] in H.
    cbn [map all_conditions]. rewrite (cooked_condition conv k b c t K PB PV), H. cbn [bind]. rewrite E. cbn [bind].
    eexists. split; [reflexivity|]. split; [cbn; now rewrite L|].
    intros x. cbn [forallb]. rewrite andb_true_iff, X. unfold tol_of at 1. rewrite op_fun_holds by exact K.
    split.
    + intros [A B]. constructor; [exact A|exact B].
    + intros A. inversion A; subst. auto.
Qed.

Theorem parse_selects : forall conv k ps vs, mark_kind k -> forallb proper ps = true ->
  Forall2 (good_piece conv) ps vs -> List.length ps = 1 \/ List.length ps = 2 ->
  exists p, parse_condition conv (mark_eq k (join (map write ps))) = Ok p /\
    forall x, p x = true <-> Forall2 (piece_holds (tol_of k) x) ps vs.
Proof.
  intros conv k ps vs K P G L. destruct (all_good conv k ps vs K P G) as (l & E & LL & X).
  rewrite parse_pieces; auto; [|destruct ps; [cbn in L; lia|discriminate]]. rewrite E. cbn [bind].
  destruct l as [|p [|q [|r l]]]; cbn [List.length] in LL; try lia.
  - exists p. split; [reflexivity|]. intros x. rewrite <- X. cbn [forallb]. now rewrite andb_true_r.
  - exists (fun x => p x && q x). split; [reflexivity|]. intros x. rewrite <- X. cbn [forallb]. now rewrite andb_true_r.
Qed.

Theorem parse_three : forall conv k ps vs, mark_kind k -> forallb proper ps = true ->
  Forall2 (good_piece conv) ps vs -> 2 < List.length ps ->
  parse_condition conv (mark_eq k (join (map write ps))) = Err EException.
Proof.
  intros conv k ps vs K P G L. destruct (all_good conv k ps vs K P G) as (l & E & LL & X).
  rewrite parse_pieces; auto; [|destruct ps; [cbn in L; lia|discriminate]]. rewrite E. cbn [bind].
  destruct l as [|p [|q [|r l]]]; cbn [List.length] in LL; try lia. reflexivity.
Qed.

Lemma all_bad : forall conv k ps vs p rest e, mark_kind k -> forallb proper ps = true ->
  Forall2 (good_piece conv) ps vs -> one_condition conv (cooked k p) = Err e ->
  all_conditions conv (map (cooked k) (ps ++ p :: rest)) = Err e.
Proof.
  intros conv k ps vs p rest e K P G H. induction G as [|q v ps vs Hq G IH].
  - cbn [app map all_conditions]. rewrite H. reflexivity.
  - cbn [forallb] in P. apply andb_prop in P. destruct P as [P1 P2]. destruct q as [b c t|t]; [|contradiction].
    cbn [proper] in P1. apply andb_prop in P1. destruct P1 as [PB PV]. cbn [good_piece] in Hq.
    cbn [app map all_conditions]. rewrite (cooked_condition conv k b c t K PB PV), Hq. cbn [bind].
    rewrite IH by exact P2. reflexivity.
Qed.

Lemma proper_app : forall a b, forallb proper (a ++ b)%list = (forallb proper a && forallb proper b)%bool.
Proof. intros. apply forallb_app. Qed.

Theorem parse_bare : forall conv k ps vs t rest, mark_kind k ->
  forallb proper (ps ++ Bare t :: rest) = true -> Forall2 (good_piece conv) ps vs ->
  parse_condition conv (mark_eq k (join (map write (ps ++ Bare t :: rest)))) = Err EAttributeError.
Proof.
  intros conv k ps vs t rest K P G. rewrite parse_pieces; auto; [|destruct ps; discriminate].
  rewrite proper_app in P. apply andb_prop in P. destruct P as [P1 P2]. cbn [forallb] in P2. apply andb_prop in P2.
  rewrite (all_bad conv k ps vs (Bare t) rest EAttributeError K P1 G); [reflexivity|].
  apply bare_condition. apply P2.
Qed.

Theorem parse_bad_value : forall conv k ps vs b c v rest e, mark_kind k ->
  forallb proper (ps ++ Comp b c v :: rest) = true -> Forall2 (good_piece conv) ps vs ->
  conv (no_space v) = Err e ->
  parse_condition conv (mark_eq k (join (map write (ps ++ Comp b c v :: rest)))) = Err e.
Proof.
  intros conv k ps vs b c v rest e K P G H. rewrite parse_pieces; auto; [|destruct ps; discriminate].
  rewrite proper_app in P. apply andb_prop in P. destruct P as [P1 P2]. cbn [forallb proper] in P2.
  apply andb_prop in P2. destruct P2 as [P2 _]. apply andb_prop in P2. destruct P2 as [PB PV].
  rewrite (all_bad conv k ps vs (Comp b c v) rest e K P1 G); [reflexivity|].
  rewrite cooked_condition by assumption. now rewrite H.
Qed.
Close Scope string_scope.
