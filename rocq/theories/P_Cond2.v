(** [BST.get] and [SST.get]. *)
From Coq Require Import List Arith ZArith QArith Qabs Lqa Lia Bool String Ascii Sorted.
From Verif Require Import Base M_Slots M_Nd P_Nd M_Cond P_Cond.
Import ListNotations.
Open Scope nat_scope.
Open Scope list_scope.

(** ** Both parsers *)
Definition parser (time : bool) : (string -> res Q) -> string -> res (Q -> bool) :=
  if time then parse_time else parse_freq.
Definition tolerance (time : bool) : Q := (if time then 1 # 1000000000000 else 1 # 100000)%Q.
Definition kind (time : bool) : ascii := if time then "t"%char else "f"%char.
Lemma parser_mark : forall time conv s, parser time conv s = parse_condition conv (mark_eq (kind time) s).
Proof. now intros []. Qed.
Lemma kind_ok : forall time, mark_kind (kind time).
Proof. intros []; [now left|now right]. Qed.
Lemma kind_tol : forall time, tol_of (kind time) = tolerance time.
Proof. now intros []. Qed.

Theorem selects : forall time conv ps vs, forallb proper ps = true -> Forall2 (good_piece conv) ps vs ->
  List.length ps = 1 \/ List.length ps = 2 ->
  exists p, parser time conv (join (map write ps)) = Ok p /\
    forall x, p x = true <-> Forall2 (piece_holds (tolerance time) x) ps vs.
Proof. intros. rewrite parser_mark, <- kind_tol. apply parse_selects; auto using kind_ok. Qed.
Theorem three_refused : forall time conv ps vs, forallb proper ps = true -> Forall2 (good_piece conv) ps vs ->
  2 < List.length ps -> parser time conv (join (map write ps)) = Err EException.
Proof. intros. rewrite parser_mark. eapply parse_three; eauto using kind_ok. Qed.
Theorem bare_refused : forall time conv ps vs t rest,
  forallb proper (ps ++ Bare t :: rest) = true -> Forall2 (good_piece conv) ps vs ->
  parser time conv (join (map write (ps ++ Bare t :: rest))) = Err EAttributeError.
Proof. intros. rewrite parser_mark. eapply parse_bare; eauto using kind_ok. Qed.
Theorem bad_value_refused : forall time conv ps vs b c v rest e,
  forallb proper (ps ++ Comp b c v :: rest) = true -> Forall2 (good_piece conv) ps vs ->
  conv (no_space v) = Err e ->
  parser time conv (join (map write (ps ++ Comp b c v :: rest))) = Err e.
Proof. intros. rewrite parser_mark. eapply parse_bad_value; eauto using kind_ok. Qed.

(** Equality accepts neighbours. *)
Definition demo_conv (s : string) : res Q :=
  (if String.eqb s "50MHz" then Ok 50%Q else if String.eqb s "60MHz" then Ok 60%Q else Err EValueError)%string.
Lemma equality_loose : exists p, parser false demo_conv "==50 MHz" = Ok p /\ p (500004 # 10000)%Q = true.
Proof. eexists. split; [vm_compute; reflexivity|]. reflexivity. Qed.
(** A blank inside an operator. *)
Lemma spaced_equality : parser false demo_conv "= = 50 MHz"%string = Err EAttributeError /\
  exists p, parser false demo_conv "> = 50 MHz" = Ok p /\ p 50%Q = true.
Proof. split; [vm_compute; reflexivity|]. eexists. split; [vm_compute; reflexivity|]. reflexivity. Qed.

(** ** Masks *)
Lemma where_in : forall A (p : A -> bool) d l i, In i (where_ p d l) <-> i < List.length l /\ p (nth i l d) = true.
Proof. intros. unfold where_. rewrite filter_In, in_seq. intuition lia. Qed.

Lemma where_sorted : forall A (p : A -> bool) d l, StronglySorted lt (where_ p d l).
Proof. intros. unfold where_. apply StronglySorted_filter. apply StronglySorted_seq. Qed.

Lemma where_filter : forall A (p : A -> bool) d l, picks d (where_ p d l) l = filter p l.
Proof.
  intros A p d l. unfold picks, where_.
  assert (G : forall pre l', map (fun i => nth i (pre ++ l') d)
     (filter (fun i => p (nth i (pre ++ l') d)) (seq (List.length pre) (List.length l'))) = filter p l').
  { intros pre l'. revert pre. induction l' as [|x t IH]; intros pre; [reflexivity|].
    cbn [List.length seq filter]. rewrite nth_middle. specialize (IH (pre ++ [x])).
    rewrite <- app_assoc, app_length in IH. cbn [app List.length] in IH. rewrite Nat.add_1_r in IH.
    destruct (p x); cbn [map]; rewrite IH; [rewrite nth_middle|]; reflexivity. }
  exact (G [] l).
Qed.

(** The indices kept by a mask are increasing and are those of the selected
    coordinates. *)
Definition kept {A} (d : A) (p : A -> bool) (l : list A) (idx : list nat) : Prop :=
  StronglySorted lt idx /\ forall i, In i idx <-> i < List.length l /\ p (nth i l d) = true.

Lemma where_kept : forall A (p : A -> bool) d l, kept d p l (where_ p d l).
Proof. intros. split; [apply where_sorted|]. intros i. apply where_in. Qed.

Lemma picks_nth : forall A (d : A) idx l i e, i < List.length idx -> nth i (picks d idx l) e = nth (nth i idx 0) l d.
Proof.
  intros A d idx l i e H. unfold picks.
  rewrite (nth_indep _ e ((fun i => nth i l d) 0)) by (now rewrite map_length).
  now rewrite (map_nth (fun i => nth i l d)).
Qed.

(** ** BST *)
Theorem bst_get_spec : forall pr fsel tsel pol beam b b' ss,
  bst_get pr fsel tsel pol beam b = (b', Ok ss) ->
  exists k fp tp ti pi fi,
    beam = Z.of_nat k /\ k < List.length (bst_freqs b) /\ bst_beam b' = k /\
    parse_freq (read_freq pr) (default_freq pr (nth k (bst_freqs b) []) fsel) = Ok fp /\
    parse_time (read_time pr) (default_time pr (bst_time b) tsel) = Ok tp /\
    ss_time ss = filter tp (bst_time b) /\ ss_freq ss = filter fp (nth k (bst_freqs b) []) /\
    kept 0%Q tp (bst_time b) ti /\ kept 0%Q fp (nth k (bst_freqs b) []) fi /\
    kept EmptyString (String.eqb (ss_pol ss)) (bst_pols b) pi /\
    sh (ss_value ss) = [List.length (ss_time ss); List.length pi; List.length (ss_freq ss)] /\
    forall i j c, i < List.length (ss_time ss) -> j < List.length pi -> c < List.length (ss_freq ss) ->
      nth i (ss_time ss) 0%Q = nth (nth i ti 0) (bst_time b) 0%Q /\
      nth c (ss_freq ss) 0%Q = nth (nth c fi 0) (nth k (bst_freqs b) []) 0%Q /\
      get (ss_value ss) [i; j; c] =
      get (bst_data b) [nth i ti 0; nth j pi 0; nth (nth c fi 0) (nth k (bst_lets b) []) 0].
Proof.
  intros pr fsel tsel pol beam b b' ss H. unfold bst_get in H.
  destruct ((0 <=? beam)%Z && (beam <? Z.of_nat (List.length (bst_freqs b)))%Z) eqn:B; cbn [negb] in H;
    [|injection H as _ H; discriminate].
  apply andb_prop in B. destruct B as [B1 B2]. apply Z.leb_le in B1. apply Z.ltb_lt in B2.
  injection H as HB H. set (k := Z.to_nat beam) in *.
  match type of H with (if ?c then _ else _) = _ => destruct c; [discriminate|] end.
  destruct (parse_freq (read_freq pr) (default_freq pr (nth k (bst_freqs b) []) fsel)) as [fp|] eqn:F; [|discriminate].
  cbn [bind] in H.
  destruct (parse_time (read_time pr) (default_time pr (bst_time b) tsel)) as [tp|] eqn:T; [|discriminate].
  cbn [bind] in H.
  set (ti := where_ tp 0%Q (bst_time b)) in *. set (fi := where_ fp 0%Q (nth k (bst_freqs b) [])) in *.
  set (p := choose_pol (bst_pols b) pol) in *. set (pi := where_ (String.eqb p) EmptyString (bst_pols b)) in *.
  unfold ix3 in H. match type of H with context [if ?c then Ok _ else _] => destruct c; [|discriminate] end.
  cbn [bind] in H. injection H as <-. cbn [ss_time ss_freq ss_pol ss_value sh get].
  exists k, fp, tp, ti, pi, fi. split; [lia|]. split; [lia|]. split; [now subst b'|].
  split; [first [exact F|reflexivity]|]. split; [first [exact T|reflexivity]|].
  split; [apply where_filter|]. split; [apply where_filter|]. split; [apply where_kept|]. split; [apply where_kept|].
  split; [apply where_kept|].
  assert (LT : List.length (picks 0%Q ti (bst_time b)) = List.length ti) by (unfold picks; apply map_length).
  assert (LF : List.length (picks 0%Q fi (nth k (bst_freqs b) [])) = List.length fi) by (unfold picks; apply map_length).
  assert (LL : List.length (picks 0 fi (nth k (bst_lets b) [])) = List.length fi) by (unfold picks; apply map_length).
  rewrite LT, LF, LL. split; [reflexivity|]. intros i j c I J C. rewrite !picks_nth by assumption. auto.
Qed.

(** The polarisation returned. *)
Theorem bst_pol : forall pr fsel tsel pol beam b b' ss,
  bst_get pr fsel tsel pol beam b = (b', Ok ss) ->
  (In pol (bst_pols b) -> ss_pol ss = pol) /\ (~ In pol (bst_pols b) -> ss_pol ss = "NW"%string) /\
  (NoDup (bst_pols b) -> In (ss_pol ss) (bst_pols b) -> nth 1 (sh (ss_value ss)) 0 = 1).
Proof.
  intros pr fsel tsel pol beam b b' ss H.
  destruct (bst_get_spec _ _ _ _ _ _ _ _ H) as (k & fp & tp & ti & pi & fi & _ & _ & _ & _ & _ & _ & _ & _ & _ & KP & SH & _).
  assert (P : ss_pol ss = choose_pol (bst_pols b) pol).
  { unfold bst_get in H. destruct (negb _); [injection H as _ H; discriminate|]. injection H as _ H.
    match type of H with (if ?c then _ else _) = _ => destruct c; [discriminate|] end.
    destruct (parse_freq _ _); [|discriminate]. cbn [bind] in H. destruct (parse_time _ _); [|discriminate].
    cbn [bind] in H. destruct (ix3 _ _ _ _); [|discriminate]. cbn [bind] in H. injection H as <-. reflexivity. }
  assert (IN : forall s, existsb (String.eqb s) (bst_pols b) = true <-> In s (bst_pols b)).
  { intros s. rewrite existsb_exists. split.
    - intros (x & I & E). apply String.eqb_eq in E. now subst.
    - intros I. exists s. split; [exact I|apply String.eqb_refl]. }
  split; [|split].
  - intros I. rewrite P. unfold choose_pol. apply IN in I. now rewrite I.
  - intros I. rewrite P. unfold choose_pol. destruct (existsb (String.eqb pol) (bst_pols b)) eqn:E; [|reflexivity].
    apply IN in E. contradiction.
  - intros ND I. rewrite SH. cbn [nth]. destruct KP as [S K].
    apply In_nth with (d := EmptyString) in I. destruct I as (i & Li & Ei).
    assert (U : forall j, In j pi <-> j = i).
    { intros j. rewrite K. split.
      - intros [Lj Ej]. apply String.eqb_eq in Ej. apply (proj1 (NoDup_nth (bst_pols b) EmptyString) ND); congruence.
      - intros ->. split; [exact Li|]. apply String.eqb_eq. now symmetry. }
    destruct pi as [|x [|y t]]; [|reflexivity|].
    + exfalso. apply (U i). reflexivity.
    + exfalso. inversion S as [|a l S' F]; subst. inversion F; subst.
      assert (x = i) by (apply U; now left). assert (y = i) by (apply U; right; now left). lia.
Qed.

(** The beam given to [get] replaces the one of the object, even if it fails. *)
Theorem bst_beam_set : forall pr fsel tsel pol beam b,
  (0 <= beam < Z.of_nat (List.length (bst_freqs b)))%Z ->
  bst_beam (fst (bst_get pr fsel tsel pol beam b)) = Z.to_nat beam.
Proof.
  intros pr fsel tsel pol beam b [A B]. unfold bst_get.
  destruct (Z.leb_spec 0 beam); [|lia]. destruct (Z.ltb_spec beam (Z.of_nat (List.length (bst_freqs b)))); [|lia].
  reflexivity.
Qed.
Theorem bst_beam_refused : forall pr fsel tsel pol beam b,
  ~ (0 <= beam < Z.of_nat (List.length (bst_freqs b)))%Z ->
  bst_get pr fsel tsel pol beam b = (b, Err EIndexError).
Proof.
  intros pr fsel tsel pol beam b N. unfold bst_get.
  destruct (Z.leb_spec 0 beam); [|reflexivity].
  destruct (Z.ltb_spec beam (Z.of_nat (List.length (bst_freqs b)))); [|reflexivity]. lia.
Qed.

(** ** Default selections *)
(** [s] is read as [v]. *)
Definition reads (read : string -> res Q) (s : string) (v : Q) : Prop :=
  plain s = true /\ read (no_space s) = Ok v.

Lemma default_parse : forall read k a b va vb, mark_kind k -> reads read a va -> reads read b vb ->
  exists p, parse_condition read (mark_eq k (">=" ++ a ++ " & <= " ++ b)%string) = Ok p /\
    forall x, p x = true <-> (va <= x)%Q /\ (x <= vb)%Q.
Proof.
  intros read k a b va vb K [PA RA] [PB RB].
  destruct (parse_selects read k [Comp "" Ge (a ++ " "); Comp " " Le (" " ++ b)] [va; vb] K) as (p & E & X).
  - cbn [forallb proper plain append]. rewrite PB.
    assert (PA' : plain (a ++ " ") = true).
    { clear RA. induction a as [|c a IH]; [reflexivity|]. cbn [plain append] in *. apply andb_prop in PA.
      destruct PA as [-> PA]. now rewrite IH. }
    rewrite PA'. reflexivity.
  - constructor; [|constructor; [|constructor]].
    + cbn [good_piece]. rewrite no_space_app. cbn [no_space]. change (Ascii.eqb " " c_space) with true. cbn iota.
      now rewrite app_nil_s.
    + cbn [good_piece]. exact RB.
  - right. reflexivity.
  - exists p. split.
    + rewrite <- E. f_equal. f_equal. cbn [map write join sym]. cbn [append]. f_equal. f_equal.
      rewrite app_assoc_s. reflexivity.
    + intros x. rewrite X. split.
      * intros H. inversion H as [|? ? ? ? H1 H2]; subst. inversion H2; subst. auto.
      * intros [H1 H2]. constructor; [exact H1|]. constructor; [exact H2|constructor].
Qed.

Lemma filter_all : forall A (p : A -> bool) l, (forall x, In x l -> p x = true) -> filter p l = l.
Proof.
  induction l as [|x t IH]; intros H; cbn; [reflexivity|]. rewrite (H x) by now left.
  f_equal. apply IH. intros y I. apply H. now right.
Qed.

Lemma qmin_le : forall l x, In x l -> (qmin l <= x)%Q.
Proof.
  intros l. unfold qmin. generalize (hd 0%Q l) as d.
  induction l as [|y t IH]; intros d x I; [contradiction|]. cbn [fold_right].
  set (m := fold_right (fun a b => if Qle_bool a b then a else b) d t).
  destruct (Qle_bool y m) eqn:C.
  - apply Qle_bool_iff in C. destruct I as [<-|I]; [lra|]. specialize (IH d x I). fold m in IH. lra.
  - assert (C' : (m <= y)%Q). { destruct (Qlt_le_dec y m) as [L|L]; [|exact L].
      assert (Qle_bool y m = true) by (apply Qle_bool_iff; lra). congruence. }
    destruct I as [<-|I]; [exact C'|]. exact (IH d x I).
Qed.
Lemma qmax_ge : forall l x, In x l -> (x <= qmax l)%Q.
Proof.
  intros l. unfold qmax. generalize (hd 0%Q l) as d.
  induction l as [|y t IH]; intros d x I; [contradiction|]. cbn [fold_right].
  set (m := fold_right (fun a b => if Qle_bool a b then b else a) d t).
  destruct (Qle_bool y m) eqn:C.
  - apply Qle_bool_iff in C. destruct I as [<-|I]; [exact C|]. exact (IH d x I).
  - assert (C' : (m <= y)%Q). { destruct (Qlt_le_dec y m) as [L|L]; [|exact L].
      assert (Qle_bool y m = true) by (apply Qle_bool_iff; lra). congruence. }
    destruct I as [<-|I]; [lra|]. specialize (IH d x I). fold m in IH. lra.
Qed.

(** Without selection: the frequencies are printed exactly, the times to the
    millisecond, as [va] and [vb]. *)
Theorem bst_default : forall pr pol beam b b' ss k va vb fa fb,
  bst_get pr None None pol beam b = (b', Ok ss) -> beam = Z.of_nat k ->
  let freqs := nth k (bst_freqs b) [] in
  reads (read_freq pr) (show_freq pr (qmin freqs)) fa -> (fa == qmin freqs)%Q ->
  reads (read_freq pr) (show_freq pr (qmax freqs)) fb -> (fb == qmax freqs)%Q ->
  reads (read_time pr) (show_time pr (hd 0%Q (bst_time b))) va ->
  reads (read_time pr) (show_time pr (last (bst_time b) 0%Q)) vb ->
  ss_freq ss = freqs /\
  (forall x, In x (ss_time ss) <-> In x (bst_time b) /\ (va <= x)%Q /\ (x <= vb)%Q) /\
  ((forall x, In x (bst_time b) -> (va <= x)%Q /\ (x <= vb)%Q) -> ss_time ss = bst_time b).
Proof.
  intros pr pol beam b b' ss k va vb fa fb H -> freqs RFA EA RFB EB RTA RTB.
  destruct (bst_get_spec _ _ _ _ _ _ _ _ H) as (k' & fp & tp & ti & pi & fi & EK & _ & _ & PF & PT & FT & FF & _).
  apply Nat2Z.inj in EK. subst k'. fold freqs in PF, FF. cbn [default_freq default_time] in PF, PT.
  destruct (default_parse (read_freq pr) "f"%char _ _ _ _ (or_intror eq_refl) RFA RFB) as (p & E & X).
  unfold parse_freq in PF. rewrite E in PF. injection PF as ->.
  destruct (default_parse (read_time pr) "t"%char _ _ _ _ (or_introl eq_refl) RTA RTB) as (q & E' & X').
  unfold parse_time in PT. rewrite E' in PT. injection PT as ->.
  split; [|split].
  - rewrite FF. apply filter_all. intros x I. apply X. rewrite EA, EB. split; [now apply qmin_le|now apply qmax_ge].
  - intros x. rewrite FT, filter_In, X'. reflexivity.
  - intros A. rewrite FT. apply filter_all. intros x I. apply X'. now apply A.
Qed.

(** A first sample at 0.6 ms (in days, from some origin): the text says 1 ms. *)
Definition ms : Q := (1 # 86400000)%Q.
Definition demo_printer : printer := mkPrinter
  (fun x => if Qeq_bool x ((6 # 10) * ms) then "00:00:00.001" else "00:00:02.000")%string
  (fun x => if Qeq_bool x 50 then "50.0 MHz" else "51.0 MHz")%string
  (fun s => if String.eqb s "00:00:00.001" then Ok ms
            else if String.eqb s "00:00:02.000" then Ok (2000 * ms)%Q else Err EValueError)%string
  (fun s => if String.eqb s "50.0MHz" then Ok 50%Q
            else if String.eqb s "51.0MHz" then Ok 51%Q else Err EValueError)%string.
Definition demo_bst : bst := mkBst [(6 # 10) * ms; 1000 * ms; 2000 * ms]%Q
  (mkNd [3; 2; 4] (fun idx => match idx with [i; j; k] => inject_Z (Z.of_nat (100 * i + 10 * j + k)) | _ => 0%Q end))
  ["NW"; "NE"]%string [[40%Q]; [50%Q; 51%Q]] [[0]; [3; 1]] 0.

Lemma default_drops :
  exists ss, snd (bst_get demo_printer None None "NE" 1 demo_bst) = Ok ss /\
    ss_time ss = [1000 * ms; 2000 * ms]%Q /\ ss_freq ss = [50%Q; 51%Q] /\
    get (ss_value ss) [1; 0; 0] = inject_Z 213.
Proof.
  eexists. split; [vm_compute; reflexivity|]. cbn [ss_time ss_freq ss_value get]. vm_compute. auto.
Qed.

(** ** SST *)
Theorem sst_get_spec : forall pr ma fsel tsel pol s ss,
  sst_get pr ma fsel tsel pol s = Ok ss ->
  exists fp tp ti mi pi fi,
    parse_freq (read_freq pr) (default_freq pr (sst_freq s) fsel) = Ok fp /\
    parse_time (read_time pr) (default_time pr (sst_time s) tsel) = Ok tp /\
    ss_time ss = filter tp (sst_time s) /\ ss_freq ss = filter fp (sst_freq s) /\
    kept 0%Q tp (sst_time s) ti /\ kept 0%Q fp (sst_freq s) fi /\
    kept EmptyString (String.eqb (ss_pol ss)) (sst_pols s) pi /\
    mi < List.length (sst_mas s) /\ (forall j, j < List.length (sst_mas s) -> (nth j (sst_mas s) 0%Z = ma <-> j = mi)) /\
    sh (ss_value ss) = [List.length (ss_time ss); 1; List.length pi; List.length (ss_freq ss)] /\
    forall i j c, i < List.length (ss_time ss) -> j < List.length pi -> c < List.length (ss_freq ss) ->
      nth i (ss_time ss) 0%Q = nth (nth i ti 0) (sst_time s) 0%Q /\
      nth c (ss_freq ss) 0%Q = nth (nth c fi 0) (sst_freq s) 0%Q /\
      get (ss_value ss) [i; 0; j; c] = get (sst_data s) [nth i ti 0; mi; nth j pi 0; nth c fi 0].
Proof.
  intros pr ma fsel tsel pol s ss H. unfold sst_get in H.
  match type of H with (if ?c then _ else _) = _ => destruct c; [discriminate|] end.
  destruct (parse_freq (read_freq pr) (default_freq pr (sst_freq s) fsel)) as [fp|] eqn:F; [|discriminate].
  cbn [bind] in H.
  destruct (parse_time (read_time pr) (default_time pr (sst_time s) tsel)) as [tp|] eqn:T; [|discriminate].
  cbn [bind] in H. pose proof (where_kept _ (Z.eqb ma) 0%Z (sst_mas s)) as [MS MK].
  set (ti := where_ tp 0%Q (sst_time s)) in *. set (fi := where_ fp 0%Q (sst_freq s)) in *.
  set (mi := where_ (Z.eqb ma) 0%Z (sst_mas s)) in *.
  set (p := choose_pol (sst_pols s) pol) in *. set (pi := where_ (String.eqb p) EmptyString (sst_pols s)) in *.
  destruct mi as [|m [|m' mt]]; cbn [List.length Nat.eqb negb] in H; try discriminate.
  unfold ix4 in H. match type of H with context [if ?c then Ok _ else _] => destruct c; [|discriminate] end.
  cbn [bind] in H. injection H as <-. cbn [ss_time ss_freq ss_pol ss_value sh get].
  exists fp, tp, ti, m, pi, fi. split; [reflexivity|]. split; [reflexivity|].
  split; [apply where_filter|]. split; [apply where_filter|]. split; [apply where_kept|]. split; [apply where_kept|].
  split; [apply where_kept|]. split; [apply (MK m); now left|]. split.
  { intros j J. specialize (MK j). rewrite Z.eqb_eq in MK. split.
    - intros E. assert (I : In j [m]) by (apply MK; auto). destruct I as [<-|[]]. reflexivity.
    - intros ->. symmetry. apply MK. now left. }
  assert (LT : List.length (picks 0%Q ti (sst_time s)) = List.length ti) by (unfold picks; apply map_length).
  assert (LF : List.length (picks 0%Q fi (sst_freq s)) = List.length fi) by (unfold picks; apply map_length).
  rewrite LT, LF. split; [reflexivity|]. intros i j c I J C. rewrite !picks_nth by assumption. auto.
Qed.

Theorem sst_unknown : forall pr ma fsel tsel pol s ss,
  sst_get pr ma fsel tsel pol s = Ok ss -> List.count_occ Z.eq_dec (sst_mas s) ma = 1.
Proof.
  intros pr ma fsel tsel pol s ss H. unfold sst_get in H.
  match type of H with (if ?c then _ else _) = _ => destruct c; [discriminate|] end.
  destruct (parse_freq _ _); [|discriminate]. cbn [bind] in H. destruct (parse_time _ _); [|discriminate]. cbn [bind] in H.
  assert (L : List.length (where_ (Z.eqb ma) 0%Z (sst_mas s)) = count_occ Z.eq_dec (sst_mas s) ma).
  { rewrite <- (map_length (fun i => nth i (sst_mas s) 0%Z)). change (map _ _) with (picks 0%Z (where_ (Z.eqb ma) 0%Z (sst_mas s)) (sst_mas s)).
    rewrite where_filter. clear H. induction (sst_mas s) as [|x t IH]; [reflexivity|]. cbn [filter count_occ].
    destruct (Z.eq_dec x ma) as [->|N].
    - rewrite Z.eqb_refl. cbn [List.length]. f_equal. exact IH.
    - destruct (Z.eqb_spec ma x); [congruence|exact IH]. }
  destruct (Nat.eqb_spec (List.length (where_ (Z.eqb ma) 0%Z (sst_mas s))) 0); [discriminate|].
  destruct (Nat.eqb_spec (List.length (where_ (Z.eqb ma) 0%Z (sst_mas s))) 1) as [E|]; [congruence|discriminate].
Qed.
