(** Specification and proofs: Stokes parameters, Faraday rotation, polarisation angle. *)
From Coq Require Import ZArith QArith Qround Reals Lra Psatz Ascii String Bool List Arith Lia.
From Verif Require Import Base M_Cond M_Nd P_Nd M_Polar.
Import ListNotations.
Open Scope nat_scope.
Open Scope list_scope.

(** ** Electric fields and what is recorded of them *)
(** An electric field sample: its components X and Y. *)
Definition field : Type := (cpx * cpx)%type.
(** The power received through a polarizer letting a.X + b.Y pass. *)
Definition through (a b : cpx) (e : field) : R :=
  let z := cplus (cmult a (fst e)) (cmult b (snd e)) in (re z ^ 2 + im z ^ 2)%R.
Fixpoint total (f : field -> R) (es : list field) : R :=
  match es with [] => 0%R | e :: es' => (f e + total f es')%R end.
Definition isq2 : R := (/ sqrt 2)%R.
(** The Stokes parameters by their definition: powers received through linear
    polarizers at 0, 90, 45 and 135 degrees, and through the two circular ones. *)
Definition SI (es : list field) : R := (total (through (creal 1) (creal 0)) es + total (through (creal 0) (creal 1)) es)%R.
Definition SQ (es : list field) : R := (total (through (creal 1) (creal 0)) es - total (through (creal 0) (creal 1)) es)%R.
Definition SU (es : list field) : R :=
  (total (through (creal isq2) (creal isq2)) es - total (through (creal isq2) (creal (- isq2))) es)%R.
Definition SV (es : list field) : R :=
  (total (through (creal isq2) (0%R, Ropp isq2)) es - total (through (creal isq2) (0%R, isq2)) es)%R.

(** What the back-end records of field samples (tf_utils.py 2236-2241):
    XX*, YY*, Re(XY* ) and -Im(XY* ), summed over the samples. *)
Definition rec_xx (es : list field) : R := total (fun e => (re (fst e) ^ 2 + im (fst e) ^ 2)%R) es.
Definition rec_yy (es : list field) : R := total (fun e => (re (snd e) ^ 2 + im (snd e) ^ 2)%R) es.
Definition rec_re (es : list field) : R := total (fun e => (re (fst e) * re (snd e) + im (fst e) * im (snd e))%R) es.
Definition rec_im (es : list field) : R := total (fun e => (re (fst e) * im (snd e) - im (fst e) * re (snd e))%R) es.
Definition recorded (fft0 fft1 : nd R) (p : list nat) (es : list field) : Prop :=
  get fft0 (p ++ [0]) = rec_xx es /\ get fft0 (p ++ [1]) = rec_yy es /\
  get fft1 (p ++ [0]) = rec_re es /\ get fft1 (p ++ [1]) = rec_im es.

(** The coherency matrix, sum of the outer products E E^H. *)
Fixpoint csum (f : field -> cpx) (es : list field) : cpx :=
  match es with [] => creal 0 | e :: es' => cplus (f e) (csum f es') end.
Definition coherency (es : list field) : mat :=
  mkMat (csum (fun e => cmult (fst e) (cconj (fst e))) es) (csum (fun e => cmult (fst e) (cconj (snd e))) es)
        (csum (fun e => cmult (snd e) (cconj (fst e))) es) (csum (fun e => cmult (snd e) (cconj (snd e))) es).

Ltac cpx_unfold := unfold cplus, cmult, cconj, creal, re, im in *; cbn [fst snd] in *.

Lemma coherency_recorded : forall es, coherency es =
  mkMat (creal (rec_xx es)) (rec_re es, (- rec_im es)%R) (rec_re es, rec_im es) (creal (rec_yy es)).
Proof.
  induction es as [|[[a b] [c d]] es IH].
  - unfold coherency, rec_xx, rec_yy, rec_re, rec_im; simpl. cpx_unfold.
    f_equal; f_equal; ring.
  - unfold coherency, rec_xx, rec_yy, rec_re, rec_im in *. cbn [csum total] in *.
    pose proof (f_equal m00 IH) as E1; pose proof (f_equal m01 IH) as E2; pose proof (f_equal m10 IH) as E3;
    pose proof (f_equal m11 IH) as E4. cbn [m00 m01 m10 m11] in E1, E2, E3, E4. rewrite E1, E2, E3, E4. cpx_unfold. f_equal; apply injective_projections; cbn [fst snd]; ring.
Qed.

Lemma isq2_sq : (isq2 * isq2 = / 2)%R.
Proof.
  unfold isq2. assert (H : (sqrt 2 * sqrt 2 = 2)%R) by (apply sqrt_sqrt; lra).
  assert (N : (sqrt 2 <> 0)%R) by (intro K; rewrite K in H; lra).
  rewrite <- Rinv_mult. now rewrite H.
Qed.

Lemma SI_rec : forall es, SI es = (rec_xx es + rec_yy es)%R.
Proof.
  unfold SI, rec_xx, rec_yy. induction es as [|[[a b] [c d]] es IH]; cbn [total]; [ring|].
  unfold through at 1 3. cpx_unfold. nra.
Qed.
Lemma SQ_rec : forall es, SQ es = (rec_xx es - rec_yy es)%R.
Proof.
  unfold SQ, rec_xx, rec_yy. induction es as [|[[a b] [c d]] es IH]; cbn [total]; [ring|].
  unfold through at 1 3. cpx_unfold. nra.
Qed.
Lemma SU_rec : forall es, SU es = (2 * rec_re es)%R.
Proof.
  unfold SU, rec_re. induction es as [|[[a b] [c d]] es IH]; cbn [total]; [ring|].
  unfold through at 1 3. cpx_unfold. pose proof isq2_sq as K.
  assert (E : ((isq2 * a - 0 * b + (isq2 * c - 0 * d)) ^ 2 + (isq2 * b + 0 * a + (isq2 * d + 0 * c)) ^ 2
            - ((isq2 * a - 0 * b + (- isq2 * c - 0 * d)) ^ 2 + (isq2 * b + 0 * a + (- isq2 * d + 0 * c)) ^ 2)
            = (isq2 * isq2) * (4 * (a * c + b * d)))%R) by ring.
  rewrite K in E. lra.
Qed.
Lemma SV_rec : forall es, SV es = (2 * rec_im es)%R.
Proof.
  unfold SV, rec_im. induction es as [|[[a b] [c d]] es IH]; cbn [total]; [ring|].
  unfold through at 1 3. cpx_unfold. pose proof isq2_sq as K.
  assert (E : ((isq2 * a - 0 * b + (0 * c - - isq2 * d)) ^ 2 + (isq2 * b + 0 * a + (0 * d + - isq2 * c)) ^ 2
            - ((isq2 * a - 0 * b + (0 * c - isq2 * d)) ^ 2 + (isq2 * b + 0 * a + (0 * d + isq2 * c)) ^ 2)
            = (isq2 * isq2) * (4 * (a * d - b * c)))%R) by ring.
  rewrite K in E. lra.
Qed.

(** ** The Stokes parameters of a matrix, element by element *)
Definition sI (d : mat) : R := (re (m00 d) + re (m11 d))%R.
Definition sQ (d : mat) : R := (re (m00 d) - re (m11 d))%R.
Definition sU (d : mat) : R := (2 * re (m01 d))%R.
Definition sV (d : mat) : R := (- 2 * im (m01 d))%R.
Lemma stokes_coherency : forall es, sI (coherency es) = SI es /\ sQ (coherency es) = SQ es /\
  sU (coherency es) = SU es /\ sV (coherency es) = SV es.
Proof.
  intro es. rewrite SI_rec, SQ_rec, SU_rec, SV_rec, coherency_recorded.
  unfold sI, sQ, sU, sV, re, im, creal; cbn [m00 m01 m10 m11 fst snd]. repeat split; ring.
Qed.

(** ** [spectra_data_to_matrix] *)
Lemma lead_app : forall (lead : list nat) n m, firstn (length (lead ++ m) - length m) (lead ++ n) = lead.
Proof.
  intros. rewrite app_length. replace (length lead + length m - length m) with (length lead + 0) by lia.
  rewrite firstn_app_2. simpl. now rewrite app_nil_r.
Qed.
Lemma lead_skip : forall (lead : list nat) n m, skipn (length (lead ++ m) - length m) (lead ++ n) = n.
Proof.
  intros. rewrite app_length. replace (length lead + length m - length m) with (length lead) by lia.
  rewrite skipn_app, skipn_all, Nat.sub_diag. reflexivity.
Qed.
Theorem matrix_recorded : forall fft0 fft1 lead p es, sh fft0 = lead ++ [2] -> length p = length lead ->
  recorded fft0 fft1 p es ->
  sh (spectra_data_to_matrix fft0 fft1) = lead ++ [2; 2] /\
  mat_at (spectra_data_to_matrix fft0 fft1) p = coherency es.
Proof.
  intros fft0 fft1 lead p es S L (A & B & C & D). split.
  - unfold spectra_data_to_matrix; cbn [sh]. rewrite S, removelast_last. reflexivity.
  - rewrite coherency_recorded. unfold mat_at, mat_of, spectra_data_to_matrix; cbn [get]. rewrite S.
    assert (F : forall q, firstn (length (lead ++ [2]) - 1) (p ++ q) = p).
    { intro q. rewrite app_length, <- L. replace (length p + length [2] - 1) with (length p + 0) by (simpl; lia).
      rewrite firstn_app_2. simpl. now rewrite app_nil_r. }
    assert (G : forall q, skipn (length (lead ++ [2]) - 1) (p ++ q) = q).
    { intro q. rewrite app_length, <- L. replace (length p + length [2] - 1) with (length p) by (simpl; lia).
      rewrite skipn_app, skipn_all, Nat.sub_diag. reflexivity. }
    rewrite !F, !G. cbn [nth]. now rewrite A, B, C, D.
Qed.

(** ** Names *)
Definition known_names : list string := ["I"; "Q"; "U"; "V"; "L"; "Q/I"; "U/I"; "V/I"; "L/I"]%string.
Definition letters : list (ascii * ascii) :=
  [("i", "I"); ("q", "Q"); ("u", "U"); ("v", "V"); ("l", "L")]%char.
(** [spelled s n]: [s] is the name [n] with some letters in lower case and spaces anywhere. *)
Inductive spelled : string -> string -> Prop :=
| sp_nil : spelled "" ""
| sp_space : forall s n, spelled s n -> spelled (String " " s) n
| sp_same : forall c s n, spelled s n -> spelled (String c s) (String c n)
| sp_lower : forall c d s n, In (c, d) letters -> spelled s n -> spelled (String c s) (String d n).

Lemma spelled_norm : forall s n, spelled s n -> upper (no_space s) = upper (no_space n).
Proof.
  induction 1; cbn [no_space]; auto.
  - destruct (Ascii.eqb c c_space); cbn [upper]; congruence.
  - simpl in H.
    decompose [or] H; try contradiction; match goal with E : _ = (_, _) |- _ => injection E as <- <- end;
      simpl; now rewrite IHspelled.
Qed.
Definition name_char (c : ascii) : bool :=
  existsb (Ascii.eqb c) ["I"; "Q"; "U"; "V"; "L"; "/"]%char.
Fixpoint name_chars (s : string) : bool :=
  match s with EmptyString => true | String c t => name_char c && name_chars t end.
Lemma known_chars : forall n, In n known_names -> name_chars n = true /\ upper (no_space n) = n.
Proof.
  intros n H. simpl in H. decompose [or] H; subst; try contradiction; split; reflexivity.
Qed.
Lemma up_char_known : forall c, name_char (up_char c) = true -> up_char c = c \/ In (c, up_char c) letters.
Proof.
  intros [b0 b1 b2 b3 b4 b5 b6 b7].
  destruct b0, b1, b2, b3, b4, b5, b6, b7; vm_compute; intro H; try discriminate H; tauto.
Qed.
Lemma norm_spelled : forall s, name_chars (upper (no_space s)) = true -> spelled s (upper (no_space s)).
Proof.
  induction s as [|c s IH]; cbn [no_space]; intro H; [constructor|].
  destruct (Ascii.eqb c c_space) eqn:E.
  - apply Ascii.eqb_eq in E. subst. apply sp_space. now apply IH.
  - cbn [upper name_chars] in H |- *. apply andb_prop in H as [H1 H2].
    destruct (up_char_known c H1) as [->|K]; [apply sp_same|apply sp_lower]; auto.
Qed.
Theorem spelled_iff : forall s n, In n known_names -> (spelled s n <-> upper (no_space s) = n).
Proof.
  intros s n H. destruct (known_chars n H) as [K1 K2]. split; intro E.
  - apply spelled_norm in E. congruence.
  - rewrite <- E. apply norm_spelled. now rewrite E.
Qed.

(** ** [compute_stokes] *)
Definition sL (d : mat) : R := sqrt (sQ d ^ 2 + sU d ^ 2).
(** [is_stokes d n v]: [v] is the parameter [n] of the matrix [d]; [None] is the
    answer for a ratio to a zero intensity. *)
Inductive is_stokes (d : mat) : string -> option R -> Prop :=
| is_I : is_stokes d "I" (Some (sI d))
| is_Q : is_stokes d "Q" (Some (sQ d))
| is_U : is_stokes d "U" (Some (sU d))
| is_V : is_stokes d "V" (Some (sV d))
| is_L : is_stokes d "L" (Some (sL d))
| is_ratio : forall n x, In (n, x) [("Q/I", sQ d); ("U/I", sU d); ("V/I", sV d); ("L/I", sL d)]%string ->
    sI d <> 0%R -> is_stokes d n (Some (x / sI d))%R
| is_none : forall n, In n ["Q/I"; "U/I"; "V/I"; "L/I"]%string -> sI d = 0%R -> is_stokes d n None.

Lemma mul2 : forall x, (x * 2 = 2 * x)%R. Proof. intro; ring. Qed.
Lemma mul2n : forall x, (- x * 2 = - 2 * x)%R. Proof. intro; ring. Qed.

Lemma rdiv_spec : forall a b, (b <> 0 /\ rdiv a b = Some (a / b))%R \/ (b = 0%R /\ rdiv a b = None).
Proof. intros. unfold rdiv. destruct (Req_EM_T b 0); [right|left]; auto. Qed.

Lemma stokes_value_spec : forall n d, In n known_names -> exists v, stokes_value n d = Ok v /\ is_stokes d n v.
Proof.
  intros n d H. unfold stokes_value. rewrite mul2, mul2n.
  fold (sI d) (sQ d) (sU d) (sV d). fold (sL d).
  simpl in H. decompose [or] H; try contradiction; subst n; cbn [String.eqb Ascii.eqb Bool.eqb];
    try (eexists; split; [reflexivity|constructor]).
  all: match goal with |- context [rdiv ?a ?b] => destruct (rdiv_spec a b) as [[N ->]|[N ->]] end;
    eexists; (split; [reflexivity|]); [apply is_ratio|apply is_none]; simpl; auto.
Qed.
Lemma stokes_value_err : forall n d, ~ In n known_names -> stokes_value n d = Err ENotImplementedError.
Proof.
  intros n d H. unfold stokes_value.
  repeat match goal with |- context [String.eqb n ?k] =>
    destruct (String.eqb_spec n k); [exfalso; apply H; subst; simpl; tauto|] end.
  reflexivity.
Qed.

Lemma stack_get : forall lead m pre p k, length p = length lead ->
  (match pre with None => m = 0 | Some r => sh r = lead ++ [m] end) -> forall f,
  sh (stack_last pre lead f) = lead ++ [S m] /\
  (k < m -> match pre with None => True | Some r => get (stack_last pre lead f) (p ++ [k]) = get r (p ++ [k]) end) /\
  get (stack_last pre lead f) (p ++ [m]) = f p.
Proof.
  intros lead m pre p k L H f.
  assert (F : forall x, firstn (length lead) (p ++ [x]) = p).
  { intro x. rewrite <- L. rewrite <- (Nat.add_0_r (length p)), firstn_app_2. simpl. apply app_nil_r. }
  destruct pre as [r|]; unfold stack_last; cbn [sh get].
  - rewrite H, last_last. split; [reflexivity|]. rewrite !last_last. split.
    + intro K. apply Nat.ltb_lt in K. now rewrite K.
    + rewrite Nat.ltb_irrefl. now rewrite F.
  - subst m. split; [reflexivity|]. split; [auto|]. now rewrite F.
Qed.

Lemma loop_ok : forall data lead names canon pre m,
  Forall2 (fun s n => In n known_names /\ spelled s n) names canon ->
  (match pre with None => m = 0 | Some r => sh r = lead ++ [m] end) ->
  0 < m + length names ->
  exists r, stokes_loop data lead names pre = Ok (Some r) /\ sh r = lead ++ [m + length names] /\
    (forall p k, length p = length lead -> k < m -> match pre with None => True | Some q => get r (p ++ [k]) = get q (p ++ [k]) end) /\
    (forall p k n, length p = length lead -> nth_error canon k = Some n ->
       is_stokes (mat_at data p) n (get r (p ++ [m + k]))).
Proof.
  intros data lead names. induction names as [|s names IH]; intros canon pre m F P M; inversion F; subst.
  - destruct pre as [r|]; [|simpl in M; lia]. exists r. cbn [stokes_loop length].
    rewrite Nat.add_0_r. repeat split; auto. intros p k n _ E. destruct k; discriminate.
  - rename y into n0, l' into canon. destruct H1 as [K Sp]. apply spelled_iff in Sp; [|assumption].
    cbn [stokes_loop]. rewrite Sp.
    destruct (stokes_value_spec n0 zero_mat K) as (v & -> & _). cbn [bind].
    set (f := fun p => match stokes_value n0 (mat_at data p) with Ok v0 => v0 | Err _ => None end).
    destruct (IH canon (Some (stack_last pre lead f)) (S m) H3) as (r & R1 & R2 & R3 & R4).
    + destruct (stack_get lead m pre (map (fun _ => 0) lead) 0 (map_length _ _) P f) as [H _]. exact H.
    + lia.
    + exists r. split; [exact R1|]. split; [rewrite R2; do 2 f_equal; simpl; lia|]. split.
      * intros p k L Hk. destruct pre as [q|]; [|exact Logic.I].
        rewrite (R3 p k L) by lia. destruct (stack_get lead m (Some q) p k L P f) as (_ & G & _). auto.
      * intros p k n L E. destruct k as [|k].
        -- injection E as <-. rewrite Nat.add_0_r, (R3 p m L) by lia.
           destruct (stack_get lead m pre p 0 L P f) as (_ & _ & ->). unfold f.
           destruct (stokes_value_spec n0 (mat_at data p) K) as (w & -> & W). exact W.
        -- rewrite Nat.add_succ_r. apply R4; assumption.
Qed.

Lemma lead_of : forall lead : list nat, firstn (length (lead ++ [2; 2]) - 2) (lead ++ [2; 2]) = lead.
Proof. intros. exact (lead_app lead [2; 2] [2; 2]). Qed.
Lemma tail_of : forall lead : list nat, skipn (length (lead ++ [2; 2]) - 2) (lead ++ [2; 2]) = [2; 2].
Proof. intros. exact (lead_skip lead [2; 2] [2; 2]). Qed.

Theorem stokes_values : forall data lead names canon, sh data = lead ++ [2; 2] -> names <> [] ->
  Forall2 (fun s n => In n known_names /\ spelled s n) names canon ->
  exists r, compute_stokes data names = Ok (Some r) /\ sh r = lead ++ [length names] /\
    forall p k n, length p = length lead -> nth_error canon k = Some n ->
      is_stokes (mat_at data p) n (get r (p ++ [k])).
Proof.
  intros data lead names canon S N F. unfold compute_stokes. rewrite S.
  rewrite tail_of, lead_of.
  destruct (list_eq_dec _ _ _) as [_|C]; [|congruence].
  destruct (loop_ok data lead names canon None 0 F eq_refl) as (r & A & B & _ & D).
  - destruct names; [congruence|simpl; lia].
  - exists r. auto.
Qed.
Theorem stokes_unknown : forall data lead names s, sh data = lead ++ [2; 2] -> In s names ->
  (forall n, In n known_names -> ~ spelled s n) -> compute_stokes data names = Err ENotImplementedError.
Proof.
  intros data lead names s S N U. unfold compute_stokes. rewrite S.
  rewrite tail_of, lead_of.
  destruct (list_eq_dec _ _ _) as [_|C]; [|congruence].
  generalize (@None (nd (option R))). induction names as [|s0 names IH]; [contradiction|].
  intro pre. cbn [stokes_loop].
  destruct (in_dec string_dec (upper (no_space s0)) known_names) as [K|K].
  - destruct (stokes_value_spec _ zero_mat K) as (v & -> & _). cbn [bind].
    destruct N as [->|N]; [|now apply IH].
    exfalso. apply (U _ K). now apply spelled_iff.
  - now rewrite stokes_value_err.
Qed.
Theorem stokes_shape : forall data names,
  (forall lead, sh data <> lead ++ [2; 2]) -> compute_stokes data names = Err EException.
Proof.
  intros data names H. unfold compute_stokes. destruct (list_eq_dec _ _ _) as [E|E]; [|reflexivity].
  exfalso. apply (H (firstn (length (sh data) - 2) (sh data))). rewrite <- E. symmetry. apply firstn_skipn.
Qed.
Theorem stokes_empty : forall data lead, sh data = lead ++ [2; 2] -> compute_stokes data [] = Ok None.
Proof.
  intros data lead S. unfold compute_stokes. rewrite S.
  rewrite tail_of.
  destruct (list_eq_dec _ _ _) as [_|C]; [reflexivity|congruence].
Qed.

(** ** Degree of polarisation *)
Lemma rec_cons : forall a b c d es, let e : field := (((a, b) : cpx), ((c, d) : cpx)) in
  rec_xx (e :: es) = (a ^ 2 + b ^ 2 + rec_xx es)%R /\ rec_yy (e :: es) = (c ^ 2 + d ^ 2 + rec_yy es)%R /\
  rec_re (e :: es) = (a * c + b * d + rec_re es)%R /\ rec_im (e :: es) = (a * d - b * c + rec_im es)%R.
Proof. intros. repeat split; reflexivity. Qed.
Lemma two_prod : forall p q m, (0 <= p -> 0 <= q -> m ^ 2 <= p * q -> 2 * m <= p + q)%R.
Proof.
  intros p q m P Q M. pose proof (pow2_ge_0 (p - q)) as D. assert ((2 * m) ^ 2 <= (p + q) ^ 2)%R by lra.
  destruct (Rle_dec (2 * m) 0) as [H0|H0]; [lra|]. apply Rnot_le_lt in H0.
  apply Rnot_lt_le. intro C. assert ((p + q) * (p + q) < (2 * m) * (2 * m))%R by (apply Rmult_le_0_lt_compat; lra). lra.
Qed.
Lemma cone : forall es, (0 <= rec_xx es)%R /\ (0 <= rec_yy es)%R /\
  (rec_re es ^ 2 + rec_im es ^ 2 <= rec_xx es * rec_yy es)%R.
Proof.
  induction es as [|[[a b] [c d]] es (A & B & C)].
  - unfold rec_xx, rec_yy, rec_re, rec_im; cbn [total]. lra.
  - destruct (rec_cons a b c d es) as (-> & -> & -> & ->).
    set (x := rec_xx es) in *. set (y := rec_yy es) in *. set (r := rec_re es) in *. set (i := rec_im es) in *.
    split; [nra|]. split; [nra|].
    (* 2 (r0 r + i0 i) <= (a^2+b^2) y + (c^2+d^2) x *)
    set (r0 := (a * c + b * d)%R). set (i0 := (a * d - b * c)%R).
    assert (E0 : (r0 ^ 2 + i0 ^ 2 = (a ^ 2 + b ^ 2) * (c ^ 2 + d ^ 2))%R) by (unfold r0, i0; ring).
    assert (P : (0 <= a ^ 2 + b ^ 2)%R) by nra. assert (Q : (0 <= c ^ 2 + d ^ 2)%R) by nra.
    set (u := (a ^ 2 + b ^ 2)%R) in *. set (v := (c ^ 2 + d ^ 2)%R) in *. clearbody u v r0 i0 x y r i.
    assert (K : (2 * (r0 * r + i0 * i) <= u * y + v * x)%R).
    { apply two_prod; [nra|nra|].
      assert (CS : ((r0 * r + i0 * i) ^ 2 <= (r0 ^ 2 + i0 ^ 2) * (r ^ 2 + i ^ 2))%R).
      { assert (0 <= (r0 * i - i0 * r) ^ 2)%R by apply pow2_ge_0. nra. }
      rewrite E0 in CS. assert (0 <= u * v)%R by nra.
      assert (u * v * (r ^ 2 + i ^ 2) <= u * v * (x * y))%R by (apply Rmult_le_compat_l; assumption). nra. }
    nra.
Qed.
Theorem polarised_part : forall es, (0 <= SI es)%R /\ (SQ es ^ 2 + SU es ^ 2 + SV es ^ 2 <= SI es ^ 2)%R.
Proof.
  intro es. rewrite SI_rec, SQ_rec, SU_rec, SV_rec. destruct (cone es) as (A & B & C). split; [lra|nra].
Qed.
Theorem fully_polarised : forall e, (SQ [e] ^ 2 + SU [e] ^ 2 + SV [e] ^ 2 = SI [e] ^ 2)%R.
Proof.
  intros [[a b] [c d]]. rewrite SI_rec, SQ_rec, SU_rec, SV_rec.
  destruct (rec_cons a b c d []) as (-> & -> & -> & ->). unfold rec_xx, rec_yy, rec_re, rec_im; cbn [total]. ring.
Qed.
Lemma sq_le : forall a b, (0 <= b -> a ^ 2 <= b ^ 2 -> - b <= a <= b)%R.
Proof. intros. split; apply Rnot_lt_le; intro; nra. Qed.
(** Every ratio that is returned lies within [-1, 1]. *)
Theorem ratios_bounded : forall es n v, In n ["Q/I"; "U/I"; "V/I"; "L/I"]%string ->
  is_stokes (coherency es) n (Some v) -> (-1 <= v <= 1)%R.
Proof.
  intros es n v N H.
  destruct (stokes_coherency es) as (EI & EQ & EU & EV). destruct (polarised_part es) as [P0 P].
  assert (B : forall x, (x ^ 2 <= SI es ^ 2)%R -> sI (coherency es) <> 0%R -> (-1 <= x / sI (coherency es) <= 1)%R).
  { intros x X NZ. rewrite EI in *. assert (0 < SI es)%R by lra. apply sq_le in X; [|assumption].
    split; [apply Rmult_le_reg_r with (SI es)|apply Rmult_le_reg_r with (SI es)]; try assumption;
      unfold Rdiv; rewrite ?Rmult_assoc, Rinv_l by lra; lra. }
  inversion H; subst; simpl in N; try (decompose [or] N; discriminate || contradiction).
  apply B; [|assumption]. unfold sL in *. rewrite EQ, EU, EV in *.
  simpl in H1. decompose [or] H1; try contradiction; match goal with E : (_, _) = _ |- _ => injection E as <- <- end;
    rewrite ?EQ, ?EU, ?EV; try nra.
  assert (0 <= SQ es ^ 2 + SU es ^ 2)%R by nra. rewrite pow2_sqrt by assumption. nra.
Qed.

(** ** Rotations *)
Definition hermitian (d : mat) : Prop := im (m00 d) = 0%R /\ im (m11 d) = 0%R /\ m10 d = cconj (m01 d).
Lemma coherency_hermitian : forall es, hermitian (coherency es).
Proof. intro es. rewrite coherency_recorded. repeat split. cbn. unfold cconj, re, im; simpl. f_equal. ring. Qed.
(** The field turned by the angle [a]. *)
Definition turn_field (a : R) (e : field) : field :=
  let c := creal (cos a) in let s := creal (sin a) in
  (cplus (cmult c (fst e)) (cmult (creal (- sin a)) (snd e)), cplus (cmult s (fst e)) (cmult c (snd e))).
(** R(a) d R(a)^T. *)
Definition turned (a : R) (d : mat) : mat := mmul (mmul (rotation a) d) (mtrans (rotation a)).

Ltac mat_unfold := unfold turned, mmul, mtrans, mconj, rotation, mat_of, mget; cbn [m00 m01 m10 m11];
  unfold cplus, cmult, cconj, creal, re, im; cbn [fst snd].

Lemma turned_twice : forall a b d, turned a (turned b d) = turned (a + b) d.
Proof.
  intros a b [[a1 a2] [b1 b2] [c1 c2] [d1 d2]]. mat_unfold. rewrite cos_plus, sin_plus.
  f_equal; apply injective_projections; cbn [fst snd]; ring.
Qed.
Lemma turned_0 : forall d, turned 0 d = d.
Proof.
  intros [[a1 a2] [b1 b2] [c1 c2] [d1 d2]]. mat_unfold. rewrite cos_0, sin_0.
  f_equal; apply injective_projections; cbn [fst snd]; ring.
Qed.
Lemma turned_coherency : forall a es, turned a (coherency es) = coherency (map (turn_field a) es).
Proof.
  intros a es. rewrite !coherency_recorded.
  assert (H : let c := cos a in let s := sin a in
    rec_xx (map (turn_field a) es) = (c ^ 2 * rec_xx es - 2 * c * s * rec_re es + s ^ 2 * rec_yy es)%R /\
    rec_yy (map (turn_field a) es) = (s ^ 2 * rec_xx es + 2 * c * s * rec_re es + c ^ 2 * rec_yy es)%R /\
    rec_re (map (turn_field a) es) = (c * s * rec_xx es + (c ^ 2 - s ^ 2) * rec_re es - c * s * rec_yy es)%R /\
    rec_im (map (turn_field a) es) = ((c ^ 2 + s ^ 2) * rec_im es)%R).
  { intros c s. induction es as [|[[x1 x2] [y1 y2]] es (A & B & C & D)].
    - unfold rec_xx, rec_yy, rec_re, rec_im; cbn [map total]. repeat split; ring.
    - cbn [map]. unfold turn_field at 1 3 5 7. cpx_unfold. fold c s.
      match goal with |- rec_xx (((?p, ?q), (?r, ?t)) :: _) = _ /\ _ =>
        destruct (rec_cons p q r t (map (turn_field a) es)) as (-> & -> & -> & ->) end.
      destruct (rec_cons x1 x2 y1 y2 es) as (-> & -> & -> & ->). rewrite A, B, C, D. repeat split; ring. }
  cbv zeta in H. destruct H as (-> & -> & -> & ->). mat_unfold.
  f_equal; apply injective_projections; cbn [fst snd]; ring.
Qed.
Lemma sc1 : forall a, (sin a ^ 2 = 1 - cos a ^ 2)%R.
Proof. intro a. pose proof (sin2_cos2 a). unfold Rsqr in *. lra. Qed.
Lemma turned_stokes : forall a d, hermitian d -> let d' := turned a d in
  hermitian d' /\ sI d' = sI d /\ sV d' = sV d /\
  sQ d' = (cos (2 * a) * sQ d - sin (2 * a) * sU d)%R /\ sU d' = (sin (2 * a) * sQ d + cos (2 * a) * sU d)%R.
Proof.
  intros a [[a1 a2] [b1 b2] [c1 c2] [d1 d2]] (A & B & C).
  unfold cconj, re, im in *; cbn [m00 m01 m10 m11 fst snd] in *. injection C as -> ->. subst a2 d2.
  rewrite cos_2a, sin_2a. cbv zeta. unfold hermitian, sI, sQ, sU, sV. mat_unfold.
  pose proof (sc1 a) as K. set (s := sin a) in *. set (c := cos a) in *.
  repeat split; try ring.
  - f_equal; ring.
  - transitivity ((s ^ 2 + c ^ 2) * (a1 + d1))%R; [ring|rewrite K; ring].
  - transitivity ((s ^ 2 + c ^ 2) * (- 2 * b2))%R; [ring|rewrite K; ring].
Qed.
Lemma turned_intensity : forall a d, sI (turned a d) = sI d.
Proof.
  intros a [[a1 a2] [b1 b2] [c1 c2] [d1 d2]]. unfold sI. mat_unfold.
  pose proof (sc1 a) as K. set (s := sin a) in *. set (c := cos a) in *.
  transitivity ((s ^ 2 + c ^ 2) * (a1 + d1))%R; [ring|rewrite K; ring].
Qed.
Lemma turned_linear : forall a d, hermitian d -> sL (turned a d) = sL d.
Proof.
  intros a d H. destruct (turned_stokes a d H) as (_ & _ & _ & Q & U). unfold sL. rewrite Q, U. f_equal.
  pose proof (sc1 (2 * a)) as K. set (s := sin (2 * a)) in *. set (c := cos (2 * a)) in *.
  transitivity ((s ^ 2 + c ^ 2) * (sQ d ^ 2 + sU d ^ 2))%R; [ring|rewrite K; ring].
Qed.

(** ** [de_faraday] *)
Definition wavelength (f : R) : R := (299792458 / f)%R.
Lemma mat_of_get : forall m, mat_of (fun i j => mget m i j) = m.
Proof. now intros []. Qed.
Theorem faraday_turns : forall data nt freq rm, sh data = [nt; length freq; 2; 2] ->
  exists r, de_faraday data freq rm = Ok r /\ sh r = [nt; length freq; 2; 2] /\
    forall t f, mat_at r [t; f] = turned (- (rm * wavelength (nth f freq 0%R) ^ 2)) (mat_at data [t; f]).
Proof.
  intros data nt freq rm S. unfold de_faraday. rewrite S, Nat.eqb_refl. cbn [andb Nat.eqb].
  eexists. split; [reflexivity|]. split; [reflexivity|]. intros t f.
  unfold mat_at at 1. cbn [get app].
  unfold faraday_angle. change (speed_of_light / nth f freq 0%R)%R with (wavelength (nth f freq 0%R)).
  replace (rm * wavelength (nth f freq 0%R) ^ 2 * -1)%R with (- (rm * wavelength (nth f freq 0%R) ^ 2))%R by ring.
  fold (turned (- (rm * wavelength (nth f freq 0%R) ^ 2)) (mat_at data [t; f])). apply mat_of_get.
Qed.
Theorem faraday_stokes : forall data nt freq rm r, sh data = [nt; length freq; 2; 2] ->
  de_faraday data freq rm = Ok r -> forall t f, hermitian (mat_at data [t; f]) ->
  let d := mat_at data [t; f] in let d' := mat_at r [t; f] in
  let a := (- (rm * wavelength (nth f freq 0%R) ^ 2))%R in
  hermitian d' /\ sI d' = sI d /\ sV d' = sV d /\ sL d' = sL d /\
  sQ d' = (cos (2 * a) * sQ d - sin (2 * a) * sU d)%R /\ sU d' = (sin (2 * a) * sQ d + cos (2 * a) * sU d)%R.
Proof.
  intros data nt freq rm r S E t f H d d' a.
  destruct (faraday_turns data nt freq rm S) as (r0 & E0 & _ & G). rewrite E0 in E. injection E as <-.
  unfold d', d, a. rewrite G. destruct (turned_stokes (- (rm * wavelength (nth f freq 0%R) ^ 2)) _ H) as (A & B & C & D & F).
  repeat split; try assumption; try apply A. now apply turned_linear.
Qed.
Theorem faraday_intensity : forall data nt freq rm r, sh data = [nt; length freq; 2; 2] ->
  de_faraday data freq rm = Ok r -> forall t f, sI (mat_at r [t; f]) = sI (mat_at data [t; f]).
Proof.
  intros data nt freq rm r S E t f.
  destruct (faraday_turns data nt freq rm S) as (r0 & E0 & _ & G). rewrite E0 in E. injection E as <-.
  rewrite G. apply turned_intensity.
Qed.
Theorem faraday_undoes : forall data nt freq rm r (es : nat -> nat -> list field),
  sh data = [nt; length freq; 2; 2] -> de_faraday data freq rm = Ok r ->
  (forall t f, t < nt -> f < length freq -> mat_at data [t; f] =
     coherency (map (turn_field (rm * wavelength (nth f freq 0%R) ^ 2)) (es t f))) ->
  forall t f, t < nt -> f < length freq -> mat_at r [t; f] = coherency (es t f).
Proof.
  intros data nt freq rm r es S E H t f T F.
  destruct (faraday_turns data nt freq rm S) as (r0 & E0 & _ & G). rewrite E0 in E. injection E as <-.
  rewrite G, (H t f T F), <- turned_coherency, turned_twice.
  rewrite Rplus_opp_l. apply turned_0.
Qed.
Theorem faraday_composes : forall data nt freq rm1 rm2 r1 r2, sh data = [nt; length freq; 2; 2] ->
  de_faraday data freq rm1 = Ok r1 -> de_faraday r1 freq rm2 = Ok r2 ->
  exists r, de_faraday data freq (rm1 + rm2) = Ok r /\ forall t f, mat_at r2 [t; f] = mat_at r [t; f].
Proof.
  intros data nt freq rm1 rm2 r1 r2 S E1 E2.
  destruct (faraday_turns data nt freq rm1 S) as (a & Ea & Sa & Ga). rewrite Ea in E1. injection E1 as <-.
  destruct (faraday_turns a nt freq rm2 Sa) as (b & Eb & Sb & Gb). rewrite Eb in E2. injection E2 as <-.
  destruct (faraday_turns data nt freq (rm1 + rm2) S) as (c & Ec & Sc & Gc).
  exists c. split; [exact Ec|]. intros t f. rewrite Gb, Ga, Gc, turned_twice. f_equal. ring.
Qed.
Theorem faraday_back : forall data nt freq rm r, sh data = [nt; length freq; 2; 2] ->
  de_faraday data freq rm = Ok r -> exists b, de_faraday r freq (- rm) = Ok b /\ sh b = sh data /\
    forall t f, mat_at b [t; f] = mat_at data [t; f].
Proof.
  intros data nt freq rm r S E.
  destruct (faraday_turns data nt freq rm S) as (a & Ea & Sa & Ga). rewrite Ea in E. injection E as <-.
  destruct (faraday_turns a nt freq (- rm) Sa) as (b & Eb & Sb & Gb). exists b. split; [exact Eb|].
  split; [congruence|]. intros t f. rewrite Gb, Ga, turned_twice.
  replace (_ + _)%R with 0%R by ring. apply turned_0.
Qed.
Theorem faraday_refused : forall data freq rm,
  (forall nt, sh data <> [nt; length freq; 2; 2]) <-> de_faraday data freq rm = Err EException.
Proof.
  intros data freq rm. unfold de_faraday. split.
  - intro H. destruct (sh data) as [|a [|b [|c [|d [|]]]]] eqn:E; try reflexivity.
    destruct ((b =? length freq) && (c =? 2) && (d =? 2)) eqn:K; [|reflexivity].
    apply andb_prop in K as [K K3]. apply andb_prop in K as [K1 K2].
    apply Nat.eqb_eq in K1, K2, K3. subst. now elim (H a).
  - intros H nt E. rewrite E, Nat.eqb_refl in H. discriminate.
Qed.

(** ** [polarization_angle] *)
(** The linearly polarised field of amplitude [a] along the direction [psi]. *)
Definition linear (a psi : R) : field := (creal (a * cos psi), creal (a * sin psi)).
Lemma linear_stokes : forall a psi, SQ [linear a psi] = (a ^ 2 * cos (2 * psi))%R /\
  SU [linear a psi] = (a ^ 2 * sin (2 * psi))%R.
Proof.
  intros. rewrite SQ_rec, SU_rec. unfold linear, creal.
  destruct (rec_cons (a * cos psi) 0 (a * sin psi) 0 []) as (-> & -> & -> & _).
  unfold rec_xx, rec_yy, rec_re; cbn [total]. rewrite cos_2a, sin_2a. split; ring.
Qed.
Theorem angle_range : forall u q v, polarization_angle u q = Some v -> (- (PI / 4) <= v <= PI / 4)%R.
Proof.
  intros u q v H. unfold polarization_angle in H. pose proof PI_RGT_0.
  destruct (Req_EM_T q 0); [destruct (Req_EM_T u 0); [discriminate|]; destruct (Rlt_dec 0 u); injection H as <-; lra|].
  injection H as <-. pose proof (atan_bound (u / q)). lra.
Qed.
Lemma angle_tan : forall u q v, polarization_angle u q = Some v -> q <> 0%R -> tan (2 * v) = (u / q)%R.
Proof.
  intros u q v H Q. unfold polarization_angle in H. destruct (Req_EM_T q 0); [contradiction|]. injection H as <-.
  replace (2 * (1 / 2 * atan (u / q)))%R with (atan (u / q)) by field. apply atan_right_inv.
Qed.
Theorem angle_linear : forall a psi, a <> 0%R -> (- (PI / 4) < psi < PI / 4)%R ->
  polarization_angle (SU [linear a psi]) (SQ [linear a psi]) = Some psi.
Proof.
  intros a psi A P. destruct (linear_stokes a psi) as [-> ->].
  assert (C : (0 < cos (2 * psi))%R) by (apply cos_gt_0; lra).
  assert (A2 : (0 < a ^ 2)%R) by (pose proof (Rsqr_pos_lt a A) as K; unfold Rsqr in K; lra).
  unfold polarization_angle. destruct (Req_EM_T _ 0) as [Z|Z]; [nra|].
  f_equal. replace (a ^ 2 * sin (2 * psi) / (a ^ 2 * cos (2 * psi)))%R with (tan (2 * psi)) by (unfold tan; field; lra).
  rewrite atan_tan by lra. field.
Qed.
(** Directions further than 45 degrees from X are reported 90 degrees off. *)
Theorem angle_lost : forall a psi, a <> 0%R -> (PI / 4 < psi < 3 * (PI / 4))%R ->
  polarization_angle (SU [linear a psi]) (SQ [linear a psi]) = Some (psi - PI / 2)%R.
Proof.
  intros a psi A P. destruct (linear_stokes a psi) as [-> ->].
  assert (E1 : cos (2 * psi) = (- cos (2 * (psi - PI / 2)))%R).
  { replace (2 * psi)%R with (2 * (psi - PI / 2) + PI)%R by field. apply neg_cos. }
  assert (E2 : sin (2 * psi) = (- sin (2 * (psi - PI / 2)))%R).
  { replace (2 * psi)%R with (2 * (psi - PI / 2) + PI)%R by field. apply neg_sin. }
  rewrite E1, E2. set (b := (psi - PI / 2)%R) in *.
  assert (C : (0 < cos (2 * b))%R) by (apply cos_gt_0; unfold b; lra).
  assert (A2 : (0 < a ^ 2)%R) by (pose proof (Rsqr_pos_lt a A) as K; unfold Rsqr in K; lra).
  unfold polarization_angle. destruct (Req_EM_T _ 0) as [Z|Z]; [nra|].
  f_equal. replace (a ^ 2 * - sin (2 * b) / (a ^ 2 * - cos (2 * b)))%R with (tan (2 * b)) by (unfold tan; field; lra).
  rewrite atan_tan by (unfold b; lra). field.
Qed.
Theorem angle_diagonal : forall a, a <> 0%R ->
  polarization_angle (SU [linear a (PI / 4)]) (SQ [linear a (PI / 4)]) = Some (PI / 4)%R.
Proof.
  intros a A. destruct (linear_stokes a (PI / 4)) as [-> ->].
  replace (2 * (PI / 4))%R with (PI / 2)%R by field. rewrite cos_PI2, sin_PI2.
  assert (A2 : (0 < a ^ 2)%R) by (pose proof (Rsqr_pos_lt a A) as K; unfold Rsqr in K; lra).
  unfold polarization_angle. destruct (Req_EM_T _ 0) as [Z|Z]; [|lra].
  destruct (Req_EM_T _ 0) as [Z'|Z']; [lra|]. destruct (Rlt_dec _ _); [|lra]. f_equal. field.
Qed.
Theorem angle_unpolarised : forall u q, polarization_angle u q = None <-> u = 0%R /\ q = 0%R.
Proof.
  intros u q. unfold polarization_angle. destruct (Req_EM_T q 0), (Req_EM_T u 0); try destruct (Rlt_dec 0 u);
    split; try discriminate; tauto || (intros []; contradiction).
Qed.

(** ** Recorded data, from the fields to the parameters *)
Theorem recorded_stokes : forall fft0 fft1 lead p es, sh fft0 = lead ++ [2] -> length p = length lead ->
  recorded fft0 fft1 p es -> let d := mat_at (spectra_data_to_matrix fft0 fft1) p in
  sh (spectra_data_to_matrix fft0 fft1) = lead ++ [2; 2] /\ d = coherency es /\ hermitian d /\
  sI d = SI es /\ sQ d = SQ es /\ sU d = SU es /\ sV d = SV es.
Proof.
  intros fft0 fft1 lead p es A B C. destruct (matrix_recorded fft0 fft1 lead p es A B C) as [S D].
  cbv zeta. rewrite D. destruct (stokes_coherency es) as (E1 & E2 & E3 & E4).
  repeat split; try assumption; apply (coherency_hermitian es).
Qed.

(** ** Demonstrations *)
(** A circularly polarised field, followed by one along X. *)
Definition demo_fields : list field := [((1, 0), (0, 1)); ((2, 0), (0, 0))]%R.
Definition demo_fft0 : nd R := mkNd [3; 2] (fun idx => match idx with [_; 0] => 5%R | _ => 1%R end).
Definition demo_fft1 : nd R := mkNd [3; 2] (fun idx => match idx with [_; 0] => 0%R | _ => 1%R end).
Lemma demo_recorded : recorded demo_fft0 demo_fft1 [2] demo_fields.
Proof.
  unfold recorded, demo_fft0, demo_fft1, demo_fields, rec_xx, rec_yy, rec_re, rec_im; cbn [get app total].
  cpx_unfold. repeat split; ring.
Qed.
Lemma demo_stokes : SI demo_fields = 6%R /\ SQ demo_fields = 4%R /\ SU demo_fields = 0%R /\ SV demo_fields = 2%R.
Proof.
  rewrite SI_rec, SQ_rec, SU_rec, SV_rec. destruct demo_recorded as (A & B & C & D).
  rewrite <- A, <- B, <- C, <- D. unfold demo_fft0, demo_fft1; cbn [get app]. repeat split; ring.
Qed.
Lemma demo_spelled : Forall2 (fun s n => In n known_names /\ spelled s n)
  [" v / i "; "q"; "I"]%string ["V/I"; "Q"; "I"]%string.
Proof.
  repeat (apply Forall2_cons; [split; [simpl; tauto|]|]); [..|constructor];
    (apply spelled_iff; [simpl; tauto|reflexivity]).
Qed.
Lemma demo_unknown : forall n, In n known_names -> ~ spelled "I/Q" n.
Proof.
  intros n H K. apply (proj1 (spelled_iff _ n H)) in K. vm_compute in K. subst n.
  simpl in H. decompose [or] H; discriminate || contradiction.
Qed.
