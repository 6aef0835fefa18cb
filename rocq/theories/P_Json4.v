(** The description of a parset: every pointing once, indices, successive readings. *)
From Coq Require Import Ascii String List Arith ZArith QArith Qabs Bool Lia Permutation.
From Verif Require Import Base M_Polar M_Dedisperse M_Pipeline M_Subbands M_PText P_PText M_Parset M_Config P_Config4 M_Json P_Json P_Json2 P_Json3.
Import ListNotations.
Open Scope nat_scope.
Open Scope list_scope.

Lemma first_lt : forall keys k n, first_at keys k n -> k < length keys.
Proof. intros keys k n (H & _). apply nth_error_Some. congruence. Qed.
Lemma filter_all : forall A (f : A -> bool) l, Forall (fun x => f x = true) l -> filter f l = l.
Proof. induction 1 as [|x l X H IH]; [reflexivity|]. cbn. now rewrite X, IH. Qed.
Lemma filter_perm : forall A (f : A -> bool) l, Permutation (filter f l ++ filter (fun x => negb (f x)) l) l.
Proof.
  intros A f. induction l as [|x l IH]; [reflexivity|]. cbn [filter]. destruct (f x); cbn [negb app]; [now constructor|]. symmetry. apply Permutation_cons_app. now symmetry.
Qed.
Lemma filter_filter : forall A (f g : A -> bool) l, (forall x, f x = true -> g x = true) -> filter f (filter g l) = filter f l.
Proof. intros A f g l H. induction l as [|x l IH]; [reflexivity|]. cbn [filter]. destruct (g x) eqn:G; cbn [filter]; rewrite IH; [reflexivity|]. destruct (f x) eqn:F; [rewrite (H x F) in G; discriminate|reflexivity]. Qed.
Lemma perm_buckets : forall ck n s (l : list (nat * pointing (ck := ck))), Forall (fun kg => s <= fst kg < s + n) l ->
  Permutation (concat (map (fun k => of_fov k l) (List.seq s n))) (map snd l).
Proof.
  intros ck. induction n as [|n IH]; intros s l H.
  - destruct l as [|x l]; [reflexivity|]. inversion H; subst. lia.
  - cbn [List.seq map concat]. set (rest := filter (fun kg => negb (fst kg =? s)) l).
    assert (E : map (fun k => of_fov k l) (List.seq (S s) n) = map (fun k => of_fov k rest) (List.seq (S s) n)).
    { apply map_ext_in. intros k K. apply in_seq in K. unfold of_fov, rest. rewrite filter_filter; [reflexivity|]. intros x X. apply Nat.eqb_eq in X. apply negb_true_iff, Nat.eqb_neq. lia. }
    rewrite E. rewrite (IH (S s) rest).
    + unfold of_fov, rest. rewrite <- map_app. apply Permutation_map, filter_perm.
    + apply Forall_forall. intros x X. apply filter_In in X as (X & N). apply negb_true_iff, Nat.eqb_neq in N. rewrite Forall_forall in H. specialize (H x X). lia.
Qed.
Lemma map_nth_seq : forall A B (g : A -> B) (h : nat -> B) l s, (forall k x, nth_error l k = Some x -> g x = h (s + k)) -> map g l = map h (List.seq s (length l)).
Proof.
  intros A B g h. induction l as [|x l IH]; intros s H; [reflexivity|]. cbn [map length List.seq]. f_equal; [rewrite (H 0 x eq_refl); f_equal; lia|]. apply IH. intros k y K. rewrite (H (S k) y K). f_equal. lia.
Qed.

Section Entries.
Context {ck : clock}.
Variable W : world ck.
Notation property := (M_Parset.property ck).
Notation pointing := (M_Json.pointing (ck := ck)).
Notation fov := (M_Json.fov (ck := ck)).

(** All the pointings of a description. *)
Definition all_pointings (fovs : list fov) : list pointing := concat (map (@f_pointings ck) fovs).

Theorem every_once : forall p v beams centers xst extra fovs, described W p v beams centers xst extra fovs ->
  Permutation (all_pointings fovs) (map snd (beams ++ centers ++ xst ++ extra)).
Proof.
  intros p v beams centers xst extra fovs (B & C0 & C1 & X0 & X1 & E0 & E1 & E2 & L & F).
  assert (AX : asks_xst (p_output ck p) \/ ~ asks_xst (p_output ck p)) by (destruct (xst_used (p_output ck p)) eqn:U; [left; now apply xst_used_spec|right; intro A; apply xst_used_spec in A; congruence]).
  assert (AB : before_1 v \/ ~ before_1 v) by (destruct (old_version v) eqn:U; [left; now apply old_spec|right; intro A; apply old_spec in A; congruence]).
  set (n := length (p_anabeams ck p)) in *.
  assert (MADE : forall l r (f : Z * property -> Z), Forall2 (fun b => made W (map fst (p_anabeams ck p)) (p_output ck p) v (f b) (snd b)) l r -> Forall (fun kg => fst kg < n) r).
  { intros l r f H. apply Forall_forall. intros kg I. destruct (forall2_one _ _ _ _ _ H kg I) as (b & _ & (_ & _ & _ & _ & _ & _ & m & _ & FA)). apply first_lt in FA. rewrite map_length in FA. exact FA. }
  assert (R : Forall (fun kg => fst kg < n) (beams ++ centers ++ xst ++ extra)).
  { apply Forall_app. split; [exact (MADE _ _ _ B)|]. apply Forall_app. split; [destruct AB as [AB|AB]; [rewrite (C0 AB); constructor|exact (MADE _ _ _ (C1 AB))]|]. apply Forall_app. split.
    - destruct AX as [AX|AX]; [|rewrite (X0 AX); constructor]. destruct (X1 AX) as (XL & XM). apply Forall_forall. intros kg I. apply In_nth_error in I as (i & I). destruct (XM i kg I) as (-> & _). rewrite <- XL. apply nth_error_Some. congruence.
    - destruct extra as [|kg [|kg2 extra]]; [constructor| |].
      + assert (B1 : before_1 v /\ nickel_named (p_output ck p)).
        { destruct AB as [AB|AB]; [|exfalso; discriminate (E0 (fun h => AB (proj1 h)))]. split; [exact AB|]. destruct (nickel_used (p_output ck p)) as [[]|e] eqn:NU; [now apply nickel_used_inv| |]; exfalso; (assert (X : [kg] = []); [|discriminate]); apply E0; intros (_ & NN); apply nickel_used_inv in NN; congruence. }
        destruct B1 as (B1 & NN). assert (T : ~ Exists (says_tbd) (p_digibeams ck p)) by (intro T; discriminate (E1 B1 NN T)). destruct (E2 B1 NN T) as (a & kg' & A & EQ & NM). injection EQ as <-. constructor; [|constructor]. destruct NM as (-> & _). unfold n. destruct (p_anabeams ck p); [discriminate|cbn; lia].
      + exfalso. assert (NE : before_1 v /\ nickel_named (p_output ck p) -> False).
        { intros (B1 & NN). assert (T : ~ Exists (says_tbd) (p_digibeams ck p)) by (intro T; discriminate (E1 B1 NN T)). destruct (E2 B1 NN T) as (a & kg' & A & EQ & NM). discriminate. }
        specialize (E0 NE). discriminate. }
  assert (EQ : map (@f_pointings ck) fovs = map (fun k => of_fov k (beams ++ centers ++ xst ++ extra)) (List.seq 0 (length fovs))).
  { apply map_nth_seq. intros k f N. destruct (F k f N) as (b & _ & _ & ->). cbn [Nat.add]. now rewrite <- !app_assoc. }
  unfold all_pointings. rewrite EQ, L. apply perm_buckets. apply Forall_forall. intros x I. rewrite Forall_forall in R. specialize (R x I). lia.
Qed.

(** Keys numbered from zero. *)
Definition numbered (l : list (Z * property)) : Prop := map fst l = map Z.of_nat (List.seq 0 (length l)).
Lemma made_indices : forall keys o v (f : Z * property -> Z) l r, Forall2 (fun b => made W keys o v (f b) (snd b)) l r -> map (fun kg => g_idx (snd kg)) r = map f l.
Proof. intros keys o v f l r H. apply forall2_map. apply (forall2_imp _ _ _ _ _ _ (fun b kg (X : made W keys o v (f b) (snd b) kg) => proj1 X)). exact H. Qed.
Lemma seq_z_app : forall a b, map Z.of_nat (List.seq 0 (a + b)) = map Z.of_nat (List.seq 0 a) ++ map (fun i => Z.of_nat (a + i)) (List.seq 0 b).
Proof. intros a b. rewrite seq_app, map_app. f_equal. cbn [Nat.add]. rewrite <- (map_map (fun i => a + i) Z.of_nat). f_equal. clear. revert a. induction b as [|b IH]; intro a; [reflexivity|]. cbn [List.seq map]. rewrite Nat.add_0_r. f_equal. rewrite (IH (S a)). rewrite <- seq_shift, map_map. apply map_ext. intro i. lia. Qed.
Lemma last_numbered : forall l : list (Z * property), numbered l -> l <> [] -> last (map fst l) 0%Z = Z.of_nat (length l - 1).
Proof.
  intros l N NE. rewrite N. destruct l as [|x l']; [congruence|]. cbn [length]. rewrite seq_S, map_app. cbn [map]. rewrite last_last. f_equal. lia.
Qed.
Lemma xst_indices : forall o fovs first xst, (forall i kg, nth_error xst i = Some kg -> xst_made W o fovs first i kg) ->
  map (fun kg => g_idx (snd kg)) xst = map (fun i => Z.of_nat (first + i)) (List.seq 0 (length xst)).
Proof. intros o fovs first xst H. apply map_nth_seq. intros k kg K. destruct (H k kg K) as (_ & -> & _). f_equal. Qed.

(** Beams and phase centers numbered from zero give consecutive indices. *)
Theorem indices_spec : forall p m fovs, to_json W p = Ok (m, fovs) -> numbered (p_digibeams ck p) -> numbered (p_centers ck p) -> p_digibeams ck p <> [] ->
  exists n, Permutation (map g_idx (all_pointings fovs)) (map Z.of_nat (List.seq 0 n)).
Proof.
  intros p m fovs H ND NC NE. destruct (to_json_spec W p m fovs H) as (v & beams & centers & xst & extra & V & _ & D). assert (PE := every_once _ _ _ _ _ _ _ D).
  destruct D as (B & C0 & C1 & X0 & X1 & E0 & E1 & E2 & L & F). exists (length beams + length centers + length xst + length extra).
  rewrite (Permutation_map g_idx PE), map_map, !map_app. apply Permutation_refl'. rewrite !app_assoc.
  assert (IB : map (fun kg : nat * pointing => g_idx (snd kg)) beams = map Z.of_nat (List.seq 0 (length beams))) by (rewrite (made_indices _ _ _ _ _ _ B), ND; f_equal; f_equal; exact (forall2_len _ _ _ _ _ B)).
  assert (LB := forall2_len _ _ _ _ _ B).
  assert (IC : map (fun kg : nat * pointing => g_idx (snd kg)) centers = map (fun i => Z.of_nat (length beams + i)) (List.seq 0 (length centers))).
  { destruct (old_version v) eqn:OV; [rewrite (C0 (proj1 (old_spec v) OV)); reflexivity|]. assert (NB : ~ before_1 v) by (intro X; apply old_spec in X; congruence). specialize (C1 NB).
    rewrite (made_indices _ _ _ _ _ _ C1). rewrite <- (forall2_len _ _ _ _ _ C1). rewrite (last_numbered _ ND NE). rewrite <- (map_map fst (fun z => z + Z.of_nat (length (p_digibeams ck p) - 1) + 1)%Z). rewrite NC, map_map. apply map_ext. intro i. destruct (p_digibeams ck p) as [|x l]; [congruence|]. rewrite <- LB. cbn [length]. lia. }
  assert (IX : map (fun kg : nat * pointing => g_idx (snd kg)) xst = map (fun i => Z.of_nat (length beams + length centers + i)) (List.seq 0 (length xst))).
  { destruct (xst_used (p_output ck p)) eqn:U; [|rewrite X0; [reflexivity|intro A; apply xst_used_spec in A; congruence]]. apply xst_used_spec in U. destruct (X1 U) as (_ & XM). rewrite (xst_indices _ _ _ _ XM), app_length. reflexivity. }
  assert (IE : map (fun kg : nat * pointing => g_idx (snd kg)) extra = map (fun i => Z.of_nat (length beams + length centers + length xst + i)) (List.seq 0 (length extra))).
  { destruct (old_version v) eqn:OV; [|rewrite E0; [reflexivity|intros (X & _); apply old_spec in X; congruence]]. apply old_spec in OV.
    destruct (nickel_used (p_output ck p)) as [[]|e] eqn:NU; [apply nickel_used_inv in NU| |]; [|rewrite E0; [reflexivity|intros (_ & X); apply nickel_used_inv in X; congruence]..].
    destruct (Exists_dec says_tbd (p_digibeams ck p)) as [T|T]; [|rewrite (E1 OV NU T); reflexivity|].
    - intro b. unfold says_tbd, holds. destruct (dict_get String.eqb "toDo"%string (snd b)) as [[z|s|bo|t|a|l]|]; try (right; discriminate). destruct (string_dec s "TBD") as [->|N]; [now left|right; congruence].
    - destruct (E2 OV NU T) as (a & kg & _ & -> & (_ & I & _)). cbn [map length List.seq]. rewrite I, !app_length. f_equal. f_equal. lia. }
  rewrite IB, IC, IX, IE. rewrite !seq_z_app, <- !app_assoc. reflexivity.
Qed.
(** Without numerical beam the phase centers are numbered from one, and the first correlation shares the last of their indices. *)
Theorem indices_refuted : forall p m fovs v, to_json W p = Ok (m, fovs) -> version_of (p_observation ck p) = Ok v -> ~ before_1 v -> p_digibeams ck p = [] -> numbered (p_centers ck p) ->
  p_centers ck p <> [] -> asks_xst (p_output ck p) -> p_anabeams ck p <> [] -> ~ NoDup (map g_idx (all_pointings fovs)).
Proof.
  intros p m fovs v H V NB ND NC NE AX NA U. destruct (to_json_spec W p m fovs H) as (v' & beams & centers & xst & extra & V' & _ & D). assert (v' = v) by congruence. subst v'. assert (PE := every_once _ _ _ _ _ _ _ D).
  destruct D as (B & C0 & C1 & X0 & X1 & E0 & E1 & E2 & L & F). specialize (C1 NB). rewrite ND in B, C1. inversion B; subst. cbn [map last app] in *. destruct (X1 AX) as (XL & XM).
  assert (IC := made_indices _ _ _ _ _ _ C1). assert (LC := forall2_len _ _ _ _ _ C1).
  apply (Permutation_NoDup (Permutation_map g_idx PE)) in U. rewrite map_map, !map_app in U. rewrite IC in U.
  destruct xst as [|x xst]; [destruct (p_anabeams ck p); [congruence|discriminate]|]. destruct (XM 0 x eq_refl) as (_ & XI & _). cbn [map app] in U. rewrite XI in U. apply NoDup_remove_2 in U. apply U. apply in_or_app. left. rewrite <- (map_map fst (fun z => z + 0 + 1)%Z), NC, map_map. apply in_map_iff. exists (length centers - 1). split; [|apply in_seq].
  - rewrite <- LC. destruct (p_centers ck p); [congruence|]. cbn [length]. lia.
  - rewrite <- LC. destruct (p_centers ck p); [congruence|]. cbn [length]. lia.
Qed.

(** Reading the description again repeats every pointing. *)
Theorem data_again_refuted : forall p e, to_entry W p = Ok e ->
  let '(m, fovs, e') := data_of e in let '(m', fovs', _) := data_of e' in
  m' = m /\ length fovs' = length fovs /\ forall k f, nth_error fovs k = Some f -> exists f', nth_error fovs' k = Some f' /\ f_idx f' = f_idx f /\ f_pointings f' = f_pointings f ++ f_pointings f.
Proof.
  intros p e H. assert (T : exists m fovs, to_json W p = Ok (m, fovs)) by (unfold to_json; rewrite H; cbn [bind data_of fst]; eauto). destruct T as (m & fovs & T). assert (T' := T). unfold to_json in T'. rewrite H in T'. cbn [bind] in T'. injection T' as T1 T2.
  unfold data_of. cbn [e_meta e_fovs e_pointings]. rewrite T2. split; [reflexivity|]. destruct (distribute (e_pointings e) fovs) as (A & B). split; [exact A|]. intros k f K. rewrite B, K. cbn [option_map]. eexists. split; [reflexivity|]. split; [reflexivity|]. cbn [f_pointings with_pointings]. f_equal.
  destruct (distribute (e_pointings e) (e_fovs e)) as (A' & B'). rewrite T2 in B'. specialize (B' k). rewrite K in B'. destruct (nth_error (e_fovs e) k) as [f0|] eqn:E0; [|discriminate]. injection B' as ->. cbn [f_pointings with_pointings].
  assert (Z : f_pointings f0 = []); [|rewrite Z; reflexivity]. clear -H E0. unfold to_entry in H. do 2 (apply bind_ok in H as (? & _ & H)). apply bind_ok in H as (fs & FS & H). do 4 (apply bind_ok in H as (? & _ & H)). unfold remove_unused in H. apply bind_ok in H as (kept & KE & H). injection H as <-. cbn [e_fovs] in *. apply map_res_ok in FS, KE.
  destruct (forall2_nth _ _ _ _ _ KE k f0 E0) as (f & F1 & F2). destruct (forall2_nth _ _ _ _ _ FS k f F1) as ((i & q) & B1 & B2). now destruct (fov_inv W i q f f0 B2 F2) as (_ & P0 & _).
Qed.

(** Remote mini-arrays are always removed, whatever the receivers. *)
Theorem remote_removed : forall p m fovs f, to_json W p = Ok (m, fovs) -> In f fovs -> Forall (fun x => exists n, x = IInt ck n /\ (n <= 96)%Z) (f_mas f).
Proof.
  intros p m fovs f H I. destruct (to_json_spec W p m fovs H) as (v & beams & centers & xst & extra & _ & _ & D). destruct D as (_ & _ & _ & _ & _ & _ & _ & _ & _ & F). apply In_nth_error in I as (k & I). destruct (F k f I) as (b & _ & M & _).
  destruct M as (_ & _ & _ & _ & _ & _ & (n & _ & ->) & _). apply Forall_forall. intros x X. apply in_map_iff in X as (z & <- & Z). apply filter_In in Z as (_ & Z). exists z. split; [reflexivity|]. now apply Z.leb_le.
Qed.

(** ** Versions and metadata *)
Theorem version_spec : forall (o : property) v, version_of o = Ok v <->
  lacks o "parsetVersion" /\ v = [0%Z] \/ holds o "parsetVersion" (PStr ck "") /\ v = [1; 0]%Z \/
  exists s, s <> ""%string /\ holds o "parsetVersion" (PStr ck s) /\ Forall2 (fun part n => py_int part = Some n) (split_char "." s) v.
Proof.
  intros o v. unfold version_of, lacks, holds. assert (IO : forall l r, ints_of l = Ok r <-> Forall2 (fun part n => py_int part = Some n) l r).
  { induction l as [|s l IH]; intro r; cbn [ints_of]; [split; [intro H; injection H as <-; constructor|intro H; now inversion H]|]. split.
    - destruct (py_int s) as [n|] eqn:P; [|discriminate]. intro H. apply bind_ok in H as (q & Q & H). injection H as <-. constructor; [exact P|now apply IH].
    - intro H. inversion H as [|? n ? q P Q]; subst. rewrite P. apply IH in Q. rewrite Q. reflexivity. }
  destruct (dict_get String.eqb "parsetVersion"%string o) as [w|]; [|split; [intro H; injection H as <-; now left|intros [(_ & ->)|[(H & _)|(s & _ & H & _)]]; [reflexivity|discriminate|discriminate]]].
  split.
  - destruct w as [n|s|b|t|a|l]; try discriminate. destruct (String.eqb_spec s "") as [->|N]; intro H; [injection H as <-; right; now left|]. right. right. exists s. split; [exact N|]. split; [reflexivity|now apply IO].
  - intros [(H & _)|[(H & ->)|(s & N & H & F)]]; [discriminate|injection H as ->; reflexivity|]. injection H as ->. destruct (String.eqb_spec s "") as [E|_]; [contradiction|now apply IO].
Qed.
Theorem version_refused : forall (p : parset ck) w, holds (p_observation ck p) "parsetVersion" w -> (forall s, w <> PStr ck s) -> to_json W p = Err EAttributeError.
Proof. intros p w H N. unfold to_json, to_entry, version_of. unfold holds in H. rewrite H. destruct w; try reflexivity. now elim (N s). Qed.

Definition upto (top : Z) (d : string) : Prop := (String.length d = 1 \/ String.length d = 2) /\ all_digits d = true /\ (digits_value 0 d <= top)%Z.
Definition topic_code (c : string) : Prop :=
  (exists d, c = ("ES" ++ d)%string /\ upto 17 d) \/ (exists d, c = ("LT" ++ d)%string /\ upto 13 d /\ d <> "08"%string) \/
  (exists d u, c = ("RP" ++ d ++ String u "")%string /\ isdigit d = true /\ is_upper u = true) \/ c = "SP16"%string \/ c = "SP17"%string.
Definition plain_word (s : string) : Prop := forall i c, String.get i s = Some c -> is_word c = true.
Definition topic_of (s : string) (t : string * string) : Prop := s = (fst t ++ " " ++ snd t)%string /\ topic_code (fst t) /\ snd t <> ""%string /\ plain_word (snd t).
Lemma digit_range : forall a, is_digit a = true <-> 48 <= nat_of_ascii a <= 57.
Proof. intro a. unfold is_digit. rewrite andb_true_iff, !Nat.leb_le. tauto. Qed.
Lemma eqb_nat : forall a b, Ascii.eqb a b = true <-> nat_of_ascii a = nat_of_ascii b.
Proof. intros a b. rewrite Ascii.eqb_eq. split; [now intros ->|]. intro H. rewrite <- (ascii_nat_embedding a), <- (ascii_nat_embedding b). now f_equal. Qed.
Lemma two_digits_spec : forall c d, is_digit c = true -> two_digits c d = true <-> upto (10 + Z.of_nat (nat_of_ascii c - 48)) d.
Proof.
  intros c d C. apply digit_range in C. unfold upto. destruct d as [|a [|b [|x d]]]; cbn [two_digits String.length all_digits digits_value].
  - split; [discriminate|intros ([H|H] & _); discriminate].
  - rewrite andb_true_r. split.
    + intro A. split; [now left|]. split; [exact A|]. apply digit_range in A. lia.
    + now intros (_ & A & _).
  - rewrite andb_true_r, orb_true_iff, !andb_true_iff, !eqb_nat, Nat.leb_le, !digit_range. change (nat_of_ascii "0") with 48. change (nat_of_ascii "1") with 49. split.
    + intro H. split; [now right|]. lia.
    + intros (_ & (A & B) & V). lia.
  - split; [discriminate|]. intros ([H|H] & _); discriminate.
Qed.
Lemma digits_upper_spec : forall s, digits_upper s = true <-> exists d u, s = (d ++ String u "")%string /\ isdigit d = true /\ is_upper u = true.
Proof.
  assert (K : forall s, digits_upper s = true -> exists d u, s = (d ++ String u "")%string /\ isdigit d = true /\ is_upper u = true).
  { induction s as [|a s IH]; [discriminate|]. intro H. destruct s as [|b s]; [cbn in H; rewrite andb_false_r in H; discriminate|]. destruct s as [|x s].
    - cbn in H. apply andb_true_iff in H as (A & B). exists (String a ""), b. split; [reflexivity|]. split; [cbn; now rewrite A|exact B].
    - change (is_digit a && digits_upper (String b (String x s)) = true) in H. apply andb_true_iff in H as (A & H). destruct (IH H) as (d & u & E & D & U). exists (String a d), u. split; [cbn; now rewrite E|]. split; [cbn; rewrite A; destruct d; [reflexivity|exact D]|exact U]. }
  intro s. split; [apply K|]. intros (d & u & -> & D & U). destruct d as [|a d]; [discriminate|]. cbn [isdigit all_digits] in D. apply andb_true_iff in D as (A & D). revert a A D. induction d as [|b d IH]; intros a A D; [cbn; now rewrite A|].
  cbn [all_digits] in D. apply andb_true_iff in D as (B & D). specialize (IH b B D). cbn [append] in *. change (is_digit a && digits_upper (String b (d ++ String u "")) = true) in |- * || idtac. destruct d as [|e d]; cbn in *; rewrite A; cbn; exact IH.
Qed.
Lemma is_code_spec : forall c, is_code c = true <-> topic_code c.
Proof.
  intro c. unfold topic_code. split.
  - intro H. destruct c as [|a [|b r]]; try discriminate; [repeat (destruct a as [[] [] [] [] [] [] [] []]; try discriminate)|].
    assert (E : (exists x, String a (String b r) = ("ES" ++ x)%string) \/ (exists x, String a (String b r) = ("LT" ++ x)%string) \/ (exists x, String a (String b r) = ("RP" ++ x)%string) \/ (exists x, String a (String b r) = ("SP" ++ x)%string)).
    { destruct a as [[] [] [] [] [] [] [] []]; try discriminate H; destruct b as [[] [] [] [] [] [] [] []]; try discriminate H; [..]; cbn; eauto 10. }
    destruct E as [(x & E)|[(x & E)|[(x & E)|(x & E)]]]; rewrite E in *; cbn [append is_code] in H.
    + left. exists x. split; [reflexivity|]. exact (proj1 (two_digits_spec "7" x eq_refl) H).
    + apply andb_true_iff in H as (P & H). right. left. exists x. split; [reflexivity|]. split; [exact (proj1 (two_digits_spec "3" x eq_refl) H)|]. intros ->. discriminate.
    + right. right. left. apply digits_upper_spec in H as (d & u & -> & D & U). exists d, u. now repeat split.
    + apply orb_true_iff in H as [H|H]; apply String.eqb_eq in H; subst x; cbn; auto.
  - intros [(d & -> & U)|[(d & -> & U & N)|[(d & u & -> & D & U)|[->| ->]]]]; try reflexivity; cbn [append is_code].
    + exact (proj2 (two_digits_spec "7" d eq_refl) U).
    + assert (X := proj2 (two_digits_spec "3" d eq_refl) U). change (negb (String.prefix "08" d) && two_digits "3" d = true). rewrite X, andb_true_r. apply negb_true_iff. destruct (String.prefix "08" d) eqn:P; [|reflexivity]. elim N. destruct U as (L & _). destruct d as [|a [|b [|x d]]]; [discriminate P|cbn [String.prefix] in P; destruct (ascii_dec "0" a); discriminate P| |cbn in L; lia].
      cbn [String.prefix] in P. destruct (ascii_dec "0" a) as [<-|]; [|discriminate P]. destruct (ascii_dec "8" b) as [<-|]; [reflexivity|discriminate P].
    + apply digits_upper_spec. exists d, u. now repeat split.
Qed.
Lemma all_word_spec : forall s, all_word s = true <-> plain_word s.
Proof.
  induction s as [|a s IH]; [split; [intros _ i c; destruct i; discriminate|reflexivity]|]. cbn [all_word]. rewrite andb_true_iff, IH. split.
  - intros (A & S) [|i] c G; [now injection G as <-|exact (S i c G)].
  - intro H. split; [exact (H 0 a eq_refl)|]. intros i c G. exact (H (S i) c G).
Qed.
Lemma split_once_some : forall c s a b, split_once c s = Some (a, b) -> s = (a ++ String c b)%string /\ without c a.
Proof.
  intros c. induction s as [|x s IH]; intros a b H; [discriminate|]. cbn [split_once] in H. destruct (Ascii.eqb x c) eqn:E.
  - injection H as <- <-. apply Ascii.eqb_eq in E. subst. now split.
  - destruct (split_once c s) as [(h, t)|]; [|discriminate]. injection H as <- <-. destruct (IH h t eq_refl) as (-> & N). split; [reflexivity|]. unfold without. cbn. now rewrite E.
Qed.
Lemma word_without : forall c s, is_word c = false -> all_word s = true -> without c s.
Proof. intros c s C. induction s as [|a s IH]; [reflexivity|]. cbn [all_word]. intro H. apply andb_true_iff in H as (A & H). apply without_cons. split; [intros ->; congruence|auto]. Qed.
Lemma digits_word : forall s, all_digits s = true -> all_word s = true.
Proof. induction s as [|a s IH]; [reflexivity|]. cbn. intro H. apply andb_true_iff in H as (A & H). unfold is_word. now rewrite A, (IH H). Qed.
Lemma all_word_app : forall a b, all_word (a ++ b) = all_word a && all_word b.
Proof. induction a as [|x a IH]; intro b; cbn; [reflexivity|]. now rewrite IH, andb_assoc. Qed.
Lemma code_word : forall c, topic_code c -> all_word c = true.
Proof.
  intros c [(d & -> & (_ & U & _))|[(d & -> & (_ & U & _) & _)|[(d & u & -> & D & U)|[->| ->]]]]; try reflexivity; rewrite !all_word_app.
  - now rewrite (digits_word d U).
  - now rewrite (digits_word d U).
  - rewrite (digits_word d); [|destruct d; [discriminate|exact D]]. change (all_word "RP") with true. cbn [andb all_word]. unfold is_word. rewrite U, orb_true_r. reflexivity.
Qed.
Theorem topic_spec : forall s t, match_topic s = Some t <-> topic_of s t.
Proof.
  intros s (c, n). unfold match_topic, topic_of. cbn [fst snd]. split.
  - destruct (split_once " " s) as [(a, b)|] eqn:E; [|discriminate]. intro H. destruct (is_code a && negb (String.eqb b "") && all_word b) eqn:Q; [|discriminate]. injection H as <- <-. apply andb_true_iff in Q as (Q & A3). apply andb_true_iff in Q as (A1 & A2).
    apply split_once_some in E as (-> & _). split; [reflexivity|]. split; [now apply is_code_spec|]. split; [|now apply all_word_spec]. intros ->. discriminate.
  - intros (-> & C & N & P). change (" " ++ n)%string with (String " " n). rewrite split_once_app; [|apply word_without; [reflexivity|now apply code_word]]. rewrite (proj2 (is_code_spec c) C), (proj2 (all_word_spec n) P). destruct (String.eqb_spec n "") as [E|_]; [contradiction|reflexivity].
Qed.
Theorem metadata_spec : forall (o : property) a b, holds o "startTime" (PTime ck a) -> holds o "stopTime" (PTime ck b) -> (forall v, holds o "topic" v -> exists s, v = PStr ck s) ->
  exists m, metadata_of W o = Ok m /\ m_start m = a /\ m_stop m = b /\ (Qabs (m_duration m - w_sub ck W b a) <= 1 # 2000)%Q /\ (exists n, m_duration m * 1000 == inject_Z n)%Q /\
    m_title m = dict_get String.eqb "title"%string o /\ m_contact m = dict_get String.eqb "contactName"%string o /\ m_name m = dict_get String.eqb "name"%string o /\
    ((exists s, holds o "topic" (PStr ck s) /\ topic_of s (m_topic m)) \/ (~ (exists s t, holds o "topic" (PStr ck s) /\ topic_of s t)) /\ m_topic m = ("LT00", "DEBUG")%string).
Proof.
  intros o a b A B T. unfold metadata_of. apply get_holds in A. apply get_holds in B. rewrite A, B. cbn [bind date_of].
  assert (R : (Qabs (round3 (w_sub ck W b a) - w_sub ck W b a) <= 1 # 2000)%Q /\ exists n, (round3 (w_sub ck W b a) * 1000 == inject_Z n)%Q).
  { assert (D : w_delta ck (mkWorld ck (w_deg ck W) (fun _ => Ok (w_sub ck W b a)) (w_add ck W) (w_sub ck W) (w_icrs ck W) (w_altaz ck W) (w_solar ck W) (w_float ck W)) (PInt ck 0) = Ok (w_sub ck W b a)) by reflexivity.
    destruct (time_spec (mkWorld ck (w_deg ck W) (fun _ => Ok (w_sub ck W b a)) (w_add ck W) (w_sub ck W) (w_icrs ck W) (w_altaz ck W) (w_solar ck W) (w_float ck W)) [("duration"%string, PInt ck 0); ("startTime"%string, PTime ck a)] a (w_sub ck W b a)) as (s & S & _ & _ & X & Y).
    - unfold lasting, holds. cbn. split; [reflexivity|]. now exists (PInt ck 0).
    - unfold time_of, times_of in S. cbn in S. injection S as <-. cbn [t_duration] in X, Y. now split. }
  destruct R as (R1 & R2). unfold holds in *. destruct (dict_get String.eqb "topic"%string o) as [v|] eqn:TO.
  - destruct (T v eq_refl) as (s & ->). cbn [bind]. eexists. split; [reflexivity|]. cbn [m_start m_stop m_duration m_title m_contact m_name m_topic]. do 2 (split; [reflexivity|]). split; [exact R1|]. split; [exact R2|]. do 3 (split; [reflexivity|]). destruct (match_topic s) as [t|] eqn:M.
    + left. exists s. split; [reflexivity|]. now apply topic_spec.
    + right. split; [|reflexivity]. intros (s' & t & E & X). injection E as <-. apply topic_spec in X. congruence.
  - cbn [bind]. eexists. split; [reflexivity|]. cbn [m_start m_stop m_duration m_title m_contact m_name m_topic]. do 2 (split; [reflexivity|]). split; [exact R1|]. split; [exact R2|]. do 3 (split; [reflexivity|]). right. split; [|reflexivity]. intros (s' & t & E & X). discriminate.
Qed.
End Entries.
