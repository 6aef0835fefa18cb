(** Lane files: names, axes, beams and Stokes parameters. *)
From Coq Require Import ZArith QArith Qround Reals Lra Lqa Psatz Ascii String Bool List Arith Lia Sorted.
From Verif Require Import Base M_Cond M_Nd P_Nd M_Rebin P_Rebin M_Polar P_Polar M_TFArray P_TFArray P_TFArray2 M_Select M_Lane.
Import ListNotations.
Open Scope nat_scope.
Open Scope list_scope.

(** ** Names *)

(** A lane name: anything, an underscore, one digit, one character (a dot is
    meant), "spectra", and possibly a last line feed. *)
Definition lane_name (name : string) (d : nat) : Prop :=
  exists base c any tail, d < 10 /\ c = ascii_of_nat (48 + d) /\ any <> ascii_of_nat 10 /\
    (tail = ""%string \/ tail = String (ascii_of_nat 10) "") /\
    name = (base ++ String "_" (String c (String any ("spectra" ++ tail))))%string.

Lemma digit_iff : forall c, is_digit c = true <-> exists d, d < 10 /\ c = ascii_of_nat (48 + d) /\ digit_value c = d.
Proof.
  intros c. split.
  - intros H. exists (digit_value c). unfold is_digit in H. apply andb_true_iff in H. destruct H as [A B].
    apply Nat.leb_le in A, B. unfold digit_value. split; [lia|]. split; [|reflexivity].
    replace (48 + (nat_of_ascii c - 48)) with (nat_of_ascii c) by lia. symmetry. apply ascii_nat_embedding.
  - intros (d & D & -> & E). unfold is_digit. rewrite nat_ascii_embedding by lia.
    apply andb_true_iff. split; apply Nat.leb_le; lia.
Qed.

Lemma match_here_iff : forall s d, match_here s = Some d <->
  exists c any tail, d < 10 /\ c = ascii_of_nat (48 + d) /\ any <> ascii_of_nat 10 /\
    (tail = ""%string \/ tail = String (ascii_of_nat 10) "") /\ s = String "_" (String c (String any ("spectra" ++ tail)%string)).
Proof.
  intros s d. split.
  - destruct s as [|u [|c [|any rest]]]; cbn [match_here]; try discriminate. intros H.
    destruct (Ascii.eqb_spec u "_") as [->|]; cbn [andb] in H; [|discriminate].
    destruct (is_digit c) eqn:D; cbn [andb] in H; [|discriminate].
    destruct (Ascii.eqb_spec any line_feed) as [|A]; cbn [andb negb] in H; [discriminate|].
    apply digit_iff in D. destruct D as (k & K & -> & V).
    rewrite V in H. destruct (String.eqb_spec rest "spectra") as [->|N]; cbn [orb] in H.
    + injection H as <-. exists (ascii_of_nat (48 + k)), any, ""%string.
      repeat (split; [assumption || reflexivity || (now left)|]). reflexivity.
    + destruct (String.eqb_spec rest (String.append "spectra" (String line_feed ""))) as [->|N']; [|discriminate].
      injection H as <-. exists (ascii_of_nat (48 + k)), any, (String (ascii_of_nat 10) "").
      repeat (split; [assumption || reflexivity || (now right)|]). reflexivity.
  - intros (c & any & tail & D & C & A & T & ->). cbn [match_here].
    assert (DG : is_digit c = true /\ digit_value c = d).
    { split; [apply digit_iff; exists d; split; [exact D|]; split; [exact C|]|]; subst c; unfold digit_value; rewrite nat_ascii_embedding by lia; lia. }
    destruct DG as (G & V). rewrite G, V.
    change (Ascii.eqb "_" "_") with true. cbn [andb].
    destruct (Ascii.eqb_spec any line_feed) as [E|_]; [unfold line_feed in E; congruence|]. cbn [andb negb].
    destruct T as [-> | ->]; reflexivity.
Qed.

Lemma append_len : forall a b, String.length (a ++ b)%string = String.length a + String.length b.
Proof. induction a as [|c a IH]; intros b; [reflexivity|]. cbn. now rewrite IH. Qed.
(** No match starts inside another one: the tail of a match holds no underscore. *)
Lemma findall_iff : forall s d, findall s = [d] <-> lane_name s d.
Proof.
  induction s as [|a s IH]; intros d.
  - split; [discriminate|]. intros (base & c & any & tail & _ & _ & _ & _ & E). destruct base; discriminate.
  - cbn [findall]. destruct (match_here (String a s)) as [e|] eqn:M.
    + pose proof (proj1 (match_here_iff _ _) M) as (c & any & tail & D & C & A & T & E). split.
      * intros H. injection H as <-. exists ""%string, c, any, tail. auto.
      * intros (base & c' & any' & tail' & D' & C' & A' & T' & E'). rewrite E in E'.
        assert (L : String.length tail <= 1 /\ String.length tail' <= 1) by (destruct T as [-> | ->], T' as [-> | ->]; cbn; lia).
        (* a longer prefix would put the underscore inside the tail of the match *)
        destruct base as [|b0 base].
        { cbn [String.append] in E'. injection E' as E1 _ _. subst c c'. f_equal.
          apply f_equal with (f := nat_of_ascii) in E1. rewrite !nat_ascii_embedding in E1 by lia. lia. }
        exfalso. pose proof (f_equal String.length E') as LE. cbn [String.append] in E'. injection E' as E0 E1.
        destruct base as [|b1 base]; [cbn [String.append] in E1; injection E1 as E2 _; subst c; do 10 (destruct e as [|e]; [discriminate|]); lia|].
        cbn [String.append String.length] in LE. rewrite append_len in LE. cbn [String.length String.append] in LE. lia.
    + rewrite IH. split.
      * intros (base & c & any & tail & H). exists (String a base), c, any, tail. destruct H as (H1 & H2 & H3 & H4 & H5).
        repeat (split; [assumption|]). cbn [String.append]. now f_equal.
      * intros (base & c & any & tail & D & C & A & T & E). destruct base as [|b base].
        { exfalso. assert (match_here (String a s) = Some d) by (apply match_here_iff; exists c, any, tail; auto). congruence. }
        cbn [String.append] in E. injection E as _ E. exists base, c, any, tail. auto.
Qed.
Lemma findall_short : forall s, findall s = [] \/ exists d, findall s = [d].
Proof.
  induction s as [|a s IH]; [now left|]. cbn [findall]. destruct (match_here (String a s)); [right; eauto|exact IH].
Qed.

Theorem name_accepted : forall found name d, lane_index found name = Ok d <-> found = true /\ lane_name name d.
Proof.
  intros found name d. unfold lane_index. destruct found; cbn [negb].
  - rewrite <- findall_iff. destruct (findall_short name) as [-> | (e & ->)].
    + split; [discriminate|]. intros (_ & H). discriminate.
    + split; [intros H; injection H as ->; auto|]. intros (_ & H). injection H as ->. reflexivity.
  - split; [discriminate|]. intros (H & _). discriminate.
Qed.
Theorem name_refused : forall name, (forall d, ~ lane_name name d) -> lane_index true name = Err EValueError.
Proof.
  intros name H. unfold lane_index. cbn [negb]. destruct (findall_short name) as [-> | (e & E)]; [reflexivity|].
  apply findall_iff in E. now apply H in E.
Qed.
Theorem name_unique : forall name d e, lane_name name d -> lane_name name e -> d = e.
Proof. intros name d e H K. apply findall_iff in H, K. congruence. Qed.
(** Two digits, or something else than a lane number. *)
Theorem name_long_index : lane_index true "OBS_10.spectra" = Err EValueError /\ lane_index true "OBS_0.spectra.bak" = Err EValueError.
Proof. split; reflexivity. Qed.
(** The dot of the pattern stands for any character. *)
Theorem name_any_character : lane_index true "OBS_1Xspectra" = Ok 1.
Proof. reflexivity. Qed.

(** ** Loading *)

(** The file holds [B] whole blocks of [S] sub-bands, [T] time steps and [2 h] channels. *)
Definition holds (c : content) (B S T h : nat) : Prop :=
  let block := 48 + S * (12 + 16 * (T * (2 * h))) in
  h_nbchan (c_header c) = S /\ h_nffte (c_header c) = T /\ h_fftlen (c_header c) = 2 * h /\
  0 < h /\ 0 < S /\ 0 < B /\ B * block <= c_bytes c < (B + 1) * block.
Definition time_step (c : content) : Q :=
  ((512 # 100000000) * qn (h_fftlen (c_header c)) * qn (h_nfft2int (c_header c)))%Q.
Definition start_time (c : content) : Q :=
  (qn (h_timestamp (c_header c)) + qn (h_seq (c_header c)) * (2 # 390625))%Q.
(** The width of a sub-band, 195312.5 Hz, and of a channel. *)
Definition subband : Q := 1953125 # 10.
Definition channel_width (h : nat) : Q := (subband / qn (2 * h))%Q.

Lemma qn_pos : forall n, 0 < n -> (0 < qn n)%Q.
Proof. intros n H. unfold qn. change 0%Q with (inject_Z 0). rewrite <- Zlt_Qlt. lia. Qed.
Lemma block_bytes_pos : forall h, block_bytes h <> 0.
Proof. intros h. unfold block_bytes, header_bytes. lia. Qed.
Lemma holds_blocks : forall c B S T h, holds c B S T h -> n_blocks c = B.
Proof.
  intros c B S T h (E1 & E2 & E3 & _ & _ & _ & L & U). unfold n_blocks.
  assert (E : block_bytes (c_header c) = 48 + S * (12 + 16 * (T * (2 * h)))).
  { unfold block_bytes, header_bytes. rewrite E1, E2, E3. cbn [Nat.add Nat.mul]. ring. }
  symmetry. apply Nat.div_unique with (r := c_bytes c - B * block_bytes (c_header c)); rewrite E in *; nia.
Qed.

Lemma nth_flat : forall (a : nd Q) n k, k < n -> nth k (flat a n) 0%Q = get a [k].
Proof. intros a n k K. unfold flat. rewrite (nth_map_seq _ (fun k => get a [k])) by exact K. reflexivity. Qed.
Lemma flat_length : forall (a : nd Q) n, length (flat a n) = n.
Proof. intros. unfold flat. now rewrite map_length, seq_length. Qed.

Definition least (l : list Z) (m : Z) : Prop := In m l /\ forall x, In x l -> (m <= x)%Z.
Definition greatest (l : list Z) (m : Z) : Prop := In m l /\ forall x, In x l -> (x <= m)%Z.
Lemma fold_zmin : forall r x, least (x :: r) (fold_left Z.min r x).
Proof.
  induction r as [|y r IH]; intros x; cbn [fold_left]; [split; [now left|]; intros z [->|[]]; lia|].
  destruct (IH (Z.min x y)) as (A & B). split.
  - destruct A as [A|A]; [|now right; right]. rewrite <- A. destruct (Z.min_spec x y) as [(_ & ->)|(_ & ->)]; [now left|right; now left].
  - intros z [<-|[<-|Z0]]; [specialize (B (Z.min x y) (or_introl eq_refl)); lia|specialize (B (Z.min x y) (or_introl eq_refl)); lia|].
    apply B. now right.
Qed.
Lemma fold_zmax : forall r x, greatest (x :: r) (fold_left Z.max r x).
Proof.
  induction r as [|y r IH]; intros x; cbn [fold_left]; [split; [now left|]; intros z [->|[]]; lia|].
  destruct (IH (Z.max x y)) as (A & B). split.
  - destruct A as [A|A]; [|now right; right]. rewrite <- A. destruct (Z.max_spec x y) as [(_ & ->)|(_ & ->)]; [right; now left|now left].
  - intros z [<-|[<-|Z0]]; [specialize (B (Z.max x y) (or_introl eq_refl)); lia|specialize (B (Z.max x y) (or_introl eq_refl)); lia|].
    apply B. now right.
Qed.
Lemma zmin_least : forall l, l <> [] -> exists m, zmin_list l = Ok m /\ least l m.
Proof. intros [|x r] N; [congruence|]. eexists. split; [reflexivity|apply fold_zmin]. Qed.
Lemma zmax_greatest : forall l, l <> [] -> exists m, zmax_list l = Ok m /\ greatest l m.
Proof. intros [|x r] N; [congruence|]. eexists. split; [reflexivity|apply fold_zmax]. Qed.

(** The channel numbers and beams of the first block. *)
Definition channels_of (c : content) : list Z := map (c_channel c 0) (seq 0 (h_nbchan (c_header c))).
Definition beams_of (c : content) : list Z := map (c_beam c 0) (seq 0 (h_nbchan (c_header c))).

(** The matrix made of a recorded sample. *)
Definition raw_matrix (c : content) (p : list nat) : mat :=
  mkMat (creal (c_fft0 c (p ++ [0]))) (c_fft1 c (p ++ [0]), c_fft1 c (p ++ [1]))
        (c_fft1 c (p ++ [0]), Ropp (c_fft1 c (p ++ [1]))) (creal (c_fft0 c (p ++ [1]))).

Theorem load_spec : forall idx c B S T h, holds c B S T h -> exists l, load idx c = Ok l /\
  l_index l = idx /\ l_nchan l = 2 * h /\ (l_dt l == time_step c)%Q /\ (l_df l == channel_width h)%Q /\
  length (l_time l) = B * T /\
  (forall k, k < B * T -> (nth k (l_time l) 0 == start_time c + qn k * time_step c)%Q) /\
  length (l_freq l) = S * (2 * h) /\
  (forall s k, s < S -> k < 2 * h ->
     (nth (s * (2 * h) + k) (l_freq l) 0 == inject_Z (c_channel c 0 s) * subband + (qn k - qn h) * channel_width h)%Q) /\
  (exists lo hi, least (channels_of c) lo /\ greatest (channels_of c) hi /\
     (l_fmin l == (inject_Z lo - (1 # 2)) * subband)%Q /\ (l_fmax l == (inject_Z hi + (1 # 2)) * subband)%Q) /\
  l_beams l = sort_beam_edges (beams_of c) (2 * h) /\
  sh (l_data l) = [B * T; S * (2 * h); 2; 2] /\
  forall b s t k, b < B -> s < S -> t < T -> k < 2 * h ->
    mat_at (l_data l) [b * T + t; s * (2 * h) + half_swap h k] = raw_matrix c [b; s; t; k].
Proof.
  intros idx c B S T h HH. pose proof (holds_blocks _ _ _ _ _ HH) as NB.
  destruct HH as (E1 & E2 & E3 & H0 & S0 & B0 & L & U). unfold load. rewrite E1, E2, E3, NB.
  assert (BB : header_bytes <= c_bytes c) by (unfold header_bytes; nia).
  destruct (Nat.ltb_spec (c_bytes c) header_bytes) as [X|_]; [lia|].
  destruct (Nat.eqb_spec (2 * h) 0) as [X|_]; [lia|].
  set (ej := to_ejones [B; S; T; 2 * h] (c_fft0 c) (c_fft1 c)).
  destruct (blocks_spec _ ej B S T h [2; 2] (or_intror eq_refl) H0 eq_refl) as (d & D1 & D2 & D3).
  rewrite D1. cbn [bind]. destruct (Nat.eqb_spec B 0) as [X|_]; [lia|].
  set (df := (1 / (512 # 100000000) / qn (2 * h))%Q).
  assert (Q0 := qn_pos (2 * h) ltac:(lia)).
  assert (W : (df * qn (2 * h) == subband)%Q) by (unfold df, subband; field; lra).
  assert (DF : (df == channel_width h)%Q) by (unfold df, channel_width, subband; field; lra).
  fold (channels_of c). unfold compute_frequencies.
  assert (CH : map (c_channel c 0) (seq 0 S) = channels_of c) by (unfold channels_of; now rewrite E1). rewrite CH.
  assert (CL : length (channels_of c) = S) by (unfold channels_of; now rewrite map_length, seq_length).
  destruct (frequencies_spec (map (fun z => (inject_Z z * (df * qn (2 * h)))%Q) (channels_of c)) (2 * h) df) as (fr & F1 & F2 & F3).
  rewrite F1. cbn [bind]. rewrite map_length, CL in F2, F3.
  assert (CN : channels_of c <> []) by (intros K; rewrite K in CL; cbn in CL; lia).
  destruct (zmin_least _ CN) as (lo & LO1 & LO2). destruct (zmax_greatest _ CN) as (hi & HI1 & HI2).
  rewrite LO1, HI1. cbn [bind]. eexists. split; [reflexivity|]. cbn [l_index l_nchan l_dt l_df l_time l_freq l_fmin l_fmax l_beams l_data].
  split; [reflexivity|]. split; [reflexivity|]. split; [unfold time_step; rewrite E3; reflexivity|]. split; [exact DF|].
  split; [unfold lane_times, compute_times; now rewrite map_length, seq_length|]. split.
  { intros k K. unfold lane_times, compute_times. rewrite (nth_map_seq _ (fun k => _)) by exact K.
    unfold start_time, time_step. rewrite E3. field. }
  split; [apply flat_length|]. split.
  { intros s k K1 K2. rewrite nth_flat by nia. rewrite (F3 s k K1 K2).
    rewrite (nth_indep _ 0%Q ((fun z => inject_Z z * (df * qn (2 * h)))%Q 0%Z)) by (rewrite map_length; lia).
    rewrite (map_nth (fun z => inject_Z z * (df * qn (2 * h)))%Q).
    replace (nth s (channels_of c) 0%Z) with (c_channel c 0 s).
    - rewrite W, DF. replace (2 * h) with (h + h) at 1 by lia. rewrite qn_add. field.
    - unfold channels_of. rewrite nth_map_seq by lia. reflexivity. }
  split.
  { exists lo, hi. split; [exact LO2|]. split; [exact HI2|]. rewrite W. split; field. }
  split; [unfold beams_of; now rewrite E1|]. split; [exact D2|].
  intros b s t k Hb Hs Ht Hk. unfold mat_at, mat_of, raw_matrix.
  assert (G : forall i j, i < 2 -> j < 2 -> get d ([b * T + t; s * (2 * h) + half_swap h k] ++ [i; j]) = get ej [b; s; t; k; i; j]).
  { intros i j I J. cbn [app]. apply (D3 b s t k [i; j]); try assumption. repeat (constructor; [assumption|]). constructor. }
  rewrite !G by lia. reflexivity.
Qed.

Lemma last_of_cons : forall A (r : list A) x y, last (y :: r) x = last r y.
Proof.
  induction r as [|z r IH]; intros x y; [reflexivity|].
  change (last (z :: r) x = last (z :: r) y). now rewrite !IH.
Qed.
(** The time and frequency ranges. *)
Theorem load_times : forall idx c B S T h l, holds c B S T h -> 0 < T -> load idx c = Ok l ->
  exists a b, tmin l = Ok a /\ tmax l = Ok b /\ (a == start_time c)%Q /\
    (b == start_time c + (qn (B * T) - 1) * time_step c)%Q /\
    (b + l_dt l == start_time c + qn (B * T) * time_step c)%Q.
Proof.
  intros idx c B S T h l HH T0 E. destruct (load_spec idx c B S T h HH) as (l' & E' & _ & _ & DT & _ & LT & NT & _).
  rewrite E in E'. injection E' as <-.
  assert (B0 : 0 < B) by (destruct HH as (_ & _ & _ & _ & _ & B0 & _); exact B0).
  assert (BT : 0 < B * T) by nia.
  unfold tmin, tmax. destruct (l_time l) as [|x r] eqn:LX; [cbn in LT; lia|].
  exists x, (last r x). split; [reflexivity|]. split; [reflexivity|].
  assert (X : (x == start_time c)%Q).
  { pose proof (NT 0 BT) as N. cbn [nth] in N. rewrite N. change (qn 0) with 0%Q. ring. }
  split; [exact X|].
  assert (LA : last r x = nth (B * T - 1) (x :: r) 0%Q).
  { cbn [length] in LT. replace (B * T - 1) with (length r) by lia. clear. revert x.
    induction r as [|y r IH]; intros x; [reflexivity|]. rewrite last_of_cons.
    change (nth (length (y :: r)) (x :: y :: r) 0%Q) with (nth (length r) (y :: r) 0%Q). apply IH. }
  assert (LQ : (last r x == start_time c + (qn (B * T) - 1) * time_step c)%Q).
  { rewrite LA, (NT (B * T - 1)) by lia.
    assert (QS : (qn (B * T) == qn (B * T - 1) + 1)%Q) by (rewrite <- qn_S; replace (Datatypes.S (B * T - 1)) with (B * T) by lia; reflexivity).
    rewrite QS. ring. }
  split; [exact LQ|]. rewrite LQ, DT. ring.
Qed.
Theorem load_range : forall idx c B S T h l, holds c B S T h -> load idx c = Ok l ->
  (forall f, In f (l_freq l) -> (l_fmin l <= f)%Q /\ (f + l_df l <= l_fmax l)%Q) /\
  (exists f, In f (l_freq l) /\ (f == l_fmin l)%Q) /\ (exists f, In f (l_freq l) /\ (f + l_df l == l_fmax l)%Q).
Proof.
  intros idx c B S T h l HH E. destruct (load_spec idx c B S T h HH) as (l' & E' & _ & _ & _ & DF & _ & _ & LF & NF & (lo & hi & LO & HI & FM & FX) & _).
  rewrite E in E'. injection E' as <-. destruct HH as (E1 & _ & _ & H0 & S0 & _).
  assert (Q0 := qn_pos (2 * h) ltac:(lia)). assert (Q1 := qn_pos h H0).
  assert (Q2 : (qn (2 * h) == qn h + qn h)%Q) by (replace (2 * h) with (h + h) by lia; apply qn_add).
  assert (CW : (channel_width h * (qn h + qn h) == subband)%Q) by (unfold channel_width; rewrite Q2; field; lra).
  assert (C0 : (0 < channel_width h)%Q).
  { unfold channel_width. apply Qlt_shift_div_l; [lra|]. unfold subband. lra. }
  assert (INC : forall z, In z (channels_of c) <-> exists s, s < S /\ z = c_channel c 0 s).
  { intros z. unfold channels_of. rewrite in_map_iff, E1. split.
    - intros (s & <- & I). apply in_seq in I. exists s. split; [lia|reflexivity].
    - intros (s & I & ->). exists s. split; [reflexivity|]. apply in_seq. lia. }
  split; [|split].
  - intros f I. apply (In_nth _ _ 0%Q) in I. destruct I as (i & I & <-). rewrite LF in I.
    pose proof (Nat.div_mod i (2 * h) ltac:(lia)) as DM. pose proof (Nat.mod_upper_bound i (2 * h) ltac:(lia)) as MU.
    set (s := i / (2 * h)) in *. set (k := i mod (2 * h)) in *.
    assert (Hs : s < S) by (apply Nat.div_lt_upper_bound; nia).
    assert (NI : (nth i (l_freq l) 0 == inject_Z (c_channel c 0 s) * subband + (qn k - qn h) * channel_width h)%Q).
    { replace i with (s * (2 * h) + k) by lia. now apply NF. }
    rewrite NI, DF, FM, FX.
    assert (Z1 := proj2 LO _ (proj2 (INC _) (ex_intro _ s (conj Hs eq_refl)))).
    assert (Z2 := proj2 HI _ (proj2 (INC _) (ex_intro _ s (conj Hs eq_refl)))).
    rewrite Zle_Qle in Z1, Z2.
    assert (K0 : (0 <= qn k)%Q) by (unfold qn; change 0%Q with (inject_Z 0); rewrite <- Zle_Qle; lia).
    assert (K1 : (qn k + 1 <= qn h + qn h)%Q) by (rewrite <- Q2, <- qn_S; unfold qn; rewrite <- Zle_Qle; lia).
    assert (SB : (0 < subband)%Q) by reflexivity.
    set (u := channel_width h) in *. set (a := inject_Z (c_channel c 0 s)) in *. set (x := inject_Z lo) in *. set (y := inject_Z hi) in *.
    set (q := qn h) in *. set (p := qn k) in *.
    assert (M1 : (x * subband <= a * subband)%Q) by (apply Qmult_le_compat_r; lra).
    assert (M2 : (a * subband <= y * subband)%Q) by (apply Qmult_le_compat_r; lra).
    assert (M3 : (0 <= p * u)%Q) by (apply Qmult_le_0_compat; lra).
    assert (M4 : ((p + 1) * u <= (q + q) * u)%Q) by (apply Qmult_le_compat_r; lra).
    assert (M5 : ((q + q) * u == subband)%Q) by (rewrite <- CW; ring).
    split; lra.
  - destruct LO as (LI & _). apply INC in LI. destruct LI as (s & Hs & ->).
    exists (nth (s * (2 * h) + 0) (l_freq l) 0%Q). split; [apply nth_In; nia|].
    rewrite (NF s 0) by lia. rewrite FM. change (qn 0) with 0%Q. rewrite <- CW at 2. rewrite <- CW. field.
  - destruct HI as (LI & _). apply INC in LI. destruct LI as (s & Hs & ->).
    exists (nth (s * (2 * h) + (2 * h - 1)) (l_freq l) 0%Q). split; [apply nth_In; nia|].
    rewrite (NF s (2 * h - 1)) by lia. rewrite FX, DF.
    assert (QS : (qn (2 * h - 1) == qn h + qn h - 1)%Q).
    { assert (QS : (qn (2 * h) == qn (2 * h - 1) + 1)%Q) by (rewrite <- qn_S; replace (Datatypes.S (2 * h - 1)) with (2 * h) by lia; reflexivity).
      rewrite Q2 in QS. lra. }
    rewrite QS. rewrite <- CW. field.
Qed.

Theorem load_refused : forall idx c,
  (c_bytes c < 48 -> load idx c = Err EValueError) /\
  (48 <= c_bytes c -> (h_fftlen (c_header c) = 0 \/ Nat.odd (h_fftlen (c_header c)) = true) -> load idx c = Err EValueError) /\
  (48 <= c_bytes c < block_bytes (c_header c) -> 0 < h_fftlen (c_header c) -> Nat.even (h_fftlen (c_header c)) = true ->
     load idx c = Err EIndexError) /\
  (block_bytes (c_header c) <= c_bytes c -> 0 < h_fftlen (c_header c) -> Nat.even (h_fftlen (c_header c)) = true ->
     h_nbchan (c_header c) = 0 -> load idx c = Err EValueError).
Proof.
  intros idx c. unfold load. change header_bytes with 48. split; [|split; [|split]].
  - intros H. destruct (Nat.ltb_spec (c_bytes c) 48); [reflexivity|lia].
  - intros H O. destruct (Nat.ltb_spec (c_bytes c) 48); [lia|].
    destruct (Nat.eqb_spec (h_fftlen (c_header c)) 0) as [|N]; [reflexivity|].
    destruct O as [O|O]; [contradiction|].
    rewrite (blocks_odd _ (to_ejones [n_blocks c; h_nbchan (c_header c); h_nffte (c_header c); h_fftlen (c_header c)] (c_fft0 c) (c_fft1 c))
               (h_nffte (c_header c)) (h_fftlen (c_header c)) (n_blocks c) (h_nbchan (c_header c)) _ eq_refl O). reflexivity.
  - intros (H1 & H2) P O. destruct (Nat.ltb_spec (c_bytes c) 48); [lia|].
    destruct (Nat.eqb_spec (h_fftlen (c_header c)) 0) as [|N]; [lia|].
    assert (NB : n_blocks c = 0) by (unfold n_blocks; now apply Nat.div_small). rewrite NB.
    apply Nat.even_spec in O. destruct O as (h & EH). rewrite EH in *.
    destruct (blocks_spec _ (to_ejones [0; h_nbchan (c_header c); h_nffte (c_header c); 2 * h] (c_fft0 c) (c_fft1 c)) _ _ _ h [2; 2] (or_intror eq_refl) ltac:(lia) eq_refl) as (d & D1 & _).
    rewrite D1. reflexivity.
  - intros H P O Z0. destruct (Nat.ltb_spec (c_bytes c) 48) as [X|X]; [unfold block_bytes, header_bytes in H; lia|].
    destruct (Nat.eqb_spec (h_fftlen (c_header c)) 0) as [|N]; [lia|].
    apply Nat.even_spec in O. destruct O as (h & EH). rewrite EH in *.
    destruct (blocks_spec _ (to_ejones [n_blocks c; h_nbchan (c_header c); h_nffte (c_header c); 2 * h] (c_fft0 c) (c_fft1 c)) _ _ _ h [2; 2] (or_intror eq_refl) ltac:(lia) eq_refl) as (d & D1 & _).
    rewrite D1. cbn [bind].
    assert (NB : 0 < n_blocks c) by (unfold n_blocks; apply Nat.div_str_pos; split; [pose proof (block_bytes_pos (c_header c)); lia|exact H]).
    destruct (Nat.eqb_spec (n_blocks c) 0); [lia|]. rewrite Z0. cbn [seq map].
    unfold compute_frequencies.
    destruct (frequencies_spec [] (2 * h) (1 / (512 # 100000000) / qn (2 * h))) as (fr & F1 & _). cbn [map]. rewrite F1. reflexivity.
Qed.

(** ** Beams *)
Theorem lane_beams_spec : forall beams n,
  StronglySorted Z.lt (map fst (sort_beam_edges beams n)) /\
  (forall b, In b (map fst (sort_beam_edges beams n)) <-> In b beams) /\
  forall b start stop, In (b, (start, stop)) (sort_beam_edges beams n) ->
    exists lo hi, first_sub beams b lo /\ last_sub beams b hi /\ start = lo * n /\ stop = (hi + 1) * n.
Proof.
  intros beams n.
  assert (M : map fst (sort_beam_edges beams n) = unique beams).
  { unfold sort_beam_edges. rewrite map_map. cbn [fst]. apply map_id. }
  rewrite M. split; [apply unique_sorted|]. split; [apply unique_in|].
  intros b start stop I. unfold sort_beam_edges in I. apply in_map_iff in I. destruct I as (b' & E & I).
  injection E as -> <- <-.
  destruct (beam_edges_spec beams n) as (_ & _ & H).
  assert (J : In (b, (hd 0 (filter (fun i => (nth i beams 0 =? b)%Z) (seq 0 (length beams))) * n,
                      (last (filter (fun i => (nth i beams 0 =? b)%Z) (seq 0 (length beams))) 0 + 1) * n - 1)) (beam_edges beams n)).
  { unfold beam_edges. apply in_map_iff. exists b. auto. }
  clear H. apply (proj1 (unique_in _ _)) in I.
  set (idx := filter (fun i => (nth i beams 0 =? b)%Z) (seq 0 (length beams))) in *.
  assert (X : forall i, In i idx <-> nth_error beams i = Some b).
  { intros i. unfold idx. rewrite filter_In, in_seq, Z.eqb_eq. split.
    - intros ((_ & L) & <-). apply nth_error_nth'. lia.
    - intros H. assert (i < length beams) by (apply nth_error_Some; congruence). split; [lia|]. now apply nth_error_nth. }
  assert (N : idx <> []).
  { apply In_nth_error in I. destruct I as (i & H). apply X in H. destruct idx; [contradiction|congruence]. }
  destruct (sorted_hd_last idx) as (A & B & C); [|exact N|].
  { unfold idx. apply StronglySorted_filter. apply StronglySorted_seq. }
  exists (hd 0 idx), (last idx 0). repeat split; try (now apply X); intros i H; apply X in H; now apply C.
Qed.
Theorem lane_beams_partition : forall beams n, grouped beams -> 0 < n ->
  forall f, f < length beams * n ->
  forall b start stop, In (b, (start, stop)) (sort_beam_edges beams n) ->
    (start <= f < stop <-> nth_error beams (f / n) = Some b).
Proof.
  intros beams n G N f F b start stop I.
  destruct (lane_beams_spec beams n) as (_ & _ & H).
  destruct (H b start stop I) as (lo & hi & (L1 & L2) & (H1 & H2) & -> & ->).
  pose proof (Nat.div_mod f n ltac:(lia)) as DM. pose proof (Nat.mod_upper_bound f n ltac:(lia)) as MU.
  split.
  - intros (A & B). apply (G lo (f / n) hi b); auto. split.
    + apply Nat.div_le_lower_bound; lia.
    + apply Nat.lt_succ_r. apply Nat.div_lt_upper_bound; nia.
  - intros E. specialize (L2 _ E). specialize (H2 _ E). nia.
Qed.
Theorem lane_beams_interleaved : sort_beam_edges [0; 1; 0; 1]%Z 2 = [(0%Z, (0, 6)); (1%Z, (2, 8))].
Proof. reflexivity. Qed.

(** ** Stokes parameters *)
(** What is recorded of the field samples [es] at block [b], sub-band [s], step [t] and channel [k]. *)
Definition records (c : content) (p : list nat) (es : list field) : Prop :=
  c_fft0 c (p ++ [0]) = rec_xx es /\ c_fft0 c (p ++ [1]) = rec_yy es /\
  c_fft1 c (p ++ [0]) = rec_re es /\ c_fft1 c (p ++ [1]) = rec_im es.
Lemma raw_coherency : forall c p es, records c p es -> raw_matrix c p = mtrans (coherency es).
Proof.
  intros c p es (A & B & C & D). rewrite coherency_recorded. unfold raw_matrix, mtrans, mat_of, mget.
  rewrite A, B, C, D. reflexivity.
Qed.

(** A Stokes letter, in either case, and the parameter it stands for. *)
Inductive letter : ascii -> (list field -> R) -> Prop :=
| LI : letter "I" SI | Li : letter "i" SI | LQ : letter "Q" SQ | Lq : letter "q" SQ
| LU : letter "U" SU | Lu : letter "u" SU | LV : letter "V" SV | Lv : letter "v" SV.
Definition is_letter (a : ascii) : Prop := exists f, letter a f.
Fixpoint letters_of (s : string) : list ascii := match s with EmptyString => [] | String a t => a :: letters_of t end.

Lemma letter_ok : forall a f es, letter a f -> letter_value a (mtrans (coherency es)) = Ok (f es).
Proof.
  intros a f es H. destruct (stokes_coherency es) as (A & B & C & D).
  assert (T : re (m00 (mtrans (coherency es))) = re (m00 (coherency es)) /\ re (m11 (mtrans (coherency es))) = re (m11 (coherency es)) /\
              re (m01 (mtrans (coherency es))) = re (m01 (coherency es)) /\ im (m01 (mtrans (coherency es))) = (- im (m01 (coherency es)))%R).
  { rewrite coherency_recorded. unfold mtrans, mat_of, mget, re, im. cbn [m00 m01 m10 m11 fst snd]. repeat split; ring. }
  destruct T as (T1 & T2 & T3 & T4).
  unfold sI in A; unfold sQ in B; unfold sU in C; unfold sV in D.
  set (m := mtrans (coherency es)) in *. set (g := coherency es) in *. clearbody m g.
  unfold re, im in *.
  destruct H; cbv -[SI SQ SU SV Rplus Rminus Rmult Ropp IZR]; f_equal;
  cbv -[SI SQ SU SV Rplus Rminus Rmult Ropp IZR] in *; lra.
Qed.
Lemma letter_total : forall a d, is_letter a -> exists v, letter_value a d = Ok v.
Proof. intros a d (f & H). destruct H; eexists; reflexivity. Qed.
Lemma letter_refused : forall a d, ~ is_letter a -> letter_value a d = Err ENotImplementedError.
Proof.
  intros a d N. destruct a as [[] [] [] [] [] [] [] []]; try reflexivity; exfalso; apply N;
  first [exists SI; constructor | exists SQ; constructor | exists SU; constructor | exists SV; constructor].
Qed.
Lemma letter_dec : forall a, is_letter a \/ ~ is_letter a.
Proof.
  intros a. destruct (letter_value a zero_mat) as [v|e] eqn:E.
  - left. destruct a as [[] [] [] [] [] [] [] []]; try discriminate;
    first [exists SI; constructor | exists SQ; constructor | exists SU; constructor | exists SV; constructor].
  - right. intros H. destruct (letter_total a zero_mat H) as (v & V). congruence.
Qed.

Definition plane (data : nd cpx) (a : ascii) : list nat -> R :=
  fun p => match letter_value a (mat_at data p) with Ok v => v | Err _ => 0%R end.
Lemma planes_ok : forall data s acc, Forall is_letter (letters_of s) ->
  stokes_planes data s acc = Ok (acc ++ map (plane data) (letters_of s)).
Proof.
  intros data. induction s as [|a s IH]; intros acc H; cbn [stokes_planes letters_of map].
  - now rewrite app_nil_r.
  - inversion H as [|x y H1 H2]; subst. destruct (letter_total a zero_mat H1) as (v & ->). cbn [bind].
    rewrite (IH _ H2). rewrite <- app_assoc. reflexivity.
Qed.
Lemma planes_refused : forall data s acc, Exists (fun a => ~ is_letter a) (letters_of s) ->
  stokes_planes data s acc = Err ENotImplementedError.
Proof.
  intros data. induction s as [|a s IH]; intros acc H; cbn [stokes_planes letters_of] in *; [inversion H|].
  destruct (letter_dec a) as [L|L].
  - destruct (letter_total a zero_mat L) as (v & ->). cbn [bind]. apply IH. inversion H; [contradiction|assumption].
  - rewrite letter_refused by exact L. reflexivity.
Qed.

Theorem stokes_refused : forall data s, Exists (fun a => ~ is_letter a) (letters_of s) ->
  get_stokes data s = Err ENotImplementedError.
Proof. intros data s H. unfold get_stokes. rewrite planes_refused by exact H. reflexivity. Qed.
Theorem stokes_none : forall data, get_stokes data "" = Ok None.
Proof. reflexivity. Qed.

(** What a user gets for a string of letters from a lane: each parameter of the
    recorded field, at its time and at its frequency. *)
Theorem lane_stokes : forall idx c B S T h l s, holds c B S T h -> load idx c = Ok l ->
  Forall is_letter (letters_of s) -> s <> ""%string ->
  exists r, get_stokes (l_data l) s = Ok (Some r) /\ sh r = [B * T; S * (2 * h); String.length s] /\
    forall b i t k es n a f, b < B -> i < S -> t < T -> k < 2 * h -> records c [b; i; t; k] es ->
      nth_error (letters_of s) n = Some a -> letter a f ->
      get r [b * T + t; i * (2 * h) + half_swap h k; n] = f es.
Proof.
  intros idx c B S T h l s HH E F N0.
  destruct (load_spec idx c B S T h HH) as (l' & E' & _ & _ & _ & _ & _ & _ & _ & _ & _ & _ & SH & DA).
  rewrite E in E'. injection E' as <-. unfold get_stokes. rewrite planes_ok by exact F. cbn [bind app].
  destruct (map (plane (l_data l)) (letters_of s)) as [|p ps] eqn:MP.
  { destruct s; [congruence|discriminate]. }
  rewrite SH. cbn [length Nat.sub firstn app]. eexists. split; [reflexivity|]. cbn [sh].
  assert (LL : forall u, length (letters_of u) = String.length u) by (induction u; cbn; congruence).
  assert (PL : length (p :: ps) = String.length s) by (rewrite <- MP, map_length; apply LL).
  change (Datatypes.S (length ps)) with (length (p :: ps)). rewrite PL. split; [reflexivity|].
  intros b i t k es n a f Hb Hi Ht Hk R A L. cbn [get last firstn]. rewrite <- MP.
  rewrite (nth_error_nth (map (plane (l_data l)) (letters_of s)) n (fun _ => 0%R) (x := plane (l_data l) a)).
  - unfold plane. rewrite (DA b i t k Hb Hi Ht Hk), (raw_coherency _ _ _ R), (letter_ok a f es L). reflexivity.
  - rewrite nth_error_map, A. reflexivity.
Qed.

(** Names announced by the documentation of [Dynspec.get] but not known. *)
Theorem documented_names : forall data, get_stokes data "L" = Err ENotImplementedError /\
  get_stokes data "XX" = Err ENotImplementedError /\ get_stokes data "YY" = Err ENotImplementedError.
Proof. intros data. repeat split; reflexivity. Qed.

(** ** Faraday rotation *)
Lemma turned_trans : forall a d, turned a (mtrans d) = mtrans (turned a d).
Proof.
  intros a d. unfold turned, mmul, mtrans, rotation, mat_of, mget. cbn [m00 m01 m10 m11].
  unfold cplus, cmult, creal, re, im; cbn [fst snd]. f_equal; apply injective_projections; cbn [fst snd]; ring.
Qed.
Theorem derotation_off : forall data freq, lane_derotation None data freq = Ok data.
Proof. reflexivity. Qed.
Lemma mat_of_get : forall m, mat_of (fun i j => mget m i j) = m.
Proof. intros []. reflexivity. Qed.
Theorem derotation_turns : forall data nt freq rm, sh data = [nt; length freq; 2; 2] ->
  exists r, lane_derotation (Some rm) data freq = Ok r /\ sh r = [nt; length freq; 2; 2] /\
    forall t f, mat_at r [t; f] = turned (- (rm * wavelength (nth f freq 0%R) ^ 2)) (mat_at data [t; f]).
Proof.
  intros data nt freq rm E. unfold lane_derotation. rewrite E, Nat.eqb_refl. eexists. split; [reflexivity|]. split; [reflexivity|].
  intros t f. unfold mat_at at 1. cbn [app get].
  replace (- (rm * wavelength (nth f freq 0%R) ^ 2))%R with (faraday_angle (nth f freq 0%R) rm true).
  - unfold turned. apply mat_of_get.
  - unfold faraday_angle, wavelength, speed_of_light. ring.
Qed.
(** The correction undoes the rotation of the field, although the matrices of a
    lane are the transposed coherency matrices. *)
Theorem derotation_undoes : forall data nt freq rm r (es : nat -> nat -> list field),
  sh data = [nt; length freq; 2; 2] -> lane_derotation (Some rm) data freq = Ok r ->
  (forall t f, t < nt -> f < length freq -> mat_at data [t; f] =
     mtrans (coherency (map (turn_field (rm * wavelength (nth f freq 0%R) ^ 2)) (es t f)))) ->
  forall t f, t < nt -> f < length freq -> mat_at r [t; f] = mtrans (coherency (es t f)).
Proof.
  intros data nt freq rm r es SH E H t f Ht Hf.
  destruct (derotation_turns data nt freq rm SH) as (r' & E' & _ & G). rewrite E in E'. injection E' as <-.
  rewrite G, (H t f Ht Hf), turned_trans. f_equal.
  set (tr := mkNd [nt; length freq; 2; 2] (fun idx => match idx with
     | [t; f; i; j] => mget (coherency (map (turn_field (rm * wavelength (nth f freq 0%R) ^ 2)) (es t f))) i j | _ => (0%R, 0%R) end)).
  assert (TM : forall t f, mat_at tr [t; f] = coherency (map (turn_field (rm * wavelength (nth f freq 0%R) ^ 2)) (es t f))).
  { intros t' f'. unfold mat_at, tr. cbn [app get]. apply mat_of_get. }
  destruct (faraday_turns tr nt freq rm eq_refl) as (r' & E' & _ & G').
  rewrite <- (faraday_undoes tr nt freq rm r' es eq_refl E' (fun t f _ _ => TM t f) t f Ht Hf).
  now rewrite G', TM.
Qed.

(** ** The matrices of a lane and those of the other reader *)
Theorem lane_transposed : forall idx c B S T h l fft0 fft1, holds c B S T h -> load idx c = Ok l ->
  sh fft0 = [B; S; T; 2 * h; 2] -> get fft0 = c_fft0 c -> get fft1 = c_fft1 c ->
  forall b s t k, b < B -> s < S -> t < T -> k < 2 * h ->
  mat_at (l_data l) [b * T + t; s * (2 * h) + half_swap h k] = mtrans (mat_at (spectra_data_to_matrix fft0 fft1) [b; s; t; k]).
Proof.
  intros idx c B S T h l fft0 fft1 HH E S0 G0 G1 b s t k Hb Hs Ht Hk.
  destruct (load_spec idx c B S T h HH) as (l' & E' & _ & _ & _ & _ & _ & _ & _ & _ & _ & _ & _ & DA).
  rewrite E in E'. injection E' as <-. rewrite (DA b s t k Hb Hs Ht Hk).
  unfold mat_at, spectra_data_to_matrix, raw_matrix. cbn [get]. rewrite S0, G0, G1.
  cbn [length Nat.sub firstn app skipn nth]. reflexivity.
Qed.
