(** The description of a parset: fields of view and pointings. *)
From Coq Require Import Ascii String List Arith ZArith QArith Bool Lia Permutation.
From Verif Require Import Base M_Polar M_Pipeline M_Subbands M_PText P_PText M_Parset M_Config P_Config4 M_Json P_Json P_Json2.
Import ListNotations.
Open Scope nat_scope.
Open Scope list_scope.

Lemma bind_ok : forall A B (x : res A) (f : A -> res B) r, bind x f = Ok r -> exists y, x = Ok y /\ f y = Ok r.
Proof. intros A B [y|e] f r H; [now exists y|discriminate]. Qed.
Lemma map_res_ok : forall A B (f : A -> res B) l r, map_res f l = Ok r <-> Forall2 (fun x y => f x = Ok y) l r.
Proof.
  intros A B f. induction l as [|x l IH]; intro r; cbn [map_res].
  - split; [intro H; injection H as <-; constructor|intro H; now inversion H].
  - split.
    + intro H. apply bind_ok in H as (y & Y & H). apply bind_ok in H as (s & S & H). injection H as <-. constructor; [exact Y|now apply IH].
    + intro H. inversion H as [|? y ? s Y S]; subst. rewrite Y. cbn [bind]. apply IH in S. now rewrite S.
Qed.
Lemma forall2_len : forall A B (R : A -> B -> Prop) l m, Forall2 R l m -> length l = length m.
Proof. induction 1; cbn; [reflexivity|lia]. Qed.
Lemma forall2_imp : forall A B (R S : A -> B -> Prop) l m, (forall x y, R x y -> S x y) -> Forall2 R l m -> Forall2 S l m.
Proof. intros A B R S l m I H. induction H; constructor; auto. Qed.
Lemma forall2_nth : forall A B (R : A -> B -> Prop) l m, Forall2 R l m -> forall k y, nth_error m k = Some y -> exists x, nth_error l k = Some x /\ R x y.
Proof. intros A B R l m H. induction H as [|x y l m X H IH]; intros [|k] z E; try discriminate; [injection E as <-; exists x; now split|now apply IH]. Qed.
Lemma forall2_nth' : forall A B (R : A -> B -> Prop) l m, Forall2 R l m -> forall k x, nth_error l k = Some x -> exists y, nth_error m k = Some y /\ R x y.
Proof. intros A B R l m H. induction H as [|x y l m X H IH]; intros [|k] z E; try discriminate; [injection E as <-; exists y; now split|now apply IH]. Qed.
Lemma forall2_map : forall A B C (f : A -> C) (g : B -> C) l m, Forall2 (fun x y => g y = f x) l m -> map g m = map f l.
Proof. intros A B C f g l m H. induction H as [|x y l m X H IH]; cbn; [reflexivity|now rewrite X, IH]. Qed.
Lemma forall2_one : forall A B (R : A -> B -> Prop) l m, Forall2 R l m -> forall x, In x m -> exists y, In y l /\ R y x.
Proof. intros A B R l m H. induction H as [|x y l m X H IH]; intros z Z; [destruct Z|]. destruct Z as [<-|Z]; [exists x; split; [now left|exact X]|]. destruct (IH z Z) as (w & I & Y). exists w. split; [now right|exact Y]. Qed.

Section Entries.
Context {ck : clock}.
Variable W : world ck.
Notation property := (M_Parset.property ck).
Notation item := (M_Parset.item ck).
Notation pointing := (M_Json.pointing (ck := ck)).
Notation fov := (M_Json.fov (ck := ck)).

(** ** Specification *)
(** The elements of a value: those of a list, or the characters of a text. *)
Definition elements_of (p : property) (k : string) (l : list item) : Prop :=
  holds p k (PList ck l) \/ exists s, holds p k (PStr ck s) /\ l = map (fun c => IStr ck (String c EmptyString)) (list_ascii_of_string s).
Definition reads_int (x : item) (n : Z) : Prop := x = IInt ck n \/ exists s, x = IStr ck s /\ py_int s = Some n.
Definition filters_match (l m : list item) (fs : list (Z * date ck)) : Prop :=
  length fs = Nat.min (length l) (length m) /\
  forall i n t, nth_error fs i = Some (n, t) -> exists x, nth_error l i = Some x /\ reads_int x n /\ nth_error m i = Some (ITime ck t).
(** A field of view and its analog beam; its mini-arrays are those of the core. *)
Definition fov_matches (b : Z * property) (f : fov) : Prop :=
  let p := snd b in
  f_idx f = fst b /\ holds p "target" (f_name f) /\ center_of W p = Ok (f_center f) /\ time_of W p = Ok (f_time f) /\
  (holds p "beamSquint" (f_squint f) \/ lacks p "beamSquint" /\ f_squint f = PBool ck false) /\ f_optfreq f = dict_get String.eqb "optFrq"%string p /\
  (exists n, elements_of p "maList" (map (IInt ck) n) /\ f_mas f = map (IInt ck) (filter (fun k => k <=? 96)%Z n)) /\
  elements_of p "antList" (f_ants f) /\ (exists l m, elements_of p "filter" l /\ elements_of p "filterTime" m /\ filters_match l m (f_filters f)).
(** The analog beam of a beam. *)
Definition parent (p : property) (n : Z) : Prop := holds p "noBeam" (PInt ck n) \/ exists b : bool, holds p "noBeam" (PBool ck b) /\ n = if b then 1%Z else 0%Z.
Definition first_at (keys : list Z) (k : nat) (n : Z) : Prop := nth_error keys k = Some n /\ forall j, j < k -> nth_error keys j <> Some n.
Definition made (keys : list Z) (o : property) (v : list Z) (i : Z) (p : property) (kg : nat * pointing) : Prop :=
  let g := snd kg in
  g_idx g = i /\ holds p "target" (g_name g) /\ center_of W p = Ok (g_center g) /\ time_of W p = Ok (g_time g) /\ g_inlined g = None /\
  (exists s, setting_of W p o v = Ok s /\ g_receiver g = Some s) /\ exists n, parent p n /\ first_at keys (fst kg) n.
(** The correlations of a field of view, towards the zenith. *)
Definition xst_made (o : property) (fovs : list fov) (first : nat) (i : nat) (kg : nat * pointing) : Prop :=
  let g := snd kg in
  fst kg = i /\ g_idx g = Z.of_nat (first + i) /\ g_name g = PStr ck "" /\ g_inlined g = None /\
  exists f t fr, nth_error fovs i = Some f /\ g_time g = f_time f /\ g_receiver g = Some (SXst fr) /\ bands o "xst_sbList" fr /\
    read_time ck (show_isot ck (t_start (f_time f))) = Some t /\
    let z := w_icrs ck W (w_add ck W t (t_duration (f_time f) / 2)%Q) 0 90 in g_center g = mkCenter (Some (fst z)) (Some (snd z)) "zenith_xst".
Definition asks_xst (o : property) : Prop :=
  exists v, holds o "xst_userfile" v /\ v <> PBool ck false /\ v <> PInt ck 0 /\ v <> PStr ck "" /\ v <> PList ck [].
(** The extra pointing of NICKEL. *)
Definition nickel_made (a o : property) (i : nat) (kg : nat * pointing) : Prop :=
  let g := snd kg in
  fst kg = 0 /\ g_idx g = Z.of_nat i /\ g_name g = PStr ck "nickel" /\ g_receiver g = None /\ center_of W a = Ok (g_center g) /\ time_of W a = Ok (g_time g) /\
  exists ch dump f, holds o "nri_channelization" ch /\ holds o "nri_dumpTime" dump /\ bands o "nri_subbandList" f /\ g_inlined g = Some (SNickel ch dump f).
Definition says_tbd (b : Z * property) : Prop := holds (snd b) "toDo" (PStr ck "TBD").
Definition of_fov (k : nat) (l : list (nat * pointing)) : list pointing := map snd (filter (fun kg => fst kg =? k) l).

(** ** Proofs *)
Lemma get_holds : forall k (p : property) v, item_get ck k p = Ok v <-> holds p k v.
Proof. intros k p v. unfold item_get, holds. destruct (dict_get String.eqb k p); split; intro H; congruence. Qed.
Lemma chars_spec : forall s, chars s = map (fun c => IStr ck (String c EmptyString)) (list_ascii_of_string s).
Proof. induction s as [|c s IH]; [reflexivity|]. cbn. now rewrite IH. Qed.
Lemma elements_inv : forall p k l, bind (item_get ck k p) iterate = Ok l <-> elements_of p k l.
Proof.
  intros p k l. unfold elements_of. split.
  - intro H. apply bind_ok in H as (v & V & H). apply get_holds in V. destruct v; try discriminate; cbn [iterate] in H; injection H as <-; [right|now left]. exists s. split; [exact V|apply chars_spec].
  - intros [H|(s & H & ->)]; apply get_holds in H; rewrite H; cbn [bind iterate]; [reflexivity|now rewrite chars_spec].
Qed.
Lemma filters_inv : forall l m fs, filters_of l m = Ok fs -> filters_match l m fs.
Proof.
  induction l as [|x l IH]; intros [|y m] fs H; cbn [filters_of] in H; try (injection H as <-; split; [cbn; rewrite ?Nat.min_0_r; reflexivity|intros [|i] n t E; discriminate]).
  apply bind_ok in H as (n & N & H). apply bind_ok in H as (t & T & H). apply bind_ok in H as (r & R & H). injection H as <-. destruct (IH m r R) as (L & G).
  split; [cbn; now rewrite L|]. intros [|i] n' t' E.
  - injection E as <- <-. exists x. split; [reflexivity|]. split.
    + destruct x as [z|s|u]; [injection N as <-; now left| |discriminate]. right. exists s. split; [reflexivity|]. destruct (py_int s); [now injection N as ->|discriminate].
    + destruct y; try discriminate. injection T as ->. reflexivity.
  - exact (G i n' t' E).
Qed.
Lemma all_ints_inv : forall l n, all_ints l = Some n -> l = map (IInt ck) n.
Proof.
  induction l as [|x l IH]; intros n H; cbn [all_ints] in H; [injection H as <-; reflexivity|]. destruct x as [z|s|t]; try discriminate. destruct (all_ints l) as [m|]; [|discriminate]. injection H as <-. cbn. now rewrite (IH m eq_refl).
Qed.
(** An analog beam before and after the removal of remote mini-arrays. *)
Lemma fov_inv : forall i p f f', fov_of W i p = Ok f -> keep_local f = Ok f' -> fov_matches (i, p) f' /\ f_pointings f' = [] /\ f_idx f = i /\ f_time f' = f_time f.
Proof.
  intros i p f f' H. unfold fov_of in H.
  apply bind_ok in H as (name & NA & H). apply bind_ok in H as (c & C & H). apply bind_ok in H as (t & T & H). apply bind_ok in H as (mas & MA & H). apply bind_ok in H as (ants & AN & H).
  apply bind_ok in H as (fl & FL & H). apply bind_ok in H as (ft & FT & H). apply bind_ok in H as (l & L & H). apply bind_ok in H as (m & M & H). apply bind_ok in H as (fs & FS & H). injection H as <-.
  intro K. assert (X : exists n, mas = map (IInt ck) n /\ f' = mkFov i [] name c t (match dict_get String.eqb "beamSquint"%string p with Some v => v | None => PBool ck false end) (dict_get String.eqb "optFrq"%string p) (map (IInt ck) (filter (fun k => k <=? 96)%Z n)) ants fs).
  { unfold keep_local in K. cbn [f_mas f_pointings f_idx f_name f_center f_time f_squint f_optfreq f_ants f_filters receivers_read bind] in K. destruct mas as [|x mas]; [injection K as <-; now exists []|].
    destruct (all_ints (x :: mas)) as [n|] eqn:A; [|discriminate]. apply all_ints_inv in A. exists n. split; [exact A|]. rewrite A in K. assert (FE : filter (fun k => negb (96 <? k)%Z) n = filter (fun k => (k <=? 96)%Z) n).
    { clear. induction n as [|z n IH]; [reflexivity|]. cbn [filter]. rewrite Z.ltb_antisym, negb_involutive, IH. reflexivity. }
    destruct (existsb (fun k => (96 <? k)%Z) n) eqn:EX; cbn [negb] in K; injection K as <-; rewrite <- FE; [reflexivity|]. f_equal. f_equal. symmetry. clear -EX. induction n as [|z n IH]; [reflexivity|]. cbn [existsb] in EX. apply orb_false_iff in EX as (E1 & E2). cbn [filter]. rewrite E1. cbn [negb]. now rewrite (IH E2). }
  destruct X as (n & -> & ->). split; [|now repeat split]. unfold fov_matches. cbn [f_idx f_name f_center f_time f_squint f_optfreq f_mas f_ants f_filters fst snd].
  apply get_holds in NA. apply elements_inv in MA. apply elements_inv in AN. split; [reflexivity|]. split; [exact NA|]. split; [exact C|]. split; [exact T|]. split.
  { unfold holds, lacks. destruct (dict_get String.eqb "beamSquint"%string p); [now left|right; now split]. }
  split; [reflexivity|]. split; [now exists n|]. split; [exact AN|]. exists l, m. split; [apply elements_inv; now rewrite FL|]. split; [apply elements_inv; now rewrite FT|now apply filters_inv].
Qed.
Lemma position_inv : forall n l k, position n l = Ok k -> first_at (map (@f_idx ck) l) k n.
Proof.
  intros n. induction l as [|f l IH]; intros k H; cbn [position] in H; [discriminate|]. destruct (Z.eqb_spec (f_idx f) n) as [E|E].
  - injection H as <-. split; [cbn; now rewrite E|intros j J; lia].
  - apply bind_ok in H as (j & J & H). injection H as <-. destruct (IH j J) as (A & B). split; [exact A|]. intros [|i] L; cbn; [congruence|]. apply B. lia.
Qed.
Lemma position_none : forall n l, ~ In n (map (@f_idx ck) l) -> position n l = Err EIndexError.
Proof. intros n. induction l as [|f l IH]; intro H; cbn [position]; [reflexivity|]. cbn in H. destruct (Z.eqb_spec (f_idx f) n) as [E|E]; [elim H; now left|]. rewrite IH; [reflexivity|]. intro I. apply H. now right. Qed.
Lemma pointing_inv : forall i p o v fovs kg, pointing_of W i p o v fovs = Ok kg -> made (map (@f_idx ck) fovs) o v i p kg.
Proof.
  intros i p o v fovs kg H. unfold pointing_of in H. apply bind_ok in H as (name & NA & H). apply bind_ok in H as (c & C & H). apply bind_ok in H as (t & T & H). apply bind_ok in H as (s & S & H). apply bind_ok in H as (k & K & H). injection H as <-.
  unfold made. cbn [fst snd g_idx g_name g_center g_time g_inlined g_receiver]. apply get_holds in NA. split; [reflexivity|]. split; [exact NA|]. split; [exact C|]. split; [exact T|]. split; [reflexivity|]. split; [now exists s|].
  apply bind_ok in K as (x & X & K). apply get_holds in X. unfold fov_index in K. destruct x as [n|a|b|u|a|l0]; try discriminate; apply position_inv in K.
  - exists n. split; [now left|exact K].
  - exists (if b then 1%Z else 0%Z). split; [right; now exists b|exact K].
Qed.
(** A beam of no analog beam is refused. *)
Theorem pointing_orphan : forall i p o v fovs name c t s n, holds p "target" name -> center_of W p = Ok c -> time_of W p = Ok t -> setting_of W p o v = Ok s -> parent p n ->
  ~ In n (map (@f_idx ck) fovs) -> pointing_of W i p o v fovs = Err EIndexError.
Proof.
  intros i p o v fovs name c t s n NA C T S P N. unfold pointing_of. apply get_holds in NA. rewrite NA. cbn [bind]. rewrite C. cbn [bind]. rewrite T. cbn [bind]. rewrite S. cbn [bind].
  destruct P as [P|(b & P & ->)]; apply get_holds in P; rewrite P; cbn [bind fov_index]; now rewrite position_none.
Qed.
Lemma xst_inv : forall o fovs l first i r, xst_pointings W o first i l = Ok r -> (forall k f, nth_error l k = Some f -> nth_error fovs (i + k) = Some f) ->
  length r = length l /\ forall k kg, nth_error r k = Some kg -> xst_made o fovs first (i + k) kg.
Proof.
  intros o fovs. induction l as [|f l IH]; intros first i r H N; cbn [xst_pointings] in H; [injection H as <-; split; [reflexivity|intros [|k] kg E; discriminate]|].
  apply bind_ok in H as (t & T & H). apply bind_ok in H as (fr & F & H). apply bind_ok in H as (q & Q & H). injection H as <-.
  destruct (IH first (S i) q Q) as (L & G). { intros k g K. replace (S i + k) with (i + S k) by lia. now apply N. }
  split; [cbn; now rewrite L|]. intros [|k] kg E; [|replace (i + S k) with (S i + k) by lia; now apply G].
  injection E as <-. rewrite Nat.add_0_r. unfold xst_made. cbn [fst snd g_idx g_name g_inlined g_time g_receiver g_center]. split; [reflexivity|]. split; [reflexivity|]. split; [reflexivity|]. split; [reflexivity|].
  exists f, t, fr. split; [rewrite <- (Nat.add_0_r i); now apply N|]. split; [reflexivity|]. split; [reflexivity|]. split.
  - unfold freqs_of in F. apply bind_ok in F as (v & V & F). apply get_holds in V. destruct v; try discriminate. destruct (all_ints l0) as [n|] eqn:A; [|discriminate]. apply all_ints_inv in A. subst l0. now exists n.
  - split; [|reflexivity]. destruct (read_time ck _) as [u|]; [now injection T as ->|discriminate].
Qed.
Lemma xst_used_spec : forall o : property, xst_used o = true <-> asks_xst o.
Proof.
  intros o. unfold xst_used, asks_xst, holds. destruct (dict_get String.eqb "xst_userfile"%string o) as [v|].
  - split.
    + intro H. exists v. split; [reflexivity|]. destruct v as [n|s|b|t|a|l]; repeat split; try discriminate; intro E; injection E as ->; discriminate H.
    + intros (w & E & A & B & C & D). injection E as <-. destruct v as [n|s|b|t|a|l]; try reflexivity.
      * destruct (Z.eqb_spec n 0) as [->|]; [congruence|reflexivity].
      * destruct (String.eqb_spec s "") as [->|]; [congruence|reflexivity].
      * destruct b; [reflexivity|congruence].
      * destruct l; [congruence|reflexivity].
  - split; [discriminate|]. intros (w & E & _). discriminate.
Qed.
Lemma nickel_inv : forall a o i kg, nickel_pointing W a o (Z.of_nat i) = Ok kg -> nickel_made a o i kg.
Proof.
  intros a o i kg H. unfold nickel_pointing in H. apply bind_ok in H as (name & NA & H). apply bind_ok in H as (c & C & H). apply bind_ok in H as (t & T & H). apply bind_ok in H as (s & S & H). injection H as <-.
  unfold nickel_made. cbn [fst snd g_idx g_name g_receiver g_center g_time g_inlined]. do 4 (split; [reflexivity|]). split; [exact C|]. split; [exact T|].
  unfold nickel_setting in S. apply bind_ok in S as (ch & CH & S). apply bind_ok in S as (du & DU & S). change (old_version [0; 0]%Z) with true in S. cbn iota in S. apply bind_ok in S as (f & F & S). injection S as <-.
  apply get_holds in CH. apply get_holds in DU. exists ch, du, f. split; [exact CH|]. split; [exact DU|]. split; [|reflexivity].
  unfold freqs_of in F. apply bind_ok in F as (v & V & F). apply get_holds in V. destruct v; try discriminate. destruct (all_ints l) as [n|] eqn:A; [|discriminate]. apply all_ints_inv in A. subst l. now exists n.
Qed.
Lemma nickel_used_inv : forall o : property, nickel_used o = Ok true <-> nickel_named o.
Proof.
  intros o. unfold nickel_used, nickel_named, holds. destruct (dict_get String.eqb "nri_receivers"%string o) as [v|]; split.
  - intro H. now exists v.
  - intros (w & E & H). injection E as <-. exact H.
  - discriminate.
  - intros (w & E & _). discriminate.
Qed.

(** Pointings distributed among the fields of view. *)
Definition with_pointings (f : fov) (l : list pointing) : fov := mkFov (f_idx f) l (f_name f) (f_center f) (f_time f) (f_squint f) (f_optfreq f) (f_mas f) (f_ants f) (f_filters f).
Lemma append_nth : forall g l k j, nth_error (append_to (ck := ck) k g l) j = option_map (fun f => if k =? j then with_pointings f (f_pointings f ++ [g]) else f) (nth_error l j).
Proof.
  intros g. induction l as [|f l IH]; intros k j; [destruct k, j; reflexivity|]. destruct k as [|k], j as [|j]; cbn [append_to nth_error option_map Nat.eqb]; try reflexivity; [destruct (nth_error l j); reflexivity|apply IH].
Qed.
Lemma append_length : forall g l k, length (append_to (ck := ck) k g l) = length l.
Proof. intros g. induction l as [|f l IH]; intros [|k]; cbn [append_to length]; try reflexivity. now rewrite IH. Qed.
Lemma distribute : forall ps l, length (fold_left (fun l kg => append_to (ck := ck) (fst kg) (snd kg) l) ps l) = length l /\
  forall j, nth_error (fold_left (fun l kg => append_to (fst kg) (snd kg) l) ps l) j = option_map (fun f => with_pointings f (f_pointings f ++ of_fov j ps)) (nth_error l j).
Proof.
  induction ps as [|[k g] ps IH]; intro l; cbn [fold_left fst snd].
  - split; [reflexivity|]. intro j. destruct (nth_error l j) as [f|]; [|reflexivity]. cbn [option_map]. unfold of_fov. cbn [filter map]. rewrite app_nil_r. now destruct f.
  - destruct (IH (append_to k g l)) as (A & B). split; [now rewrite A, append_length|]. intro j. rewrite B, append_nth. destruct (nth_error l j) as [f|]; [|reflexivity]. cbn [option_map]. unfold of_fov. cbn [filter fst].
    destruct (k =? j); cbn [map snd]; [|reflexivity]. unfold with_pointings. cbn [f_idx f_name f_center f_time f_squint f_optfreq f_mas f_ants f_filters f_pointings]. now rewrite <- app_assoc.
Qed.

(** ** The description *)
Definition described (p : parset ck) (v : list Z) (beams centers xst extra : list (nat * pointing)) (fovs : list fov) : Prop :=
  let o := p_output ck p in let keys := map fst (p_anabeams ck p) in let before := beams ++ centers ++ xst in
  Forall2 (fun b => made keys o v (fst b) (snd b)) (p_digibeams ck p) beams /\
  (before_1 v -> centers = []) /\
  (~ before_1 v -> Forall2 (fun b => made keys o v (fst b + last (map fst (p_digibeams ck p)) 0 + 1)%Z (snd b)) (p_centers ck p) centers) /\
  (~ asks_xst o -> xst = []) /\
  (asks_xst o -> length xst = length (p_anabeams ck p) /\ forall i kg, nth_error xst i = Some kg -> xst_made o fovs (length (beams ++ centers)) i kg) /\
  (~ (before_1 v /\ nickel_named o) -> extra = []) /\
  (before_1 v -> nickel_named o -> Exists says_tbd (p_digibeams ck p) -> extra = []) /\
  (before_1 v -> nickel_named o -> ~ Exists says_tbd (p_digibeams ck p) ->
     exists a kg, dict_get Z.eqb 0%Z (p_anabeams ck p) = Some a /\ extra = [kg] /\ nickel_made a o (length before) kg) /\
  length fovs = length (p_anabeams ck p) /\
  forall k f, nth_error fovs k = Some f -> exists b, nth_error (p_anabeams ck p) k = Some b /\ fov_matches b f /\ f_pointings f = of_fov k (before ++ extra).
Theorem to_json_spec : forall p m fovs, to_json W p = Ok (m, fovs) ->
  exists v beams centers xst extra, version_of (p_observation ck p) = Ok v /\ metadata_of W (p_observation ck p) = Ok m /\ described p v beams centers xst extra fovs.
Proof.
  intros p m fovs H. unfold to_json in H. apply bind_ok in H as (e & E & H). unfold to_entry in E.
  apply bind_ok in E as (v & V & E). apply bind_ok in E as (meta & ME & E). apply bind_ok in E as (fs & FS & E). apply bind_ok in E as (beams & BE & E). apply bind_ok in E as (centers & CE & E).
  apply bind_ok in E as (xst & XS & E). apply bind_ok in E as (extra & EX & E). unfold remove_unused in E. apply bind_ok in E as (kept & KE & E). cbn [e_fovs e_meta e_pointings] in *. injection E as <-. injection H as -> <-. cbn [e_fovs e_pointings].
  apply map_res_ok in FS, BE, KE.
  exists v, beams, centers, xst, extra. split; [exact V|]. split; [exact ME|].
  assert (LF : length kept = length (p_anabeams ck p)) by (rewrite <- (forall2_len _ _ _ _ _ KE); symmetry; now apply (forall2_len _ _ _ _ _ FS)).
  assert (KEYS : map (@f_idx ck) fs = map fst (p_anabeams ck p)).
  { apply forall2_map. clear -FS. induction FS as [|b f l r X F IH]; constructor; [|exact IH]. unfold fov_of in X. repeat (apply bind_ok in X as (? & _ & X)). injection X as <-. reflexivity. }
  assert (FOV : forall k f', nth_error kept k = Some f' -> exists b f, nth_error (p_anabeams ck p) k = Some b /\ nth_error fs k = Some f /\ fov_matches b f' /\ f_pointings f' = [] /\ f_time f' = f_time f).
  { intros k f' N. destruct (forall2_nth _ _ _ _ _ KE k f' N) as (f & F1 & F2). destruct (forall2_nth _ _ _ _ _ FS k f F1) as (b & B1 & B2). destruct b as [i q]. cbn [fst snd] in B2.
    destruct (fov_inv i q f f' B2 F2) as (M & P0 & _ & TT). exists (i, q), f. tauto. }
  set (ps := ((beams ++ centers) ++ xst) ++ extra). destruct (distribute ps kept) as (DL & DN).
  rewrite KEYS in *|| idtac. unfold described. split.
  { rewrite <- KEYS. apply (forall2_imp _ _ _ _ _ _ (fun b kg X => pointing_inv (fst b) (snd b) _ v fs kg X)). exact BE. }
  destruct (old_version v) eqn:OV.
  - assert (B1 := proj1 (old_spec v) OV). injection CE as <-. split; [reflexivity|]. split; [contradiction|].
    split; [intro NX; destruct (xst_used (p_output ck p)) eqn:XU; [apply xst_used_spec in XU; contradiction|now injection XS as <-]|].
    split.
    { intro AX. rewrite (proj2 (xst_used_spec _) AX) in XS. destruct (xst_inv (p_output ck p) fs fs _ 0 xst XS (fun k f K => K)) as (XL & XM). split; [rewrite XL, <- (forall2_len _ _ _ _ _ FS); reflexivity|].
      intros i kg I. destruct (XM i kg I) as (A & B & C & D & f & t & fr & F1 & F2 & F3 & F4 & F5 & F6). unfold xst_made. cbn [Nat.add] in *. do 4 (split; [assumption|]).
      destruct (forall2_nth' _ _ _ _ _ KE i f F1) as (f' & G1 & G2). destruct (FOV i f' G1) as (b & f0 & _ & H1 & _ & _ & H2). assert (f0 = f) by congruence. subst f0.
      exists (with_pointings f' (f_pointings f' ++ of_fov i ps)), t, fr. split; [rewrite DN, G1; reflexivity|]. cbn [f_time with_pointings]. rewrite H2. now repeat split. }
    cbn [negb] in EX. apply bind_ok in EX as (nu & NU & EX). split.
    { intro N. destruct nu; [|now injection EX as <-]. apply nickel_used_inv in NU. elim N. now split. }
    split; [|split; [|split]].
    + intros _ NN T. apply nickel_used_inv in NN. rewrite NN in NU. injection NU as <-. cbn [negb] in EX. apply bind_ok in EX as (todos & TO & EX). apply map_res_ok in TO.
      assert (X : existsb (fun t : pval ck => match t with PStr _ s => String.eqb s "TBD" | _ => false end) todos = true).
      { apply existsb_exists. apply Exists_exists in T as (b & I & T). apply In_nth_error in I as (k & I). destruct (forall2_nth' _ _ _ _ _ TO k b I) as (t & T1 & T2). apply get_holds in T2. unfold says_tbd, holds in *. exists t. split; [now apply nth_error_In in T1|]. rewrite T in T2. injection T2 as <-. reflexivity. }
      rewrite X in EX. now injection EX as <-.
    + intros _ NN T. apply nickel_used_inv in NN. rewrite NN in NU. injection NU as <-. cbn [negb] in EX. apply bind_ok in EX as (todos & TO & EX). apply map_res_ok in TO.
      assert (X : existsb (fun t : pval ck => match t with PStr _ s => String.eqb s "TBD" | _ => false end) todos = false).
      { destruct (existsb _ todos) eqn:X; [|reflexivity]. elim T. apply existsb_exists in X as (t & I & Y). destruct t as [n|s|b|u|a|l]; try discriminate. apply String.eqb_eq in Y. subst s. apply Exists_exists.
        destruct (forall2_one _ _ _ _ _ TO _ I) as (b & J & K). exists b. split; [exact J|]. now apply get_holds in K. }
      rewrite X in EX. apply bind_ok in EX as (a & A & EX). apply bind_ok in EX as (g & G & EX). injection EX as <-. exists a, g. split; [destruct (dict_get Z.eqb 0%Z (p_anabeams ck p)); congruence|]. split; [reflexivity|].
      apply nickel_inv in G. now rewrite <- app_assoc in G.
    + rewrite DL. exact LF.
    + intros k f N. rewrite DN in N. destruct (nth_error kept k) as [f'|] eqn:K; [|discriminate]. injection N as <-. destruct (FOV k f' K) as (b & f0 & A & _ & B & C & _). exists b. split; [exact A|]. split; [exact B|]. cbn [f_pointings with_pointings]. rewrite C. cbn [app]. unfold ps. now rewrite <- (app_assoc beams).
  - assert (B1 : ~ before_1 v) by (intro X; apply old_spec in X; congruence). apply map_res_ok in CE. cbn [negb] in EX. injection EX as <-. split; [contradiction|].
    split. { intros _. rewrite <- KEYS. apply (forall2_imp _ _ _ _ _ _ (fun b kg X => pointing_inv (fst b + last (map fst (p_digibeams ck p)) 0 + 1)%Z (snd b) _ v fs kg X)). exact CE. }
    split; [intro NX; destruct (xst_used (p_output ck p)) eqn:XU; [apply xst_used_spec in XU; contradiction|now injection XS as <-]|].
    split.
    { intro AX. rewrite (proj2 (xst_used_spec _) AX) in XS. destruct (xst_inv (p_output ck p) fs fs _ 0 xst XS (fun k f K => K)) as (XL & XM). split; [rewrite XL, <- (forall2_len _ _ _ _ _ FS); reflexivity|].
      intros i kg I. destruct (XM i kg I) as (A & B & C & D & f & t & fr & F1 & F2 & F3 & F4 & F5 & F6). unfold xst_made. cbn [Nat.add] in *. do 4 (split; [assumption|]).
      destruct (forall2_nth' _ _ _ _ _ KE i f F1) as (f' & G1 & G2). destruct (FOV i f' G1) as (b & f0 & _ & H1 & _ & _ & H2). assert (f0 = f) by congruence. subst f0.
      exists (with_pointings f' (f_pointings f' ++ of_fov i ps)), t, fr. split; [rewrite DN, G1; reflexivity|]. cbn [f_time with_pointings]. rewrite H2. now repeat split. }
    split; [reflexivity|]. split; [contradiction|]. split; [contradiction|]. split; [rewrite DL; exact LF|].
    intros k f N. rewrite DN in N. destruct (nth_error kept k) as [f'|] eqn:K; [|discriminate]. injection N as <-. destruct (FOV k f' K) as (b & f0 & A & _ & B & C & _). exists b. split; [exact A|]. split; [exact B|]. cbn [f_pointings with_pointings]. rewrite C. cbn [app]. unfold ps. now rewrite <- (app_assoc beams).
Qed.
End Entries.
