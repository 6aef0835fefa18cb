(** Replayed parsets: the fields of the blocks. *)
From Coq Require Import Ascii String List Arith ZArith QArith Bool Lia.
From Verif Require Import Base M_Polar M_Dedisperse M_Pipeline M_PText M_POptions M_Parset P_Parset P_Parset2 P_Parset3 M_Replay.
Import ListNotations.
Open Scope nat_scope.
Open Scope list_scope.

Lemma res_bind : forall A B (x : res A) (f : A -> res B) y, bind x f = Ok y -> exists a, x = Ok a /\ f a = Ok y.
Proof. intros A B [a|e] f y H; [now exists a|discriminate]. Qed.

(** ** Dictionaries *)
Section Dict.
Context {V : Type}.
Notation dict := (list (string * V)).
Notation get := (dict_get (V := V) String.eqb).
Notation set := (dict_set (V := V) String.eqb).
Definition keyed (d : dict) : Prop := NoDup (map fst d).
Lemma get_set_same : forall d k j v, get j (set k v d) = if String.eqb j k then Some v else get j d.
Proof.
  induction d as [|(x, w) d IH]; intros k j v; cbn [dict_set dict_get]; [reflexivity|].
  destruct (String.eqb_spec k x) as [->|N]; cbn [dict_get]; [now destruct (String.eqb j x)|]. rewrite IH. destruct (String.eqb_spec j x) as [->|M]; [|reflexivity]. destruct (String.eqb_spec x k) as [->|]; [contradiction|reflexivity].
Qed.
Lemma set_names : forall d k v j, In j (map fst (set k v d)) -> j = k \/ In j (map fst d).
Proof. induction d as [|(x, w) d IH]; intros k v j H; cbn [dict_set map fst] in H; [destruct H as [<-|[]]; now left|]. destruct (String.eqb_spec k x) as [->|N]; cbn [map fst] in H; [right; exact H|]. destruct H as [<-|H]; [right; now left|]. destruct (IH k v j H) as [->|I]; [now left|right; now right]. Qed.
Lemma set_keyed : forall d k v, keyed d -> keyed (set k v d).
Proof.
  unfold keyed. induction d as [|(x, w) d IH]; intros k v N; cbn [dict_set]; [repeat constructor; intros []|]. cbn [map fst] in N. inversion N as [|? ? NX NL]; subst. destruct (String.eqb_spec k x) as [->|E]; cbn [map fst]; [exact N|]. constructor; [|now apply IH]. intro I. apply set_names in I as [->|I]; [now apply E|contradiction].
Qed.
Lemma get_none : forall (d : dict) k, ~ In k (map fst d) -> get k d = None.
Proof. induction d as [|(x, w) d IH]; intros k N; cbn; [reflexivity|]. destruct (String.eqb_spec k x) as [->|E]; [exfalso; apply N; now left|]. apply IH. intro I. apply N. now right. Qed.
Lemma given_get : forall (d : dict) k, keyed d -> given d k = get k d.
Proof.
  unfold keyed, given. induction d as [|(x, w) d IH]; intros k N; [reflexivity|]. cbn [map fst] in N. inversion N as [|? ? NX NL]; subst. cbn [rev]. rewrite find_app. cbn [dict_get find fst]. specialize (IH k NL).
  destruct (String.eqb_spec k x) as [->|E].
  - rewrite (get_none d x NX) in IH. destruct (find _ (rev d)) as [p|]; [discriminate|]. now rewrite String.eqb_refl.
  - destruct (find _ (rev d)) as [p|]; [exact IH|]. destruct (String.eqb_spec x k) as [->|]; [contradiction|]. exact IH.
Qed.
End Dict.

Section Replay.
Variable ck : clock.
Variable plus : date ck -> Z -> date ck.
Variable target : Type.
Variable fixed : property ck -> res (target * (string * string)).
Variable solar : pval ck -> date ck -> res target.
Variable next_transit : target -> date ck -> date ck.
Notation get := (dict_get String.eqb).
Notation new_parameters := (new_parameters ck plus target fixed solar next_transit).

(** A file: every property is a dictionary of values read from texts. *)
Definition from_texts (q : property ck) : Prop :=
  keyed q /\ forall k v, get k q = Some v -> exists text, read_value ck k text = Ok v.
Lemma texts_set : forall q key text r, from_texts q -> set_property ck q key text = Ok r -> from_texts r.
Proof.
  intros q key text r [K R] H. unfold set_property in H. apply res_bind in H as (v & E & H). injection H as <-. split; [now apply set_keyed|]. intros k w G. rewrite get_set_same in G. destruct (String.eqb_spec k key) as [->|N]; [injection G as <-; now exists text|now apply R].
Qed.
Definition beams_from (l : list (Z * property ck)) : Prop := Forall (fun b => from_texts (snd b)) l.
Lemma beams_set : forall l i b, beams_from l -> from_texts b -> beams_from (dict_set Z.eqb i b l).
Proof. intros l i b F R. unfold beams_from. induction l as [|(x, w) l IH]; cbn [dict_set]; [constructor; [exact R|constructor]|]. inversion F; subst. destruct (Z.eqb i x); constructor; auto. Qed.
Lemma beams_get : forall l i b, beams_from l -> dict_get Z.eqb i l = Some b -> from_texts b.
Proof. intros l i b F. induction l as [|(x, w) l IH]; cbn [dict_get]; [discriminate|]. inversion F; subst. destruct (i =? x)%Z; [intro H; injection H as <-; assumption|now apply IH]. Qed.
Lemma beam_line : forall label l name key text r, beams_from l -> set_beam ck label l name key text = Ok r -> beams_from r.
Proof.
  intros label l name key text r A H. unfold set_beam in H. destruct (search_bracket name) as [d|]; [|discriminate]. destruct (py_int d) as [i|]; [|discriminate]. apply res_bind in H as (b & B & H). apply res_bind in H as (b' & B' & H). injection H as <-.
  apply beams_set; [exact A|]. apply (texts_set b key text); [|exact B']. destruct (dict_get Z.eqb i l) as [c|] eqn:G; [injection B as <-; now apply (beams_get l i)|]. apply (texts_set [] label (show_int i)); [|exact B]. split; [constructor|]. intros k v K. discriminate.
Qed.
Definition file_of_texts (p : parset ck) : Prop :=
  from_texts (p_observation ck p) /\ from_texts (p_output ck p) /\ beams_from (p_anabeams ck p) /\ beams_from (p_digibeams ck p) /\ beams_from (p_centers ck p).
Lemma one_line : forall st line st', file_of_texts (snd st) -> read_line ck st line = Ok st' -> file_of_texts (snd st').
Proof.
  clear plus fixed solar next_transit target. intros (mem, p) line st' (R1 & R2 & R3 & R4 & R5) H. cbn [snd] in *. unfold read_line in H. destruct (match split_once "." line with Some x => Some x | None => mem end) as [(name, content)|]; [|discriminate]. destruct (split_once "=" content) as [(key, value)|]; [|discriminate].
  apply res_bind in H as (p' & P & H). injection H as <-. cbn [snd]. destruct (String.prefix "Observation" line); [apply res_bind in P as (o & O & P); injection P as <-; apply (texts_set _ _ _ _ R1) in O; unfold file_of_texts; cbn; tauto|].
  destruct (String.prefix "Output" line); [apply res_bind in P as (o & O & P); injection P as <-; apply (texts_set _ _ _ _ R2) in O; unfold file_of_texts; cbn; tauto|].
  destruct (String.prefix "anabeam" (lower line)); [apply res_bind in P as (o & O & P); injection P as <-; apply (beam_line _ _ _ _ _ _ R3) in O; unfold file_of_texts; cbn; tauto|].
  destruct (String.prefix "beam" (lower line)); [apply res_bind in P as (o & O & P); injection P as <-; apply (beam_line _ _ _ _ _ _ R4) in O; unfold file_of_texts; cbn; tauto|].
  destruct (String.prefix "phasecenter" (lower line)); [apply res_bind in P as (o & O & P); injection P as <-; apply (beam_line _ _ _ _ _ _ R5) in O; unfold file_of_texts; cbn; tauto|].
  injection P as <-. unfold file_of_texts; tauto.
Qed.
Lemma decode_texts : forall text p, decode ck text = Ok p -> file_of_texts p.
Proof.
  intros text p H. unfold decode in H. assert (E : file_of_texts (snd (None (A := string * string), empty_parset ck))).
  { unfold file_of_texts, from_texts, beams_from, keyed. cbn. repeat split; try discriminate; constructor. }
  revert H E. generalize (None (A := string * string), empty_parset ck). generalize (lines text). induction l as [|x l IH]; intros st H E; cbn [read_lines] in H; [injection H as <-; exact E|]. apply res_bind in H as (st' & S1 & H). apply (IH st' H). now apply (one_line st x).
Qed.

(** ** What a replayed block holds *)
Definition is_field (o : list option_entry) (key : string) : Prop := In key (map o_key o).
Lemma is_field_ok : forall k o, has_field k o = true <-> is_field o k.
Proof.
  intros k o. unfold has_field, is_field. rewrite existsb_exists. split; [intros (x & I & E); apply String.eqb_eq in E; now subst|intro I; exists k; split; [exact I|apply String.eqb_refl]].
Qed.
(** The block made from a beam of the file by [load_from_parset]. *)
Definition loaded (o : list option_entry) (q : property ck) : block := modify_properties ck (copy_fields ck q o) (new_block o).
Definition pointing_fields : list string := ["startTime"; "duration"; "filterTime"; "ra"; "dec"; "transitDate"]%string.
(** A beam moved by [d] milliseconds, with a new duration if one is given. *)
Record replayed (o : list option_entry) (d : Z) (duration : option Q) (q : property ck) (b : block) : Prop := {
  r_start : forall t, get "startTime"%string q = Some (PTime ck t) -> value b "startTime" = Some (SStr (show_isot ck (plus t d) ++ "Z")%string);
  r_no_start : get "startTime"%string q = None -> value b "startTime" = value (loaded o q) "startTime";
  r_date : forall v, get "startTime"%string q = Some v -> exists t, v = PTime ck t;
  r_duration : value b "duration" = match duration with
                                    | Some x => Some (SStr (show_int (round_even x) ++ "s")%string)
                                    | None => value (loaded o q) "duration"
                                    end;
  r_filter : is_field o "filterTime" -> forall ts, get "filterTime"%string q = Some (PList ck (map (ITime ck) ts)) ->
    value b "filterTime" = Some (SStr ("[" ++ join "," (map (fun t => show_time ck (plus t d)) ts) ++ "]")%string);
  r_others : forall key, key <> "noBeam"%string -> ~ In key pointing_fields -> value b key = value (loaded o q) key }.

Lemma copy_get : forall q o k, get k (copy_fields ck q o) = if has_field k o then option_map (uval_of ck) (get k q) else None.
Proof.
  intros q o k. unfold copy_fields. induction q as [|(x, w) q IH]; cbn [filter map dict_get fst snd]; [now destruct (has_field k o)|].
  destruct (existsb (String.eqb x) (map o_key o)) eqn:E; cbn [map dict_get fst snd].
  - destruct (String.eqb_spec k x) as [->|N]; [unfold has_field; now rewrite E|]. exact IH.
  - rewrite IH. destruct (String.eqb_spec k x) as [->|N]; [unfold has_field; now rewrite E|reflexivity].
Qed.
Lemma copy_keyed : forall q o, keyed q -> keyed (copy_fields ck q o).
Proof.
  intros q o K. unfold copy_fields, keyed. rewrite map_map. cbn [fst]. unfold keyed in K. induction q as [|(x, w) q IH]; [constructor|]. cbn [map fst] in K. inversion K as [|? ? NX NL]; subst. cbn [filter fst]. destruct (existsb _ _); [|now apply IH]. cbn [map fst]. constructor; [|now apply IH]. intro I. apply NX. apply in_map_iff in I as ((y & v) & E & I). apply filter_In in I as [I _]. cbn in E. subst. apply in_map_iff. now exists (x, v).
Qed.
(** The value of a field after [_modify_properties]. *)
Lemma value_new : forall kw o k, keyed kw -> is_field o k ->
  value (modify_properties ck kw (new_block o)) k = match get k kw with Some v => Some (store ck v) | None => value (new_block o) k end.
Proof.
  intros kw o k K F. unfold value. rewrite field_modify, given_get by exact K. destruct (get k kw) as [v|]; [|reflexivity].
  destruct (field (new_block o) k) eqn:E; [reflexivity|]. exfalso. apply (field_in_keys (new_block o) k); [|exact E]. unfold new_block. rewrite map_map. exact F.
Qed.
Lemma value_absent : forall kw o k, ~ is_field o k -> value (modify_properties ck kw (new_block o)) k = None.
Proof.
  intros kw o k F. unfold value, field. destruct (find _ _) as [e|] eqn:E; [|reflexivity]. exfalso. apply find_some in E as [I E]. apply String.eqb_eq in E. apply F. unfold is_field. apply (in_map e_key) in I. rewrite modify_keys in I. unfold new_block in I. rewrite map_map in I. cbn [e_key] in I. now rewrite E in I.
Qed.
Lemma value_loaded : forall q o k, keyed q -> is_field o k -> value (loaded o q) k = match get k q with Some v => Some (store ck (uval_of ck v)) | None => value (new_block o) k end.
Proof. intros q o k K F. unfold loaded. rewrite value_new by (try apply copy_keyed; assumption). rewrite copy_get. apply is_field_ok in F. rewrite F. now destruct (get k q). Qed.

Lemma move_items_dates : forall d l r, move_items ck plus d l = Ok r -> exists ts, l = map (ITime ck) ts /\ r = map (fun t => ITime ck (plus t d)) ts.
Proof.
  induction l as [|x l IH]; intros r H; cbn [move_items] in H; [injection H as <-; now exists []|]. destruct x as [n|s|t]; try discriminate. apply res_bind in H as (r' & E & H). injection H as <-. destruct (IH r' E) as (ts & -> & ->). now exists (t :: ts).
Qed.
Lemma itime_inj : forall ts ts', map (ITime ck) ts = map (ITime ck) ts' -> ts = ts'.
Proof. induction ts as [|t ts IH]; intros [|t' ts'] H; try discriminate; [reflexivity|]. cbn in H. injection H as -> H. f_equal. now apply IH. Qed.

(** The parameters of a block that has a pointing. *)
Lemma pointed_get : forall q p p', pointed ck target fixed solar next_transit q p = Ok p' -> keyed p ->
  keyed p' /\ forall k, ~ In k ["ra"; "dec"; "transitDate"]%string -> get k p' = get k p.
Proof.
  clear plus. intros q p p' H K. unfold pointed in H. destruct (get "trackingType"%string q) as [v|]; [|injection H as <-; split; [exact K|reflexivity]]. destruct (is_text ck "tracking" v); [|discriminate]. apply res_bind in H as ((tg & angles) & _ & H). apply res_bind in H as (t & _ & H). injection H as <-.
  split.
  - apply set_keyed. destruct angles as [(ra & dec)|]; [now do 2 apply set_keyed|exact K].
  - intros k N. assert (k <> "ra"%string /\ k <> "dec"%string /\ k <> "transitDate"%string) as (N1 & N2 & N3) by (repeat split; intros ->; apply N; cbn; tauto).
    rewrite get_set_same. apply String.eqb_neq in N3. rewrite N3. destruct angles as [(ra & dec)|]; [|reflexivity]. rewrite !get_set_same. apply String.eqb_neq in N1, N2. now rewrite N1, N2.
Qed.
Lemma receivers_get : forall p p', fewer_receivers ck p = Ok p' -> keyed p -> keyed p' /\ forall k, k <> "hd_receivers"%string -> get k p' = get k p.
Proof.
  intros p p' H K. unfold fewer_receivers in H. destruct (get "hd_receivers"%string p) as [v|]; [|injection H as <-; split; [exact K|reflexivity]]. destruct v; try discriminate. injection H as <-. split; [now apply set_keyed|]. intros k N. rewrite get_set_same. apply String.eqb_neq in N. now rewrite N.
Qed.

Definition point_fields (o : list option_entry) : Prop :=
  is_field o "trackingType" /\ is_field o "startTime" /\ is_field o "duration" /\ is_field o "ra" /\ is_field o "dec" /\ is_field o "transitDate" /\ ~ is_field o "hd_receivers".
Record moved_params (o : list option_entry) (d : Z) (duration : option Q) (q : property ck) (kw : params ck) : Prop := {
  m_keyed : keyed kw;
  m_date : forall v, get "startTime"%string q = Some v -> exists t, v = PTime ck t;
  m_start : get "startTime"%string kw = match get "startTime"%string q with Some (PTime _ t) => Some (UTime ck (plus t d)) | _ => None end;
  m_duration : get "duration"%string kw = match duration with Some x => Some (UDelta ck x) | None => option_map (uval_of ck) (get "duration"%string q) end;
  m_filter : is_field o "filterTime" -> forall ts, get "filterTime"%string q = Some (PList ck (map (ITime ck) ts)) -> get "filterTime"%string kw = Some (UList ck (map (fun t => ITime ck (plus t d)) ts));
  m_others : forall k, ~ In k pointing_fields -> get k kw = get k (copy_fields ck q o) }.

Lemma params_moved : forall o d duration q kw, point_fields o -> keyed q -> new_parameters d duration q o = Ok kw -> moved_params o d duration q kw.
Proof.
  intros o d duration q kw (FT & FS & FD & FR & FC & FX & NH) K H. unfold M_Replay.new_parameters in H. apply is_field_ok in FT. rewrite FT in H.
  pose proof (copy_keyed q o K) as KC. pose proof (copy_get q o) as CG. set (p0 := copy_fields ck q o) in *.
  apply res_bind in H as (p1 & H1 & H). apply res_bind in H as (p3 & H3 & H).
  assert (S1 : keyed p1 /\ get "startTime"%string p1 = (match get "startTime"%string q with Some (PTime _ t) => Some (UTime ck (plus t d)) | _ => None end)
               /\ (forall v, get "startTime"%string q = Some v -> exists t, v = PTime ck t) /\ forall k, k <> "startTime"%string -> get k p1 = get k p0).
  { unfold move_start in H1. rewrite CG in H1. pose proof FS as FS'. apply is_field_ok in FS'. rewrite FS' in H1. destruct (get "startTime"%string q) as [v|] eqn:E; cbn [option_map] in H1.
    - destruct v; cbn [uval_of] in H1; try discriminate. injection H1 as <-. split; [now apply set_keyed|]. split; [now rewrite get_set_same|]. split; [intros v E'; injection E' as <-; now eexists|]. intros k N. rewrite get_set_same. apply String.eqb_neq in N. now rewrite N.
    - injection H1 as <-. split; [exact KC|]. split; [rewrite CG, FS', E; reflexivity|]. split; [discriminate|reflexivity]. }
  destruct S1 as (K1 & G1 & D1 & O1).
  assert (S2 : keyed (move_duration ck duration p1) /\ get "duration"%string (move_duration ck duration p1) = (match duration with Some x => Some (UDelta ck x) | None => option_map (uval_of ck) (get "duration"%string q) end)
               /\ forall k, k <> "duration"%string -> get k (move_duration ck duration p1) = get k p1).
  { unfold move_duration. destruct duration as [x|].
    - split; [now apply set_keyed|]. split; [now rewrite get_set_same|]. intros k N. rewrite get_set_same. apply String.eqb_neq in N. now rewrite N.
    - split; [exact K1|]. split; [|reflexivity]. rewrite O1 by discriminate. rewrite CG. apply is_field_ok in FD. now rewrite FD. }
  destruct S2 as (K2 & G2 & O2). set (p2 := move_duration ck duration p1) in *.
  assert (S3 : keyed p3 /\ (is_field o "filterTime" -> forall ts, get "filterTime"%string q = Some (PList ck (map (ITime ck) ts)) -> get "filterTime"%string p3 = Some (UList ck (map (fun t => ITime ck (plus t d)) ts)))
               /\ forall k, k <> "filterTime"%string -> get k p3 = get k p2).
  { unfold move_filter in H3. assert (E2 : get "filterTime"%string p2 = if has_field "filterTime" o then option_map (uval_of ck) (get "filterTime"%string q) else None).
    { rewrite O2 by discriminate. rewrite O1 by discriminate. apply CG. }
    rewrite E2 in H3. destruct (has_field "filterTime" o) eqn:FF.
    - destruct (get "filterTime"%string q) as [v|] eqn:E; cbn [option_map] in H3.
      + destruct v; cbn [uval_of] in H3; try discriminate.
        * destruct s; [|discriminate]. injection H3 as <-. split; [now apply set_keyed|]. split; [discriminate|]. intros k N. rewrite get_set_same. apply String.eqb_neq in N. now rewrite N.
        * apply res_bind in H3 as (l' & L & H3). injection H3 as <-. apply move_items_dates in L as (ts & -> & ->). split; [now apply set_keyed|]. split; [intros _ ts' E'; injection E' as E'; apply itime_inj in E'; subst ts'; now rewrite get_set_same|]. intros k N. rewrite get_set_same. apply String.eqb_neq in N. now rewrite N.
      + injection H3 as <-. split; [exact K2|]. split; [discriminate|reflexivity].
    - injection H3 as <-. split; [exact K2|]. split; [|reflexivity]. intro F. apply is_field_ok in F. congruence. }
  destruct S3 as (K3 & G3 & O3).
  assert (S4 : keyed kw /\ forall k, ~ In k ["ra"; "dec"; "transitDate"]%string -> get k kw = get k p3).
  { destruct (get "trackingType"%string q) as [v|]; [|injection H as <-; split; [exact K3|reflexivity]]. apply res_bind in H as (p4 & H4 & H). apply pointed_get in H4 as (K4 & O4); [|exact K3].
    assert (N4 : get "hd_receivers"%string p4 = None).
    { rewrite O4 by (cbn; intuition discriminate). rewrite O3, O2, O1 by discriminate. rewrite CG. destruct (has_field "hd_receivers" o) eqn:F; [apply is_field_ok in F; contradiction|reflexivity]. }
    unfold fewer_receivers in H. rewrite N4 in H. injection H as <-. now split. }
  destruct S4 as (K4 & O4). constructor.
  - exact K4.
  - exact D1.
  - rewrite O4 by (cbn; intuition discriminate). rewrite O3, O2 by discriminate. exact G1.
  - rewrite O4 by (cbn; intuition discriminate). rewrite O3 by discriminate. exact G2.
  - intros F ts E. rewrite O4 by (cbn; intuition discriminate). now apply G3.
  - intros k N. assert (k <> "startTime" /\ k <> "duration" /\ k <> "filterTime")%string as (N1 & N2 & N3) by (repeat split; intros ->; apply N; cbn; tauto).
    rewrite O4 by (intro I; apply N; cbn in I |- *; tauto). now rewrite O3, O2, O1.
Qed.
Lemma params_replayed : forall o d duration q kw, point_fields o -> keyed q -> new_parameters d duration q o = Ok kw ->
  replayed o d duration q (modify_properties ck kw (new_block o)).
Proof.
  intros o d duration q kw P K H. destruct (params_moved o d duration q kw P K H) as [MK MD MS MU MF MO]. destruct P as (FT & FS & FD & _). constructor.
  - intros t E. rewrite value_new by assumption. now rewrite MS, E.
  - intros E. rewrite value_new, value_loaded by assumption. now rewrite MS, E.
  - exact MD.
  - rewrite value_new by assumption. rewrite MU. destruct duration; [reflexivity|]. rewrite value_loaded by assumption. now destruct (get "duration"%string q).
  - intros F ts E. rewrite value_new by assumption. rewrite (MF F ts E). cbn [store]. rewrite map_map. reflexivity.
  - intros k _ N. destruct (in_dec string_dec k (map o_key o)) as [F|F].
    + rewrite value_new, value_loaded by assumption. rewrite (MO k N), copy_get. apply is_field_ok in F. rewrite F. now destruct (get k q).
    + unfold loaded. now rewrite !value_absent.
Qed.

Lemma plain_value : forall b k, k <> "noBeam"%string -> value (plain b) k = value b k.
Proof.
  intros b k N. unfold value, field, plain. f_equal. induction b as [|e b IH]; [reflexivity|]. cbn [filter find]. destruct (String.eqb_spec (e_key e) "noBeam") as [E|E]; cbn [negb].
  - destruct (String.eqb_spec (e_key e) k) as [E'|E']; [congruence|exact IH].
  - cbn [find]. destruct (String.eqb (e_key e) k); [reflexivity|exact IH].
Qed.
Lemma replayed_plain : forall o d duration q b, replayed o d duration q b -> replayed o d duration q (plain b).
Proof.
  intros o d duration q b [R1 R2 R3 R4 R5 R6]. constructor; intros; rewrite ?plain_value by (discriminate || assumption); auto.
Qed.
Lemma ana_points : point_fields anabeam_options.
Proof. unfold point_fields, is_field. cbn. intuition discriminate. Qed.
Lemma beam_points : point_fields beam_options.
Proof. unfold point_fields, is_field. cbn. intuition discriminate. Qed.
Lemma center_points : point_fields phasecenter_options.
Proof. unfold point_fields, is_field. cbn. intuition discriminate. Qed.
End Replay.
