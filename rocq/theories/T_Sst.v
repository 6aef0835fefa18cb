(** Properties of sets of statistics files (C243 to C247). *)
From Coq Require Import ZArith QArith Bool Ascii String List Lia Permutation.
From Verif Require Import Base M_PText M_Sst P_Sst.
Import ListNotations.
Open Scope nat_scope.
Open Scope list_scope.

(** ** C243: sums *)
Theorem C243_creation : forall fs l, (exist fs l -> exists s, create fs true l = Ok s) /\ (~ exist fs l -> create fs true l = Err EException).
Proof. exact creation. Qed.
Print Assumptions C243_creation.
Theorem C243_sums_exist : forall fs l m a b, made fs l a -> made fs m b -> exists c, add fs a b = Ok c /\ made fs (l ++ m) c.
Proof. exact sums_exist. Qed.
Print Assumptions C243_sums_exist.
Theorem C243_sum_of_list : forall fs ls l a, made fs l a -> forall ss, Forall2 (made fs) ls ss -> exists c, sum_from fs a ss = Ok c /\ made fs (l ++ concat ls) c.
Proof. exact sum_of_list. Qed.
Print Assumptions C243_sum_of_list.
Theorem C243_files : forall fs l s, made fs l s -> Permutation (names s) l /\ forall f p, get_key f (s_props s) = Some p <-> In f l /\ fs f = Some p.
Proof. exact files_of_sums. Qed.
Print Assumptions C243_files.
Theorem C243_ranges : forall fs l s, made fs l s -> ranges fs l s.
Proof. exact sums_ranges. Qed.
Print Assumptions C243_ranges.
Definition pa := mkProps 0 10 20 80 ["NW"; "NE"]%string. Definition pb := mkProps 10 25 10 70 ["NW"; "NE"]%string. Definition pc := mkProps 30 40 20 80 ["NW"; "NE"]%string.
Definition demo (f : string) : option props :=
  if String.eqb f "d/1.fits" then Some pa else if String.eqb f "d/2.fits" then Some pb else if String.eqb f "e/1.fits" then Some pc else None.
Definition sa := mkSst ["d/1.fits"%string] [("d/1.fits"%string, pa)]. Definition sb := mkSst ["d/2.fits"%string] [("d/2.fits"%string, pb)]. Definition sc := mkSst ["e/1.fits"%string] [("e/1.fits"%string, pc)].
Definition sba := mkSst ["d/2.fits"; "d/1.fits"]%string [("d/2.fits"%string, pb); ("d/1.fits"%string, pa)].
Example C243_ex : made demo ["d/1.fits"]%string sa /\ made demo ["d/2.fits"]%string sb /\ add demo sb sa = Ok sba /\ sum_from demo sb [sa] = Ok sba
  /\ names sba = ["d/1.fits"; "d/2.fits"]%string /\ (t_min sba, t_max sba, f_min sba, f_max sba) = (Ok 0%Q, Ok 25%Q, Ok 10%Q, Ok 80%Q)
  /\ create demo true ["d/1.fits"; "x"]%string = Err EException.
Proof. split; [now constructor|]. split; [now constructor|]. repeat split. Qed.

(** ** C244: differences *)
Theorem C244_removal : forall fs l m a b, made fs l a -> made fs m b -> NoDup (map base l) ->
  exists c, sub fs a b = Ok c /\ Permutation (names c) (kept l m) /\ (forall f p, get_key f (s_props c) = Some p <-> In f (kept l m) /\ fs f = Some p) /\ ranges fs (kept l m) c.
Proof. exact removal. Qed.
Print Assumptions C244_removal.
Theorem C244_sum_then_removal : forall fs l m a b, made fs l a -> made fs m b -> NoDup (map base (l ++ m)) ->
  exists s c, add fs a b = Ok s /\ sub fs s b = Ok c /\ Permutation (names c) l /\ (forall f, get_key f (s_props c) = get_key f (s_props a)) /\ ranges fs l c /\ eq c a = true /\ eq a c = true.
Proof. exact sum_then_removal. Qed.
Print Assumptions C244_sum_then_removal.
Theorem C244_shared_refuted : forall fs p q xp xq, base p = base q -> p <> q -> String.leb p q = true -> String.leb q p = false -> fs p = Some xp -> fs q = Some xq ->
  exists a b s c, create fs true [q] = Ok a /\ create fs true [p] = Ok b /\ add fs a b = Ok s /\ sub fs s a = Ok c /\ names c = [q] /\ s_props c = [(p, xp)] /\ t_min c = Ok (p_tmin xp).
Proof. exact shared_refuted. Qed.
Print Assumptions C244_shared_refuted.
Theorem C244_base : forall dir f, has_char "/" f = false -> base f = f /\ base (dir ++ String "/" f) = f.
Proof. exact base_name. Qed.
Print Assumptions C244_base.
Example C244_ex : NoDup (map base ["d/2.fits"; "d/1.fits"]%string) /\ sub demo sba sb = Ok sa /\ kept ["d/2.fits"; "d/1.fits"]%string ["d/2.fits"]%string = ["d/1.fits"]%string
  /\ base "d/1.fits" = base "e/1.fits" /\ base "d/1.fits" = "1.fits"%string /\ String.leb "d/1.fits" "e/1.fits" = true /\ String.leb "e/1.fits" "d/1.fits" = false.
Proof. split; [repeat constructor; cbn; intuition discriminate|repeat split]. Qed.

(** ** C245: equality *)
Theorem C245_equality : forall fs l m a b, made fs l a -> made fs m b -> (eq a b = true <-> covers l m).
Proof. exact equality. Qed.
Print Assumptions C245_equality.
Theorem C245_order : (forall a, eq a a = true) /\ (forall a b c, eq a b = true -> eq b c = true -> eq a c = true).
Proof. exact equality_order. Qed.
Print Assumptions C245_order.
Theorem C245_symmetric_refuted : forall fs l m a b, made fs l a -> made fs m b -> exists c, add fs a b = Ok c /\ eq c a = true /\ (eq a c = true <-> covers l m).
Proof. exact symmetric_refuted. Qed.
Print Assumptions C245_symmetric_refuted.
Example C245_ex : eq sba sa = true /\ eq sa sba = false /\ eq sa sc = true /\ covers ["d/1.fits"]%string ["e/1.fits"]%string /\ ~ covers ["d/1.fits"]%string ["d/2.fits"]%string.
Proof.
  split; [reflexivity|]. split; [reflexivity|]. split; [reflexivity|]. split; [intros f [<-|[]]; exists "d/1.fits"%string; split; [now left|reflexivity]|].
  intro H. destruct (H "d/2.fits"%string (or_introl eq_refl)) as (g & [<-|[]] & E). discriminate E.
Qed.

(** ** C246: ranges of a selection *)
Theorem C246_boundaries : (forall x, boundaries [x] = Ok [x; x]) /\
  (forall x y, exists a b, boundaries [x; y] = Ok [a; b] /\ (a <= b)%Q /\ ((a = x /\ b = y) \/ (a = y /\ b = x))) /\
  (forall l, 2 < length l -> boundaries l = Err EIndexError) /\ boundaries [] = Ok [].
Proof. exact boundaries_two. Qed.
Print Assumptions C246_boundaries.
Theorem C246_skipped : forall p t0 t1 f0 f1, (f0 <= f1)%Q -> (skipped p t0 t1 f0 f1 = false <-> (t0 <= p_tmax p)%Q /\ (p_tmin p <= t1)%Q /\ (f1 <= p_fmax p)%Q).
Proof. exact skipped_spec. Qed.
Print Assumptions C246_skipped.
Theorem C246_skipped_refuted : forall p t0 t1 f0 f1, (overlaps p t0 t1 f0 f1 -> (p_fmax p < f1)%Q -> skipped p t0 t1 f0 f1 = true)
  /\ ((t0 <= p_tmax p)%Q -> (p_tmin p <= t1)%Q -> (f0 <= f1)%Q -> (f1 < p_fmin p)%Q -> (p_fmin p <= p_fmax p)%Q -> skipped p t0 t1 f0 f1 = false).
Proof. exact skipped_refuted. Qed.
Print Assumptions C246_skipped_refuted.
Example C246_ex : boundaries [3; 1]%Q = Ok [1; 3]%Q /\ boundaries [3; 1; 2]%Q = Err EIndexError
  /\ skipped pa 0 10 30 90 = true /\ skipped pa 0 10 30 40 = false /\ skipped pa 0 10 5 10 = false /\ skipped pa 11 12 30 40 = true
  /\ overlaps pa 0 10 30 90 /\ (p_fmax pa < 90)%Q.
Proof. repeat split; discriminate. Qed.

(** ** C247: selections *)
Theorem C247_never_selects : forall s ls, s_props s <> [] -> Forall (fun r => exists x, r = Err x /\ refusal x) (selects s nothing ls).
Proof. exact never_selects. Qed.
Print Assumptions C247_never_selects.
Theorem C247_plain_refuted : forall s m, s_props s <> [] -> snd (select s nothing []) = Err EAttributeError /\ snd (select s nothing [KMa (Some m)]) = Err EAntennaIndex /\ snd (select s nothing [KMa None]) = Err ETypeError.
Proof. exact select_plain. Qed.
Print Assumptions C247_plain_refuted.
Theorem C247_empty : forall s m p f t e, s_props s = [] -> boundaries f = Ok e -> forall e', boundaries t = Ok e' -> s_files s = [] -> snd (select s nothing [KFreq (Some f); KTime (Some t); KMa (Some m); KPolar (Some p)]) = Ok tt.
Proof. exact select_empty. Qed.
Print Assumptions C247_empty.
Example C247_ex : selects sba nothing [[]; [KMa (Some 3%Z)]; [KPolar (Some "nw"%string)]; [KFreq (Some [1; 2; 3]%Q)]] = [Err EAttributeError; Err EAntennaIndex; Err EAttributeError; Err EIndexError]
  /\ sub demo sa sa = Ok (mkSst [] []) /\ snd (select (mkSst [] []) nothing [KFreq (Some [1%Q]); KTime (Some [1; 2]%Q); KMa (Some 3%Z); KPolar (Some "nw"%string)]) = Ok tt.
Proof. repeat split. Qed.
