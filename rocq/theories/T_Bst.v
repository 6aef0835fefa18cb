(** Properties of the selections of beamformed statistics (C211 to C215). *)
From Coq Require Import Ascii String List Arith ZArith QArith Bool Sorting.Sorted Lia Lqa.
From Verif Require Import Base M_Nd M_SData M_Bst P_Bst.
Import ListNotations.
Open Scope nat_scope.
Open Scope list_scope.

(** ** C211: opening *)
Theorem C211_opening : forall A (f : file A), sound f -> f_bea f <> [] -> f_times f <> [] -> In "NW"%string (f_pols f) -> (exists x, in_file f x) ->
  exists s b p fi, opened f = Ok s /\ nth_error (f_bea f) 0 = Some b /\ s_dbeam s = 0%Z /\ s_polar s = "NW"%string /\
    selects f s b p (seq 0 (length (f_times f))) fi /\ coherent f s.
Proof. exact @opening. Qed.
Print Assumptions C211_opening.
Theorem C211_channels : forall A (f : file A) s b p ti fi a j, sound f -> opened f = Ok s -> selects f s b p ti fi -> in_file f a -> (forall x, in_file f x -> (a <= x)%Q) ->
  j < length (channels b) -> in_file f (nth j (b_freqs b) 0%Q) -> (In j fi <-> (a <= at_ (channels b) j)%Q).
Proof. exact @opening_channels. Qed.
Print Assumptions C211_channels.
Theorem C211_lowest_refuted : forall A (f : file A) s b p ti fi j, sound f -> opened f = Ok s -> selects f s b p ti fi -> j < length (channels b) ->
  in_file f (nth j (b_freqs b) 0%Q) -> (forall x, in_file f x -> (nth j (b_freqs b) 0 <= x)%Q) -> ~ In j fi.
Proof. exact @opening_lowest_refuted. Qed.
Print Assumptions C211_lowest_refuted.
(** Four times, two polarizations and two beams, of three and of two beamlets *)
Definition demo_beams : list beam := [mkBeam 0 3 [0; 1; 2; 0] [30; 31; 32; 0]%Q; mkBeam 1 2 [3; 4; 0; 0] [50; 51; 0; 0]%Q].
Definition demo_file : file nat :=
  mkFile [0; 1; 2; 3]%Q 2 2 demo_beams ["NE"; "NW"]%string [(2, [7; 8; 0]); (1, [9; 0; 0])] [mkPointing 0 0 10 80; mkPointing 1 0 20 70; mkPointing 0 2 11 81; mkPointing 0 4 0 0]
    [mkPointing 0 0 10 80; mkPointing 0 1 11 81; mkPointing 0 3 12 82] (mkNd [4; 2; 5] (fun i => match i with [t; p; b] => 100 * t + 10 * p + b | _ => 0 end)).
Lemma demo_sound : sound demo_file.
Proof.
  split; [repeat constructor; cbn; intuition discriminate|]. split; [reflexivity|]. exists 5. split; [reflexivity|].
  intros b [<-|[<-|[]]]; (split; [cbn; lia|]; split; [reflexivity|]; split; [cbn; repeat constructor; cbn; intuition discriminate|]; split; [cbn; intuition lia|cbn; lia]).
Qed.
Definition all := mkSel None None None None.
Definition shown (r : res (sdata nat string)) : res (list Q * list Q * list string * list nat) :=
  bind r (fun d => Ok (s_time d, map Qred (s_freq d), M_SData.s_polar d,
    flat_map (fun i => map (fun j => get (s_data d) [i; j; 0]) (seq 0 (length (s_freq d)))) (seq 0 (length (s_time d))))).
Definition first : bst := match opened demo_file with Ok s => s | Err _ => blank end.
Example C211_ex : shown (snd (select demo_file all first)) = Ok ([0; 1; 2; 3]%Q, [7911 # 256; 8167 # 256]%Q, ["NW"%string], [11; 12; 111; 112; 211; 212; 311; 312]) /\
  opened demo_file = Ok first /\ in_file demo_file 30%Q /\ (forall x, in_file demo_file x -> (30 <= x)%Q).
Proof.
  split; [vm_compute; reflexivity|]. split; [reflexivity|]. split; [split; [discriminate|]; exists (mkBeam 0 3 [0; 1; 2; 0] [30; 31; 32; 0]%Q); split; [now left|now left]|].
  intros x (N & b & [<-|[<-|[]]] & I); cbn in I; decompose [or] I; subst; try contradiction; try lra; exfalso; apply N; reflexivity.
Qed.

(** ** C212: selections *)
Theorem C212_select : forall A (f : file A) k s, sound f -> coherent f s -> careful f k ->
  (forall d, k_dbeam k = Some d -> exists z, d = Some z /\ (0 <= z < f_n_beam f)%Z) ->
  (forall r, k_freq k = Some r -> forall b, In b (f_bea f) -> exists fi, picks (channels b) r fi) ->
  (forall r, k_time k = Some r -> exists ti, picks (f_times f) r ti) ->
  (forall p, k_polar k = Some p -> exists q, p = Some q /\ In (upper q) (f_pols f)) ->
  exists s' r b p ti fi, select f k s = (s', Ok r) /\
    Some (s_dbeam s') = or_old (k_dbeam k) (Some (s_dbeam s)) /\ s_freqrange s' = or_old (k_freq k) (s_freqrange s) /\
    s_timerange s' = or_old (k_time k) (s_timerange s) /\ Some (s_polar s') = or_old (option_map (option_map upper) (k_polar k)) (Some (s_polar s)) /\
    selects f s' b p ti fi /\ delivered f b p ti fi r.
Proof. exact @select_exact. Qed.
Print Assumptions C212_select.
Theorem C212_current : forall A (f : file A) s b p ti fi, sound f -> coherent f s -> selects f s b p ti fi -> exists r, current f s = Ok r /\ delivered f b p ti fi r.
Proof. exact @coherent_delivered. Qed.
Print Assumptions C212_current.
Example C212_ex :
  shown (snd (select demo_file (mkSel (Some (Some 1%Z)) (Some (Many [50; 52]%Q)) (Some (Many [1; 2]%Q)) (Some (Some "ne"%string))) first)) = Ok ([1; 2]%Q, [13031 # 256]%Q, ["NE"%string], [104; 204]) /\
  shown (snd (select demo_file (mkSel None (Some (One 31)) (Some (One (3 # 2))) None) first)) = Ok ([1]%Q, [7911 # 256]%Q, ["NW"%string], [111]) /\
  shown (snd (select demo_file (mkSel None (Some (Many [60; 70]%Q)) None None) first)) = Ok ([0; 1; 2; 3]%Q, []%Q, ["NW"%string], []) /\
  coherent demo_file first /\ careful demo_file (mkSel (Some (Some 1%Z)) (Some (Many [50; 52]%Q)) None None).
Proof.
  do 3 (split; [vm_compute; reflexivity|]). split.
  - destruct (C211_opening nat demo_file demo_sound) as (s & _ & _ & _ & O & _ & _ & _ & _ & C); try discriminate; [right; now left| |].
    + exists 30%Q. split; [discriminate|]. exists (mkBeam 0 3 [0; 1; 2; 0] [30; 31; 32; 0]%Q). split; now left.
    + assert (E : s = first) by (unfold first; now rewrite O). now rewrite <- E.
  - right. exists (Many [50; 52]%Q). split; [reflexivity|]. intros b _. eexists. apply chosen_picks. reflexivity.
Qed.

(** ** C213: attributes kept *)
Theorem C213_history : forall A (f : file A) ks, sound f -> f_bea f <> [] -> f_times f <> [] -> In "NW"%string (f_pols f) -> (exists x, in_file f x) -> Forall (careful f) ks ->
  exists s, opened f = Ok s /\ forall b p ti fi, selects f (run f ks s) b p ti fi -> exists r, select f (mkSel None None None None) (run f ks s) = (run f ks s, Ok r) /\ delivered f b p ti fi r.
Proof. exact @history. Qed.
Print Assumptions C213_history.
Theorem C213_careful : forall A (f : file A) ks s, sound f -> coherent f s -> Forall (careful f) ks -> coherent f (run f ks s).
Proof. exact @coherent_run. Qed.
Print Assumptions C213_careful.
Theorem C213_refused_beam : forall A (f : file A) k s d, sound f -> k_dbeam k = Some (Some d) -> ~ (0 <= d < f_n_beam f)%Z -> select f k s = (s, Err EIndexError).
Proof. exact @refused_dbeam. Qed.
Print Assumptions C213_refused_beam.
Theorem C213_refused_time : forall A (f : file A) fr r s b fi, sound f -> coherent f s -> nth_error (f_bea f) (Z.to_nat (s_dbeam s)) = Some b -> picks (channels b) fr fi -> (forall ti, ~ picks (f_times f) r ti) ->
  exists s', select f (mkSel None (Some fr) (Some r) None) s = (s', Err EValueError) /\ s_freqrange s' = fr /\ s_timerange s' = s_timerange s /\ coherent f s'.
Proof. exact @refused_time. Qed.
Print Assumptions C213_refused_time.
Example C213_ex :
  shown (snd (select demo_file all (run demo_file [mkSel None (Some (One 32)) None None; mkSel None None (Some (Many [2; 9]%Q)) None; mkSel (Some (Some 7%Z)) None None None; mkSel None None None (Some (Some "NE"%string)); mkSel None None None None] first)))
    = Ok ([2; 3]%Q, [8167 # 256]%Q, ["NE"%string], [202; 302]) /\
  snd (select demo_file (mkSel None (Some (One 31)) (Some (Many [2]%Q)) None) first) = Err EValueError /\
  s_freqrange (fst (select demo_file (mkSel None (Some (One 31)) (Some (Many [2]%Q)) None) first)) = One 31.
Proof. repeat split; vm_compute; reflexivity. Qed.

(** ** C214: another beam *)
Theorem C214_beam_refuted : forall A (f : file A) s b p ti fi d c, sound f -> coherent f s -> selects f s b p ti fi -> fi <> [] -> (0 <= d < f_n_beam f)%Z -> nth_error (f_bea f) (Z.to_nat d) = Some c -> disjoint b c ->
  exists s', select f (mkSel (Some (Some d)) None None None) s = (s', Err EAssertionError) /\ s_dbeam s' = d /\ stuck f s'.
Proof. exact @beam_refuted. Qed.
Print Assumptions C214_beam_refuted.
Theorem C214_stuck_refuted : forall A (f : file A) ks k s, sound f -> stuck f s -> Forall (fun k => k_dbeam k = None /\ k_freq k = None) ks -> k_dbeam k = None -> k_freq k = None -> exists e, snd (select f k (run f ks s)) = Err e.
Proof. exact @stuck_run. Qed.
Print Assumptions C214_stuck_refuted.
Example C214_ex : snd (select demo_file (mkSel (Some (Some 1%Z)) None None None) first) = Err EAssertionError /\
  snd (select demo_file (mkSel None None (Some (One 2)) None) (fst (select demo_file (mkSel (Some (Some 1%Z)) None None None) first))) = Err EAssertionError /\
  disjoint (nth 0 demo_beams (mkBeam 0 0 [] [])) (nth 1 demo_beams (mkBeam 0 0 [] [])).
Proof. split; [vm_compute; reflexivity|]. split; [vm_compute; reflexivity|]. intros x H I. cbn in H, I. decompose [or] H; decompose [or] I; subst; try contradiction; discriminate. Qed.

(** ** C215: pointings *)
Theorem C215_analog : forall A (f : file A) s l, utana f s = Ok l ->
  map fst l = map p_time (of_beam (s_abeam s) (removelast (f_pan f))) /\ length l = length (azana f s) /\ length l = length (elana f s) /\
  exists q, last (map Some (f_pan f)) None = Some q /\ contiguous l (p_time q).
Proof. exact @analog_pointings. Qed.
Print Assumptions C215_analog.
Theorem C215_digital : forall A (f : file A) s l, utdig f s = Ok l ->
  map fst l = map p_time (of_beam (s_dbeam s) (f_pbe f)) /\ length l = length (azdig f s) /\ length l = length (eldig f s) /\
  exists q, last (map Some (f_pan f)) None = Some q /\ contiguous l (p_time q).
Proof. exact @digital_pointings. Qed.
Print Assumptions C215_digital.
Theorem C215_no_digital : forall A (f : file A) s, f_pan f <> [] -> (forall q, In q (f_pbe f) -> p_beam q <> s_dbeam s) -> azdig f s = [] /\ utdig f s = Err EValueError.
Proof. exact @no_pointing. Qed.
Print Assumptions C215_no_digital.
Theorem C215_no_analog : forall A (f : file A) s, f_pan f <> [] -> (forall q, In q (removelast (f_pan f)) -> p_beam q <> s_abeam s) -> azana f s = [] /\ utana f s = Err EValueError.
Proof. exact @no_analog_pointing. Qed.
Print Assumptions C215_no_analog.
Example C215_ex : utana demo_file first = Ok [(0, 2); (2, 4)]%Q /\ utdig demo_file first = Ok [(0, 1); (1, 3); (3, 4)]%Q /\ azana demo_file first = [10; 11]%Q /\
  (let s := fst (select demo_file (mkSel (Some (Some 1%Z)) None None None) first) in azdig demo_file s = [] /\ utdig demo_file s = Err EValueError /\ utana demo_file s = Ok [(0, 4)]%Q).
Proof. repeat split; vm_compute; reflexivity. Qed.
