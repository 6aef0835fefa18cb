(** Properties of the calendars of bookings (C154 to C160). *)
From Coq Require Import ZArith Bool Ascii String List Lia Permutation.
From Verif Require Import Base M_Night M_Open P_Night2 P_Open P_Open2 P_Open3.
Import ListNotations.
Open Scope Z_scope.
Open Scope list_scope.

(** Events of the demonstrations: hours from 1 July 2024 00:00. *)
Definition july : Z := 739067 * 86400000000.
Definition ev (b e : Z) (n k : string) : event := mkEvent (july + b * 3600000000) (july + e * 3600000000) n k.

(** ** C154: overlaps *)
Theorem C154_contains : forall a b, proper a -> proper b -> (event_contains a b = true <-> share a b).
Proof. exact contains_share. Qed.
Print Assumptions C154_contains.
Theorem C154_intersection : forall a b, proper a -> proper b -> (time_intersection (e_begin a, e_end a) (e_begin b, e_end b) = true <-> share a b).
Proof. exact intersection_share. Qed.
Print Assumptions C154_intersection.
Theorem C154_symmetric : forall a b, event_contains a b = event_contains b a.
Proof. exact contains_sym. Qed.
Print Assumptions C154_symmetric.
Theorem C154_instant : forall a b, e_begin a <= e_end a -> e_begin b = e_end b -> (event_contains a b = true <-> e_begin a < e_begin b < e_end a).
Proof. exact contains_instant. Qed.
Print Assumptions C154_instant.
Example C154_ex : proper (ev 1 3 "a" "ES01") /\ event_contains (ev 1 3 "a" "ES01") (ev 2 4 "b" "ES02") = true /\ event_contains (ev 1 3 "a" "ES01") (ev 3 4 "b" "ES02") = false /\
  event_contains (ev 1 9 "a" "ES01") (ev 3 4 "b" "ES02") = true /\ event_contains (ev 1 3 "a" "ES01") (ev 2 2 "b" "ES02") = true /\ event_contains (ev 1 3 "a" "ES01") (ev 3 3 "b" "ES02") = false.
Proof. repeat split; unfold proper; cbn; lia. Qed.

(** ** C155: sorting *)
Theorem C155_sort : forall l, sorted_as l (py_sort l).
Proof. exact py_sort_sorted. Qed.
Print Assumptions C155_sort.
Theorem C155_disjoint : forall l s, sorted_as l s -> Forall proper l -> disjoint l -> chronological s.
Proof. exact disjoint_sorted. Qed.
Print Assumptions C155_disjoint.
Theorem C155_neighbours : forall l s, sorted_as l s -> Forall proper l -> adjacent (fun a b => ~ share a b) s -> chronological s.
Proof. exact sorted_chronological. Qed.
Print Assumptions C155_neighbours.
Theorem C155_order_refuted : forall a b, share a b -> event_lt a b = true /\ event_lt b a = true.
Proof. exact lt_refuted. Qed.
Print Assumptions C155_order_refuted.
Example C155_ex : py_sort [ev 5 6 "c" "ES01"; ev 1 2 "a" "ES01"; ev 3 4 "b" "ES01"] = [ev 1 2 "a" "ES01"; ev 3 4 "b" "ES01"; ev 5 6 "c" "ES01"] /\
  py_sort [ev 2 5 "b" "ES01"; ev 1 3 "a" "ES01"] = [ev 1 3 "a" "ES01"; ev 2 5 "b" "ES01"] /\ py_sort [ev 1 3 "a" "ES01"; ev 2 5 "b" "ES01"] = [ev 2 5 "b" "ES01"; ev 1 3 "a" "ES01"].
Proof. repeat split. Qed.

(** ** C156: file of bookings *)
Theorem C156_groups : forall s add lines, write_vcr s add = (lines, None) -> exists ls, complete s ls /\ s <> [] /\ if add then exists l b, ls = l ++ [b] /\ lines = ls ++ [b] else lines = ls.
Proof. exact file_groups. Qed.
Print Assumptions C156_groups.
Theorem C156_time : forall g f l, adjacent follows g -> hd_error g = Some f -> hd_error (rev g) = Some l -> e_end l - e_begin f = total g.
Proof. exact group_time. Qed.
Print Assumptions C156_time.
Theorem C156_overlap_found : forall l s add lines, sorted_as l s -> Forall proper l -> (forall a b, In a l -> In b l -> ~ follows a b) -> write_vcr s add = (lines, None) -> disjoint l.
Proof. exact overlap_found. Qed.
Print Assumptions C156_overlap_found.
Theorem C156_complete : forall l s add, sorted_as l s -> l <> [] -> Forall proper l -> disjoint l -> Forall named l -> (forall r a b, s = r ++ [a; b] -> ~ follows a b) ->
  exists lines, write_vcr s add = (lines, None).
Proof. exact file_complete. Qed.
Print Assumptions C156_complete.
Theorem C156_empty : forall add, write_vcr [] add = ([], Some EIndexError).
Proof. exact file_empty. Qed.
Print Assumptions C156_empty.
Theorem C156_overlap_refuted : forall a b c, proper a -> proper b -> proper c -> named b -> named c -> follows a b -> e_begin b < e_begin c -> share b c ->
  write_vcr [a; b; c] false = ([mkBooking (iso_second (e_begin a)) (iso_second (e_end b)) (e_kp b); mkBooking (iso_second (e_begin c)) (iso_second (e_end c)) (e_kp c)], None) /\
  sorted_as [a; b; c] [a; b; c] /\ ~ disjoint [a; b; c].
Proof. exact overlap_refuted. Qed.
Print Assumptions C156_overlap_refuted.
Theorem C156_last_refuted : forall s a b add, follows a b -> snd (write_vcr (s ++ [a; b]) add) <> None.
Proof. exact tail_refuted. Qed.
Print Assumptions C156_last_refuted.
Theorem C156_LT00_refuted : forall rest start e, e_name e = ("LT00" ++ rest)%string -> e_kp e = "LT00"%string -> booking_of start e = Err EException.
Proof. exact lt00_refuted. Qed.
Print Assumptions C156_LT00_refuted.
Theorem C156_RP5A_refuted : forall rest start e, e_name e = ("RP5A" ++ rest)%string -> e_kp e = "RP5A"%string -> booking_of start e = Err EException.
Proof. exact rp5a_refuted. Qed.
Print Assumptions C156_RP5A_refuted.
Theorem C156_filler : forall start e, lower (e_name e) = "filler"%string \/ lower (e_name e) = "filer"%string ->
  contains_str "LT00" (e_name e) = false /\ contains_str "RP5A" (e_name e) = false -> e_kp e = "LT02"%string ->
  booking_of start e = Ok (mkBooking (iso_second start) (iso_second (e_end e)) "LT02").
Proof. exact filler_booked. Qed.
Print Assumptions C156_filler.
Theorem C156_code : forall s k, find_kp s = Some k <-> exists pre post, code_at s pre k post /\ forall pre' k' post', code_at s pre' k' post' -> (String.length pre <= String.length pre')%nat.
Proof. exact code_found. Qed.
Print Assumptions C156_code.
Theorem C156_no_code : forall start e, (forall pre k post, ~ code_at (booked_name (e_name e)) pre k post) -> booking_of start e = Err EException.
Proof. exact no_code. Qed.
Print Assumptions C156_no_code.
Example C156_names_ex : find_kp "maintenance ES 1 SP05, RP3A" = Some "SP05"%string /\ find_kp "solar" = None /\
  booking_of 0 (ev 1 2 "Filler" "LT02") = Ok (mkBooking (iso_second 0) (iso_second (e_end (ev 1 2 "Filler" "LT02"))) "LT02") /\
  booking_of 0 (ev 1 2 "solar" "SP01") = Err EException /\ booking_of 0 (ev 1 2 "RP5A jupiter" "RP5A") = Err EException.
Proof. repeat split. Qed.
Lemma demo_calendar : let l := [ev 5 6 "ES01 c" "ES01"; ev 1 2 "SP05 a" "SP05"; ev 2 4 "SP05 b" "SP05"] in
  sorted_as l (py_sort l) /\ Forall proper l /\ disjoint l /\ Forall named l /\ forall r a b, py_sort l = r ++ [a; b] -> ~ follows a b.
Proof.
  cbv zeta. split; [apply py_sort_sorted|]. split; [repeat constructor; unfold proper; cbn; lia|]. split.
  { repeat constructor; intros (t & A & B); unfold during in *; cbn in *; lia. }
  split; [repeat constructor|]. intros r a b E F. apply (f_equal (@rev event)) in E. rewrite rev_app_distr in E. cbn in E. injection E as <- <- _. destruct F as [F _]. discriminate.
Qed.
Example C156_ex : fst (write_vcr (py_sort [ev 5 6 "ES01 c" "ES01"; ev 1 2 "SP05 a" "SP05"; ev 2 4 "SP05 b" "SP05"]) false) =
    [mkBooking (july / 1000000 + 3600) (july / 1000000 + 4 * 3600) "SP05"; mkBooking (july / 1000000 + 5 * 3600) (july / 1000000 + 6 * 3600) "ES01"] /\
  follows (ev 1 2 "SP05 a" "SP05") (ev 2 4 "SP05 b" "SP05") /\ named (ev 3 5 "ES01 c" "ES01") /\ share (ev 2 4 "SP05 b" "SP05") (ev 3 5 "ES01 c" "ES01") /\
  snd (write_vcr [ev 1 2 "SP05 a" "SP05"; ev 2 4 "SP05 b" "SP05"; ev 3 5 "ES01 c" "ES01"] false) = None /\
  snd (write_vcr [ev 1 2 "SP05 a" "SP05"; ev 2 4 "SP05 b" "SP05"] false) = Some EAttributeError /\
  booking_of 0 (ev 1 2 "LT00 maintenance" "LT00") = Err EException.
Proof. repeat (split; [reflexivity|]). split; [split; reflexivity|]. split; [reflexivity|]. split; [exists (july + 3 * 3600000000); unfold during; cbn; lia|]. repeat split. Qed.

(** ** C157: bookings around midnight *)
Theorem C157_pieces : forall l, exists groups, concat groups = l /\ Forall2 merged_of groups (merge_events l).
Proof. exact merge_groups. Qed.
Print Assumptions C157_pieces.
Theorem C157_time : forall l, total (merge_events l) = total l.
Proof. exact merge_total. Qed.
Print Assumptions C157_time.
Theorem C157_instants : forall l t, Forall proper l -> ((exists e, In e (merge_events l) /\ during e t) <-> exists e, In e l /\ during e t).
Proof. exact merge_during. Qed.
Print Assumptions C157_instants.
Theorem C157_apart : forall l, Forall no_comment l -> adjacent (fun a b => ~ touches a b) (merge_events l).
Proof. exact merge_apart. Qed.
Print Assumptions C157_apart.
Theorem C157_two : forall a b, touches a b -> comment_of (e_name a) = comment_of (e_name b) ->
  merge_events [a; b] = [mkEvent (e_begin a) (e_end b) (e_name a ++ "*" ++ e_name b) (e_kp b)].
Proof. exact merge_two. Qed.
Print Assumptions C157_two.
Theorem C157_comments : forall l, adjacent (fun a b => comment_of (e_name a) <> comment_of (e_name b)) l -> merge_events l = l.
Proof. exact merge_comments. Qed.
Print Assumptions C157_comments.
Theorem C157_pairs_refuted : forall l c, c <> EmptyString -> adjacent touches l -> Forall (fun e => comment_of (e_name e) = c) l -> length (merge_events l) = Nat.div2 (S (length l)).
Proof. exact merge_refuted. Qed.
Print Assumptions C157_pairs_refuted.
Example C157_ex : merge_events [mkEvent 22 24 "SP05" "SP05"; mkEvent 24 26 "SP05" "SP05"; mkEvent 26 27 "SP05" "SP05"; mkEvent 40 41 "SP05" "SP05"] = [mkEvent 22 27 "SP05*SP05*SP05" "SP05"; mkEvent 40 41 "SP05" "SP05"] /\
  no_comment (mkEvent 22 24 "SP05" "SP05") /\ comment_of "SP05 (Crab)" = "Crab"%string /\
  merge_events [mkEvent 22 24 "SP05 (Crab)" "SP05"; mkEvent 24 26 "SP05 (Crab)" "SP05"; mkEvent 26 27 "SP05 (Crab)" "SP05"] = [mkEvent 22 26 "SP05 (Crab)*SP05 (Crab)" "SP05"; mkEvent 26 27 "SP05 (Crab)" "SP05"] /\
  merge_events [mkEvent 22 24 "SP05 (Crab)" "SP05"; mkEvent 24 26 "SP05 (Vela)" "SP05"] = [mkEvent 22 24 "SP05 (Crab)" "SP05"; mkEvent 24 26 "SP05 (Vela)" "SP05"].
Proof. split; [reflexivity|]. split; [repeat split; discriminate|]. repeat split. Qed.

(** ** C158: rows of a sheet *)
Theorem C158_row : forall row, length row = 24%nat -> exists vs, row_to_list row = Ok vs /\ length vs = 24%nat /\ forall i v, (i < 24)%nat -> shown row i v -> nth_error vs i = Some v.
Proof. exact row_shown. Qed.
Print Assumptions C158_row.
Theorem C158_length : forall row, row_to_list row = Err EValueError <-> length row <> 24%nat.
Proof. exact row_length. Qed.
Print Assumptions C158_length.
Theorem C158_first_refuted : forall row c, length row = 24%nat -> hd_error (rev row) = Some c -> exists vs, row_to_list row = Ok vs /\
  forall i, (forall k, (k <= i)%nat -> nth_error row k = Some Merged) -> nth_error vs i = Some (cell_value c).
Proof. exact row_hidden_refuted. Qed.
Print Assumptions C158_first_refuted.
Definition demo_row (first : cell) : list cell := [first; Merged; Plain (Some "SP05"%string); Merged; Plain None] ++ repeat (Plain (Some "ES01"%string)) 18 ++ [Plain (Some "RP1A"%string)].
Example C158_ex : length (demo_row (Plain (Some "LT02"%string))) = 24%nat /\ row_to_list (demo_row (Plain (Some "LT02"%string))) = Ok ([Some "LT02"; Some "LT02"; Some "SP05"; Some "SP05"; None]%string ++ repeat (Some "ES01"%string) 18 ++ [Some "RP1A"%string]) /\
  shown (demo_row (Plain (Some "LT02"%string))) 3 (Some "SP05"%string) /\
  row_to_list (demo_row Merged) = Ok ([Some "RP1A"; Some "RP1A"; Some "SP05"; Some "SP05"; None]%string ++ repeat (Some "ES01"%string) 18 ++ [Some "RP1A"%string]) /\
  row_to_list [Merged] = Err EValueError.
Proof. split; [reflexivity|]. split; [reflexivity|]. split; [exists 2%nat; split; [lia|]; split; [reflexivity|]; intros k K; assert (k = 3%nat) as -> by lia; reflexivity|]. repeat split. Qed.

(** ** C159: hours of a calendar *)
Theorem C159_event : forall e m, whole (e_begin e) -> whole (e_end e) -> midnight (e_begin e) m -> proper e -> e_end e - e_begin e <= the_day -> exists d n, event_hours e = (d, n, e_end e - e_begin e) /\
  n = night_hours (season_from_time (e_begin e)) m (e_begin e) (e_end e) /\ d + n = e_end e - e_begin e.
Proof. exact hours_right. Qed.
Print Assumptions C159_event.
Theorem C159_sum : forall l, let sum f := fold_right (fun e s => f (event_hours e) + s) 0 l in calendar_hours l = (sum day_part, sum night_part, sum snd).
Proof. exact calendar_sum. Qed.
Print Assumptions C159_sum.
Theorem C159_long_refuted : forall e, whole (e_begin e) -> whole (e_end e) -> the_day < e_end e - e_begin e -> exists d n, event_hours e = (d, n, e_end e - e_begin e) /\ 0 < d + n <= the_day /\ (the_day | e_end e - e_begin e - (d + n)).
Proof. exact hours_refuted. Qed.
Print Assumptions C159_long_refuted.
Lemma demo_whole h : whole (july + h * 3600000000).
Proof. exists (july / 1000000 + h * 3600). unfold july, second. change (739067 * 86400000000 / 1000000) with (739067 * 86400). lia. Qed.
Example C159_ex : midnight (july + 18 * 3600000000) july /\ proper (ev 18 29 "a" "ES01") /\ event_hours (ev 18 29 "a" "ES01") = (3 * 3600000000, 8 * 3600000000, 11 * 3600000000) /\
  event_hours (ev 1 49 "a" "ES01") = (16 * 3600000000, 8 * 3600000000, 48 * 3600000000) /\
  calendar_hours [ev 18 29 "a" "ES01"; ev 1 49 "a" "ES01"] = (19 * 3600000000, 16 * 3600000000, 59 * 3600000000).
Proof. split; [split; [exists 739067; reflexivity|unfold july, the_day; lia]|]. repeat split. Qed.

(** ** C160: moves of an event *)
Theorem C160_move : forall e, e_begin e <= e_end e -> earlier e = Ok (moved e (-1)) /\ later e = Ok (moved e 1).
Proof. exact move_right. Qed.
Print Assumptions C160_move.
Theorem C160_inverse : forall e e', e_begin e <= e_end e -> (earlier e = Ok e' -> later e' = Ok e) /\ (later e = Ok e' -> earlier e' = Ok e).
Proof. exact move_inverse. Qed.
Print Assumptions C160_inverse.
Theorem C160_actions : forall l d s k, e_begin (d_event d) <= e_end (d_event d) -> does (d_selected d) l s k ->
  fold_left (fun d a => fst (on_action d a)) l d = mkDrawn (moved (d_event d) k) s.
Proof. exact actions_right. Qed.
Print Assumptions C160_actions.
Theorem C160_defined : forall l s, exists s' k, does s l s' k.
Proof. exact does_total. Qed.
Print Assumptions C160_defined.
Theorem C160_silent : forall d a, snd (on_action d a) <> None -> d_selected d = true /\ (a = Key "up" \/ a = Key "down").
Proof. exact action_silent. Qed.
Print Assumptions C160_silent.
Theorem C160_key_refuted : forall d n, e_begin (d_event d) <= e_end (d_event d) -> d_selected d = true -> n = "up"%string \/ n = "down"%string -> snd (on_action d (Key n)) = Some ETypeError.
Proof. exact key_refuted. Qed.
Print Assumptions C160_key_refuted.
Example C160_ex : does false [Key "up"; ClickOn; Key "down"; ClickOut; Key "down"; Key "a"; ClickElsewhere; Key "up"] false 2 /\
  fold_left (fun d a => fst (on_action d a)) [Key "up"; ClickOn; Key "down"; ClickOut; Key "down"; Key "a"; ClickElsewhere; Key "up"] (mkDrawn (ev 1 3 "a" "ES01") false) = mkDrawn (moved (ev 1 3 "a" "ES01") 2) false /\
  snd (on_action (mkDrawn (ev 1 3 "a" "ES01") true) (Key "up")) = Some ETypeError.
Proof.
  split; [|split; reflexivity]. apply does_key; [auto|]. apply does_on. change 2 with (1 + 1) at 1. apply does_down. apply does_out. change 1 with (0 + 1) at 1. apply does_down. apply does_key; [right; split; discriminate|].
  apply does_elsewhere. apply does_key; [auto|]. apply does_nil.
Qed.
