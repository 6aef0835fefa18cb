(** C35 and C73: selections in beam and subband statistics. *)
From Coq Require Import List Arith ZArith QArith Qabs Bool String Ascii Sorted.
From Verif Require Import Base M_Slots M_Nd P_Nd M_Cond P_Cond P_Cond2.
Import ListNotations.
Open Scope nat_scope.
Open Scope list_scope.

(** One or two comparisons: the samples satisfying them all. *)
Theorem C35_selects : forall time conv ps vs, forallb proper ps = true -> Forall2 (good_piece conv) ps vs ->
  List.length ps = 1 \/ List.length ps = 2 ->
  exists p, parser time conv (join (map write ps)) = Ok p /\
    forall x, p x = true <-> Forall2 (piece_holds (tolerance time) x) ps vs.
Proof. exact selects. Qed.
Print Assumptions C35_selects.
Example C35_ex :
  join (map write [Comp "" Ge "50 MHz "; Comp " f " Lt_ " 60MHz"]) = ">=50 MHz & f < 60MHz"%string /\
  forallb proper [Comp "" Ge "50 MHz "; Comp " f " Lt_ " 60MHz"] = true /\
  Forall2 (good_piece demo_conv) [Comp "" Ge "50 MHz "; Comp " f " Lt_ " 60MHz"] [50%Q; 60%Q] /\
  (exists p, parser false demo_conv ">=50 MHz & f < 60MHz" = Ok p /\
     map p [49; 50; 55; 60]%Q = [false; true; true; false]).
Proof.
  split; [reflexivity|]. split; [reflexivity|]. split; [repeat constructor|].
  eexists. split; [vm_compute; reflexivity|]. reflexivity.
Qed.

Theorem C35_three_refused : forall time conv ps vs, forallb proper ps = true -> Forall2 (good_piece conv) ps vs ->
  2 < List.length ps -> parser time conv (join (map write ps)) = Err EException.
Proof. exact three_refused. Qed.
Print Assumptions C35_three_refused.
Theorem C35_no_operator_refused : forall time conv ps vs t rest,
  forallb proper (ps ++ Bare t :: rest) = true -> Forall2 (good_piece conv) ps vs ->
  parser time conv (join (map write (ps ++ Bare t :: rest))) = Err EAttributeError.
Proof. exact bare_refused. Qed.
Print Assumptions C35_no_operator_refused.
Theorem C35_bad_value_refused : forall time conv ps vs b c v rest e,
  forallb proper (ps ++ Comp b c v :: rest) = true -> Forall2 (good_piece conv) ps vs ->
  conv (no_space v) = Err e ->
  parser time conv (join (map write (ps ++ Comp b c v :: rest))) = Err e.
Proof. exact bad_value_refused. Qed.
Print Assumptions C35_bad_value_refused.
Example C35_refused_ex :
  parser false demo_conv ">50MHz & <60MHz & >50MHz" = Err EException /\
  parser false demo_conv ">50MHz & 60MHz" = Err EAttributeError /\
  parser true demo_conv "" = Err EAttributeError /\
  parser false demo_conv ">50MHz & <70MHz" = Err EValueError.
Proof. vm_compute. repeat split; reflexivity. Qed.

(** "==" is an approximate comparison; "= =" is refused although "> =" is read as ">=". *)
Theorem C35_equality_refuted : exists p, parser false demo_conv "==50 MHz" = Ok p /\ p (500004 # 10000)%Q = true.
Proof. exact equality_loose. Qed.
Print Assumptions C35_equality_refuted.
Theorem C35_spaces_refuted : parser false demo_conv "= = 50 MHz" = Err EAttributeError /\
  exists p, parser false demo_conv "> = 50 MHz" = Ok p /\ p 50%Q = true.
Proof. exact spaced_equality. Qed.
Print Assumptions C35_spaces_refuted.

(** [BST.get]: the axes are the selected coordinates and each value is the
    recorded one of its time, polarisation and frequency. *)
Theorem C73_bst : forall pr fsel tsel pol beam b b' ss,
  bst_get pr fsel tsel pol beam b = (b', Ok ss) ->
  exists k fp tp ti pi fi,
    beam = Z.of_nat k /\ k < List.length (bst_freqs b) /\ bst_beam b' = k /\
    parse_freq (read_freq pr) (default_freq pr (nth k (bst_freqs b) []) fsel) = Ok fp /\
    parse_time (read_time pr) (default_time pr (bst_time b) tsel) = Ok tp /\
    ss_time ss = filter tp (bst_time b) /\ ss_freq ss = filter fp (nth k (bst_freqs b) []) /\
    kept 0%Q tp (bst_time b) ti /\ kept 0%Q fp (nth k (bst_freqs b) []) fi /\
    kept EmptyString (String.eqb (ss_pol ss)) (bst_pols b) pi /\
    sh (ss_value ss) = [List.length (ss_time ss); List.length pi; List.length (ss_freq ss)] /\
    forall i j c, i < List.length (ss_time ss) -> j < List.length pi -> c < List.length (ss_freq ss) ->
      nth i (ss_time ss) 0%Q = nth (nth i ti 0) (bst_time b) 0%Q /\
      nth c (ss_freq ss) 0%Q = nth (nth c fi 0) (nth k (bst_freqs b) []) 0%Q /\
      get (ss_value ss) [i; j; c] =
      get (bst_data b) [nth i ti 0; nth j pi 0; nth (nth c fi 0) (nth k (bst_lets b) []) 0].
Proof. exact bst_get_spec. Qed.
Print Assumptions C73_bst.

Theorem C73_polarization : forall pr fsel tsel pol beam b b' ss,
  bst_get pr fsel tsel pol beam b = (b', Ok ss) ->
  (In pol (bst_pols b) -> ss_pol ss = pol) /\ (~ In pol (bst_pols b) -> ss_pol ss = "NW"%string) /\
  (NoDup (bst_pols b) -> In (ss_pol ss) (bst_pols b) -> nth 1 (sh (ss_value ss)) 0 = 1).
Proof. exact bst_pol. Qed.
Print Assumptions C73_polarization.

(** The beam set on the object is replaced by the argument, 0 by default. *)
Theorem C73_beam_set : forall pr fsel tsel pol beam b,
  (0 <= beam < Z.of_nat (List.length (bst_freqs b)))%Z ->
  bst_beam (fst (bst_get pr fsel tsel pol beam b)) = Z.to_nat beam.
Proof. exact bst_beam_set. Qed.
Print Assumptions C73_beam_set.
Theorem C73_beam_refused : forall pr fsel tsel pol beam b,
  ~ (0 <= beam < Z.of_nat (List.length (bst_freqs b)))%Z ->
  bst_get pr fsel tsel pol beam b = (b, Err EIndexError).
Proof. exact bst_beam_refused. Qed.
Print Assumptions C73_beam_refused.

(** Without selection: every frequency, and the times between the printed ends. *)
Theorem C73_default : forall pr pol beam b b' ss k va vb fa fb,
  bst_get pr None None pol beam b = (b', Ok ss) -> beam = Z.of_nat k ->
  let freqs := nth k (bst_freqs b) [] in
  reads (read_freq pr) (show_freq pr (qmin freqs)) fa -> (fa == qmin freqs)%Q ->
  reads (read_freq pr) (show_freq pr (qmax freqs)) fb -> (fb == qmax freqs)%Q ->
  reads (read_time pr) (show_time pr (hd 0%Q (bst_time b))) va ->
  reads (read_time pr) (show_time pr (last (bst_time b) 0%Q)) vb ->
  ss_freq ss = freqs /\
  (forall x, In x (ss_time ss) <-> In x (bst_time b) /\ (va <= x)%Q /\ (x <= vb)%Q) /\
  ((forall x, In x (bst_time b) -> (va <= x)%Q /\ (x <= vb)%Q) -> ss_time ss = bst_time b).
Proof. exact bst_default. Qed.
Print Assumptions C73_default.
Theorem C73_default_refuted :
  exists ss, snd (bst_get demo_printer None None "NE" 1 demo_bst) = Ok ss /\
    ss_time ss = [1000 * ms; 2000 * ms]%Q /\ ss_freq ss = [50%Q; 51%Q] /\
    get (ss_value ss) [1; 0; 0] = inject_Z 213.
Proof. exact default_drops. Qed.
Print Assumptions C73_default_refuted.

Theorem C73_sst : forall pr ma fsel tsel pol s ss,
  sst_get pr ma fsel tsel pol s = Ok ss ->
  exists fp tp ti mi pi fi,
    parse_freq (read_freq pr) (default_freq pr (sst_freq s) fsel) = Ok fp /\
    parse_time (read_time pr) (default_time pr (sst_time s) tsel) = Ok tp /\
    ss_time ss = filter tp (sst_time s) /\ ss_freq ss = filter fp (sst_freq s) /\
    kept 0%Q tp (sst_time s) ti /\ kept 0%Q fp (sst_freq s) fi /\
    kept EmptyString (String.eqb (ss_pol ss)) (sst_pols s) pi /\
    mi < List.length (sst_mas s) /\ (forall j, j < List.length (sst_mas s) -> (nth j (sst_mas s) 0%Z = ma <-> j = mi)) /\
    sh (ss_value ss) = [List.length (ss_time ss); 1; List.length pi; List.length (ss_freq ss)] /\
    forall i j c, i < List.length (ss_time ss) -> j < List.length pi -> c < List.length (ss_freq ss) ->
      nth i (ss_time ss) 0%Q = nth (nth i ti 0) (sst_time s) 0%Q /\
      nth c (ss_freq ss) 0%Q = nth (nth c fi 0) (sst_freq s) 0%Q /\
      get (ss_value ss) [i; 0; j; c] = get (sst_data s) [nth i ti 0; mi; nth j pi 0; nth c fi 0].
Proof. exact sst_get_spec. Qed.
Print Assumptions C73_sst.
Theorem C73_sst_mini_array : forall pr ma fsel tsel pol s ss,
  sst_get pr ma fsel tsel pol s = Ok ss -> List.count_occ Z.eq_dec (sst_mas s) ma = 1.
Proof. exact sst_unknown. Qed.
Print Assumptions C73_sst_mini_array.

Definition demo_sst : sst := mkSst [(6 # 10) * ms; 1000 * ms; 2000 * ms]%Q [50%Q; 51%Q] ["NW"; "NE"]%string [7%Z; 3%Z]
  (mkNd [3; 2; 2; 2] (fun idx => match idx with
     | [i; m; j; k] => inject_Z (Z.of_nat (1000 * i + 100 * m + 10 * j + k)) | _ => 0%Q end)).
Example C73_sst_ex :
  match sst_get demo_printer 3 (Some ">50.0 MHz"%string) (Some "<00:00:02.000"%string) "XX" demo_sst with
  | Ok ss => ss_freq ss = [51%Q] /\ sh (ss_value ss) = [2; 1; 1; 1] /\ ss_pol ss = "NW"%string /\
             get (ss_value ss) [1; 0; 0; 0] = inject_Z 1101
  | Err _ => False
  end /\
  sst_get demo_printer 9 None None "NW" demo_sst = Err EValueError.
Proof. vm_compute. repeat split; reflexivity. Qed.
