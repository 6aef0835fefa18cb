(** C53 and C54: subbands and frequencies. *)
From Coq Require Import ZArith QArith Qround Qfield Lqa Bool List Arith Lia Sorting.Sorted.
From Verif Require Import Base M_Subbands P_Subbands.
Import ListNotations.
Local Open Scope Z_scope.

(** * C53: frequency ranges of a list of subbands *)
Theorem C53_groups : forall l, l <> [] -> Forall valid_sb l ->
  exists groups ranges, frequency_ranges l = Ok ranges /\ concat groups = l /\ no_join groups /\
    Forall2 range_of groups ranges.
Proof. exact ranges_spec. Qed.
Print Assumptions C53_groups.
Theorem C53_union : forall l ranges x, Forall valid_sb l -> frequency_ranges l = Ok ranges ->
  (Exists (fun r => (fst r <= x)%Q /\ (x < snd r)%Q) ranges <-> exists n, In n l /\ band n x).
Proof. exact ranges_union. Qed.
Print Assumptions C53_union.
Theorem C53_disjoint : forall l ranges, Forall valid_sb l -> StronglySorted Z.lt l -> frequency_ranges l = Ok ranges ->
  StronglySorted apart ranges.
Proof. exact ranges_apart. Qed.
Print Assumptions C53_disjoint.
Theorem C53_refused : forall l, l = [] \/ Exists (fun n => ~ valid_sb n) l -> forallb int64 l = true ->
  frequency_ranges l = Err EValueError.
Proof. exact ranges_out. Qed.
Print Assumptions C53_refused.
Theorem C53_order_refuted : exists l l' r r', (forall n, In n l <-> In n l') /\ frequency_ranges l = Ok r /\
  frequency_ranges l' = Ok r' /\ length r <> length r'.
Proof. exact order_refuted. Qed.
Print Assumptions C53_order_refuted.

Example C53_ex : exists r, frequency_ranges [7; 8; 9; 20; 21] = Ok r /\ length r = 2%nat /\
  Forall valid_sb [7; 8; 9; 20; 21] /\ StronglySorted Z.lt [7; 8; 9; 20; 21] /\
  Forall2 (fun a b => (fst a == fst b)%Q /\ (snd a == snd b)%Q) r
    [((13 # 2) * width, (19 # 2) * width)%Q; ((39 # 2) * width, (43 # 2) * width)%Q].
Proof.
  eexists. split; [vm_compute; reflexivity|]. split; [reflexivity|]. split; [repeat constructor; unfold valid_sb; lia|].
  split; [repeat constructor; lia|]. repeat constructor.
Qed.

(** * C54: conversions *)
Theorem C54_index : forall scale l, l <> [] -> Forall (fun f => in_reach (scale * f)) l ->
  exists ns, freq2sb (Freq scale (map Some l)) = Ok (map Some ns) /\ Forall2 (fun f n => band n (scale * f)) l ns.
Proof. exact freq2sb_ok. Qed.
Print Assumptions C54_index.
Theorem C54_refused : forall scale l, l = [] \/ Exists (fun f => ~ in_reach (scale * f)) l ->
  freq2sb (Freq scale (map Some l)) = Err EValueError.
Proof. exact freq2sb_out. Qed.
Print Assumptions C54_refused.
Theorem C54_types : freq2sb NotQuantity = Err ETypeError /\ freq2sb NotFrequency = Err ETypeError.
Proof. exact freq2sb_types. Qed.
Print Assumptions C54_types.
Theorem C54_one : forall f n, freq2sb (Freq 1 [Some f]) = Ok [Some n] <-> in_reach f /\ band n f.
Proof. exact one_index. Qed.
Print Assumptions C54_one.
Theorem C54_monotone : forall f g n m, freq2sb (Freq 1 [Some f]) = Ok [Some n] -> freq2sb (Freq 1 [Some g]) = Ok [Some m] ->
  (f <= g)%Q -> n <= m.
Proof. exact freq2sb_mono. Qed.
Print Assumptions C54_monotone.
Theorem C54_nan : forall scale l, In None l ->
  exists r, freq2sb (Freq scale l) = Ok r /\
    Forall2 (fun f n => match f with Some x => exists k, n = Some k /\ band k (scale * x) | None => n = None end) l r.
Proof. exact freq2sb_nan. Qed.
Print Assumptions C54_nan.
Theorem C54_nan_refuted : exists l r, Exists (fun f => match f with Some x => ~ in_reach x | None => False end) l /\
  freq2sb (Freq 1 l) = Ok r.
Proof. exact freq2sb_nan_refuted. Qed.
Print Assumptions C54_nan_refuted.
Theorem C54_start : forall l, l <> [] -> Forall valid_sb l ->
  exists fs, sb2freq (Ints l) = Ok fs /\ Forall2 (fun n f => (f == inject_Z n * width - width / 2)%Q) l fs.
Proof. exact sb2freq_ok. Qed.
Print Assumptions C54_start.
Theorem C54_start_refused : forall l, l = [] \/ Exists (fun n => ~ valid_sb n) l -> forallb int64 l = true ->
  sb2freq (Ints l) = Err EValueError.
Proof. exact sb2freq_out. Qed.
Print Assumptions C54_start_refused.
Theorem C54_start_types : sb2freq NotInts = Err ETypeError /\
  forall l, Exists (fun n => ~ (- 2 ^ 63 <= n < 2 ^ 63)) l -> sb2freq (Ints l) = Err ETypeError.
Proof. exact sb2freq_types. Qed.
Print Assumptions C54_start_types.
Theorem C54_start_documented_refuted : forall n f, sb2freq (Ints [n]) = Ok [f] -> (f < inject_Z n * width)%Q /\ ~ (f == inject_Z n * width)%Q.
Proof. exact start_refuted. Qed.
Print Assumptions C54_start_documented_refuted.
Theorem C54_there_and_back : forall l, l <> [] -> Forall (fun n => 1 <= n <= 511) l ->
  exists fs, sb2freq (Ints l) = Ok fs /\ freq2sb (Freq 1 (map Some fs)) = Ok (map Some l).
Proof. exact there_and_back. Qed.
Print Assumptions C54_there_and_back.
Theorem C54_zero_refuted : forall l, Forall valid_sb l -> In 0 l ->
  exists fs, sb2freq (Ints l) = Ok fs /\ freq2sb (Freq 1 (map Some fs)) = Err EValueError.
Proof. exact zero_not_back. Qed.
Print Assumptions C54_zero_refuted.
Theorem C54_back_and_there : forall f n, freq2sb (Freq 1 [Some f]) = Ok [Some n] -> (f < 100 - width / 2)%Q ->
  exists s, sb2freq (Ints [n]) = Ok [s] /\ (s <= f /\ f < s + width)%Q.
Proof. exact back_and_there. Qed.
Print Assumptions C54_back_and_there.
Theorem C54_top_refuted : forall f, (100 - width / 2 <= f)%Q -> (f <= 100)%Q ->
  freq2sb (Freq 1 [Some f]) = Ok [Some 512] /\ sb2freq (Ints [512]) = Err EValueError.
Proof. exact top_refuted. Qed.
Print Assumptions C54_top_refuted.

Example C54_ex : freq2sb (Freq 1 [Some (50 # 1); Some (2 # 1)]%Q) = Ok [Some 256; Some 10] /\
  (exists fs, sb2freq (Ints [256; 10]) = Ok fs /\ freq2sb (Freq 1 (map Some fs)) = Ok [Some 256; Some 10]) /\
  freq2sb (Freq (1 # 1000000) [Some (50000000 # 1)]%Q) = Ok [Some 256] /\ freq2sb (Freq 1 [Some (101 # 1)]%Q) = Err EValueError.
Proof. repeat split; try (eexists; split); vm_compute; reflexivity. Qed.
