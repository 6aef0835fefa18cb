(** Properties of grating lobes and masks of contamination (C161 to C165). *)
From Coq Require Import QArith Qround ZArith Bool List Lia Lqa.
From Verif Require Import Base M_Lobes P_Lobes P_Lobes2.
Import ListNotations.
Open Scope Z_scope.
Open Scope list_scope.

(** ** C161: rotations of the Mini-Arrays *)
Theorem C161_rotations : forall l, (forall x, In x l -> (10 | x)) -> exists r, rotations (Some l) = Ok r /\ increasing r /\
  forall y, In y r <-> 0 <= y < 60 /\ exists x, In x l /\ looks_like x y.
Proof. exact rotations_right. Qed.
Print Assumptions C161_rotations.
Theorem C161_refused : forall l, rotations (Some l) = Err EValueError <-> exists x, In x l /\ ~ (10 | x).
Proof. exact rotations_refused. Qed.
Print Assumptions C161_refused.
Theorem C161_all : rotations None = rotations (Some [0; 10; 20; 30; 40; 50]).
Proof. exact rotations_all. Qed.
Print Assumptions C161_all.
Theorem C161_selected : forall l r m, rotations (Some l) = Ok r -> (In m (selected r) <-> exists a x, actual m a /\ In x l /\ looks_like x a).
Proof. exact selected_right. Qed.
Print Assumptions C161_selected.
Theorem C161_none : forall l r, rotations (Some l) = Ok r -> (selected r = [] <-> l = []).
Proof. exact selected_none. Qed.
Print Assumptions C161_none.
Theorem C161_empty_refuted : forall factor gain use l r, rotations (Some l) = Ok r -> (l = [] <-> exists e, summed factor gain use r = Err e).
Proof. exact summed_refused. Qed.
Print Assumptions C161_empty_refuted.
Theorem C161_summed : forall factor gain use l r, rotations (Some l) = Ok r -> l <> [] -> exists af, summed factor gain use r = Ok af /\
  forall t f c, exists s, totals (fun m => factor m t f c) (selected r) s /\ (af t f c == if use then gain t f c * s else s)%Q.
Proof. exact summed_right. Qed.
Print Assumptions C161_summed.
Example C161_ex : rotations (Some [130; -10; 70; 10]) = Ok [10; 50] /\ selected [10; 50] = [7; 11] /\ rotations (Some [15]) = Err EValueError /\ rotations (Some []) = Ok [] /\
  selected [0; 10; 20; 30; 40; 50] = [0; 1; 3; 7; 11; 13] /\ summed (fun _ _ _ _ => 1%Q) (fun _ _ _ => 1%Q) true [] = Err EUnboundLocalError.
Proof. repeat split. Qed.

(** ** C162: sources in the lobes *)
Open Scope Q_scope.
Theorem C162_sources : forall b ratio n src, (0 < n_times b)%nat -> (forall f, (f < n_freqs b)%nat -> finite b f) -> 0 <= ratio -> exists v, sources_in_lobes (compute_moc b ratio) n src = Ok v /\
  length v = n_freqs b /\ Forall (fun r => length r = n_times b) v /\ forall f t k, entry v f t k -> counts (fun s => in_lobe b ratio f t (src s t)) (seq 0 n) k /\ (k <= n)%nat.
Proof. exact sources_right. Qed.
Print Assumptions C162_sources.
Theorem C162_monotone : forall b ratio ratio' f t x, 0 <= ratio -> ratio <= ratio' -> (forall w, sampled b f (Some w) -> 0 <= w) -> in_lobe b ratio' f t x -> in_lobe b ratio f t x.
Proof. exact lobes_monotone. Qed.
Print Assumptions C162_monotone.
Theorem C162_relative : forall b alt af ratio f t x, 0 <= ratio -> (t < n_times b)%nat -> (forall t f c, value b t f c = normalized (n_cells b) alt af t f c) ->
  (forall t, (t < n_times b)%nat -> above_horizon alt t /\ exists m, 0 < m /\ peak (n_cells b) (af t f) m) ->
  (in_lobe b ratio f t x <-> exists c m, (c < n_cells b)%nat /\ pixel b c = x /\ 0 <= altitude b t c /\ peak (n_cells b) (af t f) m /\ m * ratio <= af t f c).
Proof. exact lobes_relative. Qed.
Print Assumptions C162_relative.
Theorem C162_normalized : forall n alt af t f c m, above_horizon alt t -> peak n (af t f) m -> ~ m == 0 -> (c < n)%nat -> exists v, normalized n alt af t f c = Some v /\ v == af t f c / m.
Proof. exact normalized_right. Qed.
Print Assumptions C162_normalized.
Theorem C162_gsm : forall b ratio ng gsm gp threshold, (0 < n_times b)%nat -> (forall f, (f < n_freqs b)%nat -> finite b f) -> 0 <= ratio -> exists v, gsm_in_lobes (compute_moc b ratio) ng gsm gp threshold = Ok v /\
  forall f t k, entry v f t k -> (k = 1%nat \/ k = 0%nat) /\ (k = 1%nat <-> exists c, (c < ng)%nat /\ threshold <= gsm f c /\ in_lobe b ratio f t (gp c)).
Proof. exact gsm_right. Qed.
Print Assumptions C162_gsm.
Theorem C162_first : forall b n src, the_moc b = NoMoc -> sources_in_lobes b n src = Err EAttributeError /\ forall ng g gp th, gsm_in_lobes b ng g gp th = Err EAttributeError.
Proof. exact moc_first. Qed.
Print Assumptions C162_first.
Theorem C162_nan_refuted : forall b ratio n src f t k v, sampled b f None -> sources_in_lobes (compute_moc b ratio) n src = Ok v -> entry v f t k -> k = 0%nat.
Proof. exact nan_refuted. Qed.
Print Assumptions C162_nan_refuted.
Theorem C162_below_refuted : forall b alt af ratio n src f t t' k v, (0 < n_cells b)%nat -> (forall t f c, value b t f c = normalized (n_cells b) alt af t f c) -> (t' < n_times b)%nat -> ~ above_horizon alt t' ->
  sources_in_lobes (compute_moc b ratio) n src = Ok v -> entry v f t k -> k = 0%nat.
Proof. exact below_refuted. Qed.
Print Assumptions C162_below_refuted.
(** Two times, one frequency, three cells: a lobe of 3, one of 2 and one of 1, the last cell below the horizon. *)
Definition demo_factor (t f c : nat) : Q := inject_Z (Z.of_nat (3 - c)).
Definition demo_alt (t c : nat) : Q := if (c =? 2)%nat then -(1) else 45.
Definition demo (pointing : nat -> Q) : lobes := mkLobes 2 1 3 (normalized 3 pointing demo_factor) demo_alt (fun c => Z.of_nat c + 10)%Z NoMoc.
Definition demo_src (s t : nat) : Z := (Z.of_nat s + 10)%Z.
Example C162_ex : sources_in_lobes (compute_moc (demo (fun _ => 30)) (1 # 2)) 4 demo_src = Ok [[2; 2]%nat] /\ sources_in_lobes (compute_moc (demo (fun _ => 30)) (3 # 4)) 4 demo_src = Ok [[1; 1]%nat] /\
  sources_in_lobes (compute_moc (demo (fun t => if (t =? 0)%nat then 30 else -(1)))  (1 # 2)) 4 demo_src = Ok [[0; 0]%nat] /\
  finite (demo (fun _ => 30)) 0 /\ above_horizon (fun _ => 30) 0 /\ peak 3 (demo_factor 0 0) 3 /\ gsm_in_lobes (compute_moc (demo (fun _ => 30)) (1 # 2)) 2 (fun _ c => if (c =? 0)%nat then 9 else 1) (fun c => Z.of_nat c + 11)%Z 5 = Ok [[1; 1]%nat].
Proof.
  split; [reflexivity|]. split; [reflexivity|]. split; [reflexivity|]. split.
  - intros (t & c & T & C & V). cbn in T, C. destruct t as [|[|]]; [| |lia]; destruct c as [|[|[|]]]; try lia; discriminate.
  - split; [reflexivity|]. split; [split; [exists 0%nat; split; [lia|reflexivity]|]|reflexivity]. intros c C. destruct c as [|[|[|]]]; [| | |lia]; discriminate.
Qed.

(** ** C163: weights *)
Theorem C163_weights : forall b n src thresholds, (0 < n_times b)%nat -> (forall f, (f < n_freqs b)%nat -> finite b f) -> Forall (fun r => 0 <= r) thresholds -> thresholds <> [] ->
  forall f t w, entry (snd (compute_weight_moc b n src thresholds)) f t w -> exists k q, w = Some q /\ counts (fun r => exists s, (s < n)%nat /\ in_lobe b r f t (src s t)) thresholds k /\
    q * inject_Z (Z.of_nat (length thresholds)) == inject_Z (Z.of_nat k) /\ 0 <= q <= 1.
Proof. exact weight_right. Qed.
Print Assumptions C163_weights.
Theorem C163_state : forall b n n' src src' thresholds ratio, let after := fst (compute_weight_moc b n src thresholds) in
  sources_in_lobes after n' src' = Err EAttributeError /\ sources_in_lobes (compute_moc after ratio) n' src' = sources_in_lobes (compute_moc b ratio) n' src'.
Proof. exact weight_state. Qed.
Print Assumptions C163_state.
Theorem C163_drawn : forall l x, (first_at 0 x l = -1)%Z /\ (forall y, In y l -> y < x) \/ exists i y, first_at 0 x l = Z.of_nat i /\ nth_error l i = Some y /\ x <= y /\ forall j z, (j < i)%nat -> nth_error l j = Some z -> z < x.
Proof. exact first_right. Qed.
Print Assumptions C163_drawn.
Example C163_ex : map (map (option_map Qred)) (snd (compute_weight_moc (demo (fun _ => 30)) 1 (fun _ _ => 11%Z) [1 # 10; 1 # 2; 3 # 4; 9 # 10])) = [[Some (1 # 2); Some (1 # 2)]] /\
  first_at 0 5 [1; 4; 6; 9] = 2%Z /\ first_at 0 10 [1; 4; 6; 9] = (-1)%Z.
Proof. repeat split. Qed.

(** ** C164: sums of masks *)
Theorem C164_accepts : forall a b, ((exists m, mask_add a b = Ok m) <-> compatible a b) /\ (mask_add a b = Err EException <-> ~ compatible a b).
Proof. exact add_accepts. Qed.
Print Assumptions C164_accepts.
Theorem C164_values : forall a b m, mask_add a b = Ok m -> m_time m = m_time a /\ m_freq m = m_freq a /\
  forall f t x, entry (m_value m) f t x <-> exists y z, entry (m_value a) f t y /\ entry (m_value b) f t z /\ x = match y, z with Some p, Some q => Some (p + q) | _, _ => None end.
Proof. exact add_values. Qed.
Print Assumptions C164_values.
Theorem C164_shape : forall a b m, shaped a -> shaped b -> mask_add a b = Ok m -> shaped m.
Proof. exact add_shape. Qed.
Print Assumptions C164_shape.
Theorem C164_commutative : forall a b m, mask_add a b = Ok m -> exists m', mask_add b a = Ok m' /\ equivalent m m'.
Proof. exact add_comm. Qed.
Print Assumptions C164_commutative.
Theorem C164_associative : forall a b c ab l, mask_add a b = Ok ab -> mask_add ab c = Ok l -> exists bc r, mask_add b c = Ok bc /\ mask_add a bc = Ok r /\ equivalent l r.
Proof. exact add_assoc. Qed.
Print Assumptions C164_associative.
Definition demo_mask : mask := mkMask [1; 2] [30; 40] [[Some 1; Some (1 # 3)]; [None; Some 0]].
Example C164_ex : shaped demo_mask /\ compatible demo_mask demo_mask /\ mask_add demo_mask demo_mask = Ok (mkMask [1; 2] [30; 40] [[Some 2; Some (6 # 9)]; [None; Some 0]]) /\
  mask_add demo_mask (mkMask [1; 3] [30; 40] []) = Err EException.
Proof. split; [split; [reflexivity|repeat constructor]|]. split; [split; repeat constructor|]. split; reflexivity. Qed.

(** ** C165: files of masks *)
Theorem C165_floats : forall m, fst (export m false) = m /\ from_fits (snd (export m false)) = m.
Proof. exact floats_kept. Qed.
Print Assumptions C165_floats.
Theorem C165_bytes : forall m f t v, entry (m_value m) f t (Some v) -> 0 <= v -> v <= 1 -> exists w, entry (m_value (read_back m)) f t (Some w) /\ w <= v /\ v < w + 1 / 255 /\ exists k, (0 <= k <= 255)%Z /\ w == inject_Z k / 255.
Proof. exact bytes_close. Qed.
Print Assumptions C165_bytes.
Theorem C165_nan : forall m f t, entry (m_value m) f t None -> exists w, entry (m_value (read_back m)) f t (Some w) /\ w == 0.
Proof. exact bytes_nan. Qed.
Print Assumptions C165_nan.
Theorem C165_axes : forall m in_bytes, m_time (from_fits (snd (export m in_bytes))) = m_time m /\ m_freq (from_fits (snd (export m in_bytes))) = m_freq m.
Proof. exact bytes_axes. Qed.
Print Assumptions C165_axes.
Theorem C165_counts_refuted : forall m f t n, (1 <= n <= 256)%Z -> entry (m_value m) f t (Some (inject_Z n)) -> exists w, entry (m_value (read_back m)) f t (Some w) /\ w == inject_Z (256 - n) / 255.
Proof. exact bytes_counts_refuted. Qed.
Print Assumptions C165_counts_refuted.
Theorem C165_changed_refuted : forall m f t v, entry (m_value m) f t (Some v) -> 1 / 255 <= v -> v <= 1 -> exists k, (1 <= k <= 255)%Z /\ inject_Z k <= v * 255 < inject_Z (k + 1) /\
  entry (m_value (fst (export m true))) f t (Some (inject_Z k)) /\ exists w, entry (m_value (read_back (fst (export m true)))) f t (Some w) /\ w == inject_Z (256 - k) / 255.
Proof. exact bytes_changed_refuted. Qed.
Print Assumptions C165_changed_refuted.
Example C165_ex : map (map (option_map Qred)) (m_value (read_back demo_mask)) = [[Some 1; Some (1 # 3)]; [Some 0; Some 0]] /\
  map (map (option_map Qred)) (m_value (read_back (mkMask [1; 2] [30] [[Some 1; Some 2]]))) = [[Some 1; Some (254 # 255)]] /\
  map (map (option_map Qred)) (m_value (read_back (fst (export (mkMask [1; 2] [30] [[Some 1; Some (1 # 3)]]) true)))) = [[Some (1 # 255); Some (57 # 85)]].
Proof. repeat split. Qed.
