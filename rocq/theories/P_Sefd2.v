(** Equivalent flux density and sensitivity. *)
From Coq Require Import ZArith Reals Bool List Arith Lia Lra Permutation.
From Verif Require Import Base M_Polar M_Beam M_Xst M_Instru M_Area P_Area P_Area2 P_Area4 M_Sefd P_Sefd.
Import ListNotations.
Open Scope list_scope.
Open Scope R_scope.
Local Opaque grid_count resolution.

(** Both instruments of the package have an area in a horizontal plane. *)
Theorem mini_array_plane : forall ants, horizontal_plane (ma_area ants).
Proof.
  intros ants fs l E. split; [now destruct (area_value _ _ _ _ E)|]. intro el. now destruct (area_elevation ants fs el l E).
Qed.
Theorem nenufar_plane : forall P G L G' L' (base : interf vec G' L') active (a : interf P G L), horizontal_plane (nenufar_area base active a).
Proof.
  intros P G L G' L' base active a fs l E. unfold nenufar_area in *. destruct (i_getitem base active) as [ma|e]; [|discriminate]. cbn [bind] in *.
  destruct (ma_area (i_positions ma) fs (PI / 2)) as [m|e] eqn:M; [|discriminate]. cbn [bind] in E. apply f_equal with (f := fun r => match r with Ok x => x | Err _ => [] end) in E. cbv beta iota in E. subst l.
  split; [rewrite map_length; now destruct (area_value _ _ _ _ M)|]. intro el. destruct (area_elevation (i_positions ma) fs el m M) as [W _]. rewrite W. cbn [bind]. f_equal. rewrite !map_map. apply map_ext. intro. ring.
Qed.
(** An area in a plane fails for no elevation or for all. *)
Definition steady (area : area_fn) : Prop := forall fs el l, area fs el = Ok l -> exists m, area fs (PI / 2) = Ok m.
Lemma plane_sized area : horizontal_plane area -> steady area -> sized area.
Proof.
  intros H S fs el l E. destruct (S fs el l E) as [m M]. destruct (H fs m M) as [L K]. rewrite K in E. injection E as <-. now rewrite map_length.
Qed.
Theorem mini_array_steady : forall ants, steady (ma_area ants).
Proof. intros ants fs el l E. apply area_defined. apply (area_defined ants fs el). eauto. Qed.
Theorem nenufar_steady : forall P G L G' L' (base : interf vec G' L') active (a : interf P G L), steady (nenufar_area base active a).
Proof.
  intros P G L G' L' base active a fs el l E. unfold nenufar_area in *. destruct (i_getitem base active) as [ma|e]; [|discriminate]. cbn [bind] in *.
  destruct (ma_area (i_positions ma) fs el) as [m|e] eqn:M; [|discriminate]. destruct (mini_array_steady _ _ _ _ M) as [m' M']. rewrite M'. eexists. reflexivity.
Qed.
Lemma inst_length t z fs inst : instrument_temperature t z fs = Ok inst -> length inst = length fs.
Proof.
  intro E. unfold instrument_temperature in E. destruct (if (z =? 0)%Z then Ok (no_filter t) else if (z =? 3)%Z then Ok (filter_25 t) else Err EKeyError) as [tb|]; [|discriminate]. cbn [bind] in E. now destruct (each_spec _ _ _ E).
Qed.
Lemma k_pos : 0 < k_B. Proof. unfold k_B. lra. Qed.
Lemma jy_pos : 0 < jy. Proof. unfold jy. apply Rinv_0_lt_compat. apply pow_lt. lra. Qed.

(** Flux density of the noise [s_n] and of the sources, for a whole area [b] at zenith, and
    what the function returns: the quotient by zero is not a number. *)
Definition quotient (a b : R) (r : option R) : Prop := (b = 0 /\ r = None) \/ (b <> 0 /\ exists x, r = Some x /\ x * b = a).
Lemma rdiv_quotient a b : quotient a b (rdiv a b).
Proof. unfold rdiv. destruct (Req_EM_T b 0) as [E|E]; [left; auto|right; split; [exact E|]; exists (a / b); split; [reflexivity|field; exact E]]. Qed.
Lemma quotient_unique a b r s : quotient a b r -> quotient a b s -> r = s.
Proof.
  intros [[A ->]|[A (x & -> & X)]] [[B ->]|[B (y & -> & Y)]]; try congruence. f_equal. apply (Rmult_eq_reg_r b); [congruence|exact A].
Qed.

Theorem sefd_value : forall area t z fs el eff deco sources inst a, horizontal_plane area ->
  instrument_temperature t z fs = Ok inst -> area fs (PI / 2) = Ok a ->
  exists l, sefd area t z fs el eff deco sources = Ok l /\ length l = length fs /\
  forall i f ti b, nth_error fs i = Some f -> nth_error inst i = Some ti -> nth_error a i = Some b ->
  exists r, nth_error l i = Some r /\
    quotient (deco * (2 * (1380649 / 10 ^ 29) * (sky_temperature f + ti) * 10 ^ 26 + flux sources f * b)) (eff * (b * sin el)) r.
Proof.
  intros area t z fs el eff deco sources inst a H E A. assert (Li := inst_length _ _ _ _ E). destruct (H fs a A) as [La K]. unfold sefd. rewrite K. cbn [bind].
  assert (V : exists l, system_temperature area t z fs sources 1 (PI / 2) = Ok l /\ length l = length fs /\
    forall i f ti b, nth_error fs i = Some f -> nth_error inst i = Some ti -> nth_error a i = Some b ->
    nth_error l i = Some (sky_temperature f + ti + flux sources f * jy * b * 1 / (2 * k_B))).
  { (* the area is known at zenith only through [K] *)
    unfold system_temperature. rewrite E. cbn [bind].
    assert (F : forall ss acc, length acc = length fs -> exists r, fold_left (fun acc s => bind acc (fun t_src => bind (source_term area fs 1 (PI / 2) s) (fun x => Ok (map2 Rplus t_src x)))) ss (Ok acc) = Ok r /\ length r = length fs /\
      forall i f c b, nth_error fs i = Some f -> nth_error acc i = Some c -> nth_error a i = Some b -> nth_error r i = Some (c + flux ss f * jy * b * 1 / (2 * k_B))).
    { induction ss as [|s ss IH]; intros acc L.
      - exists acc. split; [reflexivity|]. split; [exact L|]. intros i f c b F C _. rewrite C. f_equal. cbn. unfold Rdiv. ring.
      - cbn [fold_left bind]. unfold source_term at 2. rewrite A. cbn [bind].
        destruct (IH (map2 Rplus acc (map2 (fun f a0 => s f * jy * a0 * 1 / (2 * k_B)) fs a))) as (r & R1 & R2 & R3).
        { rewrite map2_length; [exact L|]. rewrite map2_length; congruence. }
        exists r. split; [exact R1|]. split; [exact R2|]. intros i f c b F C B.
        rewrite (R3 i f (c + s f * jy * b * 1 / (2 * k_B)) b F); [|apply map2_nth; [exact C|apply (map2_nth (fun f a0 => s f * jy * a0 * 1 / (2 * k_B))); assumption]|exact B].
        f_equal. cbn [flux fold_right]. fold (flux ss f). unfold Rdiv. ring. }
    destruct (F sources (map (fun _ => 0) fs)) as (r & R1 & R2 & R3); [now rewrite map_length|]. rewrite R1. cbn [bind]. eexists. split; [reflexivity|].
    assert (X : length (map2 Rplus (map sky_temperature fs) inst) = length fs) by (rewrite map2_length; rewrite map_length; [reflexivity|now symmetry]).
    split; [rewrite map2_length; [exact X|]; rewrite X; now symmetry|].
    intros i f ti b F' T B. apply map2_nth; [apply map2_nth; [now apply nth_map0|exact T]|]. rewrite (R3 i f 0 b F'); [f_equal; ring|now apply (nth_map0 (fun _ : R => 0) fs i f)|exact B]. }
  destruct V as (l & V1 & V2 & V3). rewrite V1. cbn [bind]. eexists. split; [reflexivity|]. split; [rewrite map2_length; [exact V2|]; rewrite map_length; congruence|].
  intros i f ti b F T B. eexists. split; [apply map2_nth; [exact (V3 i f ti b F T B)|apply map_nth_error; exact B]|].
  match goal with |- quotient _ _ (rdiv ?x _) => replace (deco * (2 * (1380649 / 10 ^ 29) * (sky_temperature f + ti) * 10 ^ 26 + flux sources f * b)) with x; [apply rdiv_quotient|] end.
  assert (k0 := k_pos). unfold jy. unfold k_B in *. field. 
Qed.
Theorem sefd_error : forall area t z fs el eff deco sources e,
  area fs el = Err e \/ (instrument_temperature t z fs = Err e /\ exists a, area fs el = Ok a) -> sefd area t z fs el eff deco sources = Err e.
Proof.
  intros area t z fs el eff deco sources e [A|[I [a A]]]; unfold sefd; rewrite A; [reflexivity|]. cbn [bind]. destruct (sys_error area t z fs sources 1 (PI / 2) e) as [W _]. rewrite (W I). reflexivity.
Qed.

(** Values of two calls at the same place. *)
Section compare.
  Variables (area : area_fn) (t : lna) (z : Z) (fs inst a : list R).
  Hypotheses (Hp : horizontal_plane area) (Hi : instrument_temperature t z fs = Ok inst) (Ha : area fs (PI / 2) = Ok a).
  Lemma sefd_at el eff deco sources l i v : sefd area t z fs el eff deco sources = Ok l -> nth_error l i = Some v ->
    exists f ti b, nth_error fs i = Some f /\ nth_error inst i = Some ti /\ nth_error a i = Some b /\
      quotient (deco * (2 * (1380649 / 10 ^ 29) * (sky_temperature f + ti) * 10 ^ 26 + flux sources f * b)) (eff * (b * sin el)) v.
  Proof.
    intros E N. destruct (sefd_value area t z fs el eff deco sources inst a Hp Hi Ha) as (l' & E' & L & V). rewrite E in E'. injection E' as <-.
    assert (Hl := nth_some _ _ _ N). destruct (Hp fs a Ha) as [La _]. assert (Li := inst_length _ _ _ _ Hi).
    destruct (nth_lt fs i) as [f F]; [lia|]. destruct (nth_lt inst i) as [ti T]; [lia|]. destruct (nth_lt a i) as [b B]; [lia|].
    destruct (V i f ti b F T B) as (r & R1 & R2). rewrite N in R1. injection R1 as ->. exists f, ti, b. auto.
  Qed.
End compare.
Lemma sefd_parts area t z fs el eff deco sources l : steady area -> sefd area t z fs el eff deco sources = Ok l ->
  exists inst a, instrument_temperature t z fs = Ok inst /\ area fs (PI / 2) = Ok a.
Proof.
  intros S E. destruct (area fs el) as [x|e] eqn:A; [|rewrite (sefd_error area t z fs el eff deco sources e) in E by auto; discriminate].
  destruct (S _ _ _ A) as [a Ha]. destruct (instrument_temperature t z fs) as [inst|e] eqn:I; [eauto|].
  rewrite (sefd_error area t z fs el eff deco sources e) in E; [discriminate|right; eauto].
Qed.

(** The sources are divided by the efficiency and the sine of the elevation. *)
Theorem sefd_sources : forall area t z fs el eff deco sources l0 l i f v0, horizontal_plane area -> steady area ->
  sefd area t z fs el eff deco [] = Ok l0 -> sefd area t z fs el eff deco sources = Ok l ->
  nth_error fs i = Some f -> nth_error l0 i = Some (Some v0) ->
  exists v, nth_error l i = Some (Some v) /\ (v - v0) * (eff * sin el) = deco * flux sources f.
Proof.
  intros area t z fs el eff deco sources l0 l i f v0 Hp S E0 E F N0. destruct (sefd_parts _ _ _ _ _ _ _ _ _ S E0) as (inst & a & Hi & Ha).
  destruct (sefd_at area t z fs inst a Hp Hi Ha _ _ _ _ _ _ _ E0 N0) as (f' & ti & b & F' & T & B & Q0). rewrite F in F'. injection F' as <-.
  destruct (sefd_value area t z fs el eff deco sources inst a Hp Hi Ha) as (l' & E' & L & V). rewrite E in E'. injection E' as <-.
  destruct (V i f ti b F T B) as (r & R1 & R2).
  destruct Q0 as [[_ ?]|[D (x & X & Y)]]; [discriminate|]. injection X as <-. destruct R2 as [[D' _]|[_ (v & -> & Y')]]; [congruence|].
  exists v. split; [exact R1|]. cbn [flux fold_right] in Y. assert (Bn : b <> 0) by (intro; subst; apply D; ring). apply (Rmult_eq_reg_r b); [|exact Bn].
  replace ((v - v0) * (eff * sin el) * b) with (v * (eff * (b * sin el)) - v0 * (eff * (b * sin el))) by ring. rewrite Y, Y'. ring.
Qed.
(** Elevation, efficiency and decoherence. *)
Theorem sefd_scales : forall area t z fs el eff deco el' eff' deco' sources l l' i v v', horizontal_plane area -> steady area ->
  sefd area t z fs el eff deco sources = Ok l -> sefd area t z fs el' eff' deco' sources = Ok l' ->
  nth_error l i = Some (Some v) -> nth_error l' i = Some (Some v') ->
  v * (eff * sin el) * deco' = v' * (eff' * sin el') * deco.
Proof.
  intros area t z fs el eff deco el' eff' deco' sources l l' i v v' Hp S E E' N N'. destruct (sefd_parts _ _ _ _ _ _ _ _ _ S E) as (inst & a & Hi & Ha).
  destruct (sefd_at area t z fs inst a Hp Hi Ha _ _ _ _ _ _ _ E N) as (f & ti & b & F & T & B & Q).
  destruct (sefd_at area t z fs inst a Hp Hi Ha _ _ _ _ _ _ _ E' N') as (f' & ti' & b' & F' & T' & B' & Q').
  rewrite F in F'. injection F' as <-. rewrite T in T'. injection T' as <-. rewrite B in B'. injection B' as <-.
  destruct Q as [[_ ?]|[D (x & X & Y)]]; [discriminate|]. injection X as <-. destruct Q' as [[_ ?]|[D' (x & X & Y')]]; [discriminate|]. injection X as <-.
  assert (Bn : b <> 0) by (intro; subst; apply D; ring). apply (Rmult_eq_reg_r b); [|exact Bn].
  replace (v * (eff * sin el) * deco' * b) with (v * (eff * (b * sin el)) * deco') by ring. replace (v' * (eff' * sin el') * deco * b) with (v' * (eff' * (b * sin el')) * deco) by ring. rewrite Y, Y'. ring.
Qed.
(** Where it is not a number. *)
Theorem sefd_nan : forall area t z fs el eff deco sources l i a b, horizontal_plane area -> area fs (PI / 2) = Ok a ->
  sefd area t z fs el eff deco sources = Ok l -> nth_error a i = Some b ->
  exists v, nth_error l i = Some v /\ (v = None <-> eff = 0 \/ sin el = 0 \/ b = 0).
Proof.
  intros area t z fs el eff deco sources l i a b Hp A E B. destruct (Hp fs a A) as [La K].
  destruct (instrument_temperature t z fs) as [inst|e] eqn:I; [|rewrite (sefd_error area t z fs el eff deco sources e) in E; [discriminate|right; eauto]].
  destruct (sefd_value area t z fs el eff deco sources inst a Hp I A) as (l' & E' & L & V). rewrite E in E'. injection E' as <-. assert (Li := inst_length _ _ _ _ I). assert (Hb := nth_some _ _ _ B).
  destruct (nth_lt fs i) as [f F]; [lia|]. destruct (nth_lt inst i) as [ti T]; [lia|]. destruct (V i f ti b F T B) as (r & R1 & R2). exists r. split; [exact R1|].
  destruct R2 as [[D ->]|[D (x & -> & _)]].
  - split; [intros _|reflexivity]. apply Rmult_integral in D. destruct D as [D|D]; [auto|]. apply Rmult_integral in D. tauto.
  - split; [discriminate|]. intros [->|[Z| -> ]]; elim D; [ring|rewrite Z; ring|ring].
Qed.
(** Without sources, the density of an array is that of one element divided by the number. *)
Theorem sefd_number : forall P G L G' L' (base : interf vec G' L') active (a b : interf P G L) t z fs el eff deco la lb i va vb,
  sefd (nenufar_area base active a) t z fs el eff deco [] = Ok la -> sefd (nenufar_area base active b) t z fs el eff deco [] = Ok lb ->
  nth_error la i = Some (Some va) -> nth_error lb i = Some (Some vb) -> va * INR (i_size a) = vb * INR (i_size b).
Proof.
  intros P G L G' L' base active a b t z fs el eff deco la lb i va vb Ea Eb Na Nb.
  destruct (sefd_parts _ _ _ _ _ _ _ _ _ (nenufar_steady P G L G' L' base active a) Ea) as (inst & xa & Hi & Ha).
  destruct (nenufar_size P G L G' L' base active a b fs (PI / 2) xa Ha) as (xb & Hb & Lb & R).
  destruct (sefd_at _ t z fs inst xa (nenufar_plane P G L G' L' base active a) Hi Ha _ _ _ _ _ _ _ Ea Na) as (f & ti & ya & F & T & Ya & Qa).
  destruct (sefd_at _ t z fs inst xb (nenufar_plane P G L G' L' base active b) Hi Hb _ _ _ _ _ _ _ Eb Nb) as (f' & ti' & yb & F' & T' & Yb & Qb).
  rewrite F in F'. injection F' as <-. rewrite T in T'. injection T' as <-. cbn [flux fold_right] in *.
  destruct Qa as [[_ ?]|[Da (x & X & Va)]]; [discriminate|]. injection X as <-. destruct Qb as [[_ ?]|[Db (x & X & Vb)]]; [discriminate|]. injection X as <-.
  specialize (R i). rewrite (nth_error_nth _ _ 0 Ya), (nth_error_nth _ _ 0 Yb) in R.
  assert (En : eff * sin el <> 0). { intro Z. apply Da. replace (eff * (ya * sin el)) with (eff * sin el * ya) by ring. rewrite Z. ring. }
  assert (yan : ya <> 0) by (intro; subst; apply Da; ring). assert (ybn : yb <> 0) by (intro; subst; apply Db; ring).
  assert (Q : va * ya = vb * yb). { apply (Rmult_eq_reg_r (eff * sin el)); [|exact En]. replace (va * ya * (eff * sin el)) with (va * (eff * (ya * sin el))) by ring. replace (vb * yb * (eff * sin el)) with (vb * (eff * (yb * sin el))) by ring. rewrite Va, Vb. ring. }
  apply (Rmult_eq_reg_r ya); [|exact yan]. replace (va * INR (i_size a) * ya) with (va * ya * INR (i_size a)) by ring. rewrite Q.
  replace (vb * yb * INR (i_size a)) with (vb * (yb * INR (i_size a))) by ring. rewrite R. ring.
Qed.

(** ** Sensitivity *)
Theorem sens_value : forall area n t z fs m dt df el eff deco sources s, 0 < dt -> 0 < df -> sefd area t z fs el eff deco sources = Ok s ->
  (m = OtherMode -> sensitivity area n t z fs m dt df el eff deco sources = Err EValueError) /\
  (m <> OtherMode -> exists l, sensitivity area n t z fs m dt df el eff deco sources = Ok l /\ length l = length s /\
    forall i v, nth_error s i = Some v -> exists r, nth_error l i = Some r /\
      match v with
      | None => r = None
      | Some v => match m with
                  | Beamforming => exists x, r = Some x /\ x ^ 2 * (2 * dt * df) = v ^ 2 /\ 0 <= x * v
                  | _ => if (n <=? 1)%nat then r = None else exists x, r = Some x /\ x ^ 2 * (INR n * (INR n - 1) * (2 * dt * df)) = v ^ 2 /\ 0 <= x * v
                  end
      end).
Proof.
  intros area n t z fs m dt df el eff deco sources s Hdt Hdf E.
  assert (Q : forall v d, 0 < d -> exists x, rdiv v (sqrt d) = Some x /\ x ^ 2 * d = v ^ 2 /\ 0 <= x * v).
  { intros v d D. assert (P := sqrt_lt_R0 d D). unfold rdiv. destruct (Req_EM_T (sqrt d) 0); [lra|]. exists (v / sqrt d). split; [reflexivity|]. split.
    - replace ((v / sqrt d) ^ 2 * d) with (v ^ 2 * (d / sqrt d ^ 2)) by (field; lra). rewrite pow2_sqrt by lra. field. lra.
    - replace (v / sqrt d * v) with (v ^ 2 * / sqrt d) by (unfold Rdiv; ring). apply Rmult_le_pos; [apply pow2_ge_0|]. apply Rlt_le. now apply Rinv_0_lt_compat. }
  split.
  - intros ->. unfold sensitivity. rewrite E. reflexivity.
  - intro M. unfold sensitivity. rewrite E. cbn [bind]. destruct m; [| |congruence].
    + eexists. split; [reflexivity|]. split; [apply map_length|]. intros i v N. eexists. split; [rewrite nth_error_map, N; cbn [option_map]; reflexivity|]. destruct v as [v|]; [|reflexivity].
      destruct (Nat.leb_spec n 1) as [H|H].
      * assert (Z : INR n * (INR n - 1) = 0) by (destruct n as [|[|n]]; [cbn; ring|cbn; ring|lia]). replace (INR n * (INR n - 1) * 2 * dt * df) with 0 by (rewrite Z; ring). rewrite sqrt_0. unfold rdiv. destruct (Req_EM_T 0 0); [reflexivity|congruence].
      * assert (1 < INR n) by (change 1 with (INR 1); now apply lt_INR). replace (INR n * (INR n - 1) * 2 * dt * df) with (INR n * (INR n - 1) * (2 * dt * df)) by ring. apply Q.
        repeat apply Rmult_lt_0_compat; lra.
    + eexists. split; [reflexivity|]. split; [apply map_length|]. intros i v N. eexists. split; [rewrite nth_error_map, N; cbn [option_map]; reflexivity|]. destruct v as [v|]; [|reflexivity]. apply Q. repeat apply Rmult_lt_0_compat; lra.
Qed.
Theorem sens_error : forall area n t z fs m dt df el eff deco sources e, sefd area t z fs el eff deco sources = Err e ->
  sensitivity area n t z fs m dt df el eff deco sources = Err e.
Proof. intros. unfold sensitivity. rewrite H. reflexivity. Qed.
Lemma rdiv_some a b x : rdiv a b = Some x -> b <> 0 /\ x = a / b.
Proof. unfold rdiv. destruct (Req_EM_T b 0); [discriminate|]. intro H. now injection H as <-. Qed.
Lemma sens_at area n t z fs m dt df el eff deco sources l i v : sensitivity area n t z fs m dt df el eff deco sources = Ok l -> nth_error l i = Some (Some v) ->
  exists s x, sefd area t z fs el eff deco sources = Ok s /\ nth_error s i = Some (Some x) /\
    (m = Imaging /\ sqrt (INR n * (INR n - 1) * 2 * dt * df) <> 0 /\ v = x / sqrt (INR n * (INR n - 1) * 2 * dt * df) \/
     m = Beamforming /\ sqrt (2 * dt * df) <> 0 /\ v = x / sqrt (2 * dt * df)).
Proof.
  unfold sensitivity. destruct (sefd area t z fs el eff deco sources) as [s|] eqn:E; [|discriminate]. cbn [bind]. intros H N.
  destruct m; [| |discriminate]; injection H as <-; rewrite nth_error_map in N; destruct (nth_error s i) as [[x|]|] eqn:X; try discriminate; cbn in N;
    injection N as N; apply rdiv_some in N; destruct N as [D ->]; exists s, x; (split; [reflexivity|split; [exact X|]]); [left|right]; auto.
Qed.
(** Time and band. *)
Theorem sens_time : forall area n t z fs m dt df dt' df' el eff deco sources l l' i v v', 0 < dt -> 0 < df -> 0 < dt' -> 0 < df' ->
  sensitivity area n t z fs m dt df el eff deco sources = Ok l -> sensitivity area n t z fs m dt' df' el eff deco sources = Ok l' ->
  nth_error l i = Some (Some v) -> nth_error l' i = Some (Some v') -> v ^ 2 * (dt * df) = v' ^ 2 * (dt' * df').
Proof.
  intros area n t z fs m dt df dt' df' el eff deco sources l l' i v v' A B C D E E' N N'.
  destruct (sens_at _ _ _ _ _ _ _ _ _ _ _ _ _ _ _ E N) as (s & x & S & X & Q). destruct (sens_at _ _ _ _ _ _ _ _ _ _ _ _ _ _ _ E' N') as (s' & x' & S' & X' & Q').
  rewrite S in S'. injection S' as <-. rewrite X in X'. injection X' as <-.
  assert (G : forall k dt df v, 0 < dt -> 0 < df -> 0 <= k -> sqrt (k * 2 * dt * df) <> 0 -> v = x / sqrt (k * 2 * dt * df) -> v ^ 2 * (dt * df) * (k * 2) = x ^ 2).
  { intros k u w y U W K Z ->. assert (P : 0 <= k * 2 * u * w) by (repeat apply Rmult_le_pos; lra). replace ((x / sqrt (k * 2 * u * w)) ^ 2 * (u * w) * (k * 2)) with (x ^ 2 * (k * 2 * u * w) / sqrt (k * 2 * u * w) ^ 2) by (field; exact Z).
    rewrite pow2_sqrt by exact P. field. repeat split; intro O; apply Z; rewrite O; rewrite ?Rmult_0_l, ?Rmult_0_r; rewrite ?Rmult_0_l, ?Rmult_0_r; apply sqrt_0. }
  assert (NN : 0 <= INR n * (INR n - 1)). { destruct n as [|n]; [cbn; lra|]. rewrite S_INR. assert (P := pos_INR n). nra. }
  destruct Q as [(-> & Z & V)|(-> & Z & V)]; destruct Q' as [(M & Z' & V')|(M & Z' & V')]; try discriminate.
  - assert (H := G _ _ _ _ A B NN Z V). assert (H' := G _ _ _ _ C D NN Z' V').
    assert (INR n * (INR n - 1) <> 0). { intro O. apply Z. rewrite O, !Rmult_0_l. apply sqrt_0. }
    apply (Rmult_eq_reg_r (INR n * (INR n - 1) * 2)); lra.
  - assert (H := G 1 dt df v A B). rewrite Rmult_1_l in H. assert (H' := G 1 dt' df' v' C D). rewrite Rmult_1_l in H'.
    apply (Rmult_eq_reg_r 2); [|lra]. rewrite H, H'; try assumption; lra.
Qed.
(** Imaging is below beamforming by the number of pairs. *)
Theorem sens_modes : forall area n t z fs dt df el eff deco sources l l' i v v', 0 < dt -> 0 < df ->
  sensitivity area n t z fs Imaging dt df el eff deco sources = Ok l -> sensitivity area n t z fs Beamforming dt df el eff deco sources = Ok l' ->
  nth_error l i = Some (Some v) -> nth_error l' i = Some (Some v') ->
  v * sqrt (INR n * (INR n - 1)) = v' /\ ((2 <= n)%nat -> v' ^ 2 >= 2 * v ^ 2).
Proof.
  intros area n t z fs dt df el eff deco sources l l' i v v' A B E E' N N'.
  destruct (sens_at _ _ _ _ _ _ _ _ _ _ _ _ _ _ _ E N) as (s & x & S & X & Q). destruct (sens_at _ _ _ _ _ _ _ _ _ _ _ _ _ _ _ E' N') as (s' & x' & S' & X' & Q').
  rewrite S in S'. injection S' as <-. rewrite X in X'. injection X' as <-.
  destruct Q as [(_ & Z & V)|(? & _)]; [|discriminate]. destruct Q' as [(? & _)|(_ & Z' & V')]; [discriminate|].
  assert (NN : 0 <= INR n * (INR n - 1)). { destruct n as [|n]; [cbn; lra|]. rewrite S_INR. assert (P := pos_INR n). nra. }
  assert (T : 0 < 2 * dt * df) by (repeat apply Rmult_lt_0_compat; lra).
  replace (INR n * (INR n - 1) * 2 * dt * df) with (INR n * (INR n - 1) * (2 * dt * df)) in * by ring.
  assert (SM : sqrt (INR n * (INR n - 1) * (2 * dt * df)) = sqrt (INR n * (INR n - 1)) * sqrt (2 * dt * df)) by (apply sqrt_mult; lra). rewrite SM in Z, V.
  assert (Y : v * sqrt (INR n * (INR n - 1)) = v'). { rewrite V, V'. field. split; intro O; apply Z; rewrite O; ring. }
  split; [exact Y|]. intro K. rewrite <- Y, Rpow_mult_distr, pow2_sqrt by exact NN. assert (K2 : 2 <= INR n) by (change 2 with (INR 2); now apply le_INR). assert (P := pow2_ge_0 v). assert (M : 2 <= INR n * (INR n - 1)) by nra. apply Rle_ge. rewrite (Rmult_comm 2). apply Rmult_le_compat_l; assumption.
Qed.
