(** T_volatf.v -- property C185: volatility estimators in float64.
    [rnd p] is the rounding characterised in C137_rounding. *)
From Coq Require Import Qround Qpower Qfield.
From Verif Require Import Base M_logic M_bars M_features M_volume M_volat M_float M_float2 M_float3 M_float7 S_logic S_features S_volat S_float S_sumf.
From Verif Require Import P_weights P_features P_features2 P_volat P_float P_float2 P_float9 P_float11 P_float12 P_float13 P_sumf P_weightsf P_volatf P_volatf2 T_volat T_volat2.
Open Scope Q_scope.

(** * True range and ATR *)
(** Every true range is the float64 number nearest to the exact one. *)
Theorem C185_true_range : forall high low close ex, true_range high low close = Ok ex ->
  exists out, true_range_f high low close = Ok out /\ length out = length ex /\
  forall i, match nth i ex None, nth i out None with
            | Some t, Some a => nearest_even 53 t a
            | None, None => True
            | _, _ => False end.
Proof.
  intros high low close ex. unfold true_range, true_range_f. destruct (_ && _)%bool; [|discriminate]. intro E. injection E as <-.
  eexists. split; [reflexivity|]. rewrite !map_length. split; [reflexivity|]. intro i.
  destruct (Nat.lt_ge_cases i (length high)) as [Hi|Hi]; [|rewrite !nth_overflow by (rewrite map_length, seq_length; lia); exact I].
  rewrite !nth_map_seq by auto. pose proof (tr_at_rounded high low close i) as R.
  destruct (tr_at_f high low close i) as [a|], (tr_at high low close i) as [t|]; cbn [ole] in R; auto.
  destruct (rnd_nearest 53 t ltac:(lia)) as (N1 & N2 & N3). fold (r53 t) in N1, N2, N3. split; [apply (fl_comp 53 (r53 t)); [symmetry; exact R|exact N1]|].
  split; [intros z Hz; rewrite R; now apply N2|]. intros z Hz Hn Hd. destruct (N3 z Hz) as (m & e & M1 & M2 & M3); [rewrite <- R; exact Hn|rewrite <- R; exact Hd|].
  exists m, e. split; [exact M1|]. split; [exact M2|]. now rewrite R.
Qed.
(** ATR has the NaN of the exact one and its values up to window + 2 relative errors, three more for every step of the
    exponential average, five more for the normalisation. *)
Theorem C185_atr : forall high low close w ema norm ex, (1 <= w)%nat ->
  (forall h l, nth 0 high None = Some h -> nth 0 low None = Some l -> l <= h) -> atr high low close w ema norm = Ok ex ->
  exists out, atr_f high low close w ema norm = Ok out /\ length out = length ex /\
  forall i, match nth i ex None, nth i out None with
            | Some x, Some a => 0 <= x /\ within u53 (w + 2 + (if ema then 3 * (i + 1 - w) else 0) + (if norm then 5 else 0)) a x
            | None, None => True
            | _, _ => False end.
Proof.
  intros high low close w ema norm ex Hw W E. destruct (atr_within high low close w ema norm ex Hw W E) as (out & E1 & E2 & E3).
  exists out. split; [exact E1|]. split; [exact E2|]. intro i. specialize (E3 i). unfold atr_steps in E3.
  destruct (nth i out None), (nth i ex None); cbn [ole] in E3; auto.
Qed.
Definition c185_h := map Some (map r53 [101 # 10; 103 # 10; 102 # 10; 104 # 10]).
Definition c185_l := map Some (map r53 [99 # 10; 100 # 10; 101 # 10; 101 # 10]).
Definition c185_c := map Some (map r53 [100 # 10; 1021 # 100; 1012 # 100; 1033 # 100]).
Example C185_atr_example :
  match atr_f c185_h c185_l c185_c 2 true true, atr c185_h c185_l c185_c 2 true true with
  | Ok o, Ok e => map (option_map (fun v => Qfloor (v * 100000000))) o = [None; Some 2463054%Z; Some 1773399%Z; Some 2341463%Z] /\
                  ~ (match nth 3 o None, nth 3 e None with Some a, Some b => a == b | _, _ => True end)
  | _, _ => False end /\
  (forall h l, nth 0 c185_h None = Some h -> nth 0 c185_l None = Some l -> l <= h).
Proof.
  split; [vm_compute; split; [reflexivity|discriminate]|]. intros h l E F. unfold c185_h, c185_l in *. cbn [map nth] in E, F.
  injection E as <-. injection F as <-. apply r53_mono. discriminate.
Qed.

(** * Realised volatility *)
Theorem C185_realized_vol : forall sqrt sumf r n smp i, sums_somehow sumf -> (1 <= n)%nat -> (i < length r)%nat ->
  let w := vals (window (fun j => nth j r None) i n) in
  let out := realized_vol_f sqrt sumf r n smp in
  length out = length r /\
  (nth i out None = None <-> (i + 1 < n)%nat \/ (length w < 2)%nat) /\
  ((n <= i + 1)%nat -> (2 <= length w)%nat -> exists v x, nth i out None = Some (sqrt v) /\ 0 <= x /\
     x * (Qnat (length w) - (if smp then 1 else 0)) == qsum (map (fun x => x * x) w) /\ within u53 (length w + 2) v x).
Proof.
  intros sqrt sumf r n smp i F Hn Hi w out. unfold out, realized_vol_f. rewrite map_length, seq_length. split; [auto|].
  rewrite nth_map_seq by auto. destruct (Nat.ltb_spec (i + 1) n) as [K|K].
  { split; [split; auto|]. intros; lia. }
  cbv zeta. rewrite olast_window by lia. rewrite present_vals. fold w.
  destruct (Nat.ltb_spec 1 (length w)) as [K2|K2].
  2:{ split; [split; auto; intros _; right; lia|]. intros; lia. }
  split; [split; [discriminate|lia]|]. intros _ _. destruct (squares_within sumf w F) as [Q0 QW].
  set (d := if smp then (length w - 1)%nat else length w).
  assert (Pd : 0 < Qnat d) by (apply Qnat_pos; unfold d; destruct smp; lia).
  assert (Ed : Qnat (length w) - (if smp then 1 else 0) == Qnat d).
  { unfold d. destruct smp; [|ring]. replace (length w) with (S (length w - 1)) at 1 by lia. rewrite Qnat_S. ring. }
  eexists. exists (qsum (map (fun x => x * x) w) / Qnat d). split; [reflexivity|].
  split; [apply Qle_shift_div_l; lra|]. split; [rewrite Ed; field; lra|]. replace (length w + 2)%nat with (S (1 + length w)) by lia. apply within_quot; auto.
Qed.
Example C185_realized_example : sums_somehow fsum /\
  map (option_map (fun v => Qfloor (v * 10000000000))) (realized_vol_f (fun q => q) fsum [Some (r53 (1 # 100)); None; Some (r53 (3 # 100)); Some (r53 (-2 # 100))] 3 true) =
  [None; None; Some 10000000%Z; Some 12999999%Z].
Proof. split; [exact fsum_some_order|vm_compute; reflexivity]. Qed.

(** * Rolling variance *)
(** NaN as in exact arithmetic; the error is bounded in terms of the squares of the values, not of the variance. *)
Theorem C185_rolling_variance : forall series n ddof mp i, (1 <= n)%nat -> (0 <= ddof)%Z -> (i < length series)%nat ->
  let w := vals (window (fun j => nth j series None) i n) in
  let out := nth i (rolling_variance_f series n ddof mp) None in
  (out = None <-> (i + 1 < n)%nat \/ (Z.of_nat (length w) < mp)%Z \/ (Z.of_nat (length w) <= ddof)%Z) /\
  (forall v, out = Some v -> 0 <= v /\ exists x, is_var x w ddof /\
     Qabs (v - x) * inject_Z (Z.of_nat (length w) - ddof) <=
       ((1 + u53) ^ Z.of_nat (2 * length w + 6) - 1) * (2 * qsum (map (fun y => y * y) w))).
Proof.
  intros series n ddof mp i Hn Hd Hi w out. unfold out, rolling_variance_f. rewrite nth_map_seq by auto.
  destruct (Nat.ltb_spec (length series) n) as [K|K]; cbn [orb].
  { split; [split; auto; intros _; left; lia|discriminate]. }
  destruct (Nat.ltb_spec (i + 1) n) as [K2|K2].
  { split; [split; auto|discriminate]. }
  rewrite olast_window by lia. rewrite valid_sums_f_eq. fold w. cbv zeta.
  destruct (Z.leb_spec mp (Z.of_nat (length w))) as [K3|K3]; cbn [andb]; [|split; [split; auto|discriminate]].
  destruct (Z.ltb_spec ddof (Z.of_nat (length w))) as [K4|K4]; [|split; [split; auto|discriminate]].
  split; [split; [discriminate|lia]|]. intros v E.
  assert (Ev : pmax 0 (var_value_f w ddof) = v) by (apply (f_equal (fun o => match o with Some z => z | None => 0 end)) in E; exact E). rewrite <- Ev. clear E Ev v.
  assert (Hne : w <> []) by (intro H; rewrite H in K4; simpl in K4; lia).
  destruct (var_value_near w ddof Hne ltac:(lia)) as (x & V1 & V2 & V3). set (v := var_value_f w ddof) in *. clearbody v.
  split; [unfold pmax; destruct (Qltb_spec 0 v); lra|]. exists x. split; [exact V1|].
  assert (P : 0 < inject_Z (Z.of_nat (length w) - ddof)) by (change 0 with (inject_Z 0); rewrite <- Zlt_Qlt; lia).
  eapply Qle_trans; [|exact V3]. apply Qmult_le_compat_r; [|lra]. apply pmax0_close; [exact V2|lra].
Qed.
(** Values around 10^8: the variance 1 is reported as 3; around 10^9, the variance 2/3 (divisor n) is reported as 0. *)
Theorem C185_variance_refuted :
  (exists x, is_var x [100000000; 100000001; 100000002] 1 /\ x == 1) /\
  rolling_variance_f (map Some [100000000; 100000001; 100000002]) 3 1 1 = [None; None; Some 3] /\
  (exists x, is_var x [1000000000; 1000000001; 1000000002] 0 /\ x == 2 # 3) /\
  rolling_variance_f (map Some [1000000000; 1000000001; 1000000002]) 3 0 1 = [None; None; Some 0].
Proof.
  split; [exists 1; split; [exists 100000001; split; vm_compute; reflexivity|reflexivity]|]. split; [vm_compute; reflexivity|].
  split; [exists (2 # 3); split; [exists 1000000001; split; vm_compute; reflexivity|reflexivity]|vm_compute; reflexivity].
Qed.
Example C185_variance_example :
  map (option_map (fun v => Qfloor (v * 100000000000))) (rolling_variance_f [Some (r53 (1 # 100)); None; Some (r53 (3 # 100)); Some (r53 (-2 # 100))] 3 1 2) =
  [None; None; Some 19999999%Z; Some 125000000%Z].
Proof. vm_compute. reflexivity. Qed.

(** * Bollinger percent b *)
Lemma ssum_le_more (f : nat -> Q) k n : (forall j, 0 <= f j) -> (k <= n)%nat -> ssum f 0 k <= ssum f 0 n.
Proof.
  intros H L. induction L as [|n L IH]; [lra|]. rewrite ssum_snoc by lia. pose proof (H n). lra.
Qed.
Lemma moved_le x n k : moved x n k <= 2 * ssum (fun j => Qabs (x j)) 0 (n + k).
Proof. unfold moved. pose proof (ssum_le_more (fun j => Qabs (x j)) k (n + k) (fun j => Qabs_nonneg _) ltac:(lia)). lra. Qed.
Lemma moved_nonneg x n k : 0 <= moved x n k.
Proof.
  unfold moved. assert (P : forall m, 0 <= ssum (fun j => Qabs (x j)) 0 m) by (intro; apply ssum_nonneg; intros; apply Qabs_nonneg).
  pose proof (P (n + k)%nat). pose proof (P k). lra.
Qed.
Lemma window_var close i n : (2 <= n)%nat -> let xs := window (at_ close) i n in
  let A := qsum xs in let q := qsum (window (at2 close) i n) in
  is_mean (A / Qnat n) xs /\ is_var ((q - Qnat n * (A / Qnat n) * (A / Qnat n)) / (Qnat n - 1)) xs 1.
Proof.
  intros Hn xs A q. assert (N2 : 2 <= Qnat n) by (apply (Qnat_le 2 n Hn)).
  assert (Lx : length xs = n) by (unfold xs; apply window_length).
  assert (Hne : xs <> []) by (intro H; rewrite H in Lx; simpl in Lx; lia).
  split; [unfold A; rewrite <- Lx at 1; now apply mean_div|].
  assert (Eq : q == qsum (map (fun x => x * x) xs)) by (unfold q, xs, window; rewrite map_map; reflexivity).
  apply (is_var_formula xs 1 _ Hne ltac:(lia)). rewrite Lx.
  assert (EZ : inject_Z (Z.of_nat n - 1) == Qnat n - 1) by (unfold Qnat, Z.sub; rewrite inject_Z_plus; reflexivity).
  rewrite EZ, <- Eq. fold A. field. lra.
Qed.
Lemma bollinger_rows sqrt close n k i : (2 <= n)%nat -> (i < length close)%nat ->
  exists out, bollinger_percent_b_f sqrt close n k = Ok out /\ length out = length close /\
  ((i + 1 < n)%nat -> nth i out None = None) /\
  ((n <= i + 1)%nat -> nth i out None = bb_value_f sqrt (at_ close i) (bb_moments_f (i + 1 =? n)%nat (bb_sums_f close n (i + 1 - n)) n) k).
Proof.
  intros Hn Hi. unfold bollinger_percent_b_f. destruct (Nat.ltb_spec (length close) n) as [K|K].
  { eexists. split; [reflexivity|]. rewrite repeat_length. split; [auto|]. split; [intros _; apply nth_repeat|]. intro. lia. }
  destruct (Nat.eqb_spec n 1); [lia|]. eexists. split; [reflexivity|]. rewrite map_length, seq_length. split; [auto|].
  rewrite nth_map_seq by auto. destruct (Nat.ltb_spec (i + 1) n) as [K2|K2]; [split; [auto|intro; lia]|]. split; [intro; lia|]. intros _. reflexivity.
Qed.
(** [p] is percent b of the close [c] for bands of [k] deviations [sd] around [m], every operation rounded. *)
Definition percent_b_of (p : option Q) (c m sd k : Q) : Prop :=
  let lower := r53 (m - r53 (k * sd)) in let upper := r53 (m + r53 (k * sd)) in
  (upper <= lower -> p = None) /\ (lower < upper -> p = Some (r53 (r53 (c - lower) / r53 (upper - lower)))).
Lemma bb_value_percent sqrt c mv k : percent_b_of (bb_value_f sqrt c mv k) c (fst mv) (sqrt (pmax (snd mv) 0)) k.
Proof.
  unfold percent_b_of, bb_value_f. cbv zeta. set (lo := r53 (_ - _)). set (up := r53 (_ + _)). clearbody lo up. destruct (Qltb_spec lo up); split; intro; try lra; reflexivity.
Qed.
(** Mean and variance of the window carry errors that grow with all closes so far, also those that have left the window. *)
Theorem C185_bollinger : forall sqrt close n k i, (2 <= n)%nat -> (i < length close)%nat ->
  exists out, bollinger_percent_b_f sqrt close n k = Ok out /\ length out = length close /\
  ((i + 1 < n)%nat -> nth i out None = None) /\
  ((n <= i + 1)%nat ->
     let xs := window (at_ close) i n in
     let S1 := ssum (fun j => Qabs (at_ close j)) 0 (i + 1) in
     let S2 := ssum (fun j => at_ close j * at_ close j) 0 (i + 1) in
     exists m v x y, is_mean x xs /\ is_var y xs 1 /\
       Qabs (m - x) * Qnat n <= ((1 + u53) ^ Z.of_nat (i + 2) - 1) * (2 * S1) /\
       Qabs (v - y) * (Qnat n - 1) <= ((1 + u53) ^ Z.of_nat (2 * i + 8) - 1) * (2 * S2 + 4 * (S1 * S1) / Qnat n) /\
       percent_b_of (nth i out None) (at_ close i) m (sqrt (pmax v 0)) k).
Proof.
  intros sqrt close n k i Hn Hi. destruct (bollinger_rows sqrt close n k i Hn Hi) as (out & E1 & E2 & E3 & E4).
  exists out. split; [exact E1|]. split; [exact E2|]. split; [exact E3|]. intro K. rewrite (E4 K). cbv zeta.
  assert (N2 : 2 <= Qnat n) by (apply (Qnat_le 2 n Hn)).
  destruct (bb_sums_near close n (i + 1 - n) ltac:(lia)) as [B1 B2]. replace (n - 1 + (i + 1 - n))%nat with i in B1, B2 by lia.
  replace (n + (i + 1 - n))%nat with (i + 1)%nat in B1, B2 by lia.
  destruct (bb_moments_near (i + 1 =? n)%nat _ _ _ _ _ n (i + 1) Hn B1 B2) as [[_ M1] [_ M2]].
  destruct (window_var close i n Hn) as [V1 V2]. cbv zeta in V1, V2.
  set (mv := bb_moments_f (i + 1 =? n)%nat (bb_sums_f close n (i + 1 - n)) n) in *.
  exists (fst mv), (snd mv). eexists. eexists. split; [exact V1|]. split; [exact V2|]. clear V1 V2.
  pose proof (moved_le (at_ close) n (i + 1 - n)) as L1. pose proof (moved_le (at2 close) n (i + 1 - n)) as L2.
  pose proof (moved_nonneg (at_ close) n (i + 1 - n)) as P1.
  replace (n + (i + 1 - n))%nat with (i + 1)%nat in L1, L2 by lia.
  assert (S2 : ssum (fun j => Qabs (at2 close j)) 0 (i + 1) == ssum (fun j => at_ close j * at_ close j) 0 (i + 1)).
  { apply ssum_ext. intros j _. unfold at2. apply Qabs_pos. destruct (Qlt_le_dec (at_ close j) 0); nra. }
  rewrite S2 in L2. fold (ee (i + 1 + 1)) in M1. fold (ee (2 * (i + 1) + 6)) in M2. fold (ee (i + 2)) (ee (2 * i + 8)).
  replace (i + 1 + 1)%nat with (i + 2)%nat in M1 by lia. replace (2 * (i + 1) + 6)%nat with (2 * i + 8)%nat in M2 by lia.
  pose proof (ee_nonneg (i + 2)) as G1. pose proof (ee_nonneg (2 * i + 8)) as G2.
  set (T1 := moved (at_ close) n (i + 1 - n)) in *. set (T2 := moved (at2 close) n (i + 1 - n)) in *.
  set (S1 := ssum (fun j => Qabs (at_ close j)) 0 (i + 1)) in *. set (SS := ssum (fun j => at_ close j * at_ close j) 0 (i + 1)) in *.
  set (X := qsum (window (at_ close) i n)) in *. set (Y := qsum (window (at2 close) i n)) in *. set (N := Qnat n) in *.
  set (g1 := ee (i + 2)) in *. set (g2 := ee (2 * i + 8)) in *. clearbody T1 T2 S1 SS X Y N g1 g2.
  split; [|split; [|apply bb_value_percent]].
  - apply Qle_trans with (g1 * (T1 / N) * N); [apply Qmult_le_compat_r; lra|]. setoid_replace (g1 * (T1 / N) * N) with (g1 * T1) by (field; lra). nra.
  - apply Qle_trans with (g2 * ((T2 + T1 * T1 / N) / (N - 1)) * (N - 1)); [apply Qmult_le_compat_r; lra|].
    setoid_replace (g2 * ((T2 + T1 * T1 / N) / (N - 1)) * (N - 1)) with (g2 * (T2 + T1 * T1 / N)) by (field; lra).
    assert (T1 * T1 / N <= 4 * (S1 * S1) / N). { unfold Qdiv. apply Qmult_le_compat_r; [nra|]. apply Qlt_le_weak, Qinv_lt_0_compat. lra. }
    set (a := T1 * T1 / N) in *. set (b := 4 * (S1 * S1) / N) in *. clearbody a b. nra.
Qed.
(** Closes on a common grid (multiples of 2^g, with squares small enough): only the closes of the window matter. *)
Theorem C185_bollinger_grid : forall sqrt close n k i g C, (2 <= n)%nat -> (n <= i + 1)%nat -> (i < length close)%nat ->
  (forall x, In x close -> grid g x /\ 0 <= x <= C) -> Qnat n * C <= Qpower 2 (53 + g) -> Qnat n * (C * C) <= Qpower 2 (53 + 2 * g) ->
  exists out m v x y, bollinger_percent_b_f sqrt close n k = Ok out /\
    let xs := window (at_ close) i n in is_mean x xs /\ is_var y xs 1 /\ nearest_even 53 x m /\
    Qabs (v - y) * (Qnat n - 1) <= ((1 + u53) ^ 6 - 1) * (2 * qsum (map (fun z => z * z) xs)) /\
    percent_b_of (nth i out None) (at_ close i) m (sqrt (pmax v 0)) k.
Proof.
  intros sqrt close n k i g C Hn K Hi H KC KD. destruct (bollinger_rows sqrt close n k i Hn Hi) as (out & E1 & E2 & E3 & E4).
  assert (N2 : 2 <= Qnat n) by (apply (Qnat_le 2 n Hn)).
  assert (HC : 0 <= C) by (destruct close as [|z t]; [cbn in Hi; lia|]; destruct (H z (or_introl eq_refl)) as [_ G]; lra).
  destruct (bb_sums_grid close g n C (i + 1 - n) Hn H HC KC KD) as [B1 B2]. replace (n - 1 + (i + 1 - n))%nat with i in B1, B2 by lia.
  destruct (window_var close i n Hn) as [V1 V2]. cbv zeta in V1, V2.
  set (A := qsum (window (at_ close) i n)) in *. set (q := qsum (window (at2 close) i n)) in *.
  assert (Eq : q == qsum (map (fun x => x * x) (window (at_ close) i n))) by (unfold q, window; rewrite map_map; reflexivity).
  assert (Q0 : 0 <= q) by (rewrite Eq; apply qsum_nonneg; intros y Hy; apply in_map_iff in Hy; destruct Hy as [x [<- _]]; apply sq_within).
  pose proof (mean_sq_le (window (at_ close) i n)) as CS. rewrite window_length, <- Eq in CS.
  assert (CS' := CS ltac:(intro Z0; pose proof (window_length (at_ close) i n) as L; rewrite Z0 in L; cbn in L; lia)). clear CS.
  assert (AA : Qabs A <= asum (window (at_ close) i n)) by (apply qsum_abs).
  assert (M0 : near 0 (fst (bb_sums_f close n (i + 1 - n))) A (Qabs A)) by (eapply near_comp; [symmetry; exact B1|reflexivity|reflexivity|apply near_self]).
  assert (M1 : near (0 + 1) (snd (bb_sums_f close n (i + 1 - n))) q q).
  { eapply near_comp; [symmetry; exact B2|reflexivity|reflexivity|]. apply near_exact. rewrite Qabs_pos; lra. }
  destruct (bb_moments_near (i + 1 =? n)%nat _ _ _ _ _ n 0 Hn M0 M1) as [_ [_ R2]].
  set (mv := bb_moments_f (i + 1 =? n)%nat (bb_sums_f close n (i + 1 - n)) n) in *.
  exists out, (fst mv), (snd mv). eexists. eexists. split; [exact E1|]. cbv zeta. split; [exact V1|]. split; [exact V2|].
  split; [|split; [|rewrite (E4 K); apply bb_value_percent]].
  - unfold mv, bb_moments_f. cbv zeta. cbn [fst]. unfold r53. rewrite (rnd_comp 53 _ (A / Qnat n)) by (rewrite B1; reflexivity). apply rnd_nearest. lia.
  - rewrite <- Eq. set (N := Qnat n) in *. set (S1 := asum (window (at_ close) i n)) in *.
    change ((1 + u53) ^ Z.of_nat (2 * 0 + 6) - 1) with ((1 + u53) ^ 6 - 1) in R2. set (e := (1 + u53) ^ 6 - 1) in *. assert (Pe : 0 <= e) by (apply (ee_nonneg 6)).
    assert (PA := Qabs_nonneg A). set (a := Qabs A) in *. set (y := (q - _) / _) in *. clearbody N S1 e a y mv.
    apply Qle_trans with (e * ((q + a * a / N) / (N - 1)) * (N - 1)); [apply Qmult_le_compat_r; lra|].
    setoid_replace (e * ((q + a * a / N) / (N - 1)) * (N - 1)) with (e * (q + a * a / N)) by (field; lra).
    assert (J : a * a / N <= q).
    { apply Qle_trans with (S1 / N * (S1 / N) * N).
      - setoid_replace (S1 / N * (S1 / N) * N) with (S1 * S1 / N) by (field; lra). unfold Qdiv. apply Qmult_le_compat_r; [nra|]. apply Qlt_le_weak, Qinv_lt_0_compat. lra.
      - setoid_replace q with (q / N * N) by (field; lra). apply Qmult_le_compat_r; [exact CS'|lra]. }
    nra.
Qed.
Lemma no_spread l m : qsum (map (fun x => (x - m) * (x - m)) l) == 0 -> forall x, In x l -> x == m.
Proof.
  induction l as [|y l IH]; intros E x Hx; [contradiction|]. cbn [map] in E. rewrite qsum_cons in E. pose proof (sq_dev_nonneg l m) as D.
  assert (P : 0 <= (y - m) * (y - m)) by (destruct (Qlt_le_dec (y - m) 0); nra). destruct Hx as [<-|Hx]; [|apply IH; [lra|exact Hx]].
  assert (Z0 : (y - m) * (y - m) == 0) by lra. destruct (Qmult_integral _ _ Z0); lra.
Qed.
(** One outlier of 10^9 among closes of 1 to 2, window 3: three bars later it has left the window, but every later percent b is NaN,
    for every square root with sqrt 0 = 0. *)
Definition c185_spike : list Q := [1; 2; 1000000000; 1; 2; 3 # 2; 1; 2; 3 # 2; 1; 2; 3 # 2].
Theorem C185_spike_refuted : forall sqrt, sqrt 0 == 0 -> (forall x, 0 < x -> 0 < sqrt x) ->
  exists out ex, bollinger_percent_b_f sqrt c185_spike 3 2 = Ok out /\ bollinger_percent_b sqrt c185_spike 3 2 = Ok ex /\
  forall i, (5 <= i < 12)%nat -> nth i out None = None /\ nth i ex None <> None.
Proof.
  intros sqrt Z0 Pq.
  assert (R : forall i, (5 <= i < 12)%nat -> exists out, bollinger_percent_b_f sqrt c185_spike 3 2 = Ok out /\ nth i out None = None).
  { intros i Hi. destruct (bollinger_rows sqrt c185_spike 3 2 i ltac:(lia) ltac:(cbn [length c185_spike]; lia)) as (out & E1 & _ & _ & E4).
    exists out. split; [exact E1|]. rewrite (E4 ltac:(lia)).
    assert (V : pmax (snd (bb_moments_f (i + 1 =? 3)%nat (bb_sums_f c185_spike 3 (i + 1 - 3)) 3)) 0 = 0).
    { do 12 (destruct i as [|i]; [try lia; vm_compute; reflexivity|]). lia. }
    set (mv := bb_moments_f _ _ _) in *. unfold bb_value_f. rewrite V. cbv zeta.
    assert (K : r53 (2 * sqrt 0) = 0) by (apply rnd_0; rewrite Z0; ring). rewrite K.
    assert (L : r53 (fst mv - 0) = r53 (fst mv + 0)) by (apply rnd_comp; ring). rewrite L.
    destruct (Qltb_spec (r53 (fst mv + 0)) (r53 (fst mv + 0))); [lra|reflexivity]. }
  assert (X : forall i, (5 <= i < 12)%nat -> exists ex, bollinger_percent_b sqrt c185_spike 3 2 = Ok ex /\ nth i ex None <> None).
  { intros i Hi. destruct (C103_percent_b sqrt c185_spike 3 2 i ltac:(lia) ltac:(cbn [length c185_spike]; lia)) as (ex & E1 & _ & _ & E4).
    exists ex. split; [exact E1|]. destruct (E4 ltac:(lia)) as (m & v & V1 & V2 & V3 & _ & V5).
    assert (Pv : 0 < v).
    { destruct (Qlt_le_dec 0 v) as [P|P]; [exact P|exfalso]. assert (Ev : v == 0) by lra. destruct V2 as (m' & M1 & M2). rewrite Ev, Qmult_0_l in M2.
      assert (I12 : In 1 (window (at_ c185_spike) i 3) /\ In 2 (window (at_ c185_spike) i 3)).
      { do 12 (destruct i as [|i]; [try lia; vm_compute; auto|]). lia. }
      pose proof (no_spread _ _ (Qeq_sym _ _ M2) 1 (proj1 I12)). pose proof (no_spread _ _ (Qeq_sym _ _ M2) 2 (proj2 I12)). lra. }
    destruct (V5 ltac:(pose proof (Pq v Pv); lra)) as (p & Ep & _). rewrite Ep. discriminate. }
  destruct (R 5%nat ltac:(lia)) as (out & E1 & _). destruct (X 5%nat ltac:(lia)) as (ex & E2 & _). exists out, ex. split; [exact E1|]. split; [exact E2|].
  intros i Hi. destruct (R i Hi) as (o' & F1 & F2). destruct (X i Hi) as (x' & G1 & G2). rewrite E1 in F1. rewrite E2 in G1.
  injection F1 as <-. injection G1 as <-. split; [exact F2|exact G2].
Qed.

(** Dyadic closes: the grid theorem applies. *)
Lemma c185_grid_ok : forall x, In x [1; 2; 5 # 2; 3 # 2] -> grid (-1) x /\ 0 <= x <= 4.
Proof.
  intros x [<-|[<-|[<-|[<-|[]]]]]; (split; [|split; discriminate]); [exists 2%Z|exists 4%Z|exists 5%Z|exists 3%Z]; reflexivity.
Qed.
Example C185_bollinger_example : (forall x, In x [1; 2; 5 # 2; 3 # 2] -> grid (-1) x /\ 0 <= x <= 4) /\
  Qnat 3 * 4 <= Qpower 2 (53 + -1) /\ Qnat 3 * (4 * 4) <= Qpower 2 (53 + 2 * -1) /\
  match bollinger_percent_b_f (fun q => q) [1; 2; 5 # 2; 3 # 2] 3 2 with
  | Ok o => map (option_map (fun v => Qfloor (v * 1000000))) o = [None; None; Some 785714%Z; Some 0%Z]
  | Raise _ => False end.
Proof. split; [exact c185_grid_ok|]. split; [vm_compute; discriminate|]. split; [vm_compute; discriminate|vm_compute; reflexivity]. Qed.

(** * ewms *)
(** NaN for all but the first when no value is missing. *)
Theorem C185_ewms_nan : forall sqrt ys span i, (2 <= span)%Z -> (forall y, In y ys -> y <> None) -> (i < length ys)%nat ->
  length (ewms_f sqrt ys span) = length ys /\ (nth i (ewms_f sqrt ys span) None = None <-> i = 0%nat).
Proof.
  intros sqrt ys span i Hs Hy Hi. unfold ewms_f. destruct (Z.leb_spec span 1) as [K|K]; [lia|]. rewrite ew_loop_f_length. split; [reflexivity|].
  rewrite ew_loop_f_nth by auto. assert (Bb := beta_f_bounds span ltac:(lia)). assert (Bl := beta_f_lower span Hs).
  assert (Fb : fl 53 (ewma_beta_f span)) by (unfold ewma_beta_f; apply rnd_fl; lia).
  destruct (ew_full_den _ _ (ew_full_fold (ewma_beta_f span) ys Fb ltac:(lra) Hy (S i) ltac:(lia))) as [D W].
  set (s := fold_left _ _ _) in *. unfold ew_out_f. destruct (Qltb_spec 0 (e_w s)) as [K1|K1].
  - destruct (Qltb_spec 0 (ew_den_f s)) as [K2|K2]; split; intro E; try discriminate; try reflexivity.
    + apply D in K2. lia.
    + destruct i as [|i]; [reflexivity|]. exfalso. assert (0 < ew_den_f s) by (apply D; lia). lra.
  - exfalso. assert (0 < e_w s) by (apply W; lia). lra.
Qed.
Lemma oabs_obs ys (f : nat -> Q -> Q) (g : nat -> Q -> Q) a i : (forall j x, f j (Qabs x) == g j x) -> osum (oabs ys) a i f == osum ys a i g.
Proof.
  intro H. unfold osum. apply ssum_ext. intros j _. unfold obs, oabs.
  assert (E : nth j (map (option_map Qabs) ys) None = option_map Qabs (nth j ys None)) by (change (@None Q) with (option_map Qabs None) at 1; apply map_nth).
  rewrite E. destruct (nth j ys None); cbn [option_map]; [apply H|reflexivity].
Qed.
(** The variance is computed from three numbers that are near the exact ones of a decay r: the mean square minus the squared mean
    (error relative to the mean square), the sum of the weights, and the denominator (error relative to the sum of the weights). *)
Theorem C185_ewms : forall sqrt ys span i, (2 <= span)%Z -> (i < length ys)%nat ->
  exists r, 1 # 4 <= r <= 1 /\ ((span < 2 ^ 53)%Z -> Qabs (r - (1 - 2 / (inject_Z span + 1))) <= 2 * u53) /\
  let w := fun j => r ^ Z.of_nat (i - j) in
  let W := osum ys 0 i (fun j _ => w j) in
  let W2 := osum ys 0 i (fun j _ => w j * w j) in
  let Y := osum ys 0 i (fun j x => w j * x) in
  let Y2 := osum ys 0 i (fun j x => w j * (x * x)) in
  (W == 0 -> nth i (ewms_f sqrt ys span) None = None) /\
  (0 < W -> exists a Wf d, within u53 (2 * i + 2) Wf W /\
     Qabs (a - (Y2 / W - Y / W * (Y / W))) <= ((1 + u53) ^ Z.of_nat (12 * i + 16) - 1) * (2 * (Y2 / W)) /\
     Qabs (d - (W - W2 / W)) <= ((1 + u53) ^ Z.of_nat (7 * i + 9) - 1) * (2 * W) /\
     (d <= 0 -> nth i (ewms_f sqrt ys span) None = None) /\
     (0 < d -> nth i (ewms_f sqrt ys span) None = Some (sqrt (pmax (r53 (r53 (a * Wf) / d)) 0)))).
Proof.
  intros sqrt ys span i Hs Hi. assert (Bb := beta_f_bounds span ltac:(lia)). assert (Bl := beta_f_lower span Hs).
  exists (ewma_beta_f span). split; [lra|]. split; [intro; apply beta_f_err; lia|]. cbv zeta.
  unfold ewms_f. destruct (Z.leb_spec span 1) as [K|K]; [lia|]. rewrite ew_loop_f_nth by auto. set (b := ewma_beta_f span) in *. clearbody b.
  assert (Hb : 0 < b) by lra.
  pose proof (ew_fold_tracks b ys ltac:(lra) (S i) ltac:(lia)) as T.
  destruct (ew_fold b ys (S i) ltac:(lia)) as [F1 [F2 [F3 F4]]]. cbv zeta in F1, F2, F3, F4.
  destruct (ew_fold b (oabs ys) (S i) ltac:(unfold oabs; rewrite map_length; lia)) as [_ [_ [F5 F6]]]. cbv zeta in F5, F6.
  set (sf := fold_left (ew_step_f b) _ _) in *. set (s := fold_left (ew_step b) (firstn (S i) ys) _) in *.
  set (s' := fold_left (ew_step b) (firstn (S i) (oabs ys)) _) in *. clearbody sf s s'.
  set (w := fun j => b ^ Z.of_nat (i - j)).
  assert (Ew : forall j, bw b (S i) j == w j) by (intro j; unfold bw, w; replace (S i - 1 - j)%nat with (i - j)%nat by lia; reflexivity).
  assert (Hw : forall j, 0 < w j) by (intro j; unfold w; now apply Qpower_0_lt).
  assert (G : forall zs (f g : nat -> Q -> Q), (forall j x, f j x == g j x) -> ssum (fun j => obs zs j (f j)) 0 (S i) == osum zs 0 i g).
  { intros zs f g H. apply ssum_ext. intros j _. unfold obs. destruct (nth j zs None); [apply H|reflexivity]. }
  rewrite (G _ _ (fun j _ => w j)) in F1 by (intros; apply Ew). rewrite (G _ _ (fun j _ => w j * w j)) in F2 by (intros; rewrite Ew; reflexivity).
  rewrite (G _ _ (fun j x => w j * x)) in F3 by (intros; rewrite Ew; reflexivity). rewrite (G _ _ (fun j x => w j * (x * x))) in F4 by (intros; rewrite Ew; reflexivity).
  rewrite (G _ _ (fun j x => w j * x)) in F5 by (intros; rewrite Ew; reflexivity). rewrite (G _ _ (fun j x => w j * (x * x))) in F6 by (intros; rewrite Ew; reflexivity).
  clear G. pose proof (weight_counts ys w 0 i (fun j _ => Qlt_le_weak _ _ (Hw j))) as C. cbv zeta in C. destruct C as (C0 & C1 & _ & _).
  pose proof (raw_nonneg (oabs ys) w 0 i (fun j _ => Qlt_le_weak _ _ (Hw j))) as R. cbv zeta in R.
  rewrite (oabs_obs ys (fun j _ => w j) (fun j _ => w j)) in R by reflexivity.
  rewrite (oabs_obs ys (fun j x => w j * (x * x)) (fun j x => w j * (x * x))) in R.
  2:{ intros j x. rewrite <- Qabs_Qmult, Qabs_pos; [reflexivity|destruct (Qlt_le_dec x 0); nra]. }
  change (forall j, 0 < b ^ Z.of_nat (i - j)) in Hw.
  set (W := osum ys 0 i (fun j _ => w j)) in *. set (W2 := osum ys 0 i (fun j _ => w j * w j)) in *. set (Y := osum ys 0 i (fun j x => w j * x)) in *.
  set (Y2 := osum ys 0 i (fun j x => w j * (x * x))) in *. set (YA := osum (oabs ys) 0 i (fun j x => w j * x)) in *.
  change (osum ys 0 i (fun j _ => b ^ Z.of_nat (i - j))) with W. change (osum ys 0 i (fun j _ => b ^ Z.of_nat (i - j) * b ^ Z.of_nat (i - j))) with W2.
  change (osum ys 0 i (fun j x => b ^ Z.of_nat (i - j) * x)) with Y. change (osum ys 0 i (fun j x => b ^ Z.of_nat (i - j) * (x * x))) with Y2.
  clearbody W W2 Y Y2 YA. assert (T' := T). destruct T' as (P1 & P2 & P3 & W1 & _ & _ & _). split; intro HW.
  - unfold ew_out_f. destruct (Qltb_spec 0 (e_w sf)) as [K1|K1]; [|reflexivity]. exfalso. destruct W1 as [_ W1]. rewrite F1, HW in W1. lra.
  - assert (HW' : 0 < e_w s) by lra. pose proof (ew_raw_near _ _ _ _ T HW') as [_ N1]. pose proof (ew_den_near _ _ _ _ T HW') as [_ N2].
    exists (ew_raw_f sf), (e_w sf), (ew_den_f sf). replace (12 * S i + 4)%nat with (12 * i + 16)%nat in N1 by lia. replace (7 * S i + 2)%nat with (7 * i + 9)%nat in N2 by lia.
    fold (ee (12 * i + 16)) in *. fold (ee (7 * i + 9)) in *. pose proof (ee_nonneg (12 * i + 16)) as G1. pose proof (ee_nonneg (7 * i + 9)) as G2.
    specialize (R HW). rewrite F1, F3, F4, F5 in N1. rewrite F1, F2 in N2.
    assert (W2W : W2 / W <= W) by (apply Qle_shift_div_r; [exact HW|lra]).
    split; [replace (2 * i + 2)%nat with (2 * S i)%nat by lia; apply (within_comp u53 _ (e_w sf) (e_w s)); [reflexivity|exact F1|exact W1]|].
    split; [eapply Qle_trans; [exact N1|]; rewrite !(Qmult_comm (ee (12 * i + 16))); apply Qmult_le_compat_r; lra|].
    split; [eapply Qle_trans; [exact N2|]; rewrite !(Qmult_comm (ee (7 * i + 9))); apply Qmult_le_compat_r; lra|].
    assert (HWf : 0 < e_w sf) by (apply (within_pos _ _ _ HW' W1)).
    unfold ew_out_f. destruct (Qltb_spec 0 (e_w sf)); [|lra]. destruct (Qltb_spec 0 (ew_den_f sf)); split; intro; try lra; reflexivity.
Qed.
(** One observation of 5, then two missing values, span 28: the exact output is NaN throughout, the float64 output ends in the
    square root of 55.47.. (7.4482..).  One observation, 33 missing values and another one, span 2: the last exact output is the
    root of a positive variance, the float64 output is NaN. *)
Theorem C185_ewms_refuted : forall sqrt,
  ewms sqrt [Some 5; None; None] 28 = [None; None; None] /\
  ewms_f sqrt [Some 5; None; None] 28 = [None; None; Some (sqrt (7807667368259433 # 140737488355328))] /\
  nth 34 (ewms sqrt (Some 1 :: repeat None 33 ++ [Some 3]) 2) None <> None /\
  nth 34 (ewms_f sqrt (Some 1 :: repeat None 33 ++ [Some 3]) 2) None = None.
Proof.
  intro sqrt. split; [vm_compute; reflexivity|]. split; [vm_compute; reflexivity|]. split; [vm_compute; discriminate|vm_compute; reflexivity].
Qed.
(** Values around 10^8 that alternate by 1: the reported deviation is 0. *)
Theorem C185_ewms_flat_refuted : forall sqrt, let ys := map Some [100000000; 100000001; 100000000; 100000001] in
  nth 3 (ewms_f sqrt ys 10) None = Some (sqrt 0) /\
  exists v, nth 3 (ewms sqrt ys 10) None = Some (sqrt v) /\ (1 # 4) < v.
Proof.
  intros sqrt ys. split; [vm_compute; reflexivity|].
  unfold ys. unfold ewms. cbn [Z.leb]. eexists. split; [vm_compute; reflexivity|vm_compute; reflexivity].
Qed.
Example C185_ewms_example :
  map (option_map (fun v => Qfloor (v * 100000000))) (ewms_f (fun q => q) (map Some (map r53 [1 # 10; 3 # 10; 2 # 10])) 3) = [None; Some 2000000%Z; Some 714285%Z].
Proof. vm_compute. reflexivity. Qed.

Print Assumptions C185_true_range.
Print Assumptions C185_atr.
Print Assumptions C185_realized_vol.
Print Assumptions C185_rolling_variance.
Print Assumptions C185_variance_refuted.
Print Assumptions C185_bollinger.
Print Assumptions C185_bollinger_grid.
Print Assumptions C185_spike_refuted.
Print Assumptions C185_ewms_nan.
Print Assumptions C185_ewms.
Print Assumptions C185_ewms_refuted.
Print Assumptions C185_ewms_flat_refuted.
