(** T_units3.v -- property C193: powers of two as units cost no rounding in the float64 and float32 models. *)
From Coq Require Import Qpower Qfield.
From Verif Require Import Base M_logic M_bars M_footprint M_features M_volat M_volume M_float M_float2 M_float3 M_float4 M_float5 M_float6 M_float7 M_float8 M_float9 M_float10 M_float11 M_float12 M_float13 M_float14
  S_float S_units S_unitbars S_unitsf P_units P_units2 P_units3 P_units4 P_units5 P_units7 P_units8 P_units9 P_float P_float9 T_units T_units2.
Open Scope Q_scope.

(* ---------------------------------------------------------------- C193 *)

Definition xf_p : list Q := map r53 [101 # 10; 103 # 10; 51 # 5; 107 # 10; 53 # 5; 109 # 10].
Definition xf_hi : list Q := map r53 [103 # 10; 105 # 10; 52 # 5; 108 # 10; 54 # 5; 111 # 10].
Definition xf_lo : list Q := map r53 [100 # 10; 101 # 10; 50 # 5; 105 # 10; 52 # 5; 107 # 10].
Definition xf_v : list Q := map r24 [1 # 10; 3 # 10; 1 # 5; 7 # 10; 2; 1 # 3].
Definition xf_os : list (option Q) := [Some (r53 (1 # 10)); None; Some (r53 (3 # 10)); Some (r53 (- 1 # 5)); Some (r53 (7 # 10))].

(** C193: the correctly rounded square root, the left-to-right sum and the float32 dot product follow powers of two. *)
Theorem C193_operations : binary_root sqrt53 /\ binary_sum fsum /\ binary_dot dot24.
Proof. split; [exact sqrt53_binary|]. split; [exact fsum_binary|exact dot24_binary]. Qed.
Example C193_operations_example : sqrt53 (two 6 * two 6 * 2) == two 6 * sqrt53 2 /\ ~ sqrt53 2 * sqrt53 2 == 2 /\ sc (two 3) (fsum xf_p) (fsum (in_unit (two 3) xf_p)).
Proof. split; [apply (proj1 C193_operations 6%Z); reflexivity|]. split; [vm_compute; discriminate|]. apply (proj1 (proj2 C193_operations)), in_unit_scl. Qed.

(** C193: lagged returns, percent changes, burst ratios and rates of change: the same floats. *)
Theorem C193_returns ln e ts xs xs' W is_log n : respects ln -> scl (two e) xs xs' ->
  both (escl 1) (comp_lagged_returns_f ln ts xs W is_log) (comp_lagged_returns_f ln ts xs' W is_log) /\
  oscl 1 (pct_change_f xs n) (pct_change_f xs' n) /\ oscl 1 (comp_burst_ratio_f xs n) (comp_burst_ratio_f xs' n) /\
  both (oscl 1) (roc_f xs n) (roc_f xs' n).
Proof.
  intros Hl H. pose proof (two_pos e) as P. pose proof (binary_two e) as B. split; [now apply (lagged_f_units ln (two e))|].
  split; [now apply (pct_f_units (two e))|]. split; [now apply (burst_f_units (two e))|now apply (roc_f_units (two e))].
Qed.
Example C193_returns_example : both (oscl 1) (roc_f xf_p 2) (roc_f (in_unit (two (-7)) xf_p) 2) /\
  (exists l, roc_f xf_p 2 = Ok l /\ length l = 6%nat /\ match nth 2 l None with Some r => 0 < r | None => False end).
Proof.
  split; [exact (proj2 (proj2 (proj2 (C193_returns cube (-7) [1; 2; 3; 4; 5; 6]%Z xf_p _ 2 true 2 cube_respects (in_unit_scl _ _)))))|].
  eexists. split; [vm_compute; reflexivity|]. split; [reflexivity|]. vm_compute. reflexivity.
Qed.

(** C193: RSI, Stochastic %K and ADX: the same floats. *)
Theorem C193_momentum e p p' hi hi' lo lo' n : scl (two e) p p' -> scl (two e) hi hi' -> scl (two e) lo lo' ->
  oscl 1 (rsi_wilder_f p n) (rsi_wilder_f p' n) /\ oscl 1 (stoch_k_f p lo hi n) (stoch_k_f p' lo' hi' n) /\ scl 1 (adx_core_f hi lo p n) (adx_core_f hi' lo' p' n).
Proof.
  intros Hp Hh Hl. pose proof (two_pos e) as P. pose proof (binary_two e) as B. split; [now apply (rsi_f_units (two e))|]. split; [now apply (stoch_f_units (two e))|now apply (adx_f_units (two e))].
Qed.
Example C193_momentum_example : oscl 1 (rsi_wilder_f xf_p 3) (rsi_wilder_f (in_unit (two 9) xf_p) 3) /\
  scl 1 (adx_core_f xf_hi xf_lo xf_p 2) (adx_core_f (in_unit (two 9) xf_hi) (in_unit (two 9) xf_lo) (in_unit (two 9) xf_p) 2) /\
  (exists x, nth 4 (rsi_wilder_f xf_p 3) None = Some x /\ 0 < x /\ x < 100).
Proof.
  destruct (C193_momentum 9 xf_p _ xf_hi _ xf_lo _ 3 (in_unit_scl _ _) (in_unit_scl _ _) (in_unit_scl _ _)) as (A & _).
  destruct (C193_momentum 9 xf_p _ xf_hi _ xf_lo _ 2 (in_unit_scl _ _) (in_unit_scl _ _) (in_unit_scl _ _)) as (_ & _ & C).
  split; [exact A|]. split; [exact C|]. eexists. split; [vm_compute; reflexivity|]. split; vm_compute; reflexivity.
Qed.

(** C193: the CUSUM filter and the CUSUM bars see quotients of prices only; any positive unit that multiplies the prices exactly leaves
    the events and the bars in place. *)
Theorem C193_cusum ln c ts p p' sigma floor mult thr : respects ln -> 0 < c -> scl c p p' ->
  cusum_filter_f ln p' thr = cusum_filter_f ln p thr /\ cusum_bar_indexer_f ln ts p' sigma floor mult = cusum_bar_indexer_f ln ts p sigma floor mult.
Proof. intros Hl Hc Hp. split; [now apply (filter_f_units ln c)|now apply (cusum_f_units ln c)]. Qed.
Definition pred1 (x : Q) : Q := x - 1.
Lemma pred1_respects : respects pred1.
Proof. intros x y E. unfold pred1. now rewrite E. Qed.
Example C193_cusum_example : cusum_filter_f pred1 (in_unit 3 [100; 102; 105; 99; 101]) [Some (r53 (1 # 50))] = cusum_filter_f pred1 [100; 102; 105; 99; 101] [Some (r53 (1 # 50))] /\
  exists l, cusum_filter_f pred1 [100; 102; 105; 99; 101] [Some (r53 (1 # 50))] = Ok l /\ l <> [].
Proof.
  split; [exact (proj1 (C193_cusum pred1 3 [] _ _ [] 0 0 _ pred1_respects ltac:(reflexivity) (in_unit_scl _ _)))|].
  eexists. split; [vm_compute; reflexivity|discriminate].
Qed.

(** C193: volatilities of a series in a unit [2^e] are [2^e] times the volatilities, to the last bit; rolling variances [4^e] times. *)
Theorem C193_volatility sqrt sumf exp e ts y y' span hl floor floor' window sample ddof mp : binary_root sqrt -> binary_sum sumf -> oscl (two e) y y' -> sc (two e) floor floor' ->
  oscl (two e) (ewms_f sqrt y span) (ewms_f sqrt y' span) /\
  both (oscl (two e)) (ewmst_mean0_f sqrt exp ts y hl floor) (ewmst_mean0_f sqrt exp ts y' hl floor') /\
  both (oscl (two e)) (ewmst_f sqrt exp ts y hl floor) (ewmst_f sqrt exp ts y' hl floor') /\
  oscl (two e) (realized_vol_f sqrt sumf y window sample) (realized_vol_f sqrt sumf y' window sample) /\
  oscl (two e * two e) (rolling_variance_f y window ddof mp) (rolling_variance_f y' window ddof mp).
Proof.
  intros Hr Hs Hy Hf. pose proof (binary_two e) as B. split; [now apply ewms_f_units|]. split; [now apply mean0_f_units|]. split; [now apply ewmst_f_units|].
  split; [now apply realized_f_units|now apply rolling_variance_f_units].
Qed.
Example C193_volatility_example : oscl (two 4) (realized_vol_f sqrt53 fsum xf_os 3 true) (realized_vol_f sqrt53 fsum (oin_unit (two 4) xf_os) 3 true) /\
  oscl (two 4) (ewms_f sqrt53 xf_os 3) (ewms_f sqrt53 (oin_unit (two 4) xf_os) 3) /\ exists x, nth 4 (realized_vol_f sqrt53 fsum xf_os 3 true) None = Some x /\ 0 < x.
Proof.
  destruct (C193_volatility sqrt53 fsum (fun x => x) 4 [] xf_os _ 3 1 0 0 3 true 1 1 sqrt53_binary fsum_binary (oin_unit_oscl _ _) (sc_0 _)) as (A & _ & _ & B & _).
  split; [exact B|]. split; [exact A|]. eexists. split; [vm_compute; reflexivity|vm_compute; reflexivity].
Qed.
(** C193: so are true range and average true range; the normalised average true range is the same, given positive mid prices. *)
Theorem C193_ranges e h h' l l' k k' window ema : oscl (two e) h h' -> oscl (two e) l l' -> oscl (two e) k k' ->
  both (oscl (two e)) (true_range_f h l k) (true_range_f h' l' k') /\
  both (oscl (two e)) (atr_f h l k window ema false) (atr_f h' l' k' window ema false) /\
  ((forall i, (i < length h)%nat -> exists x y, known h i = Some x /\ known l i = Some y /\ 0 < x + y) ->
   both (oscl 1) (atr_f h l k window ema true) (atr_f h' l' k' window ema true)).
Proof.
  intros Hh Hl Hk. pose proof (binary_two e) as B. split; [now apply true_range_f_units|]. split; [now apply atr_raw_f_units|]. intro P. now apply (atr_norm_all_f_units (two e)).
Qed.
Example C193_ranges_example : both (oscl 1) (atr_f (map Some xf_hi) (map Some xf_lo) (map Some xf_p) 3 true true)
    (atr_f (oin_unit (two (-2)) (map Some xf_hi)) (oin_unit (two (-2)) (map Some xf_lo)) (oin_unit (two (-2)) (map Some xf_p)) 3 true true) /\
  exists r x, atr_f (map Some xf_hi) (map Some xf_lo) (map Some xf_p) 3 true true = Ok r /\ nth 4 r None = Some x /\ 0 < x.
Proof.
  destruct (C193_ranges (-2) (map Some xf_hi) _ (map Some xf_lo) _ (map Some xf_p) _ 3 true (oin_unit_oscl _ _) (oin_unit_oscl _ _) (oin_unit_oscl _ _)) as (_ & _ & A).
  split.
  - apply A. intros i Hi. do 6 (destruct i as [|i]; [do 2 eexists; split; [vm_compute; reflexivity|]; split; vm_compute; reflexivity|]). vm_compute in Hi. lia.
  - do 2 eexists. split; [vm_compute; reflexivity|]. split; [reflexivity|vm_compute; reflexivity].
Qed.

(** C193: z-scores, Bollinger %B, the price-volume correlation, the Parkinson range and the variance ratio: the same floats. *)
Theorem C193_scores sqrt ln e f xs xs' hi hi' lo lo' o o' v v' window ddof k is_log : binary_root sqrt -> respects ln ->
  scl (two e) xs xs' -> scl (two e) hi hi' -> scl (two e) lo lo' -> oscl (two e) o o' -> oscl (two f) v v' ->
  oscl 1 (comp_zscore_f sqrt xs window ddof) (comp_zscore_f sqrt xs' window ddof) /\
  both (oscl 1) (bollinger_percent_b_f sqrt xs window k) (bollinger_percent_b_f sqrt xs' window k) /\
  oscl 1 (pv_correlation_f sqrt o v window) (pv_correlation_f sqrt o' v' window) /\
  both (scl 1) (parkinson_range_f ln hi lo) (parkinson_range_f ln hi' lo') /\
  oscl 1 (variance_ratio_f ln o window ddof is_log) (variance_ratio_f ln o' window ddof is_log).
Proof.
  intros Hr Hl Hx Hh Hlo Ho Hv. pose proof (two_pos e) as P. pose proof (binary_two e) as B. pose proof (binary_two f) as Bf.
  split; [now apply (zscore_b_units sqrt (two e))|]. split; [now apply (bb_f_units sqrt (two e))|]. split; [now apply (correlation_f_units sqrt (two e) (two f))|].
  split; [now apply (parkinson_f_units ln (two e))|now apply (variance_ratio_f_units ln (two e))].
Qed.
Example C193_scores_example : oscl 1 (comp_zscore_f sqrt53 xf_p 3 1) (comp_zscore_f sqrt53 (in_unit (two 3) xf_p) 3 1) /\
  oscl 1 (pv_correlation_f sqrt53 (map Some xf_p) (map Some xf_v) 3) (pv_correlation_f sqrt53 (oin_unit (two 3) (map Some xf_p)) (oin_unit (two (-5)) (map Some xf_v)) 3) /\
  (exists x, nth 5 (comp_zscore_f sqrt53 xf_p 3 1) None = Some x /\ 0 < x) /\ exists x, nth 5 (pv_correlation_f sqrt53 (map Some xf_p) (map Some xf_v) 3) None = Some x /\ ~ x == 0.
Proof.
  destruct (C193_scores sqrt53 cube 3 (-5) xf_p _ xf_hi _ xf_lo _ (map Some xf_p) _ (map Some xf_v) _ 3 1 2 true sqrt53_binary cube_respects
    (in_unit_scl _ _) (in_unit_scl _ _) (in_unit_scl _ _) (oin_unit_oscl _ _) (oin_unit_oscl _ _)) as (A & _ & C & _).
  split; [exact A|]. split; [exact C|]. split; eexists; (split; [vm_compute; reflexivity|]); vm_compute; [reflexivity|discriminate].
Qed.

(** C193: order flow of a bar: counts unchanged, volumes, dollars and spreads in the new units (the running extremes of volume and
    dollars start at fixed numbers and are left out). *)
Theorem C193_flow e f p p' v v' sides s t : scl (two e) p p' -> scl (two f) v v' ->
  same_flow (two e) (two f) (bar_directional_f p v sides s t) (bar_directional_f p' v' sides s t).
Proof. intros Hp Hv. apply directional_f_units; auto using binary_two. Qed.
Example C193_flow_example : same_flow (two 2) (two (-3)) (bar_directional_f xf_p xf_v [1; -1; 1; 1; -1; -1]%Z 0 5) (bar_directional_f (in_unit (two 2) xf_p) (in_unit (two (-3)) xf_v) [1; -1; 1; 1; -1; -1]%Z 0 5) /\
  f_ticks_buy (bar_directional_f xf_p xf_v [1; -1; 1; 1; -1; -1]%Z 0 5) = 2%Z.
Proof. split; [apply C193_flow; apply in_unit_scl|vm_compute; reflexivity]. Qed.

(** C193: trade-size features: the same floats. *)
Theorem C193_sizes log1p f am am' th th' closes mult : respects log1p -> scl (two f) am am' -> scl (two f) th th' ->
  both (Forall2 same_sizes) (comp_bar_size_f log1p am th closes mult) (comp_bar_size_f log1p am' th' closes mult).
Proof. intros Hl Ha Ht. apply (size_f_units log1p (two f)); auto using binary_two. Qed.
Example C193_sizes_example : both (Forall2 same_sizes) (comp_bar_size_f cube xf_v [r53 (1 # 10)] [0; 5]%Z 3) (comp_bar_size_f cube (in_unit (two 8) xf_v) (in_unit (two 8) [r53 (1 # 10)]) [0; 5]%Z 3) /\
  exists z b, comp_bar_size_f cube xf_v [r53 (1 # 10)] [0; 5]%Z 3 = Ok [z] /\ z_block z = Some b /\ 0 < b /\ b < 1.
Proof.
  split; [apply (C193_sizes cube 8); [exact cube_respects|apply in_unit_scl|apply in_unit_scl]|].
  do 2 eexists. split; [vm_compute; reflexivity|]. split; [reflexivity|]. split; vm_compute; reflexivity.
Qed.

(** C193: footprints: levels, counts, imbalance flags and summary unchanged, cell volumes in the new unit. *)
Theorem C193_footprints dot e f p p' a a' closes sides tick tick' lows lows' highs highs' mult : binary_dot dot ->
  scl (two e) p p' -> scl (two f) a a' -> sc (two e) tick tick' -> scl (two e) lows lows' -> scl (two e) highs highs' ->
  both (Forall2 (same_footprint (two f))) (comp_bar_footprints_f dot p a closes sides tick lows highs mult) (comp_bar_footprints_f dot p' a' closes sides tick' lows' highs' mult).
Proof. intros Hd Hp Ha Ht Hl Hh. apply (footprints_f_units dot (two e) (two f)); auto using binary_two, two_pos. Qed.
Definition xf_fp (c d : Q) : result (list footprint) :=
  comp_bar_footprints_f dot24 (in_unit c xf_p) (in_unit d xf_v) [0; 5]%Z [1; -1; 1; 1; -1; -1]%Z (c * r53 (1 # 10)) (in_unit c [r53 (51 # 5)]) (in_unit c [r53 (109 # 10)]) 3.
Example C193_footprints_example : both (Forall2 (same_footprint (two 7))) (comp_bar_footprints_f dot24 xf_p xf_v [0; 5]%Z [1; -1; 1; 1; -1; -1]%Z (r53 (1 # 10)) [r53 (51 # 5)] [r53 (109 # 10)] 3) (xf_fp (two (-4)) (two 7)) /\
  exists f, comp_bar_footprints_f dot24 xf_p xf_v [0; 5]%Z [1; -1; 1; 1; -1; -1]%Z (r53 (1 # 10)) [r53 (51 # 5)] [r53 (109 # 10)] 3 = Ok [f] /\ fp_levels f = [102; 103; 104; 105; 106; 107; 108; 109]%Z /\ 0 < fp_gini f.
Proof.
  split; [apply (C193_footprints dot24 (-4) 7); try apply in_unit_scl; [exact dot24_binary|reflexivity]|].
  eexists. split; [vm_compute; reflexivity|]. split; vm_compute; reflexivity.
Qed.
(** Units of ten move a price to another level. *)
Theorem C193_footprints_refuted : exists p p' tick tick' f f', r53 (10 * p) == p' /\ r53 (10 * tick) == tick' /\ fl 53 p /\ fl 53 tick /\
  comp_bar_footprints_f dot24 [p; p] [1; 1] [0; 1]%Z [1; 1]%Z tick [p] [p] 3 = Ok [f] /\
  comp_bar_footprints_f dot24 [p'; p'] [1; 1] [0; 1]%Z [1; 1]%Z tick' [p'] [p'] 3 = Ok [f'] /\ fp_levels f = [1%Z] /\ fp_levels f' = [2%Z].
Proof.
  exists (r53 (15 # 100)), (3 # 2), (r53 (1 # 10)), 1. do 2 eexists. split; [vm_compute; reflexivity|]. split; [vm_compute; reflexivity|].
  split; [apply rnd_fl; lia|]. split; [apply rnd_fl; lia|]. split; [vm_compute; reflexivity|]. split; [vm_compute; reflexivity|]. split; reflexivity.
Qed.

(** C193: the rolling volume profile of non-negative volumes: the same POC, value area and share above the POC. *)
Theorem C193_profile e f ts highs highs' lows lows' plv pbv pbv' psv psv' W n_bins tick tick' pct :
  scl (two e) highs highs' -> scl (two e) lows lows' -> sc (two e) tick tick' -> Forall2 (scl (two f)) pbv pbv' -> Forall2 (scl (two f)) psv psv' ->
  (forall t y, In y (nth t pbv []) -> 0 <= y) -> (forall t y, In y (nth t psv []) -> 0 <= y) ->
  both (Forall2 same_row) (volume_profile_rolling_f ts highs lows plv pbv psv W n_bins tick pct) (volume_profile_rolling_f ts highs' lows' plv pbv' psv' W n_bins tick' pct).
Proof. intros. apply (rolling_f_units (two e) (two f)); auto using binary_two, two_pos. Qed.
Definition xf_bv : list (list Q) := [map r24 [1 # 10; 2; 3 # 10]; map r24 [1 # 5; 1; 7 # 10]; map r24 [4; 1 # 10; 1]].
Definition xf_sv : list (list Q) := [map r24 [1 # 3; 0; 1 # 10]; map r24 [0; 1 # 5; 3]; map r24 [1; 1; 1 # 10]].
Definition xf_prof (c d : Q) : result (list (option (Z * Z * Z * Q))) :=
  volume_profile_rolling_f [0; 10; 20]%Z (in_unit c [12; 13; 14]) (in_unit c [10; 11; 12]) [[10; 11; 12]; [11; 12; 13]; [12; 13; 14]]%Z (map (in_unit d) xf_bv) (map (in_unit d) xf_sv) 10 None (c * 1) 70.
Lemma in_units_scl d l : Forall2 (scl d) l (map (in_unit d) l).
Proof. induction l; constructor; [apply in_unit_scl|assumption]. Qed.
Lemma xf_nonneg l : forallb (forallb (Qleb 0)) l = true -> forall t y, In y (nth t l []) -> 0 <= y.
Proof.
  intros H t y Hy. destruct (Nat.lt_ge_cases t (length l)) as [K|K]; [|rewrite nth_overflow in Hy by assumption; contradiction].
  rewrite forallb_forall in H. pose proof (H _ (nth_In l [] K)) as A. rewrite forallb_forall in A. apply Qleb_iff, A, Hy.
Qed.
Example C193_profile_example : both (Forall2 same_row) (volume_profile_rolling_f [0; 10; 20]%Z [12; 13; 14] [10; 11; 12] [[10; 11; 12]; [11; 12; 13]; [12; 13; 14]]%Z xf_bv xf_sv 10 None 1 70) (xf_prof (two 3) (two (-6))) /\
  exists r a b c s, volume_profile_rolling_f [0; 10; 20]%Z [12; 13; 14] [10; 11; 12] [[10; 11; 12]; [11; 12; 13]; [12; 13; 14]]%Z xf_bv xf_sv 10 None 1 70 = Ok r /\ nth 2 r None = Some (a, b, c, s) /\ a = 12%Z /\ (c < b)%Z /\ 0 < s.
Proof.
  split.
  - apply (C193_profile 3 (-6)); try apply in_unit_scl; try apply in_units_scl; try (apply xf_nonneg; vm_compute; reflexivity). reflexivity.
  - do 5 eexists. split; [vm_compute; reflexivity|]. split; [reflexivity|]. split; [reflexivity|]. split; vm_compute; reflexivity.
Qed.

Print Assumptions C193_operations.
Print Assumptions C193_returns.
Print Assumptions C193_momentum.
Print Assumptions C193_cusum.
Print Assumptions C193_volatility.
Print Assumptions C193_ranges.
Print Assumptions C193_scores.
Print Assumptions C193_flow.
Print Assumptions C193_sizes.
Print Assumptions C193_footprints.
Print Assumptions C193_footprints_refuted.
Print Assumptions C193_profile.
