(** T_units2.v -- properties C162-C166: what a change of units does to indicators, labels and float
    kernels. *)
From Coq Require Import Qpower Qfield.
From Verif Require Import Base M_logic M_bars M_features M_volat M_volume M_tbm M_float M_float2 S_units S_unitbars
  P_units P_units2 P_units3 P_units4 P_units5 P_float P_float9 T_units.
Open Scope Q_scope.

(* ---------------------------------------------------------------- C162 *)

(** C162: moving averages of a series in another unit are the averages in that unit. *)
Theorem C162_averages c xs xs' window span : scl c xs xs' ->
  oscl c (sma xs window) (sma xs' window) /\ both (scl c) (ewma xs span) (ewma xs' span).
Proof. intro H. split; [now apply sma_units|now apply ewma_units]. Qed.
Example C162_averages_example : oscl 100 (sma [1; 2; 4; 3] 2) (sma (in_unit 100 [1; 2; 4; 3]) 2) /\ both (scl 100) (ewma [1; 2; 4; 3] 3) (ewma (in_unit 100 [1; 2; 4; 3]) 3)
  /\ sma [1; 2; 4; 3] 2 = [None; Some (3 # 2); Some (6 # 2); Some (7 # 2)].
Proof. pose proof (C162_averages 100 [1; 2; 4; 3] _ 2 3 (in_unit_scl _ _)) as [A B]. split; [exact A|]. split; [exact B|vm_compute; reflexivity]. Qed.
(** C162: rate of change, RSI (both backends), Stochastic %K and ADX do not depend on the unit of
    the prices; ROC and RSI fail for the same inputs. *)
Theorem C162_momentum c p p' hi hi' lo lo' n : 0 < c -> scl c p p' -> scl c hi hi' -> scl c lo lo' ->
  both (oscl 1) (roc p n) (roc p' n) /\ oscl 1 (rsi_wilder p n) (rsi_wilder p' n) /\ both (oscl 1) (rsi_pd p n) (rsi_pd p' n) /\
  oscl 1 (stoch_k p lo hi n) (stoch_k p' lo' hi' n) /\ scl 1 (adx_core hi lo p n) (adx_core hi' lo' p' n).
Proof.
  intros Hc Hp Hh Hl. split; [now apply (roc_units c)|]. split; [now apply (rsi_units c)|]. split; [now apply (rsi_pd_units c)|].
  split; [now apply (stoch_units c)|now apply (adx_units c)].
Qed.
Example C162_momentum_example : both (oscl 1) (roc [10; 12; 11; 15] 1) (roc (in_unit 7 [10; 12; 11; 15]) 1)
  /\ oscl 1 (rsi_wilder [10; 12; 11; 15] 2) (rsi_wilder (in_unit 7 [10; 12; 11; 15]) 2)
  /\ map (option_map Qred) (rsi_wilder [10; 12; 11; 15] 2) = [None; None; Some (200 # 3); Some (1000 # 11)].
Proof.
  pose proof (C162_momentum 7 [10; 12; 11; 15] _ [10; 12; 11; 15] _ [10; 12; 11; 15] _ 1 ltac:(reflexivity) (in_unit_scl _ _) (in_unit_scl _ _) (in_unit_scl _ _)) as (A & _).
  pose proof (C162_momentum 7 [10; 12; 11; 15] _ [10; 12; 11; 15] _ [10; 12; 11; 15] _ 2 ltac:(reflexivity) (in_unit_scl _ _) (in_unit_scl _ _) (in_unit_scl _ _)) as (_ & B & _).
  split; [exact A|]. split; [exact B|vm_compute; reflexivity].
Qed.
(** C162: the distance from the VWAP depends neither on the unit of the prices nor on that of the
    volumes. *)
Theorem C162_vwap ln c d cl cl' v v' n is_log : respects ln -> 0 < c -> 0 < d -> scl c cl cl' -> scl d v v' ->
  both (escl 1) (vwap_distance ln cl v n is_log) (vwap_distance ln cl' v' n is_log).
Proof. apply vwap_units. Qed.
Example C162_vwap_example : both (escl 1) (vwap_distance cube [10; 12; 11] [1; 2; 4] 2 false) (vwap_distance cube (in_unit 7 [10; 12; 11]) (in_unit 100 [1; 2; 4]) 2 false)
  /\ match vwap_distance cube [10; 12; 11] [1; 2; 4] 2 false with Ok [NaN; Fin a; Fin b] => a == 1 # 17 /\ b == - (1 # 34) | _ => False end.
Proof. split; [apply (C162_vwap _ 7 100); try reflexivity; [apply cube_respects|apply in_unit_scl|apply in_unit_scl]|vm_compute; split; reflexivity]. Qed.
(** C162: lagged returns, percent changes, burst ratios and z-scores do not depend on the unit of
    their series. *)
Theorem C162_relative ln sqrt c ts xs xs' W is_log n ddof : respects ln -> square_root_like sqrt -> 0 < c -> scl c xs xs' ->
  both (escl 1) (comp_lagged_returns ln ts xs W is_log) (comp_lagged_returns ln ts xs' W is_log) /\
  oscl 1 (pct_change xs n) (pct_change xs' n) /\ oscl 1 (comp_burst_ratio xs n) (comp_burst_ratio xs' n) /\
  oscl 1 (comp_zscore sqrt xs n ddof) (comp_zscore sqrt xs' n ddof).
Proof.
  intros Hl Hs Hc H. split; [now apply (lagged_units ln c)|]. split; [now apply (pct_units c)|]. split; [now apply (burst_units c)|now apply (zscore_units sqrt c)].
Qed.
(** [qsqrt] is the exact square root of squares of rationals. *)
Example C162_relative_example : square_root_like qsqrt /\ oscl 1 (comp_zscore qsqrt [10; 12; 16] 2 0) (comp_zscore qsqrt (in_unit 7 [10; 12; 16]) 2 0)
  /\ map (option_map Qred) (comp_zscore qsqrt [10; 12; 16] 2 0) = [None; Some 1; Some 1] /\ oscl 1 (pct_change [10; 12; 16] 2) (pct_change (in_unit 7 [10; 12; 16]) 2).
Proof.
  pose proof (C162_relative cube qsqrt 7 [1; 2; 3]%Z [10; 12; 16] _ 1 true 2 0 cube_respects qsqrt_like ltac:(reflexivity) (in_unit_scl _ _)) as (_ & A & _ & B).
  split; [exact qsqrt_like|]. split; [exact B|]. split; [vm_compute; reflexivity|exact A].
Qed.

(* ---------------------------------------------------------------- C163 *)

(** C163: true range and ATR, and the exponentially weighted and realised volatilities, are in the
    unit of their input (the floors of the time weighted ones are given in that unit too); the rolling
    variance is in its square. *)
Theorem C163_scale sqrt exp c h h' l l' k k' ts y y' hl f f' window ema span is_sample ddof min_periods : square_root_like sqrt -> 0 < c ->
  oscl c h h' -> oscl c l l' -> oscl c k k' -> oscl c y y' -> sc c f f' ->
  both (oscl c) (true_range h l k) (true_range h' l' k') /\ both (oscl c) (atr h l k window ema false) (atr h' l' k' window ema false) /\
  oscl c (ewms sqrt y span) (ewms sqrt y' span) /\ both (oscl c) (ewmst_mean0 sqrt exp ts y hl f) (ewmst_mean0 sqrt exp ts y' hl f') /\
  both (oscl c) (ewmst sqrt exp ts y hl f) (ewmst sqrt exp ts y' hl f') /\
  oscl c (realized_vol sqrt y window is_sample) (realized_vol sqrt y' window is_sample) /\
  oscl (c * c) (rolling_variance y window ddof min_periods) (rolling_variance y' window ddof min_periods).
Proof.
  intros Hs Hc Hh Hl Hk Hy Hf. split; [now apply true_range_units|]. split; [now apply atr_raw_units|]. split; [now apply ewms_units|].
  split; [now apply mean0_units|]. split; [now apply ewmst_units|]. split; [now apply realized_units|now apply rolling_variance_units].
Qed.
Example C163_scale_example : both (oscl 10) (atr [Some 12; Some 13; Some 15] [Some 10; Some 11; Some 12] [Some 11; Some 12; Some 14] 2 true false)
    (atr (oin_unit 10 [Some 12; Some 13; Some 15]) (oin_unit 10 [Some 10; Some 11; Some 12]) (oin_unit 10 [Some 11; Some 12; Some 14]) 2 true false)
  /\ oscl 10 (realized_vol qsqrt [Some 3; None; Some 4; Some 0] 3 true) (realized_vol qsqrt (oin_unit 10 [Some 3; None; Some 4; Some 0]) 3 true)
  /\ map (option_map Qred) (realized_vol qsqrt [Some 3; None; Some 4; Some 0] 3 true) = [None; None; Some 5; Some 4].
Proof.
  pose proof (C163_scale qsqrt (fun _ => 1 # 2) 10 [Some 12; Some 13; Some 15] _ [Some 10; Some 11; Some 12] _ [Some 11; Some 12; Some 14] _ [1; 2; 3; 4]%Z
    [Some 3; None; Some 4; Some 0] _ 1 0 0 2 true 3 true 1 1 qsqrt_like ltac:(reflexivity) (oin_unit_oscl _ _) (oin_unit_oscl _ _) (oin_unit_oscl _ _) (oin_unit_oscl _ _) (sc_0 _))
    as (_ & A & _).
  pose proof (C163_scale qsqrt (fun _ => 1 # 2) 10 [Some 12; Some 13; Some 15] _ [Some 10; Some 11; Some 12] _ [Some 11; Some 12; Some 14] _ [1; 2; 3; 4]%Z
    [Some 3; None; Some 4; Some 0] _ 1 0 0 3 true 3 true 1 1 qsqrt_like ltac:(reflexivity) (oin_unit_oscl _ _) (oin_unit_oscl _ _) (oin_unit_oscl _ _) (oin_unit_oscl _ _) (sc_0 _))
    as (_ & _ & _ & _ & _ & B & _).
  split; [exact A|]. split; [exact B|vm_compute; reflexivity].
Qed.
(** C163: Bollinger %b, the Parkinson range, the variance ratio and the price-volume correlation do
    not depend on the units. *)
Theorem C163_free sqrt ln c d p p' op op' ov ov' h h' l l' window k ddof is_log : square_root_like sqrt -> respects ln -> 0 < c -> 0 < d ->
  scl c p p' -> oscl c op op' -> oscl d ov ov' -> scl c h h' -> scl c l l' ->
  both (oscl 1) (bollinger_percent_b sqrt p window k) (bollinger_percent_b sqrt p' window k) /\
  both (scl 1) (parkinson_range ln h l) (parkinson_range ln h' l') /\
  oscl 1 (variance_ratio ln op window ddof is_log) (variance_ratio ln op' window ddof is_log) /\
  oscl 1 (pv_correlation sqrt op ov window) (pv_correlation sqrt op' ov' window).
Proof.
  intros Hs Hn Hc Hd Hp Hop Hov Hh Hl. split; [now apply (bb_units sqrt c)|]. split; [now apply (parkinson_units ln c)|].
  split; [now apply (variance_ratio_units ln c)|now apply (correlation_units sqrt c d)].
Qed.
Example C163_free_example : both (oscl 1) (bollinger_percent_b qsqrt [1; 3; 5; 3; 1] 3 1) (bollinger_percent_b qsqrt (in_unit 10 [1; 3; 5; 3; 1]) 3 1)
  /\ match bollinger_percent_b qsqrt [1; 3; 5; 4; 3] 3 1 with Ok [None; None; Some a; Some b; Some e] => a == 1 /\ b == 1 # 2 /\ e == 0 | _ => False end
  /\ both (scl 1) (parkinson_range cube [4; 6] [2; 5]) (parkinson_range cube (in_unit 10 [4; 6]) (in_unit 10 [2; 5])).
Proof.
  pose proof (C163_free qsqrt cube 10 3 [1; 3; 5; 3; 1] _ [Some 1] _ [Some 1] _ [4; 6] _ [2; 5] _ 3 1 1 true qsqrt_like cube_respects ltac:(reflexivity) ltac:(reflexivity)
    (in_unit_scl _ _) (oin_unit_oscl _ _) (oin_unit_oscl _ _) (in_unit_scl _ _) (in_unit_scl _ _)) as (A & B & _).
  split; [exact A|]. split; [vm_compute; auto|exact B].
Qed.
(** C163: the normalised ATR is free of the unit when every bar has a high and a low with a positive
    mid price. *)
Theorem C163_normalised c h h' l l' k k' window ema : 0 < c -> oscl c h h' -> oscl c l l' -> oscl c k k' ->
  (forall i, (i < length h)%nat -> exists x y, nth i h None = Some x /\ nth i l None = Some y /\ 0 < x + y) ->
  both (oscl 1) (atr h l k window ema true) (atr h' l' k' window ema true).
Proof. intros Hc Hh Hl Hk P. now apply (atr_norm_all_units c). Qed.
Example C163_normalised_example : both (oscl 1) (atr [Some 12; Some 13; Some 15] [Some 10; Some 11; Some 12] [Some 11; Some 12; Some 14] 2 false true)
    (atr (oin_unit 10 [Some 12; Some 13; Some 15]) (oin_unit 10 [Some 10; Some 11; Some 12]) (oin_unit 10 [Some 11; Some 12; Some 14]) 2 false true)
  /\ match atr [Some 12; Some 13; Some 15] [Some 10; Some 11; Some 12] [Some 11; Some 12; Some 14] 2 false true with Ok [None; Some a; Some b] => a == 1 # 6 /\ b == 5 # 27 | _ => False end.
Proof.
  split; [|vm_compute; auto]. apply (C163_normalised 10); try apply oin_unit_oscl; [reflexivity|].
  intros [|[|[|i]]] Hi; cbn [length] in Hi; try lia; eexists; eexists; (split; [reflexivity|]); (split; [reflexivity|]); reflexivity.
Qed.
(** C163: without that, it is not: a bar without a high keeps the ATR in price units. *)
Theorem C163_normalised_refuted : exists c h h' l l' k k' window, 0 < c /\ oscl c h h' /\ oscl c l l' /\ oscl c k k' /\
  ~ both (oscl 1) (atr h l k window false true) (atr h' l' k' window false true).
Proof.
  exists 10, [Some 12; None], (oin_unit 10 [Some 12; None]), [Some 10; Some 11], (oin_unit 10 [Some 10; Some 11]), [Some 11; Some 12], (oin_unit 10 [Some 11; Some 12]), 2%nat.
  split; [reflexivity|]. split; [apply oin_unit_oscl|]. split; [apply oin_unit_oscl|]. split; [apply oin_unit_oscl|].
  intro H. vm_compute in H. inversion H as [|? ? ? ? _ H1]. inversion H1 as [|? ? ? ? A]. discriminate A.
Qed.

(* ---------------------------------------------------------------- C164 *)

(** C164: VPIN depends on the unit of the volumes: windows with a total of at most 1e-9 have none. *)
Theorem C164_vpin_refuted : exists d b b' s s' window, 0 < d /\ oscl d b b' /\ oscl d s s' /\ ~ oscl 1 (vpin b s window) (vpin b' s' window).
Proof.
  exists (1 # 10000000000), [Some 3; Some 1], (oin_unit (1 # 10000000000) [Some 3; Some 1]), [Some 1; Some 1], (oin_unit (1 # 10000000000) [Some 1; Some 1]), 1%nat.
  split; [reflexivity|]. split; [apply oin_unit_oscl|]. split; [apply oin_unit_oscl|]. intro H. vm_compute in H. inversion H as [|? ? ? ? A]. exact A.
Qed.
(** C164: where it is defined in both units the value is the same. *)
Theorem C164_vpin d b b' s s' window i x y : 0 < d -> oscl d b b' -> oscl d s s' ->
  nth i (vpin b s window) None = Some x -> nth i (vpin b' s' window) None = Some y -> x == y.
Proof. apply vpin_units. Qed.
Example C164_vpin_example : exists x y, nth 1 (vpin [Some 3; Some 1] [Some 1; Some 2] 2) None = Some x /\
  nth 1 (vpin (oin_unit 1000 [Some 3; Some 1]) (oin_unit 1000 [Some 1; Some 2]) 2) None = Some y /\ x == y /\ x == 3 # 7.
Proof.
  eexists. eexists. split; [reflexivity|]. split; [reflexivity|]. split; [|vm_compute; reflexivity].
  apply (C164_vpin 1000 [Some 3; Some 1] (oin_unit 1000 [Some 3; Some 1]) [Some 1; Some 2] (oin_unit 1000 [Some 1; Some 2]) 2 1); try reflexivity; apply oin_unit_oscl.
Qed.
(** C164: the flow acceleration adds 1e-12 to both sums, so it depends on the unit. *)
Theorem C164_flow_refuted : exists ln d v v' window recent, respects ln /\ 0 < d /\ scl d v v' /\
  ~ oscl 1 (comp_flow_acceleration ln v window recent) (comp_flow_acceleration ln v' window recent).
Proof.
  exists cube, 2, [1; 3], (in_unit 2 [1; 3]), 2%nat, 1%nat. split; [apply cube_respects|]. split; [reflexivity|]. split; [apply in_unit_scl|].
  intro H. pose proof (oscl_nth 1 _ _ 1 H) as A. clear H. vm_compute in A. discriminate A.
Qed.

(* ---------------------------------------------------------------- C165 *)

(** C165: triple barrier labels, touch times, returns and weights do not depend on the unit of the
    (positive) prices; calls fail for the same inputs. *)
Theorem C165_labels ln rnd c ts cl cl' events targets bottom top vert min_close sides min_ret : log_like ln c -> scl c cl cl' -> Forall (fun x => 0 < x) cl ->
  both (Forall2 same_label) (triple_barrier ln rnd ts cl events targets bottom top vert min_close sides min_ret)
    (triple_barrier ln rnd ts cl' events targets bottom top vert min_close sides min_ret).
Proof. apply tbm_units. Qed.
Example C165_labels_example : log_like log2f 8 /\ exists l l',
  triple_barrier log2f (fun z => z) [0; 1; 2; 3]%Z [1; 3; 5; 1] [0; 1]%nat [1; 1] (Fin 1) (Fin 2) (Some 10%Z) 0 None 0 = Ok l /\
  triple_barrier log2f (fun z => z) [0; 1; 2; 3]%Z (in_unit 8 [1; 3; 5; 1]) [0; 1]%nat [1; 1] (Fin 1) (Fin 2) (Some 10%Z) 0 None 0 = Ok l' /\
  Forall2 same_label l l' /\ map tb_label l = [1; -1]%Z /\ map tb_touch l = [Some 2; Some 3]%nat.
Proof.
  assert (L : log_like log2f 8) by apply (log2f_like 3). split; [exact L|].
  pose proof (C165_labels log2f (fun z => z) 8 [0; 1; 2; 3]%Z [1; 3; 5; 1] _ [0; 1]%nat [1; 1] (Fin 1) (Fin 2) (Some 10%Z) 0 None 0 L (in_unit_scl _ _)
    ltac:(repeat constructor)) as H.
  eexists. eexists. split; [vm_compute; reflexivity|]. split; [vm_compute; reflexivity|]. split; [vm_compute in H |- *; exact H|vm_compute; auto].
Qed.

(* ---------------------------------------------------------------- C166 *)

(** C166: in float64 (float32 for the bar volume) a change of units by powers of two is exact: the
    volume and dollar bars are the same, ... *)
Theorem C166_bars e f p p' v v' t t' u u' : scl (two e) p p' -> scl (two f) v v' -> sc (two f) t t' -> sc (two e * two f) u u' ->
  volume_bar_indexer_f v' t' = volume_bar_indexer_f v t /\ fst (dollar_bar_run_f p' v' u') = fst (dollar_bar_run_f p v u).
Proof.
  intros Hp Hv Ht Hu. split; [apply (volume_f_units (two f)); auto; exists f; reflexivity|].
  apply (dollar_f_units (two e) (two f)); auto; eexists; reflexivity.
Qed.
Example C166_bars_example : volume_bar_indexer_f (in_unit (two (-3)) (map r53 [1 # 10; 1 # 10; 1 # 10; 1 # 5])) (two (-3) * r53 (3 # 10)) = volume_bar_indexer_f (map r53 [1 # 10; 1 # 10; 1 # 10; 1 # 5]) (r53 (3 # 10))
  /\ volume_bar_indexer_f (map r53 [1 # 10; 1 # 10; 1 # 10; 1 # 5]) (r53 (3 # 10)) = [0; 2]%nat.
Proof.
  split; [|vm_compute; reflexivity]. pose proof (in_unit_scl (two (-3)) (map r53 [1 # 10; 1 # 10; 1 # 10; 1 # 5])) as A.
  apply (C166_bars 0 (-3) [1] (in_unit (two 0) [1]) _ _ _ _ 0 0 (in_unit_scl _ _) A); [reflexivity|apply sc_0].
Qed.
(** ... every value of the OHLCV bars is the same number in the new units, ... *)
Theorem C166_ohlcv e f p p' v v' closes : scl (two e) p p' -> scl (two f) v v' ->
  both (Forall2 (same_bar (two e) (two f))) (comp_bar_ohlcv_f p v closes) (comp_bar_ohlcv_f p' v' closes).
Proof. intros Hp Hv. apply ohlcv_f_units; auto; eexists; reflexivity. Qed.
Example C166_ohlcv_example : exists b b', comp_bar_ohlcv_f (map r53 [1 # 10; 3 # 10; 1 # 5]) [1; 2; 4] [0; 2]%Z = Ok b /\
  comp_bar_ohlcv_f (in_unit (two 5) (map r53 [1 # 10; 3 # 10; 1 # 5])) (in_unit (two (-1)) [1; 2; 4]) [0; 2]%Z = Ok b' /\ Forall2 (same_bar (two 5) (two (-1))) b b' /\ map b_trades b' = [2%Z].
Proof.
  pose proof (C166_ohlcv 5 (-1) (map r53 [1 # 10; 3 # 10; 1 # 5]) _ [1; 2; 4] _ [0; 2]%Z (in_unit_scl _ _) (in_unit_scl _ _)) as H.
  eexists. eexists. split; [vm_compute; reflexivity|]. split; [vm_compute; reflexivity|]. split; [vm_compute in H |- *; exact H|vm_compute; reflexivity].
Qed.
(** ... and so are moving averages, VWAP distances and z-scores. *)
Theorem C166_features ln sqrt e f xs xs' v v' window span is_log ddof : respects ln -> square_root_like sqrt -> scl (two e) xs xs' -> scl (two f) v v' ->
  oscl (two e) (sma_f xs window) (sma_f xs' window) /\ both (scl (two e)) (ewma_f xs span) (ewma_f xs' span) /\
  both (escl 1) (vwap_distance_f ln xs v window is_log) (vwap_distance_f ln xs' v' window is_log) /\
  oscl 1 (comp_zscore_f sqrt xs window ddof) (comp_zscore_f sqrt xs' window ddof).
Proof.
  intros Hl Hs Hx Hv. assert (Be : binary (two e)) by (eexists; reflexivity). assert (Bf : binary (two f)) by (eexists; reflexivity).
  split; [now apply sma_f_units|]. split; [now apply ewma_f_units|]. split; [now apply (vwap_f_units ln (two e) (two f))|now apply (zscore_f_units sqrt (two e))].
Qed.
Example C166_features_example : oscl (two 5) (sma_f (map r53 [1 # 10; 3 # 10; 1 # 5]) 3) (sma_f (in_unit (two 5) (map r53 [1 # 10; 3 # 10; 1 # 5])) 3)
  /\ ~ sma_f (map r53 [1 # 10; 3 # 10; 1 # 5]) 3 = [None; None; Some (1 # 5)].
Proof.
  split; [|vm_compute; discriminate].
  exact (proj1 (C166_features cube qsqrt 5 0 (map r53 [1 # 10; 3 # 10; 1 # 5]) _ [1] (in_unit (two 0) [1]) 3 3 true 0 cube_respects qsqrt_like (in_unit_scl _ _) (in_unit_scl _ _))).
Qed.
(** C166: other units are not exact: ten trades of 0.1 do not reach 1, ten trades of 1 reach 10. *)
Theorem C166_bars_refuted : exists v v' t t', Forall2 (fun x y => r53 (10 * x) == y) v v' /\ r53 (10 * t) == t' /\
  volume_bar_indexer_f v' t' <> volume_bar_indexer_f v t.
Proof.
  exists (repeat (r53 (1 # 10)) 10), (repeat 1 10), 1, 10. split; [repeat constructor|]. split; [vm_compute; reflexivity|]. vm_compute. discriminate.
Qed.

Print Assumptions C162_averages.
Print Assumptions C162_momentum.
Print Assumptions C162_vwap.
Print Assumptions C162_relative.
Print Assumptions C163_scale.
Print Assumptions C163_free.
Print Assumptions C163_normalised.
Print Assumptions C163_normalised_refuted.
Print Assumptions C164_vpin_refuted.
Print Assumptions C164_vpin.
Print Assumptions C164_flow_refuted.
Print Assumptions C165_labels.
Print Assumptions C166_bars.
Print Assumptions C166_ohlcv.
Print Assumptions C166_features.
Print Assumptions C166_bars_refuted.
