(** S_unitbars.v -- bars of the same trades with prices and amounts in other units. *)
From Verif Require Import Base M_bars M_footprint M_tbm S_units.
Open Scope Q_scope.

(** The same OHLCV bar with prices in a unit [c] times and amounts in a unit [d] times smaller. *)
Definition same_bar (c d : Q) (b b' : ohlcv) : Prop :=
  sc c (b_open b) (b_open b') /\ sc c (b_high b) (b_high b') /\ sc c (b_low b) (b_low b') /\
  sc c (b_close b) (b_close b') /\ sc d (b_volume b) (b_volume b') /\ sc c (b_vwap b) (b_vwap b') /\
  b_trades b' = b_trades b /\ sc d (b_median b) (b_median b').

(** The same directional features, the running extremes of volume and dollars left out. *)
Definition same_flow (c d : Q) (f g : directional) : Prop :=
  f_ticks_buy g = f_ticks_buy f /\ f_ticks_sell g = f_ticks_sell f /\
  sc d (f_vol_buy f) (f_vol_buy g) /\ sc d (f_vol_sell f) (f_vol_sell g) /\
  sc (c * d) (f_dol_buy f) (f_dol_buy g) /\ sc (c * d) (f_dol_sell f) (f_dol_sell g) /\
  esc c (f_mean_spread f) (f_mean_spread g) /\ sc c (f_max_spread f) (f_max_spread g) /\
  f_ct_min g = f_ct_min f /\ f_ct_max g = f_ct_max f.

(** The same features of trade sizes. *)
Definition same_sizes (f g : size_feat) : Prop :=
  osc 1 (z_mean f) (z_mean g) /\ osc 1 (z_p95 f) (z_p95 g) /\ osc 1 (z_block f) (z_block g) /\ osc 1 (z_gini f) (z_gini g).

(** The same footprint: levels in ticks, counts, flags and summary unchanged, volumes in the other unit. *)
Definition same_footprint (d : Q) (f g : footprint) : Prop :=
  fp_levels g = fp_levels f /\ scl d (fp_bv f) (fp_bv g) /\ scl d (fp_sv f) (fp_sv g) /\
  fp_bt g = fp_bt f /\ fp_st g = fp_st f /\ fp_bi g = fp_bi f /\ fp_si g = fp_si f /\
  fp_bi_sum g = fp_bi_sum f /\ fp_si_sum g = fp_si_sum f /\ fp_cot g = fp_cot f /\ fp_run g = fp_run f /\
  fp_skew f == fp_skew g /\ fp_gini f == fp_gini g.

(** The same label: class, touch, return and weight. *)
Definition same_label (x y : tbm_out) : Prop :=
  tb_label y = tb_label x /\ tb_touch y = tb_touch x /\ osc 1 (tb_ret x) (tb_ret y) /\ osc 1 (tb_weight x) (tb_weight y).
