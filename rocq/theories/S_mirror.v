(** S_mirror.v -- specification vocabulary for symmetries: buyers and sellers exchanged, prices
    turned upside down. *)
From Verif Require Import Base M_bars M_footprint M_tbm S_footprint S_units.
Open Scope Q_scope.

(** Every buy a sell and every sell a buy. *)
Definition flipped (sides : list Z) : list Z := map Z.opp sides.

(** The directional features [b] are those of [a] with the two sides exchanged: counts, volumes and
    dollar volumes change places, the spreads stay, and the extremes of the running balances change
    place and sign. *)
Definition dir_swapped (a b : directional) : Prop :=
  f_ticks_buy b = f_ticks_sell a /\ f_ticks_sell b = f_ticks_buy a /\
  f_vol_buy b = f_vol_sell a /\ f_vol_sell b = f_vol_buy a /\
  f_dol_buy b = f_dol_sell a /\ f_dol_sell b = f_dol_buy a /\
  f_mean_spread b = f_mean_spread a /\ f_max_spread b = f_max_spread a /\
  (f_ct_min b = - f_ct_max a)%Z /\ (f_ct_max b = - f_ct_min a)%Z /\
  f_cv_min b == - f_cv_max a /\ f_cv_max b == - f_cv_min a /\
  f_cd_min b == - f_cd_max a /\ f_cd_max b == - f_cd_min a.

(** Footprints of the same levels with the two sides exchanged; the imbalance flags are left open. *)
Definition fp_swapped (a b : footprint) : Prop :=
  fp_levels b = fp_levels a /\ fp_bv b = fp_sv a /\ fp_sv b = fp_bv a /\ fp_bt b = fp_st a /\ fp_st b = fp_bt a /\
  fp_cot b = fp_cot a /\ fp_gini b == fp_gini a.

(** Footprints upside down: level [l] becomes level [c - l], the sides are exchanged, and buy
    imbalances become sell imbalances. *)
Definition fp_mirrored (c : Z) (a b : footprint) : Prop :=
  fp_levels b = map (fun l => (c - l)%Z) (rev (fp_levels a)) /\
  fp_bv b = rev (fp_sv a) /\ fp_sv b = rev (fp_bv a) /\ fp_bt b = rev (fp_st a) /\ fp_st b = rev (fp_bt a) /\
  fp_bi b = rev (fp_si a) /\ fp_si b = rev (fp_bi a) /\ fp_bi_sum b = fp_si_sum a /\ fp_si_sum b = fp_bi_sum a /\
  fp_gini b == fp_gini a.

(** One level has more volume than every other. *)
Definition one_peak (a : footprint) : Prop :=
  exists i, (i < length (fp_levels a))%nat /\
    forall k, (k < length (fp_levels a))%nat -> k <> i ->
      nth k (fp_bv a) 0 + nth k (fp_sv a) 0 < nth i (fp_bv a) 0 + nth i (fp_sv a) 0.
(** All the longest runs of consecutive levels with the same imbalance have the same sign. *)
Definition longest_run (a : footprint) (i len : nat) (sg : Z) : Prop :=
  is_run (imb_sign (fp_bi a) (fp_si a)) (length (fp_levels a)) i len sg /\
  forall j len' sg', is_run (imb_sign (fp_bi a) (fp_si a)) (length (fp_levels a)) j len' sg' -> (len' <= len)%nat.
Definition one_way (a : footprint) : Prop :=
  forall i j len len' sg sg', longest_run a i len sg -> longest_run a j len' sg' -> sg = sg'.
(** No level has both imbalance flags. *)
Definition one_sided (a : footprint) : Prop :=
  forall i, ~ (nth i (fp_bi a) false = true /\ nth i (fp_si a) false = true).

(** Prices read on a scale that runs the other way: level 0 becomes level [c]. *)
Definition upside_down (tick : Q) (c : Z) (p : list Q) : list Q := map (fun x => inject_Z c * tick - x) p.

(** The two sides of a footprint exchanged and turned over, with the point of control if there is
    one peak, with the length of the longest imbalance run if no level is imbalanced both ways, and
    with its direction as well if all the longest runs have the same one. *)
Definition fp_turned (c : Z) (a b : footprint) : Prop :=
  fp_mirrored c a b /\ (one_peak a -> fp_cot b = (c - fp_cot a)%Z) /\
  (one_sided a -> (Z.of_nat (length (fp_levels a)) < 2 ^ 15)%Z -> Z.abs (fp_run b) = Z.abs (fp_run a)) /\
  (one_sided a -> one_way a -> (Z.of_nat (length (fp_levels a)) < 2 ^ 15)%Z -> (fp_run b = - fp_run a)%Z).

(** Thresholds that never drop below half of an earlier one. *)
Definition steady (n : nat) (t : nat -> Q) : Prop :=
  forall i j, (1 <= i < j)%nat -> (j < n)%nat -> t i <= 2 * t j.
(** Returns with the opposite sign. *)
Definition opposite_returns (ln : Q -> Q) (xs xs' : list Q) : Prop :=
  length xs' = length xs /\
  forall i, (1 <= i < length xs)%nat ->
    ln (nth i xs' 0 / nth (i - 1) xs' 0) == - ln (nth i xs 0 / nth (i - 1) xs 0).
(** Optional numbers that are both unknown, or equal. *)
Definition oq_same (a b : option Q) : Prop :=
  match a, b with Some x, Some y => x == y | None, None => True | _, _ => False end.

(** Labels of the market upside down: the same touch and the opposite return; the opposite label and
    the same weight unless the return is 0, and then the label is the same. *)
Definition label_reversed (a b : tbm_out) : Prop :=
  tb_touch b = tb_touch a /\ match tb_ret a, tb_ret b with
  | Some r, Some r' => r' == - r /\ (r == 0 -> tb_label b = tb_label a) /\ (~ r == 0 -> (tb_label b = - tb_label a)%Z /\ oq_same (tb_weight a) (tb_weight b))
  | None, None => tb_label b = tb_label a /\ oq_same (tb_weight a) (tb_weight b)
  | _, _ => False
  end.
(** The same label, touch, return and weight. *)
Definition label_same (a b : tbm_out) : Prop :=
  tb_label b = tb_label a /\ tb_touch b = tb_touch a /\ oq_same (tb_ret a) (tb_ret b) /\ oq_same (tb_weight a) (tb_weight b).
(** Log prices upside down: they add up to a constant. *)
Definition opposite_logs (ln : Q -> Q) (xs xs' : list Q) : Prop :=
  length xs' = length xs /\ exists k, forall i, (i < length xs)%nat -> ln (nth i xs' 0) == k - ln (nth i xs 0).
