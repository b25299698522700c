(** T_float.v -- property theorems about the bar kernels in float64 and float32 arithmetic. *)
From Verif Require Import Base M_logic S_logic M_bars S_bars P_sort P_bars M_footprint S_footprint M_trades M_float S_float
  P_features P_float P_float2 P_float3 P_float4 P_float5 P_float6 P_float7.
Open Scope Q_scope.

(** 0.1 as a float64. *)
Definition d01 : Q := 3602879701896397 # 36028797018963968.
Lemma d01_fl : fl 53 d01.
Proof. exists 7205759403792794%Z, (-56)%Z. split; [reflexivity|vm_compute; reflexivity]. Qed.
Lemma repeat_fl n : Forall (fl 53) (repeat d01 n).
Proof. apply Forall_forall. intros x H. apply repeat_spec in H. subst. exact d01_fl. Qed.

(** * C137  Volume bars in float64 *)
(** The rounding of the model is IEEE round to nearest, ties to even. *)
Theorem C137_rounding : forall p x, (1 <= p)%Z -> nearest_even p x (rnd p x).
Proof. exact rnd_nearest. Qed.
Example C137_rounding_ex : rnd 24 16777217 = 16777216 /\ rnd 24 16777219 = 16777220 /\ rnd 53 (1 # 10) = d01.
Proof. repeat split; vm_compute; reflexivity. Qed.

Theorem C137_greedy : forall v thr, (1 <= length v)%nat -> (forall x, In x v -> 0 <= x) ->
  greedy_float (fun i => nth i v 0) thr (length v) (volume_bar_indexer_f v thr).
Proof. exact volume_f_greedy. Qed.
Theorem C137_clear : forall v thr, (1 <= length v)%nat -> (forall x, In x v -> 0 <= x) ->
  (forall s j, (s <= j < length v)%nat ->
     thr <= (1 - u53) ^ Z.of_nat (S j - s) * ssum (fun i => nth i v 0) s (S j) \/
     (1 + u53) ^ Z.of_nat (S j - s) * ssum (fun i => nth i v 0) s (S j) < thr) ->
  volume_bar_indexer_f v thr = volume_bar_indexer v thr.
Proof. exact volume_f_clear. Qed.
Theorem C137_integers : forall v thr g M, (forall x, In x v -> grid g x /\ 0 <= x <= M) -> 0 <= M ->
  thr + M <= Qpower 2 (53 + g) -> M + M <= Qpower 2 (53 + g) ->
  volume_bar_indexer_f v thr = volume_bar_indexer v thr.
Proof. intros v thr g M H M0 B1 B2. exact (volume_f_grid v thr g M H B1 B2 M0). Qed.
Theorem C137_prefix : forall v m thr, (1 <= m <= length v)%nat ->
  filter (fun i => i <? m)%nat (volume_bar_indexer_f v thr) = volume_bar_indexer_f (firstn m v) thr.
Proof. exact volume_f_prefix. Qed.
(** Ten volumes of 0.1 do not fill a bar of 1. *)
Theorem C137_exact_closes_refuted : exists v thr, (1 <= length v)%nat /\ Forall (fl 53) v /\ fl 53 thr /\
  (forall x, In x v -> 0 <= x) /\ volume_bar_indexer_f v thr <> volume_bar_indexer v thr.
Proof.
  exists (repeat d01 12), 1. split; [cbn; lia|]. split; [apply repeat_fl|].
  split; [exists 1%Z, 0%Z; split; reflexivity|].
  split; [intros x H; apply repeat_spec in H; subst; discriminate|]. vm_compute. discriminate.
Qed.
Example C137_ex : volume_bar_indexer_f (repeat d01 12) 1 = [0; 10]%nat /\ volume_bar_indexer (repeat d01 12) 1 = [0; 9]%nat.
Proof. split; vm_compute; reflexivity. Qed.
Example C137_integers_ex : let v := [3 # 4; 5 # 4; 1; 7 # 2; 1 # 4; 2] in
  (forall x, In x v -> grid (-2) x /\ 0 <= x <= 4) /\ 2 + 4 <= Qpower 2 (53 + -2) /\
  volume_bar_indexer_f v 2 = [0; 1; 3; 5]%nat.
Proof.
  cbv zeta. split; [|split; vm_compute; [discriminate|reflexivity]].
  intros x [<-|[<-|[<-|[<-|[<-|[<-|[]]]]]]]; (split; [|split; vm_compute; discriminate]);
    [exists 3%Z|exists 5%Z|exists 4%Z|exists 14%Z|exists 1%Z|exists 8%Z]; reflexivity.
Qed.
Example C137_clear_ex : let v := [d01; d01; 3; d01] in
  (forall s j, (s <= j < length v)%nat ->
     1 <= (1 - u53) ^ Z.of_nat (S j - s) * ssum (fun i => nth i v 0) s (S j) \/
     (1 + u53) ^ Z.of_nat (S j - s) * ssum (fun i => nth i v 0) s (S j) < 1) /\
  volume_bar_indexer_f v 1 = [0; 2]%nat.
Proof.
  cbv zeta. split; [|vm_compute; reflexivity]. intros s j H. cbn [length] in H.
  destruct (Nat.le_gt_cases 2 j) as [J|J], (Nat.le_gt_cases s 2) as [S2|S2].
  - left. destruct j as [|[|[|[|j]]]], s as [|[|[|s]]]; try lia; vm_compute; discriminate.
  - right. assert (s = 3 /\ j = 3)%nat as [-> ->] by lia. vm_compute. reflexivity.
  - right. destruct j as [|[|j]], s as [|[|s]]; try lia; vm_compute; reflexivity.
  - lia.
Qed.

(** * C138  Dollar bars in float64 *)
Theorem C138_conserve : forall p v thr, (1 <= length p)%nat -> (forall x, In x p -> 0 <= x) -> (forall x, In x v -> 0 <= x) -> 0 <= thr ->
  let T := ssum (fun k => nth k p 0 * nth k v 0) 0 (length p) in
  let s := dollar_bar_run_f p v thr in
  0 <= snd s /\
  Qabs (snd s + thr * Qnat (length (fst s) - 1) - T) <= 3 * Qnat (length p) * u53 * (1 + u53) ^ Z.of_nat (2 * length p) * T.
Proof. exact dollar_f_conserve. Qed.
Theorem C138_integers : forall p v thr g h,
  (forall x, In x p -> grid g x /\ 0 <= x) -> (forall x, In x v -> grid h x /\ 0 <= x) -> grid (g + h) thr -> 0 <= thr ->
  ssum (fun k => nth k p 0 * nth k v 0) 0 (length p) <= Qpower 2 (53 + (g + h)) -> (1 <= length p)%nat ->
  fst (dollar_bar_run_f p v thr) = fst (dollar_bar_run p v thr) /\ snd (dollar_bar_run_f p v thr) == snd (dollar_bar_run p v thr).
Proof. exact dollar_f_grid. Qed.
Theorem C138_prefix : forall p v m thr, (1 <= m <= length p)%nat ->
  filter (fun i => i <? m)%nat (fst (dollar_bar_run_f p v thr)) = fst (dollar_bar_run_f (firstn m p) (firstn m v) thr).
Proof. exact dollar_f_prefix. Qed.
Theorem C138_exact_closes_refuted : exists p v thr, length p = length v /\ Forall (fl 53) p /\ Forall (fl 53) v /\ fl 53 thr /\
  (forall x, In x p -> 0 < x) /\ (forall x, In x v -> 0 < x) /\
  fst (dollar_bar_run_f p v thr) <> fst (dollar_bar_run p v thr).
Proof.
  exists (repeat 1 12), (repeat d01 12), 1. split; [reflexivity|].
  assert (F1 : fl 53 1) by (exists 1%Z, 0%Z; split; reflexivity).
  split; [apply Forall_forall; intros x H; apply repeat_spec in H; now subst|].
  split; [apply repeat_fl|]. split; [exact F1|].
  split; [intros x H; apply repeat_spec in H; subst; reflexivity|].
  split; [intros x H; apply repeat_spec in H; subst; reflexivity|]. vm_compute. discriminate.
Qed.
Example C138_ex : fst (dollar_bar_run_f (repeat 1 12) (repeat d01 12) 1) = [0; 10]%nat /\
  fst (dollar_bar_run (repeat 1 12) (repeat d01 12) 1) = [0; 9]%nat.
Proof. split; vm_compute; reflexivity. Qed.
Example C138_integers_ex : let p := [3 # 2; 5 # 2; 2] in let v := [1 # 4; 2; 7 # 4] in
  (forall x, In x p -> grid (-1) x /\ 0 <= x) /\ (forall x, In x v -> grid (-2) x /\ 0 <= x) /\ grid (-1 + -2) 4 /\
  ssum (fun k => nth k p 0 * nth k v 0) 0 (length p) <= Qpower 2 (53 + (-1 + -2)) /\
  fst (dollar_bar_run_f p v 4) = [0; 1; 2]%nat /\ snd (dollar_bar_run_f p v 4) == 7 # 8.
Proof.
  cbv zeta. split; [|split; [|split; [|split; [|split]]]].
  - intros x [<-|[<-|[<-|[]]]]; (split; [|discriminate]); [exists 3%Z|exists 5%Z|exists 4%Z]; reflexivity.
  - intros x [<-|[<-|[<-|[]]]]; (split; [|discriminate]); [exists 1%Z|exists 8%Z|exists 7%Z]; reflexivity.
  - exists 32%Z. reflexivity.
  - vm_compute. discriminate.
  - vm_compute. reflexivity.
  - vm_compute. reflexivity.
Qed.

(** * C139  OHLCV bars in float64, volume stored as float32 *)
Theorem C139_prices : forall prices vols s e, (-1 <= s < e)%Z ->
  let b := bar_ohlcv_f prices vols s e in
  b_open b = at_ prices (s + 1) /\ b_close b = at_ prices e /\
  is_max (at_ prices) (fun _ => True) s e (b_high b) /\ is_min (at_ prices) (fun _ => True) s e (b_low b) /\ b_trades b = (e - s)%Z.
Proof. exact bar_f_prices. Qed.
Theorem C139_volume : forall prices vols s e, (-1 <= s <= e)%Z -> (forall x, In x vols -> 0 <= x) ->
  let b := bar_ohlcv_f prices vols s e in let n := Z.to_nat (e - s) in
  (1 - u24) * (1 - u53) ^ Z.of_nat n * bsum (at_ vols) s e <= b_volume b <= (1 + u24) * (1 + u53) ^ Z.of_nat n * bsum (at_ vols) s e.
Proof. exact bar_f_volume. Qed.
Theorem C139_vwap : forall prices vols s e, (-1 <= s < e)%Z -> (forall x, In x prices -> 0 <= x) -> (forall x, In x vols -> 0 <= x) ->
  let b := bar_ohlcv_f prices vols s e in let n := Z.to_nat (e - s) in
  let V := bsum (at_ vols) s e in let D := bsum (fun j => at_ prices j * at_ vols j) s e in
  0 < V ->
  (1 - u53) ^ Z.of_nat (n + 2) * D <= b_vwap b * ((1 + u53) ^ Z.of_nat n * V) /\
  b_vwap b * ((1 - u53) ^ Z.of_nat n * V) <= (1 + u53) ^ Z.of_nat (n + 2) * D.
Proof. exact bar_f_vwap. Qed.
Theorem C139_vwap_range : forall prices vols s e, (-1 <= s < e)%Z -> (forall x, In x prices -> 0 <= x) -> (forall x, In x vols -> 0 <= x) ->
  let b := bar_ohlcv_f prices vols s e in let n := Z.to_nat (e - s) in
  0 < bsum (at_ vols) s e ->
  (1 - u53) ^ Z.of_nat (n + 2) * b_low b <= b_vwap b * (1 + u53) ^ Z.of_nat n /\
  b_vwap b * (1 - u53) ^ Z.of_nat n <= (1 + u53) ^ Z.of_nat (n + 2) * b_high b.
Proof.
  intros prices vols s e H Hp Hq b n PV. destruct (bar_f_vwap prices vols s e H Hp Hq PV) as [A B].
  destruct (bar_f_prices prices vols s e H) as [_ [_ [Mx [Mn _]]]]. fold b in A, B, Mx, Mn. fold n in A, B.
  set (V := bsum (at_ vols) s e) in *. set (D := bsum (fun j => at_ prices j * at_ vols j) s e) in *.
  assert (L : b_low b * V <= D).
  { unfold V, D. rewrite <- bsum_scal. apply bsum_le. intros j Hj. pose proof (at_nonneg _ Hq j).
    destruct Mn as [_ Mn]. specialize (Mn j Hj Logic.I). nra. }
  assert (U : D <= b_high b * V).
  { unfold V, D. rewrite <- bsum_scal. apply bsum_le. intros j Hj. pose proof (at_nonneg _ Hq j).
    destruct Mx as [_ Mx]. specialize (Mx j Hj Logic.I). nra. }
  pose proof u53_bounds. pose proof (pow_nonneg (1 - u53) (n + 2) ltac:(lra)). pose proof (pow_nonneg (1 + u53) (n + 2) ltac:(lra)).
  set (l2 := (1 - u53) ^ Z.of_nat (n + 2)) in *. set (h2 := (1 + u53) ^ Z.of_nat (n + 2)) in *.
  set (l := (1 - u53) ^ Z.of_nat n) in *. set (h := (1 + u53) ^ Z.of_nat n) in *.
  clearbody V D l2 h2 l h. split.
  - apply (Qmult_le_r _ _ V PV). assert (l2 * (b_low b * V) <= l2 * D) by nra. lra.
  - apply (Qmult_le_r _ _ V PV). assert (h2 * D <= h2 * (b_high b * V)) by nra. lra.
Qed.
Theorem C139_median : forall prices vols s e, (-1 <= s < e)%Z -> (forall x, In x vols -> 0 <= x) ->
  within u53 2 (b_median (bar_ohlcv_f prices vols s e)) (b_median (bar_ohlcv prices vols s e)).
Proof. exact bar_f_median. Qed.
Theorem C139_integers : forall prices vols s e g, (-1 <= s <= e)%Z -> (forall x, In x vols -> grid g x /\ 0 <= x) ->
  bsum (at_ vols) s e <= Qpower 2 (24 + g) ->
  b_volume (bar_ohlcv_f prices vols s e) == bsum (at_ vols) s e.
Proof. intros prices vols s e g H. exact (bar_f_grid prices vols s e g H). Qed.
Theorem C139_shape : forall prices vols closes,
  comp_bar_ohlcv_f prices vols closes =
    (if ((length prices =? length vols) && (2 <=? length closes))%nat%bool
     then Ok (map (fun k => bar_ohlcv_f prices vols (nth k closes 0%Z) (nth (S k) closes 0%Z)) (seq 0 (length closes - 1)))
     else Raise ValueError).
Proof.
  intros. unfold comp_bar_ohlcv_f. destruct (Nat.eqb_spec (length prices) (length vols)); [|reflexivity]. cbn [negb andb].
  destruct (Nat.ltb_spec (length closes) 2), (Nat.leb_spec 2 (length closes)); try lia; reflexivity.
Qed.
(** The VWAP of a bar with one trade can exceed its only price. *)
Theorem C139_vwap_in_range_refuted : exists prices vols s e, Forall (fl 53) prices /\ Forall (fl 53) vols /\ (-1 <= s < e)%Z /\
  (forall x, In x vols -> 0 < x) /\ b_high (bar_ohlcv_f prices vols s e) < b_vwap (bar_ohlcv_f prices vols s e).
Proof.
  exists [3], [d01], (-1)%Z, 0%Z. split; [|split; [|split; [|split]]].
  - constructor; [|constructor]. exists 3%Z, 0%Z. split; reflexivity.
  - constructor; [exact d01_fl|constructor].
  - lia.
  - intros x [<-|[]]. reflexivity.
  - vm_compute. reflexivity.
Qed.
(** A float32 volume drops a unit trade beyond 2^24. *)
Theorem C139_volume_exact_refuted : exists prices vols s e, (-1 <= s < e)%Z /\ (forall x, In x vols -> exists k, x == inject_Z k) /\
  ~ b_volume (bar_ohlcv_f prices vols s e) == bsum (at_ vols) s e.
Proof.
  exists [5; 5], [16777216; 1], (-1)%Z, 1%Z. split; [lia|]. split; [|vm_compute; discriminate].
  intros x [<-|[<-|[]]]; [exists 16777216%Z|exists 1%Z]; reflexivity.
Qed.
Example C139_ex : let b := bar_ohlcv_f [3; 2; 4] [1; d01; d01] (-1) 2 in
  b_high b = 4 /\ b_low b = 2 /\ b_volume b = 5033165 # 4194304 /\ 3 - (1 # 1000000000000000) < b_vwap b < 3 /\ b_median b = d01.
Proof. cbv zeta. repeat split; vm_compute; reflexivity. Qed.

(** * C140  Buy and sell totals in float64, stored as float32 *)
Theorem C140_sides : forall prices vols sides s e, (-1 <= s <= e)%Z -> (forall x, In x prices -> 0 <= x) -> (forall x, In x vols -> 0 <= x) ->
  let f := bar_directional_f prices vols sides s e in
  let dol j := at_ prices j * at_ vols j in
  let ok a n x := (1 - u24) * (1 - u53) ^ Z.of_nat n * x <= a <= (1 + u24) * (1 + u53) ^ Z.of_nat n * x in
  f_ticks_buy f = Z.of_nat (bcount sides 1 s e) /\ f_ticks_sell f = Z.of_nat (bcount sides (-1) s e) /\
  ok (f_vol_buy f) (bcount sides 1 s e) (side_sum sides 1 (at_ vols) s e) /\
  ok (f_vol_sell f) (bcount sides (-1) s e) (side_sum sides (-1) (at_ vols) s e) /\
  ok (f_dol_buy f) (S (bcount sides 1 s e)) (side_sum sides 1 dol s e) /\
  ok (f_dol_sell f) (S (bcount sides (-1) s e)) (side_sum sides (-1) dol s e).
Proof. exact dir_f_sides. Qed.
(** Running extremes and spreads against the exact ones. *)
Theorem C140_extremes : forall prices vols sides s e, (-1 <= s <= e)%Z -> (forall x, In x prices -> 0 <= x) -> (forall x, In x vols -> 0 <= x) ->
  let f := bar_directional_f prices vols sides s e in let f0 := bar_directional prices vols sides s e in
  let k := (2 * Z.to_nat (e - s))%nat in
  let err A := Qnat k * u53 * ((1 + u53) ^ Z.of_nat k * A) in
  let V := bsum (at_ vols) s e in let D := bsum (fun j => at_ prices j * at_ vols j) s e in
  let near A a x := Qabs (a - x) <= u24 * Qabs x + (1 + u24) * err A in
  f_ct_min f = f_ct_min f0 /\ f_ct_max f = f_ct_max f0 /\
  near V (f_cv_min f) (f_cv_min f0) /\ near V (f_cv_max f) (f_cv_max f0) /\
  near D (f_cd_min f) (f_cd_min f0) /\ near D (f_cd_max f) (f_cd_max f0).
Proof. exact dir_f_extremes. Qed.
Theorem C140_spread : forall prices vols sides s e, (-1 <= s <= e)%Z ->
  let f := bar_directional_f prices vols sides s e in let f0 := bar_directional prices vols sides s e in
  (1 - u24) * (1 - u53) * f_max_spread f0 <= f_max_spread f <= (1 + u24) * (1 + u53) * f_max_spread f0 /\
  match f_mean_spread f, f_mean_spread f0 with
  | Fin a, Fin x => let n := (2 + Z.to_nat (e - s))%nat in
      0 <= x /\ (1 - u24) * (1 - u53) ^ Z.of_nat n * x <= a <= (1 + u24) * (1 + u53) ^ Z.of_nat n * x
  | PInf, PInf | NaN, NaN => True
  | _, _ => False
  end.
Proof. exact dir_f_spread. Qed.
Theorem C140_add_up : forall prices vols sides s e, (-1 <= s <= e)%Z -> (forall x, In x prices -> 0 <= x) -> (forall x, In x vols -> 0 <= x) ->
  (forall j, (s < j <= e)%Z -> zat sides j = 1%Z \/ zat sides j = (-1)%Z) ->
  let f := bar_directional_f prices vols sides s e in let b := bar_ohlcv_f prices vols s e in
  let n := Z.to_nat (e - s) in let V := bsum (at_ vols) s e in
  Qabs (f_vol_buy f + f_vol_sell f - b_volume b) <= ((1 + u24) * (1 + u53) ^ Z.of_nat n - (1 - u24) * (1 - u53) ^ Z.of_nat n) * V.
Proof. exact dir_f_add_up. Qed.
Theorem C140_add_up_exactly_refuted : exists prices vols sides s e, (-1 <= s <= e)%Z /\
  (forall x, In x vols -> exists k, x == inject_Z k) /\ (forall j, (s < j <= e)%Z -> zat sides j = 1%Z \/ zat sides j = (-1)%Z) /\
  ~ f_vol_buy (bar_directional_f prices vols sides s e) + f_vol_sell (bar_directional_f prices vols sides s e)
    == b_volume (bar_ohlcv_f prices vols s e).
Proof.
  exists [1; 1], [16777216; 1], [1; -1]%Z, (-1)%Z, 1%Z. split; [lia|]. split; [|split; [|vm_compute; discriminate]].
  - intros x [<-|[<-|[]]]; [exists 16777216%Z|exists 1%Z]; reflexivity.
  - intros j Hj. assert (j = 0 \/ j = 1)%Z as [-> | ->] by lia; [left|right]; reflexivity.
Qed.
Example C140_ex : let f := bar_directional_f [3; 2; 4; 4] [1; d01; d01; 2] [1; -1; 1; -1]%Z 0 3 in
  f_ticks_buy f = 1%Z /\ f_ticks_sell f = 2%Z /\ f_vol_buy f = 13421773 # 134217728 /\ f_vol_sell f = 4404019 # 2097152 /\
  f_max_spread f = 2 /\ f_cv_min f = - (2) /\ f_ct_max f = 0%Z /\ f_mean_spread f = Fin (1).
Proof. cbv zeta. repeat split; vm_compute; reflexivity. Qed.

Print Assumptions C137_rounding.
Print Assumptions C137_greedy.
Print Assumptions C137_clear.
Print Assumptions C137_integers.
Print Assumptions C137_prefix.
Print Assumptions C137_exact_closes_refuted.
Print Assumptions C138_conserve.
Print Assumptions C138_integers.
Print Assumptions C138_prefix.
Print Assumptions C138_exact_closes_refuted.
Print Assumptions C139_prices.
Print Assumptions C139_volume.
Print Assumptions C139_vwap.
Print Assumptions C139_vwap_range.
Print Assumptions C139_median.
Print Assumptions C139_integers.
Print Assumptions C139_shape.
Print Assumptions C139_vwap_in_range_refuted.
Print Assumptions C139_volume_exact_refuted.
Print Assumptions C140_sides.
Print Assumptions C140_extremes.
Print Assumptions C140_spread.
Print Assumptions C140_add_up.
Print Assumptions C140_add_up_exactly_refuted.
