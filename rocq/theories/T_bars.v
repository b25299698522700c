(** T_bars.v -- property theorems C09-C16 and C79 (finmlkit/bar/base.py). *)
From Verif Require Import Base M_bars S_bars P_sort P_bars.
Open Scope Q_scope.

Definition ex_p : list Q := [10; 12; 9; 11; 11; 8].
Definition ex_v : list Q := [1; 2; 1; 3; 0; 4].
Definition ex_s : list Z := [1; 1; -1; 1; 0; -1]%Z.
Definition ex_c : list Z := [-1; 2; 2; 5]%Z.

(** * C09  OHLC values *)
Theorem C09_ohlc : forall prices vols closes bars k b,
  comp_bar_ohlcv prices vols closes = Ok bars -> nth_error bars k = Some b ->
  let s := nth k closes 0%Z in let e := nth (S k) closes 0%Z in
  (-1 <= s < e)%Z ->
  b_open b = at_ prices (s + 1) /\ b_close b = at_ prices e /\
  is_max (at_ prices) (fun _ => True) s e (b_high b) /\ is_min (at_ prices) (fun _ => True) s e (b_low b) /\
  b_trades b = (e - s)%Z /\ b_volume b == bsum (at_ vols) s e /\
  (0 < b_volume b -> b_vwap b * b_volume b == bsum (fun j => at_ prices j * at_ vols j) s e) /\
  (b_volume b <= 0 -> b_vwap b == 0).
Proof. exact api_ohlc. Qed.
Theorem C09_order : forall prices vols closes bars k b,
  comp_bar_ohlcv prices vols closes = Ok bars -> nth_error bars k = Some b ->
  let s := nth k closes 0%Z in let e := nth (S k) closes 0%Z in
  (-1 <= s < e)%Z ->
  b_low b <= b_open b <= b_high b /\ b_low b <= b_close b <= b_high b /\
  ((forall x, In x vols -> 0 <= x) -> 0 < b_volume b -> b_low b <= b_vwap b <= b_high b).
Proof. exact api_ohlc_order. Qed.
Theorem C09_errors : forall prices vols closes,
  (forall bars, comp_bar_ohlcv prices vols closes = Ok bars -> S (length bars) = length closes) /\
  (comp_bar_ohlcv prices vols closes = Raise ValueError <-> (length prices <> length vols \/ (length closes < 2)%nat)) /\
  (forall x, comp_bar_ohlcv prices vols closes = Raise x -> x = ValueError).
Proof. exact api_length. Qed.
Example C09_example : exists b0 b1 b2, comp_bar_ohlcv ex_p ex_v ex_c = Ok [b0; b1; b2] /\
  b_open b0 = 10 /\ b_close b0 = 9 /\ b_high b0 = 12 /\ b_low b0 = 9 /\ b_trades b0 = 3%Z /\ b_volume b0 == 4 /\ b_vwap b0 == 43 # 4.
Proof. do 3 eexists. repeat split; vm_compute; reflexivity. Qed.

(** * C10  Empty bars *)
Theorem C10_empty_bar : forall prices vols closes bars k b,
  comp_bar_ohlcv prices vols closes = Ok bars -> nth_error bars k = Some b ->
  let s := nth k closes 0%Z in let e := nth (S k) closes 0%Z in
  (0 <= s)%Z -> s = e ->
  b = mkOhlcv (at_ prices s) (at_ prices s) (at_ prices s) (at_ prices s) 0 0 0 0.
Proof. exact api_empty. Qed.
Example C10_example : exists b0 b2, comp_bar_ohlcv ex_p ex_v ex_c = Ok [b0; mkOhlcv 9 9 9 9 0 0 0 0; b2] /\ nth 1 ex_c 0%Z = 2%Z.
Proof. do 2 eexists. split; vm_compute; reflexivity. Qed.
(** An empty bar before the first trade (close index -1) reports the LAST price of the data. *)
Theorem C10_leading_empty_refuted : exists prices vols closes bars b,
  comp_bar_ohlcv prices vols closes = Ok bars /\ nth_error bars 0 = Some b /\
  nth 0 closes 0%Z = nth 1 closes 0%Z /\ b_trades b = 0%Z /\
  b_open b = last prices 0 /\ ~ b_open b == hd 0 prices.
Proof.
  exists [1; 2; 7], [1; 1; 1], [-1; -1; 2]%Z. do 2 eexists. split; [vm_compute; reflexivity|].
  split; [reflexivity|]. repeat split. vm_compute. discriminate.
Qed.

(** * C11  Conservation over bars *)
Theorem C11_totals : forall prices vols closes bars,
  comp_bar_ohlcv prices vols closes = Ok bars ->
  ascZ closes -> (-1 <= hd 0 closes)%Z ->
  let c0 := hd 0%Z closes in let cl := last closes 0%Z in
  fold_right Z.add 0%Z (map b_trades bars) = (cl - c0)%Z /\
  qsum (map b_volume bars) == bsum (at_ vols) c0 cl /\
  ((forall x, In x vols -> 0 <= x) ->
   qsum (map (fun b => b_vwap b * b_volume b) bars) == bsum (fun j => at_ prices j * at_ vols j) c0 cl).
Proof. exact api_totals. Qed.
Example C11_example : exists bars, comp_bar_ohlcv ex_p ex_v ex_c = Ok bars /\ ascZ ex_c /\
  fold_right Z.add 0%Z (map b_trades bars) = 6%Z /\ qsum (map b_volume bars) == 11 /\
  qsum (map (fun b => b_vwap b * b_volume b) bars) == 108.
Proof.
  eexists. split; [vm_compute; reflexivity|]. split; [|repeat split; vm_compute; reflexivity].
  intros i j H. unfold ex_c in *. simpl in H.
  do 4 (destruct i as [|i]; [do 4 (destruct j as [|j]; [simpl; lia|]); lia|]). lia.
Qed.

(** * C12  Median trade size *)
Theorem C12_median : forall prices vols closes bars k b,
  comp_bar_ohlcv prices vols closes = Ok bars -> nth_error bars k = Some b ->
  let s := nth k closes 0%Z in let e := nth (S k) closes 0%Z in
  (-1 <= s < e)%Z -> (e < Z.of_nat (length vols))%Z ->
  let xs := slice vols (s + 1) (e + 1) in
  (length xs <= 2 * count (fun x => Qleb x (b_median b)) xs)%nat /\
  (length xs <= 2 * count (fun x => Qleb (b_median b) x) xs)%nat /\
  (forall lo hi, (forall x, In x xs -> lo <= x <= hi) -> lo <= b_median b <= hi) /\
  (forall srt, Permutation xs srt -> ascQ srt ->
     b_median b == (nth ((length xs - 1) / 2) srt 0 + nth (length xs / 2) srt 0) / 2).
Proof. exact api_median. Qed.
Example C12_example : exists bars b, comp_bar_ohlcv ex_p ex_v [-1; 3]%Z = Ok bars /\ nth_error bars 0 = Some b /\
  b_median b == 3 # 2 /\ slice ex_v 0 4 = [1; 2; 1; 3].
Proof. do 2 eexists. repeat split; vm_compute; reflexivity. Qed.

(** * C13  Buy and sell parts *)
Theorem C13_parts : forall prices vols sides closes k d,
  nth_error (comp_bar_directional prices vols sides closes) k = Some d ->
  let s := nth k closes 0%Z in let e := nth (S k) closes 0%Z in
  (-1 <= s <= e)%Z ->
  f_ticks_buy d = Z.of_nat (bcount sides 1 s e) /\ f_ticks_sell d = Z.of_nat (bcount sides (-1) s e) /\
  f_vol_buy d == side_sum sides 1 (at_ vols) s e /\ f_vol_sell d == side_sum sides (-1) (at_ vols) s e /\
  f_dol_buy d == side_sum sides 1 (fun j => at_ prices j * at_ vols j) s e /\
  f_dol_sell d == side_sum sides (-1) (fun j => at_ prices j * at_ vols j) s e.
Proof.
  intros prices vols sides closes k d H s e Hse. rewrite (api_dir _ _ _ _ _ _ H). now apply dir_parts.
Qed.
Theorem C13_add_up : forall prices vols sides closes bars k d b,
  nth_error (comp_bar_directional prices vols sides closes) k = Some d ->
  comp_bar_ohlcv prices vols closes = Ok bars -> nth_error bars k = Some b ->
  let s := nth k closes 0%Z in let e := nth (S k) closes 0%Z in
  (-1 <= s <= e)%Z -> (forall j, (s < j <= e)%Z -> zat sides j = 1%Z \/ zat sides j = (-1)%Z) ->
  (forall x, In x vols -> 0 <= x) ->
  (f_ticks_buy d + f_ticks_sell d = b_trades b)%Z /\
  f_vol_buy d + f_vol_sell d == b_volume b /\
  f_dol_buy d + f_dol_sell d == b_vwap b * b_volume b.
Proof.
  intros prices vols sides closes bars k d b H Hb Hk s e Hse Hs Hq. rewrite (api_dir _ _ _ _ _ _ H).
  apply comp_ohlcv_ok in Hb. destruct Hb as [_ [_ ->]]. apply nth_error_map_seq in Hk. destruct Hk as [_ ->].
  now apply dir_parts_total.
Qed.
Example C13_example : exists d0 d1 d2, comp_bar_directional ex_p ex_v ex_s ex_c = [d0; d1; d2] /\
  f_ticks_buy d0 = 2%Z /\ f_ticks_sell d0 = 1%Z /\ f_vol_buy d0 == 3 /\ f_dol_buy d0 == 34 /\ f_dol_sell d0 == 9 /\
  f_ticks_buy d2 = 1%Z /\ f_ticks_sell d2 = 1%Z /\ f_vol_sell d2 == 4.
Proof. do 3 eexists. repeat split; vm_compute; reflexivity. Qed.

(** * C14  Cumulative imbalance extremes *)
Theorem C14_extremes : forall prices vols sides closes k d,
  nth_error (comp_bar_directional prices vols sides closes) k = Some d ->
  let s := nth k closes 0%Z in let e := nth (S k) closes 0%Z in
  (-1 <= s <= e)%Z ->
  let B := 1000000000 in
  let ticks j := inject_Z (Z.of_nat (bcount sides 1 s j) - Z.of_nat (bcount sides (-1) s j)) in
  let dol := net sides (fun j => at_ prices j * at_ vols j) s in
  ((exists j, (s < j <= e)%Z /\ sided sides j) ->
   ((forall j, (s < j <= e)%Z -> sided sides j -> - B <= ticks j <= B) ->
      is_min ticks (sided sides) s e (inject_Z (f_ct_min d)) /\ is_max ticks (sided sides) s e (inject_Z (f_ct_max d))) /\
   ((forall j, (s < j <= e)%Z -> sided sides j -> - B <= net sides (at_ vols) s j <= B) ->
      is_min (net sides (at_ vols) s) (sided sides) s e (f_cv_min d) /\ is_max (net sides (at_ vols) s) (sided sides) s e (f_cv_max d)) /\
   ((forall j, (s < j <= e)%Z -> sided sides j -> - B <= dol j <= B) ->
      is_min dol (sided sides) s e (f_cd_min d) /\ is_max dol (sided sides) s e (f_cd_max d))) /\
  ((forall j, (s < j <= e)%Z -> ~ sided sides j) ->
   f_ct_min d = 1000000000%Z /\ f_ct_max d = (-1000000000)%Z /\ f_cv_min d = B /\ f_cv_max d = - B /\ f_cd_min d = B /\ f_cd_max d = - B).
Proof.
  intros prices vols sides closes k d H s e Hse. rewrite (api_dir _ _ _ _ _ _ H). now apply dir_extremes.
Qed.
(** Beyond the sentinel the extremes are wrong: a bar whose running dollar imbalance stays above 1e9. *)
Theorem C14_sentinel_refuted : exists prices vols sides d,
  nth_error (comp_bar_directional prices vols sides [-1; 0]%Z) 0 = Some d /\ zat sides 0 = 1%Z /\
  net sides (fun j => at_ prices j * at_ vols j) (-1) 0 == 60000 * 50000 /\ ~ f_cd_min d == 60000 * 50000.
Proof.
  exists [60000], [50000], [1%Z]. eexists. split; [vm_compute; reflexivity|]. split; [reflexivity|]. split; [reflexivity|].
  vm_compute. discriminate.
Qed.
Example C14_example : exists d0 d1 d2, comp_bar_directional ex_p ex_v ex_s ex_c = [d0; d1; d2] /\
  f_ct_min d0 = 1%Z /\ f_ct_max d0 = 2%Z /\ f_cv_max d0 == 3 /\ f_cd_min d2 == 1 /\ f_cd_max d2 == 33 /\
  f_ct_min d1 = 1000000000%Z /\ (exists j, (2 < j <= 5)%Z /\ sided ex_s j).
Proof.
  do 3 eexists. split; [vm_compute; reflexivity|]. repeat (split; [vm_compute; reflexivity|]).
  exists 3%Z. split; [lia|]. left. reflexivity.
Qed.

(** * C15  Locality *)
Theorem C15_locality : forall prices vols sides prices' vols' sides' closes k d,
  nth_error (comp_bar_directional prices vols sides closes) k = Some d ->
  let s := nth k closes 0%Z in let e := nth (S k) closes 0%Z in
  (0 <= s)%Z ->
  (forall j, (s <= j <= e)%Z -> at_ prices j = at_ prices' j /\ at_ vols j = at_ vols' j /\ zat sides j = zat sides' j) ->
  nth_error (comp_bar_directional prices' vols' sides' closes) k = Some d.
Proof.
  intros prices vols sides prices' vols' sides' closes k d H s e Hs Ha.
  pose proof (api_dir _ _ _ _ _ _ H) as E. rewrite E.
  unfold comp_bar_directional in *. rewrite nth_error_map in *. destruct (nth_error (seq 0 (length closes - 1)) k) eqn:En; [|discriminate].
  assert (Ek : n = k).
  { assert (k < length (seq 0 (length closes - 1)))%nat by (apply nth_error_Some; congruence).
    rewrite (nth_error_nth' _ O) in En by auto. rewrite seq_length in H0. rewrite seq_nth in En by auto. cbn in En. congruence. }
  subst n. cbn. f_equal. symmetry. now apply bar_directional_local.
Qed.
(** The first bar starting at trade 0 looks at the last trade of the data (index -1). *)
Theorem C15_first_bar_refuted : exists prices vols sides sides' closes d d',
  (forall j, (0 <= j <= nth 1 closes 0)%Z -> zat sides j = zat sides' j) /\ nth 0 closes 0%Z = (-1)%Z /\
  nth_error (comp_bar_directional prices vols sides closes) 0 = Some d /\
  nth_error (comp_bar_directional prices vols sides' closes) 0 = Some d' /\
  ~ f_max_spread d == f_max_spread d'.
Proof.
  exists [10; 11; 30], [1; 1; 1], [1; 1; 1]%Z, [1; 1; -1]%Z, [-1; 1; 2]%Z. do 2 eexists. split; [|split; [reflexivity|split; [vm_compute; reflexivity|split; [vm_compute; reflexivity|]]]].
  - intros j Hj. change (nth 1 [-1; 1; 2]%Z 0%Z) with 1%Z in Hj. assert (j = 0%Z \/ j = 1%Z) as [-> | ->] by lia; reflexivity.
  - vm_compute. discriminate.
Qed.
Example C15_example : exists d, nth_error (comp_bar_directional ex_p ex_v ex_s ex_c) 2 = Some d /\
  nth_error (comp_bar_directional (77 :: 78 :: skipn 2 ex_p) ex_v ex_s ex_c) 2 = Some d /\ f_max_spread d == 3.
Proof. eexists. repeat split; vm_compute; reflexivity. Qed.

(** * C79  Spread features *)
Theorem C79_spread : forall prices vols sides closes k d,
  nth_error (comp_bar_directional prices vols sides closes) k = Some d ->
  let s := nth k closes 0%Z in let e := nth (S k) closes 0%Z in
  (0 <= s)%Z -> (s + 1 < e)%Z ->
  let flip j := if (zat sides j =? zat sides (j - 1))%Z then 0 else Qabs (at_ prices j - at_ prices (j - 1)) in
  let n := (Z.of_nat (bcount sides 1 s e) + Z.of_nat (bcount sides (-1) s e))%Z in
  ((0 < n)%Z -> exists m, f_mean_spread d = Fin m /\ m * inject_Z n == bsum flip s e) /\
  (forall j, (s < j <= e)%Z -> flip j <= f_max_spread d) /\
  (f_max_spread d = 0 \/ exists j, (s < j <= e)%Z /\ zat sides j <> zat sides (j - 1) /\
     f_max_spread d = Qabs (at_ prices j - at_ prices (j - 1))).
Proof.
  intros prices vols sides closes k d H s e Hs He. rewrite (api_dir _ _ _ _ _ _ H). now apply dir_spread.
Qed.
(** A bar of one trade reports a spread even when the side did not change. *)
Theorem C79_single_trade_refuted : exists prices vols sides closes d,
  nth_error (comp_bar_directional prices vols sides closes) 0 = Some d /\
  nth 0 closes 0%Z = 0%Z /\ nth 1 closes 0%Z = 1%Z /\ zat sides 0 = zat sides 1 /\ 0 < f_max_spread d.
Proof.
  exists [10; 12], [1; 1], [1; 1]%Z, [0; 1]%Z. eexists. split; [vm_compute; reflexivity|].
  repeat split.
Qed.
(** A bar without sided trades has a NaN mean spread (0 / 0) or an infinite one. *)
Theorem C79_no_sided : forall prices vols sides closes k d,
  nth_error (comp_bar_directional prices vols sides closes) k = Some d ->
  let s := nth k closes 0%Z in let e := nth (S k) closes 0%Z in
  (-1 <= s <= e)%Z -> (forall j, (s < j <= e)%Z -> ~ sided sides j) ->
  f_mean_spread d = NaN \/ f_mean_spread d = PInf.
Proof.
  intros prices vols sides closes k d H s e Hse Hn.
  assert (Z0 : forall sg, (sg = 1 \/ sg = -1)%Z -> bcount sides sg s e = 0%nat).
  { intros sg Hsg. unfold bcount.
    assert (G : forall l, (forall j, In j l -> (s < j <= e)%Z) -> filter (fun j => (zat sides j =? sg)%Z) l = []).
    { induction l as [|j l IH]; intro Hl; [reflexivity|]. cbn [filter].
      destruct (Z.eqb_spec (zat sides j) sg) as [E|E].
      - exfalso. apply (Hn j); [apply Hl; now left|]. unfold sided. destruct Hsg as [-> | ->]; auto.
      - apply IH. intros i Hi. apply Hl. now right. }
    rewrite G; [reflexivity|]. intros j Hj. apply in_zrange in Hj. lia. }
  rewrite (api_dir _ _ _ _ _ _ H). fold s e.
  pose proof (dir_parts prices vols sides s e Hse) as K. cbv zeta in K. destruct K as [K1 [K2 _]].
  unfold bar_directional in *. cbn [f_ticks_buy f_ticks_sell f_mean_spread] in *. rewrite K1, K2, !Z0 by auto.
  unfold div_count. change (Z.of_nat 0 + Z.of_nat 0 =? 0)%Z with true. cbv iota.
  destruct (Qltb _ _); auto.
Qed.
Example C79_example : exists d m, nth_error (comp_bar_directional ex_p ex_v ex_s ex_c) 2 = Some d /\
  f_mean_spread d = Fin m /\ m == 5 # 2 /\ f_max_spread d == 3.
Proof. do 2 eexists. repeat split; vm_compute; reflexivity. Qed.

(** * C16  Trade-size features *)
Theorem C16_ranges : forall log1p amounts theta closes mult zs k z,
  comp_bar_size log1p amounts theta closes mult = Ok zs -> nth_error zs k = Some z ->
  let s := nth k closes 0%Z in let e := nth (S k) closes 0%Z in let th := nth k theta 0 in
  0 < th -> 0 < mult -> (forall x, In x amounts -> 0 <= x) ->
  (-1 <= s < e)%Z -> (e < Z.of_nat (length amounts))%Z ->
  let V := bsum (at_ amounts) s e in
  z_mean z <> None /\ z_p95 z <> None /\
  (V == 0 -> z_block z = None /\ z_gini z = None) /\
  (0 < V ->
    (exists b, z_block z = Some b /\ 0 <= b <= 1 /\
       b * V == bsum (fun j => if Qltb (th * mult) (at_ amounts j) then at_ amounts j else 0) s e) /\
    (exists g, z_gini z = Some g /\ 0 <= g < 1 /\ ((e = s + 1)%Z -> g == 0) /\
       (1 - g) * V * V == bsum (fun j => at_ amounts j * at_ amounts j) s e)).
Proof.
  intros log1p amounts theta closes mult zs k z H Hk s e th H1 H2 H3 H4 H5.
  unfold comp_bar_size in H. destruct (negb _); [discriminate|]. injection H as <-.
  apply nth_error_map_seq in Hk. destruct Hk as [_ ->]. now apply size_api.
Qed.
Theorem C16_nan : forall log1p amounts theta closes mult zs k z,
  comp_bar_size log1p amounts theta closes mult = Ok zs -> nth_error zs k = Some z ->
  (nth (S k) closes 0 <= nth k closes 0)%Z \/ nth k theta 0 == 0 ->
  z = mkSize None None None None.
Proof.
  intros log1p amounts theta closes mult zs k z H Hk Hn.
  unfold comp_bar_size in H. destruct (negb _); [discriminate|]. injection H as <-.
  apply nth_error_map_seq in Hk. destruct Hk as [_ ->]. now apply size_nan.
Qed.
(** The mean and the 95th percentile are taken relative to theta * theta_mult. *)
Theorem C16_relative : forall log1p amounts theta closes mult zs k z,
  comp_bar_size log1p amounts theta closes mult = Ok zs -> nth_error zs k = Some z ->
  let s := nth k closes 0%Z in let e := nth (S k) closes 0%Z in let th := nth k theta 0 in
  ~ th == 0 -> (-1 <= s < e)%Z -> (e < Z.of_nat (length amounts))%Z ->
  (forall x y, x == y -> log1p x == log1p y) ->
  exists m q95, z_mean z = Some m /\ z_p95 z = Some q95 /\
    m == log1p (bsum (at_ amounts) s e / inject_Z (e - s) / (th * mult)) /\
    exists v, q95 == log1p (v / (th * mult)) /\
      let xs := slice amounts (s + 1) (e + 1) in
      forall srt, Permutation xs srt -> ascQ srt -> exists i, (i < length xs)%nat /\
        Qnat i <= Qnat (length xs - 1) * 95 / 100 < Qnat i + 1 /\
        nth i srt 0 <= v <= nth (Nat.min (S i) (length xs - 1)) srt 0 /\
        v == nth i srt 0 + (Qnat (length xs - 1) * 95 / 100 - Qnat i) *
               (nth (Nat.min (S i) (length xs - 1)) srt 0 - nth i srt 0).
Proof.
  intros log1p amounts theta closes mult zs k z H Hk s e th H1 H2 H3 H4.
  unfold comp_bar_size in H. destruct (negb _); [discriminate|]. injection H as <-.
  apply nth_error_map_seq in Hk. destruct Hk as [_ ->]. now apply size_mean.
Qed.
(** The docstring promises log1p(mean / theta); the code divides by theta * theta_mult. *)
Theorem C16_relative_to_theta_refuted : exists amounts theta closes mult z m,
  comp_bar_size (fun x => x) amounts theta closes mult = Ok [z] /\ z_mean z = Some m /\
  ~ m == (qsum amounts / Qnat (length amounts)) / nth 0 theta 0.
Proof.
  exists [1; 3], [1], [-1; 1]%Z, 5. do 2 eexists. split; [vm_compute; reflexivity|]. split; [reflexivity|].
  vm_compute. discriminate.
Qed.
Example C16_example : exists z0 z1 z2 b g, comp_bar_size (fun x => x) ex_v [1; 1; 1] ex_c 2 = Ok [z0; z1; z2] /\
  z1 = mkSize None None None None /\ z_block z2 = Some b /\ b == 1 /\ z_gini z0 = Some g /\ g == 5 # 8.
Proof. do 5 eexists. repeat split; vm_compute; reflexivity. Qed.

Print Assumptions C09_ohlc.
Print Assumptions C09_order.
Print Assumptions C09_errors.
Print Assumptions C10_empty_bar.
Print Assumptions C10_leading_empty_refuted.
Print Assumptions C11_totals.
Print Assumptions C12_median.
Print Assumptions C13_parts.
Print Assumptions C13_add_up.
Print Assumptions C14_extremes.
Print Assumptions C14_sentinel_refuted.
Print Assumptions C15_locality.
Print Assumptions C15_first_bar_refuted.
Print Assumptions C79_spread.
Print Assumptions C79_single_trade_refuted.
Print Assumptions C79_no_sided.
Print Assumptions C16_ranges.
Print Assumptions C16_nan.
Print Assumptions C16_relative.
Print Assumptions C16_relative_to_theta_refuted.
