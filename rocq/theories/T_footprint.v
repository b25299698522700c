(** T_footprint.v -- property theorems C17-C21 (finmlkit/bar/base.py footprints). *)
From Verif Require Import Base M_bars S_bars P_bars M_footprint S_footprint P_footprint.
Open Scope Q_scope.

Definition ex_fp_p : list Q := [10; 101 # 10; 99 # 10; 10; 102 # 10; 101 # 10].
Definition ex_fp_v : list Q := [1; 5; 2; 1; 7; 3].
Definition ex_fp_s : list Z := [1; 1; -1; -1; 1; -1]%Z.
Definition ex_fp_c : list Z := [-1; 5; 5]%Z.
Definition ex_fp := comp_bar_footprints ex_fp_p ex_fp_v ex_fp_c ex_fp_s (1 # 10) [99 # 10; 101 # 10] [102 # 10; 101 # 10] 2.

(** * C17  Conservation level by level *)
Theorem C17_levels : forall prices amounts closes sides tick lows highs mult fps k fp,
  comp_bar_footprints prices amounts closes sides tick lows highs mult = Ok fps -> nth_error fps k = Some fp ->
  let s := nth k closes 0%Z in let e := nth (S k) closes 0%Z in
  (-1 <= s <= e)%Z ->
  exists low high lev,
    rounds_to (nth k lows 0 / tick) low /\ rounds_to (nth k highs 0 / tick) high /\ (low <= high)%Z /\
    (forall j, (s < j <= e)%Z -> rounds_to (at_ prices j / tick) (lev j) /\ (low <= lev j <= high)%Z) /\
    ((- 2 ^ 31 <= low)%Z -> (high < 2 ^ 31)%Z -> fp_levels fp = zrange low (high + 1)) /\
    (let n := Z.to_nat (high - low + 1) in
     length (fp_levels fp) = n /\ length (fp_bv fp) = n /\ length (fp_sv fp) = n /\ length (fp_bt fp) = n /\ length (fp_st fp) = n /\
     forall i, (i < n)%nat ->
       nth i (fp_bv fp) 0 == level_sum sides lev 1 (low + Z.of_nat i) (at_ amounts) s e /\
       nth i (fp_sv fp) 0 == level_sum sides lev (-1) (low + Z.of_nat i) (at_ amounts) s e /\
       nth i (fp_bt fp) 0%Z = Z.of_nat (level_count sides lev 1 (low + Z.of_nat i) s e) /\
       nth i (fp_st fp) 0%Z = Z.of_nat (level_count sides lev (-1) (low + Z.of_nat i) s e)).
Proof. exact api_levels. Qed.
Theorem C17_totals : forall prices amounts closes sides tick lows highs mult fps k fp,
  comp_bar_footprints prices amounts closes sides tick lows highs mult = Ok fps -> nth_error fps k = Some fp ->
  let s := nth k closes 0%Z in let e := nth (S k) closes 0%Z in
  (-1 <= s <= e)%Z ->
  let d := bar_directional prices amounts sides s e in
  qsum (fp_bv fp) == f_vol_buy d /\ qsum (fp_sv fp) == f_vol_sell d /\
  fold_right Z.add 0%Z (fp_bt fp) = f_ticks_buy d /\ fold_right Z.add 0%Z (fp_st fp) = f_ticks_sell d.
Proof. exact api_fp_totals. Qed.
(** The rounding relation determines the level: prices have exactly one level. *)
Theorem C17_level_unique : forall x a b, rounds_to x a -> rounds_to x b -> a = b.
Proof. exact rounds_unique. Qed.
Example C17_example : exists a b, ex_fp = Ok [a; b] /\ fp_levels a = [99; 100; 101; 102]%Z /\ fp_levels b = [101]%Z /\
  fp_bt a = [0; 1; 1; 1]%Z /\ fp_st a = [1; 1; 1; 0]%Z /\ qsum (fp_bv a) == 13 /\ nth 3 (fp_bv a) 0 == 7 /\ rounds_to (5 # 2) 2.
Proof. do 2 eexists. split; [vm_compute; reflexivity|]. repeat split; vm_compute; try reflexivity; congruence. Qed.

(** * C18  No failure on the builder's own bars *)
Theorem C18_builder_ok : forall prices amounts closes sides tick mult bars,
  comp_bar_ohlcv prices amounts closes = Ok bars -> 0 < tick -> ascZ closes -> (-1 <= hd 0 closes)%Z ->
  exists fps, comp_bar_footprints prices amounts closes sides tick (map b_low bars) (map b_high bars) mult = Ok fps.
Proof. exact fps_builder. Qed.
Theorem C18_only_value_errors : forall prices amounts closes sides tick lows highs mult x, ~ tick == 0 ->
  comp_bar_footprints prices amounts closes sides tick lows highs mult = Raise x -> x = ValueError.
Proof.
  intros prices amounts closes sides tick lows highs mult x Ht H. apply run_all_raise in H. destruct H as [k [_ H]].
  eapply bar_fp_raise; eauto.
Qed.
(** A trade whose level lies outside the bar's level range always raises. *)
Theorem C18_out_of_range_raises : forall prices amounts closes sides tick lows highs mult k j low high l, ~ tick == 0 ->
  (S k < length closes)%nat -> (-1 <= nth k closes 0 < j)%Z -> (j <= nth (S k) closes 0)%Z ->
  rounds_to (nth k lows 0 / tick) low -> rounds_to (nth k highs 0 / tick) high -> rounds_to (at_ prices j / tick) l ->
  ~ (low <= l <= high)%Z ->
  comp_bar_footprints prices amounts closes sides tick lows highs mult = Raise ValueError.
Proof.
  intros prices amounts closes sides tick lows highs mult k j low high l Ht Hk Hj Hje R1 R2 R3 Hout.
  destruct (comp_bar_footprints _ _ _ _ _ _ _ _) as [fps|x] eqn:E; [exfalso|f_equal; eapply C18_only_value_errors; eauto].
  pose proof (run_all_nth _ _ _ E) as [L _]. rewrite seq_length in L.
  destruct (nth_error fps k) as [fp|] eqn:F; [|apply nth_error_None in F; lia].
  pose proof (fps_nth _ _ _ _ _ _ _ _ _ _ _ E F) as B. apply bar_fp in B; [|lia].
  destruct B as [_ [_ [B _]]]. specialize (B j ltac:(lia)).
  rewrite (rounds_unique _ _ _ R1 (rhe_spec _)), (rounds_unique _ _ _ R2 (rhe_spec _)), (rounds_unique _ _ _ R3 (rhe_spec _)) in Hout.
  contradiction.
Qed.
Example C18_example : exists bars fps, comp_bar_ohlcv ex_fp_p ex_fp_v ex_fp_c = Ok bars /\ ascZ ex_fp_c /\
  comp_bar_footprints ex_fp_p ex_fp_v ex_fp_c ex_fp_s (3 # 10) (map b_low bars) (map b_high bars) 2 = Ok fps /\ length fps = 2%nat.
Proof.
  do 2 eexists. split; [vm_compute; reflexivity|]. split.
  - intros i j H. simpl in H. destruct i as [|[|[|]]], j as [|[|[|]]]; simpl; lia.
  - split; vm_compute; reflexivity.
Qed.
Example C18_out_example : comp_bar_footprints [10; 12] [1; 1] [-1; 1]%Z [1; 1]%Z 1 [10] [11] 2 = Raise ValueError /\
  rounds_to (12 / 1) 12 /\ rounds_to (11 / 1) 11.
Proof. repeat split; vm_compute; try reflexivity; congruence. Qed.
(** A zero tick size divides by zero as soon as there is a bar. *)
Theorem C18_zero_tick : forall prices amounts closes sides tick lows highs mult, tick == 0 -> (2 <= length closes)%nat ->
  comp_bar_footprints prices amounts closes sides tick lows highs mult = Raise ZeroDivisionError.
Proof.
  intros prices amounts closes sides tick lows highs mult Ht Hl. unfold comp_bar_footprints.
  destruct (length closes - 1)%nat as [|m] eqn:E; [lia|]. cbn [seq run_all]. unfold bar_footprint.
  destruct (Qeqb_spec tick 0) as [_|]; [reflexivity|contradiction].
Qed.

(** * C19  Diagonal imbalance flags *)
Theorem C19_flags : forall prices amounts closes sides tick lows highs mult fps k fp,
  comp_bar_footprints prices amounts closes sides tick lows highs mult = Ok fps -> nth_error fps k = Some fp ->
  let s := nth k closes 0%Z in let e := nth (S k) closes 0%Z in
  (-1 <= s <= e)%Z ->
  let n := length (fp_levels fp) in
  length (fp_bi fp) = n /\ length (fp_si fp) = n /\
  (forall i, (i < n)%nat -> nth i (fp_bi fp) false = true <-> (1 <= i)%nat /\ mult * nth (i - 1) (fp_sv fp) 0 < nth i (fp_bv fp) 0) /\
  (forall i, (i < n)%nat -> nth i (fp_si fp) false = true <-> (S i < n)%nat /\ mult * nth (S i) (fp_bv fp) 0 < nth i (fp_sv fp) 0) /\
  ((Z.of_nat n < 65536)%Z ->
   fp_bi_sum fp = Z.of_nat (length (filter (fun b => b) (fp_bi fp))) /\
   fp_si_sum fp = Z.of_nat (length (filter (fun b => b) (fp_si fp)))).
Proof. exact api_flags. Qed.
Example C19_example : exists a b, ex_fp = Ok [a; b] /\ fp_bi a = [false; false; true; true]%bool /\ fp_si a = [false; false; false; false]%bool /\
  fp_bi_sum a = 2%Z /\ fp_bi b = [false]%bool.
Proof. do 2 eexists. split; [vm_compute; reflexivity|]. repeat split; vm_compute; reflexivity. Qed.

(** * C20  Longest run *)
Theorem C20_max_run : forall prices amounts closes sides tick lows highs mult fps k fp,
  comp_bar_footprints prices amounts closes sides tick lows highs mult = Ok fps -> nth_error fps k = Some fp ->
  (-1 <= nth k closes 0 <= nth (S k) closes 0)%Z ->
  let n := length (fp_levels fp) in
  (Z.of_nat n < 32768)%Z ->
  let sgn := imb_sign (fp_bi fp) (fp_si fp) in
  (forall a len sg, is_run sgn n a len sg -> (Z.of_nat len <= Z.abs (fp_run fp))%Z) /\
  (fp_run fp <> 0%Z -> exists a, is_run sgn n a (Z.to_nat (Z.abs (fp_run fp))) (Z.sgn (fp_run fp)) /\
     forall b sg, is_run sgn n b (Z.to_nat (Z.abs (fp_run fp))) sg -> (a <= b)%nat) /\
  (fp_run fp = 0%Z <-> forall i, (i < n)%nat -> nth i (fp_bi fp) false = false /\ nth i (fp_si fp) false = false).
Proof. exact api_run. Qed.
Example C20_example : (exists a b, ex_fp = Ok [a; b] /\ fp_run a = 2%Z /\ fp_run b = 0%Z) /\
  max_run [true; false; false; false]%bool [false; true; true; false]%bool 4 = (-2)%Z.
Proof. split; [|reflexivity]. do 2 eexists. split; [vm_compute; reflexivity|]. repeat split; vm_compute; reflexivity. Qed.

(** * C21  COT level, skew, Gini *)
Theorem C21_profile : forall prices amounts closes sides tick lows highs mult fps k fp,
  comp_bar_footprints prices amounts closes sides tick lows highs mult = Ok fps -> nth_error fps k = Some fp ->
  (-1 <= nth k closes 0 <= nth (S k) closes 0)%Z ->
  let n := length (fp_levels fp) in
  let tot i := nth i (fp_bv fp) 0 + nth i (fp_sv fp) 0 in
  (exists c, (c < n)%nat /\ fp_cot fp = nth c (fp_levels fp) 0%Z /\
     (forall i, (i < n)%nat -> tot i <= tot c) /\ (forall i, (i < c)%nat -> tot i < tot c)) /\
  fp_skew fp == 0 /\
  (let V := qsum (map tot (seq 0 n)) in
   (V <= 0 -> fp_gini fp = 0) /\ (0 < V -> (1 - fp_gini fp) * V * V == qsum (map (fun i => tot i * tot i) (seq 0 n)))) /\
  ((forall x, In x amounts -> 0 <= x) -> 0 <= fp_gini fp < 1).
Proof. exact api_profile. Qed.
Example C21_example : exists a b, ex_fp = Ok [a; b] /\ fp_cot a = 101%Z /\ fp_skew a == 0 /\ fp_gini a == 240 # 361 /\ fp_gini b == 0.
Proof. do 2 eexists. split; [vm_compute; reflexivity|]. repeat split; vm_compute; reflexivity. Qed.

Print Assumptions C17_levels.
Print Assumptions C17_totals.
Print Assumptions C17_level_unique.
Print Assumptions C18_builder_ok.
Print Assumptions C18_only_value_errors.
Print Assumptions C18_out_of_range_raises.
Print Assumptions C18_zero_tick.
Print Assumptions C19_flags.
Print Assumptions C20_max_run.
Print Assumptions C21_profile.
