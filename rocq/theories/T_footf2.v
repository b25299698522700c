(** T_footf2.v -- property C192: [comp_bar_footprints] (finmlkit/bar/base.py) end to end in float32 and float64 arithmetic. *)
From Verif Require Import Base M_logic S_logic M_bars S_bars M_footprint M_features M_float M_float11 M_float12 M_float14 S_float S_footprint S_footf.
From Verif Require Import P_sort P_bars P_footprint P_weights P_float P_float5 P_float6 P_float8 P_footf P_footf2 P_footf3.
Open Scope Q_scope.

(** Two bars of 0.1 ticks with amounts in 1/8 lots, and the float64 nearest to 0.1. *)
Definition ex_px : list Q := [d01' * 1000; d01' * 1001; d01' * 1002; d01' * 1001; d01' * 1001].
Definition ex_am : list Q := [1 # 8; 2; 80; 3; 16777216].
Definition ex_sd : list Z := [-1; -1; 1; 1; 1]%Z.
Definition ex_fps : result (list footprint) :=
  comp_bar_footprints_f dot24 ex_px ex_am [-1; 3; 4]%Z ex_sd d01' [d01' * 1000; d01' * 1001] [d01' * 1002; d01' * 1001] 3.
Lemma ex_levels : levels_of d01' (d01' * 1000) (d01' * 1002) ex_px (-1) 3 1000 1002 (fun j => nth (Z.to_nat j) [1000; 1001; 1002; 1001]%Z 0%Z).
Proof.
  split; [split; [vm_compute; discriminate|vm_compute; auto]|]. split; [split; [vm_compute; discriminate|vm_compute; auto]|].
  intros j Hj. assert (J : j = 0%Z \/ j = 1%Z \/ j = 2%Z \/ j = 3%Z) by lia. destruct J as [->|[->|[->| ->]]]; (split; [vm_compute; discriminate|vm_compute; try discriminate; auto]).
Qed.

(** On the bars of [comp_bar_ohlcv] every footprint is computed; a zero tick and a price outside the bar are the only errors. *)
Theorem C192_builder : forall dot prices amounts closes sides tick mult bars,
  comp_bar_ohlcv prices amounts closes = Ok bars -> 0 < tick -> ascZ closes -> (-1 <= hd 0 closes)%Z ->
  exists fps, comp_bar_footprints_f dot prices amounts closes sides tick (map b_low bars) (map b_high bars) mult = Ok fps /\ length fps = (length closes - 1)%nat.
Proof.
  intros dot prices amounts closes sides tick mult bars H Ht Ha H0. apply comp_ohlcv_ok in H. destruct H as [_ [_ ->]].
  match goal with |- exists fps, ?c = _ /\ _ => assert (K : exists fps, c = Ok fps) end.
  - apply run_all_ok. intros k Hk. apply in_seq in Hk. set (f := fun k => bar_ohlcv prices amounts (nth k closes 0%Z) (nth (S k) closes 0%Z)). rewrite !map_map. fold f.
    rewrite (nth_map_seq 0 (fun k => b_low (f k))), (nth_map_seq 0 (fun k => b_high (f k))) by lia.
    assert (A : (-1 <= nth k closes 0 <= nth (S k) closes 0)%Z).
    { split; [|apply (Ha k (S k)); lia]. pose proof (Ha 0%nat k ltac:(lia)) as H1. destruct closes; simpl in *; lia. }
    unfold f. destruct (Z.eq_dec (nth k closes 0%Z) (nth (S k) closes 0%Z)) as [E|Hne].
    + apply bar_fpf_ok; [exact A|exact Ht| |].
      * unfold bar_ohlcv. rewrite <- E, Z.eqb_refl. simpl. lra.
      * intros j Hj. lia.
    + pose proof (bar_ohlcv_spec prices amounts (nth k closes 0%Z) (nth (S k) closes 0%Z) ltac:(lia)) as K. cbv zeta in K.
      destruct K as [_ [_ [[_ Hh] [[_ Hl] _]]]]. apply bar_fpf_ok; [exact A|exact Ht| |].
      * pose proof (Hh (nth (S k) closes 0%Z) ltac:(lia) I). pose proof (Hl (nth (S k) closes 0%Z) ltac:(lia) I). lra.
      * intros j Hj. pose proof (Hh j Hj I). pose proof (Hl j Hj I). lra.
  - destruct K as [fps E]. exists fps. split; [exact E|]. apply run_all_nth in E. destruct E as [-> _]. apply seq_length.
Qed.
Theorem C192_errors : forall dot prices amounts closes sides tick lows highs mult x,
  comp_bar_footprints_f dot prices amounts closes sides tick lows highs mult = Raise x -> (x = ZeroDivisionError /\ tick == 0) \/ (x = ValueError /\ ~ tick == 0).
Proof. intros dot prices amounts closes sides tick lows highs mult x H. apply run_all_raise in H. destruct H as [k [_ H]]. eapply bar_fpf_raise; eauto. Qed.
Example C192_builder_example : (exists bars, comp_bar_ohlcv ex_px ex_am [-1; 3; 4]%Z = Ok bars /\ map b_low bars = [d01' * 1000; d01' * 1001] /\ map b_high bars = [d01' * 1002; d01' * 1001]) /\
  comp_bar_footprints_f dot24 ex_px ex_am [-1; 3]%Z ex_sd d01' [d01' * 1001] [d01' * 1002] 3 = Raise ValueError.
Proof. split; [eexists; split; [vm_compute; reflexivity|]; split; vm_compute; reflexivity|vm_compute; reflexivity]. Qed.

(** The rows: every level from low to high once, exact trade counts, and volumes that are float32 numbers and off by at most one cell
    rounding per trade on the level. *)
Theorem C192_rows : forall dot prices amounts closes sides tick lows highs mult fps k fp low high lev,
  comp_bar_footprints_f dot prices amounts closes sides tick lows highs mult = Ok fps -> nth_error fps k = Some fp ->
  let s := nth k closes 0%Z in let e := nth (S k) closes 0%Z in
  (-1 <= s <= e)%Z -> 0 < tick -> (forall x, In x amounts -> 0 <= x) ->
  levels_of tick (nth k lows 0) (nth k highs 0) prices s e low high lev ->
  let n := Z.to_nat (high - low + 1) in
  (low <= high)%Z /\ (forall j, (s < j <= e)%Z -> (low <= lev j <= high)%Z) /\
  ((- 2 ^ 31 <= low)%Z -> (high < 2 ^ 31)%Z -> fp_levels fp = zrange low (high + 1)) /\
  length (fp_levels fp) = n /\ length (fp_bv fp) = n /\ length (fp_sv fp) = n /\ length (fp_bt fp) = n /\ length (fp_st fp) = n /\
  (forall i, fl 24 (nth i (fp_bv fp) 0) /\ fl 24 (nth i (fp_sv fp) 0)) /\
  forall i, (i < n)%nat -> let l := (low + Z.of_nat i)%Z in
    nth i (fp_bt fp) 0%Z = Z.of_nat (level_count sides lev 1 l s e) /\
    nth i (fp_st fp) 0%Z = Z.of_nat (level_count sides lev (-1) l s e) /\
    within ucell (level_count sides lev 1 l s e) (nth i (fp_bv fp) 0) (level_sum sides lev 1 l (at_ amounts) s e) /\
    within ucell (level_count sides lev (-1) l s e) (nth i (fp_sv fp) 0) (level_sum sides lev (-1) l (at_ amounts) s e).
Proof.
  intros dot prices amounts closes sides tick lows highs mult fps k fp low high lev H Hk s e Hse Ht Hq LV n. pose proof (fpsf_nth _ _ _ _ _ _ _ _ _ _ _ _ H Hk) as E. fold s e in E.
  destruct (fpf_cells dot prices amounts sides tick _ _ mult s e low high lev Hse Ht LV fp E Hq) as [A1 [A2 [A3 [A4 [A5 [A6 [A7 [A8 [_ [_ A9]]]]]]]]]].
  split; [auto|]. split; [auto|]. split; [exact (fpf_lv dot prices amounts sides tick _ _ mult s e low high lev LV fp E)|]. do 5 (split; [assumption|]). split; [exact A8|]. exact A9.
Qed.
Example C192_rows_example : exists a b, ex_fps = Ok [a; b] /\ fp_levels a = [1000; 1001; 1002]%Z /\ fp_bt a = [0; 1; 1]%Z /\ fp_st a = [1; 1; 0]%Z /\
  fp_bv a = [0; 3; 80] /\ nth 0 (fp_sv a) 0 == 1 # 8 /\ levels_of d01' (d01' * 1000) (d01' * 1002) ex_px (-1) 3 1000 1002 (fun j => nth (Z.to_nat j) [1000; 1001; 1002; 1001]%Z 0%Z).
Proof. do 2 eexists. split; [vm_compute; reflexivity|]. do 5 (split; [vm_compute; reflexivity|]). exact ex_levels. Qed.

(** Imbalance flags against the volumes actually traded: a set flag means the comparison holds up to the cell roundings of the two
    levels, and a comparison that holds by that much (and one float64 rounding) sets the flag. *)
Theorem C192_flags : forall dot prices amounts closes sides tick lows highs mult fps k fp low high lev,
  comp_bar_footprints_f dot prices amounts closes sides tick lows highs mult = Ok fps -> nth_error fps k = Some fp ->
  let s := nth k closes 0%Z in let e := nth (S k) closes 0%Z in
  (-1 <= s <= e)%Z -> 0 < tick -> (forall x, In x amounts -> 0 <= x) -> 0 <= mult ->
  levels_of tick (nth k lows 0) (nth k highs 0) prices s e low high lev ->
  let n := Z.to_nat (high - low + 1) in
  let buy i := level_sum sides lev 1 (low + Z.of_nat i) (at_ amounts) s e in let sell i := level_sum sides lev (-1) (low + Z.of_nat i) (at_ amounts) s e in
  let cb i := Z.of_nat (level_count sides lev 1 (low + Z.of_nat i) s e) in let cs i := Z.of_nat (level_count sides lev (-1) (low + Z.of_nat i) s e) in
  length (fp_bi fp) = n /\ length (fp_si fp) = n /\
  (forall i, (i < n)%nat -> nth i (fp_bi fp) false = true -> (1 <= i)%nat /\ (1 - ucell) ^ cs (i - 1)%nat * (mult * sell (i - 1)%nat) < (1 + ucell) ^ cb i * buy i) /\
  (forall i, (i < n)%nat -> nth i (fp_si fp) false = true -> (S i < n)%nat /\ (1 - ucell) ^ cb (S i) * (mult * buy (S i)) < (1 + ucell) ^ cs i * sell i) /\
  (forall i, (1 <= i < n)%nat -> (1 + u53) * (1 + ucell) ^ cs (i - 1)%nat * (mult * sell (i - 1)%nat) < (1 - ucell) ^ cb i * buy i -> nth i (fp_bi fp) false = true) /\
  (forall i, (S i < n)%nat -> (1 + u53) * (1 + ucell) ^ cb (S i) * (mult * buy (S i)) < (1 - ucell) ^ cs i * sell i -> nth i (fp_si fp) false = true).
Proof.
  intros dot prices amounts closes sides tick lows highs mult fps k fp low high lev H Hk s e Hse Ht Hq Hm LV. pose proof (fpsf_nth _ _ _ _ _ _ _ _ _ _ _ _ H Hk) as E. fold s e in E.
  exact (fpf_flags dot prices amounts sides tick _ _ mult s e low high lev Hse Ht LV fp E Hq Hm).
Qed.
Example C192_flags_example : exists a b, ex_fps = Ok [a; b] /\ fp_bi a = [false; true; true]%bool /\ fp_si a = [false; false; false]%bool /\ fp_bi_sum a = 2%Z /\
  (1 + u53) * (1 + ucell) ^ 1 * (3 * 2) < (1 - ucell) ^ 1 * 80 /\ forallb (fun x => Qle_bool 0 x) ex_am = true.
Proof. do 2 eexists. split; [vm_compute; reflexivity|]. repeat split; vm_compute; reflexivity. Qed.

(** The longest run of equal imbalances, for fewer than 2^15 levels. *)
Theorem C192_run : forall dot prices amounts closes sides tick lows highs mult fps k fp,
  comp_bar_footprints_f dot prices amounts closes sides tick lows highs mult = Ok fps -> nth_error fps k = Some fp ->
  let n := length (fp_levels fp) in (Z.of_nat n < 32768)%Z ->
  let sgn := imb_sign (fp_bi fp) (fp_si fp) in
  (forall a len sg, is_run sgn n a len sg -> (Z.of_nat len <= Z.abs (fp_run fp))%Z) /\
  (fp_run fp <> 0%Z -> exists a, is_run sgn n a (Z.to_nat (Z.abs (fp_run fp))) (Z.sgn (fp_run fp)) /\
     forall b sg, is_run sgn n b (Z.to_nat (Z.abs (fp_run fp))) sg -> (a <= b)%nat) /\
  fp_bi_sum fp = Z.of_nat (length (filter (fun b => b) (fp_bi fp))) /\ fp_si_sum fp = Z.of_nat (length (filter (fun b => b) (fp_si fp))).
Proof.
  intros dot prices amounts closes sides tick lows highs mult fps k fp H Hk n Hb sgn. pose proof (fpsf_nth _ _ _ _ _ _ _ _ _ _ _ _ H Hk) as E.
  unfold bar_footprint_f in E. destruct (bar_levels_f _ _ _ _ _ _ _ _) as [st|]; [|discriminate]. cbv zeta in E.
  destruct (comp_footprint_features_f _ _ _ _ _) as [f|] eqn:F; [|discriminate]. destruct (feat_f_ok _ _ _ _ _ _ F) as [_ [F1 [F2 [R _]]]].
  injection E as E. subst fp. cbn [fp_levels fp_bi fp_si fp_run fp_bi_sum fp_si_sum] in *. fold n in R, F1, F2.
  pose proof (max_run_spec (ff_bi f) (ff_si f) n) as K. cbv zeta in K. rewrite <- R in K. fold sgn in K.
  assert (Bd : (Z.abs (ff_run f) <= Z.of_nat n)%Z).
  { destruct (Z.eq_dec (ff_run f) 0) as [->|Hz]; [lia|]. destruct K as [_ [K2 _]]. destruct (K2 Hz) as [a [[_ [R2 _]] _]]. lia. }
  rewrite (wraps_id 16 (ff_run f)) by (change (2 ^ (16 - 1))%Z with 32768%Z; lia). destruct K as [K1 [K2 _]]. split; [exact K1|]. split; [exact K2|].
  assert (G : forall l : list bool, (length l <= n)%nat -> count_true l = Z.of_nat (length (filter (fun b => b) l))).
  { intros l Hl. unfold count_true. apply wrapu_id. assert (J : forall l0 : list bool, (length (filter (fun b => b) l0) <= length l0)%nat) by (induction l0 as [|[] l0 IH]; cbn; lia).
    specialize (J l). change (2 ^ 16)%Z with 65536%Z. lia. }
  split; apply G; [rewrite F1|rewrite F2]; rewrite map_length, seq_length; lia.
Qed.
Example C192_run_example : exists a b, ex_fps = Ok [a; b] /\ fp_run a = 2%Z /\ fp_run b = 0%Z.
Proof. do 2 eexists. split; [vm_compute; reflexivity|]. split; vm_compute; reflexivity. Qed.

(** The centre-of-trades level traded, up to two roundings per trade of the bar, as much as any other; skew and Gini are zero without
    sided volume; the Gini coefficient is the rounded complement of the sum of squared shares traded up to 5n+9+6N cell roundings, n
    levels and N trades; the skew, exactly zero, stays within 9n+29 float32 roundings of the highest level. *)
Theorem C192_profile : forall dot prices amounts closes sides tick lows highs mult fps k fp low high lev,
  comp_bar_footprints_f dot prices amounts closes sides tick lows highs mult = Ok fps -> nth_error fps k = Some fp ->
  let s := nth k closes 0%Z in let e := nth (S k) closes 0%Z in
  (-1 <= s <= e)%Z -> 0 < tick -> (forall x, In x amounts -> 0 <= x) ->
  levels_of tick (nth k lows 0) (nth k highs 0) prices s e low high lev ->
  let n := Z.to_nat (high - low + 1) in let N := Z.to_nat (e - s) in
  let t i := level_sum sides lev 1 (low + Z.of_nat i) (at_ amounts) s e + level_sum sides lev (-1) (low + Z.of_nat i) (at_ amounts) s e in
  let T := qsum (map t (seq 0 n)) in
  (exists c, (c < n)%nat /\ fp_cot fp = nth c (fp_levels fp) 0%Z /\
     forall i, (i < n)%nat -> (1 - u24) * (1 - ucell) ^ Z.of_nat N * t i <= (1 + u24) * (1 + ucell) ^ Z.of_nat N * t c) /\
  (T <= 0 -> fp_gini fp = 0 /\ fp_skew fp = 0) /\
  (0 < T -> exists g, within ucell (5 * n + 9 + 6 * N) g (qsum (map (fun i => (t i / T) * (t i / T)) (seq 0 n))) /\ fp_gini fp = r53 (1 - g)) /\
  (dot_ok dot -> (0 <= low)%Z -> (high < 2 ^ 31)%Z -> Qnat (n + 8) * u24 <= 1 # 16 -> Qabs (fp_skew fp) <= Qnat (9 * n + 29) * u24 * inject_Z high).
Proof.
  intros dot prices amounts closes sides tick lows highs mult fps k fp low high lev H Hk s e Hse Ht Hq LV n N t T. pose proof (fpsf_nth _ _ _ _ _ _ _ _ _ _ _ _ H Hk) as E. fold s e in E.
  split; [exact (fpf_cot dot prices amounts sides tick _ _ mult s e low high lev Hse Ht LV fp E Hq)|].
  destruct (fpf_gini dot prices amounts sides tick _ _ mult s e low high lev Hse Ht LV fp E Hq) as [G1 G2]. split; [exact G1|]. split; [exact G2|].
  exact (fpf_skew dot prices amounts sides tick _ _ mult s e low high lev Hse Ht LV fp E Hq).
Qed.
Example C192_profile_example : exists a b, ex_fps = Ok [a; b] /\ fp_cot a = 1002%Z /\ ~ fp_gini a == 0 /\ fp_cot b = 1001%Z /\ fp_gini b == 0 /\
  Qabs (fp_gini a - (1 - ((1 # 8) * (1 # 8) + 5 * 5 + 80 * 80) / ((681 # 8) * (681 # 8)))) <= 1 # 10000000 /\ Qnat (3 + 8) * u24 <= 1 # 16.
Proof. do 2 eexists. split; [vm_compute; reflexivity|]. split; [reflexivity|]. split; [vm_compute; discriminate|]. repeat split; vm_compute; try reflexivity; discriminate. Qed.

(** Amounts in lots of 2^g, and per level at most 2^24 lots: volumes and centre of trades are exact, the flags as well with a multiplier
    of at most 29 bits. *)
Theorem C192_lots : forall dot prices amounts closes sides tick lows highs mult fps k fp low high lev g,
  comp_bar_footprints_f dot prices amounts closes sides tick lows highs mult = Ok fps -> nth_error fps k = Some fp ->
  let s := nth k closes 0%Z in let e := nth (S k) closes 0%Z in
  (-1 <= s <= e)%Z -> 0 < tick -> (forall x, In x amounts -> 0 <= x) ->
  levels_of tick (nth k lows 0) (nth k highs 0) prices s e low high lev ->
  (forall x, In x amounts -> grid g x) ->
  let n := Z.to_nat (high - low + 1) in
  let buy i := level_sum sides lev 1 (low + Z.of_nat i) (at_ amounts) s e in let sell i := level_sum sides lev (-1) (low + Z.of_nat i) (at_ amounts) s e in
  (forall i, (i < n)%nat -> buy i + sell i <= Qpower 2 (24 + g)) ->
  (forall i, (i < n)%nat -> nth i (fp_bv fp) 0 == buy i /\ nth i (fp_sv fp) 0 == sell i) /\
  (exists c, (c < n)%nat /\ fp_cot fp = nth c (fp_levels fp) 0%Z /\
     (forall i, (i < n)%nat -> buy i + sell i <= buy c + sell c) /\ (forall i, (i < c)%nat -> buy i + sell i < buy c + sell c)) /\
  (fl 29 mult ->
   (forall i, (i < n)%nat -> nth i (fp_bi fp) false = true <-> (1 <= i)%nat /\ mult * sell (i - 1)%nat < buy i) /\
   (forall i, (i < n)%nat -> nth i (fp_si fp) false = true <-> (S i < n)%nat /\ mult * buy (S i) < sell i)).
Proof.
  intros dot prices amounts closes sides tick lows highs mult fps k fp low high lev g H Hk s e Hse Ht Hq LV Hg n buy sell Hs. pose proof (fpsf_nth _ _ _ _ _ _ _ _ _ _ _ _ H Hk) as E. fold s e in E.
  exact (fpf_lots dot prices amounts sides tick _ _ mult s e low high lev Hse Ht LV fp E Hq g Hg Hs).
Qed.
Example C192_lots_example : (forall x, In x ex_am -> grid (-3) x) /\ fl 29 3 /\
  forallb (fun i => Qle_bool (level_sum ex_sd (fun j => nth (Z.to_nat j) [1000; 1001; 1002; 1001]%Z 0%Z) 1 (1000 + Z.of_nat i) (at_ ex_am) (-1) 3 +
                              level_sum ex_sd (fun j => nth (Z.to_nat j) [1000; 1001; 1002; 1001]%Z 0%Z) (-1) (1000 + Z.of_nat i) (at_ ex_am) (-1) 3) (Qpower 2 (24 + -3)))
    (seq 0 (Z.to_nat (1002 - 1000 + 1))) = true.
Proof.
  split; [|split; [exists 3%Z, 0%Z; split; reflexivity|vm_compute; reflexivity]].
  intros x [<-|[<-|[<-|[<-|[<-|[]]]]]]; [exists 1%Z|exists 16%Z|exists 640%Z|exists 24%Z|exists 134217728%Z]; vm_compute; reflexivity.
Qed.
(** Beyond that a buy flag can be set although the volume sold one level below exceeds the volume bought: unit trades after 2^24 are lost. *)
Theorem C192_flags_refuted : forall dot, exists prices amounts sides fp, (forall x, In x amounts -> exists k, (0 < k)%Z /\ x = inject_Z k) /\
  comp_bar_footprints_f dot prices amounts [-1; 6]%Z sides 1 [1] [2] 1 = Ok [fp] /\ nth 1 (fp_bi fp) false = true /\
  level_sum sides (fun j => rhe (at_ prices j)) 1 2 (at_ amounts) (-1) 6 < level_sum sides (fun j => rhe (at_ prices j)) (-1) 1 (at_ amounts) (-1) 6.
Proof.
  intro dot. set (px := [1; 1; 1; 1; 1; 2; 2]). set (am := [16777216; 1; 1; 1; 1; 16777216; 2]). set (sd := [-1; -1; -1; -1; -1; 1; 1]%Z). exists px, am, sd.
  destruct (bar_fpf_ok dot px am sd 1 1 2 1 (-1) 6) as [fp E]; [lia|reflexivity|discriminate| |].
  - intros j Hj. unfold at_. destruct (Z.to_nat j) as [|[|[|[|[|[|[|m]]]]]]] eqn:J; try (cbn; lra). lia.
  - exists fp. split; [|split; [|split; [|vm_compute; reflexivity]]].
    + intros x [<-|[<-|[<-|[<-|[<-|[<-|[<-|[]]]]]]]]; [exists 16777216%Z|exists 1%Z|exists 1%Z|exists 1%Z|exists 1%Z|exists 16777216%Z|exists 2%Z]; split; reflexivity.
    + unfold comp_bar_footprints_f. cbn [length Nat.sub seq run_all nth]. now rewrite E.
    + unfold bar_footprint_f in E. destruct (bar_levels_f _ _ _ _ _ _ _ _) as [st|] eqn:SE; [|discriminate]. cbv zeta in E. destruct (comp_footprint_features_f _ _ _ _ _) as [f|] eqn:F; [|discriminate].
      destruct (feat_f_ok _ _ _ _ _ _ F) as [_ [F1 _]]. injection E as <-. cbn [fp_bi]. rewrite F1. vm_compute in SE. injection SE as <-. vm_compute. reflexivity.
Qed.

Print Assumptions C192_builder.
Print Assumptions C192_errors.
Print Assumptions C192_rows.
Print Assumptions C192_flags.
Print Assumptions C192_run.
Print Assumptions C192_profile.
Print Assumptions C192_lots.
Print Assumptions C192_flags_refuted.
