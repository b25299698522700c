(** P_shift2.v -- float64 time stamps between 2^60 and 2^61 ns (2006 to 2043): rounding to multiples of
    256 ns commutes with shifts by multiples of 512 ns (C170, C171). *)
From Verif Require Import Base M_logic M_bars M_footprint M_trades M_fpdata M_builder S_logic S_builder S_shift P_time P_shift.
Open Scope Z_scope.

Lemma rne_div_shift n d k : 0 < d -> rne_div (n + 2 * k * d) d = rne_div n d + 2 * k.
Proof.
  intro Hd. unfold rne_div. rewrite Z.div_add, Z.mod_add by lia.
  destruct (2 * (n mod d) <? d); [lia|]. destruct (d <? 2 * (n mod d)); [lia|].
  replace (Z.even (n / d + 2 * k)) with (Z.even (n / d)); [destruct (Z.even (n / d)); lia|].
  rewrite Z.even_add, Z.even_mul. cbn. destruct (Z.even (n / d)); reflexivity.
Qed.

Lemma f64_modern z : 2 ^ 60 <= z < 2 ^ 61 -> f64 z = rne_div z 256 * 256.
Proof.
  intros [H1 H2]. unfold f64. replace (Z.log2 z) with 60; [reflexivity|].
  symmetry. apply Z.log2_unique; [lia|]. split; [exact H1|exact H2].
Qed.
Lemma f64_modern_div z : 2 ^ 60 <= z < 2 ^ 61 -> (256 | f64 z).
Proof. intro H. rewrite f64_modern by exact H. apply Z.divide_factor_r. Qed.
Lemma f64_shift z d : 2 ^ 60 <= z < 2 ^ 61 -> 2 ^ 60 <= z + d < 2 ^ 61 -> (512 | d) -> f64 (z + d) = f64 z + d.
Proof.
  intros H1 H2 [k ->]. rewrite !f64_modern by assumption.
  replace (z + k * 512) with (z + 2 * k * 256) by ring. rewrite rne_div_shift by lia. ring.
Qed.
Lemma f64_modern_range z : 2 ^ 60 <= z < 2 ^ 61 -> 2 ^ 60 <= f64 z <= 2 ^ 61 /\ z - 128 <= f64 z <= z + 128.
Proof.
  intro H. split; [|apply f64_err; lia].
  rewrite f64_modern by exact H. 
  assert (2 ^ 52 <= rne_div z 256) by (apply rne_ge; [lia|change (2 ^ 52 * 256) with (2 ^ 60); lia]).
  assert (rne_div z 256 <= 2 ^ 53) by (apply rne_le; [lia|change (2 ^ 53 * 256) with (2 ^ 61); lia]).
  change (2 ^ 60) with (2 ^ 52 * 256). change (2 ^ 61) with (2 ^ 53 * 256). lia.
Qed.

Lemma div256_512 z : (512 | z) -> (256 | z).
Proof. intros [k ->]. exists (k * 2). ring. Qed.

Definition cdiv (x I : Z) : Z := - ((- x) / I).
Lemma cdiv_spec x I : 0 < I -> (cdiv x I - 1) * I < x <= cdiv x I * I.
Proof.
  intro H. unfold cdiv. pose proof (Z.div_mod (- x) I ltac:(lia)). pose proof (Z.mod_pos_bound (- x) I H). nia.
Qed.
Lemma ceil_div_grid x I : 0 < x < 2 ^ 61 -> (256 | x) -> 512 <= I -> (512 | I) -> ceil_fdiv x I = cdiv x I.
Proof.
  intros Hx Dx HI DI. pose proof (cdiv_spec x I ltac:(lia)) as B.
  apply ceil_fdiv_eq; [lia|lia| |exact B|].
  - change (2 ^ 61) with (2 ^ 52 * 512) in Hx. nia.
  - assert (D : (256 | x - (cdiv x I - 1) * I)).
    { apply Z.divide_sub_r; [exact Dx|]. apply Z.divide_mul_r. now apply div256_512. }
    assert (256 <= x - (cdiv x I - 1) * I) by (apply Z.divide_pos_le; [lia|exact D]).
    change (2 ^ 61) with (2 ^ 53 * 256) in Hx. nia.
Qed.
Lemma ceil_div_mult n I : 0 <= n -> n * I < 2 ^ 61 -> 512 <= I -> (512 | I) -> ceil_fdiv (n * I) I = n.
Proof.
  intros Hn Hb HI DI. destruct (Z.eq_dec n 0) as [->|Hn0]; [reflexivity|].
  rewrite ceil_div_grid; [| |apply Z.divide_mul_r; now apply div256_512|exact HI|exact DI].
  - unfold cdiv. rewrite <- Z.mul_opp_l. rewrite Z.div_mul by lia. lia.
  - split; [nia|exact Hb].
Qed.
Lemma f64_mult k I : 0 <= k -> k * I < 2 ^ 61 -> (512 | I) -> 0 <= I -> f64 (k * I) = k * I.
Proof. intros. apply f64_exact; [nia|]. apply Z.divide_mul_r. now apply div256_512. Qed.

(** The clock in closed form. *)
Lemma modern_clock t0 tN I : 512 <= I -> (512 | I) ->
  2 ^ 60 <= t0 -> t0 <= tN -> tN + 2 * I + 512 < 2 ^ 61 ->
  let a := f64 t0 / I in
  let k := cdiv (f64 tN) I in
  a <= k /\
  bar_clock t0 tN I = map (fun i => (a + Z.of_nat i) * I) (seq 0 (Z.to_nat (k + 1 - a))).
Proof.
  intros HI DI H0 H0N HN a k.
  assert (M0 : 2 ^ 60 <= t0 < 2 ^ 61) by lia. assert (MN : 2 ^ 60 <= tN < 2 ^ 61) by lia.
  destruct (f64_modern_range t0 M0) as [R0 E0]. destruct (f64_modern_range tN MN) as [RN EN].
  pose proof (f64_modern_div tN MN) as DN.
  assert (A : a * I <= f64 t0 < (a + 1) * I).
  { unfold a. pose proof (Z.div_mod (f64 t0) I ltac:(lia)). pose proof (Z.mod_pos_bound (f64 t0) I ltac:(lia)). nia. }
  assert (K : (k - 1) * I < f64 tN <= k * I) by (apply cdiv_spec; lia).
  assert (Mono : f64 t0 <= f64 tN).
  { rewrite !f64_modern by assumption. apply Z.mul_le_mono_nonneg_r; [lia|].
    destruct (Z.le_gt_cases (rne_div t0 256) (rne_div tN 256)) as [|C]; [assumption|exfalso].
    pose proof (rne_div_bounds t0 256 ltac:(lia)) as [_ B1]. pose proof (rne_div_bounds tN 256 ltac:(lia)) as [B2 _].
    destruct (Z.eq_dec t0 tN) as [->|]; [lia|].
    pose proof (rne_div_bounds t0 256 ltac:(lia)). pose proof (rne_div_bounds tN 256 ltac:(lia)). lia. }
  assert (Ha0 : 0 <= a) by (apply Z.div_pos; lia).
  assert (AK : a <= k) by nia.
  split; [exact AK|].
  assert (HkI : (k + 1) * I + 1 < 2 ^ 61) by nia.
  unfold bar_clock. cbv zeta.
  replace (bar_start t0 I) with (a * I).
  2:{ unfold bar_start. fold a. symmetry. apply f64_mult; [exact Ha0|nia|exact DI|lia]. }
  replace (last_tick tN I) with (k * I).
  2:{ unfold last_tick. rewrite ceil_div_grid; [|lia|exact DN|exact HI|exact DI]. fold k. symmetry.
      apply f64_mult; [lia|nia|exact DI|lia]. }
  replace (k * I + I) with ((k + 1) * I) by ring.
  rewrite (f64_mult (k + 1)) by (try exact DI; lia).
  replace (f64 ((k + 1) * I + 1)) with ((k + 1) * I).
  2:{ symmetry. assert (D : (256 | (k + 1) * I)) by (apply Z.divide_mul_r; now apply div256_512).
      assert (M : 2 ^ 60 <= (k + 1) * I + 1 < 2 ^ 61) by nia.
      rewrite f64_modern by exact M. destruct D as [q Eq]. rewrite Eq.
      unfold rne_div. replace (q * 256 + 1) with (1 + q * 256) by ring. rewrite Z.div_add, Z.mod_add by lia.
      reflexivity. }
  replace ((k + 1) * I - a * I) with ((k + 1 - a) * I) by ring.
  rewrite f64_mult by (try exact DI; nia).
  rewrite ceil_div_mult by (try assumption; nia).
  apply map_ext_in. intros i Hi. apply in_seq in Hi.
  assert (Hi2 : 0 <= Z.of_nat i < k + 1 - a) by lia.
  assert (Hi3 : (a + Z.of_nat i) * I <= k * I) by (apply Z.mul_le_mono_nonneg_r; lia).
  assert (Hi4 : 0 <= a * I) by (apply Z.mul_nonneg_nonneg; lia).
  clear - HI DI HkI Hi3 Hi4 Hi2 Ha0.
  rewrite (f64_mult (Z.of_nat i)); [|lia|lia|exact DI|lia].
  replace (a * I + Z.of_nat i * I) with ((a + Z.of_nat i) * I) by ring.
  apply f64_mult; [lia|lia|exact DI|lia].
Qed.

Lemma hd_le_last ts : ts <> [] -> ascZ ts -> hd 0 ts <= last ts 0.
Proof.
  intros Hne Ha. assert (L : forall l : list Z, l <> [] -> last l 0 = nth (length l - 1) l 0).
  { induction l as [|x l IH]; intro H; [easy|]. destruct l as [|y l]; [reflexivity|].
    change (last (y :: l) 0 = nth (length (y :: l)) (x :: y :: l) 0). rewrite IH by discriminate.
    cbn [length nth]. replace (S (length l) - 1)%nat with (length l) by lia. reflexivity. }
  rewrite L by exact Hne. replace (hd 0 ts) with (nth 0 ts 0) by (destruct ts; reflexivity).
  apply Ha. destruct ts; [easy|cbn; lia].
Qed.

Lemma modern_shift ts I m : ts <> [] -> ascZ ts -> 512 <= I -> (512 | I) ->
  2 ^ 60 <= hd 0 ts -> 2 ^ 60 <= hd 0 ts + m * I ->
  last ts 0 + 2 * I + 512 < 2 ^ 61 -> last ts 0 + m * I + 2 * I + 512 < 2 ^ 61 ->
  time_bar_indexer (map (fun t => t + m * I) ts) I =
    (map (fun t => t + m * I) (fst (time_bar_indexer ts I)), snd (time_bar_indexer ts I)).
Proof.
  intros Hne Ha HI DI H0 H0' HN HN'.
  pose proof (hd_le_last ts Hne Ha) as Hle.
  set (g := fun t => t + m * I).
  assert (EC : bar_clock (hd 0 (map g ts)) (last (map g ts) 0) I = map g (bar_clock (hd 0 ts) (last ts 0) I)).
  { rewrite hd_map, last_map by exact Hne.
    destruct (modern_clock (hd 0 ts) (last ts 0) I HI DI H0 Hle HN) as [_ E1].
    assert (Hle' : g (hd 0 ts) <= g (last ts 0)) by (unfold g; lia).
    destruct (modern_clock (g (hd 0 ts)) (g (last ts 0)) I HI DI H0' Hle' HN') as [_ E2].
    rewrite E1, E2. unfold g at 1 2 3. 
    assert (Dm : (512 | m * I)) by now apply Z.divide_mul_r.
    assert (R1 : 2 ^ 60 <= hd 0 ts < 2 ^ 61) by lia. assert (R2 : 2 ^ 60 <= hd 0 ts + m * I < 2 ^ 61) by lia.
    assert (R3 : 2 ^ 60 <= last ts 0 < 2 ^ 61) by lia. assert (R4 : 2 ^ 60 <= last ts 0 + m * I < 2 ^ 61) by lia.
    rewrite (f64_shift (hd 0 ts)) by assumption. rewrite (f64_shift (last ts 0)) by assumption.
    rewrite Z.div_add by lia.
    replace (cdiv (f64 (last ts 0) + m * I) I) with (cdiv (f64 (last ts 0)) I + m).
    2:{ unfold cdiv. replace (- (f64 (last ts 0) + m * I)) with (- f64 (last ts 0) + (- m) * I) by ring.
        rewrite Z.div_add by lia. ring. }
    rewrite map_map.
    replace (cdiv (f64 (last ts 0)) I + m + 1 - (f64 (hd 0 ts) / I + m)) with
      (cdiv (f64 (last ts 0)) I + 1 - f64 (hd 0 ts) / I) by ring.
    apply map_ext. intro i. unfold g. ring. }
  unfold time_bar_indexer. cbv zeta. cbn [fst snd]. rewrite EC. f_equal.
  rewrite map_map. apply map_ext. intro c. unfold g. now rewrite ss_right_shift.
Qed.

Lemma modern_builder ln log1p t I m h c :
  t_ts t <> [] -> ascZ (t_ts t) -> 512 <= I -> (512 | I) ->
  2 ^ 60 <= hd 0 (t_ts t) -> 2 ^ 60 <= hd 0 (t_ts t) + m * I ->
  last (t_ts t) 0 + 2 * I + 512 < 2 ^ 61 -> last (t_ts t) 0 + m * I + 2 * I + 512 < 2 ^ 61 ->
  fst (exec ln log1p (after ln log1p (fresh (KTime I) (retimed (fun x => x + m * I) t)) h) c) =
  on_ok (reply_relabel (fun x => x + m * I)) (fst (exec ln log1p (after ln log1p (fresh (KTime I) t) h) c)).
Proof.
  intros. apply (machine_rel ln log1p _ t (fun k => k = KTime I)); [| | |reflexivity].
  - intros k ->. unfold comp_bar_close. cbn [t_ts retimed fst snd on_ok]. unfold pair_relabel.
    rewrite modern_shift by assumption. reflexivity.
  - intros k ->. reflexivity.
  - intros k ix ->. apply freq_shift.
Qed.
