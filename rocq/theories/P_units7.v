(** P_units7.v -- returns, momentum, trend and CUSUM in float64 under a change of units by a power of two. *)
From Coq Require Import Qpower Qfield Qround.
From Verif Require Import Base M_logic M_bars M_features M_volume M_sampling M_weights M_float M_float2 M_float3 M_float4 M_float6 M_float7 M_float9 M_float10
  S_units S_unitbars S_unitsf P_units P_units2 P_units3 P_units4 P_units5 P_float P_float9.
Open Scope Q_scope.

Lemma Qltb_comp x y x' y' : x == x' -> y == y' -> Qltb x y = Qltb x' y'.
Proof. intros A B. apply (Qltb_sc 1); [lra| |]; now apply sc_eq. Qed.
Lemma binary_two e : binary (two e).
Proof. exists e. reflexivity. Qed.
Lemma binary_sqr sqrt c x y : binary_root sqrt -> binary c -> sc (c * c) x y -> sc c (sqrt x) (sqrt y).
Proof. intros Hs [e E] H. apply (sc_unit (two e)); [now symmetry|]. apply Hs. apply (sc_unit (c * c)); [now rewrite E|exact H]. Qed.
Lemma binary_sumf sumf c l l' : binary_sum sumf -> binary c -> scl c l l' -> sc c (sumf l) (sumf l').
Proof.
  intros Hs [e E] H. apply (sc_unit (two e)); [now symmetry|]. apply Hs.
  induction H as [|x y l l' Hx H IH]; constructor; auto. now apply (sc_unit c).
Qed.
Lemma fsum_binary : binary_sum fsum.
Proof. intros e l l' H. apply fsum_units; [apply binary_two|exact H]. Qed.
Lemma ilog_two x k : 0 < x -> ilog (x * two k) = (ilog x + k)%Z.
Proof.
  intro H. pose proof (two_pos k) as P. destruct (ilog_spec x ltac:(lra)) as [A B]. apply ilog_unique. rewrite Qabs_pos in A, B by lra. rewrite Qabs_pos by nra.
  replace (ilog x + k + 1)%Z with (ilog x + 1 + k)%Z by lia. rewrite !two_plus. rewrite two_plus in B. split; [apply Qmult_le_compat_r; lra|apply Qmult_lt_compat_r; lra].
Qed.
(** The square root of IEEE 754 follows powers of two. *)
Lemma sqrt53_binary : binary_root sqrt53.
Proof.
  intros k x y H. unfold sc in *. rewrite <- two_plus in H. pose proof (two_pos (k + k)) as P. pose proof (two_pos k) as P1. unfold sqrt53.
  destruct (Qleb_spec x 0) as [K|K]; destruct (Qleb_spec y 0) as [L|L]; try (exfalso; nra); [ring|].
  assert (Ei : ilog y = (ilog x + (k + k))%Z). { rewrite (ilog_comp y (x * two (k + k))); [now apply ilog_two|lra|rewrite H; ring]. }
  rewrite Ei. replace ((ilog x + (k + k)) / 2 - 52)%Z with (ilog x / 2 - 52 + k)%Z.
  2:{ replace (k + k)%Z with (k * 2)%Z by lia. rewrite Z.div_add by lia. lia. }
  set (e := (ilog x / 2 - 52)%Z). cbv zeta.
  assert (Ev : y * two (- (2 * (e + k))) == x * two (- (2 * e))).
  { rewrite H. replace (- (2 * e))%Z with (- (2 * (e + k)) + (k + k))%Z by lia. rewrite (two_plus (- (2 * (e + k)))). ring. }
  rewrite (Qfloor_comp _ _ Ev). set (m := Z.sqrt _).
  rewrite (Qltb_comp (inject_Z (m * m + m) + (1 # 4)) (y * two (- (2 * (e + k)))) (inject_Z (m * m + m) + (1 # 4)) (x * two (- (2 * e))) (Qeq_refl _) Ev).
  rewrite (two_plus e k). ring.
Qed.
Lemma r53_ratio c x y x' y' : 0 < c -> sc c x x' -> sc c y y' -> sc 1 (r53 (x / y)) (r53 (x' / y')).
Proof. intros Hc Hx Hy. apply sc_r53; [apply binary_1|]. now apply sc_eq, (sc_ratio c). Qed.
Lemma fsum_map_units {A} c (f g : A -> Q) l : binary c -> (forall x, In x l -> sc c (f x) (g x)) -> sc c (fsum (map f l)) (fsum (map g l)).
Proof. intros Bc H. apply fsum_units; auto. now apply F2_map_same. Qed.

(** Returns. *)
Lemma roc_f_units c p p' n : 0 < c -> binary c -> scl c p p' -> both (oscl 1) (roc_f p n) (roc_f p' n).
Proof.
  intros Hc Bc H. unfold roc_f. rewrite (scl_length _ _ _ H).
  rewrite (existsb_ext' (fun i => Qeqb (qn p (i - n)) 0) (fun i => Qeqb (qn p' (i - n)) 0)).
  2:{ intro i. apply (Qeqb_sc c); auto; [now apply scl_qn|apply sc_0]. }
  destruct (existsb _ _); [reflexivity|]. cbn [both]. apply F2_map_same. intros i _. apply osc_if; [reflexivity|exact I|].
  apply sc_r53; [apply binary_1|]. apply sc_const_r, (r53_ratio c); auto; [apply sc_r53; auto; apply sc_minus|]; now apply scl_qn.
Qed.
Lemma lagged_f_units ln c ts cl cl' W lg : respects ln -> 0 < c -> scl c cl cl' -> both (escl 1) (comp_lagged_returns_f ln ts cl W lg) (comp_lagged_returns_f ln ts cl' W lg).
Proof.
  intros Hl Hc H. unfold comp_lagged_returns_f. cbv zeta. rewrite (scl_length _ _ _ H). destruct (W <=? 0)%Z; [reflexivity|]. cbn [both].
  apply F2_map_same. intros i _. destruct (_ <? _)%nat; [exact I|]. destruct (_ && _)%bool; [|exact I]. unfold lag_return_f.
  set (j := Z.to_nat _). clearbody j. pose proof (scl_qn c cl cl' i H) as Pi. pose proof (scl_qn c cl cl' j H) as Pj.
  rewrite (Qeqb_sc c _ 0 _ 0 Hc Pj (sc_0 c)). destruct (Qeqb _ 0); [exact I|].
  assert (R := r53_ratio c _ _ _ _ Hc Pi Pj). destruct lg; [now apply flog_units, sc_eq|]. cbn [esc]. apply sc_r53; [apply binary_1|]. apply sc_minus; [exact R|apply sc_1].
Qed.
Lemma burst_f_units c xs xs' w : 0 < c -> binary c -> scl c xs xs' -> oscl 1 (comp_burst_ratio_f xs w) (comp_burst_ratio_f xs' w).
Proof.
  intros Hc Bc H. unfold comp_burst_ratio_f. cbv zeta. rewrite (scl_length _ _ _ H). apply F2_map_same. intros i _. apply osc_if; [reflexivity|exact I|].
  pose proof (median_f_units c _ _ Bc (scl_lastn c xs xs' i w H)) as M. apply osc_if; [apply (Qltb_sc c); auto; apply sc_0| |exact I].
  apply (r53_ratio c); auto. now apply scl_qn.
Qed.
Lemma pct_f_units c xs xs' n : 0 < c -> binary c -> scl c xs xs' -> oscl 1 (pct_change_f xs n) (pct_change_f xs' n).
Proof.
  intros Hc Bc H. unfold pct_change_f. cbv zeta. rewrite (scl_length _ _ _ H). apply F2_map_same. intros i _. apply osc_if; [reflexivity|exact I|].
  pose proof (scl_qn c xs xs' (i - n) H) as B. apply osc_if; [apply (Qltb_sc c); auto; apply sc_0| |exact I].
  apply (r53_ratio c); auto. apply sc_r53; auto. apply sc_minus; auto. now apply scl_qn.
Qed.

(** Momentum and trend. *)
Lemma diff_f_units c p p' i : binary c -> scl c p p' -> sc c (diff_f p i) (diff_f p' i).
Proof. intros Bc H. unfold diff_f. apply sc_r53; auto. apply sc_minus; now apply scl_qn. Qed.
Lemma gain_f_units c p p' i : 0 < c -> binary c -> scl c p p' -> sc c (gain_f p i) (gain_f p' i).
Proof. intros Hc Bc H. pose proof (diff_f_units c p p' i Bc H). unfold gain_f. apply sc_if; auto; [apply (Qltb_sc c)|]; auto; apply sc_0. Qed.
Lemma loss_f_units c p p' i : 0 < c -> binary c -> scl c p p' -> sc c (loss_f p i) (loss_f p' i).
Proof. intros Hc Bc H. pose proof (diff_f_units c p p' i Bc H). unfold loss_f. apply sc_if; [apply (Qltb_sc c)| |]; auto; try apply sc_0. now apply sc_opp. Qed.
Lemma rsi_sums_f_units c p p' w : 0 < c -> binary c -> scl c p p' -> sc c (fst (rsi_sums_f p w)) (fst (rsi_sums_f p' w)) /\ sc c (snd (rsi_sums_f p w)) (snd (rsi_sums_f p' w)).
Proof.
  intros Hc Bc H. unfold rsi_sums_f. apply (fold_rel (fun s s' : Q * Q => sc c (fst s) (fst s') /\ sc c (snd s) (snd s'))).
  - intros [a b] [a' b'] k [R1 R2]. cbn [fst snd] in *. cbv zeta. pose proof (diff_f_units c p p' k Bc H) as D.
    rewrite (Qltb_sc c 0 (diff_f p k) 0 (diff_f p' k) Hc (sc_0 c) D). destruct (Qltb 0 _); cbn [fst snd]; split; auto; apply sc_r53; auto; [now apply sc_plus|apply sc_plus; [auto|now apply sc_opp]].
  - split; apply sc_0.
Qed.
Lemma wilder_f_units c w a a' x x' k : binary c -> sc c a a' -> (forall i, sc c (x i) (x' i)) -> sc c (wilder_f w a x k) (wilder_f w a' x' k).
Proof.
  intros Bc Ha Hx. induction k as [|k IH]; cbn [wilder_f]; [auto|]. apply sc_r53; auto. apply sc_divk, sc_r53; auto. apply sc_plus; [|auto]. apply sc_r53; auto. now apply sc_const.
Qed.
Lemma rsi_f_units c p p' w : 0 < c -> binary c -> scl c p p' -> oscl 1 (rsi_wilder_f p w) (rsi_wilder_f p' w).
Proof.
  intros Hc Bc H. unfold rsi_wilder_f. cbv zeta. rewrite (scl_length _ _ _ H). destruct (rsi_sums_f_units c p p' w Hc Bc H) as [S1 S2].
  apply F2_map_same. intros i _. apply osc_if; [reflexivity|exact I|].
  assert (G : sc c (wilder_f w (r53 (fst (rsi_sums_f p w) / Qnat w)) (gain_f p) (i - w)) (wilder_f w (r53 (fst (rsi_sums_f p' w) / Qnat w)) (gain_f p') (i - w))).
  { apply wilder_f_units; auto; [apply sc_r53; auto; now apply sc_divk|]. intro j. now apply gain_f_units. }
  assert (L : sc c (wilder_f w (r53 (snd (rsi_sums_f p w) / Qnat w)) (loss_f p) (i - w)) (wilder_f w (r53 (snd (rsi_sums_f p' w) / Qnat w)) (loss_f p') (i - w))).
  { apply wilder_f_units; auto; [apply sc_r53; auto; now apply sc_divk|]. intro j. now apply loss_f_units. }
  unfold rsi_value_f. apply osc_if; [apply (Qltb_sc c); auto; apply sc_0| |exact I]. pose proof (r53_ratio c _ _ _ _ Hc G L) as R.
  cbn [osc]. apply sc_r53; [apply binary_1|]. apply sc_minus; [apply sc_1|]. apply (r53_ratio 1); [lra|apply sc_1|]. apply sc_r53; [apply binary_1|].
  apply sc_plus; [apply sc_1|exact R].
Qed.
Lemma stoch_f_units c cl cl' lo lo' hi hi' n : 0 < c -> binary c -> scl c cl cl' -> scl c lo lo' -> scl c hi hi' -> oscl 1 (stoch_k_f cl lo hi n) (stoch_k_f cl' lo' hi' n).
Proof.
  intros Hc Bc H Hl Hh. unfold stoch_k_f. cbv zeta. rewrite (scl_length _ _ _ H). apply F2_map_same. intros t _. apply osc_if; [reflexivity|exact I|].
  destruct (stoch_ext_units c lo lo' hi hi' n (t + 1 - n) Hc Hl Hh) as [I1 I2]. apply osc_if; [now apply (Qltb_sc c)| |exact I].
  apply (r53_ratio c); auto; apply sc_r53; auto; [|now apply sc_minus]. apply sc_const, sc_r53; auto. apply sc_minus; auto. now apply scl_qn.
Qed.
Lemma tr_f_units c hi hi' lo lo' cl cl' i : 0 < c -> binary c -> scl c hi hi' -> scl c lo lo' -> scl c cl cl' -> sc c (true_rng_f hi lo cl i) (true_rng_f hi' lo' cl' i).
Proof.
  intros Hc Bc Hh Hl H. unfold true_rng_f. destruct (i =? 0)%nat; [apply sc_0|].
  apply sc_pmax; auto; [apply sc_pmax; auto; [|apply sc_abs; auto]|apply sc_abs; auto]; apply sc_r53; auto; apply sc_minus; now apply scl_qn.
Qed.
Lemma pdm_f_units c hi hi' lo lo' i : 0 < c -> binary c -> scl c hi hi' -> scl c lo lo' -> sc c (plus_dm_f hi lo i) (plus_dm_f hi' lo' i) /\ sc c (minus_dm_f hi lo i) (minus_dm_f hi' lo' i).
Proof.
  intros Hc Bc Hh Hl. unfold plus_dm_f, minus_dm_f. cbv zeta. destruct (i =? 0)%nat; [split; apply sc_0|].
  assert (A : sc c (r53 (qn hi i - qn hi (i - 1))) (r53 (qn hi' i - qn hi' (i - 1)))) by (apply sc_r53; auto; apply sc_minus; now apply scl_qn).
  assert (B : sc c (r53 (qn lo (i - 1) - qn lo i)) (r53 (qn lo' (i - 1) - qn lo' i))) by (apply sc_r53; auto; apply sc_minus; now apply scl_qn).
  split; apply sc_if; auto; try apply sc_0; f_equal; apply (Qltb_sc c); auto; apply sc_0.
Qed.
Lemma wsum_f_units c x x' n k : binary c -> (forall i, sc c (x i) (x' i)) -> sc c (wsum_f x n k) (wsum_f x' n k).
Proof.
  intros Bc H. induction k as [|k IH]; cbn [wsum_f]; [apply fsum_map_units; auto|]. apply sc_r53; auto. apply sc_plus; auto. apply sc_r53; auto. apply sc_minus; auto.
  apply sc_r53; auto. now apply sc_divk.
Qed.
Lemma di_f_units c x x' t t' : 0 < c -> sc c x x' -> sc c t t' -> sc 1 (di_f x t) (di_f x' t').
Proof.
  intros Hc Hx Ht. unfold di_f. apply sc_if; [apply (Qltb_sc c); auto; apply sc_0| |apply sc_0]. apply sc_r53; [apply binary_1|]. apply sc_const. now apply (r53_ratio c).
Qed.
Lemma dx_of_f_units p p' m m' : sc 1 p p' -> sc 1 m m' -> sc 1 (dx_of_f p m) (dx_of_f p' m').
Proof.
  intros Hp Hm. assert (A : sc 1 (r53 (p + m)) (r53 (p' + m'))) by (apply sc_r53; [apply binary_1|now apply sc_plus]). unfold dx_of_f.
  apply sc_if; [apply (Qltb_sc 1); auto; [lra|apply sc_0]| |apply sc_0]. apply sc_r53; [apply binary_1|]. apply sc_const, (r53_ratio 1); auto; [lra|].
  apply sc_abs; [lra|]. apply sc_r53; [apply binary_1|now apply sc_minus].
Qed.
Lemma adx_at_f_units d d' n k : (forall i, sc 1 (d i) (d' i)) -> sc 1 (adx_at_f d n k) (adx_at_f d' n k).
Proof.
  intro H. pose proof binary_1. induction k as [|k IH]; cbn [adx_at_f]; apply sc_r53; auto; apply sc_divk; [apply fsum_map_units; auto|]. apply sc_r53; auto. apply sc_plus; auto.
  apply sc_r53; auto. now apply sc_const_r.
Qed.
Lemma adx_f_units c hi hi' lo lo' cl cl' n : 0 < c -> binary c -> scl c hi hi' -> scl c lo lo' -> scl c cl cl' -> scl 1 (adx_core_f hi lo cl n) (adx_core_f hi' lo' cl' n).
Proof.
  intros Hc Bc Hh Hl H. unfold adx_core_f. rewrite (scl_length _ _ _ Hh). apply F2_map_same. intros i _. apply sc_if; [reflexivity|apply sc_0|].
  apply adx_at_f_units. intro j. unfold dx_f. cbv zeta. destruct (j <? n)%nat; [apply sc_0|].
  assert (T : sc c (wsum_f (true_rng_f hi lo cl) n (j - n)) (wsum_f (true_rng_f hi' lo' cl') n (j - n))) by (apply wsum_f_units; auto; intro; now apply tr_f_units).
  apply dx_of_f_units; apply (di_f_units c); auto; apply wsum_f_units; auto; intro; now apply pdm_f_units.
Qed.

(** CUSUM bars and the CUSUM filter: the logarithms see only quotients. *)
Lemma log_ret_f_units ln c p p' k : respects ln -> 0 < c -> scl c p p' -> sc 1 (log_ret_f ln p k) (log_ret_f ln p' k).
Proof. intros Hl Hc H. apply sc_eq. unfold log_ret_f. apply Hl. apply sc_eq, (r53_ratio c); auto; now apply scl_nth. Qed.
Lemma cusum_f_units ln c ts p p' sigma fl m : respects ln -> 0 < c -> scl c p p' ->
  cusum_bar_indexer_f ln ts p' sigma fl m = cusum_bar_indexer_f ln ts p sigma fl m.
Proof.
  intros Hl Hc Hp. unfold cusum_bar_indexer_f. cbv zeta. rewrite (scl_length _ _ _ Hp). symmetry.
  refine (proj1 (fold_rel (fun s s' : cusum_state => cs_idx s = cs_idx s' /\ sc 1 (cs_pos s) (cs_pos s') /\ sc 1 (cs_neg s) (cs_neg s')) _ _ _ _ _ _ _)).
  - intros [i a b] [i' a' b'] k (E & R1 & R2). cbn [cs_idx cs_pos cs_neg] in *. subst i'. unfold cusum_bar_step_f. cbn [cs_idx cs_pos cs_neg].
    pose proof (log_ret_f_units ln c p p' k Hl Hc Hp) as L.
    assert (A : sc 1 (pmax 0 (r53 (a + log_ret_f ln p k))) (pmax 0 (r53 (a' + log_ret_f ln p' k)))) by (apply sc_pmax; [lra|apply sc_0|apply sc_r53; [apply binary_1|now apply sc_plus]]).
    assert (B : sc 1 (pmin 0 (r53 (b + log_ret_f ln p k))) (pmin 0 (r53 (b' + log_ret_f ln p' k)))) by (apply sc_pmin; [lra|apply sc_0|apply sc_r53; [apply binary_1|now apply sc_plus]]).
    rewrite (scl_length _ _ _ Hp). destruct (_ && _)%bool; cbn [cs_idx cs_pos cs_neg]; [auto|].
    destruct (cusum_lam_f _ _ _ _) as [lam|]; cbn [cs_idx cs_pos cs_neg]; [|auto].
    rewrite (Qleb_sc 1 lam _ lam _ ltac:(lra) (sc_1 lam) A). destruct (Qleb lam _); cbn [cs_idx cs_pos cs_neg]; [repeat split; auto; apply sc_0|].
    rewrite (Qleb_sc 1 _ (- lam) _ (- lam) ltac:(lra) B (sc_1 _)). destruct (Qleb _ (- lam)); cbn [cs_idx cs_pos cs_neg]; repeat split; auto; apply sc_0.
  - cbn [cs_idx cs_pos cs_neg]. repeat split; apply sc_0.
Qed.
Lemma filter_f_units ln c p p' thr : respects ln -> 0 < c -> scl c p p' -> cusum_filter_f ln p' thr = cusum_filter_f ln p thr.
Proof.
  intros Hl Hc Hp. unfold cusum_filter_f. cbv zeta. rewrite (scl_length _ _ _ Hp). destruct (_ <=? 1)%nat; [reflexivity|]. destruct (_ && _)%bool; [reflexivity|]. f_equal. symmetry.
  refine (proj1 (fold_rel (fun s s' : cusum_state => cs_idx s = cs_idx s' /\ sc 1 (cs_pos s) (cs_pos s') /\ sc 1 (cs_neg s) (cs_neg s')) _ _ _ _ _ _ _)).
  - intros [i a b] [i' a' b'] k (E & R1 & R2). cbn [cs_idx cs_pos cs_neg] in *. subst i'. unfold cusum_filter_step_f. cbn [cs_idx cs_pos cs_neg]. cbv zeta.
    pose proof (log_ret_f_units ln c p p' k Hl Hc Hp) as L.
    assert (A : sc 1 (pmax 0 (r53 (a + log_ret_f ln p k))) (pmax 0 (r53 (a' + log_ret_f ln p' k)))) by (apply sc_pmax; [lra|apply sc_0|apply sc_r53; [apply binary_1|now apply sc_plus]]).
    assert (B : sc 1 (pmin 0 (r53 (b + log_ret_f ln p k))) (pmin 0 (r53 (b' + log_ret_f ln p' k)))) by (apply sc_pmin; [lra|apply sc_0|apply sc_r53; [apply binary_1|now apply sc_plus]]).
    destruct (nth k _ None) as [t|]; cbn [cs_idx cs_pos cs_neg]; [|auto].
    rewrite (Qltb_sc 1 _ (- t) _ (- t) ltac:(lra) B (sc_1 _)). destruct (Qltb _ (- t)); cbn [cs_idx cs_pos cs_neg]; [repeat split; auto; apply sc_0|].
    rewrite (Qltb_sc 1 t _ t _ ltac:(lra) (sc_1 t) A). destruct (Qltb t _); cbn [cs_idx cs_pos cs_neg]; repeat split; auto; apply sc_0.
  - cbn [cs_idx cs_pos cs_neg]. repeat split; apply sc_0.
Qed.
