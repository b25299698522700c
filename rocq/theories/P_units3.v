(** P_units3.v -- indicators under a change of units. *)
From Coq Require Import Qpower Qfield.
From Verif Require Import Base M_logic M_bars M_features M_volat M_volume S_units P_units P_units2.
Open Scope Q_scope.

(** Averages. *)
Lemma ewma_loop_units c alpha u u' v ys ys' : sc c u u' -> scl c ys ys' -> scl c (ewma_loop alpha u v ys) (ewma_loop alpha u' v ys').
Proof.
  intros Hu H. revert u u' v Hu. induction H as [|y y' l l' Hy H IH]; intros u u' v Hu; cbn [ewma_loop]; constructor.
  - apply sc_divk, sc_plus; [auto|now apply sc_const].
  - apply IH. apply sc_plus; [auto|now apply sc_const].
Qed.
Lemma ewma_units c ys ys' span : scl c ys ys' -> both (scl c) (ewma ys span) (ewma ys' span).
Proof.
  intro H. unfold ewma. destruct (span <? 1)%Z; [reflexivity|]. destruct H as [|y y' l l' Hy H]; cbn [both]; [constructor|].
  constructor; [now apply sc_divk|now apply ewma_loop_units].
Qed.
Lemma sma_units c xs xs' w : scl c xs xs' -> oscl c (sma xs w) (sma xs' w).
Proof.
  intro H. unfold sma. rewrite (scl_length _ _ _ H). apply F2_map_same. intros i _. apply osc_if; [reflexivity|exact I|].
  apply sc_const, scl_qsum. now apply scl_lastn.
Qed.
(** Momentum. *)
Lemma existsb_ext' {A} (f g : A -> bool) l : (forall x, f x = g x) -> existsb f l = existsb g l.
Proof. intro H. induction l as [|x l IH]; cbn [existsb]; [reflexivity|]. now rewrite H, IH. Qed.
Lemma roc_units c p p' n : 0 < c -> scl c p p' -> both (oscl 1) (roc p n) (roc p' n).
Proof.
  intros Hc H. unfold roc. rewrite (scl_length _ _ _ H).
  rewrite (existsb_ext' (fun i => Qeqb (qn p (i - n)) 0) (fun i => Qeqb (qn p' (i - n)) 0)).
  2:{ intro i. apply (Qeqb_sc c); auto; [now apply scl_qn|apply sc_0]. }
  destruct (existsb _ _); [reflexivity|]. cbn [both]. apply F2_map_same. intros i _. apply osc_if; [reflexivity|exact I|].
  apply sc_const_r, sc_eq, (sc_ratio c); auto; [apply sc_minus|]; now apply scl_qn.
Qed.
Lemma diff_units c p p' i : scl c p p' -> sc c (diff p i) (diff p' i).
Proof. intro H. unfold diff. apply sc_minus; now apply scl_qn. Qed.
Lemma gain_units c p p' i : 0 < c -> scl c p p' -> sc c (gain p i) (gain p' i).
Proof. intros Hc H. pose proof (diff_units c p p' i H). unfold gain. apply sc_if; auto; [apply (Qltb_sc c)|]; auto; apply sc_0. Qed.
Lemma loss_units c p p' i : 0 < c -> scl c p p' -> sc c (loss p i) (loss p' i).
Proof. intros Hc H. pose proof (diff_units c p p' i H). unfold loss. apply sc_if; [apply (Qltb_sc c)| |]; auto; try apply sc_0. now apply sc_opp. Qed.
Lemma rsi_sums_units c p p' w : 0 < c -> scl c p p' -> sc c (fst (rsi_sums p w)) (fst (rsi_sums p' w)) /\ sc c (snd (rsi_sums p w)) (snd (rsi_sums p' w)).
Proof.
  intros Hc H. unfold rsi_sums. apply (fold_rel (fun s s' : Q * Q => sc c (fst s) (fst s') /\ sc c (snd s) (snd s'))).
  - intros [a b] [a' b'] k [R1 R2]. cbn [fst snd] in *. cbv zeta. pose proof (diff_units c p p' k H) as D.
    rewrite (Qltb_sc c 0 (diff p k) 0 (diff p' k) Hc (sc_0 c) D). destruct (Qltb 0 _); cbn [fst snd]; split; auto; [now apply sc_plus|apply sc_plus; [auto|now apply sc_opp]].
  - split; apply sc_0.
Qed.
Lemma wilder_units c w a a' x x' k : sc c a a' -> (forall i, sc c (x i) (x' i)) -> sc c (wilder w a x k) (wilder w a' x' k).
Proof. intros Ha Hx. induction k as [|k IH]; cbn [wilder]; [auto|]. apply sc_divk, sc_plus; [now apply sc_const|auto]. Qed.
Lemma rsi_expr_units c a a' b b' : 0 < c -> sc c a a' -> sc c b b' -> sc 1 (100 - 100 / (1 + a / b)) (100 - 100 / (1 + a' / b')).
Proof.
  intros Hc Ha Hb. apply sc_eq. rewrite (sc_ratio c a b a' b' Hc Ha Hb). reflexivity.
Qed.
Lemma rsi_units c p p' w : 0 < c -> scl c p p' -> oscl 1 (rsi_wilder p w) (rsi_wilder p' w).
Proof.
  intros Hc H. unfold rsi_wilder. cbv zeta. rewrite (scl_length _ _ _ H). destruct (rsi_sums_units c p p' w Hc H) as [S1 S2].
  apply F2_map_same. intros i _. apply osc_if; [reflexivity|exact I|].
  assert (G : sc c (wilder w (fst (rsi_sums p w) / Qnat w) (gain p) (i - w)) (wilder w (fst (rsi_sums p' w) / Qnat w) (gain p') (i - w))).
  { apply wilder_units; [now apply sc_divk|]. intro j. now apply gain_units. }
  assert (L : sc c (wilder w (snd (rsi_sums p w) / Qnat w) (loss p) (i - w)) (wilder w (snd (rsi_sums p' w) / Qnat w) (loss p') (i - w))).
  { apply wilder_units; [now apply sc_divk|]. intro j. now apply loss_units. }
  unfold rsi_value. apply osc_if; [apply (Qltb_sc c); auto; apply sc_0| |exact I]. now apply (rsi_expr_units c).
Qed.
Lemma rsi_pd_units c p p' w : 0 < c -> scl c p p' -> both (oscl 1) (rsi_pd p w) (rsi_pd p' w).
Proof.
  intros Hc H. unfold rsi_pd. cbv zeta. rewrite (scl_length _ _ _ H). destruct (_ <=? _)%nat; [reflexivity|]. cbn [both].
  assert (G : forall j, sc c (gain_pd p j) (gain_pd p' j)).
  { intro j. pose proof (diff_units c p p' j H). unfold gain_pd. apply sc_if; auto; [apply (Qltb_sc c)|]; auto; apply sc_0. }
  assert (L : forall j, sc c (loss_pd p j) (loss_pd p' j)).
  { intro j. pose proof (diff_units c p p' j H). unfold loss_pd. apply sc_opp, sc_if; auto; [apply (Qltb_sc c)|]; auto; apply sc_0. }
  apply F2_map_same. intros i _. apply osc_if; [reflexivity|exact I|]. cbn [osc]. unfold rsi_value_pd.
  assert (WG := wilder_units c w _ _ _ _ (i - w) (sc_divk c (Qnat w) _ _ (sc_qsum_map c (gain_pd p) (gain_pd p') (seq 1 w) (fun j _ => G j))) G).
  assert (WL := wilder_units c w _ _ _ _ (i - w) (sc_divk c (Qnat w) _ _ (sc_qsum_map c (loss_pd p) (loss_pd p') (seq 1 w) (fun j _ => L j))) L).
  apply sc_if; [apply (Qeqb_sc c); auto; apply sc_0|apply sc_1|]. now apply (rsi_expr_units c).
Qed.
Lemma lmin_units c l l' : 0 < c -> scl c l l' -> sc c (lmin l) (lmin l').
Proof.
  intros Hc H. destruct H as [|x x' l l' Hx H]; cbn [lmin]; [apply sc_0|]. apply (fold_rel2 (sc c) (sc c)); auto. intros. now apply sc_pmin.
Qed.
Lemma lmax_units c l l' : 0 < c -> scl c l l' -> sc c (lmax l) (lmax l').
Proof.
  intros Hc H. destruct H as [|x x' l l' Hx H]; cbn [lmax]; [apply sc_0|]. apply (fold_rel2 (sc c) (sc c)); auto. intros. now apply sc_pmax.
Qed.
Lemma stoch_ext_units c lo lo' hi hi' n k : 0 < c -> scl c lo lo' -> scl c hi hi' ->
  sc c (fst (stoch_ext lo hi n k)) (fst (stoch_ext lo' hi' n k)) /\ sc c (snd (stoch_ext lo hi n k)) (snd (stoch_ext lo' hi' n k)).
Proof.
  intros Hc Hl Hh. induction k as [|k [I1 I2]]; cbn [stoch_ext].
  - cbn [fst snd]. split; [apply lmin_units|apply lmax_units]; auto; now apply F2_firstn.
  - cbv zeta. rewrite (Qeqb_sc c _ _ _ _ Hc (scl_qn c lo lo' (n + k - n) Hl) I1), (Qeqb_sc c _ _ _ _ Hc (scl_qn c hi hi' (n + k - n) Hh) I2).
    destruct (_ || _)%bool; cbn [fst snd]; split.
    + apply lmin_units; auto. now apply scl_lastn.
    + apply lmax_units; auto. now apply scl_lastn.
    + apply sc_pmin; auto. now apply scl_qn.
    + apply sc_pmax; auto. now apply scl_qn.
Qed.
Lemma stoch_units c cl cl' lo lo' hi hi' n : 0 < c -> scl c cl cl' -> scl c lo lo' -> scl c hi hi' -> oscl 1 (stoch_k cl lo hi n) (stoch_k cl' lo' hi' n).
Proof.
  intros Hc H Hl Hh. unfold stoch_k. cbv zeta. rewrite (scl_length _ _ _ H). apply F2_map_same. intros t _. apply osc_if; [reflexivity|exact I|].
  destruct (stoch_ext_units c lo lo' hi hi' n (t + 1 - n) Hc Hl Hh) as [I1 I2]. apply osc_if; [now apply (Qltb_sc c)| |exact I].
  apply sc_eq, (sc_ratio c); auto; [apply sc_const|]; apply sc_minus; auto. now apply scl_qn.
Qed.
(** Distance from the VWAP, lagged returns. *)
Lemma flog_units ln x y : respects ln -> x == y -> esc 1 (flog ln x) (flog ln y).
Proof.
  intros Hl E. unfold flog. assert (S0 : sc 1 x y) by now apply sc_eq.
  rewrite (Qltb_sc 1 0 x 0 y ltac:(lra) (sc_0 1) S0), (Qeqb_sc 1 x 0 y 0 ltac:(lra) S0 (sc_0 1)).
  destruct (Qltb 0 y); [cbn [esc]; now apply sc_eq, Hl|]. destruct (Qeqb y 0); exact I.
Qed.
Lemma vwap_dist_units ln lg c d x x' w w' v v' : respects ln -> 0 < c -> 0 < d -> sc c x x' -> sc (c * d) w w' -> sc d v v' ->
  both (esc 1) (vwap_dist ln lg x w v) (vwap_dist ln lg x' w' v').
Proof.
  intros Hl Hc Hd Hx Hw Hv. unfold vwap_dist.
  assert (P : sc c (w / v) (w' / v')) by (apply (sc_unit (c * d / d)); [field; lra|now apply sc_div]).
  rewrite (Qeqb_sc c _ 0 _ 0 Hc P (sc_0 c)). destruct (Qeqb _ 0); [reflexivity|].
  assert (R : x / (w / v) == x' / (w' / v')) by now apply (sc_ratio c).
  destruct lg; cbn [both]; [now apply flog_units|]. cbn [esc]. apply sc_eq. now rewrite R.
Qed.
Lemma vwap_state_units ln c d cl cl' v v' n lg k : respects ln -> 0 < c -> 0 < d -> scl c cl cl' -> scl d v v' ->
  sc (c * d) (fst (fst (vwap_state ln cl v n lg k))) (fst (fst (vwap_state ln cl' v' n lg k))) /\
  sc d (snd (fst (vwap_state ln cl v n lg k))) (snd (fst (vwap_state ln cl' v' n lg k))) /\
  both (esc 1) (snd (vwap_state ln cl v n lg k)) (snd (vwap_state ln cl' v' n lg k)).
Proof.
  intros Hl Hc Hd H Hv. assert (PQ : forall j, sc (c * d) (qn cl j * qn v j) (qn cl' j * qn v' j)) by (intro; apply sc_mult; now apply scl_qn).
  assert (PV : forall j, sc d (qn v j) (qn v' j)) by (intro; now apply scl_qn).
  induction k as [|k (I1 & I2 & I3)]; cbn [vwap_state]; cbv zeta; cbn [fst snd].
  - assert (A : sc (c * d) (fold_left (fun s j => s + qn cl j * qn v j) (seq 0 n) 0) (fold_left (fun s j => s + qn cl' j * qn v' j) (seq 0 n) 0)).
    { apply fold_rel; [|apply sc_0]. intros. now apply sc_plus. }
    assert (B : sc d (fold_left (fun s j => s + qn v j) (seq 0 n) 0) (fold_left (fun s j => s + qn v' j) (seq 0 n) 0)).
    { apply fold_rel; [|apply sc_0]. intros. now apply sc_plus. }
    repeat split; auto. rewrite (Qltb_sc d 0 _ 0 _ Hd (sc_0 d) B). destruct (Qltb 0 _); [|exact I]. apply (vwap_dist_units ln false c d); auto. now apply scl_qn.
  - assert (A : sc (c * d) (fst (fst (vwap_state ln cl v n lg k)) + (qn cl (n + k) * qn v (n + k) - qn cl (n + k - n) * qn v (n + k - n)))
                           (fst (fst (vwap_state ln cl' v' n lg k)) + (qn cl' (n + k) * qn v' (n + k) - qn cl' (n + k - n) * qn v' (n + k - n)))).
    { apply sc_plus; auto. now apply sc_minus. }
    assert (B : sc d (snd (fst (vwap_state ln cl v n lg k)) + (qn v (n + k) - qn v (n + k - n))) (snd (fst (vwap_state ln cl' v' n lg k)) + (qn v' (n + k) - qn v' (n + k - n)))).
    { apply sc_plus; auto. now apply sc_minus. }
    repeat split; auto. rewrite (Qltb_sc d 0 _ 0 _ Hd (sc_0 d) B). destruct (Qltb 0 _); [|exact I3]. apply (vwap_dist_units ln lg c d); auto. now apply scl_qn.
Qed.
Lemma vwap_units ln c d cl cl' v v' n lg : respects ln -> 0 < c -> 0 < d -> scl c cl cl' -> scl d v v' ->
  both (escl 1) (vwap_distance ln cl v n lg) (vwap_distance ln cl' v' n lg).
Proof.
  intros Hl Hc Hd H Hv. unfold vwap_distance. rewrite (scl_length _ _ _ H). apply both_collect. apply F2_map_same. intros i _.
  destruct (_ <? _)%nat; [exact I|]. now apply (vwap_state_units ln c d).
Qed.
Lemma lagged_units ln c ts cl cl' W lg : respects ln -> 0 < c -> scl c cl cl' -> both (escl 1) (comp_lagged_returns ln ts cl W lg) (comp_lagged_returns ln ts cl' W lg).
Proof.
  intros Hl Hc H. unfold comp_lagged_returns. cbv zeta. rewrite (scl_length _ _ _ H). destruct (W <=? 0)%Z; [reflexivity|]. cbn [both].
  apply F2_map_same. intros i _. destruct (_ <? _)%nat; [exact I|]. destruct (_ && _)%bool; [|exact I]. unfold lag_return.
  set (j := Z.to_nat _). clearbody j. pose proof (scl_qn c cl cl' i H) as Pi. pose proof (scl_qn c cl cl' j H) as Pj.
  rewrite (Qeqb_sc c _ 0 _ 0 Hc Pj (sc_0 c)). destruct (Qeqb _ 0); [exact I|].
  assert (R : qn cl i / qn cl j == qn cl' i / qn cl' j) by now apply (sc_ratio c).
  destruct lg; [now apply flog_units|]. cbn [esc]. apply sc_eq. now rewrite R.
Qed.
(** Z-score, burst ratio, percent change. *)
Lemma sqr_units c x x' : sc c x x' -> sc (c * c) (x * x) (x' * x').
Proof. intro H. now apply sc_mult. Qed.
Lemma zscore_units sqrt c xs xs' w ddof : square_root_like sqrt -> 0 < c -> scl c xs xs' -> oscl 1 (comp_zscore sqrt xs w ddof) (comp_zscore sqrt xs' w ddof).
Proof.
  intros Hs Hc H. unfold comp_zscore. cbv zeta. rewrite (scl_length _ _ _ H). apply F2_map_same. intros i _. apply osc_if; [reflexivity|exact I|].
  pose proof (scl_lastn c xs xs' i w H) as L. set (l := lastn xs i w) in *. set (l' := lastn xs' i w) in *. rewrite (scl_length _ _ _ L).
  assert (M : sc c (qsum l / Qnat (length l)) (qsum l' / Qnat (length l))) by now apply sc_divk, scl_qsum.
  assert (SD : sc c (sqrt (qsum (map (fun x => (x - qsum l / Qnat (length l)) * (x - qsum l / Qnat (length l))) l) / inject_Z (Z.of_nat (length l) - ddof)))
                    (sqrt (qsum (map (fun x => (x - qsum l' / Qnat (length l)) * (x - qsum l' / Qnat (length l))) l') / inject_Z (Z.of_nat (length l) - ddof)))).
  { apply Hs; auto. apply sc_divk, scl_qsum. eapply F2_map; [|exact L]. intros x y Rx. cbv beta. apply sqr_units. now apply sc_minus. }
  rewrite (Qeqb_sc c _ 0 _ 0 Hc SD (sc_0 c)). destruct (Qeqb _ 0); [exact I|]. cbn [osc]. apply sc_eq, (sc_ratio c); auto. apply sc_minus; auto. now apply scl_qn.
Qed.
Lemma burst_units c xs xs' w : 0 < c -> scl c xs xs' -> oscl 1 (comp_burst_ratio xs w) (comp_burst_ratio xs' w).
Proof.
  intros Hc H. unfold comp_burst_ratio. cbv zeta. rewrite (scl_length _ _ _ H). apply F2_map_same. intros i _. apply osc_if; [reflexivity|exact I|].
  pose proof (sc_median c _ _ Hc (scl_lastn c xs xs' i w H)) as M. apply osc_if; [apply (Qltb_sc c); auto; apply sc_0| |exact I].
  apply sc_eq, (sc_ratio c); auto. now apply scl_qn.
Qed.
Lemma pct_units c xs xs' n : 0 < c -> scl c xs xs' -> oscl 1 (pct_change xs n) (pct_change xs' n).
Proof.
  intros Hc H. unfold pct_change. cbv zeta. rewrite (scl_length _ _ _ H). apply F2_map_same. intros i _. apply osc_if; [reflexivity|exact I|].
  pose proof (scl_qn c xs xs' (i - n) H) as B. apply osc_if; [apply (Qltb_sc c); auto; apply sc_0| |exact I].
  apply sc_eq, (sc_ratio c); auto. apply sc_minus; auto. now apply scl_qn.
Qed.
(** Trend. *)
Lemma tr_units c hi hi' lo lo' cl cl' i : 0 < c -> scl c hi hi' -> scl c lo lo' -> scl c cl cl' -> sc c (true_rng hi lo cl i) (true_rng hi' lo' cl' i).
Proof.
  intros Hc Hh Hl H. unfold true_rng. destruct (i =? 0)%nat; [apply sc_0|].
  apply sc_pmax; auto; [apply sc_pmax; auto; [|apply sc_abs; auto]|apply sc_abs; auto]; apply sc_minus; now apply scl_qn.
Qed.
Lemma pdm_units c hi hi' lo lo' i : 0 < c -> scl c hi hi' -> scl c lo lo' -> sc c (plus_dm hi lo i) (plus_dm hi' lo' i) /\ sc c (minus_dm hi lo i) (minus_dm hi' lo' i).
Proof.
  intros Hc Hh Hl. unfold plus_dm, minus_dm. cbv zeta. destruct (i =? 0)%nat; [split; apply sc_0|].
  assert (A : sc c (qn hi i - qn hi (i - 1)) (qn hi' i - qn hi' (i - 1))) by (apply sc_minus; now apply scl_qn).
  assert (B : sc c (qn lo (i - 1) - qn lo i) (qn lo' (i - 1) - qn lo' i)) by (apply sc_minus; now apply scl_qn).
  split; apply sc_if; auto; try apply sc_0; f_equal; apply (Qltb_sc c); auto; apply sc_0.
Qed.
Lemma wsum_units c x x' n k : (forall i, sc c (x i) (x' i)) -> sc c (wsum x n k) (wsum x' n k).
Proof.
  intro H. induction k as [|k IH]; cbn [wsum]; [apply sc_qsum_map; auto|]. apply sc_plus; auto. apply sc_minus; auto. now apply sc_divk.
Qed.
Lemma di_units c x x' t t' : 0 < c -> sc c x x' -> sc c t t' -> sc 1 (di x t) (di x' t').
Proof.
  intros Hc Hx Ht. unfold di. apply sc_if; [apply (Qltb_sc c); auto; apply sc_0| |apply sc_0]. apply sc_const, sc_eq. now apply (sc_ratio c).
Qed.
Lemma dx_of_units p p' m m' : sc 1 p p' -> sc 1 m m' -> sc 1 (dx_of p m) (dx_of p' m').
Proof.
  intros Hp Hm. assert (A : sc 1 (p + m) (p' + m')) by now apply sc_plus. unfold dx_of.
  apply sc_if; [apply (Qltb_sc 1); auto; [lra|apply sc_0]| |apply sc_0]. apply sc_const, sc_eq, (sc_ratio 1); auto; [lra|]. apply sc_abs; [lra|now apply sc_minus].
Qed.
Lemma adx_at_units d d' n k : (forall i, sc 1 (d i) (d' i)) -> sc 1 (adx_at d n k) (adx_at d' n k).
Proof.
  intro H. induction k as [|k IH]; cbn [adx_at]; apply sc_divk; [apply sc_qsum_map; auto|]. apply sc_plus; auto. now apply sc_const_r.
Qed.
Lemma adx_units c hi hi' lo lo' cl cl' n : 0 < c -> scl c hi hi' -> scl c lo lo' -> scl c cl cl' -> scl 1 (adx_core hi lo cl n) (adx_core hi' lo' cl' n).
Proof.
  intros Hc Hh Hl H. unfold adx_core. rewrite (scl_length _ _ _ Hh). apply F2_map_same. intros i _. apply sc_if; [reflexivity|apply sc_0|].
  apply adx_at_units. intro j. unfold dx. cbv zeta. destruct (j <? n)%nat; [apply sc_0|].
  assert (T : sc c (wsum (true_rng hi lo cl) n (j - n)) (wsum (true_rng hi' lo' cl') n (j - n))) by (apply wsum_units; intro; now apply tr_units).
  assert (P : sc c (wsum (plus_dm hi lo) n (j - n)) (wsum (plus_dm hi' lo') n (j - n))) by (apply wsum_units; intro; now apply pdm_units).
  assert (M : sc c (wsum (minus_dm hi lo) n (j - n)) (wsum (minus_dm hi' lo') n (j - n))) by (apply wsum_units; intro; now apply pdm_units).
  apply dx_of_units; now apply (di_units c).
Qed.
