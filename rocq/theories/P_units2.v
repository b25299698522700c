(** P_units2.v -- bars under a change of units. *)
From Coq Require Import Qpower Qfield.
From Verif Require Import Base M_logic M_bars M_footprint M_features S_units S_unitbars P_units P_float.
Open Scope Q_scope.

(** Indexers. *)
Lemma volume_units d v v' t t' : 0 < d -> scl d v v' -> sc d t t' -> volume_bar_indexer v' t' = volume_bar_indexer v t.
Proof.
  intros Hd Hv Ht. unfold volume_bar_indexer. rewrite (scl_length _ _ _ Hv). symmetry.
  refine (proj1 (fold_rel (fun s s' : list nat * Q => fst s = fst s' /\ sc d (snd s) (snd s')) _ _ _ _ _ _ _)).
  - intros [i q] [i' q'] k [E R]. cbn [fst snd] in *. subst i'. unfold volume_step.
    assert (A : sc d (q + nth k v 0) (q' + nth k v' 0)) by (apply sc_plus; [auto|now apply scl_nth]).
    rewrite (Qleb_sc d t (q + nth k v 0) t' (q' + nth k v' 0)) by auto. destruct (Qleb t' _); cbn [fst snd]; split; auto. apply sc_0.
  - cbn [fst snd]. split; [reflexivity|now apply scl_nth].
Qed.
Lemma dollar_units c d p p' v v' t t' : 0 < c -> 0 < d -> scl c p p' -> scl d v v' -> sc (c * d) t t' ->
  dollar_bar_indexer p' v' t' = dollar_bar_indexer p v t.
Proof.
  intros Hc Hd Hp Hv Ht. assert (Hcd : 0 < c * d) by nra. unfold dollar_bar_indexer, dollar_bar_run. rewrite (scl_length _ _ _ Hp). symmetry.
  refine (proj1 (fold_rel (fun s s' : list nat * Q => fst s = fst s' /\ sc (c * d) (snd s) (snd s')) _ _ _ _ _ _ _)).
  - intros [i q] [i' q'] k [E R]. cbn [fst snd] in *. subst i'. unfold dollar_step.
    assert (A : sc (c * d) (q + nth k p 0 * nth k v 0) (q' + nth k p' 0 * nth k v' 0)) by (apply sc_plus; [auto|apply sc_mult; now apply scl_nth]).
    rewrite (Qleb_sc (c * d) t (q + nth k p 0 * nth k v 0) t' (q' + nth k p' 0 * nth k v' 0)) by auto.
    destruct (Qleb t' _); cbn [fst snd]; split; auto. now apply sc_minus.
  - cbn [fst snd]. split; [reflexivity|apply sc_mult; now apply scl_nth].
Qed.
Lemma cusum_units ln c ts p p' sigma fl m : respects ln -> 0 < c -> scl c p p' ->
  cusum_bar_indexer ln ts p' sigma fl m = cusum_bar_indexer ln ts p sigma fl m.
Proof.
  intros Hl Hc Hp. unfold cusum_bar_indexer. cbv zeta. rewrite (scl_length _ _ _ Hp). symmetry.
  refine (proj1 (fold_rel (fun s s' : cusum_state => cs_idx s = cs_idx s' /\ sc 1 (cs_pos s) (cs_pos s') /\ sc 1 (cs_neg s) (cs_neg s')) _ _ _ _ _ _ _)).
  - intros [i a b] [i' a' b'] k (E & R1 & R2). cbn [cs_idx cs_pos cs_neg] in *. subst i'. unfold cusum_bar_step. cbn [cs_idx cs_pos cs_neg].
    assert (L : sc 1 (log_ret ln p k) (log_ret ln p' k)).
    { apply sc_eq. unfold log_ret. apply Hl. apply (sc_ratio c); auto; now apply scl_nth. }
    assert (A : sc 1 (pmax 0 (a + log_ret ln p k)) (pmax 0 (a' + log_ret ln p' k))) by (apply sc_pmax; [lra|apply sc_0|now apply sc_plus]).
    assert (B : sc 1 (pmin 0 (b + log_ret ln p k)) (pmin 0 (b' + log_ret ln p' k))) by (apply sc_pmin; [lra|apply sc_0|now apply sc_plus]).
    rewrite (scl_length _ _ _ Hp). destruct (_ && _)%bool; cbn [cs_idx cs_pos cs_neg]; [auto|].
    destruct (cusum_lam _ _ _ _) as [lam|]; cbn [cs_idx cs_pos cs_neg]; [|auto].
    rewrite (Qleb_sc 1 lam _ lam _ ltac:(lra) (sc_1 lam) A). destruct (Qleb lam _); cbn [cs_idx cs_pos cs_neg]; [repeat split; auto; apply sc_0|].
    rewrite (Qleb_sc 1 _ (- lam) _ (- lam) ltac:(lra) B (sc_1 _)). destruct (Qleb _ (- lam)); cbn [cs_idx cs_pos cs_neg]; repeat split; auto; apply sc_0.
  - cbn [cs_idx cs_pos cs_neg]. repeat split; apply sc_0.
Qed.

(** OHLCV. *)
Lemma scl_map_zget c l l' js : scl c l l' -> scl c (map (zget 0 l) js) (map (zget 0 l') js).
Proof. intro H. apply F2_map_same. intros j _. now apply scl_zget. Qed.
Lemma bar_ohlcv_units c d p p' v v' s e : 0 < c -> 0 < d -> scl c p p' -> scl d v v' ->
  same_bar c d (bar_ohlcv p v s e) (bar_ohlcv p' v' s e).
Proof.
  intros Hc Hd Hp Hv. pose proof (fun i => scl_zget c p p' i Hp) as Zp. pose proof (fun i => scl_zget d v v' i Hv) as Zv. unfold bar_ohlcv.
  destruct (s =? e)%Z. { unfold same_bar. cbn [b_open b_high b_low b_close b_volume b_vwap b_trades b_median]. repeat split; auto; apply sc_0. }
  cbv zeta.
  pose (R := fun st st' : Q * Q * Q * Q => sc c (fst (fst (fst st))) (fst (fst (fst st'))) /\ sc c (snd (fst (fst st))) (snd (fst (fst st')))
          /\ sc d (snd (fst st)) (snd (fst st')) /\ sc (c * d) (snd st) (snd st')).
  assert (F : R (fold_left (ohlcv_step p v) (zrange (s + 1) (e + 1)) (zget 0 p (s + 1), zget 0 p (s + 1), 0, 0))
                (fold_left (ohlcv_step p' v') (zrange (s + 1) (e + 1)) (zget 0 p' (s + 1), zget 0 p' (s + 1), 0, 0))).
  { apply fold_rel.
    - intros [[[h l] a] b] [[[h' l'] a'] b'] k (R1 & R2 & R3 & R4). unfold R, ohlcv_step in *. cbn [fst snd] in *. repeat split.
      + apply sc_if; auto. now apply (Qltb_sc c).
      + apply sc_if; auto. now apply (Qltb_sc c).
      + now apply sc_plus.
      + apply sc_plus; auto. now apply sc_mult.
    - unfold R. cbn [fst snd]. repeat split; auto; apply sc_0. }
  destruct (fold_left (ohlcv_step p v) _ _) as [[[h l] a] b]. destruct (fold_left (ohlcv_step p' v') _ _) as [[[h' l'] a'] b'].
  destruct F as (R1 & R2 & R3 & R4). unfold R in *. cbn [fst snd] in *. unfold same_bar. cbn [b_open b_high b_low b_close b_volume b_vwap b_trades b_median].
  repeat split; auto.
  - apply sc_if; [apply (Qltb_sc d); auto; apply sc_0| |apply sc_0]. apply (sc_unit (c * d / d)); [field; lra|]. now apply sc_div.
  - destruct (_ <? _)%Z; [|apply sc_0]. apply sc_median; auto. now apply scl_map_zget.
Qed.
Lemma ohlcv_units c d p p' v v' closes : 0 < c -> 0 < d -> scl c p p' -> scl d v v' ->
  both (Forall2 (same_bar c d)) (comp_bar_ohlcv p v closes) (comp_bar_ohlcv p' v' closes).
Proof.
  intros Hc Hd Hp Hv. unfold comp_bar_ohlcv. rewrite (scl_length _ _ _ Hp), (scl_length _ _ _ Hv).
  destruct (negb _); [reflexivity|]. destruct (_ <? 2)%nat; [reflexivity|]. cbn [both]. apply F2_map_same. intros k _. now apply bar_ohlcv_units.
Qed.

(** Directional features. *)
Definition dunits (c d : Q) (x y : dstate) : Prop :=
  d_tb y = d_tb x /\ d_ts y = d_ts x /\ sc d (d_vb x) (d_vb y) /\ sc d (d_vs x) (d_vs y) /\ sc (c * d) (d_db x) (d_db y) /\ sc (c * d) (d_ds x) (d_ds y) /\
  d_ct y = d_ct x /\ sc c (d_mx x) (d_mx y) /\ sc c (d_cs x) (d_cs y) /\ d_prev y = d_prev x /\ d_tmin y = d_tmin x /\ d_tmax y = d_tmax x.
Lemma d_step_units c d p p' v v' sides x y j : 0 < c -> 0 < d -> scl c p p' -> scl d v v' -> dunits c d x y ->
  dunits c d (d_step p v sides x j) (d_step p' v' sides y j).
Proof.
  intros Hc Hd Hp Hv (E1 & E2 & E3 & E4 & E5 & E6 & E7 & E8 & E9 & E10 & E11 & E12).
  pose proof (scl_zget c p p' j Hp) as Zp. pose proof (scl_zget c p p' (j - 1) Hp) as Zp1. pose proof (scl_zget d v v' j Hv) as Zv.
  assert (Sp : sc c (Qabs (zget 0 p j - zget 0 p (j - 1))) (Qabs (zget 0 p' j - zget 0 p' (j - 1)))) by (apply sc_abs; [auto|now apply sc_minus]).
  assert (Zd : sc (c * d) (zget 0 p j * zget 0 v j) (zget 0 p' j * zget 0 v' j)) by now apply sc_mult.
  unfold d_step. cbv zeta. rewrite E10. set (a := Qabs (zget 0 p j - zget 0 p (j - 1))) in *. set (a' := Qabs (zget 0 p' j - zget 0 p' (j - 1))) in *.
  assert (M : sc c (if Qltb (d_mx x) a then a else d_mx x) (if Qltb (d_mx y) a' then a' else d_mx y)) by (apply sc_if; auto; now apply (Qltb_sc c)).
  assert (N : sc c (d_cs x + a) (d_cs y + a')) by now apply sc_plus.
  destruct (negb _); (destruct (zget 0%Z sides j =? 1)%Z; [|destruct (zget 0%Z sides j =? -1)%Z]); unfold dunits;
    cbn [d_tb d_ts d_vb d_vs d_db d_ds d_ct d_cv d_cd d_mx d_cs d_prev d_tmin d_tmax];
    rewrite ?E1, ?E2, ?E7, ?E11, ?E12; repeat split; auto; now apply sc_plus.
Qed.
Lemma div_count_units c x x' n : 0 < c -> sc c x x' -> esc c (div_count x n) (div_count x' n).
Proof.
  intros Hc H. unfold div_count. destruct (n =? 0)%Z.
  - rewrite (Qltb_sc c 0 x 0 x' Hc (sc_0 c) H). destruct (Qltb 0 x'); exact I.
  - cbn [esc]. now apply sc_divk.
Qed.
Lemma directional_units c d p p' v v' sides closes : 0 < c -> 0 < d -> scl c p p' -> scl d v v' ->
  Forall2 (same_flow c d) (comp_bar_directional p v sides closes) (comp_bar_directional p' v' sides closes).
Proof.
  intros Hc Hd Hp Hv. unfold comp_bar_directional. apply F2_map_same. intros k _. unfold bar_directional. cbv zeta.
  set (s := nth k closes 0%Z). set (e := nth (S k) closes 0%Z). set (pr := if (s + 1 <? e)%Z then zget 0%Z sides (s + 1 - 1) else 0%Z).
  assert (D : dunits c d (fold_left (d_step p v sides) (zrange (s + 1) (e + 1)) (d_init pr)) (fold_left (d_step p' v' sides) (zrange (s + 1) (e + 1)) (d_init pr))).
  { apply fold_rel; [intros; now apply d_step_units|]. unfold dunits, d_init. cbn [d_tb d_ts d_vb d_vs d_db d_ds d_ct d_cv d_cd d_mx d_cs d_prev d_tmin d_tmax]. repeat split; apply sc_0. }
  destruct D as (E1 & E2 & E3 & E4 & E5 & E6 & E7 & E8 & E9 & E10 & E11 & E12).
  unfold same_flow. cbn [f_ticks_buy f_ticks_sell f_vol_buy f_vol_sell f_dol_buy f_dol_sell f_mean_spread f_max_spread f_ct_min f_ct_max].
  repeat split; auto. rewrite E1, E2. now apply div_count_units.
Qed.

(** Trade sizes. *)
Lemma percentile_units c l l' q : 0 < c -> scl c l l' -> sc c (percentile l q) (percentile l' q).
Proof.
  intros Hc H. pose proof (scl_qsort c l l' Hc H) as Q0. unfold percentile. cbv zeta. rewrite (scl_length _ _ _ H).
  destruct (_ <? _)%nat; [|now apply scl_nth]. apply sc_plus; apply sc_const_r; now apply scl_nth.
Qed.
Lemma Qltb_unit c x y x' y' : c == 1 -> sc c x x' -> sc c y y' -> Qltb x y = Qltb x' y'.
Proof. intros E A B. apply (Qltb_sc c); auto. lra. Qed.
Lemma bar_size_units log1p d am am' th th' m s e : respects log1p -> 0 < d -> scl d am am' -> sc d th th' ->
  same_sizes (bar_size log1p am th m s e) (bar_size log1p am' th' m s e).
Proof.
  intros Hl Hd Ha Ht. unfold bar_size. cbv zeta. destruct (e <? s + 1)%Z; [repeat split; exact I|].
  rewrite (Qeqb_sc d th 0 th' 0 Hd Ht (sc_0 d)). destruct (Qeqb th' 0); [repeat split; exact I|].
  pose proof (scl_slice d am am' (s + 1) (e + 1) Ha) as X. set (xs := slice am (s + 1) (e + 1)) in *. set (xs' := slice am' (s + 1) (e + 1)) in *.
  pose proof (scl_qsum d xs xs' X) as T. assert (TH : sc d (th * m) (th' * m)) by now apply sc_const_r.
  rewrite (scl_length _ _ _ X). rewrite (Qeqb_sc d (qsum xs) 0 (qsum xs') 0 Hd T (sc_0 d)).
  assert (M : log1p (qsum xs / Qnat (length xs) / (th * m)) == log1p (qsum xs' / Qnat (length xs) / (th' * m))).
  { apply Hl. apply (sc_ratio d); auto. now apply sc_divk. }
  assert (P : log1p (percentile xs 95 / (th * m)) == log1p (percentile xs' 95 / (th' * m))).
  { apply Hl. apply (sc_ratio d); auto. now apply percentile_units. }
  destruct (Qeqb (qsum xs') 0); unfold same_sizes; cbn [z_mean z_p95 z_block z_gini osc]; repeat split; try (now apply sc_eq).
  - apply sc_eq. apply (sc_ratio d); auto.
    refine (fold_rel2 (sc d) (sc d) _ _ _ _ _ _ _ X (sc_0 d)). intros x y k j Rx Rk. cbv beta. apply sc_if; [now apply (Qltb_sc d)|now apply sc_plus|auto].
  - destruct (_ =? 1)%nat; [apply sc_0|]. apply sc_minus; [apply sc_1|]. apply scl_qsum.
    eapply F2_map; [|exact X]. intros x y Rx. cbv beta. apply (sc_unit (d / d * (d / d))); [field; lra|]. apply sc_mult; now apply sc_div.
Qed.
Lemma size_units log1p d am am' th th' closes m : respects log1p -> 0 < d -> scl d am am' -> scl d th th' ->
  both (Forall2 same_sizes) (comp_bar_size log1p am th closes m) (comp_bar_size log1p am' th' closes m).
Proof.
  intros Hl Hd Ha Ht. unfold comp_bar_size. rewrite (scl_length _ _ _ Ht). destruct (negb _); [reflexivity|]. cbn [both].
  apply F2_map_same. intros k _. apply (bar_size_units log1p d); auto. now apply scl_nth.
Qed.

(** Footprints. *)
Lemma qadd_at_units d l l' i x x' : scl d l l' -> sc d x x' -> scl d (qadd_at l i x) (qadd_at l' i x').
Proof.
  intros H Hx. unfold qadd_at. rewrite (scl_length _ _ _ H). apply F2_map_same. intros k _. apply sc_if; [reflexivity| |now apply scl_nth].
  apply sc_plus; [now apply scl_nth|auto].
Qed.
Lemma argmax_units d l l' : 0 < d -> scl d l l' -> argmax l' = argmax l.
Proof.
  intros Hd H. destruct H as [|x x' l l' Hx H]; [reflexivity|]. cbn [argmax]. enough (G : forall i b, argmax_from l' i b x' = argmax_from l i b x) by apply G. revert x x' Hx.
  induction H as [|y y' l l' Hy H IH]; intros x x' Hx i b; cbn [argmax_from]; [reflexivity|].
  rewrite (Qltb_sc d x y x' y' Hd Hx Hy). destruct (Qltb x' y'); apply IH; assumption.
Qed.
Definition lunits (d : Q) (x y : levels) : Prop := scl d (lv_bv x) (lv_bv y) /\ scl d (lv_sv x) (lv_sv y) /\ lv_bt y = lv_bt x /\ lv_st y = lv_st x.
Lemma fp_step_units c d p p' a a' sides tick tick' low n x y j : 0 < c -> 0 < d -> scl c p p' -> scl d a a' -> sc c tick tick' ->
  both (lunits d) x y -> both (lunits d) (fp_step p a sides tick low n x j) (fp_step p' a' sides tick' low n y j).
Proof.
  intros Hc Hd Hp Ha Ht H. destruct x as [x|ex], y as [y|ey]; cbn [both] in H; try contradiction; [|exact H]. unfold fp_step. cbv zeta.
  assert (E : rhe (zget 0 p' j / tick') = rhe (zget 0 p j / tick)).
  { apply rhe_comp. symmetry. apply (sc_ratio c); auto. now apply scl_zget. }
  rewrite E. destruct H as (E1 & E2 & E3 & E4). pose proof (scl_zget d a a' j Ha) as Za.
  destruct (_ && _)%bool; [|reflexivity]. destruct (_ =? 1)%Z; [|destruct (_ =? -1)%Z]; cbn [both]; unfold lunits; cbn [lv_bv lv_sv lv_bt lv_st]; rewrite ?E3, ?E4; repeat split; auto; now apply qadd_at_units.
Qed.
Definition same_feat (x y : fp_feat) : Prop := ff_bi y = ff_bi x /\ ff_si y = ff_si x /\ ff_run y = ff_run x /\ ff_cot y = ff_cot x /\ ff_skew x == ff_skew y /\ ff_gini x == ff_gini y.
Lemma feat_units d lv b b' s s' m : 0 < d -> scl d b b' -> scl d s s' -> both same_feat (comp_footprint_features lv b s m) (comp_footprint_features lv b' s' m).
Proof.
  intros Hd Hb Hs. unfold comp_footprint_features. cbv zeta. destruct (length lv =? 0)%nat; [reflexivity|]. cbn [both]. set (n := length lv). clearbody n.
  assert (B : map (buy_imb b' s' m n) (seq 0 n) = map (buy_imb b s m n) (seq 0 n)).
  { apply map_ext. intro i. unfold buy_imb. f_equal. symmetry. apply (Qltb_sc d); auto; [apply sc_const_r|]; now apply scl_nth. }
  assert (S0 : map (sell_imb b' s' m n) (seq 0 n) = map (sell_imb b s m n) (seq 0 n)).
  { apply map_ext. intro i. unfold sell_imb. f_equal. symmetry. apply (Qltb_sc d); auto; [apply sc_const_r|]; now apply scl_nth. }
  rewrite B, S0.
  assert (T : scl d (map (fun i => nth i b 0 + nth i s 0) (seq 0 n)) (map (fun i => nth i b' 0 + nth i s' 0) (seq 0 n))).
  { apply F2_map_same. intros i _. apply sc_plus; now apply scl_nth. }
  set (t := map (fun i => nth i b 0 + nth i s 0) (seq 0 n)) in *. set (t' := map (fun i => nth i b' 0 + nth i s' 0) (seq 0 n)) in *. clearbody t t'.
  pose proof (scl_qsum d t t' T) as Q0.
  assert (P : Qltb 0 (qsum t) = Qltb 0 (qsum t')) by (apply (Qltb_sc d); auto; apply sc_0).
  unfold same_feat. cbn [ff_bi ff_si ff_run ff_cot ff_skew ff_gini]. rewrite (argmax_units d t t' Hd T), <- P.
  repeat split; destruct (Qltb 0 (qsum t) && (0 <? n)%nat)%bool; try reflexivity.
  - assert (V : sc 1 (qsum (map (fun i => inject_Z (nth i lv 0%Z) * nth i t 0) (seq 0 n)) / qsum t) (qsum (map (fun i => inject_Z (nth i lv 0%Z) * nth i t' 0) (seq 0 n)) / qsum t')).
    { apply sc_eq. apply (sc_ratio d); auto. apply sc_qsum_map. intros i _. apply sc_const. now apply scl_nth. }
    apply (sc_ratio d); auto. apply sc_qsum_map. intros i _. apply (sc_unit (1 * d)); [ring|]. apply sc_mult; [|now apply scl_nth]. apply sc_minus; [apply sc_1|auto].
  - apply sc_eq. apply sc_minus; [apply sc_1|]. apply scl_qsum. eapply F2_map; [|exact T]. intros x y Rx. cbv beta.
    apply (sc_unit (d / d * (d / d))); [field; lra|]. apply sc_mult; now apply sc_div.
Qed.
Lemma F2_repeat {A} (R : A -> A -> Prop) x n : R x x -> Forall2 R (repeat x n) (repeat x n).
Proof. intro H. induction n; cbn [repeat]; constructor; auto. Qed.
Lemma bar_fp_units c d p p' a a' sides tick tick' lo lo' hi hi' m s e : 0 < c -> 0 < d -> scl c p p' -> scl d a a' -> sc c tick tick' -> sc c lo lo' -> sc c hi hi' ->
  both (same_footprint d) (bar_footprint p a sides tick lo hi m s e) (bar_footprint p' a' sides tick' lo' hi' m s e).
Proof.
  intros Hc Hd Hp Ha Ht Hlo Hhi. unfold bar_footprint. cbv zeta. rewrite <- (Qeqb_sc c tick 0 tick' 0 Hc Ht (sc_0 c)).
  destruct (Qeqb tick 0); [reflexivity|].
  assert (El : rhe (lo' / tick') = rhe (lo / tick)) by (apply rhe_comp; symmetry; now apply (sc_ratio c)).
  assert (Eh : rhe (hi' / tick') = rhe (hi / tick)) by (apply rhe_comp; symmetry; now apply (sc_ratio c)).
  rewrite El, Eh. set (low := rhe (lo / tick)). set (high := rhe (hi / tick)). destruct (high - low + 1 <? 0)%Z; [reflexivity|].
  set (st0 := mkLv _ _ _ _).
  assert (F : both (lunits d) (fold_left (fp_step p a sides tick low (high - low + 1)) (zrange (s + 1) (e + 1)) (Ok st0))
                (fold_left (fp_step p' a' sides tick' low (high - low + 1)) (zrange (s + 1) (e + 1)) (Ok st0))).
  { apply fold_rel; [intros; now apply (fp_step_units c)|]. cbn [both]. unfold lunits, st0. cbn [lv_bv lv_sv lv_bt lv_st]. repeat split; apply F2_repeat; apply sc_0. }
  destruct (fold_left (fp_step p a sides tick low _) _ _) as [x|ex], (fold_left (fp_step p' a' sides tick' low _) _ _) as [y|ey]; cbn [both] in F; try contradiction; [|exact F].
  destruct F as (E1 & E2 & E3 & E4). pose proof (feat_units d (map (wraps 32) (zrange low (high + 1))) _ _ _ _ m Hd E1 E2) as G.
  destruct (comp_footprint_features _ (lv_bv x) _ _) as [f|ef], (comp_footprint_features _ (lv_bv y) _ _) as [g|eg]; cbn [both] in G; try contradiction; [|exact G].
  destruct G as (G1 & G2 & G3 & G4 & G5 & G6). cbn [both]. unfold same_footprint.
  cbn [fp_levels fp_bv fp_sv fp_bt fp_st fp_bi fp_si fp_bi_sum fp_si_sum fp_cot fp_run fp_skew fp_gini]. rewrite G1, G2, G3, G4. repeat split; auto.
Qed.
Lemma footprints_units c d p p' a a' closes sides tick tick' lows lows' highs highs' m : 0 < c -> 0 < d -> scl c p p' -> scl d a a' -> sc c tick tick' ->
  scl c lows lows' -> scl c highs highs' ->
  both (Forall2 (same_footprint d)) (comp_bar_footprints p a closes sides tick lows highs m) (comp_bar_footprints p' a' closes sides tick' lows' highs' m).
Proof.
  intros Hc Hd Hp Ha Ht Hl Hh. unfold comp_bar_footprints. induction (seq 0 (length closes - 1)) as [|k ks IH]; cbn [run_all]; [constructor|].
  pose proof (bar_fp_units c d p p' a a' sides tick tick' (nth k lows 0) (nth k lows' 0) (nth k highs 0) (nth k highs' 0) m (nth k closes 0%Z) (nth (S k) closes 0%Z)
    Hc Hd Hp Ha Ht (scl_nth _ _ _ k Hl) (scl_nth _ _ _ k Hh)) as B.
  destruct (bar_footprint p a _ _ _ _ _ _ _), (bar_footprint p' a' _ _ _ _ _ _ _); cbn [both] in B; try contradiction; [|exact B].
  destruct (run_all _ ks), (run_all _ ks); cbn [both] in *; try contradiction; auto.
Qed.
