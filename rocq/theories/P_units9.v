(** P_units9.v -- order flow, trade sizes, footprints and volume profiles in float64 and float32 under a change of units by a power of
    two. *)
From Coq Require Import Qpower Qfield Qround.
From Verif Require Import Base M_logic M_bars M_footprint M_features M_volume M_float M_float2 M_float11 M_float12 M_float13 M_float14
  S_units S_unitbars S_unitsf P_units P_units2 P_units3 P_units4 P_units5 P_units7 P_float P_float9.
Open Scope Q_scope.

(** Order flow. *)
Lemma d_step_f_units c d p p' v v' sides x y j : binary c -> binary d -> scl c p p' -> scl d v v' -> dunits c d x y ->
  dunits c d (d_step_f p v sides x j) (d_step_f p' v' sides y j).
Proof.
  intros Bc Bd Hp Hv (E1 & E2 & E3 & E4 & E5 & E6 & E7 & E8 & E9 & E10 & E11 & E12).
  pose proof (binary_pos c Bc) as Hc. pose proof (binary_mul c d Bc Bd) as Bm.
  pose proof (scl_zget c p p' j Hp) as Zp. pose proof (scl_zget c p p' (j - 1) Hp) as Zp1. pose proof (scl_zget d v v' j Hv) as Zv.
  assert (Sp : sc c (Qabs (r53 (zget 0 p j - zget 0 p (j - 1)))) (Qabs (r53 (zget 0 p' j - zget 0 p' (j - 1))))) by (apply sc_abs; [auto|apply sc_r53; auto; now apply sc_minus]).
  assert (Zd : sc (c * d) (r53 (zget 0 p j * zget 0 v j)) (r53 (zget 0 p' j * zget 0 v' j))) by (apply sc_r53; auto; now apply sc_mult).
  unfold d_step_f. cbv zeta. rewrite E10. set (a := Qabs (r53 (zget 0 p j - zget 0 p (j - 1)))) in *. set (a' := Qabs (r53 (zget 0 p' j - zget 0 p' (j - 1)))) in *.
  assert (M : sc c (if Qltb (d_mx x) a then a else d_mx x) (if Qltb (d_mx y) a' then a' else d_mx y)) by (apply sc_if; auto; now apply (Qltb_sc c)).
  assert (N : sc c (r53 (d_cs x + a)) (r53 (d_cs y + a'))) by (apply sc_r53; auto; now apply sc_plus).
  destruct (negb _); (destruct (zget 0%Z sides j =? 1)%Z; [|destruct (zget 0%Z sides j =? -1)%Z]); unfold dunits;
    cbn [d_tb d_ts d_vb d_vs d_db d_ds d_ct d_cv d_cd d_mx d_cs d_prev d_tmin d_tmax];
    rewrite ?E1, ?E2, ?E7, ?E11, ?E12; repeat split; auto; apply sc_r53; auto; now apply sc_plus.
Qed.
Lemma div_count_f_units c x x' n : binary c -> sc c x x' -> esc c (div_count_f x n) (div_count_f x' n).
Proof.
  intros Bc H. pose proof (binary_pos c Bc) as Hc. unfold div_count_f. destruct (n =? 0)%Z.
  - rewrite (Qltb_sc c 0 x 0 x' Hc (sc_0 c) H). destruct (Qltb 0 x'); exact I.
  - cbn [esc]. apply sc_r24; auto. apply sc_r53; auto. now apply sc_divk.
Qed.
Lemma directional_f_units c d p p' v v' sides s e : binary c -> binary d -> scl c p p' -> scl d v v' ->
  same_flow c d (bar_directional_f p v sides s e) (bar_directional_f p' v' sides s e).
Proof.
  intros Bc Bd Hp Hv. pose proof (binary_mul c d Bc Bd) as Bm. unfold bar_directional_f. cbv zeta. set (pr := if (s + 1 <? e)%Z then zget 0%Z sides (s + 1 - 1) else 0%Z).
  assert (D : dunits c d (fold_left (d_step_f p v sides) (zrange (s + 1) (e + 1)) (d_init pr)) (fold_left (d_step_f p' v' sides) (zrange (s + 1) (e + 1)) (d_init pr))).
  { apply fold_rel; [intros; now apply d_step_f_units|]. unfold dunits, d_init. cbn [d_tb d_ts d_vb d_vs d_db d_ds d_ct d_cv d_cd d_mx d_cs d_prev d_tmin d_tmax]. repeat split; apply sc_0. }
  destruct D as (E1 & E2 & E3 & E4 & E5 & E6 & E7 & E8 & E9 & E10 & E11 & E12).
  unfold same_flow. cbn [f_ticks_buy f_ticks_sell f_vol_buy f_vol_sell f_dol_buy f_dol_sell f_mean_spread f_max_spread f_ct_min f_ct_max].
  repeat split; auto; try (now apply sc_r24). rewrite E1, E2. now apply div_count_f_units.
Qed.

(** Trade sizes. *)
Lemma percentile_f_units c l l' q : binary c -> scl c l l' -> sc c (percentile_f l q) (percentile_f l' q).
Proof.
  intros Bc H. pose proof (binary_pos c Bc) as Hc. pose proof (scl_qsort c l l' Hc H) as Q0. unfold percentile_f. cbv zeta. rewrite (scl_length _ _ _ H).
  destruct (_ =? 1)%nat; [now apply scl_nth|]. apply sc_r53; auto. apply sc_plus; apply sc_r53; auto; apply sc_const_r; now apply scl_nth.
Qed.
Lemma bar_size_f_units log1p d am am' th th' m s e : respects log1p -> binary d -> scl d am am' -> sc d th th' ->
  same_sizes (bar_size_f log1p am th m s e) (bar_size_f log1p am' th' m s e).
Proof.
  intros Hl Bd Ha Ht. pose proof (binary_pos d Bd) as Hd. pose proof binary_1 as B1. unfold bar_size_f. cbv zeta. destruct (e <? s + 1)%Z; [repeat split; exact I|].
  rewrite (Qeqb_sc d th 0 th' 0 Hd Ht (sc_0 d)). destruct (Qeqb th' 0); [repeat split; exact I|].
  pose proof (scl_slice d am am' (s + 1) (e + 1) Ha) as X. set (xs := slice am (s + 1) (e + 1)) in *. set (xs' := slice am' (s + 1) (e + 1)) in *.
  pose proof (fsum_units d xs xs' Bd X) as T. assert (TH : sc d (r53 (th * m)) (r53 (th' * m))) by (apply sc_r53; auto; now apply sc_const_r).
  rewrite (scl_length _ _ _ X). rewrite (Qeqb_sc d (fsum xs) 0 (fsum xs') 0 Hd T (sc_0 d)).
  assert (M : sc 1 (r24 (log1p (r53 (r53 (fsum xs / Qnat (length xs)) / r53 (th * m))))) (r24 (log1p (r53 (r53 (fsum xs' / Qnat (length xs)) / r53 (th' * m)))))).
  { apply sc_r24; auto. apply sc_eq, Hl, sc_eq, (r53_ratio d); [exact Hd| |exact TH]. apply sc_r53; [exact Bd|]. now apply sc_divk. }
  clearbody xs xs'.
  assert (P : sc 1 (r24 (log1p (r53 (percentile_f xs 95 / r53 (th * m))))) (r24 (log1p (r53 (percentile_f xs' 95 / r53 (th' * m)))))).
  { apply sc_r24; auto. apply sc_eq, Hl, sc_eq, (r53_ratio d); [exact Hd|exact (percentile_f_units d xs xs' 95 Bd X)|exact TH]. }
  destruct (Qeqb (fsum xs') 0); unfold same_sizes; cbn [z_mean z_p95 z_block z_gini osc]; repeat split; auto.
  - apply sc_r24; [exact B1|]. apply (r53_ratio d); [exact Hd| |exact T].
    refine (fold_rel2 (sc d) (sc d) _ _ _ _ _ _ _ X (sc_0 d)). intros x y k j Rx Rk. cbv beta. apply sc_if; [now apply (Qltb_sc d)|apply sc_r53; auto; now apply sc_plus|auto].
  - destruct (_ =? 1)%nat; [apply sc_0|]. apply sc_r24; auto. apply sc_r53; auto. apply sc_minus; [apply sc_1|]. apply fsum_units; auto.
    eapply F2_map; [|exact X]. intros x y Rx. cbv beta. apply sc_r53; auto. apply (sc_unit (1 * 1)); [ring|]. apply sc_mult; now apply (r53_ratio d).
Qed.
Lemma size_f_units log1p d am am' th th' closes m : respects log1p -> binary d -> scl d am am' -> scl d th th' ->
  both (Forall2 same_sizes) (comp_bar_size_f log1p am th closes m) (comp_bar_size_f log1p am' th' closes m).
Proof.
  intros Hl Bd Ha Ht. unfold comp_bar_size_f. rewrite (scl_length _ _ _ Ht). destruct (negb _); [reflexivity|]. cbn [both].
  apply F2_map_same. intros k _. apply (bar_size_f_units log1p d); auto. now apply scl_nth.
Qed.

(** Footprints. *)
Lemma level_f_units c tick tick' x x' : 0 < c -> sc c tick tick' -> sc c x x' -> level_f tick' x' = level_f tick x.
Proof. intros Hc Ht Hx. unfold level_f. apply rhe_comp. symmetry. now apply sc_eq, (r53_ratio c). Qed.
Lemma cell_add_at_units d l l' i x x' : binary d -> scl d l l' -> sc d x x' -> scl d (cell_add_at l i x) (cell_add_at l' i x').
Proof.
  intros Bd H Hx. unfold cell_add_at, cell_add. rewrite (scl_length _ _ _ H). apply F2_map_same. intros k _. apply sc_if; [reflexivity| |now apply scl_nth].
  apply sc_r24; auto. apply sc_r53; auto. apply sc_plus; [now apply scl_nth|auto].
Qed.
Lemma fp_step_f_units c d p p' a a' sides tick tick' low n x y j : 0 < c -> binary d -> scl c p p' -> scl d a a' -> sc c tick tick' ->
  both (lunits d) x y -> both (lunits d) (fp_step_f p a sides tick low n x j) (fp_step_f p' a' sides tick' low n y j).
Proof.
  intros Hc Bd Hp Ha Ht H. destruct x as [x|ex], y as [y|ey]; cbn [both] in H; try contradiction; [|exact H]. unfold fp_step_f. cbv zeta.
  rewrite (level_f_units c tick tick' _ _ Hc Ht (scl_zget c p p' j Hp)). destruct H as (E1 & E2 & E3 & E4). pose proof (scl_zget d a a' j Ha) as Za.
  destruct (_ && _)%bool; [|reflexivity]. destruct (_ =? 1)%Z; [|destruct (_ =? -1)%Z]; cbn [both]; unfold lunits; cbn [lv_bv lv_sv lv_bt lv_st]; rewrite ?E3, ?E4; repeat split; auto; now apply cell_add_at_units.
Qed.
Lemma fsum24_units c l l' : binary c -> scl c l l' -> sc c (fsum24 l) (fsum24 l').
Proof. intros Bc H. unfold fsum24. apply (fold_rel2 (sc c) (sc c)); auto; [|apply sc_0]. intros. apply sc_r24; auto. now apply sc_plus. Qed.
Lemma r24_ratio c x y x' y' : 0 < c -> sc c x x' -> sc c y y' -> sc 1 (r24 (x / y)) (r24 (x' / y')).
Proof. intros Hc Hx Hy. apply sc_r24; [apply binary_1|]. now apply sc_eq, (sc_ratio c). Qed.
Lemma dot24_binary : binary_dot dot24.
Proof.
  intros e f l l' m m' Hl Hm. unfold dot24. rewrite (scl_length _ _ _ Hl). assert (B : binary (two e * two f)) by (apply binary_mul; apply binary_two).
  apply fsum24_units; auto. apply F2_map_same. intros i _. apply sc_r24; auto. apply sc_mult; now apply scl_nth.
Qed.
Lemma dot_units dot d l l' m m' : binary_dot dot -> binary d -> scl 1 l l' -> scl d m m' -> sc d (dot l m) (dot l' m').
Proof.
  intros Hd [e E] Hl Hm. apply (sc_unit (two 0 * two e)); [rewrite E; change (two 0) with 1; ring|]. apply Hd; [exact Hl|].
  clear Hl. induction Hm as [|x y m m' Hx Hm IH]; constructor; auto. now apply (sc_unit d).
Qed.
Lemma feat_f_units dot d lv b b' s s' m : binary_dot dot -> binary d -> scl d b b' -> scl d s s' ->
  both same_feat (comp_footprint_features_f dot lv b s m) (comp_footprint_features_f dot lv b' s' m).
Proof.
  intros Hdot Bd Hb Hs. pose proof (binary_pos d Bd) as Hd. pose proof binary_1 as B1.
  unfold comp_footprint_features_f. cbv zeta. destruct (length lv =? 0)%nat; [reflexivity|]. cbn [both]. set (n := length lv).
  assert (B : map (buy_imb_f b' s' m n) (seq 0 n) = map (buy_imb_f b s m n) (seq 0 n)).
  { apply map_ext. intro i. unfold buy_imb_f. f_equal. symmetry. apply (Qltb_sc d); auto; [apply sc_r53; auto; apply sc_const_r|]; now apply scl_nth. }
  assert (S0 : map (sell_imb_f b' s' m n) (seq 0 n) = map (sell_imb_f b s m n) (seq 0 n)).
  { apply map_ext. intro i. unfold sell_imb_f. f_equal. symmetry. apply (Qltb_sc d); auto; [apply sc_r53; auto; apply sc_const_r|]; now apply scl_nth. }
  rewrite B, S0.
  assert (T : scl d (level_tot_f b s n) (level_tot_f b' s' n)).
  { apply F2_map_same. intros i _. apply sc_r24; auto. apply sc_plus; now apply scl_nth. }
  set (t := level_tot_f b s n) in *. set (t' := level_tot_f b' s' n) in *. clearbody t t'.
  pose proof (fsum24_units d t t' Bd T) as Q0.
  assert (P : Qltb 0 (fsum24 t) = Qltb 0 (fsum24 t')) by (apply (Qltb_sc d); auto; apply sc_0).
  unfold same_feat. cbn [ff_bi ff_si ff_run ff_cot ff_skew ff_gini]. rewrite (argmax_units d t t' Hd T), <- P.
  repeat split; destruct (Qltb 0 (fsum24 t) && (0 <? n)%nat)%bool; try reflexivity.
  - assert (V : sc 1 (level_vwap_f lv t) (level_vwap_f lv t')).
    { apply (r24_ratio d); auto. apply fsum24_units; auto. apply F2_map_same. intros i _. apply sc_r24; auto. apply sc_const. now apply scl_nth. }
    apply sc_eq. apply (r24_ratio d); auto. apply (dot_units dot d); auto. apply F2_map_same. intros i _. apply sc_r24; auto. apply sc_minus; [apply sc_1|auto].
  - apply sc_eq. unfold vp_gini_f. apply sc_r53; auto. apply sc_minus; [apply sc_1|]. apply fsum24_units; auto. eapply F2_map; [|exact T]. intros x y Rx. cbv beta.
    apply sc_r24; auto. apply (sc_unit (1 * 1)); [ring|]. apply sc_mult; now apply (r24_ratio d).
Qed.
Lemma bar_fp_f_units dot c d p p' a a' sides tick tick' lo lo' hi hi' m s e : binary_dot dot -> 0 < c -> binary d -> scl c p p' -> scl d a a' -> sc c tick tick' -> sc c lo lo' -> sc c hi hi' ->
  both (same_footprint d) (bar_footprint_f dot p a sides tick lo hi m s e) (bar_footprint_f dot p' a' sides tick' lo' hi' m s e).
Proof.
  intros Hdot Hc Bd Hp Ha Ht Hlo Hhi. unfold bar_footprint_f, bar_levels_f. cbv zeta. rewrite <- (Qeqb_sc c tick 0 tick' 0 Hc Ht (sc_0 c)).
  destruct (Qeqb tick 0); [reflexivity|].
  rewrite (level_f_units c tick tick' lo lo' Hc Ht Hlo), (level_f_units c tick tick' hi hi' Hc Ht Hhi).
  set (low := level_f tick lo). set (high := level_f tick hi). destruct (high - low + 1 <? 0)%Z; [reflexivity|].
  set (st0 := mkLv _ _ _ _).
  assert (F : both (lunits d) (fold_left (fp_step_f p a sides tick low (high - low + 1)) (zrange (s + 1) (e + 1)) (Ok st0))
                (fold_left (fp_step_f p' a' sides tick' low (high - low + 1)) (zrange (s + 1) (e + 1)) (Ok st0))).
  { apply fold_rel; [intros; now apply (fp_step_f_units c)|]. cbn [both]. unfold lunits, st0. cbn [lv_bv lv_sv lv_bt lv_st]. repeat split; apply F2_repeat; apply sc_0. }
  destruct (fold_left (fp_step_f p a sides tick low _) _ _) as [x|ex], (fold_left (fp_step_f p' a' sides tick' low _) _ _) as [y|ey]; cbn [both] in F; try contradiction; [|exact F].
  destruct F as (E1 & E2 & E3 & E4). pose proof (feat_f_units dot d (map (wraps 32) (zrange low (high + 1))) _ _ _ _ m Hdot Bd E1 E2) as G.
  destruct (comp_footprint_features_f _ _ (lv_bv x) _ _) as [f|ef], (comp_footprint_features_f _ _ (lv_bv y) _ _) as [g|eg]; cbn [both] in G; try contradiction; [|exact G].
  destruct G as (G1 & G2 & G3 & G4 & G5 & G6). cbn [both]. unfold same_footprint.
  cbn [fp_levels fp_bv fp_sv fp_bt fp_st fp_bi fp_si fp_bi_sum fp_si_sum fp_cot fp_run fp_skew fp_gini]. rewrite G1, G2, G3, G4. repeat split; auto.
Qed.
Lemma run_all_units {A} (R : A -> A -> Prop) f g ks : (forall k, In k ks -> both R (f k) (g k)) -> both (Forall2 R) (run_all f ks) (run_all g ks).
Proof.
  induction ks as [|k ks IH]; intro H; cbn [run_all]; [constructor|]. pose proof (H k (or_introl eq_refl)) as B.
  destruct (f k), (g k); cbn [both] in B; try contradiction; [|exact B]. specialize (IH (fun j Hj => H j (or_intror Hj))).
  destruct (run_all f ks), (run_all g ks); cbn [both] in *; try contradiction; auto.
Qed.
Lemma footprints_f_units dot c d p p' a a' closes sides tick tick' lows lows' highs highs' m : binary_dot dot -> 0 < c -> binary d -> scl c p p' -> scl d a a' -> sc c tick tick' ->
  scl c lows lows' -> scl c highs highs' ->
  both (Forall2 (same_footprint d)) (comp_bar_footprints_f dot p a closes sides tick lows highs m) (comp_bar_footprints_f dot p' a' closes sides tick' lows' highs' m).
Proof.
  intros Hdot Hc Bd Hp Ha Ht Hl Hh. unfold comp_bar_footprints_f. apply run_all_units. intros k _. apply (bar_fp_f_units dot c d); auto; now apply scl_nth.
Qed.

(** Volume profiles. *)
Lemma fold_keeps {A B} (P : A -> Prop) (f : A -> B -> A) l a : P a -> (forall x y, P x -> P (f x y)) -> P (fold_left f l a).
Proof. intros Ha Hf. revert a Ha. induction l as [|y l IH]; intros a Ha; cbn [fold_left]; auto. Qed.
Definition pu (d : Q) (x y : list Q * list Q) : Prop := scl d (fst x) (fst y) /\ scl d (snd x) (snd y).
Lemma fancy_add_f_units d a a' idx v v' : binary d -> scl d a a' -> scl d v v' -> both (scl d) (fancy_add_f a idx v) (fancy_add_f a' idx v').
Proof.
  intros Bd Ha Hv. unfold fancy_add_f. rewrite (scl_length _ _ _ Ha). destruct (forallb _ _); [|reflexivity]. cbn [both]. apply F2_map_same. intros k _.
  destruct (last_occ idx k); [apply sc_r24; auto; apply sc_plus|]; now apply scl_nth.
Qed.
Lemma agg_step_f_units d lv plv pbv pbv' psv psv' x y t : binary d -> Forall2 (scl d) pbv pbv' -> Forall2 (scl d) psv psv' -> both (pu d) x y ->
  both (pu d) (agg_step_f lv plv pbv psv x t) (agg_step_f lv plv pbv' psv' y t).
Proof.
  intros Bd Hb Hs H. destruct x as [[ab sl]|ex], y as [[ab' sl']|ey]; cbn [both] in H; try contradiction; [|exact H]. destruct H as [E1 E2]. cbn [fst snd] in *. unfold agg_step_f. cbv zeta.
  assert (B : scl d (nth t pbv []) (nth t pbv' [])) by (apply F2_nth; auto; constructor). assert (S0 : scl d (nth t psv []) (nth t psv' [])) by (apply F2_nth; auto; constructor).
  pose proof (fancy_add_f_units d ab ab' (map (ss_left lv) (nth t plv [])) _ _ Bd E1 B) as F1. pose proof (fancy_add_f_units d sl sl' (map (ss_left lv) (nth t plv [])) _ _ Bd E2 S0) as F2.
  destruct (fancy_add_f ab _ _), (fancy_add_f ab' _ _); cbn [both] in F1; try contradiction; destruct (fancy_add_f sl _ _), (fancy_add_f sl' _ _); cbn [both] in F2; try contradiction; cbn [both]; auto. split; auto.
Qed.
Lemma window_levels_f_units c highs highs' lows lows' tick tick' s e : 0 < c -> scl c highs highs' -> scl c lows lows' -> sc c tick tick' ->
  window_levels_f highs' lows' tick' s e = window_levels_f highs lows tick s e.
Proof.
  intros Hc Hh Hl Ht. unfold window_levels_f. cbv zeta.
  assert (L : scl c (firstn (e - s) (skipn s lows)) (firstn (e - s) (skipn s lows'))) by now apply F2_firstn, F2_skipn.
  assert (U : scl c (firstn (e - s) (skipn s highs)) (firstn (e - s) (skipn s highs'))) by now apply F2_firstn, F2_skipn.
  pose proof (level_f_units c tick tick' _ _ Hc Ht (lmin_units c _ _ Hc L)) as E1. pose proof (level_f_units c tick tick' _ _ Hc Ht (lmax_units c _ _ Hc U)) as E2.
  rewrite E1, E2, (Qeqb_sc c tick 0 tick' 0 Hc Ht (sc_0 c)). destruct L, U; reflexivity.
Qed.
Definition aggu (d : Q) (x y : list Z * list Q * list Q) : Prop := fst (fst y) = fst (fst x) /\ scl d (snd (fst x)) (snd (fst y)) /\ scl d (snd x) (snd y).
Lemma aggregate_f_units c d ts highs highs' lows lows' plv pbv pbv' psv psv' a b tick tick' : 0 < c -> binary d -> scl c highs highs' -> scl c lows lows' -> sc c tick tick' ->
  Forall2 (scl d) pbv pbv' -> Forall2 (scl d) psv psv' ->
  both (aggu d) (aggregate_footprint_f ts highs lows plv pbv psv a b tick) (aggregate_footprint_f ts highs' lows' plv pbv' psv' a b tick').
Proof.
  intros Hc Bd Hh Hl Ht Hb Hs. unfold aggregate_footprint_f. destruct (agg_range ts a b) as [s e]. rewrite (window_levels_f_units c highs highs' lows lows' tick tick' s e Hc Hh Hl Ht).
  destruct (window_levels_f highs lows tick s e) as [lv|x]; [|reflexivity]. cbv zeta.
  assert (F : both (pu d) (fold_left (agg_step_f lv plv pbv psv) (seq s (e - s)) (Ok (repeat 0 (length lv), repeat 0 (length lv))))
                 (fold_left (agg_step_f lv plv pbv' psv') (seq s (e - s)) (Ok (repeat 0 (length lv), repeat 0 (length lv))))).
  { apply fold_rel; [intros; now apply agg_step_f_units|]. split; cbn [fst snd]; apply F2_repeat; apply sc_0. }
  destruct (fold_left _ _ _) as [[x1 x2]|], (fold_left _ _ _) as [[y1 y2]|]; cbn [both] in F; try contradiction; [|exact F]. destruct F as [F1 F2]. cbn [both]. unfold aggu. cbn [fst snd] in *. auto.
Qed.
Lemma qadd_at_f_units d l l' i x x' : binary d -> scl d l l' -> sc d x x' -> scl d (qadd_at_f l i x) (qadd_at_f l' i x').
Proof.
  intros Bd H Hx. unfold qadd_at_f. rewrite (scl_length _ _ _ H). apply F2_map_same. intros k _. apply sc_if; [reflexivity| |now apply scl_nth].
  apply sc_r24; auto. apply sc_plus; [now apply scl_nth|auto].
Qed.
Lemma bucket_f_units d lv v v' nb : binary d -> scl d v v' ->
  both (fun x y => fst y = fst x /\ scl d (snd x) (snd y)) (bucket_price_levels_f lv v nb) (bucket_price_levels_f lv v' nb).
Proof.
  intros Bd H. unfold bucket_price_levels_f. destruct lv as [|z lv]; [reflexivity|]. destruct (nb =? 0)%Z; [reflexivity|]. cbv zeta. cbn [both fst snd]. split; [reflexivity|].
  apply fold_rel; [|apply F2_repeat; apply sc_0]. intros x y k R. unfold bin_step_f. cbv zeta. destruct (_ && _)%bool; [apply qadd_at_f_units; auto; now apply scl_nth|].
  destruct (_ =? _)%Z; [apply qadd_at_f_units; auto; now apply scl_nth|exact R].
Qed.
(** The volume of the next two levels, or -1 when there is none. *)
Definition vu (d x y : Q) : Prop := x == - (1) /\ y == - (1) \/ 0 <= x /\ sc d x y.
Lemma nth_nonneg (l : list Q) i : (forall y, In y l -> 0 <= y) -> 0 <= nth i l 0.
Proof. intro H. destruct (Nat.lt_ge_cases i (length l)); [apply H; now apply nth_In|rewrite nth_overflow by assumption; lra]. Qed.
Lemma zget_nonneg l i : (forall x, In x l -> 0 <= x) -> 0 <= zget 0 l i.
Proof. intro H. unfold zget. now apply nth_nonneg. Qed.
Lemma pair_up_f_units d v v' up n n' : binary d -> scl d v v' -> (forall x, In x v -> 0 <= x) -> vu d n n' -> vu d (pair_up_f v up n) (pair_up_f v' up n').
Proof.
  intros Bd H P N. unfold pair_up_f. cbv zeta. rewrite (scl_length _ _ _ H). destruct (up <? _)%Z; [|exact N]. right.
  pose proof (zget_nonneg v up P) as A. pose proof (zget_nonneg v (up + 1) P) as B.
  destruct (up + 1 <? _)%Z; [|split; [exact A|now apply scl_zget]]. split; [apply rnd_pos; [lia|lra]|]. apply sc_r53; auto. apply sc_plus; now apply scl_zget.
Qed.
Lemma pair_dn_f_units d v v' dn n n' : binary d -> scl d v v' -> (forall x, In x v -> 0 <= x) -> vu d n n' -> vu d (pair_dn_f v dn n) (pair_dn_f v' dn n').
Proof.
  intros Bd H P N. unfold pair_dn_f. destruct (0 <=? dn)%Z; [|exact N]. right.
  pose proof (zget_nonneg v dn P) as A. pose proof (zget_nonneg v (dn - 1) P) as B.
  destruct (0 <=? dn - 1)%Z; [|split; [exact A|now apply scl_zget]]. split; [apply rnd_pos; [lia|lra]|]. apply sc_r53; auto. apply sc_plus; now apply scl_zget.
Qed.
Lemma vu_neg d : vu d (- (1)) (- (1)).
Proof. left. split; reflexivity. Qed.
Lemma vu_0 d : vu d 0 0.
Proof. right. split; [lra|apply sc_0]. Qed.
Lemma Qltb_vu d x y x' y' : 0 < d -> vu d x x' -> vu d y y' -> Qltb x y = Qltb x' y'.
Proof.
  intros Hd [[A A']|[A A']] [[B B']|[B B']].
  - apply Qltb_comp; lra.
  - assert (0 <= y') by (unfold sc in B'; rewrite B'; nra). rewrite (proj2 (Qltb_iff x y)) by lra. rewrite (proj2 (Qltb_iff x' y')) by lra. reflexivity.
  - assert (0 <= x') by (unfold sc in A'; rewrite A'; nra). destruct (Qltb_spec x y), (Qltb_spec x' y'); try reflexivity; lra.
  - now apply (Qltb_sc d).
Qed.
Definition vau (d : Q) (s t : va_state) : Prop :=
  sc d (va_cum s) (va_cum t) /\ va_hva t = va_hva s /\ va_lva t = va_lva s /\ va_up t = va_up s /\ va_dn t = va_dn s /\ vu d (va_cu s) (va_cu t) /\ vu d (va_cd s) (va_cd t).
Definition oau (d : Q) (x y : option va_state) : Prop := match x, y with Some s, Some t => vau d s t | None, None => True | _, _ => False end.
Lemma va_loop_f_units d lv v v' thr thr' fuel : binary d -> scl d v v' -> (forall x, In x v -> 0 <= x) -> sc d thr thr' ->
  forall s t, vau d s t -> oau d (va_loop_f lv v thr fuel s) (va_loop_f lv v' thr' fuel t).
Proof.
  intros Bd H P Ht. pose proof (binary_pos d Bd) as Hd. induction fuel as [|f IH]; intros s t R; cbn [va_loop_f]; [exact I|]. cbv zeta.
  pose proof R as R0. destruct R as (E1 & E2 & E3 & E4 & E5 & E6 & E7). rewrite E2, E3, E4, E5.
  rewrite <- (Qltb_sc d _ thr _ thr' Hd E1 Ht), <- (Qltb_vu d _ _ _ _ Hd E7 E6), <- (Qltb_vu d _ _ _ _ Hd E6 E7).
  destruct (Qltb (va_cum s) thr); [|exact R0]. destruct (Qltb_spec (va_cd s) (va_cu s)) as [K|K].
  - apply IH. unfold vau. cbn [va_cum va_hva va_lva va_up va_dn va_cu va_cd]. repeat split; auto; [|apply pair_up_f_units; auto; apply vu_neg].
    apply sc_r53; auto. apply sc_plus; auto. destruct E6 as [[A A']|[_ A']]; [|exact A']. exfalso. destruct E7 as [[B _]|[B _]]; lra.
  - destruct (Qltb_spec (va_cu s) (va_cd s)) as [J|J].
    + apply IH. unfold vau. cbn [va_cum va_hva va_lva va_up va_dn va_cu va_cd]. repeat split; auto; [|apply pair_dn_f_units; auto; apply vu_neg].
      apply sc_r53; auto. apply sc_plus; auto. destruct E7 as [[A A']|[_ A']]; [|exact A']. exfalso. destruct E6 as [[B _]|[B _]]; lra.
    + destruct E7 as [[A A']|[A A']].
      * destruct (Qeqb_spec (va_cd s) (- (1))) as [_|X]; [|contradiction]. destruct (Qeqb_spec (va_cd t) (- (1))) as [_|Y]; [|contradiction]. exact R0.
      * assert (A2 : 0 <= va_cd t) by (unfold sc in A'; rewrite A'; nra).
        destruct (Qeqb_spec (va_cd s) (- (1))) as [X|X]; [lra|]. destruct (Qeqb_spec (va_cd t) (- (1))) as [Y|Y]; [lra|]. cbn [negb].
        apply IH. unfold vau. cbn [va_cum va_hva va_lva va_up va_dn va_cu va_cd]. repeat split; auto; [|apply pair_up_f_units; auto; apply vu_neg|apply pair_dn_f_units; auto; apply vu_neg].
        apply sc_r53; auto. apply sc_plus; auto. apply sc_r53; auto. apply sc_plus; auto. destruct E6 as [[B _]|[_ B]]; [lra|exact B].
Qed.
Lemma poc_f_units d lv v v' pct : binary d -> scl d v v' -> (forall x, In x v -> 0 <= x) -> comp_poc_hva_lva_f lv v' pct = comp_poc_hva_lva_f lv v pct.
Proof.
  intros Bd H P. pose proof (binary_pos d Bd) as Hd. unfold comp_poc_hva_lva_f. cbv zeta. rewrite (argmax_units d v v' Hd H), (scl_length _ _ _ H).
  assert (G : oau d (va_loop_f lv v (va_thr_f v pct) (length v + 3) (va_init_f lv v)) (va_loop_f lv v' (va_thr_f v' pct) (length v + 3) (va_init_f lv v'))).
  { apply va_loop_f_units; auto.
    - unfold va_thr_f. apply sc_r53; auto. apply sc_const_r. now apply fsum24_units.
    - unfold va_init_f. cbv zeta. rewrite (argmax_units d v v' Hd H). unfold vau. cbn [va_cum va_hva va_lva va_up va_dn va_cu va_cd].
      repeat split; auto; [now apply scl_nth|apply pair_up_f_units; auto; apply vu_0|apply pair_dn_f_units; auto; apply vu_0]. }
  destruct H as [|x x' l l' Hx H]; [reflexivity|]. f_equal.
  destruct (va_loop_f lv (x :: l) _ _ _) as [s|], (va_loop_f lv (x' :: l') _ _ _) as [t|]; cbn [oau] in G; try contradiction; [|reflexivity].
  destruct G as (_ & E2 & E3 & _). now rewrite E2, E3.
Qed.
Lemma above_f_units d lv v v' poc : binary d -> scl d v v' -> sc 1 (pct_above_poc_f lv v poc) (pct_above_poc_f lv v' poc).
Proof.
  intros Bd H. pose proof (binary_pos d Bd) as Hd. unfold pct_above_poc_f. cbv zeta. pose proof (fsum24_units d v v' Bd H) as T.
  apply sc_if; [apply (Qleb_sc d); auto; apply sc_0|apply sc_0|].
  match goal with |- sc 1 (if Qleb ?a 0 then _ else _) (if Qleb ?b 0 then _ else _) => assert (A : sc d a b) end.
  { apply fold_rel; [|apply sc_0]. intros x y k R. destruct (_ <? _)%Z; [|exact R]. apply sc_r53; auto. apply sc_plus; auto. now apply scl_nth. }
  apply sc_if; [apply (Qleb_sc d); auto; apply sc_0|apply sc_0|]. now apply (r53_ratio d).
Qed.
Lemma qadd_at_f_nonneg l i x : (forall y, In y l -> 0 <= y) -> 0 <= x -> forall y, In y (qadd_at_f l i x) -> 0 <= y.
Proof.
  intros H Hx y Hy. unfold qadd_at_f in Hy. apply in_map_iff in Hy. destruct Hy as (k & <- & Hk). apply in_seq in Hk. assert (A : 0 <= nth k l 0) by (apply H, nth_In; lia).
  destruct (_ =? _)%nat; [apply rnd_pos; [lia|lra]|exact A].
Qed.
Lemma bucket_f_nonneg lv v nb p w : (forall x, In x v -> 0 <= x) -> bucket_price_levels_f lv v nb = Ok (p, w) -> forall x, In x w -> 0 <= x.
Proof.
  intros H E. unfold bucket_price_levels_f in E. destruct lv as [|z lv]; [discriminate|]. destruct (nb =? 0)%Z; [discriminate|]. cbv zeta in E.
  apply (f_equal (fun r => match r with Ok q => snd q | Raise _ => [] end)) in E. cbv beta iota in E. cbn [snd] in E. rewrite <- E. clear E.
  match goal with |- forall x, In x ?w -> _ => change ((fun l => forall x, In x l -> 0 <= x) w) end. apply fold_keeps.
  { intros x Hx. apply repeat_spec in Hx. rewrite Hx. lra. }
  intros l k Hl. unfold bin_step_f. cbv zeta. destruct (_ && _)%bool; [apply qadd_at_f_nonneg; auto; now apply nth_nonneg|]. destruct (_ =? _)%Z; [apply qadd_at_f_nonneg; auto; now apply nth_nonneg|exact Hl].
Qed.

Lemma fancy_add_f_nonneg a idx v w : (forall x, In x a -> 0 <= x) -> (forall x, In x v -> 0 <= x) -> fancy_add_f a idx v = Ok w -> forall x, In x w -> 0 <= x.
Proof.
  intros Ha Hv E. unfold fancy_add_f in E. destruct (forallb _ _); [|discriminate]. injection E as E. subst w. intros x Hx. apply in_map_iff in Hx. destruct Hx as (k & <- & _).
  pose proof (nth_nonneg a k Ha). destruct (last_occ idx k) as [j|]; [|assumption]. pose proof (nth_nonneg v j Hv). apply rnd_pos; [lia|lra].
Qed.
Definition pnn (x : result (list Q * list Q)) : Prop := match x with Ok (a, b) => (forall y, In y a -> 0 <= y) /\ (forall y, In y b -> 0 <= y) | Raise _ => True end.
Lemma agg_step_f_nonneg lv plv pbv psv x t : (forall t y, In y (nth t pbv []) -> 0 <= y) -> (forall t y, In y (nth t psv []) -> 0 <= y) -> pnn x -> pnn (agg_step_f lv plv pbv psv x t).
Proof.
  intros Hb Hs H. destruct x as [[a b]|]; [|exact I]. destruct H as [H1 H2]. unfold agg_step_f. cbv zeta.
  destruct (fancy_add_f a _ _) as [a'|] eqn:E1; [|exact I]. destruct (fancy_add_f b _ _) as [b'|] eqn:E2; [|exact I].
  split; [eapply fancy_add_f_nonneg; [exact H1| |exact E1]|eapply fancy_add_f_nonneg; [exact H2| |exact E2]]; auto; intros y Hy; [apply (Hb t)|apply (Hs t)]; exact Hy.
Qed.
Lemma aggregate_f_nonneg ts highs lows plv pbv psv a b tick lv bv sv : (forall t y, In y (nth t pbv []) -> 0 <= y) -> (forall t y, In y (nth t psv []) -> 0 <= y) ->
  aggregate_footprint_f ts highs lows plv pbv psv a b tick = Ok (lv, bv, sv) -> (forall y, In y bv -> 0 <= y) /\ (forall y, In y sv -> 0 <= y).
Proof.
  intros Hb Hs E. unfold aggregate_footprint_f in E. destruct (agg_range ts a b) as [s e]. destruct (window_levels_f _ _ _ _ _) as [l|]; [|discriminate]. cbv zeta in E.
  assert (F : pnn (fold_left (agg_step_f l plv pbv psv) (seq s (e - s)) (Ok (repeat 0 (length l), repeat 0 (length l))))).
  { apply (fold_keeps pnn); [split; intros y Hy; apply repeat_spec in Hy; subst; lra|]. intros x t Hx. now apply agg_step_f_nonneg. }
  destruct (fold_left _ _ _) as [[x y]|]; [|discriminate]. injection E as _ E1 E2. subst. exact F.
Qed.
Lemma total_f_nonneg bv sv : (forall y, In y bv -> 0 <= y) -> (forall y, In y sv -> 0 <= y) ->
  forall y, In y (map (fun k => r24 (nth k bv 0 + nth k sv 0)) (seq 0 (length bv))) -> 0 <= y.
Proof. intros Hb Hs y Hy. apply in_map_iff in Hy. destruct Hy as (k & <- & _). pose proof (nth_nonneg bv k Hb). pose proof (nth_nonneg sv k Hs). apply rnd_pos; [lia|lra]. Qed.
Lemma profile_at_f_units c d ts highs highs' lows lows' plv pbv pbv' psv psv' W nb tick tick' pct i : 0 < c -> binary d -> scl c highs highs' -> scl c lows lows' -> sc c tick tick' ->
  Forall2 (scl d) pbv pbv' -> Forall2 (scl d) psv psv' -> (forall t y, In y (nth t pbv []) -> 0 <= y) -> (forall t y, In y (nth t psv []) -> 0 <= y) ->
  both same_row (profile_at_f ts highs lows plv pbv psv W nb tick pct i) (profile_at_f ts highs' lows' plv pbv' psv' W nb tick' pct i).
Proof.
  intros Hc Bd Hh Hl Ht Hb Hs Nb Ns. unfold profile_at_f. cbv zeta.
  pose proof (aggregate_f_units c d ts highs highs' lows lows' plv pbv pbv' psv psv' (nth i ts 0 - W)%Z (nth i ts 0%Z) tick tick' Hc Bd Hh Hl Ht Hb Hs) as A.
  destruct (aggregate_footprint_f ts highs lows _ _ _ _ _ _) as [[[lv bv] sv]|x] eqn:E, (aggregate_footprint_f ts highs' lows' _ _ _ _ _ _) as [[[lv' bv'] sv']|y]; cbn [both] in A; try contradiction; [|exact A].
  destruct A as (E1 & E2 & E3). cbn [fst snd] in *. subst lv'. destruct (aggregate_f_nonneg _ _ _ _ _ _ _ _ _ _ _ _ Nb Ns E) as [Pb Ps].
  assert (T : scl d (map (fun k => r24 (nth k bv 0 + nth k sv 0)) (seq 0 (length bv))) (map (fun k => r24 (nth k bv' 0 + nth k sv' 0)) (seq 0 (length bv')))).
  { rewrite (scl_length _ _ _ E2). apply F2_map_same. intros k _. apply sc_r24; auto. apply sc_plus; now apply scl_nth. }
  pose proof (total_f_nonneg bv sv Pb Ps) as P. set (t0 := map _ (seq 0 (length bv))) in *. set (t1 := map _ (seq 0 (length bv'))) in *. clearbody t0 t1.
  assert (G : forall l v v', scl d v v' -> (forall y, In y v -> 0 <= y) ->
     both same_row (match comp_poc_hva_lva_f l v pct with Raise x => Raise x | Ok None => Ok None | Ok (Some (poc, hva, lva)) => Ok (Some (poc, hva, lva, r24 (pct_above_poc_f l v poc))) end)
               (match comp_poc_hva_lva_f l v' pct with Raise x => Raise x | Ok None => Ok None | Ok (Some (poc, hva, lva)) => Ok (Some (poc, hva, lva, r24 (pct_above_poc_f l v' poc))) end)).
  { intros l v v' Hv Pv. rewrite (poc_f_units d l v v' pct Bd Hv Pv). destruct (comp_poc_hva_lva_f l v pct) as [[[[poc hva] lva]|]|x]; cbn [both same_row fst snd]; auto. split; [reflexivity|].
    apply sc_eq, sc_r24; [apply binary_1|]. now apply (above_f_units d). }
  destruct nb as [nb|]; [|now apply G].
  pose proof (bucket_f_units d lv t0 t1 nb Bd T) as B. destruct (bucket_price_levels_f lv t0 nb) as [[p w]|x] eqn:K, (bucket_price_levels_f lv t1 nb) as [[p' w']|y]; cbn [both] in B; try contradiction; [|exact B].
  cbn [fst snd] in B. destruct B as [-> Hw]. apply G; auto. exact (bucket_f_nonneg _ _ _ _ _ P K).
Qed.
Lemma rolling_f_units c d ts highs highs' lows lows' plv pbv pbv' psv psv' W nb tick tick' pct : 0 < c -> binary d -> scl c highs highs' -> scl c lows lows' -> sc c tick tick' ->
  Forall2 (scl d) pbv pbv' -> Forall2 (scl d) psv psv' -> (forall t y, In y (nth t pbv []) -> 0 <= y) -> (forall t y, In y (nth t psv []) -> 0 <= y) ->
  both (Forall2 same_row) (volume_profile_rolling_f ts highs lows plv pbv psv W nb tick pct) (volume_profile_rolling_f ts highs' lows' plv pbv' psv' W nb tick' pct).
Proof.
  intros Hc Bd Hh Hl Ht Hb Hs Nb Ns. unfold volume_profile_rolling_f. cbv zeta. apply run_all_units. intros i _. destruct (i <? _)%nat; [|now apply (profile_at_f_units c d)].
  cbn [both same_row fst snd]. split; reflexivity.
Qed.
