(** P_units8.v -- volatility and correlation in float64 under a change of units by a power of two. *)
From Coq Require Import Qpower Qfield.
From Verif Require Import Base M_logic M_bars M_features M_volat M_float M_float2 M_float7 M_float8 M_float10
  S_units S_unitbars S_unitsf P_units P_units2 P_units3 P_units4 P_units5 P_units7 P_float P_float9 P_float11.
Open Scope Q_scope.

Lemma sqr_f_units c x x' : binary c -> sc c x x' -> sc (c * c) (r53 (x * x)) (r53 (x' * x')).
Proof. intros Bc H. apply sc_r53; [now apply binary_mul|now apply sqr_units]. Qed.
(** ewms. *)
Lemma ew_step_f_units c b s t y y' : binary c -> ewu c s t -> osc c y y' -> ewu c (ew_step_f b s y) (ew_step_f b t y').
Proof.
  intros Bc (E1 & E2 & E3 & E4) H. pose proof (binary_mul c c Bc Bc) as Bm.
  destruct y as [v|], y' as [v'|]; cbn [osc] in H; try contradiction; unfold ew_step_f, ewu; cbn [e_w e_w2 e_y e_y2]; rewrite E1, E2; repeat split; auto; apply sc_r53; auto.
  - apply sc_plus; auto. apply sc_r53; auto. now apply sc_const.
  - apply sc_plus; [apply sc_r53; auto; now apply sc_const|now apply sqr_f_units].
  - now apply sc_const.
  - now apply sc_const.
Qed.
Lemma ew_out_f_units sqrt c s t : binary_root sqrt -> binary c -> ewu c s t -> osc c (ew_out_f sqrt s) (ew_out_f sqrt t).
Proof.
  intros Hs Bc (E1 & E2 & E3 & E4). pose proof (binary_pos c Bc) as Hc. pose proof (binary_mul c c Bc Bc) as Bm.
  unfold ew_out_f, ew_den_f, ew_raw_f. cbv zeta. rewrite E1, E2. destruct (Qltb 0 _); [|exact I]. destruct (Qltb 0 _); [|exact I].
  cbn [osc]. apply binary_sqr; auto. apply sc_pmax; [nra| |apply sc_0]. apply sc_r53; auto. apply sc_divk, sc_r53; auto. apply sc_const_r, sc_r53; auto.
  apply sc_minus; [apply sc_r53; auto; now apply sc_divk|]. apply sqr_f_units; auto. apply sc_r53; auto. now apply sc_divk.
Qed.
Lemma ewms_f_units sqrt c y y' span : binary_root sqrt -> binary c -> oscl c y y' -> oscl c (ewms_f sqrt y span) (ewms_f sqrt y' span).
Proof.
  intros Hs Bc H. unfold ewms_f. rewrite (oscl_length _ _ _ H). destruct (span <=? 1)%Z; [apply F2_repeat; exact I|].
  generalize (ewma_beta_f span) as b. intro b.
  assert (G : forall s t, ewu c s t -> oscl c (ew_loop_f sqrt b s y) (ew_loop_f sqrt b t y')).
  { induction H as [|x x' l l' Hx H IH]; intros s t R; cbn [ew_loop_f]; constructor.
    - apply ew_out_f_units; auto. now apply ew_step_f_units.
    - apply IH. now apply ew_step_f_units. }
  apply G. unfold ewu. cbn [e_w e_w2 e_y e_y2]. repeat split; apply sc_0.
Qed.
(** ewmst_mean0 and ewmst, the floor in the same unit. *)
Lemma m0_state_f_units exp c ts y y' hl i : binary c -> oscl c y y' ->
  sc (c * c) (fst (m0_state_f exp ts y hl i)) (fst (m0_state_f exp ts y' hl i)) /\ snd (m0_state_f exp ts y' hl i) = snd (m0_state_f exp ts y hl i).
Proof.
  intros Bc H. pose proof (binary_mul c c Bc Bc) as Bm. induction i as [|i [I1 I2]]; cbn [m0_state_f]; [split; [apply sc_0|reflexivity]|].
  pose proof (oscl_known c y y' (S i) H) as K. destruct (m0_state_f exp ts y hl i) as [u v], (m0_state_f exp ts y' hl i) as [u' v']. cbn [fst snd] in I1, I2. subst v'.
  cbv zeta. destruct (known y (S i)) as [x|], (known y' (S i)) as [x'|]; cbn [osc] in K; try contradiction; cbn [fst snd]; split; try reflexivity; apply sc_r53; auto.
  - apply sc_plus; apply sc_r53; auto; apply sc_const; auto. now apply sqr_f_units.
  - now apply sc_const.
Qed.
Lemma mean0_f_units sqrt exp c ts y y' hl f f' : binary_root sqrt -> binary c -> oscl c y y' -> sc c f f' ->
  both (oscl c) (ewmst_mean0_f sqrt exp ts y hl f) (ewmst_mean0_f sqrt exp ts y' hl f').
Proof.
  intros Hs Bc H Hf. pose proof (binary_pos c Bc) as Hc. pose proof (binary_mul c c Bc Bc) as Bm.
  unfold ewmst_mean0_f. rewrite (oscl_length _ _ _ H). destruct (_ && _)%bool; [reflexivity|]. cbn [both]. apply F2_map_same. intros [|i] _; [exact I|].
  destruct (m0_state_f_units exp c ts y y' hl (S i) Bc H) as [I1 I2]. unfold m0_out_f. cbv zeta. rewrite I2. destruct (Qltb 0 _); [|exact I]. cbn [osc].
  set (u := fst (m0_state_f exp ts y hl (S i))) in *. set (u' := fst (m0_state_f exp ts y' hl (S i))) in *. set (v := snd (m0_state_f exp ts y hl (S i))) in *. clearbody u u' v.
  assert (V : sc (c * c) (r53 (u / v)) (r53 (u' / v))) by (apply sc_r53; auto; now apply sc_divk).
  apply floor_units; auto. apply binary_sqr; auto. apply sc_if; auto; [apply (Qltb_sc (c * c)); auto; [nra|apply sc_0]|apply sc_0].
Qed.
Lemma et_state_f_units exp c ts y y' hl i : binary c -> oscl c y y' -> etu c (et_state_f exp ts y hl i) (et_state_f exp ts y' hl i).
Proof.
  intros Bc H. pose proof (binary_mul c c Bc Bc) as Bm. induction i as [|i (E1 & E2 & E3 & E4)]; cbn [et_state_f]; [unfold etu; cbn [t_v t_v2 t_y t_yy]; repeat split; apply sc_0|].
  cbv zeta. pose proof (oscl_known c y y' (S i) H) as K.
  destruct (known y (S i)) as [x|], (known y' (S i)) as [x'|]; cbn [osc] in K; try contradiction; unfold etu; cbn [t_v t_v2 t_y t_yy]; rewrite E1, E2; repeat split; auto; apply sc_r53; auto.
  - apply sc_plus; apply sc_r53; auto; now apply sc_const.
  - apply sc_plus; [|apply sc_r53; auto; now apply sc_const]. apply sc_r53; auto. apply sc_mult; auto. apply sc_r53; auto. now apply sc_const.
  - now apply sc_const.
  - now apply sc_const.
Qed.
Lemma ewmst_f_units sqrt exp c ts y y' hl f f' : binary_root sqrt -> binary c -> oscl c y y' -> sc c f f' ->
  both (oscl c) (ewmst_f sqrt exp ts y hl f) (ewmst_f sqrt exp ts y' hl f').
Proof.
  intros Hs Bc H Hf. pose proof (binary_pos c Bc) as Hc. pose proof (binary_mul c c Bc Bc) as Bm.
  unfold ewmst_f. rewrite (oscl_length _ _ _ H). destruct (_ && _)%bool; [reflexivity|]. cbn [both]. apply F2_map_same. intros [|i] _; [exact I|].
  destruct (et_state_f_units exp c ts y y' hl (S i) Bc H) as (E1 & E2 & E3 & E4). unfold et_out_f, et_raw_f, et_den_f. cbv zeta. rewrite E1, E2. destruct (Qltb 0 _); [|exact I]. cbn [osc].
  set (s := et_state_f exp ts y hl (S i)) in *. set (t := et_state_f exp ts y' hl (S i)) in *. clearbody s t.
  assert (R : sc (c * c) (r53 (r53 (t_yy s / t_v s) - r53 (r53 (t_y s / t_v s) * r53 (t_y s / t_v s)))) (r53 (r53 (t_yy t / t_v s) - r53 (r53 (t_y t / t_v s) * r53 (t_y t / t_v s))))).
  { apply sc_r53; auto. apply sc_minus; [apply sc_r53; auto; now apply sc_divk|]. apply sqr_f_units; auto. apply sc_r53; auto. now apply sc_divk. }
  apply floor_units; auto. apply binary_sqr; auto. apply sc_if; [|apply sc_r53; auto; now apply sc_const_r|apply sc_0]. f_equal. apply (Qltb_sc (c * c)); auto; [nra|apply sc_0].
Qed.
(** True range and ATR. *)
Lemma tr_at_f_units c h h' l l' k k' i : binary c -> oscl c h h' -> oscl c l l' -> oscl c k k' -> osc c (tr_at_f h l k i) (tr_at_f h' l' k' i).
Proof.
  intros Bc Hh Hl Hk. pose proof (binary_pos c Bc) as Hc. pose proof (oscl_known c _ _ i Hh) as A. pose proof (oscl_known c _ _ i Hl) as B. unfold tr_at_f. destruct i as [|i].
  - destruct (known h 0), (known h' 0); cbn [osc] in A; try contradiction; destruct (known l 0), (known l' 0); cbn [osc] in B; try contradiction; try exact I. apply sc_r53; auto. now apply sc_minus.
  - pose proof (oscl_known c _ _ i Hk) as C.
    destruct (known h (S i)), (known h' (S i)); cbn [osc] in A; try contradiction; destruct (known l (S i)), (known l' (S i)); cbn [osc] in B; try contradiction; try exact I;
      destruct (known k i), (known k' i); cbn [osc] in C; try contradiction; try exact I.
    cbn [osc]. apply sc_pmax; auto; [apply sc_pmax; auto; [|apply sc_abs; auto]|apply sc_abs; auto]; apply sc_r53; auto; now apply sc_minus.
Qed.
Lemma true_range_f_units c h h' l l' k k' : binary c -> oscl c h h' -> oscl c l l' -> oscl c k k' -> both (oscl c) (true_range_f h l k) (true_range_f h' l' k').
Proof.
  intros Bc Hh Hl Hk. unfold true_range_f. rewrite (oscl_length _ _ _ Hh), (oscl_length _ _ _ Hl), (oscl_length _ _ _ Hk). destruct (_ && _)%bool; [|reflexivity].
  cbn [both]. apply F2_map_same. intros i _. now apply tr_at_f_units.
Qed.
Lemma valid_sum_f_units c l l' : binary c -> oscl c l l' -> fst (valid_sum_f l') = fst (valid_sum_f l) /\ sc c (snd (valid_sum_f l)) (snd (valid_sum_f l')).
Proof.
  intros Bc H. unfold valid_sum_f. apply (fold_rel2 (fun s t : nat * Q => fst t = fst s /\ sc c (snd s) (snd t)) (osc c)); auto; [|split; [reflexivity|apply sc_0]].
  intros [n a] [m b] x y [E R] K. cbn [fst snd] in *. destruct x, y; cbn [osc] in K; try contradiction; cbn [fst snd]; split; auto. apply sc_r53; auto. now apply sc_plus.
Qed.
Lemma valid_mean_f_units c l l' : binary c -> oscl c l l' -> osc c (valid_mean_f l) (valid_mean_f l').
Proof.
  intros Bc H. destruct (valid_sum_f_units c l l' Bc H) as [E R]. unfold valid_mean_f. cbv zeta. rewrite E. apply osc_if; [reflexivity| |exact I]. cbn [osc]. apply sc_r53; auto. now apply sc_divk.
Qed.
Lemma atr_ema_f_units c tr tr' w k : binary c -> oscl c tr tr' -> osc c (atr_ema_f tr w k) (atr_ema_f tr' w k).
Proof.
  intros Bc H. induction k as [|k IH]; cbn [atr_ema_f]; [apply valid_mean_f_units; auto; now apply F2_firstn|].
  pose proof (oscl_known c _ _ (w - 1 + S k) H) as K. destruct (known tr _), (known tr' _); cbn [osc] in K; try contradiction; try exact I.
  destruct (atr_ema_f tr w k), (atr_ema_f tr' w k); cbn [osc] in IH; try contradiction; try exact I. cbn [osc]. apply sc_r53; auto. apply sc_divk, sc_r53; auto. apply sc_plus; auto.
  apply sc_r53; auto. now apply sc_const.
Qed.
Lemma atr_sma_f_units c h h' l l' k k' tr tr' w i : binary c -> oscl c h h' -> oscl c l l' -> oscl c k k' -> oscl c tr tr' ->
  osc c (atr_sma_f h l k tr w i) (atr_sma_f h' l' k' tr' w i).
Proof.
  intros Bc Hh Hl Hk Ht. pose proof (oscl_known c _ _ i Hh) as A. pose proof (oscl_known c _ _ i Hl) as B. pose proof (oscl_known c _ _ i Hk) as C.
  pose proof (valid_mean_f_units c _ _ Bc (oscl_olast c _ _ i w Ht)) as V. unfold atr_sma_f.
  destruct (i =? 2)%nat; [|exact V].
  destruct (known h i), (known h' i); cbn [osc] in A; try contradiction; try exact V; destruct (known l i), (known l' i); cbn [osc] in B; try contradiction; try exact V;
    destruct (known k i), (known k' i); cbn [osc] in C; try contradiction; try exact V; exact I.
Qed.
Lemma atr_raw_f_units c h h' l l' k k' w ema : binary c -> oscl c h h' -> oscl c l l' -> oscl c k k' ->
  both (oscl c) (atr_f h l k w ema false) (atr_f h' l' k' w ema false).
Proof.
  intros Bc Hh Hl Hk. unfold atr_f. cbv zeta. pose proof (true_range_f_units c h h' l l' k k' Bc Hh Hl Hk) as T.
  destruct (true_range_f h l k), (true_range_f h' l' k'); cbn [both] in T; try contradiction; [|exact T]. rewrite (oscl_length _ _ _ Hh). cbn [both].
  apply F2_map_same. intros i _. destruct (_ || _)%bool; [exact I|]. destruct ema; [now apply atr_ema_f_units|now apply atr_sma_f_units].
Qed.
Lemma atr_norm_f_units c h h' l l' i a a' : binary c -> osc c (known h i) (known h' i) -> osc c (known l i) (known l' i) ->
  (exists x y, known h i = Some x /\ known l i = Some y /\ 0 < x + y) -> osc c a a' -> osc 1 (atr_norm_f h l i a) (atr_norm_f h' l' i a').
Proof.
  intros Bc A B (x & y & E1 & E2 & P) H. pose proof (binary_pos c Bc) as Hc. unfold atr_norm_f. rewrite E1, E2 in *. destruct a as [a|], a' as [a'|]; cbn [osc] in H; try contradiction; [|exact I].
  destruct (known h' i) as [x'|]; cbn [osc] in A; [|contradiction]. destruct (known l' i) as [y'|]; cbn [osc] in B; [|contradiction]. cbv zeta.
  assert (M : sc c (r53 (r53 (x + y) / 2)) (r53 (r53 (x' + y') / 2))) by (apply sc_r53; auto; apply sc_divk, sc_r53; auto; now apply sc_plus).
  rewrite <- (Qltb_sc c 0 _ 0 _ Hc (sc_0 c) M).
  assert (Q0 : Qltb 0 (r53 (r53 (x + y) / 2)) = true). { apply Qltb_iff. apply r53_pos. pose proof (r53_pos _ P). apply Qlt_shift_div_l; lra. }
  rewrite Q0. cbn [osc]. now apply (r53_ratio c).
Qed.
Lemma atr_norm_all_f_units c h h' l l' k k' w ema : binary c -> oscl c h h' -> oscl c l l' -> oscl c k k' ->
  (forall i, (i < length h)%nat -> exists x y, known h i = Some x /\ known l i = Some y /\ 0 < x + y) ->
  both (oscl 1) (atr_f h l k w ema true) (atr_f h' l' k' w ema true).
Proof.
  intros Bc Hh Hl Hk P. unfold atr_f. cbv zeta. pose proof (true_range_f_units c h h' l l' k k' Bc Hh Hl Hk) as T.
  destruct (true_range_f h l k), (true_range_f h' l' k'); cbn [both] in T; try contradiction; [|exact T]. rewrite (oscl_length _ _ _ Hh). cbn [both].
  apply F2_map_same. intros i Hi. apply in_seq in Hi. apply (atr_norm_f_units c); auto using oscl_known; [apply P; lia|].
  destruct (_ || _)%bool; [exact I|]. destruct ema; [now apply atr_ema_f_units|now apply atr_sma_f_units].
Qed.
(** Realised volatility, Bollinger, Parkinson, variances. *)
Lemma present_units c l l' : oscl c l l' -> scl c (present l) (present l').
Proof.
  intro H. unfold present. induction H as [|x y l l' Hx H IH]; cbn [flat_map]; [constructor|]. apply Forall2_app; auto. destruct x, y; cbn [osc] in Hx; try contradiction; repeat constructor; auto.
Qed.
Lemma realized_f_units sqrt sumf c r r' w sm : binary_root sqrt -> binary_sum sumf -> binary c -> oscl c r r' -> oscl c (realized_vol_f sqrt sumf r w sm) (realized_vol_f sqrt sumf r' w sm).
Proof.
  intros Hs Hf Bc H. pose proof (binary_mul c c Bc Bc) as Bm. unfold realized_vol_f. cbv zeta. rewrite (oscl_length _ _ _ H). apply F2_map_same. intros i _. apply osc_if; [reflexivity|exact I|].
  pose proof (present_units c _ _ (oscl_olast c _ _ i w H)) as L. rewrite (scl_length _ _ _ L). apply osc_if; [reflexivity| |exact I]. cbn [osc]. apply binary_sqr; auto.
  apply sc_r53; auto. apply sc_divk, binary_sumf; auto. eapply F2_map; [|exact L]. intros x y K. now apply sqr_f_units.
Qed.
Lemma bb_sums_f_units c p p' w k : binary c -> scl c p p' -> sc c (fst (bb_sums_f p w k)) (fst (bb_sums_f p' w k)) /\ sc (c * c) (snd (bb_sums_f p w k)) (snd (bb_sums_f p' w k)).
Proof.
  intros Bc H. pose proof (binary_mul c c Bc Bc) as Bm.
  assert (P : forall j, sc c (qn p j) (qn p' j)) by (intro; now apply scl_qn). assert (S0 : forall j, sc (c * c) (r53 (qn p j * qn p j)) (r53 (qn p' j * qn p' j))) by (intro; now apply sqr_f_units).
  induction k as [|k [I1 I2]]; cbn [bb_sums_f].
  - apply (fold_rel (fun s t : Q * Q => sc c (fst s) (fst t) /\ sc (c * c) (snd s) (snd t))); [|split; apply sc_0].
    intros [a b] [a' b'] j [R1 R2]. cbn [fst snd] in *. split; apply sc_r53; auto; now apply sc_plus.
  - cbv zeta. cbn [fst snd]. split; apply sc_r53; auto; apply sc_plus; auto; apply sc_r53; auto; now apply sc_minus.
Qed.
Lemma bb_moments_f_units c b s t w : binary c -> sc c (fst s) (fst t) -> sc (c * c) (snd s) (snd t) ->
  sc c (fst (bb_moments_f b s w)) (fst (bb_moments_f b t w)) /\ sc (c * c) (snd (bb_moments_f b s w)) (snd (bb_moments_f b t w)).
Proof.
  intros Bc S1 S2. pose proof (binary_mul c c Bc Bc) as Bm. unfold bb_moments_f. cbv zeta. cbn [fst snd].
  assert (M : sc c (r53 (fst s / Qnat w)) (r53 (fst t / Qnat w))) by (apply sc_r53; auto; now apply sc_divk).
  split; [exact M|]. apply sc_r53; auto. apply sc_divk, sc_r53; auto. apply sc_minus; auto.
  destruct b; apply sc_r53; auto; [apply sc_mult; auto; apply sc_r53; auto; now apply sc_const|]. apply sc_const. now apply sqr_f_units.
Qed.
Lemma bb_f_units sqrt c p p' w k : binary_root sqrt -> binary c -> scl c p p' -> both (oscl 1) (bollinger_percent_b_f sqrt p w k) (bollinger_percent_b_f sqrt p' w k).
Proof.
  intros Hs Bc H. pose proof (binary_pos c Bc) as Hc. unfold bollinger_percent_b_f. rewrite (scl_length _ _ _ H).
  destruct (_ <? _)%nat; [apply F2_repeat; exact I|]. destruct (_ =? 1)%nat; [reflexivity|]. cbn [both].
  apply F2_map_same. intros i _. apply osc_if; [reflexivity|exact I|]. destruct (bb_sums_f_units c p p' w (i + 1 - w) Bc H) as [S1 S2].
  destruct (bb_moments_f_units c (i + 1 =? w)%nat _ _ w Bc S1 S2) as [M V]. unfold bb_value_f. cbv zeta.
  set (s := bb_moments_f (i + 1 =? w)%nat (bb_sums_f p w (i + 1 - w)) w) in *. set (t := bb_moments_f (i + 1 =? w)%nat (bb_sums_f p' w (i + 1 - w)) w) in *. clearbody s t.
  assert (SD : sc c (sqrt (pmax (snd s) 0)) (sqrt (pmax (snd t) 0))) by (apply binary_sqr; auto; apply sc_pmax; [nra|exact V|apply sc_0]).
  assert (KS : sc c (r53 (k * sqrt (pmax (snd s) 0))) (r53 (k * sqrt (pmax (snd t) 0)))) by (apply sc_r53; auto; now apply sc_const).
  set (x := r53 (k * sqrt (pmax (snd s) 0))) in *. set (y := r53 (k * sqrt (pmax (snd t) 0))) in *. clearbody x y.
  assert (L : sc c (r53 (fst s - x)) (r53 (fst t - y))) by (apply sc_r53; auto; now apply sc_minus).
  assert (U : sc c (r53 (fst s + x)) (r53 (fst t + y))) by (apply sc_r53; auto; now apply sc_plus).
  apply osc_if; [now apply (Qltb_sc c)| |exact I]. cbn [osc]. apply (r53_ratio c); auto; apply sc_r53; auto; apply sc_minus; auto. now apply scl_qn.
Qed.
Lemma parkinson_f_units ln c h h' l l' : respects ln -> 0 < c -> scl c h h' -> scl c l l' -> both (scl 1) (parkinson_range_f ln h l) (parkinson_range_f ln h' l').
Proof.
  intros Hn Hc Hh Hl. unfold parkinson_range_f. rewrite (scl_length _ _ _ Hh). apply both_collect, F2_map_same. intros i _.
  pose proof (scl_qn c _ _ i Hh) as A. pose proof (scl_qn c _ _ i Hl) as B. rewrite (Qeqb_sc c _ 0 _ 0 Hc B (sc_0 c)). destruct (Qeqb _ 0); [reflexivity|]. cbv zeta. cbn [both].
  assert (X : sc 1 (ln (r53 (qn h i / qn l i))) (ln (r53 (qn h' i / qn l' i)))) by (apply sc_eq, Hn, sc_eq; now apply (r53_ratio c)).
  pose proof binary_1 as B1. apply sc_r53; auto. apply sc_divk, sc_r53; auto. apply (sc_unit (1 * 1)); [ring|]. now apply sqr_units.
Qed.
Lemma valid_sums_f_units c l l' : binary c -> oscl c l l' ->
  fst (fst (valid_sums_f l')) = fst (fst (valid_sums_f l)) /\ sc c (snd (fst (valid_sums_f l))) (snd (fst (valid_sums_f l'))) /\ sc (c * c) (snd (valid_sums_f l)) (snd (valid_sums_f l')).
Proof.
  intros Bc H. pose proof (binary_mul c c Bc Bc) as Bm. unfold valid_sums_f.
  apply (fold_rel2 (fun s t : nat * Q * Q => fst (fst t) = fst (fst s) /\ sc c (snd (fst s)) (snd (fst t)) /\ sc (c * c) (snd s) (snd t)) (osc c)); auto; [|repeat split; apply sc_0].
  intros [[n a] q] [[m b] r] x y (E & R1 & R2) K. cbn [fst snd] in *. destruct x, y; cbn [osc] in K; try contradiction; cbn [fst snd]; repeat split; auto; apply sc_r53; auto; [now apply sc_plus|].
  apply sc_plus; auto. now apply sqr_f_units.
Qed.
Lemma rolling_variance_f_units c l l' w ddof mp : binary c -> oscl c l l' -> oscl (c * c) (rolling_variance_f l w ddof mp) (rolling_variance_f l' w ddof mp).
Proof.
  intros Bc H. pose proof (binary_pos c Bc) as Hc. pose proof (binary_mul c c Bc Bc) as Bm.
  unfold rolling_variance_f. rewrite (oscl_length _ _ _ H). apply F2_map_same. intros i _. apply osc_if; [reflexivity|exact I|].
  destruct (valid_sums_f_units c _ _ Bc (oscl_olast c _ _ i w H)) as (E & R1 & R2). destruct (valid_sums_f (olast l i w)) as [[n a] q], (valid_sums_f (olast l' i w)) as [[m b] r].
  cbn [fst snd] in *. subst m. apply osc_if; [reflexivity| |exact I]. cbv zeta. cbn [osc]. apply sc_pmax; [nra|apply sc_0|]. apply sc_r53; auto. apply sc_const_r, sc_r53; auto.
  apply sc_minus; [apply sc_r53; auto; now apply sc_divk|]. apply sqr_f_units; auto. apply sc_r53; auto. now apply sc_divk.
Qed.
Lemma vr_ret1_f_units ln c p p' lg i : respects ln -> 0 < c -> oscl c p p' -> osc 1 (vr_ret1_f ln p lg i) (vr_ret1_f ln p' lg i).
Proof.
  intros Hl Hc H. destruct i as [|i]; [exact I|]. unfold vr_ret1_f. pose proof (oscl_known c _ _ (S i) H) as A. pose proof (oscl_known c _ _ i H) as B.
  destruct (known p (S i)) as [a|], (known p' (S i)) as [a'|]; cbn [osc] in A; try contradiction; try exact I.
  destruct (known p i) as [b|], (known p' i) as [b'|]; cbn [osc] in B; try contradiction; try exact I.
  rewrite (Qleb_sc c b 0 b' 0 Hc B (sc_0 c)), (Qleb_sc c a 0 a' 0 Hc A (sc_0 c)). destruct (Qleb b' 0); [exact I|].
  pose proof (r53_ratio c a b a' b' Hc A B) as R. destruct lg; [destruct (Qleb a' 0); [exact I|]; cbn [osc]; now apply sc_eq, Hl, sc_eq|]. cbn [osc].
  apply sc_r53; [apply binary_1|]. apply sc_minus; [exact R|apply sc_1].
Qed.
Lemma vr_ret4_f_units c r r' i : binary c -> oscl c r r' -> osc c (vr_ret4_f r i) (vr_ret4_f r' i).
Proof.
  intros Bc H. unfold vr_ret4_f. destruct (i <? 4)%nat; [exact I|].
  pose proof (oscl_known c _ _ i H) as A. pose proof (oscl_known c _ _ (i - 1) H) as B. pose proof (oscl_known c _ _ (i - 2) H) as C. pose proof (oscl_known c _ _ (i - 3) H) as D.
  destruct (known r i), (known r' i); cbn [osc] in A; try contradiction; try exact I.
  destruct (known r (i - 1)), (known r' (i - 1)); cbn [osc] in B; try contradiction; try exact I.
  destruct (known r (i - 2)), (known r' (i - 2)); cbn [osc] in C; try contradiction; try exact I.
  destruct (known r (i - 3)), (known r' (i - 3)); cbn [osc] in D; try contradiction; try exact I.
  cbn [osc]. repeat (apply sc_r53; auto; apply sc_plus; auto).
Qed.
Lemma variance_ratio_f_units ln c p p' w ddof lg : respects ln -> 0 < c -> oscl c p p' -> oscl 1 (variance_ratio_f ln p w ddof lg) (variance_ratio_f ln p' w ddof lg).
Proof.
  intros Hl Hc H. pose proof binary_1 as B1. unfold variance_ratio_f. cbv zeta. rewrite (oscl_length _ _ _ H). destruct (_ <? _)%nat; [apply F2_repeat; exact I|].
  assert (R1 : oscl 1 (map (vr_ret1_f ln p lg) (seq 0 (length p))) (map (vr_ret1_f ln p' lg) (seq 0 (length p)))) by (apply F2_map_same; intros; now apply (vr_ret1_f_units ln c)).
  set (r1 := map (vr_ret1_f ln p lg) (seq 0 (length p))) in *. set (r1' := map (vr_ret1_f ln p' lg) (seq 0 (length p))) in *.
  assert (R4 : oscl 1 (map (vr_ret4_f r1) (seq 0 (length p))) (map (vr_ret4_f r1') (seq 0 (length p)))) by (apply F2_map_same; intros; now apply vr_ret4_f_units).
  pose proof (rolling_variance_f_units 1 _ _ w ddof 1 B1 R1) as V1. pose proof (rolling_variance_f_units 1 _ _ w ddof 1 B1 R4) as V4.
  apply F2_map_same. intros i _. pose proof (oscl_known _ _ _ i V1) as A. pose proof (oscl_known _ _ _ i V4) as B.
  set (v1 := known (rolling_variance_f r1 w ddof 1) i) in *. set (v1' := known (rolling_variance_f r1' w ddof 1) i) in *. clearbody v1 v1'.
  destruct v1 as [a|], v1' as [a'|]; cbn [osc] in A; try contradiction; try exact I.
  destruct (known _ i) as [b|], (known _ i) as [b'|]; cbn [osc] in B; try contradiction; try exact I.
  rewrite (Qltb_sc (1 * 1) 0 b 0 b' ltac:(lra) (sc_0 _) B). destruct (Qltb 0 b'); [|exact I]. cbn [osc]. apply (r53_ratio (1 * 1)); auto; [lra|].
  apply sc_r53; [now apply binary_mul|]. now apply sc_divk.
Qed.
(** Correlation of price and volume. *)
Lemma pv_return_f_units c p p' i : binary c -> oscl c p p' -> osc 1 (pv_return_f p i) (pv_return_f p' i).
Proof.
  intros Bc H. pose proof (binary_pos c Bc) as Hc. unfold pv_return_f. destruct i as [|i]; [exact I|]. pose proof (oscl_nth c _ _ (S i) H) as A. pose proof (oscl_nth c _ _ (S i - 1) H) as B.
  destruct (nth (S i) p None) as [a|], (nth (S i) p' None) as [a'|]; cbn [osc] in A; try contradiction; try exact I.
  destruct (nth (S i - 1) p None) as [b|], (nth (S i - 1) p' None) as [b'|]; cbn [osc] in B; try contradiction; try exact I.
  rewrite (Qeqb_sc c b 0 b' 0 Hc B (sc_0 c)). destruct (Qeqb b' 0); [exact I|]. cbn [osc]. apply (r53_ratio c); auto. apply sc_r53; auto. now apply sc_minus.
Qed.
Lemma valid_pairs_f_units c d p p' v v' i w : binary c -> oscl c p p' -> oscl d v v' -> Forall2 (pairu d) (valid_pairs_f p v i w) (valid_pairs_f p' v' i w).
Proof.
  intros Bc Hp Hv. unfold valid_pairs_f. induction (seq (i + 1 - w) w) as [|j js IH]; cbn [flat_map]; [constructor|]. apply Forall2_app; auto.
  pose proof (pv_return_f_units c p p' j Bc Hp) as A. pose proof (oscl_nth d _ _ j Hv) as B.
  destruct (pv_return_f p j), (pv_return_f p' j); cbn [osc] in A; try contradiction; try constructor.
  destruct (nth j v None), (nth j v' None); cbn [osc] in B; try contradiction; try constructor; [split; auto|constructor].
Qed.
Lemma dev_f_units d l l' x x' : binary d -> scl d l l' -> sc d x x' -> sc d (dev_f l x) (dev_f l' x').
Proof.
  intros Bd H Hx. unfold dev_f. rewrite (scl_length _ _ _ H). apply sc_r53; auto. apply sc_minus; auto. apply sc_r53; auto. now apply sc_divk, fsum_units.
Qed.
Lemma corr_pairs_f_units sqrt d ps ps' : binary_root sqrt -> binary d -> Forall2 (pairu d) ps ps' -> osc 1 (corr_pairs_f sqrt ps) (corr_pairs_f sqrt ps').
Proof.
  intros Hs Bd H. pose proof (binary_pos d Bd) as Hd. pose proof binary_1 as B1. pose proof (binary_mul d d Bd Bd) as Bm. unfold corr_pairs_f, corr_sums_f. cbv zeta. rewrite <- (F2_length _ _ _ H).
  destruct (_ <? 2)%nat; [exact I|].
  assert (F1 : scl 1 (map fst ps) (map fst ps')) by (eapply F2_map; [|exact H]; now intros x y [A B]).
  assert (F2 : scl d (map snd ps) (map snd ps')) by (eapply F2_map; [|exact H]; now intros x y [A B]).
  assert (D1 : forall x y, pairu d x y -> sc 1 (dev_f (map fst ps) (fst x)) (dev_f (map fst ps') (fst y))) by (intros x y [A B]; now apply dev_f_units).
  assert (D2 : forall x y, pairu d x y -> sc d (dev_f (map snd ps) (snd x)) (dev_f (map snd ps') (snd y))) by (intros x y [A B]; now apply dev_f_units).
  set (f1 := fun x : Q * Q => dev_f (map fst ps) (fst x)) in *. set (f1' := fun x : Q * Q => dev_f (map fst ps') (fst x)) in *.
  set (f2 := fun x : Q * Q => dev_f (map snd ps) (snd x)) in *. set (f2' := fun x : Q * Q => dev_f (map snd ps') (snd x)) in *.
  assert (C : sc d (fsum (map (fun p => r53 (f1 p * f2 p)) ps)) (fsum (map (fun p => r53 (f1' p * f2' p)) ps'))).
  { apply fsum_units; auto. eapply F2_map; [|exact H]. intros x y P. cbv beta. apply sc_r53; auto. apply (sc_unit (1 * d)); [ring|]. apply sc_mult; [now apply D1|now apply D2]. }
  assert (SR : sc (1 * 1) (fsum (map (fun p => r53 (f1 p * f1 p)) ps)) (fsum (map (fun p => r53 (f1' p * f1' p)) ps'))).
  { apply fsum_units; [now apply binary_mul|]. eapply F2_map; [|exact H]. intros x y P. cbv beta. apply sqr_f_units; auto. now apply D1. }
  assert (SV : sc (d * d) (fsum (map (fun p => r53 (f2 p * f2 p)) ps)) (fsum (map (fun p => r53 (f2' p * f2' p)) ps'))).
  { apply fsum_units; auto. eapply F2_map; [|exact H]. intros x y P. cbv beta. apply sqr_f_units; auto. now apply D2. }
  unfold f1, f1', f2, f2' in *. clear f1 f1' f2 f2'.
  rewrite (Qltb_sc (1 * 1) 0 _ 0 _ ltac:(lra) (sc_0 _) SR), (Qltb_sc (d * d) 0 _ 0 _ ltac:(nra) (sc_0 _) SV). destruct (_ && _)%bool; [|exact I]. cbn [osc].
  match type of SR with sc _ ?a ?b => match type of SV with sc _ ?u ?v => assert (X : sc d (r53 (sqrt a * sqrt u)) (r53 (sqrt b * sqrt v))) end end.
  { apply sc_r53; auto. apply (sc_unit (1 * d)); [ring|]. apply sc_mult; apply binary_sqr; auto. }
  assert (R := r53_ratio d _ _ _ _ Hd C X).
  apply sc_if; [apply (Qltb_sc 1); auto; [lra|apply sc_1]|apply sc_1|]. apply sc_if; [apply (Qltb_sc 1); auto; [lra|apply sc_1]|apply sc_1|auto].
Qed.
Lemma correlation_f_units sqrt c d p p' v v' w : binary_root sqrt -> binary c -> binary d -> oscl c p p' -> oscl d v v' ->
  oscl 1 (pv_correlation_f sqrt p v w) (pv_correlation_f sqrt p' v' w).
Proof.
  intros Hs Bc Bd Hp Hv. pose proof (binary_pos c Bc) as Hc. pose proof (binary_pos d Bd) as Hd.
  unfold pv_correlation_f. cbv zeta. rewrite (oscl_length _ _ _ Hp). apply F2_map_same. intros i _. apply osc_if; [reflexivity|exact I|].
  pose proof (pv_return_f_units c p p' i Bc Hp) as A. pose proof (oscl_nth d _ _ i Hv) as B.
  destruct (pv_return_f p i), (pv_return_f p' i); cbn [osc] in A; try contradiction; try exact I.
  destruct (nth i v None), (nth i v' None); cbn [osc] in B; try contradiction; try exact I.
  rewrite (mono_flag_ext (fun j => oleb (nth (S j) p' None) (nth j p' None)) (fun j => oleb (nth (S j) p None) (nth j p None))) by (intro; apply (oleb_units c); auto; now apply oscl_nth).
  rewrite (mono_flag_ext (fun j => oleb (nth (S j) v' None) (nth j v' None)) (fun j => oleb (nth (S j) v None) (nth j v None))) by (intro; apply (oleb_units d); auto; now apply oscl_nth).
  rewrite (mono_flag_ext (fun j => oleb (nth j v' None) (nth (S j) v' None)) (fun j => oleb (nth j v None) (nth (S j) v None))) by (intro; apply (oleb_units d); auto; now apply oscl_nth).
  apply osc_if; [reflexivity|apply sc_1|]. apply osc_if; [reflexivity|apply sc_1|]. apply (corr_pairs_f_units sqrt d); auto. now apply (valid_pairs_f_units c).
Qed.
(** Z-scores with a square root that only follows powers of two. *)
Lemma zscore_b_units sqrt c xs xs' w ddof : binary_root sqrt -> binary c -> scl c xs xs' -> oscl 1 (comp_zscore_f sqrt xs w ddof) (comp_zscore_f sqrt xs' w ddof).
Proof.
  intros Hs Bc H. pose proof (binary_pos c Bc) as Hc. pose proof (binary_mul c c Bc Bc) as Bm.
  unfold comp_zscore_f. cbv zeta. rewrite (scl_length _ _ _ H). apply F2_map_same. intros i _. apply osc_if; [reflexivity|exact I|].
  pose proof (scl_lastn c xs xs' i w H) as L. set (l := lastn xs i w) in *. set (l' := lastn xs' i w) in *.
  assert (M : sc c (mean_f l) (mean_f l')). { unfold mean_f. rewrite (scl_length _ _ _ L). apply sc_r53; auto. apply sc_divk. now apply fsum_units. }
  assert (SD : sc c (sqrt (var_f l ddof)) (sqrt (var_f l' ddof))).
  { apply binary_sqr; auto. unfold var_f. cbv zeta. rewrite (scl_length _ _ _ L). apply sc_r53; auto. apply sc_divk. apply fsum_units; auto.
    eapply F2_map; [|exact L]. intros x y Rx. cbv beta zeta. apply sc_r53; auto. apply sqr_units. apply sc_r53; auto. now apply sc_minus. }
  rewrite (Qeqb_sc c _ 0 _ 0 Hc SD (sc_0 c)). destruct (Qeqb _ 0); [exact I|]. cbn [osc]. apply sc_r53; [apply binary_1|]. apply sc_eq, (sc_ratio c); auto.
  apply sc_r53; auto. apply sc_minus; auto. now apply scl_qn.
Qed.
