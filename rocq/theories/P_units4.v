(** P_units4.v -- volatility, correlation and labels under a change of units. *)
From Coq Require Import Qpower Qfield.
From Verif Require Import Base M_logic M_bars M_features M_volat M_volume M_tbm S_units S_unitbars P_units P_units2 P_units3 P_weights.
Open Scope Q_scope.

Lemma oscl_nth c l l' i : oscl c l l' -> osc c (nth i l None) (nth i l' None).
Proof. apply F2_nth. exact I. Qed.
Lemma oscl_length c l l' : oscl c l l' -> length l' = length l.
Proof. intro H. symmetry. eapply F2_length; eauto. Qed.
Lemma oscl_known c l l' i : oscl c l l' -> osc c (known l i) (known l' i).
Proof. apply oscl_nth. Qed.
Lemma oscl_olast c l l' i n : oscl c l l' -> oscl c (olast l i n) (olast l' i n).
Proof. intro H. unfold olast. now apply F2_firstn, F2_skipn. Qed.

(** ewms. *)
Definition ewu (c : Q) (s t : ew_st) : Prop := e_w t = e_w s /\ e_w2 t = e_w2 s /\ sc c (e_y s) (e_y t) /\ sc (c * c) (e_y2 s) (e_y2 t).
Lemma ew_step_units c b s t y y' : ewu c s t -> osc c y y' -> ewu c (ew_step b s y) (ew_step b t y').
Proof.
  intros (E1 & E2 & E3 & E4) H. destruct y as [v|], y' as [v'|]; cbn [osc] in H; try contradiction; unfold ew_step, ewu; cbn [e_w e_w2 e_y e_y2]; rewrite E1, E2; repeat split; auto.
  - apply sc_plus; auto. now apply sc_const.
  - apply sc_plus; [now apply sc_const|now apply sqr_units].
  - now apply sc_const.
  - now apply sc_const.
Qed.
Lemma ew_out_units sqrt c s t : square_root_like sqrt -> 0 < c -> ewu c s t -> osc c (ew_out sqrt s) (ew_out sqrt t).
Proof.
  intros Hs Hc (E1 & E2 & E3 & E4). unfold ew_out. cbv zeta. rewrite E1, E2. destruct (Qltb 0 _); [|exact I]. destruct (Qltb 0 _); [|exact I].
  cbn [osc]. apply Hs; auto. apply sc_pmax; [nra| |apply sc_0]. apply sc_divk, sc_const_r, sc_minus; [now apply sc_divk|]. apply sqr_units. now apply sc_divk.
Qed.
Lemma ewms_units sqrt c y y' span : square_root_like sqrt -> 0 < c -> oscl c y y' -> oscl c (ewms sqrt y span) (ewms sqrt y' span).
Proof.
  intros Hs Hc H. unfold ewms. rewrite (oscl_length _ _ _ H). destruct (span <=? 1)%Z; [apply F2_repeat; exact I|].
  generalize (1 - 2 / (inject_Z span + 1)) as b. intro b.
  assert (G : forall s t, ewu c s t -> oscl c (ew_loop sqrt b s y) (ew_loop sqrt b t y')).
  { induction H as [|x x' l l' Hx H IH]; intros s t R; cbn [ew_loop]; constructor.
    - apply ew_out_units; auto. now apply ew_step_units.
    - apply IH. now apply ew_step_units. }
  apply G. unfold ewu. cbn [e_w e_w2 e_y e_y2]. repeat split; apply sc_0.
Qed.
(** ewmst_mean0 and ewmst, the floor in the same unit. *)
Lemma m0_state_units exp c ts y y' hl i : oscl c y y' ->
  sc (c * c) (fst (m0_state exp ts y hl i)) (fst (m0_state exp ts y' hl i)) /\ snd (m0_state exp ts y' hl i) = snd (m0_state exp ts y hl i).
Proof.
  intro H. induction i as [|i [I1 I2]]; cbn [m0_state]; [split; [apply sc_0|reflexivity]|].
  pose proof (oscl_known c y y' (S i) H) as K. destruct (m0_state exp ts y hl i) as [u v], (m0_state exp ts y' hl i) as [u' v']. cbn [fst snd] in I1, I2. subst v'.
  destruct (known y (S i)) as [x|], (known y' (S i)) as [x'|]; cbn [osc] in K; try contradiction; cbn [fst snd]; split; try reflexivity.
  - apply sc_plus; apply sc_const; auto. now apply sqr_units.
  - now apply sc_const.
Qed.
Lemma floor_units c s s' f f' : 0 < c -> sc c s s' -> sc c f f' -> sc c (if Qltb s f then f else s) (if Qltb s' f' then f' else s').
Proof. intros. apply sc_if; auto. now apply (Qltb_sc c). Qed.
Lemma mean0_units sqrt exp c ts y y' hl f f' : square_root_like sqrt -> 0 < c -> oscl c y y' -> sc c f f' ->
  both (oscl c) (ewmst_mean0 sqrt exp ts y hl f) (ewmst_mean0 sqrt exp ts y' hl f').
Proof.
  intros Hs Hc H Hf. unfold ewmst_mean0. rewrite (oscl_length _ _ _ H). destruct (_ && _)%bool; [reflexivity|]. cbn [both]. apply F2_map_same. intros [|i] _; [exact I|].
  destruct (m0_state_units exp c ts y y' hl (S i) H) as [I1 I2]. unfold m0_out. cbv zeta. rewrite I2. destruct (Qltb 0 _); [|exact I]. cbn [osc].
  assert (V : sc (c * c) (fst (m0_state exp ts y hl (S i)) / snd (m0_state exp ts y hl (S i))) (fst (m0_state exp ts y' hl (S i)) / snd (m0_state exp ts y hl (S i)))) by now apply sc_divk.
  apply floor_units; auto. apply Hs; auto. apply sc_if; auto; [apply (Qltb_sc (c * c)); auto; [nra|apply sc_0]|apply sc_0].
Qed.
Definition etu (c : Q) (s t : et_st) : Prop := t_v t = t_v s /\ t_v2 t = t_v2 s /\ sc c (t_y s) (t_y t) /\ sc (c * c) (t_yy s) (t_yy t).
Lemma et_state_units exp c ts y y' hl i : oscl c y y' -> etu c (et_state exp ts y hl i) (et_state exp ts y' hl i).
Proof.
  intro H. induction i as [|i (E1 & E2 & E3 & E4)]; cbn [et_state]; [unfold etu; cbn [t_v t_v2 t_y t_yy]; repeat split; apply sc_0|].
  cbv zeta. pose proof (oscl_known c y y' (S i) H) as K.
  destruct (known y (S i)) as [x|], (known y' (S i)) as [x'|]; cbn [osc] in K; try contradiction; unfold etu; cbn [t_v t_v2 t_y t_yy]; rewrite E1, E2; repeat split; auto.
  - apply sc_plus; now apply sc_const.
  - apply sc_plus; [|now apply sc_const]. apply sc_mult; auto. now apply sc_const.
  - now apply sc_const.
  - now apply sc_const.
Qed.
Lemma ewmst_units sqrt exp c ts y y' hl f f' : square_root_like sqrt -> 0 < c -> oscl c y y' -> sc c f f' ->
  both (oscl c) (ewmst sqrt exp ts y hl f) (ewmst sqrt exp ts y' hl f').
Proof.
  intros Hs Hc H Hf. unfold ewmst. rewrite (oscl_length _ _ _ H). destruct (_ && _)%bool; [reflexivity|]. cbn [both]. apply F2_map_same. intros [|i] _; [exact I|].
  destruct (et_state_units exp c ts y y' hl (S i) H) as (E1 & E2 & E3 & E4). unfold et_out. cbv zeta. rewrite E1, E2. destruct (Qltb 0 _); [|exact I]. cbn [osc].
  set (s := et_state exp ts y hl (S i)) in *. set (t := et_state exp ts y' hl (S i)) in *. clearbody s t.
  assert (R : sc (c * c) (t_yy s / t_v s - t_y s / t_v s * (t_y s / t_v s)) (t_yy t / t_v s - t_y t / t_v s * (t_y t / t_v s))).
  { apply sc_minus; [now apply sc_divk|]. apply sqr_units. now apply sc_divk. }
  apply floor_units; auto. apply Hs; auto. apply sc_if; [|now apply sc_const_r|apply sc_0]. f_equal. apply (Qltb_sc (c * c)); auto; [nra|apply sc_0].
Qed.
(** True range and ATR. *)
Lemma tr_at_units c h h' l l' k k' i : 0 < c -> oscl c h h' -> oscl c l l' -> oscl c k k' -> osc c (tr_at h l k i) (tr_at h' l' k' i).
Proof.
  intros Hc Hh Hl Hk. pose proof (oscl_known c _ _ i Hh) as A. pose proof (oscl_known c _ _ i Hl) as B. unfold tr_at. destruct i as [|i].
  - destruct (known h 0), (known h' 0); cbn [osc] in A; try contradiction; destruct (known l 0), (known l' 0); cbn [osc] in B; try contradiction; try exact I. now apply sc_minus.
  - pose proof (oscl_known c _ _ i Hk) as C.
    destruct (known h (S i)), (known h' (S i)); cbn [osc] in A; try contradiction; destruct (known l (S i)), (known l' (S i)); cbn [osc] in B; try contradiction; try exact I;
      destruct (known k i), (known k' i); cbn [osc] in C; try contradiction; try exact I.
    cbn [osc]. apply sc_pmax; auto; [apply sc_pmax; auto; [|apply sc_abs; auto]|apply sc_abs; auto]; now apply sc_minus.
Qed.
Lemma true_range_units c h h' l l' k k' : 0 < c -> oscl c h h' -> oscl c l l' -> oscl c k k' -> both (oscl c) (true_range h l k) (true_range h' l' k').
Proof.
  intros Hc Hh Hl Hk. unfold true_range. rewrite (oscl_length _ _ _ Hh), (oscl_length _ _ _ Hl), (oscl_length _ _ _ Hk). destruct (_ && _)%bool; [|reflexivity].
  cbn [both]. apply F2_map_same. intros i _. now apply tr_at_units.
Qed.
Lemma valid_sum_units c l l' : oscl c l l' -> fst (valid_sum l') = fst (valid_sum l) /\ sc c (snd (valid_sum l)) (snd (valid_sum l')).
Proof.
  intro H. unfold valid_sum. apply (fold_rel2 (fun s t : nat * Q => fst t = fst s /\ sc c (snd s) (snd t)) (osc c)); auto; [|split; [reflexivity|apply sc_0]].
  intros [n a] [m b] x y [E R] K. cbn [fst snd] in *. destruct x, y; cbn [osc] in K; try contradiction; cbn [fst snd]; split; auto. now apply sc_plus.
Qed.
Lemma valid_mean_units c l l' : oscl c l l' -> osc c (valid_mean l) (valid_mean l').
Proof.
  intro H. destruct (valid_sum_units c l l' H) as [E R]. unfold valid_mean. cbv zeta. rewrite E. apply osc_if; [reflexivity| |exact I]. now apply sc_divk.
Qed.
Lemma atr_ema_units c tr tr' w k : oscl c tr tr' -> osc c (atr_ema tr w k) (atr_ema tr' w k).
Proof.
  intro H. induction k as [|k IH]; cbn [atr_ema]; [apply valid_mean_units; now apply F2_firstn|].
  pose proof (oscl_known c _ _ (w - 1 + S k) H) as K. destruct (known tr _), (known tr' _); cbn [osc] in K; try contradiction; try exact I.
  destruct (atr_ema tr w k), (atr_ema tr' w k); cbn [osc] in IH; try contradiction; try exact I. cbn [osc]. apply sc_divk, sc_plus; auto. now apply sc_const.
Qed.
Lemma atr_sma_units c h h' l l' k k' tr tr' w i : oscl c h h' -> oscl c l l' -> oscl c k k' -> oscl c tr tr' ->
  osc c (atr_sma h l k tr w i) (atr_sma h' l' k' tr' w i).
Proof.
  intros Hh Hl Hk Ht. pose proof (oscl_known c _ _ i Hh) as A. pose proof (oscl_known c _ _ i Hl) as B. pose proof (oscl_known c _ _ i Hk) as C.
  pose proof (valid_mean_units c _ _ (oscl_olast c _ _ i w Ht)) as V. unfold atr_sma.
  destruct (i =? 2)%nat; [|exact V].
  destruct (known h i), (known h' i); cbn [osc] in A; try contradiction; try exact V; destruct (known l i), (known l' i); cbn [osc] in B; try contradiction; try exact V;
    destruct (known k i), (known k' i); cbn [osc] in C; try contradiction; try exact V; exact I.
Qed.
Lemma atr_raw_units c h h' l l' k k' w ema : 0 < c -> oscl c h h' -> oscl c l l' -> oscl c k k' ->
  both (oscl c) (atr h l k w ema false) (atr h' l' k' w ema false).
Proof.
  intros Hc Hh Hl Hk. unfold atr. cbv zeta. pose proof (true_range_units c h h' l l' k k' Hc Hh Hl Hk) as T.
  destruct (true_range h l k), (true_range h' l' k'); cbn [both] in T; try contradiction; [|exact T]. rewrite (oscl_length _ _ _ Hh). cbn [both].
  apply F2_map_same. intros i _. destruct (_ || _)%bool; [exact I|]. destruct ema; [now apply atr_ema_units|now apply atr_sma_units].
Qed.
Lemma atr_norm_units c h h' l l' i a a' : 0 < c -> osc c (known h i) (known h' i) -> osc c (known l i) (known l' i) ->
  (exists x y, known h i = Some x /\ known l i = Some y /\ 0 < x + y) -> osc c a a' -> osc 1 (atr_norm h l i a) (atr_norm h' l' i a').
Proof.
  intros Hc A B (x & y & E1 & E2 & P) H. unfold atr_norm. rewrite E1, E2 in *. destruct a as [a|], a' as [a'|]; cbn [osc] in H; try contradiction; [|exact I].
  destruct (known h' i) as [x'|]; cbn [osc] in A; [|contradiction]. destruct (known l' i) as [y'|]; cbn [osc] in B; [|contradiction]. cbv zeta.
  assert (M : sc c ((x + y) / 2) ((x' + y') / 2)) by (apply sc_divk; now apply sc_plus).
  rewrite <- (Qltb_sc c 0 _ 0 _ Hc (sc_0 c) M).
  assert (Q0 : Qltb 0 ((x + y) / 2) = true). { apply Qltb_iff. apply Qlt_shift_div_l; lra. }
  rewrite Q0. cbn [osc]. apply sc_eq. now apply (sc_ratio c).
Qed.
Lemma atr_norm_all_units c h h' l l' k k' w ema : 0 < c -> oscl c h h' -> oscl c l l' -> oscl c k k' ->
  (forall i, (i < length h)%nat -> exists x y, known h i = Some x /\ known l i = Some y /\ 0 < x + y) ->
  both (oscl 1) (atr h l k w ema true) (atr h' l' k' w ema true).
Proof.
  intros Hc Hh Hl Hk P. unfold atr. cbv zeta. pose proof (true_range_units c h h' l l' k k' Hc Hh Hl Hk) as T.
  destruct (true_range h l k), (true_range h' l' k'); cbn [both] in T; try contradiction; [|exact T]. rewrite (oscl_length _ _ _ Hh). cbn [both].
  apply F2_map_same. intros i Hi. apply in_seq in Hi. apply (atr_norm_units c); auto using oscl_known; [apply P; lia|].
  destruct (_ || _)%bool; [exact I|]. destruct ema; [now apply atr_ema_units|now apply atr_sma_units].
Qed.
(** Realised volatility, Bollinger, Parkinson, variances. *)
Lemma realized_units sqrt c r r' w sm : square_root_like sqrt -> 0 < c -> oscl c r r' -> oscl c (realized_vol sqrt r w sm) (realized_vol sqrt r' w sm).
Proof.
  intros Hs Hc H. unfold realized_vol. cbv zeta. rewrite (oscl_length _ _ _ H). apply F2_map_same. intros i _. apply osc_if; [reflexivity|exact I|].
  pose proof (oscl_olast c _ _ i w H) as L. destruct (valid_sum_units c _ _ L) as [E _]. rewrite E. apply osc_if; [reflexivity| |exact I]. cbn [osc]. apply Hs; auto.
  apply sc_divk, scl_qsum. eapply F2_map; [|exact L]. intros x y K. destruct x, y; cbn [osc] in K; try contradiction; [now apply sqr_units|apply sc_0].
Qed.
Lemma bb_sums_units c p p' w k : scl c p p' -> sc c (fst (bb_sums p w k)) (fst (bb_sums p' w k)) /\ sc (c * c) (snd (bb_sums p w k)) (snd (bb_sums p' w k)).
Proof.
  intro H. assert (P : forall j, sc c (qn p j) (qn p' j)) by (intro; now apply scl_qn). assert (S0 : forall j, sc (c * c) (qn p j * qn p j) (qn p' j * qn p' j)) by (intro; now apply sqr_units).
  induction k as [|k [I1 I2]]; cbn [bb_sums].
  - apply (fold_rel (fun s t : Q * Q => sc c (fst s) (fst t) /\ sc (c * c) (snd s) (snd t))); [|split; apply sc_0].
    intros [a b] [a' b'] j [R1 R2]. cbn [fst snd] in *. split; now apply sc_plus.
  - cbv zeta. cbn [fst snd]. split; apply sc_plus; auto; now apply sc_minus.
Qed.
Lemma bb_units sqrt c p p' w k : square_root_like sqrt -> 0 < c -> scl c p p' -> both (oscl 1) (bollinger_percent_b sqrt p w k) (bollinger_percent_b sqrt p' w k).
Proof.
  intros Hs Hc H. unfold bollinger_percent_b. rewrite (scl_length _ _ _ H). destruct (_ <? _)%nat; [apply F2_repeat; exact I|]. destruct (_ =? 1)%nat; [reflexivity|]. cbn [both].
  apply F2_map_same. intros i _. apply osc_if; [reflexivity|exact I|]. destruct (bb_sums_units c p p' w (i + 1 - w) H) as [S1 S2]. unfold bb_value. cbv zeta.
  set (s := bb_sums p w (i + 1 - w)) in *. set (t := bb_sums p' w (i + 1 - w)) in *. clearbody s t.
  assert (M : sc c (fst s / Qnat w) (fst t / Qnat w)) by now apply sc_divk.
  assert (SD : sc c (sqrt (pmax ((snd s - Qnat w * (fst s / Qnat w) * (fst s / Qnat w)) / (Qnat w - 1)) 0)) (sqrt (pmax ((snd t - Qnat w * (fst t / Qnat w) * (fst t / Qnat w)) / (Qnat w - 1)) 0))).
  { apply Hs; auto. apply sc_pmax; [nra| |apply sc_0]. apply sc_divk, sc_minus; auto. apply sc_mult; auto. now apply sc_const. }
  set (sd := sqrt (pmax ((snd s - Qnat w * (fst s / Qnat w) * (fst s / Qnat w)) / (Qnat w - 1)) 0)) in *.
  set (sd' := sqrt (pmax ((snd t - Qnat w * (fst t / Qnat w) * (fst t / Qnat w)) / (Qnat w - 1)) 0)) in *. clearbody sd sd'.
  assert (L : sc c (fst s / Qnat w - k * sd) (fst t / Qnat w - k * sd')) by (apply sc_minus; auto; now apply sc_const).
  assert (U : sc c (fst s / Qnat w + k * sd) (fst t / Qnat w + k * sd')) by (apply sc_plus; auto; now apply sc_const).
  apply osc_if; [now apply (Qltb_sc c)| |exact I]. cbn [osc]. apply sc_eq, (sc_ratio c); auto; apply sc_minus; auto. now apply scl_qn.
Qed.
Lemma parkinson_units ln c h h' l l' : respects ln -> 0 < c -> scl c h h' -> scl c l l' -> both (scl 1) (parkinson_range ln h l) (parkinson_range ln h' l').
Proof.
  intros Hn Hc Hh Hl. unfold parkinson_range. rewrite (scl_length _ _ _ Hh). apply both_collect, F2_map_same. intros i _.
  pose proof (scl_qn c _ _ i Hh) as A. pose proof (scl_qn c _ _ i Hl) as B. rewrite (Qeqb_sc c _ 0 _ 0 Hc B (sc_0 c)). destruct (Qeqb _ 0); [reflexivity|]. cbv zeta. cbn [both].
  apply sc_divk. apply (sc_unit (1 * 1)); [ring|]. apply sqr_units, sc_eq, Hn. now apply (sc_ratio c).
Qed.
Lemma valid_sums_units c l l' : oscl c l l' -> fst (fst (valid_sums l')) = fst (fst (valid_sums l)) /\ sc c (snd (fst (valid_sums l))) (snd (fst (valid_sums l'))) /\ sc (c * c) (snd (valid_sums l)) (snd (valid_sums l')).
Proof.
  intro H. unfold valid_sums.
  apply (fold_rel2 (fun s t : nat * Q * Q => fst (fst t) = fst (fst s) /\ sc c (snd (fst s)) (snd (fst t)) /\ sc (c * c) (snd s) (snd t)) (osc c)); auto; [|repeat split; apply sc_0].
  intros [[n a] q] [[m b] r] x y (E & R1 & R2) K. cbn [fst snd] in *. destruct x, y; cbn [osc] in K; try contradiction; cbn [fst snd]; repeat split; auto; [now apply sc_plus|].
  apply sc_plus; auto. now apply sqr_units.
Qed.
Lemma rolling_variance_units c l l' w ddof mp : 0 < c -> oscl c l l' -> oscl (c * c) (rolling_variance l w ddof mp) (rolling_variance l' w ddof mp).
Proof.
  intros Hc H. unfold rolling_variance. rewrite (oscl_length _ _ _ H). apply F2_map_same. intros i _. apply osc_if; [reflexivity|exact I|].
  destruct (valid_sums_units c _ _ (oscl_olast c _ _ i w H)) as (E & R1 & R2). destruct (valid_sums (olast l i w)) as [[n a] q], (valid_sums (olast l' i w)) as [[m b] r].
  cbn [fst snd] in *. subst m. apply osc_if; [reflexivity| |exact I]. cbv zeta. cbn [osc]. apply sc_pmax; [nra|apply sc_0|]. apply sc_const_r, sc_minus; [now apply sc_divk|].
  apply sqr_units. now apply sc_divk.
Qed.
Lemma vr_ret1_units ln c p p' lg i : respects ln -> 0 < c -> oscl c p p' -> osc 1 (vr_ret1 ln p lg i) (vr_ret1 ln p' lg i).
Proof.
  intros Hl Hc H. destruct i as [|i]; [exact I|]. unfold vr_ret1. pose proof (oscl_known c _ _ (S i) H) as A. pose proof (oscl_known c _ _ i H) as B.
  destruct (known p (S i)) as [a|], (known p' (S i)) as [a'|]; cbn [osc] in A; try contradiction; try exact I.
  destruct (known p i) as [b|], (known p' i) as [b'|]; cbn [osc] in B; try contradiction; try exact I.
  rewrite (Qleb_sc c b 0 b' 0 Hc B (sc_0 c)), (Qleb_sc c a 0 a' 0 Hc A (sc_0 c)). destruct (Qleb b' 0); [exact I|].
  pose proof (sc_ratio c a b a' b' Hc A B) as R. destruct lg; [destruct (Qleb a' 0); [exact I|]; cbn [osc]; now apply sc_eq, Hl|]. cbn [osc]. apply sc_eq. now rewrite R.
Qed.
Lemma vr_ret4_units c r r' i : oscl c r r' -> osc c (vr_ret4 r i) (vr_ret4 r' i).
Proof.
  intro H. unfold vr_ret4. destruct (i <? 4)%nat; [exact I|].
  pose proof (oscl_known c _ _ i H) as A. pose proof (oscl_known c _ _ (i - 1) H) as B. pose proof (oscl_known c _ _ (i - 2) H) as C. pose proof (oscl_known c _ _ (i - 3) H) as D.
  destruct (known r i), (known r' i); cbn [osc] in A; try contradiction; try exact I.
  destruct (known r (i - 1)), (known r' (i - 1)); cbn [osc] in B; try contradiction; try exact I.
  destruct (known r (i - 2)), (known r' (i - 2)); cbn [osc] in C; try contradiction; try exact I.
  destruct (known r (i - 3)), (known r' (i - 3)); cbn [osc] in D; try contradiction; try exact I.
  cbn [osc]. repeat apply sc_plus; auto.
Qed.
Lemma variance_ratio_units ln c p p' w ddof lg : respects ln -> 0 < c -> oscl c p p' -> oscl 1 (variance_ratio ln p w ddof lg) (variance_ratio ln p' w ddof lg).
Proof.
  intros Hl Hc H. unfold variance_ratio. cbv zeta. rewrite (oscl_length _ _ _ H). destruct (_ <? _)%nat; [apply F2_repeat; exact I|].
  assert (R1 : oscl 1 (map (vr_ret1 ln p lg) (seq 0 (length p))) (map (vr_ret1 ln p' lg) (seq 0 (length p)))) by (apply F2_map_same; intros; now apply (vr_ret1_units ln c)).
  set (r1 := map (vr_ret1 ln p lg) (seq 0 (length p))) in *. set (r1' := map (vr_ret1 ln p' lg) (seq 0 (length p))) in *.
  assert (R4 : oscl 1 (map (vr_ret4 r1) (seq 0 (length p))) (map (vr_ret4 r1') (seq 0 (length p)))) by (apply F2_map_same; intros; now apply vr_ret4_units).
  pose proof (rolling_variance_units 1 _ _ w ddof 1 ltac:(lra) R1) as V1. pose proof (rolling_variance_units 1 _ _ w ddof 1 ltac:(lra) R4) as V4.
  apply F2_map_same. intros i _. pose proof (oscl_known _ _ _ i V1) as A. pose proof (oscl_known _ _ _ i V4) as B.
  set (v1 := known (rolling_variance r1 w ddof 1) i) in *. set (v1' := known (rolling_variance r1' w ddof 1) i) in *. clearbody v1 v1'.
  destruct v1 as [a|], v1' as [a'|]; cbn [osc] in A; try contradiction; try exact I.
  destruct (known _ i) as [b|], (known _ i) as [b'|]; cbn [osc] in B; try contradiction; try exact I.
  rewrite (Qltb_sc (1 * 1) 0 b 0 b' ltac:(lra) (sc_0 _) B). destruct (Qltb 0 b'); [|exact I]. cbn [osc]. apply sc_eq, (sc_ratio (1 * 1)); auto; [lra|]. now apply sc_divk.
Qed.
(** Correlation of price and volume. *)
Lemma pv_return_units c p p' i : 0 < c -> oscl c p p' -> osc 1 (pv_return p i) (pv_return p' i).
Proof.
  intros Hc H. unfold pv_return. destruct i as [|i]; [exact I|]. pose proof (oscl_nth c _ _ (S i) H) as A. pose proof (oscl_nth c _ _ (S i - 1) H) as B.
  destruct (nth (S i) p None) as [a|], (nth (S i) p' None) as [a'|]; cbn [osc] in A; try contradiction; try exact I.
  destruct (nth (S i - 1) p None) as [b|], (nth (S i - 1) p' None) as [b'|]; cbn [osc] in B; try contradiction; try exact I.
  rewrite (Qeqb_sc c b 0 b' 0 Hc B (sc_0 c)). destruct (Qeqb b' 0); [exact I|]. cbn [osc]. apply sc_eq, (sc_ratio c); auto. now apply sc_minus.
Qed.
Lemma oleb_units c x x' y y' : 0 < c -> osc c x x' -> osc c y y' -> oleb x' y' = oleb x y.
Proof.
  intros Hc A B. destruct x, x'; cbn [osc] in A; try contradiction; destruct y, y'; cbn [osc] in B; try contradiction; try reflexivity. cbn [oleb]. symmetry. now apply (Qleb_sc c).
Qed.
Lemma mono_flag_ext f g i w : (forall j, f j = g j) -> mono_flag f i w = mono_flag g i w.
Proof. intro H. unfold mono_flag. f_equal. now apply existsb_ext'. Qed.
Definition pairu (d : Q) (x y : Q * Q) : Prop := sc 1 (fst x) (fst y) /\ sc d (snd x) (snd y).
Lemma valid_pairs_units c d p p' v v' i w : 0 < c -> oscl c p p' -> oscl d v v' -> Forall2 (pairu d) (valid_pairs p v i w) (valid_pairs p' v' i w).
Proof.
  intros Hc Hp Hv. unfold valid_pairs. induction (seq (i + 1 - w) w) as [|j js IH]; cbn [flat_map]; [constructor|]. apply Forall2_app; auto.
  pose proof (pv_return_units c p p' j Hc Hp) as A. pose proof (oscl_nth d _ _ j Hv) as B.
  destruct (pv_return p j), (pv_return p' j); cbn [osc] in A; try contradiction; try constructor.
  destruct (nth j v None), (nth j v' None); cbn [osc] in B; try contradiction; try constructor; [split; auto|constructor].
Qed.
Lemma corr_pairs_units sqrt d ps ps' : square_root_like sqrt -> 0 < d -> Forall2 (pairu d) ps ps' -> osc 1 (corr_pairs sqrt ps) (corr_pairs sqrt ps').
Proof.
  intros Hs Hd H. unfold corr_pairs. cbv zeta. rewrite <- (F2_length _ _ _ H). destruct (_ <? 2)%nat; [exact I|]. set (n := Qnat (length ps)). clearbody n.
  assert (F1 : sc 1 (qsum (map fst ps) / n) (qsum (map fst ps') / n)).
  { apply sc_divk, scl_qsum. eapply F2_map; [|exact H]. now intros x y [A B]. }
  assert (F2 : sc d (qsum (map snd ps) / n) (qsum (map snd ps') / n)).
  { apply sc_divk, scl_qsum. eapply F2_map; [|exact H]. now intros x y [A B]. }
  set (mr := qsum (map fst ps) / n) in *. set (mr' := qsum (map fst ps') / n) in *. set (mv := qsum (map snd ps) / n) in *. set (mv' := qsum (map snd ps') / n) in *. clearbody mr mr' mv mv'.
  assert (C : sc d (qsum (map (fun p => (fst p - mr) * (snd p - mv)) ps)) (qsum (map (fun p => (fst p - mr') * (snd p - mv')) ps'))).
  { apply scl_qsum. eapply F2_map; [|exact H]. intros x y [A B]. cbv beta. apply (sc_unit (1 * d)); [ring|]. apply sc_mult; now apply sc_minus. }
  assert (SR : sc (1 * 1) (qsum (map (fun p => (fst p - mr) * (fst p - mr)) ps)) (qsum (map (fun p => (fst p - mr') * (fst p - mr')) ps'))).
  { apply scl_qsum. eapply F2_map; [|exact H]. intros x y [A B]. cbv beta. apply sqr_units; now apply sc_minus. }
  assert (SV : sc (d * d) (qsum (map (fun p => (snd p - mv) * (snd p - mv)) ps)) (qsum (map (fun p => (snd p - mv') * (snd p - mv')) ps'))).
  { apply scl_qsum. eapply F2_map; [|exact H]. intros x y [A B]. cbv beta. apply sqr_units; now apply sc_minus. }
  rewrite (Qltb_sc (1 * 1) 0 _ 0 _ ltac:(lra) (sc_0 _) SR), (Qltb_sc (d * d) 0 _ 0 _ ltac:(nra) (sc_0 _) SV). destruct (_ && _)%bool; [|exact I]. cbn [osc].
  assert (X : sc d (sqrt (qsum (map (fun p => (fst p - mr) * (fst p - mr)) ps)) * sqrt (qsum (map (fun p => (snd p - mv) * (snd p - mv)) ps)))
                   (sqrt (qsum (map (fun p => (fst p - mr') * (fst p - mr')) ps')) * sqrt (qsum (map (fun p => (snd p - mv') * (snd p - mv')) ps')))).
  { apply (sc_unit (1 * d)); [ring|]. apply sc_mult; apply Hs; auto. lra. }
  assert (R := proj2 (sc_eq _ _) (sc_ratio d _ _ _ _ Hd C X)).
  apply sc_if; [apply (Qltb_sc 1); auto; [lra|apply sc_1]|apply sc_1|]. apply sc_if; [apply (Qltb_sc 1); auto; [lra|apply sc_1]|apply sc_1|auto].
Qed.
Lemma correlation_units sqrt c d p p' v v' w : square_root_like sqrt -> 0 < c -> 0 < d -> oscl c p p' -> oscl d v v' ->
  oscl 1 (pv_correlation sqrt p v w) (pv_correlation sqrt p' v' w).
Proof.
  intros Hs Hc Hd Hp Hv. unfold pv_correlation. cbv zeta. rewrite (oscl_length _ _ _ Hp). apply F2_map_same. intros i _. apply osc_if; [reflexivity|exact I|].
  pose proof (pv_return_units c p p' i Hc Hp) as A. pose proof (oscl_nth d _ _ i Hv) as B.
  destruct (pv_return p i), (pv_return p' i); cbn [osc] in A; try contradiction; try exact I.
  destruct (nth i v None), (nth i v' None); cbn [osc] in B; try contradiction; try exact I.
  rewrite (mono_flag_ext (fun j => oleb (nth (S j) p' None) (nth j p' None)) (fun j => oleb (nth (S j) p None) (nth j p None))) by (intro; apply (oleb_units c); auto; now apply oscl_nth).
  rewrite (mono_flag_ext (fun j => oleb (nth (S j) v' None) (nth j v' None)) (fun j => oleb (nth (S j) v None) (nth j v None))) by (intro; apply (oleb_units d); auto; now apply oscl_nth).
  rewrite (mono_flag_ext (fun j => oleb (nth j v' None) (nth (S j) v' None)) (fun j => oleb (nth j v None) (nth (S j) v None))) by (intro; apply (oleb_units d); auto; now apply oscl_nth).
  apply osc_if; [reflexivity|apply sc_1|]. apply osc_if; [reflexivity|apply sc_1|]. apply (corr_pairs_units sqrt d); auto. now apply (valid_pairs_units c).
Qed.
(** VPIN. *)
Lemma vp_nan_units d b b' s s' i : oscl d b b' -> oscl d s s' -> vp_nan b' s' i = vp_nan b s i.
Proof.
  intros Hb Hs. pose proof (oscl_nth d _ _ i Hb) as A. pose proof (oscl_nth d _ _ i Hs) as B. unfold vp_nan.
  destruct (nth i b None), (nth i b' None); cbn [osc] in A; try contradiction; try reflexivity. destruct (nth i s None), (nth i s' None); cbn [osc] in B; try contradiction; reflexivity.
Qed.
Lemma vp_val_units d b b' s s' l l' i : oscl d b b' -> oscl d s s' -> oscl d l l' -> sc d (vp_val b s l i) (vp_val b' s' l' i).
Proof.
  intros Hb Hs Hl. unfold vp_val. rewrite (vp_nan_units d b b' s s' i Hb Hs). destruct (vp_nan b s i); [apply sc_0|]. pose proof (oscl_nth d _ _ i Hl) as A.
  destruct (nth i l None), (nth i l' None); cbn [osc] in A; try contradiction; auto. apply sc_0.
Qed.
Lemma prefix_units c f g k : (forall i, sc c (f i) (g i)) -> sc c (prefix f k) (prefix g k).
Proof. intro H. induction k as [|k IH]; cbn [prefix]; [apply sc_0|now apply sc_plus]. Qed.
Lemma nan_count_units d b b' s s' k : oscl d b b' -> oscl d s s' -> nan_count b' s' k = nan_count b s k.
Proof. intros Hb Hs. induction k as [|k IH]; cbn [nan_count]; [reflexivity|]. now rewrite IH, (vp_nan_units d b b' s s' k Hb Hs). Qed.
Lemma vpin_units d b b' s s' w i x y : 0 < d -> oscl d b b' -> oscl d s s' ->
  nth i (vpin b s w) None = Some x -> nth i (vpin b' s' w) None = Some y -> x == y.
Proof.
  intros Hd Hb Hs. destruct (Nat.lt_ge_cases i (length b)) as [Hi|Hi].
  2:{ rewrite nth_overflow; [discriminate|]. unfold vpin. now rewrite map_length, seq_length. }
  unfold vpin. rewrite (oscl_length _ _ _ Hb).
  rewrite !nth_map_seq by auto. intros A B. cbv beta zeta in A, B. rewrite !(nan_count_units d b b' s s' _ Hb Hs) in B.
  destruct (_ && _)%bool; [|discriminate].
  match type of A with (if Qltb _ ?t then _ else _) = _ => set (tt := t) in A end. match type of B with (if Qltb _ ?t then _ else _) = _ => set (tt' := t) in B end.
  destruct (Qltb _ tt); [|discriminate]. destruct (Qltb _ tt'); [|discriminate]. injection A as <-. injection B as <-.
  assert (P : forall l l', oscl d l l' -> forall k, sc d (prefix (vp_val b s l) k) (prefix (vp_val b' s' l') k)) by (intros; apply prefix_units; intro; now apply vp_val_units).
  apply (sc_ratio d); auto.
  - apply sc_minus; apply prefix_units; intro; unfold vp_abs; apply sc_abs; auto; apply sc_minus; now apply vp_val_units.
  - unfold tt, tt'. apply sc_plus; apply sc_minus; auto.
Qed.
(** Triple barrier labels. *)
Lemma qsign_comp x y : x == y -> qsign x = qsign y.
Proof.
  intro E. unfold qsign. unfold Qeq in E. destruct x as [a p], y as [b q]. cbn [Qnum Qden] in *. nia.
Qed.
Lemma barrier_ratio_units m m' r r' b : sc 1 m m' -> sc 1 r r' -> sc 1 (ratio_max m r b) (ratio_max m' r' b).
Proof. intros Hm Hr. unfold ratio_max. destruct b; auto. apply sc_pmax; auto; [lra|]. now apply sc_divk. Qed.
Lemma q_ge_units r r' b : sc 1 r r' -> q_ge_ext r b = q_ge_ext r' b.
Proof. intro H. unfold q_ge_ext. destruct b; auto. apply (Qleb_sc 1); auto; [lra|apply sc_1]. Qed.
Lemma q_le_units r r' b : sc 1 r r' -> q_le_ext r b = q_le_ext r' b.
Proof. intro H. unfold q_le_ext. destruct b; auto. apply (Qleb_sc 1); auto; [lra|apply sc_1]. Qed.
Lemma tbm_scan_units ln rnd ts cl cl' t0 base base' side mc up lo js r r' mu mu' ml ml' :
  (forall j, In j js -> ln (nth j cl 0) - base == ln (nth j cl' 0) - base') -> sc 1 r r' -> sc 1 mu mu' -> sc 1 ml ml' ->
  let x := tbm_scan ln rnd ts cl t0 base side mc up lo js r mu ml in let y := tbm_scan ln rnd ts cl' t0 base' side mc up lo js r' mu' ml' in
  fst (fst (fst y)) = fst (fst (fst x)) /\ sc 1 (snd (fst (fst x))) (snd (fst (fst y))) /\ sc 1 (snd (fst x)) (snd (fst y)) /\ sc 1 (snd x) (snd y).
Proof.
  revert r r' mu mu' ml ml'. induction js as [|j js IH]; intros r r' mu mu' ml ml' H Hr Hu Hl; cbv zeta; cbn [tbm_scan].
  { cbn [fst snd]. auto. }
  cbv zeta. destruct (_ <? mc)%Z. { apply IH; auto. intros k Hk. apply H. now right. }
  assert (R : sc 1 ((ln (nth j cl 0) - base) * side) ((ln (nth j cl' 0) - base') * side)) by (apply sc_const_r, sc_eq, H; now left).
  set (q := (ln (nth j cl 0) - base) * side) in *. set (q' := (ln (nth j cl' 0) - base') * side) in *. clearbody q q'.
  rewrite (Qltb_sc 1 0 q 0 q' ltac:(lra) (sc_0 1) R), (Qltb_sc 1 q 0 q' 0 ltac:(lra) R (sc_0 1)), (q_ge_units q q' up R), (q_le_units q q' lo R).
  pose proof (barrier_ratio_units mu mu' q q' up Hu R) as B1. pose proof (barrier_ratio_units ml ml' q q' lo Hl R) as B2.
  destruct (Qltb 0 q' && barrier_valid up)%bool; [|destruct (Qltb q' 0 && barrier_valid lo)%bool];
    (destruct (q_ge_ext q' up); [cbn [fst snd]; auto|]; destruct (q_le_ext q' lo); [cbn [fst snd]; auto|]; apply IH; auto; intros k Hk; apply H; now right).
Qed.
Lemma tbm_label_units meta mr r r' : sc 1 r r' -> tbm_label meta mr r' = tbm_label meta mr r.
Proof.
  intro H. unfold tbm_label. rewrite (Qleb_sc 1 mr r mr r' ltac:(lra) (sc_1 mr) H), (qsign_comp r r' (proj1 (sc_eq r r') H)). reflexivity.
Qed.
Lemma tbm_weight_units b r r' mu mu' ml ml' up lo : sc 1 r r' -> sc 1 mu mu' -> sc 1 ml ml' -> osc 1 (tbm_weight b r mu ml up lo) (tbm_weight b r' mu' ml' up lo).
Proof.
  intros Hr Hu Hl. unfold tbm_weight. destruct b; [|apply sc_1]. rewrite (Qltb_sc 1 0 r 0 r' ltac:(lra) (sc_0 1) Hr).
  assert (W : forall x x' y y', sc 1 x x' -> sc 1 y y' -> osc 1 (Some (pmin (x / (1 + y)) 1)) (Some (pmin (x' / (1 + y')) 1))).
  { intros x x' y y' A B. cbn [osc]. apply sc_pmin; [lra| |apply sc_1]. apply sc_eq, (sc_ratio 1); auto; [lra|]. apply sc_plus; [apply sc_1|auto]. }
  destruct (Qltb 0 r'); [destruct (barrier_valid up)|destruct (barrier_valid lo)]; try exact I; now apply W.
Qed.
Lemma pos_nth cl j : Forall (fun x => 0 < x) cl -> (j < length cl)%nat -> 0 < nth j cl 0.
Proof. intros H Hj. rewrite Forall_forall in H. apply H. now apply nth_In. Qed.
Lemma tbm_event_units ln rnd c ts cl cl' e tgt bo top vert mc meta side mr : log_like ln c -> scl c cl cl' -> Forall (fun x => 0 < x) cl -> length ts = length cl ->
  same_label (tbm_event ln rnd ts cl e tgt bo top vert mc meta side mr) (tbm_event ln rnd ts cl' e tgt bo top vert mc meta side mr).
Proof.
  intros Hl H Hp Hn. unfold tbm_event. cbv zeta. destruct (_ <=? _)%Z eqn:T; [repeat split; exact I|]. apply Z.leb_gt in T.
  assert (B : (tbm_t1_idx rnd ts e vert <= Z.of_nat (length cl) - 1)%Z).
  { unfold tbm_t1_idx. destruct vert as [v|]; [|lia]. pose proof (ss_right_le (map rnd ts) (rnd (rnd (nth e ts 0%Z) + v)%Z)) as L. rewrite map_length in L. lia. }
  set (t1 := Z.to_nat (tbm_t1_idx rnd ts e vert)) in *. assert (B2 : (t1 < length cl)%nat /\ (e < t1)%nat) by lia. clearbody t1.
  pose proof (tbm_scan_units ln rnd ts cl cl' (nth e ts 0%Z) (ln (nth e cl 0)) (ln (nth e cl' 0)) side mc (emulq tgt top) (emulq (- tgt) bo) (seq (S e) (t1 - e)) 0 0 0 0 0 0) as S0.
  cbv zeta in S0. destruct S0 as (S1 & S2 & S3 & S4); try apply sc_0.
  { intros j Hj. apply in_seq in Hj. apply Hl; try (apply pos_nth; auto; lia); now apply scl_nth. }
  destruct (tbm_scan ln rnd ts cl _ _ _ _ _ _ _ _ _ _) as [[[t r] mu] ml], (tbm_scan ln rnd ts cl' _ _ _ _ _ _ _ _ _ _) as [[[t' r'] mu'] ml']. cbn [fst snd] in *. subst t'.
  unfold same_label. cbn [tb_label tb_touch tb_ret tb_weight]. repeat split; auto; [now apply tbm_label_units|now apply tbm_weight_units].
Qed.
Lemma tbm_units ln rnd c ts cl cl' ev tg bo top vert mc sides mr : log_like ln c -> scl c cl cl' -> Forall (fun x => 0 < x) cl ->
  both (Forall2 same_label) (triple_barrier ln rnd ts cl ev tg bo top vert mc sides mr) (triple_barrier ln rnd ts cl' ev tg bo top vert mc sides mr).
Proof.
  intros Hl H Hp. unfold triple_barrier. rewrite (scl_length _ _ _ H).
  repeat match goal with |- both _ (if ?b then Raise _ else _) _ => destruct b eqn:?; [reflexivity|] end.
  cbn [both]. apply F2_map_same. intros k _. apply (tbm_event_units ln rnd c); auto.
  match goal with E : negb (length ts =? length cl)%nat = false |- _ => apply Bool.negb_false_iff, Nat.eqb_eq in E; exact E end.
Qed.
