(** P_units5.v -- float kernels under a change of units by a power of two. *)
From Coq Require Import Qpower Qfield.
From Verif Require Import Base M_logic M_bars M_features M_float M_float2 S_units S_unitbars P_units P_units2 P_units3 P_float P_float9.
Open Scope Q_scope.

Definition binary (c : Q) : Prop := exists e, c == two e.
Lemma binary_pos c : binary c -> 0 < c.
Proof. intros [e ->]. apply two_pos. Qed.
Lemma binary_1 : binary 1.
Proof. exists 0%Z. reflexivity. Qed.
Lemma binary_mul c d : binary c -> binary d -> binary (c * d).
Proof. intros [e He] [f Hf]. exists (e + f)%Z. rewrite two_plus, He, Hf. reflexivity. Qed.
Lemma sc_rnd p c x y : binary c -> sc c x y -> sc c (rnd p x) (rnd p y).
Proof.
  intros [e He] H. unfold sc in *. rewrite (rnd_comp p y (x * two e)) by (rewrite H, He; ring). rewrite rnd_two, He. ring.
Qed.
Lemma sc_r53 c x y : binary c -> sc c x y -> sc c (r53 x) (r53 y).
Proof. apply sc_rnd. Qed.
Lemma sc_r24 c x y : binary c -> sc c x y -> sc c (r24 x) (r24 y).
Proof. apply sc_rnd. Qed.

Lemma volume_f_units d v v' t t' : binary d -> scl d v v' -> sc d t t' -> volume_bar_indexer_f v' t' = volume_bar_indexer_f v t.
Proof.
  intros Bd Hv Ht. pose proof (binary_pos d Bd) as Hd. unfold volume_bar_indexer_f. rewrite (scl_length _ _ _ Hv). symmetry.
  refine (proj1 (fold_rel (fun s s' : list nat * Q => fst s = fst s' /\ sc d (snd s) (snd s')) _ _ _ _ _ _ _)).
  - intros [i q] [i' q'] k [E R]. cbn [fst snd] in *. subst i'. unfold volume_step_f.
    assert (A : sc d (r53 (q + nth k v 0)) (r53 (q' + nth k v' 0))) by (apply sc_r53; auto; apply sc_plus; [auto|now apply scl_nth]).
    rewrite (Qleb_sc d t _ t' _ Hd Ht A). destruct (Qleb t' _); cbn [fst snd]; split; auto. apply sc_0.
  - cbn [fst snd]. split; [reflexivity|now apply scl_nth].
Qed.
Lemma dollar_f_units c d p p' v v' t t' : binary c -> binary d -> scl c p p' -> scl d v v' -> sc (c * d) t t' ->
  fst (dollar_bar_run_f p' v' t') = fst (dollar_bar_run_f p v t) /\ sc (c * d) (snd (dollar_bar_run_f p v t)) (snd (dollar_bar_run_f p' v' t')).
Proof.
  intros Bc Bd Hp Hv Ht. pose proof (binary_mul c d Bc Bd) as Bm. pose proof (binary_pos _ Bm) as Hcd. unfold dollar_bar_run_f. rewrite (scl_length _ _ _ Hp).
  pose (R := fun s s' : list nat * Q => fst s = fst s' /\ sc (c * d) (snd s) (snd s')).
  match goal with |- fst ?y = fst ?x /\ _ => assert (G : R x y) end.
  { apply fold_rel; unfold R.
    - intros [i q] [i' q'] k [E R0]. cbn [fst snd] in *. subst i'. unfold dollar_step_f.
      assert (A : sc (c * d) (r53 (q + r53 (nth k p 0 * nth k v 0))) (r53 (q' + r53 (nth k p' 0 * nth k v' 0)))).
      { apply sc_r53; auto. apply sc_plus; auto. apply sc_r53; auto. apply sc_mult; now apply scl_nth. }
      rewrite (Qleb_sc (c * d) t _ t' _ Hcd Ht A). destruct (Qleb t' _); cbn [fst snd]; split; auto. apply sc_r53; auto. now apply sc_minus.
    - cbn [fst snd]. split; [reflexivity|]. apply sc_r53; auto. apply sc_mult; now apply scl_nth. }
  destruct G as [G1 G2]. split; [now symmetry|exact G2].
Qed.
Lemma median_f_units d l l' : binary d -> scl d l l' -> sc d (median_f l) (median_f l').
Proof.
  intros Bd H. pose proof (scl_qsort d l l' (binary_pos d Bd) H) as Q0. unfold median_f. cbv zeta. rewrite (scl_length _ _ _ H).
  destruct (Nat.odd (length l)); [now apply scl_nth|]. apply sc_r53; auto. apply sc_divk. apply sc_r53; auto. apply sc_plus; now apply scl_nth.
Qed.
Lemma bar_ohlcv_f_units c d p p' v v' s e : binary c -> binary d -> scl c p p' -> scl d v v' ->
  same_bar c d (bar_ohlcv_f p v s e) (bar_ohlcv_f p' v' s e).
Proof.
  intros Bc Bd Hp Hv. pose proof (binary_pos c Bc) as Hc. pose proof (binary_pos d Bd) as Hd. pose proof (binary_mul c d Bc Bd) as Bm.
  pose proof (fun i => scl_zget c p p' i Hp) as Zp. pose proof (fun i => scl_zget d v v' i Hv) as Zv. unfold bar_ohlcv_f.
  destruct (s =? e)%Z. { unfold same_bar. cbn [b_open b_high b_low b_close b_volume b_vwap b_trades b_median]. repeat split; auto; apply sc_0. }
  cbv zeta.
  pose (R := fun st st' : Q * Q * Q * Q => sc c (fst (fst (fst st))) (fst (fst (fst st'))) /\ sc c (snd (fst (fst st))) (snd (fst (fst st')))
          /\ sc d (snd (fst st)) (snd (fst st')) /\ sc (c * d) (snd st) (snd st')).
  assert (F : R (fold_left (ohlcv_step_f p v) (zrange (s + 1) (e + 1)) (zget 0 p (s + 1), zget 0 p (s + 1), 0, 0))
                (fold_left (ohlcv_step_f p' v') (zrange (s + 1) (e + 1)) (zget 0 p' (s + 1), zget 0 p' (s + 1), 0, 0))).
  { apply fold_rel.
    - intros [[[h l] a] b] [[[h' l'] a'] b'] k (R1 & R2 & R3 & R4). unfold R, ohlcv_step_f in *. cbn [fst snd] in *. repeat split.
      + apply sc_if; auto. now apply (Qltb_sc c).
      + apply sc_if; auto. now apply (Qltb_sc c).
      + apply sc_r53; auto. now apply sc_plus.
      + apply sc_r53; auto. apply sc_plus; auto. apply sc_r53; auto. now apply sc_mult.
    - unfold R. cbn [fst snd]. repeat split; auto; apply sc_0. }
  destruct (fold_left (ohlcv_step_f p v) _ _) as [[[h l] a] b]. destruct (fold_left (ohlcv_step_f p' v') _ _) as [[[h' l'] a'] b'].
  destruct F as (R1 & R2 & R3 & R4). unfold R in *. cbn [fst snd] in *. unfold same_bar. cbn [b_open b_high b_low b_close b_volume b_vwap b_trades b_median].
  repeat split; auto.
  - now apply sc_r24.
  - apply sc_if; [apply (Qltb_sc d); auto; apply sc_0| |apply sc_0]. apply sc_r53; auto. apply (sc_unit (c * d / d)); [field; lra|]. now apply sc_div.
  - destruct (_ <? _)%Z; [|apply sc_0]. apply median_f_units; auto. now apply scl_map_zget.
Qed.
Lemma ohlcv_f_units c d p p' v v' closes : binary c -> binary d -> scl c p p' -> scl d v v' ->
  both (Forall2 (same_bar c d)) (comp_bar_ohlcv_f p v closes) (comp_bar_ohlcv_f p' v' closes).
Proof.
  intros Hc Hd Hp Hv. unfold comp_bar_ohlcv_f. rewrite (scl_length _ _ _ Hp), (scl_length _ _ _ Hv).
  destruct (negb _); [reflexivity|]. destruct (_ <? 2)%nat; [reflexivity|]. cbn [both]. apply F2_map_same. intros k _. now apply bar_ohlcv_f_units.
Qed.
Lemma fsum_units c l l' : binary c -> scl c l l' -> sc c (fsum l) (fsum l').
Proof.
  intros Bc H. unfold fsum. apply (fold_rel2 (sc c) (sc c)); auto; [|apply sc_0]. intros. apply sc_r53; auto. now apply sc_plus.
Qed.
Lemma sma_f_units c xs xs' w : binary c -> scl c xs xs' -> oscl c (sma_f xs w) (sma_f xs' w).
Proof.
  intros Bc H. unfold sma_f. rewrite (scl_length _ _ _ H). apply F2_map_same. intros i _. apply osc_if; [reflexivity|exact I|]. cbn [osc].
  apply sc_r53; auto. apply sc_const. apply fsum_units; auto. now apply scl_lastn.
Qed.
Lemma ewma_loop_f_units c beta u u' v ys ys' : binary c -> sc c u u' -> scl c ys ys' -> scl c (ewma_loop_f beta u v ys) (ewma_loop_f beta u' v ys').
Proof.
  intros Bc Hu H. revert u u' v Hu. induction H as [|y y' l l' Hy H IH]; intros u u' v Hu; cbn [ewma_loop_f]; cbv zeta; constructor.
  - apply sc_r53; auto. apply sc_divk. apply sc_r53; auto. apply sc_plus; auto. apply sc_r53; auto. now apply sc_const.
  - apply IH. apply sc_r53; auto. apply sc_plus; auto. apply sc_r53; auto. now apply sc_const.
Qed.
Lemma ewma_f_units c ys ys' span : binary c -> scl c ys ys' -> both (scl c) (ewma_f ys span) (ewma_f ys' span).
Proof.
  intros Bc H. unfold ewma_f. destruct (span <? 1)%Z; [reflexivity|]. destruct H as [|y y' l l' Hy H]; cbn [both]; [constructor|].
  constructor; auto. now apply ewma_loop_f_units.
Qed.
Lemma vwap_dist_f_units ln lg c d x x' w w' v v' : respects ln -> binary c -> binary d -> sc c x x' -> sc (c * d) w w' -> sc d v v' ->
  both (esc 1) (vwap_dist_f ln lg x w v) (vwap_dist_f ln lg x' w' v').
Proof.
  intros Hl Bc Bd Hx Hw Hv. pose proof (binary_pos c Bc) as Hc. pose proof (binary_pos d Bd) as Hd. unfold vwap_dist_f. cbv zeta.
  assert (P : sc c (r53 (w / v)) (r53 (w' / v'))) by (apply sc_r53; auto; apply (sc_unit (c * d / d)); [field; lra|now apply sc_div]).
  rewrite (Qeqb_sc c _ 0 _ 0 Hc P (sc_0 c)). destruct (Qeqb _ 0); [reflexivity|].
  assert (R : sc 1 (r53 (x / r53 (w / v))) (r53 (x' / r53 (w' / v')))) by (apply sc_r53; [apply binary_1|]; apply sc_eq; now apply (sc_ratio c)).
  destruct lg; cbn [both]; [apply flog_units; auto; now apply sc_eq|]. cbn [esc]. apply sc_r53; [apply binary_1|]. apply sc_minus; auto. apply sc_1.
Qed.
Lemma vwap_state_f_units ln c d cl cl' v v' n lg k : respects ln -> binary c -> binary d -> scl c cl cl' -> scl d v v' ->
  sc (c * d) (fst (fst (vwap_state_f ln cl v n lg k))) (fst (fst (vwap_state_f ln cl' v' n lg k))) /\
  sc d (snd (fst (vwap_state_f ln cl v n lg k))) (snd (fst (vwap_state_f ln cl' v' n lg k))) /\
  both (esc 1) (snd (vwap_state_f ln cl v n lg k)) (snd (vwap_state_f ln cl' v' n lg k)).
Proof.
  intros Hl Bc Bd H Hv. pose proof (binary_pos d Bd) as Hd. pose proof (binary_mul c d Bc Bd) as Bm.
  assert (PQ : forall j, sc (c * d) (r53 (qn cl j * qn v j)) (r53 (qn cl' j * qn v' j))) by (intro; apply sc_r53; auto; apply sc_mult; now apply scl_qn).
  assert (PV : forall j, sc d (qn v j) (qn v' j)) by (intro; now apply scl_qn).
  induction k as [|k (I1 & I2 & I3)]; cbn [vwap_state_f]; cbv zeta; cbn [fst snd].
  - assert (A : sc (c * d) (fold_left (fun s j => r53 (s + r53 (qn cl j * qn v j))) (seq 0 n) 0) (fold_left (fun s j => r53 (s + r53 (qn cl' j * qn v' j))) (seq 0 n) 0)).
    { apply fold_rel; [|apply sc_0]. intros. apply sc_r53; auto. now apply sc_plus. }
    assert (B : sc d (fold_left (fun s j => r53 (s + qn v j)) (seq 0 n) 0) (fold_left (fun s j => r53 (s + qn v' j)) (seq 0 n) 0)).
    { apply fold_rel; [|apply sc_0]. intros. apply sc_r53; auto. now apply sc_plus. }
    repeat split; auto. rewrite (Qltb_sc d 0 _ 0 _ Hd (sc_0 d) B). destruct (Qltb 0 _); [|exact I]. apply (vwap_dist_f_units ln false c d); auto. now apply scl_qn.
  - match goal with |- sc _ ?x ?y /\ sc _ ?u ?z /\ _ => assert (A : sc (c * d) x y); [|assert (B : sc d u z)] end.
    { apply sc_r53; auto. apply sc_plus; auto. apply sc_r53; auto. now apply sc_minus. }
    { apply sc_r53; auto. apply sc_plus; auto. apply sc_r53; auto. now apply sc_minus. }
    repeat split; auto. rewrite (Qltb_sc d 0 _ 0 _ Hd (sc_0 d) B). destruct (Qltb 0 _); [|exact I3]. apply (vwap_dist_f_units ln lg c d); auto. now apply scl_qn.
Qed.
Lemma vwap_f_units ln c d cl cl' v v' n lg : respects ln -> binary c -> binary d -> scl c cl cl' -> scl d v v' ->
  both (escl 1) (vwap_distance_f ln cl v n lg) (vwap_distance_f ln cl' v' n lg).
Proof.
  intros Hl Bc Bd H Hv. unfold vwap_distance_f. rewrite (scl_length _ _ _ H). apply both_collect. apply F2_map_same. intros i _.
  destruct (_ <? _)%nat; [exact I|]. now apply (vwap_state_f_units ln c d).
Qed.
Lemma zscore_f_units sqrt c xs xs' w ddof : square_root_like sqrt -> binary c -> scl c xs xs' -> oscl 1 (comp_zscore_f sqrt xs w ddof) (comp_zscore_f sqrt xs' w ddof).
Proof.
  intros Hs Bc H. pose proof (binary_pos c Bc) as Hc. pose proof (binary_mul c c Bc Bc) as Bm.
  unfold comp_zscore_f. cbv zeta. rewrite (scl_length _ _ _ H). apply F2_map_same. intros i _. apply osc_if; [reflexivity|exact I|].
  pose proof (scl_lastn c xs xs' i w H) as L. set (l := lastn xs i w) in *. set (l' := lastn xs' i w) in *.
  assert (M : sc c (mean_f l) (mean_f l')). { unfold mean_f. rewrite (scl_length _ _ _ L). apply sc_r53; auto. apply sc_divk. now apply fsum_units. }
  assert (SD : sc c (sqrt (var_f l ddof)) (sqrt (var_f l' ddof))).
  { apply Hs; auto. unfold var_f. cbv zeta. rewrite (scl_length _ _ _ L). apply sc_r53; auto. apply sc_divk. apply fsum_units; auto.
    eapply F2_map; [|exact L]. intros x y Rx. cbv beta zeta. apply sc_r53; auto. apply sqr_units. apply sc_r53; auto. now apply sc_minus. }
  rewrite (Qeqb_sc c _ 0 _ 0 Hc SD (sc_0 c)). destruct (Qeqb _ 0); [exact I|]. cbn [osc]. apply sc_r53; [apply binary_1|]. apply sc_eq, (sc_ratio c); auto.
  apply sc_r53; auto. apply sc_minus; auto. now apply scl_qn.
Qed.

(** An exact square root of squares of rationals, 0 elsewhere. *)
Definition qsqrt (x : Q) : Q :=
  let m := (Qnum x * Zpos (Qden x))%Z in let r := Z.sqrt m in if (r * r =? m)%Z then inject_Z r / inject_Z (Zpos (Qden x)) else 0.
Lemma square_divides m k l : (k <> 0 -> m * (k * k) = l * l -> exists r, m = r * r)%Z.
Proof.
  intros Hk E. assert (Hg : (0 < Z.gcd k l)%Z). { pose proof (Z.gcd_nonneg k l). assert (Z.gcd k l <> 0)%Z by (intro G; apply Z.gcd_eq_0_l in G; contradiction). lia. }
  destruct (Z.gcd_divide_l k l) as [k' Ek]. destruct (Z.gcd_divide_r k l) as [l' El]. set (g := Z.gcd k l) in *.
  assert (C : Z.gcd k' l' = 1%Z).
  { assert (G : (g * Z.gcd k' l' = g)%Z). { rewrite <- (Z.gcd_mul_mono_l_nonneg k' l' g) by lia. rewrite !(Z.mul_comm g), <- Ek, <- El. reflexivity. }
    nia. }
  assert (E' : (m * (k' * k') = l' * l')%Z). { rewrite Ek, El in E. assert ((g * g) * (m * (k' * k')) = (g * g) * (l' * l'))%Z by nia. nia. }
  assert (D : (k' | l')%Z). { apply (Z.gauss k' l' l'); auto. exists (m * k')%Z. rewrite <- E'. ring. }
  destruct D as [t Et]. exists t. subst l'. assert (k' <> 0)%Z by (intro Z0; apply Hk; rewrite Ek, Z0; ring).
  assert (F : ((k' * k') * m = (k' * k') * (t * t))%Z) by (rewrite (Z.mul_comm _ m), E'; ring).
  apply Z.mul_reg_l in F; [exact F|]. intro Z0. apply Z.mul_eq_0 in Z0. tauto.
Qed.
Lemma qsqrt_spec x : (exists r, 0 <= r /\ x == r * r /\ qsqrt x == r) \/ (forall r, ~ x == r * r) /\ qsqrt x == 0.
Proof.
  unfold qsqrt. cbv zeta. destruct x as [n d]. cbn [Qnum Qden]. destruct (Z.eqb_spec (Z.sqrt (n * Zpos d) * Z.sqrt (n * Zpos d)) (n * Zpos d)) as [E|E].
  - left. exists (inject_Z (Z.sqrt (n * Zpos d)) / inject_Z (Zpos d)). split; [|split; [|reflexivity]].
    + apply Qle_shift_div_l; [reflexivity|]. rewrite Qmult_0_l. change 0 with (inject_Z 0). rewrite <- Zle_Qle. apply Z.sqrt_nonneg.
    + assert (P : ~ inject_Z (Zpos d) == 0) by discriminate.
      assert (X : n # d == inject_Z n / inject_Z (Zpos d)) by (rewrite <- Qmake_Qdiv; reflexivity). rewrite X.
      assert (Y : inject_Z n * inject_Z (Zpos d) == inject_Z (Z.sqrt (n * Zpos d)) * inject_Z (Z.sqrt (n * Zpos d))) by (rewrite <- !inject_Z_mult, E; reflexivity).
      field_simplify_eq; auto.
  - right. split; [|reflexivity]. intros [a b] H. apply E. unfold Qeq in H. unfold Qmult in H. cbn [Qnum Qden] in H. rewrite Pos2Z.inj_mul in H.
    destruct (square_divides (n * Zpos d) (Zpos b) (a * Zpos d)) as [r Hr]; [lia|nia|].
    assert (Z.sqrt (n * Zpos d) = Z.abs r) as ->; [|nia]. rewrite Hr, <- Z.abs_square. apply Z.sqrt_square. lia.
Qed.
Lemma square_eq_nonneg r s : 0 <= r -> 0 <= s -> r * r == s * s -> r == s.
Proof. intros Hr Hs E. destruct (Qlt_le_dec r s); [nra|]. destruct (Qlt_le_dec s r); [nra|lra]. Qed.
Lemma qsqrt_like : square_root_like qsqrt.
Proof.
  intros c x y Hc H. unfold sc in *. destruct (qsqrt_spec x) as [(r & R1 & R2 & R3)|[N R3]], (qsqrt_spec y) as [(s & S1 & S2 & S3)|[M S3]]; rewrite R3, S3.
  - apply square_eq_nonneg; [auto|nra|]. rewrite <- S2, H, R2. ring.
  - exfalso. apply (M (c * r)). rewrite H, R2. ring.
  - exfalso. apply (N (s / c)). assert (x == s * s / (c * c)) as -> by (rewrite <- S2, H; field; lra). field. lra.
  - ring.
Qed.
