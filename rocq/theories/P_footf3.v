(** P_footf3.v -- relative error of quotients and products of float32 cells; whole-bar footprints. *)
From Verif Require Import Base M_logic M_bars S_bars M_footprint M_features M_float M_float11 M_float12 M_float14 S_float S_footprint S_footf.
From Verif Require Import P_sort P_bars P_footprint P_weights P_features P_float P_float2 P_float3 P_float5 P_float6 P_float7 P_float8 P_float9 P_float12 P_profilef P_profilef2 P_profilef3 P_profilef5 P_footf P_footf2.
Open Scope Q_scope.

Lemma pow_inv_c n : 1 <= (1 - ucell) ^ Z.of_nat n * (1 + ucell) ^ Z.of_nat (2 * n).
Proof.
  pose proof ucell_bounds. induction n as [|n IH]; [vm_compute; discriminate|].
  replace (2 * S n)%nat with (S (S (2 * n))) by lia. rewrite !pow_S. pose proof (pow_nonneg (1 - ucell) n ltac:(lra)). pose proof (pow_nonneg (1 + ucell) (2 * n) ltac:(lra)).
  set (p := (1 - ucell) ^ Z.of_nat n) in *. set (q := (1 + ucell) ^ Z.of_nat (2 * n)) in *. clearbody p q.
  assert (C : 1 <= (1 - ucell) * ((1 + ucell) * (1 + ucell))) by (vm_compute; discriminate).
  setoid_replace ((1 - ucell) * p * ((1 + ucell) * ((1 + ucell) * q))) with ((1 - ucell) * ((1 + ucell) * (1 + ucell)) * (p * q)) by ring.
  assert (0 <= p * q) by nra. nra.
Qed.
Lemma pow_inv_low_c n : (1 - ucell) ^ Z.of_nat n * (1 + ucell) ^ Z.of_nat n <= 1.
Proof.
  pose proof ucell_bounds. induction n as [|n IH]; [vm_compute; discriminate|]. rewrite !pow_S.
  pose proof (pow_nonneg (1 - ucell) n ltac:(lra)). pose proof (pow_nonneg (1 + ucell) n ltac:(lra)).
  set (p := (1 - ucell) ^ Z.of_nat n) in *. set (q := (1 + ucell) ^ Z.of_nat n) in *. clearbody p q.
  setoid_replace ((1 - ucell) * p * ((1 + ucell) * q)) with ((1 - ucell * ucell) * (p * q)) by ring. assert (0 <= p * q) by nra. assert (0 <= ucell * ucell) by nra. nra.
Qed.
Lemma within_pos_c n a x : 0 < x -> within ucell n a x -> 0 < a.
Proof.
  intros Hx [A _]. assert (P : 0 < 1 - ucell) by reflexivity. pose proof (pow_pos (1 - ucell) n P). assert (0 < (1 - ucell) ^ Z.of_nat n * x) by nra. lra.
Qed.
Lemma within_div_c n m a x b y : 0 <= x -> 0 < y -> within ucell n a x -> within ucell m b y -> within ucell (n + 2 * m) (a / b) (x / y).
Proof.
  intros Hx Hy Wa Wb. pose proof (within_pos_c m b y Hy Wb) as Hb. pose proof (within_nonneg ucell ucell_bounds n a x Wa Hx) as Ha. destruct Wa as [A1 A2], Wb as [B1 B2].
  pose proof ucell_bounds as U. unfold within. rewrite !pow_add.
  pose proof (pow_nonneg (1 - ucell) n ltac:(lra)) as Pn. pose proof (pow_nonneg (1 + ucell) n ltac:(lra)) as Qn.
  pose proof (pow_nonneg (1 - ucell) m ltac:(lra)) as Pm. pose proof (pow_nonneg (1 + ucell) m ltac:(lra)) as Qm.
  pose proof (pow_nonneg (1 + ucell) (2 * m) ltac:(lra)) as Q2. pose proof (pow_nonneg (1 - ucell) (2 * m) ltac:(lra)) as P2.
  pose proof (pow_inv_c m) as I1. pose proof (pow_inv_low_c m) as I2.
  assert (I3 : (1 - ucell) ^ Z.of_nat (2 * m) <= (1 - ucell) ^ Z.of_nat m).
  { replace (2 * m)%nat with (m + m)%nat by lia. rewrite pow_add. pose proof (pow_le1 (1 - ucell) m ltac:(lra)). nra. }
  set (pn := (1 - ucell) ^ Z.of_nat n) in *. set (qn_ := (1 + ucell) ^ Z.of_nat n) in *. set (pm := (1 - ucell) ^ Z.of_nat m) in *. set (qm := (1 + ucell) ^ Z.of_nat m) in *.
  set (p2 := (1 - ucell) ^ Z.of_nat (2 * m)) in *. set (q2 := (1 + ucell) ^ Z.of_nat (2 * m)) in *. clearbody pn qn_ pm qm p2 q2. clear U.
  split.
  - apply Qle_shift_div_l; [exact Hb|]. apply (Qle_trans _ (pn * x)); [|exact A1].
    assert (K : p2 * b <= y).
    { apply (Qle_trans _ (pm * b)); [apply Qmult_le_compat_r; lra|]. apply (Qle_trans _ (pm * (qm * y))); [rewrite !(Qmult_comm pm); apply Qmult_le_compat_r; lra|].
      setoid_replace (pm * (qm * y)) with (pm * qm * y) by ring. rewrite <- (Qmult_1_l y) at 2. apply Qmult_le_compat_r; lra. }
    setoid_replace (pn * p2 * (x / y) * b) with (pn * x * (p2 * b / y)) by (field; lra).
    rewrite <- (Qmult_1_r (pn * x)) at 2. rewrite !(Qmult_comm (pn * x)). apply Qmult_le_compat_r; [|nra]. apply Qle_shift_div_r; lra.
  - apply Qle_shift_div_r; [exact Hb|]. apply (Qle_trans _ (qn_ * x)); [exact A2|].
    assert (K : y <= q2 * b).
    { apply (Qle_trans _ (pm * q2 * y)); [rewrite <- (Qmult_1_l y) at 1; apply Qmult_le_compat_r; lra|].
      setoid_replace (pm * q2 * y) with (pm * y * q2) by ring. rewrite (Qmult_comm q2 b). apply Qmult_le_compat_r; lra. }
    setoid_replace (qn_ * q2 * (x / y) * b) with (qn_ * x * (q2 * b / y)) by (field; lra).
    rewrite <- (Qmult_1_r (qn_ * x)) at 1. rewrite !(Qmult_comm (qn_ * x)). apply Qmult_le_compat_r; [|nra]. apply Qle_shift_div_l; lra.
Qed.
Lemma within_scale_c c n a x : 0 <= c -> within ucell n a x -> within ucell n (c * a) (c * x).
Proof.
  intros Hc [A B]. unfold within. split; [apply (Qle_trans _ (c * ((1 - ucell) ^ Z.of_nat n * x))); [lra|rewrite !(Qmult_comm c); apply Qmult_le_compat_r; auto]|].
  apply (Qle_trans _ (c * ((1 + ucell) ^ Z.of_nat n * x))); [rewrite !(Qmult_comm c); apply Qmult_le_compat_r; auto|lra].
Qed.
Lemma pow_low_c n : 2 - (1 + ucell) ^ Z.of_nat n <= (1 - ucell) ^ Z.of_nat n.
Proof.
  pose proof ucell_bounds. induction n as [|n IH]; [vm_compute; discriminate|]. rewrite !pow_S. pose proof (pow_ge1 (1 + ucell) n ltac:(lra)). pose proof (pow_le1 (1 - ucell) n ltac:(lra)).
  set (p := (1 - ucell) ^ Z.of_nat n) in *. set (q := (1 + ucell) ^ Z.of_nat n) in *. clearbody p q. nra.
Qed.
Lemma within_mult_c n m a x b y : 0 <= x -> 0 <= y -> within ucell n a x -> within ucell m b y -> within ucell (n + m) (a * b) (x * y).
Proof.
  intros Hx Hy Wa Wb. pose proof (within_nonneg ucell ucell_bounds n a x Wa Hx) as Ha. pose proof (within_nonneg ucell ucell_bounds m b y Wb Hy) as Hb. destruct Wa as [A1 A2], Wb as [B1 B2].
  unfold within. rewrite !pow_add. pose proof ucell_bounds as U. pose proof (pow_nonneg (1 - ucell) n ltac:(lra)) as P1. pose proof (pow_nonneg (1 - ucell) m ltac:(lra)) as P2. pose proof (pow_nonneg (1 + ucell) n ltac:(lra)) as P3. pose proof (pow_nonneg (1 + ucell) m ltac:(lra)) as P4.
  set (p := (1 - ucell) ^ Z.of_nat n) in *. set (q := (1 - ucell) ^ Z.of_nat m) in *. set (r := (1 + ucell) ^ Z.of_nat n) in *. set (s := (1 + ucell) ^ Z.of_nat m) in *. clearbody p q r s.
  split.
  - setoid_replace (p * q * (x * y)) with ((p * x) * (q * y)) by ring. assert (0 <= p * x) by (apply Qmult_le_0_compat; assumption). assert (0 <= q * y) by (apply Qmult_le_0_compat; assumption). apply Qle_trans with (a * (q * y)); [apply Qmult_le_compat_r; lra|]. rewrite !(Qmult_comm a). apply Qmult_le_compat_r; lra.
  - setoid_replace (r * s * (x * y)) with ((r * x) * (s * y)) by ring. assert (0 <= r * x) by (apply Qmult_le_0_compat; assumption). apply Qle_trans with (a * (s * y)); [rewrite !(Qmult_comm a); apply Qmult_le_compat_r; lra|]. apply Qmult_le_compat_r; [lra|]. apply Qmult_le_0_compat; assumption.
Qed.

Lemma pow_up_c m : 1 <= (1 + ucell) ^ Z.of_nat m.
Proof. pose proof ucell_bounds. apply powers_ge_one. lra. Qed.

Lemma pow_mono_base a b m : 0 <= a -> a <= b -> a ^ Z.of_nat m <= b ^ Z.of_nat m.
Proof.
  intros A0 AB. induction m as [|m IH]; [apply Qle_refl|]. rewrite !pow_S. pose proof (pow_nonneg a m A0) as P. pose proof (pow_nonneg b m ltac:(lra)) as Q0.
  apply (Qle_trans _ (b * a ^ Z.of_nat m)); [apply Qmult_le_compat_r; auto|]. rewrite !(Qmult_comm b). apply Qmult_le_compat_r; [auto|lra].
Qed.
Lemma in_upd {A} (g : nat -> A) (P : A -> Prop) n : (forall k, (k < n)%nat -> P (g k)) -> Forall P (map g (seq 0 n)).
Proof. intro K. apply Forall_forall. intros x Hx. apply in_map_iff in Hx. destruct Hx as [k [<- Hk]]. apply in_seq in Hk. apply K. lia. Qed.
Lemma cells_fl l i x : Forall (fl 24) l -> Forall (fl 24) (cell_add_at l i x).
Proof.
  intro F. apply in_upd. intros k Hk. destruct (k =? i)%nat; [apply rnd_fl; lia|]. rewrite Forall_forall in F. apply F. now apply nth_In.
Qed.
Lemma fl_nth p l i : Forall (fl p) l -> fl p 0 -> fl p (nth i l 0).
Proof. intros F F0. destruct (nth_in_or_default i l 0) as [J|J]; [|now rewrite J]. rewrite Forall_forall in F. now apply F. Qed.
Lemma fl_zero p : (0 < p)%Z -> fl p 0.
Proof. intro H. exists 0%Z, 0%Z. split; [cbn; apply Z.pow_pos_nonneg; lia|reflexivity]. Qed.
Lemma levels_f_fl prices amounts sides tick lo hi s e st : bar_levels_f prices amounts sides tick lo hi s e = Ok st ->
  Forall (fl 24) (lv_bv st) /\ Forall (fl 24) (lv_sv st).
Proof.
  unfold bar_levels_f. destruct (Qeqb tick 0); [discriminate|]. cbv zeta. set (low := level_f tick lo). set (n := (level_f tick hi - low + 1)%Z).
  destruct (n <? 0)%Z; [discriminate|]. set (st0 := mkLv _ _ _ _).
  assert (I0 : Forall (fl 24) (lv_bv st0) /\ Forall (fl 24) (lv_sv st0)).
  { subst st0. cbn [lv_bv lv_sv]. split; apply Forall_forall; intros x Hx; apply repeat_spec in Hx; subst x; apply fl_zero; lia. }
  clearbody st0. revert st0 I0. induction (zrange (s + 1) (e + 1)) as [|j js IH]; intros st0 I0 E; cbn [fold_left] in E.
  - injection E as <-. exact I0.
  - unfold fp_step_f in E at 2. destruct (_ && _)%bool.
    + revert E. destruct (_ =? 1)%Z; [|destruct (_ =? -1)%Z]; intro E; apply IH in E; auto; cbn [lv_bv lv_sv]; destruct I0; split; auto; now apply cells_fl.
    + exfalso. clear -E. induction js as [|k js IH]; cbn in E; [discriminate|auto].
Qed.

Lemma lsum_nonneg sides lev z l (q : Z -> Q) s e : (forall j, (s < j <= e)%Z -> 0 <= q j) -> 0 <= level_sum sides lev z l q s e.
Proof.
  intro H. unfold level_sum, bsum. apply qsum_nonneg. intros x Hx. apply in_map_iff in Hx. destruct Hx as [j [<- Hj]]. apply in_zrange in Hj. destruct (_ && _)%bool; [apply H; lia|apply Qle_refl].
Qed.
Lemma lsum_grid g sides lev z l (q : Z -> Q) s e : (forall j, (s < j <= e)%Z -> grid g (q j)) -> grid g (level_sum sides lev z l q s e).
Proof.
  intro H. unfold level_sum, bsum. assert (K : forall j, In j (zrange (s + 1) (e + 1)) -> grid g (q j)) by (intros j Hj; apply in_zrange in Hj; apply H; lia).
  induction (zrange (s + 1) (e + 1)) as [|j js IH]; [apply grid_0|]. cbn [map]. eapply grid_comp; [symmetry; apply qsum_cons|]. apply grid_plus; [|apply IH; intros; apply K; now right].
  destruct (_ && _)%bool; [apply K; now left|apply grid_0].
Qed.
Lemma lsum_ext sides lev lev' z l (q : Z -> Q) s e : (forall j, (s < j <= e)%Z -> lev j = lev' j) -> level_sum sides lev z l q s e = level_sum sides lev' z l q s e.
Proof. intro H. unfold level_sum, bsum. f_equal. apply map_ext_in. intros j Hj. apply in_zrange in Hj. rewrite H by lia. reflexivity. Qed.
Lemma lcount_ext sides lev lev' z l s e : (forall j, (s < j <= e)%Z -> lev j = lev' j) -> level_count sides lev z l s e = level_count sides lev' z l s e.
Proof. intro H. unfold level_count. f_equal. apply filter_ext_in. intros j Hj. apply in_zrange in Hj. rewrite H by lia. reflexivity. Qed.
Lemma lcount_le sides lev z l s e : (level_count sides lev z l s e <= Z.to_nat (e - s))%nat.
Proof.
  unfold level_count. assert (K : forall (f : Z -> bool) l, (length (filter f l) <= length l)%nat) by (intros f l0; induction l0 as [|a l0 IH]; cbn; [lia|]; destruct (f a); cbn; lia).
  eapply Nat.le_trans; [apply K|]. rewrite zrange_length. lia.
Qed.

Section Bar.
  Variable dot : list Q -> list Q -> Q.
  Variables prices amounts : list Q.
  Variable sides : list Z.
  Variables tick lo hi mult : Q.
  Variables s e : Z.
  Variables low high : Z.
  Variable lev : Z -> Z.
  Hypothesis Hse : (-1 <= s <= e)%Z.
  Hypothesis Ht : 0 < tick.
  Hypothesis LV : levels_of tick lo hi prices s e low high lev.
  Variable fp : footprint.
  Hypothesis HE : bar_footprint_f dot prices amounts sides tick lo hi mult s e = Ok fp.
  Notation B i := (level_sum sides lev 1 (low + Z.of_nat i) (at_ amounts) s e).
  Notation V i := (level_sum sides lev (-1) (low + Z.of_nat i) (at_ amounts) s e).
  Notation cb i := (level_count sides lev 1 (low + Z.of_nat i) s e).
  Notation cs i := (level_count sides lev (-1) (low + Z.of_nat i) s e).
  Notation n := (Z.to_nat (high - low + 1)).

  Lemma fpf_levels : level_f tick lo = low /\ level_f tick hi = high /\ forall j, (s < j <= e)%Z -> level_f tick (at_ prices j) = lev j.
  Proof.
    destruct LV as [A1 [A2 A3]]. split; [|split; [|intros j Hj]]; unfold level_f; eapply rounds_unique; try apply rhe_spec; auto.
  Qed.
  Lemma fpf_parts : exists st f, bar_levels_f prices amounts sides tick lo hi s e = Ok st /\ (low <= high)%Z /\
    fp_levels fp = map (wraps 32) (zrange low (high + 1)) /\ length (fp_levels fp) = n /\
    comp_footprint_features_f dot (fp_levels fp) (fp_bv fp) (fp_sv fp) mult = Ok f /\
    fp_bv fp = lv_bv st /\ fp_sv fp = lv_sv st /\ fp_bt fp = lv_bt st /\ fp_st fp = lv_st st /\
    fp_bi fp = ff_bi f /\ fp_si fp = ff_si f /\ fp_bi_sum fp = count_true (ff_bi f) /\ fp_si_sum fp = count_true (ff_si f) /\
    fp_cot fp = ff_cot f /\ fp_run fp = wraps 16 (ff_run f) /\ fp_skew fp = ff_skew f /\ fp_gini fp = ff_gini f.
  Proof.
    destruct fpf_levels as [L1 [L2 _]]. pose proof HE as E. unfold bar_footprint_f in E. rewrite L1, L2 in E. destruct (bar_levels_f _ _ _ _ _ _ _ _) as [st|]; [|discriminate]. cbv zeta in E.
    destruct (comp_footprint_features_f _ _ _ _ _) as [f|] eqn:F; [|discriminate]. exists st, f. split; [reflexivity|].
    destruct (feat_f_ok _ _ _ _ _ _ F) as [P _]. rewrite map_length, zrange_length in P. injection E as <-. cbn. split; [lia|]. split; [reflexivity|].
    split; [rewrite map_length, zrange_length; f_equal; lia|]. repeat split; auto.
  Qed.
  Lemma fpf_lv : (- 2 ^ 31 <= low)%Z -> (high < 2 ^ 31)%Z -> fp_levels fp = zrange low (high + 1).
  Proof.
    intros B1 B2. destruct fpf_parts as [st [f [_ [_ [L _]]]]]. rewrite L. rewrite <- (map_id (zrange low (high + 1))) at 2. apply map_ext_in. intros z Hz.
    apply in_zrange in Hz. apply wraps_id; [lia|]. change (32 - 1)%Z with 31%Z. lia.
  Qed.

  Hypothesis Hq : forall x, In x amounts -> 0 <= x.
  Lemma at_nonneg j : 0 <= at_ amounts j.
  Proof. unfold at_. destruct (nth_in_or_default (Z.to_nat j) amounts 0) as [J|J]; [now apply Hq|rewrite J; apply Qle_refl]. Qed.
  Lemma B_nonneg i : 0 <= B i. Proof. apply lsum_nonneg. intros. apply at_nonneg. Qed.
  Lemma V_nonneg i : 0 <= V i. Proof. apply lsum_nonneg. intros. apply at_nonneg. Qed.

  Lemma fpf_cells : (low <= high)%Z /\ length (fp_levels fp) = n /\ length (fp_bv fp) = n /\ length (fp_sv fp) = n /\ length (fp_bt fp) = n /\ length (fp_st fp) = n /\
    (forall j, (s < j <= e)%Z -> (low <= lev j <= high)%Z) /\
    (forall i, fl 24 (nth i (fp_bv fp) 0) /\ fl 24 (nth i (fp_sv fp) 0)) /\
    (forall i, 0 <= nth i (fp_bv fp) 0) /\ (forall i, 0 <= nth i (fp_sv fp) 0) /\
    forall i, (i < n)%nat ->
      nth i (fp_bt fp) 0%Z = Z.of_nat (cb i) /\ nth i (fp_st fp) 0%Z = Z.of_nat (cs i) /\
      within ucell (cb i) (nth i (fp_bv fp) 0) (B i) /\ within ucell (cs i) (nth i (fp_sv fp) 0) (V i).
  Proof.
    destruct fpf_levels as [L1 [L2 L3]]. destruct fpf_parts as [st [f [E [Hlh [_ [Ln [_ [E1 [E2 [E3 [E4 _]]]]]]]]]]].
    destruct (levels_f_spec prices amounts sides tick lo hi s e Hse st Ht Hq E) as [A1 [A2 [A3 [A4 [R A]]]]]. rewrite L1, L2 in *.
    destruct (levels_f_fl _ _ _ _ _ _ _ _ _ E) as [F1 F2]. rewrite E1, E2, E3, E4.
    assert (W : forall i, (i < n)%nat -> nth i (lv_bt st) 0%Z = Z.of_nat (cb i) /\ nth i (lv_st st) 0%Z = Z.of_nat (cs i) /\
      within ucell (cb i) (nth i (lv_bv st) 0) (B i) /\ within ucell (cs i) (nth i (lv_sv st) 0) (V i)).
    { intros i Hi. specialize (A i Hi). cbv zeta in A. rewrite (lsum_ext sides _ lev 1), (lsum_ext sides _ lev (-1)), (lcount_ext sides _ lev 1), (lcount_ext sides _ lev (-1)) in A by (intros; now apply L3). exact A. }
    split; [auto|]. split; [auto|]. do 4 (split; [assumption|]). split; [intros j Hj; specialize (R j Hj); rewrite L3 in R by auto; exact R|].
    split; [intro i; split; apply fl_nth; auto; apply fl_zero; lia|].
    split; [|split; [|exact W]]; intro i; (destruct (Nat.lt_ge_cases i n) as [Hi|Hi]; [|rewrite nth_overflow by lia; apply Qle_refl]); destruct (W i Hi) as [_ [_ [W1 W2]]];
      [apply (within_nonneg ucell ucell_bounds _ _ _ W1), B_nonneg|apply (within_nonneg ucell ucell_bounds _ _ _ W2), V_nonneg].
  Qed.

  Lemma fpf_flags : 0 <= mult ->
    length (fp_bi fp) = n /\ length (fp_si fp) = n /\
    (forall i, (i < n)%nat -> nth i (fp_bi fp) false = true ->
       (1 <= i)%nat /\ (1 - ucell) ^ Z.of_nat (cs (i - 1)) * (mult * V (i - 1)) < (1 + ucell) ^ Z.of_nat (cb i) * B i) /\
    (forall i, (i < n)%nat -> nth i (fp_si fp) false = true ->
       (S i < n)%nat /\ (1 - ucell) ^ Z.of_nat (cb (S i)) * (mult * B (S i)) < (1 + ucell) ^ Z.of_nat (cs i) * V i) /\
    (forall i, (1 <= i < n)%nat -> (1 + u53) * (1 + ucell) ^ Z.of_nat (cs (i - 1)) * (mult * V (i - 1)) < (1 - ucell) ^ Z.of_nat (cb i) * B i ->
       nth i (fp_bi fp) false = true) /\
    (forall i, (S i < n)%nat -> (1 + u53) * (1 + ucell) ^ Z.of_nat (cb (S i)) * (mult * B (S i)) < (1 - ucell) ^ Z.of_nat (cs i) * V i ->
       nth i (fp_si fp) false = true).
  Proof.
    intro Hm. destruct fpf_cells as [Hlh [Ln [_ [_ [_ [_ [_ [F [P1 [P2 W]]]]]]]]]]. destruct fpf_parts as [st [f [_ [_ [_ [_ [FE [_ [_ [_ [_ [Bi [Si _]]]]]]]]]]]]].
    destruct (flags_f _ _ _ _ _ _ FE (fun i => proj1 (F i)) (fun i => proj2 (F i))) as [M1 [M2 [M3 [M4 [M5 [M6 _]]]]]]. rewrite Ln in *. rewrite Bi, Si.
    assert (lo_ : forall k a x, within ucell k a x -> (1 - ucell) ^ Z.of_nat k * (mult * x) <= a * mult).
    { intros k a x [G _]. set (p := (1 - ucell) ^ Z.of_nat k) in *. clearbody p. setoid_replace (p * (mult * x)) with (p * x * mult) by ring. apply Qmult_le_compat_r; auto. }
    assert (up_ : forall k a x, within ucell k a x -> 0 <= a -> a * mult + u53 * Qabs (a * mult) <= (1 + u53) * (1 + ucell) ^ Z.of_nat k * (mult * x)).
    { intros k a x [_ G] A0. set (p := (1 + ucell) ^ Z.of_nat k) in *. clearbody p. rewrite Qabs_pos by (apply Qmult_le_0_compat; auto).
      setoid_replace (a * mult + u53 * (a * mult)) with (a * (mult * (1 + u53))) by ring. setoid_replace ((1 + u53) * p * (mult * x)) with (p * x * (mult * (1 + u53))) by ring.
      apply Qmult_le_compat_r; [auto|]. apply Qmult_le_0_compat; [auto|discriminate]. }
    split; [auto|]. split; [auto|]. split; [|split; [|split]].
    - intros i Hi K. destruct (M3 i Hi K) as [I1 I2]. split; [auto|]. destruct (W i Hi) as [_ [_ [[_ W1] _]]]. destruct (W (i - 1)%nat ltac:(lia)) as [_ [_ [_ W2]]].
      apply lo_ in W2. lra.
    - intros i Hi K. destruct (M4 i Hi K) as [I1 I2]. split; [auto|]. destruct (W i Hi) as [_ [_ [_ [_ W1]]]]. destruct (W (S i) ltac:(lia)) as [_ [_ [W2 _]]].
      apply lo_ in W2. lra.
    - intros i Hi K. apply M5; [auto|]. destruct (W i ltac:(lia)) as [_ [_ [[W1 _] _]]]. destruct (W (i - 1)%nat ltac:(lia)) as [_ [_ [_ W2]]].
      apply up_ in W2; [|apply P2]. lra.
    - intros i Hi K. apply M6; [auto|]. destruct (W i ltac:(lia)) as [_ [_ [_ [W1 _]]]]. destruct (W (S i) ltac:(lia)) as [_ [_ [W2 _]]].
      apply up_ in W2; [|apply P1]. lra.
  Qed.

  Notation N := (Z.to_nat (e - s)).
  Notation t i := (B i + V i).
  Lemma fpf_tot i : (i < n)%nat -> within ucell N (nth i (fp_bv fp) 0 + nth i (fp_sv fp) 0) (t i).
  Proof.
    intro Hi. destruct fpf_cells as [_ [_ [_ [_ [_ [_ [_ [_ [_ [_ W]]]]]]]]]]. destruct (W i Hi) as [_ [_ [W1 W2]]].
    apply within_plus; [exact (within_le ucell ucell_bounds _ _ _ _ (lcount_le _ _ _ _ _ _) (B_nonneg i) W1)|exact (within_le ucell ucell_bounds _ _ _ _ (lcount_le _ _ _ _ _ _) (V_nonneg i) W2)].
  Qed.
  Lemma fpf_cot : exists c, (c < n)%nat /\ fp_cot fp = nth c (fp_levels fp) 0%Z /\
    forall i, (i < n)%nat -> (1 - u24) * (1 - ucell) ^ Z.of_nat N * t i <= (1 + u24) * (1 + ucell) ^ Z.of_nat N * t c.
  Proof.
    destruct fpf_cells as [Hlh [Ln [_ [_ [_ [_ [_ [F [P1 [P2 W]]]]]]]]]]. destruct fpf_parts as [st [f [_ [_ [_ [_ [FE [_ [_ [_ [_ [_ [_ [_ [_ [C _]]]]]]]]]]]]]]]].
    destruct (cot_f _ _ _ _ _ _ FE P1 P2) as [c [Hc [Ec [_ [_ K]]]]]. rewrite Ln in *. exists c. split; [auto|]. split; [congruence|]. intros i Hi. specialize (K i Hi).
    destruct (fpf_tot i Hi) as [W1 _]. destruct (fpf_tot c Hc) as [_ W2]. pose proof u24_bounds.
    apply (Qle_trans _ ((1 - u24) * (nth i (fp_bv fp) 0 + nth i (fp_sv fp) 0))).
    - rewrite <- Qmult_assoc. rewrite !(Qmult_comm (1 - u24)). apply Qmult_le_compat_r; [exact W1|lra].
    - eapply Qle_trans; [exact K|]. rewrite <- Qmult_assoc. rewrite !(Qmult_comm (1 + u24)). apply Qmult_le_compat_r; [exact W2|lra].
  Qed.

  Lemma qsum_within_c {A} k (f g : A -> Q) is : (forall i, In i is -> within ucell k (f i) (g i)) -> within ucell k (qsum (map f is)) (qsum (map g is)).
  Proof.
    induction is as [|i is IH]; intro H; [cbn; apply within_0|]. cbn [map].
    eapply (within_comp ucell); [symmetry; apply qsum_cons|symmetry; apply qsum_cons|]. apply within_plus; [apply H; now left|apply IH; intros; apply H; now right].
  Qed.
  Notation T := (qsum (map (fun i => t i) (seq 0 n))).
  Lemma fpf_gini : (T <= 0 -> fp_gini fp = 0 /\ fp_skew fp = 0) /\
    (0 < T -> exists g, within ucell (5 * n + 9 + 6 * N) g (qsum (map (fun i => (t i / T) * (t i / T)) (seq 0 n))) /\ fp_gini fp = r53 (1 - g)).
  Proof.
    destruct fpf_cells as [Hlh [Ln [_ [_ [_ [_ [_ [F [P1 [P2 W]]]]]]]]]]. destruct fpf_parts as [st [f [_ [_ [_ [_ [FE [_ [_ [_ [_ [_ [_ [_ [_ [_ [_ [Sk G]]]]]]]]]]]]]]]]]].
    pose proof (gini_f _ _ _ _ _ _ FE P1 P2) as K. cbv zeta in K. rewrite Ln in K. destruct K as [K1 K2]. rewrite G, Sk.
    set (tf := fun i => nth i (fp_bv fp) 0 + nth i (fp_sv fp) 0) in *.
    assert (TW : within ucell N (qsum (map tf (seq 0 n))) T) by (apply qsum_within_c; intros i Hi; apply in_seq in Hi; apply fpf_tot; lia).
    assert (t0 : forall i, 0 <= t i) by (intro i; pose proof (B_nonneg i); pose proof (V_nonneg i); lra).
    assert (T0 : 0 <= T) by (apply qsum_nonneg; intros x Hx; apply in_map_iff in Hx; destruct Hx as [i [<- _]]; apply t0).
    split; intro HT.
    - apply K1. destruct TW as [_ TW]. pose proof (pow_up_c N). set (p := (1 + ucell) ^ Z.of_nat N) in *. clearbody p. assert (Z0 : T == 0) by lra. rewrite Z0 in TW. lra.
    - pose proof (within_pos_c N _ _ HT TW) as HT'. destruct (K2 HT') as [g [Wg Eg]]. exists g. split; [|exact Eg]. clear K1 K2 Eg G.
      set (T' := qsum (map tf (seq 0 n))) in *.
      assert (WQ : within ucell (6 * N) (qsum (map (fun i => (tf i / T') * (tf i / T')) (seq 0 n))) (qsum (map (fun i => (t i / T) * (t i / T)) (seq 0 n)))).
      { apply qsum_within_c. intros i Hi. apply in_seq in Hi. pose proof (fpf_tot i ltac:(lia)) as Wt. fold (tf i) in Wt.
        pose proof (within_div_c N N _ _ _ _ (t0 i) HT Wt TW) as Wd. assert (D0 : 0 <= t i / T) by (apply Qle_shift_div_l; [auto|rewrite Qmult_0_l; apply t0]).
        replace (6 * N)%nat with ((N + 2 * N) + (N + 2 * N))%nat by lia. apply within_mult_c; auto. }
      change (within u24 (5 * n + 9) g (qsum (map (fun i => (tf i / T') * (tf i / T')) (seq 0 n)))) in Wg.
      assert (S0 : 0 <= qsum (map (fun i => (t i / T) * (t i / T)) (seq 0 n))).
      { apply qsum_nonneg. intros x Hx. apply in_map_iff in Hx. destruct Hx as [i [<- _]]. assert (D0 : 0 <= t i / T) by (apply Qle_shift_div_l; [auto|rewrite Qmult_0_l; apply t0]). now apply Qmult_le_0_compat. }
      pose proof (within_nonneg ucell ucell_bounds _ _ _ WQ S0) as S1.
      set (X := qsum (map (fun i => (t i / T) * (t i / T)) (seq 0 n))) in *. set (X' := qsum (map (fun i => (tf i / T') * (tf i / T')) (seq 0 n))) in *. clearbody X X'.
      assert (Wc : within ucell (5 * n + 9) g X').
      { destruct Wg as [G1 G2]. split; [eapply Qle_trans; [|exact G1]|eapply Qle_trans; [exact G2|]]; apply Qmult_le_compat_r; auto.
        - apply pow_mono_base; [pose proof ucell_bounds; lra|]. assert (u24 <= ucell) by (vm_compute; discriminate). lra.
        - apply pow_mono_base; [discriminate|]. assert (u24 <= ucell) by (vm_compute; discriminate). lra. }
      destruct Wc as [C1 C2], WQ as [Q1 Q2]. pose proof ucell_bounds as U. unfold within. rewrite !(pow_add _ (5 * n + 9) (6 * N)).
      pose proof (pow_nonneg (1 - ucell) (5 * n + 9) ltac:(lra)) as N1. pose proof (pow_nonneg (1 + ucell) (5 * n + 9) ltac:(lra)) as N2. clear U.
      set (p := (1 - ucell) ^ Z.of_nat (5 * n + 9)) in *. set (q := (1 + ucell) ^ Z.of_nat (5 * n + 9)) in *.
      set (p' := (1 - ucell) ^ Z.of_nat (6 * N)) in *. set (q' := (1 + ucell) ^ Z.of_nat (6 * N)) in *.
      clearbody p q p' q'. split.
      + apply (Qle_trans _ (p * X')); [|exact C1]. setoid_replace (p * p' * X) with (p' * X * p) by ring. setoid_replace (p * X') with (X' * p) by ring. apply Qmult_le_compat_r; auto.
      + apply (Qle_trans _ (q * X')); [exact C2|]. setoid_replace (q * q' * X) with (q' * X * q) by ring. setoid_replace (q * X') with (X' * q) by ring. apply Qmult_le_compat_r; auto.
  Qed.

  Lemma fpf_skew : dot_ok dot -> (0 <= low)%Z -> (high < 2 ^ 31)%Z -> Qnat (n + 8) * u24 <= 1 # 16 ->
    Qabs (fp_skew fp) <= Qnat (9 * n + 29) * u24 * inject_Z high.
  Proof.
    intros OK Hl Hh Hn. destruct fpf_cells as [Hlh [Ln [_ [_ [_ [_ [_ [F [P1 [P2 W]]]]]]]]]]. destruct fpf_parts as [st [f [_ [_ [_ [_ [FE [_ [_ [_ [_ [_ [_ [_ [_ [_ [_ [Sk G]]]]]]]]]]]]]]]]]].
    rewrite Sk. rewrite <- Ln in Hn |- *. apply (skew_f _ _ _ _ _ _ _ OK FE P1 P2); [|exact Hn]. intros i Hi.
    assert (J : In (nth i (fp_levels fp) 0%Z) (fp_levels fp)) by now apply nth_In. rewrite fpf_lv in J by lia. apply in_zrange in J. rewrite fpf_lv by lia.
    split; [change 0 with (inject_Z 0)|]; rewrite <- Zle_Qle; lia.
  Qed.

  (** Amounts in lots. *)
  Lemma fpf_lots g : (forall x, In x amounts -> grid g x) -> (forall i, (i < n)%nat -> t i <= two (24 + g)) ->
    (forall i, (i < n)%nat -> nth i (fp_bv fp) 0 == B i /\ nth i (fp_sv fp) 0 == V i) /\
    (exists c, (c < n)%nat /\ fp_cot fp = nth c (fp_levels fp) 0%Z /\ (forall i, (i < n)%nat -> t i <= t c) /\ (forall i, (i < c)%nat -> t i < t c)) /\
    (fl 29 mult ->
     (forall i, (i < n)%nat -> nth i (fp_bi fp) false = true <-> (1 <= i)%nat /\ mult * V (i - 1) < B i) /\
     (forall i, (i < n)%nat -> nth i (fp_si fp) false = true <-> (S i < n)%nat /\ mult * B (S i) < V i)).
  Proof.
    intros Hg Hs. destruct fpf_levels as [L1 [L2 L3]]. destruct fpf_cells as [Hlh [Ln [_ [_ [_ [_ [_ [F [P1 [P2 W]]]]]]]]]].
    destruct fpf_parts as [st [f [E [_ [_ [_ [FE [E1 [E2 [_ [_ [Bi [Si [_ [_ [C _]]]]]]]]]]]]]]]].
    assert (X : forall i, (i < n)%nat -> nth i (fp_bv fp) 0 == B i /\ nth i (fp_sv fp) 0 == V i).
    { intros i Hi. pose proof (levels_f_grid prices amounts sides tick lo hi s e Hse st g Ht (fun x Hx => conj (Hq x Hx) (Hg x Hx)) E i) as K. rewrite L1, L2 in K. specialize (K Hi). cbv zeta in K.
      rewrite (lsum_ext sides _ lev 1), (lsum_ext sides _ lev (-1)) in K by (intros; now apply L3). rewrite E1, E2. specialize (Hs i Hi). pose proof (B_nonneg i). pose proof (V_nonneg i). destruct K as [K1 K2]. split; [apply K1|apply K2]; lra. }
    split; [exact X|]. split.
    - destruct (cot_f _ _ _ _ _ _ FE P1 P2) as [c [Hc [Ec [Kc [Kf _]]]]]. rewrite Ln in *. exists c. split; [auto|]. split; [congruence|].
      assert (R : forall i, (i < n)%nat -> r24 (nth i (fp_bv fp) 0 + nth i (fp_sv fp) 0) == t i).
      { intros i Hi. destruct (X i Hi) as [X1 X2]. rewrite (rnd_comp 24 _ (t i)) by (rewrite X1, X2; reflexivity). apply (grid_rnd 24 g); [lia| |].
        - assert (GA : forall j, grid g (at_ amounts j)) by (intro j; unfold at_; destruct (nth_in_or_default (Z.to_nat j) amounts 0) as [J|J]; [now apply Hg|rewrite J; apply grid_0]).
          apply grid_plus; apply lsum_grid; intros; apply GA.
        - split; [|now apply Hs]. pose proof (B_nonneg i). pose proof (V_nonneg i). lra. }
      split; intros i Hi.
      + specialize (Kc i Hi). rewrite !R in Kc by auto. exact Kc.
      + specialize (Kf i Hi). rewrite !R in Kf by lia. exact Kf.
    - intro Fm. destruct (flags_f _ _ _ _ _ _ FE (fun i => proj1 (F i)) (fun i => proj2 (F i))) as [M1 [M2 [M3 [M4 [_ [_ M5]]]]]]. destruct (M5 Fm) as [M6 M7]. rewrite Ln in *. rewrite Bi, Si.
      split; intros i Hi; (split; [intro K|intros [K1 K2]]).
      + destruct (M3 i Hi K) as [I1 I2]. split; [auto|]. destruct (X i Hi) as [X1 _]. destruct (X (i - 1)%nat ltac:(lia)) as [_ X2]. rewrite X1, X2 in I2. lra.
      + apply M6; [lia|]. destruct (X i Hi) as [X1 _]. destruct (X (i - 1)%nat ltac:(lia)) as [_ X2]. rewrite X1, X2. lra.
      + destruct (M4 i Hi K) as [I1 I2]. split; [auto|]. destruct (X i Hi) as [_ X1]. destruct (X (S i) ltac:(lia)) as [X2 _]. rewrite X1, X2 in I2. lra.
      + apply M7; [lia|]. destruct (X i Hi) as [_ X1]. destruct (X (S i) ltac:(lia)) as [X2 _]. rewrite X1, X2. lra.
  Qed.
End Bar.

Lemma fpsf_nth dot prices amounts closes sides tick lows highs mult fps k fp :
  comp_bar_footprints_f dot prices amounts closes sides tick lows highs mult = Ok fps -> nth_error fps k = Some fp ->
  bar_footprint_f dot prices amounts sides tick (nth k lows 0) (nth k highs 0) mult (nth k closes 0%Z) (nth (S k) closes 0%Z) = Ok fp.
Proof.
  intros H Hk. apply run_all_nth in H. destruct H as [L N]. pose proof (N k fp Hk) as E.
  assert (Hlt : (k < length fps)%nat) by (apply nth_error_Some; congruence).
  rewrite L, seq_length in Hlt. now rewrite seq_nth in E by auto.
Qed.
Lemma bar_fpf_ok dot prices amounts sides tick lo hi mult s e : (-1 <= s <= e)%Z -> 0 < tick -> lo <= hi -> (forall j, (s < j <= e)%Z -> lo <= at_ prices j <= hi) ->
  exists fp, bar_footprint_f dot prices amounts sides tick lo hi mult s e = Ok fp.
Proof.
  intros Hs Ht Hl Hp. unfold bar_footprint_f. destruct (levels_f_ok prices amounts sides tick lo hi s e Ht Hs Hl Hp) as [st ->]. cbv zeta.
  pose proof (level_f_mono tick lo hi Ht Hl) as Hm. set (lv := map (wraps 32) _). destruct (proj2 (feat_f_total dot lv (lv_bv st) (lv_sv st) mult)) as [f F].
  - intro K. apply (f_equal (@length Z)) in K. subst lv. rewrite map_length, zrange_length in K. cbn [length] in K. lia.
  - rewrite F. eauto.
Qed.
Lemma bar_fpf_raise dot prices amounts sides tick lo hi mult s e x : bar_footprint_f dot prices amounts sides tick lo hi mult s e = Raise x ->
  (x = ZeroDivisionError /\ tick == 0) \/ (x = ValueError /\ ~ tick == 0).
Proof.
  unfold bar_footprint_f. destruct (bar_levels_f _ _ _ _ _ _ _ _) as [st|y] eqn:E.
  - cbv zeta. set (lv := map (wraps 32) _). unfold comp_footprint_features_f. destruct (length lv =? 0)%nat; [|discriminate]. intro K. injection K as <-. right. split; [reflexivity|].
    intro Z0. unfold bar_levels_f in E. destruct (Qeqb_spec tick 0); [discriminate|contradiction].
  - intro K. injection K as <-. eapply levels_f_errors; eauto.
Qed.
