(** P_sizef2.v -- one bar of [comp_bar_size_f]. *)
From Coq Require Import Qround.
From Verif Require Import Base M_logic M_bars M_features M_float M_float2 M_float13 S_bars S_float.
From Verif Require Import P_sort P_bars P_weights P_features P_float P_float2 P_float3 P_float5 P_float7 P_float9 P_float11 P_float12 P_float13 P_sumf P_retf P_sizef.
Open Scope Q_scope.

Section Bar.
  Variables (log1p : Q -> Q) (amounts : list Q) (theta mult : Q) (s e : Z).
  Hypothesis Hth : 0 < theta.
  Hypothesis Hmu : 0 < mult.
  Hypothesis Ha : forall x, In x amounts -> 0 <= x.
  Hypothesis Hse : (-1 <= s < e)%Z.
  Hypothesis He : (e < Z.of_nat (length amounts))%Z.
  Let xs := map (at_ amounts) (zrange (s + 1) (e + 1)).
  Let n := Z.to_nat (e - s).
  Let z := bar_size_f log1p amounts theta mult s e.
  Let V := bsum (at_ amounts) s e.
  Let thr := r53 (theta * mult).

  Lemma xs_slice : slice amounts (s + 1) (e + 1) = xs.
  Proof. unfold xs. rewrite <- (map_zget_zrange 0) by lia. apply map_ext_in. intros j Hj. apply in_zrange in Hj. now rewrite zget_nonneg by lia. Qed.
  Lemma xs_len : length xs = n.
  Proof. unfold xs, n. rewrite map_length, zrange_length. f_equal. lia. Qed.
  Lemma xs_in x : In x xs -> In x amounts.
  Proof. unfold xs. intro K. apply in_map_iff in K. destruct K as [j [<- Hj]]. apply in_zrange in Hj. unfold at_. apply nth_In. lia. Qed.
  Lemma xs_nonneg x : In x xs -> 0 <= x.
  Proof. intro K. apply Ha, xs_in, K. Qed.
  Lemma n_pos : (1 <= n)%nat.
  Proof. unfold n. lia. Qed.
  Lemma V_nonneg : 0 <= V.
  Proof. apply (qsum_nonneg xs), xs_nonneg. Qed.
  Lemma tot_in : within u53 n (fsum xs) V.
  Proof. rewrite <- xs_len. apply (fsum_within0 xs), xs_nonneg. Qed.
  Lemma tot_zero : fsum xs == 0 <-> V == 0.
  Proof.
    pose proof tot_in as W. pose proof V_nonneg as N. split; intro K.
    - destruct (Qlt_le_dec 0 V) as [P|P]; [|lra]. pose proof (within_pos _ _ _ P W). lra.
    - destruct W as [W1 W2]. rewrite K in W1, W2. lra.
  Qed.
  Lemma thr_pos : 0 < theta * mult.
  Proof. nra. Qed.
  Lemma thr_in : within u53 1 thr (theta * mult).
  Proof. pose proof thr_pos. apply within_r53; [lra|]. apply within_self; [exact u53_bounds|lra]. Qed.

  Lemma bar_eq : z = (let mean := r24 (log1p (r53 (r53 (fsum xs / Qnat n) / thr))) in
      let p95 := r24 (log1p (r53 (percentile_f xs 95 / thr))) in
      if Qeqb (fsum xs) 0 then mkSize (Some mean) (Some p95) None None
      else mkSize (Some mean) (Some p95) (Some (r24 (r53 (fold_left (fun acc x => if Qltb thr x then r53 (acc + x) else acc) xs 0 / fsum xs))))
          (Some (if (n =? 1)%nat then 0 else r24 (r53 (1 - fsum (map (fun x => r53 (r53 (x / fsum xs) * r53 (x / fsum xs))) xs)))))).
  Proof.
    unfold z, bar_size_f. destruct (Z.ltb_spec e (s + 1)); [lia|]. destruct (Qeqb_spec theta 0) as [K|_]; [lra|]. rewrite xs_slice, xs_len. reflexivity.
  Qed.

  Lemma mean_in : exists y, z_mean z = Some (r24 (log1p y)) /\ within u53 (n + 4) y (V / inject_Z (e - s) / (theta * mult)).
  Proof.
    exists (r53 (r53 (fsum xs / Qnat n) / thr)). split; [rewrite bar_eq; cbv zeta; destruct (Qeqb (fsum xs) 0); reflexivity|].
    assert (EN : inject_Z (e - s) == Qnat n) by (unfold Qnat, n; rewrite Z2Nat.id by lia; reflexivity).
    assert (N0 : 0 < Qnat n) by (unfold Qnat; change 0 with (inject_Z 0); rewrite <- Zlt_Qlt; pose proof n_pos; lia).
    pose proof V_nonneg as V0. pose proof thr_pos. assert (D0 : 0 <= V / Qnat n) by (apply Qle_shift_div_l; lra).
    eapply (within_comp u53); [reflexivity| |replace (n + 4)%nat with (S (S n + 2 * 1)) by lia; apply (within_div_r (S n) 1 _ (V / Qnat n) thr (theta * mult)); auto].
    - rewrite EN. reflexivity.
    - apply within_quot; auto. apply tot_in.
    - apply thr_in.
  Qed.

  Lemma p95_in : (e - s <= 2 ^ 40)%Z -> forall srt, Permutation xs srt -> ascQ srt ->
    exists y i m, z_p95 z = Some (r24 (log1p y)) /\ (Z.of_nat i < e - s)%Z /\ 0 <= m /\ m < 1 /\
      Qnat i <= inject_Z (e - s - 1) * (95 # 100) < Qnat i + 1 /\ Qabs (Qnat i + m - inject_Z (e - s - 1) * (95 # 100)) <= 3 * u53 * inject_Z (e - s) /\
      within u53 5 y ((nth i srt 0 * (1 - m) + nth (Nat.min (S i) (Z.to_nat (e - s - 1))) srt 0 * m) / (theta * mult)) /\
      (((e - s - 1) mod 20 = 0)%Z -> (forall x, In x amounts -> fl 53 x) -> within u53 3 y (nth i srt 0 / (theta * mult))).
  Proof.
    intros H40 srt HP HA. pose proof xs_len as XL. pose proof n_pos as NP.
    destruct (percentile_f_spec xs ltac:(lia) ltac:(unfold n in *; lia) xs_nonneg) as [i [m [Hi [M0 [M1 [I1 [I2 [I3 I4]]]]]]]]. rewrite XL in *.
    assert (U : forall k, (k < n)%nat -> nth k (qsort xs) 0 == nth k srt 0).
    { intros k Hk. apply sorted_unique; auto; [apply qsort_asc| |rewrite qsort_length; lia]. rewrite <- qsort_perm. exact HP. }
    assert (E1 : Qnat (n - 1) == inject_Z (e - s - 1)) by (unfold Qnat; replace (Z.of_nat (n - 1)) with (e - s - 1)%Z by (unfold n; lia); reflexivity).
    assert (E2 : Qnat n == inject_Z (e - s)) by (unfold Qnat; replace (Z.of_nat n) with (e - s)%Z by (unfold n; lia); reflexivity).
    rewrite E1 in I1, I2. rewrite E2 in I2. replace (Z.to_nat (e - s - 1)) with (n - 1)%nat by (unfold n; lia).
    assert (IN : forall k, (k < n)%nat -> 0 <= nth k (qsort xs) 0).
    { intros k Hk. apply xs_nonneg, (Permutation_in (l := qsort xs)); [symmetry; apply qsort_perm|apply nth_In; rewrite qsort_length; lia]. }
    exists (r53 (percentile_f xs 95 / thr)), i, m. split; [rewrite bar_eq; cbv zeta; destruct (Qeqb (fsum xs) 0); reflexivity|].
    split; [unfold n in *; lia|]. split; [auto|]. split; [auto|]. split; [auto|]. split; [auto|]. pose proof thr_pos as TP. split.
    - pose proof (IN i Hi). pose proof (IN (Nat.min (S i) (n - 1)) ltac:(lia)).
      assert (W0 : 0 <= nth i (qsort xs) 0 * (1 - m) + nth (Nat.min (S i) (n - 1)) (qsort xs) 0 * m).
      { assert (0 <= nth i (qsort xs) 0 * (1 - m)) by (apply Qmult_le_0_compat; lra). assert (0 <= nth (Nat.min (S i) (n - 1)) (qsort xs) 0 * m) by (apply Qmult_le_0_compat; lra). lra. }
      eapply (within_comp u53); [reflexivity| |exact (within_div_r 2 1 _ _ thr (theta * mult) W0 TP I3 thr_in)]. rewrite !U by lia. reflexivity.
    - intros M20 Fx. pose proof (IN i Hi) as N0.
      assert (EP : percentile_f xs 95 == nth i (qsort xs) 0).
      { apply I4; [replace (Z.of_nat (n - 1)) with (e - s - 1)%Z by (unfold n; lia); auto|]. intros x Hx. apply Fx, xs_in, Hx. }
      eapply (within_comp u53); [reflexivity| |apply (within_div_r 0 1 _ (nth i (qsort xs) 0) thr (theta * mult) N0 TP (within_exact 0 _ _ N0 EP) thr_in)]. rewrite U by lia. reflexivity.
  Qed.

  Let B (c : Q) : Q := bsum (fun j => if Qltb c (at_ amounts j) then at_ amounts j else 0) s e.
  Lemma filter_sum c l : qsum (filter (Qltb c) (map (at_ amounts) l)) == qsum (map (fun j => if Qltb c (at_ amounts j) then at_ amounts j else 0) l).
  Proof. induction l as [|j l IH]; [reflexivity|]. cbn [map filter]. destruct (Qltb c (at_ amounts j)); rewrite !qsum_cons, <- ?IH; [reflexivity|ring]. Qed.
  Lemma B_mono c d : c <= d -> B d <= B c.
  Proof.
    intro L. unfold B, bsum. apply qsum_le. intros j Hj. apply in_zrange in Hj. assert (A0 : 0 <= at_ amounts j) by (unfold at_; apply Ha, nth_In; lia).
    destruct (Qltb_spec d (at_ amounts j)), (Qltb_spec c (at_ amounts j)); lra.
  Qed.
  Lemma B_float : (forall x, In x amounts -> fl 53 x) -> B (theta * mult * (1 + u53)) <= B thr <= B (theta * mult).
  Proof.
    intro Fx. pose proof thr_in as [_ T2]. change ((1 + u53) ^ Z.of_nat 1) with (1 + u53) in T2. split; [apply B_mono; lra|].
    unfold B, bsum. apply qsum_le. intros j Hj. apply in_zrange in Hj. assert (IA : In (at_ amounts j) amounts) by (unfold at_; apply nth_In; lia).
    destruct (Qltb_spec thr (at_ amounts j)) as [K|K], (Qltb_spec (theta * mult) (at_ amounts j)) as [J|J]; try lra; [|pose proof (Ha _ IA); lra].
    pose proof (rnd_ge 53 (at_ amounts j) (theta * mult) ltac:(lia) (Fx _ IA) J). unfold thr, r53 in K. lra.
  Qed.
  Lemma block_in : 0 < V -> exists b y, z_block z = Some b /\ b = r24 y /\ 0 <= b <= 1 /\ within u53 (3 * n + 1) y (B thr / V).
  Proof.
    intro HV. assert (TN : ~ fsum xs == 0) by (rewrite tot_zero; lra). pose proof tot_in as WT. pose proof (within_pos _ _ _ HV WT) as TP.
    do 2 eexists. split; [rewrite bar_eq; cbv zeta; destruct (Qeqb_spec (fsum xs) 0); [contradiction|]; reflexivity|]. split; [reflexivity|].
    pose proof (block_le thr xs xs_nonneg 0 0 ltac:(lra) (fl_0 53 ltac:(lia))) as BL. change (fold_left (fun acc x => r53 (acc + x)) xs 0) with (fsum xs) in BL.
    assert (EB : fold_left (fun acc x => if Qltb thr x then r53 (acc + x) else acc) xs 0 = fsum (filter (Qltb thr) xs)) by apply block_fold.
    assert (WB : within u53 n (fsum (filter (Qltb thr) xs)) (B thr)).
    { assert (N : forall x, In x (filter (Qltb thr) xs) -> 0 <= x) by (intros x Hx; apply filter_In in Hx; apply xs_nonneg, Hx).
      eapply (within_comp u53); [reflexivity|apply (filter_sum thr (zrange (s + 1) (e + 1)))|]. apply (within_le u53 u53_bounds (length (filter (Qltb thr) xs))).
      - rewrite <- xs_len. clear. induction xs as [|a l IH]; cbn [filter length]; [lia|]. destruct (Qltb thr a); cbn [length]; lia.
      - now apply qsum_nonneg.
      - now apply fsum_within0. }
    rewrite EB in *. set (bf := fsum (filter (Qltb thr) xs)) in *. set (tf := fsum xs) in *. clearbody bf tf.
    assert (Q0 : 0 <= bf / tf) by (apply Qle_shift_div_l; lra). assert (Q1 : bf / tf <= 1) by (apply Qle_shift_div_r; lra).
    split.
    - assert (Y1 : r53 (bf / tf) <= 1) by (apply (rnd_le 53 1); [lia|exact fl_1|auto]). split; [apply r24_nonneg, r53_nonneg; auto|].
      apply (rnd_le 24 1); [lia|exists 1%Z, 0%Z; split; reflexivity|auto].
    - replace (3 * n + 1)%nat with (S (n + 2 * n)) by lia. apply within_div_r; auto. unfold B, bsum. apply qsum_nonneg. intros x Hx. apply in_map_iff in Hx. destruct Hx as [j [<- Hj]].
      apply in_zrange in Hj. destruct (Qltb thr (at_ amounts j)); [|lra]. unfold at_. apply Ha, nth_In. lia.
  Qed.
  Lemma gini_in : 0 < V -> exists g, z_gini z = Some g /\ ((e = s + 1)%Z -> g == 0) /\
    ((s + 1 < e)%Z -> exists G, g = r24 (r53 (1 - G)) /\ within u53 (5 * n + 3) G (bsum (fun j => (at_ amounts j / V) * (at_ amounts j / V)) s e)).
  Proof.
    intro HV. assert (TN : ~ fsum xs == 0) by (rewrite tot_zero; lra). pose proof tot_in as WT. pose proof (within_pos _ _ _ HV WT) as TP.
    eexists. split; [rewrite bar_eq; cbv zeta; destruct (Qeqb_spec (fsum xs) 0); [contradiction|]; reflexivity|]. split.
    - intro E. assert (EN : n = 1%nat) by (unfold n; lia). rewrite EN. reflexivity.
    - intro L. destruct (Nat.eqb_spec n 1) as [E|_]; [unfold n in E; lia|]. eexists. split; [reflexivity|].
      set (tf := fsum xs) in *. clearbody tf. unfold xs. rewrite map_map. unfold bsum.
      replace (5 * n + 3)%nat with (4 * n + 3 + length (zrange (s + 1) (e + 1)))%nat by (rewrite zrange_length; unfold n; lia).
      apply within_fsum53. intros j Hj. apply in_zrange in Hj. assert (A0 : 0 <= at_ amounts j) by (unfold at_; apply Ha, nth_In; lia).
      assert (Q0 : 0 <= at_ amounts j / V) by (apply Qle_shift_div_l; lra). split; [now apply Qmult_le_0_compat|].
      assert (W : within u53 (S (0 + 2 * n)) (r53 (at_ amounts j / tf)) (at_ amounts j / V)) by (apply within_div_r; auto; apply within_self; [exact u53_bounds|auto]).
      replace (4 * n + 3)%nat with (S (S (0 + 2 * n) + S (0 + 2 * n))) by lia. now apply within_mult_r.
  Qed.
  Lemma zero_in : V == 0 -> z_block z = None /\ z_gini z = None.
  Proof. intro K. apply tot_zero in K. rewrite bar_eq. cbv zeta. destruct (Qeqb_spec (fsum xs) 0); [|contradiction]. auto. Qed.
End Bar.
