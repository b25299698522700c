(** P_float13.v -- exact differences of neighbouring floats, and the error of ADX in float64. *)
From Verif Require Import Base M_logic M_bars M_features M_volume M_float M_float2 M_float3 S_logic S_features S_float.
From Verif Require Import P_features P_features2 P_float P_float2 P_float3 P_float7 P_float9 P_float12.
Open Scope Q_scope.

Lemma fl_ulp x : fl 53 x -> ~ x == 0 -> grid (ilog x - 52) x.
Proof.
  intros F N. pose proof (rnd_exact 53 x ltac:(lia) F) as E. unfold rnd in E. destruct (Qeqb_spec x 0); [contradiction|]. cbv zeta in E. rewrite Qred_correct in E.
  eexists. symmetry. exact E.
Qed.
Lemma grid_coarse g h x : (g <= h)%Z -> grid h x -> grid g x.
Proof.
  intros L [k E]. exists (k * 2 ^ (h - g))%Z. rewrite E, inject_Z_mult. fold (two g) (two h). rewrite <- two_Z by lia. replace h with (h - g + g)%Z at 1 by lia. rewrite two_plus. ring.
Qed.
Lemma ilog_mono x y : 0 < x -> x <= y -> (ilog x <= ilog y)%Z.
Proof.
  intros Hx L. destruct (ilog_spec x ltac:(lra)) as [A _]. destruct (ilog_spec y ltac:(lra)) as [_ B]. rewrite (Qabs_pos x) in A by lra. rewrite (Qabs_pos y) in B by lra.
  assert (K : two (ilog x) < two (ilog y + 1)) by lra. apply two_lt_inv in K. lia.
Qed.
(** Sterbenz: the difference of two floats within a factor of two is exact. *)
Lemma sterbenz_le x y : fl 53 x -> fl 53 y -> 0 < y -> y <= x -> x <= 2 * y -> r53 (x - y) == x - y.
Proof.
  intros Fx Fy Py L U. assert (Px : 0 < x) by lra. apply (r53_grid (ilog y - 52)).
  - apply grid_minus; [|apply fl_ulp; [exact Fy|lra]]. apply (grid_coarse _ (ilog x - 52)); [pose proof (ilog_mono y x Py L); lia|]. apply fl_ulp; [exact Fx|lra].
  - rewrite Qabs_pos by lra. destruct (ilog_spec y ltac:(lra)) as [_ B]. rewrite (Qabs_pos y) in B by lra. replace (53 + (ilog y - 52))%Z with (ilog y + 1)%Z by lia. lra.
Qed.
Lemma sterbenz x y : fl 53 x -> fl 53 y -> 0 < x -> 0 < y -> x <= 2 * y -> y <= 2 * x -> r53 (x - y) == x - y.
Proof.
  intros Fx Fy Px Py A B. destruct (Qlt_le_dec x y) as [H|H]; [|now apply sterbenz_le].
  assert (E : r53 (- (y - x)) == - r53 (y - x)) by apply rnd_opp. setoid_replace (x - y) with (- (y - x)) by ring. rewrite E. rewrite (sterbenz_le y x) by (assumption || lra). reflexivity.
Qed.

(** ** Smoothed sums *)
Lemma pmax_within n a x b y : 0 <= x -> 0 <= y -> within u53 n a x -> within u53 n b y -> within u53 n (pmax a b) (pmax x y).
Proof. apply within_max. Qed.
Lemma within_exact n a x : 0 <= x -> a == x -> within u53 n a x.
Proof. intros Hx E. apply (within_comp u53 n x x); [now symmetry|reflexivity|]. apply within_self; [apply u53_bounds|exact Hx]. Qed.
Lemma fsum_within (xf x : nat -> Q) l : (forall i, 0 <= x i /\ within u53 1 (xf i) (x i)) -> 0 <= qsum (map x l) /\ within u53 (S (length l)) (fsum (map xf l)) (qsum (map x l)).
Proof.
  intro H. induction l as [|i l IH] using rev_ind; [split; [discriminate|apply within_0]|]. destruct IH as [I1 I2]. destruct (H i) as [X1 X2].
  rewrite !map_app. cbn [map]. rewrite fsum_app. assert (E : qsum (map x l ++ [x i]) == qsum (map x l) + x i) by (rewrite qsum_app; cbn [qsum fold_right]; ring).
  split; [rewrite E; lra|]. eapply within_comp; [reflexivity|symmetry; exact E|]. rewrite app_length. cbn [length]. rewrite Nat.add_1_r. apply (within_add _ 1); [exact I1|exact X1|lia|exact I2|exact X2].
Qed.
(** s - s/n of a float known up to k errors. *)
Lemma within_decay n k s x : (1 <= n)%nat -> fl 53 s -> 0 <= x -> within u53 k s x ->
  0 <= x - x / Qnat n /\ within u53 (k + 2) (r53 (s - r53 (s / Qnat n))) (x - x / Qnat n).
Proof.
  intros Hn Fs Hx W. pose proof (Qnat_ge1 n Hn) as Pn. pose proof (within_nonneg u53 u53_bounds k s x W Hx) as Hs.
  assert (E : forall z, z - z / Qnat n == z * (1 - / Qnat n)) by (intro z; unfold Qdiv; ring). assert (I : 0 < / Qnat n) by (apply Qinv_lt_0_compat; lra).
  assert (I1 : / Qnat n <= 1) by (setoid_replace (/ Qnat n) with (1 / Qnat n) by (unfold Qdiv; ring); apply Qle_shift_div_r; lra).
  assert (P : 0 <= x - x / Qnat n) by (rewrite E; apply Qmult_le_0_compat; lra). split; [exact P|].
  destruct (Nat.eq_dec n 1) as [->|N1].
  - assert (Q1 : Qnat 1 == 1) by reflexivity.
    assert (Z1 : r53 (s / Qnat 1) == s) by (assert (K : s / Qnat 1 == s) by (rewrite Q1; field); rewrite K; apply rnd_exact; [lia|exact Fs]).
    assert (Z2 : x - x / Qnat 1 == 0) by (rewrite Q1; field). apply (within_comp u53 _ 0 0); [|now symmetry|apply within_0].
    assert (Z3 : s - r53 (s / Qnat 1) == 0) by (rewrite Z1; ring). rewrite Z3. unfold r53. rewrite rnd_0; reflexivity.
  - assert (I2 : / Qnat n <= 1 # 2).
    { assert (2 <= Qnat n) by (unfold Qnat; change 2 with (inject_Z 2); rewrite <- Zle_Qle; lia). setoid_replace (/ Qnat n) with (1 / Qnat n) by (unfold Qdiv; ring). apply Qle_shift_div_r; lra. }
    replace (k + 2)%nat with (S (S k)) by lia. apply within_r53; [exact P|].
    assert (W1 : within u53 k (s - s / Qnat n) (x - x / Qnat n)).
    { apply (within_comp u53 k ((1 - / Qnat n) * s) ((1 - / Qnat n) * x)); [rewrite E; ring|rewrite E; ring|]. apply within_scale; [lra|exact W]. }
    apply (within_rnd u53 u53_bounds k (s - s / Qnat n)); [exact W1|exact P|].
    assert (D : 0 <= s - s / Qnat n) by (rewrite E; apply Qmult_le_0_compat; lra). rewrite (Qabs_pos (s - s / Qnat n)) by exact D.
    setoid_replace (s - r53 (s / Qnat n) - (s - s / Qnat n)) with (- (r53 (s / Qnat n) - s / Qnat n)) by ring. rewrite Qabs_opp.
    assert (SQ : 0 <= s / Qnat n) by (apply Qle_shift_div_l; lra).
    pose proof (r53_err (s / Qnat n)) as R. rewrite (Qabs_pos (s / Qnat n)) in R by exact SQ. eapply Qle_trans; [exact R|]. apply Qmult_le_compat_r; [|apply u53_bounds].
    rewrite E. unfold Qdiv. setoid_replace (s * / Qnat n) with (/ Qnat n * s) by ring. setoid_replace (s * (1 - / Qnat n)) with ((1 - / Qnat n) * s) by ring. apply Qmult_le_compat_r; lra.
Qed.
Lemma wsum_within xf x n : (1 <= n)%nat -> (forall i, 0 <= xf i) -> (forall i, 0 <= x i /\ within u53 1 (xf i) (x i)) ->
  forall k, 0 <= wsum x n k /\ within u53 (S n + 3 * k) (wsum_f xf n k) (wsum x n k).
Proof.
  intros Hn Hf H. induction k as [|k [I1 I2]]; cbn [wsum wsum_f].
  - rewrite Nat.mul_0_r, Nat.add_0_r. pose proof (fsum_within xf x (seq 1 n) H) as K. rewrite seq_length in K. exact K.
  - destruct (H (n + S k)%nat) as [X1 X2]. destruct (wsum_f_nonneg xf n Hn Hf k) as [_ Fk].
    destruct (within_decay n _ _ _ Hn Fk I1 I2) as [D1 D2]. split; [lra|].
    replace (S n + 3 * S k)%nat with (S (S n + 3 * k + 2)) by lia. apply (within_add _ 1); [exact D1|exact X1|lia|exact D2|exact X2].
Qed.

(** ** Directional index *)
Lemma di_within n dmf dm trf tr : 0 <= dm -> 0 <= tr -> within u53 n dmf dm -> within u53 n trf tr -> 0 <= di dm tr /\ within u53 (3 * n + 2) (di_f dmf trf) (di dm tr).
Proof.
  intros Hd Ht Wd Wt. unfold di, di_f. destruct (Qltb_spec 0 tr) as [T|T].
  - pose proof (within_pos n trf tr T Wt) as Tf. destruct (Qltb_spec 0 trf); [|lra]. assert (P : 0 <= dm / tr) by (apply Qle_shift_div_l; lra).
    split; [lra|]. replace (3 * n + 2)%nat with (S (S (n + 2 * n))) by lia. apply within_r53; [lra|]. apply within_scale; [lra|]. apply within_r53; [exact P|]. now apply within_div.
  - destruct (Qltb_spec 0 trf) as [K|K]; [|split; [lra|apply within_0]]. assert (Z0 : tr == 0) by lra. destruct Wt as [_ W]. rewrite Z0 in W. lra.
Qed.
Lemma dx_of_near n pf p mf m : 0 <= p -> 0 <= m -> within u53 n pf p -> within u53 n mf m -> near (3 * n + 5) (dx_of_f pf mf) (dx_of p m) 100.
Proof.
  intros Hp Hm Wp Wm. assert (Hpf := within_nonneg u53 u53_bounds n pf p Wp Hp). assert (Hmf := within_nonneg u53 u53_bounds n mf m Wm Hm).
  assert (Ws : within u53 (S n) (r53 (pf + mf)) (p + m)) by (apply within_r53; [lra|now apply within_plus]).
  unfold dx_of, dx_of_f. destruct (Qltb_spec 0 (p + m)) as [S0|S0].
  - pose proof (within_pos _ _ _ S0 Ws) as Sf. destruct (Qltb_spec 0 (r53 (pf + mf))); [|lra].
    assert (N1 : near (S n) (Qabs (r53 (pf - mf))) (Qabs (p - m)) (p + m)).
    { apply near_abs, near_rnd, near_minus; (split; [rewrite Qabs_pos; lra|now apply within_abs_err]). }
    assert (D : Qabs ((p + m) / r53 (pf + mf) - 1) <= ee (2 * S n)).
    { pose proof (within_div 0 (S n) (p + m) (p + m) (r53 (pf + mf)) (p + m) ltac:(lra) S0 ltac:(apply within_self; [apply u53_bounds|lra]) Ws) as W.
      assert (E1 : (p + m) / (p + m) == 1) by (field; lra). apply (within_comp u53 _ _ _ _ _ (Qeq_refl _) E1) in W. apply within_abs_err in W; [|lra]. change (0 + 2 * S n)%nat with (2 * S n)%nat in W. lra. }
    assert (N2 : near (3 * S n) (Qabs (r53 (pf - mf)) / r53 (pf + mf)) (Qabs (p - m) / (p + m)) 1).
    { destruct N1 as [A1 A2]. fold (ee (S n)) in A2. pose proof (Qabs_nonneg (p - m)) as A0. set (a := Qabs (r53 (pf - mf))) in *. set (x := Qabs (p - m)) in *. set (b := r53 (pf + mf)) in *. set (s := p + m) in *.
      clearbody a x b s. rewrite (Qabs_pos x) in A1 by exact A0.
      assert (X1 : x / s <= 1) by (apply Qle_shift_div_r; lra). assert (X0 : 0 <= x / s) by (apply Qle_shift_div_l; lra).
      split; [rewrite Qabs_pos; lra|]. fold (ee (3 * S n)). replace (3 * S n)%nat with (2 * S n + S n)%nat by lia. rewrite ee_add. rewrite Qmult_1_r.
      setoid_replace (a / b - x / s) with ((a - x) / s * (s / b) + x / s * (s / b - 1)) by (field; split; lra).
      eapply Qle_trans; [apply Qabs_triangle|]. rewrite !Qabs_Qmult.
      assert (B1 : Qabs ((a - x) / s) <= ee (S n)).
      { assert (Is : 0 < / s) by (apply Qinv_lt_0_compat; lra). unfold Qdiv. rewrite Qabs_Qmult, (Qabs_pos (/ s)) by lra. change (Qabs (a - x) / s <= ee (S n)). apply Qle_shift_div_r; lra. }
      assert (B2 : Qabs (s / b) <= 1 + ee (2 * S n)).
      { pose proof (Qabs_le_diff (s / b) 1) as K. change (Qabs 1) with 1 in K. lra. }
      rewrite (Qabs_pos (x / s)) by exact X0. pose proof (Qabs_nonneg ((a - x) / s)) as G1. pose proof (Qabs_nonneg (s / b)) as G2. pose proof (Qabs_nonneg (s / b - 1)) as G3.
      pose proof (ee_nonneg (S n)) as G4. set (A := Qabs ((a - x) / s)) in *. set (B := Qabs (s / b)) in *. set (C := Qabs (s / b - 1)) in *. set (y := x / s) in *.
      set (e1 := ee (S n)) in *. set (e2 := ee (2 * S n)) in *. clearbody A B C y e1 e2.
      assert (A * B <= e1 * (1 + e2)) by (apply Qmult_le_compat_nonneg; split; lra). assert (y * C <= 1 * e2) by (apply Qmult_le_compat_nonneg; split; lra). lra. }
    replace (3 * n + 5)%nat with (S (0 + S (3 * S n)))%nat by lia. apply near_rnd.
    eapply near_comp; [reflexivity|reflexivity| |apply near_mult; [apply (near_exact 0 100 100); discriminate|apply near_rnd; exact N2]]. ring.
  - destruct (Qltb_spec 0 (r53 (pf + mf))) as [K|K]; [|apply near_exact; discriminate]. assert (Z0 : p + m == 0) by lra. destruct Ws as [_ W]. rewrite Z0 in W. lra.
Qed.

(** ** ADX *)
Lemma Qltb_eq a b c d : a == c -> b == d -> Qltb a b = Qltb c d.
Proof. intros E F. apply Qltb_iff. now rewrite E, F. Qed.
(** Neighbours are positive floats within a factor of two. *)
Definition gentle (l : list Q) : Prop :=
  (forall x, In x l -> fl 53 x /\ 0 < x) /\ forall i, (S i < length l)%nat -> qn l i <= 2 * qn l (S i) /\ qn l (S i) <= 2 * qn l i.
Lemma gentle_diff l i : gentle l -> r53 (qn l (S i) - qn l i) == qn l (S i) - qn l i.
Proof.
  intros [F G]. destruct (lt_dec (S i) (length l)) as [H|H].
  - destruct (G i H) as [A B]. destruct (F (qn l i) ltac:(apply nth_In; lia)). destruct (F (qn l (S i)) ltac:(apply nth_In; lia)). apply sterbenz; assumption.
  - assert (E : qn l (S i) = 0) by (apply nth_overflow; lia). rewrite E. destruct (lt_dec i (length l)) as [K|K].
    + destruct (F (qn l i) ltac:(apply nth_In; lia)) as [Fi _]. apply rnd_exact; [lia|]. apply (fl_comp 53 (- qn l i)); [ring|now apply fl_opp].
    + assert (E2 : qn l i = 0) by (apply nth_overflow; lia). rewrite E2. reflexivity.
Qed.
Lemma gentle_diff' l i : gentle l -> r53 (qn l i - qn l (S i)) == qn l i - qn l (S i).
Proof.
  intro G. assert (E : r53 (- (qn l (S i) - qn l i)) == - r53 (qn l (S i) - qn l i)) by apply rnd_opp.
  setoid_replace (qn l i - qn l (S i)) with (- (qn l (S i) - qn l i)) by ring. rewrite E, gentle_diff by exact G. reflexivity.
Qed.
Lemma dm_f_exact high low i : gentle high -> gentle low -> plus_dm_f high low i == plus_dm high low i /\ minus_dm_f high low i == minus_dm high low i.
Proof.
  intros Gh Gl. unfold plus_dm_f, plus_dm, minus_dm_f, minus_dm. destruct i as [|i]; [split; reflexivity|]. cbn [Nat.eqb Nat.sub]. rewrite Nat.sub_0_r. cbv zeta.
  pose proof (gentle_diff high i Gh) as A. pose proof (gentle_diff' low i Gl) as B. set (a := r53 (qn high (S i) - qn high i)) in *. set (b := r53 (qn low i - qn low (S i))) in *.
  set (x := qn high (S i) - qn high i) in *. set (y := qn low i - qn low (S i)) in *. clearbody a b x y.
  rewrite (Qltb_eq b a y x), (Qltb_eq 0 a 0 x), (Qltb_eq a b x y), (Qltb_eq 0 b 0 y) by (assumption || reflexivity).
  split; [destruct (Qltb y x && Qltb 0 x)|destruct (Qltb x y && Qltb 0 y)]; assumption || reflexivity.
Qed.
Lemma true_rng_f_within high low close i : (forall j, qn low j <= qn high j) ->
  0 <= true_rng_f high low close i /\ 0 <= true_rng high low close i /\ within u53 1 (true_rng_f high low close i) (true_rng high low close i).
Proof.
  intro L. unfold true_rng_f, true_rng. destruct i as [|i]; [split; [discriminate|split; [discriminate|apply within_0]]|]. cbn [Nat.eqb].
  specialize (L (S i)). assert (A0 : 0 <= qn high (S i) - qn low (S i)) by lra. assert (A : within u53 1 (r53 (qn high (S i) - qn low (S i))) (qn high (S i) - qn low (S i))) by (apply (within_r53 0); [lra|apply within_self; [apply u53_bounds|lra]]).
  pose proof (within_abs (qn high (S i) - qn close (S i - 1))) as B. pose proof (within_abs (qn low (S i) - qn close (S i - 1))) as C.
  pose proof (Qabs_nonneg (qn high (S i) - qn close (S i - 1))) as B0. pose proof (Qabs_nonneg (qn low (S i) - qn close (S i - 1))) as C0.
  assert (M : forall a b, 0 <= a -> 0 <= pmax a b) by (intros a b Ha; unfold pmax; destruct (Qltb_spec a b); lra).
  assert (M1 := M _ (Qabs (qn high (S i) - qn close (S i - 1))) A0).
  split; [apply M, M, r53_nonneg; exact A0|]. split; [apply M; exact M1|].
  apply pmax_within; [exact M1|exact C0| |exact C]. apply pmax_within; assumption.
Qed.
Lemma dx_near high low close n i : (1 <= n)%nat -> gentle high -> gentle low -> (forall j, qn low j <= qn high j) ->
  near (27 * i + 20) (dx_f high low close n i) (dx high low close n i) 100.
Proof.
  intros Hn Gh Gl L. unfold dx_f, dx. destruct (Nat.ltb_spec i n) as [H|H]; [apply near_exact; discriminate|]. cbv zeta.
  assert (TP : forall j, 0 <= true_rng_f high low close j) by (intro j; apply true_rng_f_within, L).
  assert (TR : forall j, 0 <= true_rng high low close j /\ within u53 1 (true_rng_f high low close j) (true_rng high low close j)) by (intro j; destruct (true_rng_f_within high low close j L) as [_ K]; exact K).
  assert (PP : forall j, 0 <= plus_dm_f high low j) by (intro j; apply dm_f_nonneg). assert (MP : forall j, 0 <= minus_dm_f high low j) by (intro j; apply dm_f_nonneg).
  destruct (wsum_within (true_rng_f high low close) (true_rng high low close) n Hn TP TR (i - n)) as [T1 T2].
  assert (DP : forall j, 0 <= plus_dm high low j /\ within u53 1 (plus_dm_f high low j) (plus_dm high low j)).
  { intro j. split; [apply plus_dm_nonneg|]. apply within_exact; [apply plus_dm_nonneg|]. now apply dm_f_exact. }
  assert (DM : forall j, 0 <= minus_dm high low j /\ within u53 1 (minus_dm_f high low j) (minus_dm high low j)).
  { intro j. split; [apply minus_dm_nonneg|]. apply within_exact; [apply minus_dm_nonneg|]. now apply dm_f_exact. }
  destruct (wsum_within (plus_dm_f high low) (plus_dm high low) n Hn PP DP (i - n)) as [P1 P2].
  destruct (wsum_within (minus_dm_f high low) (minus_dm high low) n Hn MP DM (i - n)) as [M1 M2].
  destruct (di_within _ _ _ _ _ P1 T1 P2 T2) as [I1 I2]. destruct (di_within _ _ _ _ _ M1 T1 M2 T2) as [J1 J2].
  eapply near_le; [|apply Qle_refl|exact (dx_of_near _ _ _ _ _ I1 J1 I2 J2)]. lia.
Qed.
Lemma fsum_near_terms (df d : nat -> Q) k A : 0 <= A -> forall l, (forall j, In j l -> near k (df j) (d j) A) -> near (k + length l) (fsum (map df l)) (qsum (map d l)) (Qnat (length l) * A).
Proof.
  intros HA. induction l as [|j l IH] using rev_ind; intro H; [apply near_exact; cbn [length map qsum fold_right]; change (Qabs 0) with 0; change (Qnat 0) with 0; rewrite Qmult_0_l; apply Qle_refl|].
  rewrite !map_app. cbn [map]. rewrite fsum_app, app_length. cbn [length]. replace (k + (length l + 1))%nat with (S (k + length l)) by lia.
  assert (N1 := IH ltac:(intros y Hy; apply H, in_or_app; now left)). assert (N2 := H j ltac:(apply in_or_app; right; now left)).
  assert (LE : (k <= k + length l)%nat) by lia. apply (near_le k (k + length l) _ _ A A LE (Qle_refl A)) in N2.
  eapply near_comp; [reflexivity| | |apply near_rnd, near_plus; [exact N1|exact N2]].
  - rewrite qsum_app. cbn [qsum fold_right]. ring.
  - unfold Qnat. rewrite Nat2Z.inj_add, inject_Z_plus. change (inject_Z (Z.of_nat 1)) with 1. ring.
Qed.
Lemma near_quot k a x A c : 1 <= c -> near k a x (c * A) -> near k (a / c) (x / c) A.
Proof.
  intros Hc [H1 H2]. fold (ee k) in H2. assert (I : 0 < / c) by (apply Qinv_lt_0_compat; lra).
  assert (AB : forall z, Qabs (z / c) == Qabs z / c) by (intro z; unfold Qdiv; rewrite Qabs_Qmult, (Qabs_pos (/ c)) by lra; reflexivity).
  split; [rewrite AB; apply Qle_shift_div_r; lra|]. fold (ee k). setoid_replace (a / c - x / c) with ((a - x) / c) by (field; lra). rewrite AB. apply Qle_shift_div_r; [lra|].
  setoid_replace (ee k * A * c) with (ee k * (c * A)) by ring. exact H2.
Qed.
Lemma adx_at_near (df d : nat -> Q) n : (1 <= n)%nat -> (forall j, near (27 * j + 20) (df j) (d j) 100) ->
  forall k, near (30 * (2 * n - 1 + k) + 50) (adx_at_f df n k) (adx_at d n k) 100.
Proof.
  intros Hn H. pose proof (Qnat_ge1 n Hn) as Pn. induction k as [|k IH]; cbn [adx_at_f adx_at].
  - assert (N := fsum_near_terms df d (27 * (2 * n - 1) + 20) 100 ltac:(lra) (seq n n)
      ltac:(intros j Hj; apply in_seq in Hj; eapply near_le; [|apply Qle_refl|apply H]; lia)). rewrite seq_length in N.
    eapply near_le; [|apply Qle_refl|apply near_rnd, near_quot; [exact Pn|exact N]]. lia.
  - assert (X := H (2 * n - 1 + S k)%nat).
    assert (E99 : near (30 * (2 * n - 1 + k) + 50) (adx_at_f df n k * (Qnat n - 1)) (adx_at d n k * (Qnat n - 1)) (100 * (Qnat n - 1))).
    { assert (K := near_mult (30 * (2 * n - 1 + k) + 50) 0 _ _ _ (Qnat n - 1) (Qnat n - 1) (Qnat n - 1) IH ltac:(apply near_exact; rewrite Qabs_pos; lra)). rewrite Nat.add_0_r in K. exact K. }
    apply near_rnd in E99. assert (LE : (27 * (2 * n - 1 + S k) + 20 <= S (30 * (2 * n - 1 + k) + 50))%nat) by lia. apply (near_le _ (S (30 * (2 * n - 1 + k) + 50)) _ _ 100 100 LE (Qle_refl _)) in X.
    pose proof (near_rnd _ _ _ _ (near_plus _ _ _ _ _ _ _ E99 X)) as S1.
    assert (S2 : near (S (S (30 * (2 * n - 1 + k) + 50))) (r53 (r53 (adx_at_f df n k * (Qnat n - 1)) + df (2 * n - 1 + S k)%nat)) (adx_at d n k * (Qnat n - 1) + d (2 * n - 1 + S k)%nat) (Qnat n * 100)).
    { eapply near_comp; [reflexivity|reflexivity| |exact S1]. ring. }
    eapply near_le; [|apply Qle_refl|apply near_rnd, near_quot; [exact Pn|exact S2]]. lia.
Qed.
