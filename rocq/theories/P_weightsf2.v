(** P_weightsf2.v -- time decay in float64. *)
From Coq Require Import Permutation.
From Verif Require Import Base M_weights S_weights P_weights P_weights2 M_float M_float2 M_float6 M_footprint S_footprint P_footprint S_float S_sumf P_float P_float4 P_float9 P_float12 P_float13 P_sumf.
Open Scope Q_scope.

Lemma r53_fl x : fl 53 (r53 x).
Proof. apply rnd_fl. lia. Qed.
Lemma r53_is1 x : x == 1 -> r53 x == 1.
Proof. intro E. unfold r53. rewrite (rnd_comp 53 x 1 E). apply rnd_exact; [lia|exact fl_1]. Qed.
Lemma r53_is0 x : x == 0 -> r53 x == 0.
Proof. intro E. unfold r53. rewrite rnd_0 by exact E. reflexivity. Qed.
Lemma r53_1u x : x <= 1 + u53 -> r53 x <= 1.
Proof. intro H. apply Qle_trans with (r53 (1 + u53)); [apply r53_mono, H|]. vm_compute. discriminate. Qed.
Lemma r53_up x : 0 <= x -> r53 x <= (1 + u53) * x.
Proof. intro H. pose proof (r53_err x) as E. rewrite (Qabs_pos x H) in E. apply Qabs_Qle_condition in E. lra. Qed.
Lemma r53_down x : 0 <= x -> (1 - u53) * x <= r53 x.
Proof. intro H. pose proof (r53_err x) as E. rewrite (Qabs_pos x H) in E. apply Qabs_Qle_condition in E. lra. Qed.
(** Dividing by the total and multiplying with it again does not lead above 1. *)
Lemma back_le_1 t a : 0 < t -> 0 <= a <= 1 -> 0 <= r53 (r53 (a / t) * t) <= 1.
Proof.
  intros Ht Ha. assert (N : 0 <= a / t) by (apply Qle_shift_div_l; lra). pose proof (r53_up _ N) as U. pose proof (r53_nonneg _ N) as R. split; [apply r53_nonneg, Qmult_le_0_compat; lra|].
  apply r53_1u. apply Qle_trans with ((1 + u53) * (a / t) * t); [apply Qmult_le_compat_r; lra|].
  setoid_replace ((1 + u53) * (a / t) * t) with ((1 + u53) * a) by (field; lra). pose proof u53_bounds. nra.
Qed.
(** Taking [p] from 1 and adding it again gives 1. *)
Lemma round_trip_small p : fl 53 p -> 0 <= p <= 1 -> r53 (r53 (1 - p) + p) == 1.
Proof.
  intros Fp Hp. destruct (Qlt_le_dec p (1 # 2)) as [Hs|Hs].
  - set (z := rhe ((1 - p) * two 53)). pose proof (rhe_spec ((1 - p) * two 53)) as [R _]. fold z in R.
    assert (T : two 53 == inject_Z (2 ^ 53)) by (apply two_Z; lia).
    assert (Hz : (0 <= z <= 2 ^ 53)%Z).
    { split.
      - rewrite <- (rhe_Z 0). apply rhe_mono. rewrite T. change (inject_Z 0) with 0. apply Qmult_le_0_compat; [lra|vm_compute; discriminate].
      - rewrite <- (rhe_Z (2 ^ 53)). apply rhe_mono. rewrite T. rewrite <- (Qmult_1_l (inject_Z (2 ^ 53))) at 2. apply Qmult_le_compat_r; [lra|vm_compute; discriminate]. }
    assert (B : Qabs (r53 (1 - p) - (1 - p)) <= two (-54)).
    { apply Qle_trans with (Qabs (inject_Z z * two (-53) - (1 - p))).
      - apply rnd_best; [lia|]. apply fl_le; lia.
      - setoid_replace (inject_Z z * two (-53) - (1 - p)) with (- ((1 - p) * two 53 - inject_Z z) * two (-53)).
        2:{ assert (E : two 53 * two (-53) == 1) by reflexivity. setoid_replace (- ((1 - p) * two 53 - inject_Z z) * two (-53)) with (inject_Z z * two (-53) - (1 - p) * (two 53 * two (-53))) by ring. rewrite E. ring. }
        rewrite Qabs_scale by apply two_pos. rewrite Qabs_opp. setoid_replace (two (-54)) with ((1 # 2) * two (-53)) by reflexivity. apply Qmult_le_compat_r; [exact R|]. apply Qlt_le_weak, two_pos. }
    apply Qabs_Qle_condition in B. apply Qle_antisym.
    + apply Qle_trans with (r53 (1 + two (-54))); [apply r53_mono; lra|vm_compute; discriminate].
    + apply Qle_trans with (r53 (1 - two (-54))); [vm_compute; discriminate|apply r53_mono; lra].
  - assert (E : r53 (1 - p) + p == 1) by (rewrite (sterbenz 1 p fl_1 Fp); lra). now apply r53_is1.
Qed.
Lemma grid_1_low g : (g <= 0)%Z -> grid g 1.
Proof. intro H. apply (grid_coarse g 0); [exact H|]. exists 1%Z. reflexivity. Qed.
Lemma round_trip_big p : fl 53 p -> 1 <= p -> p <= two 53 -> r53 (r53 (1 - p) + p) == 1.
Proof.
  intros Fp H1 H2. assert (E : r53 (1 - p) == 1 - p).
  { destruct (Qlt_le_dec p (two 53)) as [Hl|Hl].
    - assert (N : ~ p == 0) by lra. pose proof (ilog_spec p N) as [L1 L2]. rewrite Qabs_pos in L1, L2 by lra. pose proof (fl_ulp p Fp N) as G.
      assert (I : (ilog p < 53)%Z) by (apply two_lt_inv; lra). apply (r53_grid (ilog p - 52)); [apply grid_minus; [apply grid_1_low; lia|exact G]|].
      replace (53 + (ilog p - 52))%Z with (ilog p + 1)%Z by lia. rewrite Qabs_neg by lra. lra.
    - assert (E : p == two 53) by lra. apply (r53_grid 0); [|rewrite Qabs_neg by lra; change (53 + 0)%Z with 53%Z; lra]. apply grid_minus; [apply grid_1_low; lia|]. apply (grid_comp 0 (two 53)); [now symmetry|]. exists (2 ^ 53)%Z. reflexivity. }
  assert (E2 : r53 (1 - p) + p == 1) by (rewrite E; ring). now apply r53_is1.
Qed.

(** ** Running sums *)
Lemma cumf_length a l : length (cumsum_from_f a l) = length l.
Proof. revert a. induction l as [|x l IH]; intro a; cbn; [reflexivity|now rewrite IH]. Qed.
Lemma cumf_within l : forall n a x k, 0 <= x -> within u53 n a x -> (forall y, In y l -> 0 <= y) -> (k < length l)%nat ->
  0 <= x + qsum (firstn (S k) l) /\ within u53 (n + S k) (nth k (cumsum_from_f a l) 0) (x + qsum (firstn (S k) l)).
Proof.
  induction l as [|y l IH]; intros n a x k Hx W Hl Hk; [cbn in Hk; lia|]. assert (Hy : 0 <= y) by (apply Hl; now left).
  assert (W1 : within u53 (S n) (r53 (a + y)) (x + y)) by (apply within_sum; assumption).
  destruct k as [|k].
  - cbn [cumsum_from_f nth firstn]. assert (E : x + qsum [y] == x + y) by (unfold qsum; cbn; ring). split; [lra|]. replace (n + 1)%nat with (S n) by lia. eapply within_comp; [reflexivity|symmetry; exact E|exact W1].
  - cbn [cumsum_from_f nth length] in *. destruct (IH (S n) (r53 (a + y)) (x + y) k ltac:(lra) W1 ltac:(intros; apply Hl; now right) ltac:(lia)) as [P Q1].
    assert (E : x + qsum (firstn (S (S k)) (y :: l)) == x + y + qsum (firstn (S k) l)) by (cbn [firstn]; rewrite qsum_cons; ring).
    split; [lra|]. replace (n + S (S k))%nat with (S n + S k)%nat by lia. eapply within_comp; [reflexivity|symmetry; exact E|exact Q1].
Qed.
Lemma cumf_mono l : forall a, fl 53 a -> (forall y, In y l -> 0 <= y) -> forall i j, (i <= j < length l)%nat ->
  a <= nth i (cumsum_from_f a l) 0 /\ nth i (cumsum_from_f a l) 0 <= nth j (cumsum_from_f a l) 0.
Proof.
  induction l as [|y l IH]; intros a Fa Hl i j Hij; [cbn in Hij; lia|]. assert (Hy : 0 <= y) by (apply Hl; now left). assert (A : a <= r53 (a + y)) by (apply rnd_ge; [lia|exact Fa|lra]).
  assert (R : forall i j, (i <= j < length l)%nat -> r53 (a + y) <= nth i (cumsum_from_f (r53 (a + y)) l) 0 /\ nth i (cumsum_from_f (r53 (a + y)) l) 0 <= nth j (cumsum_from_f (r53 (a + y)) l) 0)
    by (apply IH; [apply r53_fl|intros; apply Hl; now right]). cbn [length] in Hij.
  destruct i as [|i], j as [|j]; cbn [cumsum_from_f nth]; try lia.
  - lra.
  - split; [exact A|]. apply (R j j). lia.
  - destruct (R i j ltac:(lia)). lra.
Qed.
Lemma cumf_fl l : forall a k, (k < length l)%nat -> fl 53 (nth k (cumsum_from_f a l) 0).
Proof. induction l as [|y l IH]; intros a k Hk; [cbn in Hk; lia|]. destruct k; cbn [cumsum_from_f nth]; [apply r53_fl|]. apply IH. cbn in Hk. lia. Qed.
Lemma rev_last (l : list Q) : l <> [] -> exists r, rev l = nth (length l - 1) l 0 :: r.
Proof.
  intro H. destruct (exists_last H) as (m & x & ->). rewrite rev_app_distr, app_length. cbn. exists (rev m). rewrite app_nth2 by lia. replace (length m + 1 - 1 - length m)%nat with 0%nat by lia. reflexivity.
Qed.

Section DecayF.
  Variables (u : list Q) (lw : Q).
  Hypothesis Hu : forall x, In x u -> 0 <= x.
  Hypothesis HT : 0 < qsum u.
  Hypothesis Flw : fl 53 lw.
  Hypothesis Hlw : -1 < lw <= 1.
  Let n := length u.
  Let cum := cumsum_f u.
  Let c := fun k => nth k cum 0.
  Let tot := c (n - 1).

  Lemma n_pos : (0 < n)%nat.
  Proof. unfold n. destruct u; [cbn in HT; lra|cbn; lia]. Qed.
  Lemma cum_len : length cum = n.
  Proof. apply cumf_length. Qed.
  Lemma c_within k : (k < n)%nat -> 0 <= qsum (firstn (S k) u) /\ within u53 n (c k) (qsum (firstn (S k) u)).
  Proof.
    intro Hk. destruct (cumf_within u 0 0 0 k ltac:(lra) (within_0 u53 0) Hu Hk) as [P W]. assert (E : 0 + qsum (firstn (S k) u) == qsum (firstn (S k) u)) by ring.
    split; [lra|]. apply (within_le u53 u53_bounds (0 + S k)); [fold n in Hk; lia|lra|]. eapply within_comp; [reflexivity|exact E|exact W].
  Qed.
  Lemma c_mono i j : (i <= j < n)%nat -> 0 <= c i /\ c i <= c j.
  Proof. intro H. apply (cumf_mono u 0); [apply fl_0; lia|exact Hu|exact H]. Qed.
  Lemma tot_within : within u53 n tot (qsum u).
  Proof. pose proof n_pos. destruct (c_within (n - 1) ltac:(lia)) as [_ W]. replace (S (n - 1)) with n in W by lia. assert (FA : firstn n u = u) by apply firstn_all. rewrite FA in W. exact W. Qed.
  Lemma tot_pos : 0 < tot.
  Proof. exact (within_pos _ _ _ HT tot_within). Qed.
  Lemma tot_fl : fl 53 tot.
  Proof. apply cumf_fl. pose proof n_pos. unfold n in *. lia. Qed.

  Let slope := decay_slope_f lw tot.
  Let p := r53 (slope * tot).

  (** 1 + lw in float64 when lw is negative. *)
  Lemma a_low : lw < 0 -> two (-53) <= r53 (lw + 1) /\ r53 (lw + 1) <= 1 /\ (r53 (lw + 1) == two (-53) \/ two (-52) <= r53 (lw + 1)).
  Proof.
    intro Hn. assert (A1 : r53 (lw + 1) <= 1) by (apply rnd_le; [lia|exact fl_1|lra]).
    destruct (Qlt_le_dec (- (1 # 2)) lw) as [Hh|Hh].
    - assert (A2 : 1 # 2 <= r53 (lw + 1)) by (apply rnd_ge; [lia| |lra]; exists 1%Z, (-1)%Z; split; [vm_compute; reflexivity|reflexivity]).
      assert (two (-52) <= 1 # 2) by (vm_compute; discriminate). assert (two (-53) <= 1 # 2) by (vm_compute; discriminate). split; [lra|]. split; [lra|]. right. lra.
    - assert (E : r53 (lw + 1) == lw + 1).
      { pose proof (sterbenz 1 (- lw) fl_1 (fl_opp 53 lw Flw) ltac:(lra) ltac:(lra) ltac:(lra) ltac:(lra)) as S1. unfold r53 in *. rewrite (rnd_comp 53 (lw + 1) (1 - - lw)) by ring. rewrite S1. ring. }
      assert (N : ~ lw == 0) by lra. assert (IL : ilog lw = (-1)%Z).
      { apply ilog_unique. rewrite Qabs_neg by lra. change (two (-1)) with (1 # 2). change (-1 + 1)%Z with 0%Z. rewrite two_0. lra. }
      pose proof (fl_ulp lw Flw N) as G. rewrite IL in G. change (-1 - 52)%Z with (-53)%Z in G. destruct G as [z G]. fold (two (-53)) in G.
      assert (E2 : lw + 1 == inject_Z (z + 2 ^ 53) * two (-53)). { rewrite G, inject_Z_plus. assert (X : inject_Z (2 ^ 53) * two (-53) == 1) by reflexivity. setoid_replace ((inject_Z z + inject_Z (2 ^ 53)) * two (-53)) with (inject_Z z * two (-53) + inject_Z (2 ^ 53) * two (-53)) by ring. rewrite X. reflexivity. }
      set (k := (z + 2 ^ 53)%Z) in *. assert (K : (0 < k)%Z).
      { apply Z.lt_nge. intro X. assert (inject_Z k * two (-53) <= 0); [|lra]. assert (Y : inject_Z k <= 0) by (change 0 with (inject_Z 0); now rewrite <- Zle_Qle). pose proof (two_pos (-53)). nra. }
      pose proof (two_pos (-53)) as T. assert (K1 : 1 <= inject_Z k) by (change 1 with (inject_Z 1); rewrite <- Zle_Qle; lia).
      assert (G1 : two (-53) <= inject_Z k * two (-53)) by (rewrite <- (Qmult_1_l (two (-53))) at 1; apply Qmult_le_compat_r; lra).
      split; [rewrite E, E2; exact G1|]. split; [exact A1|]. destruct (Z.eq_dec k 1) as [->|Hk]; [left; rewrite E, E2; ring|right].
      assert (K2 : 2 <= inject_Z k) by (change 2 with (inject_Z 2); rewrite <- Zle_Qle; lia). rewrite E, E2. setoid_replace (two (-52)) with (2 * two (-53)) by reflexivity. apply Qmult_le_compat_r; lra.
  Qed.
  Lemma d_pos : lw < 0 -> 0 < r53 (r53 (lw + 1) * tot).
  Proof. intro H. destruct (a_low H) as (A & _). pose proof (two_pos (-53)). pose proof tot_pos. apply r53_pos_iff. apply Qmult_lt_0_compat; lra. Qed.
  Lemma slope_nonneg : 0 <= slope.
  Proof.
    unfold slope, decay_slope_f. pose proof tot_pos. destruct (Qleb_spec 0 lw).
    - apply r53_nonneg. apply Qle_shift_div_l; [assumption|]. assert (0 <= r53 (1 - lw)) by (apply r53_nonneg; lra). lra.
    - pose proof (d_pos ltac:(assumption)). apply r53_nonneg. apply Qle_shift_div_l; lra.
  Qed.
  Lemma p_range_nonneg : 0 <= lw -> 0 <= p <= 1.
  Proof.
    intro H. unfold p, slope, decay_slope_f. destruct (Qleb_spec 0 lw); [|lra]. apply back_le_1; [exact tot_pos|]. split; [apply r53_nonneg; lra|apply rnd_le; [lia|exact fl_1|lra]].
  Qed.
  Lemma p_range_neg : lw < 0 -> 0 <= p <= two 53.
  Proof.
    intro H. pose proof tot_pos as TP. pose proof (d_pos H) as DP. pose proof slope_nonneg as SN. split; [apply r53_nonneg, Qmult_le_0_compat; lra|].
    destruct (a_low H) as (A & A1 & A2). unfold p, slope, decay_slope_f. destruct (Qleb_spec 0 lw); [lra|]. set (a := r53 (lw + 1)) in *.
    pose proof u53_bounds as U. assert (I0 : 0 <= 1 / r53 (a * tot)) by (apply Qle_shift_div_l; lra). pose proof (r53_up _ I0) as S1.
    assert (F53 : fl 53 (two 53)) by (exists 1%Z, 53%Z; split; [vm_compute; reflexivity|unfold two; ring]).
    destruct A2 as [A2|A2].
    - assert (D : r53 (a * tot) == tot * two (-53)).
      { unfold r53. rewrite (rnd_comp 53 (a * tot) (tot * two (-53))) by (rewrite A2; ring). rewrite rnd_two. rewrite rnd_exact; [reflexivity|lia|exact tot_fl]. }
      assert (E : r53 (1 / r53 (a * tot)) * tot <= (1 + u53) * two 53).
      { apply Qle_trans with ((1 + u53) * (1 / r53 (a * tot)) * tot); [apply Qmult_le_compat_r; lra|]. rewrite D. assert (X : two 53 * two (-53) == 1) by reflexivity. pose proof (two_pos (-53)).
        setoid_replace ((1 + u53) * (1 / (tot * two (-53))) * tot) with ((1 + u53) * (1 / two (-53))) by (field; split; lra). apply Qle_lteq. right. setoid_replace (1 / two (-53)) with (two 53) by reflexivity. reflexivity. }
      apply Qle_trans with (r53 ((1 + u53) * two 53)); [apply r53_mono, E|]. unfold r53. rewrite rnd_two. pose proof (r53_1u (1 + u53) ltac:(lra)) as R. unfold r53 in R. pose proof (two_pos 53). nra.
    - apply rnd_le; [lia|exact F53|]. assert (AP : 0 < a) by (pose proof (two_pos (-52)); lra). assert (AT : 0 < a * tot) by (apply Qmult_lt_0_compat; assumption). pose proof (r53_down (a * tot) ltac:(lra)) as D.
      assert (U2 : u53 <= 1 # 1000) by (vm_compute; discriminate).
      apply Qle_trans with ((1 + u53) * (1 / r53 (a * tot)) * tot); [apply Qmult_le_compat_r; lra|].
      assert (I1 : 1 / r53 (a * tot) <= 1 / ((1 - u53) * (a * tot))).
      { apply Qle_shift_div_l; [nra|]. apply Qle_trans with (1 / r53 (a * tot) * r53 (a * tot)); [rewrite !(Qmult_comm (1 / r53 (a * tot))); apply Qmult_le_compat_r; assumption|]. apply Qle_lteq. right. field. lra. }
      apply Qle_trans with ((1 + u53) * (1 / ((1 - u53) * (a * tot))) * tot); [apply Qmult_le_compat_r; [|lra]; rewrite !(Qmult_comm (1 + u53)); apply Qmult_le_compat_r; lra|].
      setoid_replace ((1 + u53) * (1 / ((1 - u53) * (a * tot))) * tot) with ((1 + u53) / ((1 - u53) * a)) by (field; repeat split; lra).
      apply Qle_shift_div_r; [nra|]. assert (X : two 53 * two (-52) == 2) by reflexivity. pose proof (two_pos 53) as T53. assert (Y : two 53 * two (-52) <= two 53 * a) by (rewrite !(Qmult_comm (two 53)); apply Qmult_le_compat_r; lra).
      set (b := two 53 * a) in *. setoid_replace (two 53 * ((1 - u53) * a)) with ((1 - u53) * b) by (unfold b; ring). nra.
  Qed.
  Let w := fun k => r53 (r53 (1 - p) + r53 (slope * c k)).
  Lemma newest : w (n - 1) == 1.
  Proof.
    unfold w. fold tot. fold p. assert (F : fl 53 p) by apply r53_fl. destruct (Qlt_le_dec p 1) as [H|H].
    - apply round_trip_small; [exact F|]. assert (0 <= p); [|lra]. apply r53_nonneg, Qmult_le_0_compat; [exact slope_nonneg|]. pose proof tot_pos. lra.
    - apply round_trip_big; [exact F|exact H|]. destruct (Qlt_le_dec lw 0) as [L|L]; [now apply p_range_neg|]. pose proof (p_range_nonneg L). assert (1 <= two 53) by (vm_compute; discriminate). lra.
  Qed.
  Lemma w_mono i j : (i <= j < n)%nat -> w i <= w j.
  Proof.
    intro H. destruct (c_mono i j H) as [_ C]. apply r53_mono. apply Qplus_le_r. apply r53_mono. rewrite !(Qmult_comm slope). apply Qmult_le_compat_r; [exact C|exact slope_nonneg].
  Qed.
  Lemma w_le1 k : (k < n)%nat -> w k <= 1.
  Proof. intro H. rewrite <- newest. apply w_mono. lia. Qed.
  Lemma w_nonneg k : (k < n)%nat -> 0 <= lw -> 0 <= w k.
  Proof.
    intros H L. destruct (p_range_nonneg L) as [_ P]. destruct (c_mono k k ltac:(lia)) as [C _]. pose proof slope_nonneg. apply r53_nonneg. assert (0 <= r53 (1 - p)) by (apply r53_nonneg; lra).
    assert (0 <= r53 (slope * c k)) by (apply r53_nonneg, Qmult_le_0_compat; assumption). lra.
  Qed.
  Lemma w_const k : (k < n)%nat -> lw == 1 -> w k == 1.
  Proof.
    intros Hk E. unfold w. assert (S0 : slope == 0).
    { unfold slope, decay_slope_f. destruct (Qleb_spec 0 lw); [|lra]. assert (E1 : r53 (1 - lw) == 0) by (apply r53_is0; lra). apply r53_is0. rewrite E1. unfold Qdiv. ring. }
    assert (P0 : p == 0) by (apply r53_is0; rewrite S0; ring).
    assert (X : r53 (slope * c k) == 0) by (apply r53_is0; rewrite S0; ring).
    assert (Y : r53 (1 - p) == 1) by (apply r53_is1; rewrite P0; ring).
    apply r53_is1. rewrite X, Y. ring.
  Qed.

  Definition decay_span : Q := if Qleb 0 lw then 1 - lw else 1 / (1 + lw).
  Lemma span_nonneg : 0 <= decay_span.
  Proof. unfold decay_span. destruct (Qleb_spec 0 lw); [lra|]. apply Qle_shift_div_l; lra. Qed.
  Lemma slope_within : within u53 (2 * n + 5) slope (decay_span / qsum u).
  Proof.
    unfold slope, decay_slope_f, decay_span. pose proof tot_within as TW. destruct (Qleb_spec 0 lw).
    - apply (within_le u53 u53_bounds (S (1 + 2 * n))); [lia|apply Qle_shift_div_l; lra|]. apply within_div_r; [lra|exact HT| |exact TW]. apply within_r53; [lra|]. apply within_self; [exact u53_bounds|lra].
    - apply (within_comp u53 _ (r53 (1 / r53 (r53 (lw + 1) * tot))) (1 / ((lw + 1) * qsum u))); [reflexivity|field; repeat split; lra|].
      assert (0 < (lw + 1) * qsum u) by (apply Qmult_lt_0_compat; lra).
      replace (2 * n + 5)%nat with (S (0 + 2 * (S (1 + n))))%nat by lia. apply within_div_r; [lra|assumption|apply within_self; [exact u53_bounds|lra]|].
      apply within_mult_r; [lra|lra| |exact TW]. apply within_r53; [lra|]. apply within_self; [exact u53_bounds|lra].
  Qed.
  Lemma part_near k : (k < n)%nat -> near (3 * n + 6) (r53 (slope * c k)) (decay_span * share u k) decay_span.
  Proof.
    intro Hk. destruct (c_within k Hk) as [C1 C2]. pose proof span_nonneg as SP. assert (SQ : 0 <= decay_span / qsum u) by (apply Qle_shift_div_l; lra).
    assert (SH : 0 <= share u k <= 1).
    { unfold share. split; [apply Qle_shift_div_l; lra|]. apply Qle_shift_div_r; [exact HT|]. rewrite Qmult_1_l, (sum_split u (S k)). assert (0 <= qsum (skipn (S k) u)); [|lra]. apply qsum_nonneg. intros x Hx. apply Hu. rewrite <- (firstn_skipn (S k) u). apply in_or_app. now right. }
    assert (0 <= decay_span * share u k) by (apply Qmult_le_0_compat; lra). apply (near_le (3 * n + 6) _ _ _ (decay_span * share u k)); [lia|nra|]. apply near_within; [assumption|].
    apply (within_comp u53 _ (r53 (slope * c k)) (decay_span / qsum u * qsum (firstn (S k) u))); [reflexivity|unfold share; field; lra|].
    replace (3 * n + 6)%nat with (S (2 * n + 5 + n))%nat by lia. apply within_mult_r; [exact SQ|exact C1|exact slope_within|exact C2].
  Qed.
  Lemma share_newest : share u (n - 1) == 1.
  Proof. unfold share. pose proof n_pos. replace (S (n - 1)) with n by lia. unfold n. rewrite firstn_all. field. lra. Qed.
  Lemma w_near k : (k < n)%nat -> near (3 * n + 8) (w k) (1 - decay_span + decay_span * share u k) (1 + 2 * decay_span).
  Proof.
    intro Hk. pose proof n_pos as NP. pose proof (part_near (n - 1) ltac:(lia)) as NL. fold tot p in NL. pose proof (part_near k Hk) as NK. pose proof span_nonneg as SP.
    unfold w. apply (near_comp (3 * n + 8) (r53 (r53 (1 - p) + r53 (slope * c k))) _ (1 - decay_span * share u (n - 1) + decay_span * share u k) _ (1 + decay_span + decay_span)); [reflexivity|rewrite share_newest; ring|ring|].
    replace (3 * n + 8)%nat with (S (3 * n + 7)) by lia. apply near_rnd. apply near_plus; [|apply (near_le (3 * n + 6) _ _ _ decay_span); [lia|lra|exact NK]].
    replace (3 * n + 7)%nat with (S (3 * n + 6)) by lia. apply near_rnd. apply near_minus; [|exact NL]. apply near_exact. rewrite Qabs_pos; lra.
  Qed.
  Lemma time_decay_f_value : exists ws, time_decay_f u lw = Ok ws /\ length ws = n /\ forall k, (k < n)%nat -> nth k ws 0 = if Qltb lw 0 then pmax (w k) 0 else w k.
  Proof.
    unfold time_decay_f. fold cum. destruct (Qleb_spec (-1) lw); [|lra]. destruct (Qleb_spec lw 1); [|lra]. cbn [andb negb].
    assert (NE : cum <> []) by (intro X; pose proof cum_len as L; rewrite X in L; pose proof n_pos; cbn in L; lia).
    destruct (rev_last cum NE) as [r Er]. rewrite Er, cum_len. fold (c (n - 1)%nat) tot. pose proof tot_pos as TP. destruct (Qeqb_spec tot 0) as [X|X]; [lra|].
    replace (negb (Qleb 0 lw) && Qeqb (r53 (r53 (lw + 1) * tot)) 0)%bool with false.
    2:{ destruct (Qleb_spec 0 lw) as [Y|Y]; [reflexivity|]. cbn [negb andb]. pose proof (d_pos Y). destruct (Qeqb_spec (r53 (r53 (lw + 1) * tot)) 0); [lra|reflexivity]. }
    fold slope p. eexists. split; [reflexivity|]. destruct (Qltb_spec lw 0).
    - split; [now rewrite !map_length, cum_len|]. intros k Hk. rewrite map_map. rewrite (nth_indep _ 0 ((fun x => pmax (r53 (r53 (1 - p) + r53 (slope * x))) 0) 0)) by (rewrite map_length, cum_len; exact Hk). rewrite (map_nth (fun x => pmax (r53 (r53 (1 - p) + r53 (slope * x))) 0)). reflexivity.
    - split; [now rewrite map_length, cum_len|]. intros k Hk. rewrite (nth_indep _ 0 ((fun x => r53 (r53 (1 - p) + r53 (slope * x))) 0)) by (rewrite map_length, cum_len; exact Hk). rewrite (map_nth (fun x => r53 (r53 (1 - p) + r53 (slope * x)))). reflexivity.
  Qed.
  Lemma decay_f_thm : exists ws wsf, time_decay u lw = Ok ws /\ time_decay_f u lw = Ok wsf /\ length wsf = n /\ nth (n - 1) wsf 0 == 1 /\
    (forall i j, (i <= j < n)%nat -> 0 <= nth i wsf 0 /\ nth i wsf 0 <= nth j wsf 0 /\ nth j wsf 0 <= 1) /\
    (lw == 1 -> forall k, (k < n)%nat -> nth k wsf 0 == 1) /\
    (forall k, (k < n)%nat -> Qabs (nth k wsf 0 - nth k ws 0) <= ee (3 * n + 8) * (1 + 2 * decay_span)).
  Proof.
    assert (HO : exists ws, time_decay u lw = Ok ws).
    { assert (NE : u <> []) by (intro X; rewrite X in HT; cbn in HT; lra). destruct (td_raises u lw NE) as (R1 & R2 & R3). destruct (time_decay u lw) as [ws|e]; [now exists ws|exfalso].
      destruct (R3 e eq_refl) as [Ee|Ee]; subst e; [destruct (proj1 R1 eq_refl) as [X|[X|X]]; lra|destruct (proj1 R2 eq_refl); lra]. }
    destruct HO as [ws EW]. destruct time_decay_f_value as (wsf & EF & LF & VF). exists ws, wsf. destruct (td_value u lw ws EW) as (_ & _ & _ & VW). pose proof n_pos as NP.
    split; [exact EW|]. split; [exact EF|]. split; [exact LF|]. split; [|split; [|split]].
    - rewrite VF by lia. pose proof newest as NW. destruct (Qltb_spec lw 0); [|exact NW]. unfold pmax. destruct (Qltb_spec (w (n - 1)) 0); [lra|exact NW].
    - intros i j Hij. rewrite !VF by lia. pose proof (w_mono i j Hij) as M. pose proof (w_le1 j ltac:(lia)) as L1. destruct (Qltb_spec lw 0) as [L|L].
      + unfold pmax. destruct (Qltb_spec (w i) 0), (Qltb_spec (w j) 0); lra.
      + pose proof (w_nonneg i ltac:(lia) L). lra.
    - intros E k Hk. rewrite VF by exact Hk. destruct (Qltb_spec lw 0); [lra|now apply w_const].
    - intros k Hk. rewrite VF by exact Hk. rewrite (VW k Hk). pose proof (w_near k Hk) as N. apply near_ee in N. destruct N as [_ N]. destruct (Qltb_spec lw 0) as [L|L], (Qleb_spec 0 lw) as [L2|L2]; try lra.
      + assert (SE : 1 - decay_span + decay_span * share u k == (share u k + lw) / (1 + lw)) by (unfold decay_span; destruct (Qleb_spec 0 lw); [lra|field; lra]).
        assert (PM : Qmax ((share u k + lw) / (1 + lw)) 0 == pmax ((share u k + lw) / (1 + lw)) 0).
        { unfold pmax. destruct (Qltb_spec ((share u k + lw) / (1 + lw)) 0); [apply Q.max_r|apply Q.max_l]; lra. }
        rewrite PM. apply pmax_near; [rewrite <- SE; exact N|]. change (Qabs (0 - 0)) with 0. pose proof (ee_nonneg (3 * n + 8)). pose proof span_nonneg. apply Qmult_le_0_compat; lra.
      + assert (SE : 1 - decay_span + decay_span * share u k == lw + (1 - lw) * share u k) by (unfold decay_span; destruct (Qleb_spec 0 lw); [ring|lra]). rewrite <- SE. exact N.
  Qed.
End DecayF.
