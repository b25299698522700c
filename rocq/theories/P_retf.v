(** P_retf.v -- errors of returns, burst ratio, Parkinson range and variance ratio in float64. *)
From Coq Require Import Qround Qpower Qfield.
From Verif Require Import Base M_logic M_bars M_features M_volat M_float M_float2 M_float7 M_float10 S_features S_float.
From Verif Require Import P_weights P_features P_features2 P_float P_float2 P_float9 P_float11 P_float12 P_float13 P_sumf P_volatf P_volatf2 P_ewmstf.
Open Scope Q_scope.

(* ---------------------------------------------------------------- ratios of float64 numbers *)
Lemma grid_gap g x y : grid g x -> grid g y -> x < y -> x + two g <= y.
Proof.
  intros [m Hm] [n Hn] L. pose proof (two_pos g) as P. unfold two in *. rewrite Hm, Hn in *. clear Hm Hn.
  assert (K : (m < n)%Z). { rewrite Zlt_Qlt. apply (Qmult_lt_r _ _ (2 ^ g)); assumption. }
  assert (K2 : inject_Z m + 1 <= inject_Z n) by (change 1 with (inject_Z 1); rewrite <- inject_Z_plus, <- Zle_Qle; lia).
  setoid_replace (inject_Z m * 2 ^ g + 2 ^ g) with ((inject_Z m + 1) * 2 ^ g) by ring. apply Qmult_le_compat_r; lra.
Qed.
Lemma two_split a b : two (a + b) == two a * two b.
Proof. apply two_plus. Qed.
(** Of two positive float64 numbers the larger one is larger by more than the unit roundoff. *)
Lemma fl_above a b : fl 53 a -> fl 53 b -> 0 < b -> b < a -> b * (1 + u53) < a.
Proof.
  intros Fa Fb Pb L. destruct (ilog_spec b ltac:(lra)) as [B1 B2]. rewrite Qabs_pos in B1, B2 by lra.
  assert (G : b + two (ilog b - 52) <= a).
  { apply grid_gap; [apply fl_ulp; [exact Fb|lra]| |exact L]. apply (grid_coarse _ (ilog a - 52)); [pose proof (ilog_mono b a Pb ltac:(lra)); lia|]. apply fl_ulp; [exact Fa|lra]. }
  assert (U : b * u53 < two (ilog b - 52)).
  { replace (ilog b - 52)%Z with (ilog b + 1 + (-53))%Z by lia. rewrite two_split. change (two (-53)) with u53. apply Qmult_lt_compat_r; [reflexivity|exact B2]. }
  lra.
Qed.
Lemma fl_below a b : fl 53 a -> fl 53 b -> 0 < a -> a < b -> a <= b * (1 - u53).
Proof.
  intros Fa Fb Pa L. assert (Pb : 0 < b) by lra. destruct (ilog_spec b ltac:(lra)) as [B1 B2]. rewrite Qabs_pos in B1, B2 by lra.
  set (k := ilog b) in *. assert (E53 : two (k - 53) == two k * u53) by (replace (k - 53)%Z with (k + (-53))%Z by lia; apply two_split).
  assert (E52 : two (k - 52) == two (k + 1) * u53) by (replace (k - 52)%Z with (k + 1 + (-53))%Z by lia; apply two_split).
  assert (U : 0 < u53 < 1) by (split; reflexivity). pose proof (two_pos k) as Pk. pose proof (fl_ulp b Fb ltac:(lra)) as Gb. fold k in Gb. pose proof (fl_ulp a Fa ltac:(lra)) as Ga.
  destruct (ilog_spec a ltac:(lra)) as [A1 A2]. rewrite Qabs_pos in A1, A2 by lra.
  destruct (Qlt_le_dec a (two k)) as [K|K].
  - assert (M : a <= two k * (1 - u53)).
    { assert (La : (ilog a <= k - 1)%Z). { assert (ilog a < k)%Z by (apply two_lt_inv; lra). lia. }
      destruct (Z.eq_dec (ilog a) (k - 1)) as [E|E].
      - rewrite E in Ga. assert (Gk : grid (k - 1 - 52) (two k)).
        { exists (2 ^ 53)%Z. rewrite <- two_Z by lia. fold (two (k - 1 - 52)). rewrite <- two_split. replace (53 + (k - 1 - 52))%Z with k by lia. reflexivity. }
        pose proof (grid_gap _ _ _ Ga Gk K) as G. replace (k - 1 - 52)%Z with (k - 53)%Z in G by lia. rewrite E53 in G. lra.
      - assert (a <= two (k - 1)) by (apply Qle_trans with (two (ilog a + 1)); [lra|apply two_le; lia]).
        assert (E1 : two k == 2 * two (k - 1)) by (rewrite <- two_S; replace (k - 1 + 1)%Z with k by lia; reflexivity).
        pose proof (two_pos (k - 1)). assert (u53 < 1 # 2) by reflexivity. set (u := u53) in *. clearbody u. nra. }
    apply Qle_trans with (two k * (1 - u53)); [exact M|]. apply Qmult_le_compat_r; lra.
  - assert (ilog a = k)%Z.
    { assert (ilog a < k + 1)%Z by (apply two_lt_inv; lra). assert (k < ilog a + 1)%Z by (apply two_lt_inv; lra). lia. }
    rewrite H in Ga. pose proof (grid_gap _ _ _ Ga Gb L) as G. rewrite E52 in G.
    assert (b * u53 <= two (k + 1) * u53) by (apply Qmult_le_compat_r; lra). lra.
Qed.
Lemma fl_1u : fl 53 (1 - u53).
Proof. exists (2 ^ 53 - 1)%Z, (-53)%Z. split; [reflexivity|vm_compute; reflexivity]. Qed.
Lemma fl_1uu : fl 53 (1 + 2 * u53).
Proof. exists (2 ^ 52 + 1)%Z, (-52)%Z. split; [reflexivity|vm_compute; reflexivity]. Qed.
(** The rounded quotient of two positive float64 numbers compares with 1 as they compare with each other. *)
Lemma quot_cmp a b : fl 53 a -> fl 53 b -> 0 < a -> 0 < b ->
  (1 < r53 (a / b) <-> b < a) /\ (r53 (a / b) < 1 <-> a < b) /\ (r53 (a / b) == 1 <-> a == b).
Proof.
  intros Fa Fb Pa Pb.
  assert (H1 : b < a -> 1 < r53 (a / b)).
  { intro L. pose proof (fl_above a b Fa Fb Pb L) as G. assert (X : 1 + u53 < a / b) by (apply Qlt_shift_div_l; lra).
    assert (L1 : 1 <= r53 (a / b)) by (apply rnd_ge; [lia|exact fl_1|pose proof u53_bounds; lra]).
    pose proof (rnd_best 53 (a / b) _ ltac:(lia) fl_1uu) as Bst. fold (r53 (a / b)) in Bst.
    destruct (Qlt_le_dec 1 (r53 (a / b))) as [K|K]; [exact K|]. exfalso.
    set (x := a / b) in *. set (r := r53 x) in *. assert (E : r == 1) by lra. assert (U : 0 < u53) by reflexivity. clearbody r x. set (u := u53) in *. clearbody u.
    rewrite (Qabs_neg (r - x)) in Bst by lra. destruct (Qlt_le_dec x (1 + 2 * u)) as [K2|K2]; [rewrite Qabs_pos in Bst by lra|rewrite Qabs_neg in Bst by lra]; lra. }
  assert (H2 : a < b -> r53 (a / b) < 1).
  { intro L. pose proof (fl_below a b Fa Fb Pa L) as G. assert (X : a / b <= 1 - u53) by (apply Qle_shift_div_r; [exact Pb|lra]).
    apply Qle_lt_trans with (1 - u53); [apply rnd_le; [lia|exact fl_1u|exact X]|reflexivity]. }
  assert (H3 : a == b -> r53 (a / b) == 1).
  { intro E. rewrite (r53_same (a / b) 1); [apply rnd_exact; [lia|exact fl_1]|]. rewrite E. field. lra. }
  assert (T := Q_dec a b). split; [|split]; (split; [intro K|auto]); destruct T as [[T|T]|T]; auto; exfalso;
    try (specialize (H1 T)); try (specialize (H2 T)); try (specialize (H3 T)); lra.
Qed.
Lemma quot_pos a b : 0 < a -> 0 < b -> 0 < a / b.
Proof. intros. apply Qlt_shift_div_l; lra. Qed.
(** Simple return: sign of the exact one; one rounding of the price ratio between 1/2 and 2. *)
Lemma ret_f_spec a b : fl 53 a -> fl 53 b -> 0 < a -> 0 < b -> let v := r53 (r53 (a / b) - 1) in let x := a / b - 1 in
  (0 < v <-> 0 < x) /\ (v == 0 <-> x == 0) /\ near 2 v x (a / b + 1) /\ (1 # 2 <= a / b -> a / b <= 2 -> Qabs (v - x) <= u53 * (a / b)).
Proof.
  intros Fa Fb Pa Pb v x. pose proof (quot_pos a b Pa Pb) as Pq. destruct (quot_cmp a b Fa Fb Pa Pb) as (C1 & C2 & C3).
  assert (D1 : b < a <-> 0 < x). { unfold x. split; intro K; [assert (1 < a / b) by (apply Qlt_shift_div_l; lra); lra|]. assert (J : 1 < a / b) by lra. apply (Qmult_lt_compat_r _ _ b Pb) in J. assert (a / b * b == a) by (field; lra). lra. }
  assert (D3 : a == b <-> x == 0). { unfold x. split; intro K; [rewrite K; field; lra|]. assert (a / b * b == a) by (field; lra). assert (J : a / b == 1) by lra. rewrite J in H. lra. }
  set (q := r53 (a / b)) in *. assert (Fq : fl 53 q) by (apply rnd_fl; lia).
  assert (Wq : within u53 1 q (a / b)) by (apply within_r53; [lra|now apply within_self, Qlt_le_weak]).
  split; [|split; [|split]].
  - unfold v. rewrite r53_pos_iff. rewrite <- D1, <- C1. split; intro; lra.
  - unfold v. rewrite <- D3, <- C3. split; intro K.
    + destruct (Qlt_le_dec 0 (q - 1)) as [J|J]; [pose proof (r53_pos _ J); lra|]. destruct (Qlt_le_dec (q - 1) 0) as [J2|J2]; [|lra].
      assert (P : 0 < r53 (- (q - 1))) by (apply r53_pos; lra). unfold r53 in P, K. rewrite rnd_opp in P. lra.
    + apply r53_zero. lra.
  - unfold v, x. apply near_rnd. apply near_minus; [|apply (near_exact 1 1 1); rewrite Qabs_pos; lra].
    apply near_within; [lra|exact Wq].
  - intros L1 L2.
    assert (Q1 : 1 # 2 <= q) by (apply rnd_ge; [lia|exists 1%Z, (-1)%Z; split; reflexivity|exact L1]).
    assert (Q2 : q <= 2) by (apply rnd_le; [lia|exists 2%Z, 0%Z; split; reflexivity|exact L2]).
    assert (E : v == q - 1) by (apply sterbenz; [exact Fq|exact fl_1|lra|lra|lra|lra]).
    rewrite E. unfold x. setoid_replace (q - 1 - (a / b - 1)) with (q - a / b) by ring.
    pose proof (r53_err (a / b)) as R. fold q in R. rewrite (Qabs_pos (a / b)) in R by lra. rewrite Qmult_comm. exact R.
Qed.
(** Two roundings for a difference over its base. *)
Lemma pct_f_near a b : ~ b == 0 -> near 2 (r53 (r53 (a - b) / b)) ((a - b) / b) (Qabs ((a - b) / b)).
Proof.
  intro Nb. apply near_rnd. destruct (Qlt_le_dec b 0) as [K|K].
  - pose proof (near_div 1 (r53 (a - b)) (a - b) (Qabs (a - b)) (- b) ltac:(lra) (near_rnd 0 _ _ _ (near_self (a - b)))) as N. apply near_opp in N.
    eapply near_comp; [| | |exact N]; [field; lra|field; lra|].
    unfold Qdiv. rewrite Qabs_Qmult, (Qabs_neg (/ b)); [field; lra|]. assert (0 < / - b) by (apply Qinv_lt_0_compat; lra). assert (E : / - b == - / b) by (field; lra). lra.
  - assert (Pb : 0 < b) by (destruct (Qlt_le_dec 0 b); [assumption|exfalso; apply Nb; lra]).
    pose proof (near_div 1 (r53 (a - b)) (a - b) (Qabs (a - b)) b Pb (near_rnd 0 _ _ _ (near_self (a - b)))) as N.
    eapply near_comp; [reflexivity|reflexivity| |exact N].
    unfold Qdiv. rewrite Qabs_Qmult, (Qabs_pos (/ b)); [reflexivity|]. apply Qlt_le_weak, Qinv_lt_0_compat. exact Pb.
Qed.

(* ---------------------------------------------------------------- the median *)
Lemma half_exact z : r53 (r53 z / 2) == r53 z / 2.
Proof.
  apply rnd_exact; [lia|]. destruct (rnd_fl 53 z ltac:(lia)) as (m & e & Hm & E). fold (r53 z) in E. exists m, (e - 1)%Z. split; [exact Hm|].
  rewrite E. replace (e - 1)%Z with (e + -1)%Z by lia. rewrite Qpower_plus by discriminate. change (2 ^ (-1)) with (1 # 2). field.
Qed.
Lemma median_f_signed l : near 1 (median_f l) (median l) (Qabs (median l)) /\ (0 < median_f l <-> 0 < median l).
Proof.
  unfold median_f, median. set (n := length l). destruct (Nat.odd n).
  - split; [apply near_exact; lra|reflexivity].
  - set (z := nth (n / 2 - 1) (qsort l) 0 + nth (n / 2) (qsort l) 0). split.
    + eapply near_comp; [symmetry; apply half_exact|reflexivity| |apply (near_div 1 (r53 z) z (Qabs z) 2 ltac:(lra)); apply near_rnd, near_self].
      unfold Qdiv. rewrite Qabs_Qmult. reflexivity.
    + rewrite half_exact. set (y := r53 z) in *. pose proof (r53_pos_iff z) as I0. fold y in I0. split; intro K.
      * assert (0 < y). { assert (E : y == y / 2 * 2) by field. rewrite E. apply Qmult_lt_0_compat; lra. } apply I0 in H. apply Qlt_shift_div_l; lra.
      * assert (0 < z). { assert (E : z == z / 2 * 2) by field. rewrite E. apply Qmult_lt_0_compat; lra. } apply I0 in H. apply Qlt_shift_div_l; lra.
Qed.
Lemma burst_near x l : 0 < median l -> near 3 (r53 (x / median_f l)) (x / median l) (Qabs (x / median l)).
Proof.
  intro Pm. destruct (median_f_signed l) as [N P]. assert (W : within u53 1 (median_f l) (median l)).
  { apply near_ee in N. destruct N as [_ N]. rewrite (Qabs_pos (median l)) in N by lra. assert (E1 : forall c, c ^ Z.of_nat 1 == c) by (intro c; rewrite pow_S; change (c ^ Z.of_nat 0) with 1; ring).
    assert (Ee : ee 1 == u53) by (rewrite ee_S, ee_0; ring). rewrite Ee in N. apply Qabs_Qle_condition in N. unfold within. rewrite !E1. split; lra. }
  apply near_rnd. eapply near_comp; [reflexivity|reflexivity| |exact (near_over 0 1 x x (Qabs x) _ _ Pm (near_self x) W)].
  unfold Qdiv. rewrite Qabs_Qmult, (Qabs_pos (/ median l)); [reflexivity|]. apply Qlt_le_weak, Qinv_lt_0_compat. exact Pm.
Qed.
