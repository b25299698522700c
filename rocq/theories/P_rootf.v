(** P_rootf.v -- squares of float64 results that end in a square root. *)
From Coq Require Import Qpower Qfield.
From Verif Require Import Base M_logic M_bars M_features M_volume M_volat M_float M_float2 M_float7 M_float8 S_logic S_features S_volat S_float S_sumf S_cstestf.
From Verif Require Import P_weights P_features P_features2 P_volat P_float P_float2 P_float7 P_float9 P_float11 P_float12 P_float13 P_sumf P_sizef P_cstestf.
Open Scope Q_scope.

Lemma sq_nonneg' x : 0 <= x * x.
Proof. nra. Qed.
Lemma abs_sq x : Qabs x * Qabs x == x * x.
Proof. rewrite <- Qabs_Qmult. apply Qabs_pos. nra. Qed.
Lemma r53_sq x : within u53 2 (r53 x * r53 x) (x * x).
Proof. eapply within_comp; [apply abs_sq|apply abs_sq|]. apply (within_sq 1 _ _ (Qabs_nonneg x)). apply within_abs. Qed.
Lemma root_pos sqrt x : sqrt_rounded sqrt -> 0 < x -> 0 < sqrt x.
Proof.
  intros H Hx. destruct (H x ltac:(lra)) as [A B]. pose proof (within_pos 2 _ _ Hx B) as P. destruct (Qlt_le_dec 0 (sqrt x)) as [K|K]; [exact K|]. assert (E : sqrt x == 0) by lra. rewrite E in P. lra.
Qed.
Lemma root_zero sqrt x : sqrt_rounded sqrt -> x == 0 -> sqrt x == 0.
Proof.
  intros H Hx. destruct (H x ltac:(lra)) as [A W]. set (s := sqrt x) in *. clearbody s. unfold within in W. destruct W as [_ W]. rewrite Hx, Qmult_0_r in W. nra.
Qed.
Lemma sq_div a b : 0 < b -> a / b * (a / b) == a * a / (b * b).
Proof. intro H. field. lra. Qed.
(** The square of a rounded quotient. *)
Lemma quotient_sq k a b v : 0 < b -> 0 < v -> within u53 k (b * b) v -> within u53 (2 + 2 * k) (r53 (a / b) * r53 (a / b)) (a * a / v).
Proof.
  intros Hb Hv W. apply (within_trans 2 (2 * k) _ (a / b * (a / b))).
  - apply Qle_shift_div_l; [exact Hv|]. rewrite Qmult_0_l. apply sq_nonneg'.
  - apply r53_sq.
  - eapply within_comp; [symmetry; now apply sq_div|reflexivity|]. apply (within_div 0 k); auto; [apply sq_nonneg'|apply within_self; [apply u53_bounds|apply sq_nonneg']].
Qed.
Lemma r53_nonneg x : 0 <= x -> 0 <= r53 x.
Proof. intro H. apply rnd_pos; [lia|exact H]. Qed.
Lemma r53_nonpos x : x <= 0 -> r53 x <= 0.
Proof. intro H. apply Qnot_lt_le. intro K. pose proof (proj1 (r53_pos_iff x) K). lra. Qed.
Lemma r53_sign x y : 0 <= x * y -> 0 <= r53 x * y.
Proof.
  intro H. destruct (Qlt_le_dec 0 x) as [K|K]; [pose proof (r53_nonneg x ltac:(lra)); assert (0 <= y) by (apply Qnot_lt_le; intro; nra); apply Qmult_le_0_compat; assumption|].
  destruct (Qlt_le_dec x 0) as [L|L]; [pose proof (r53_nonpos x ltac:(lra)); assert (y <= 0) by (apply Qnot_lt_le; intro; nra); nra|].
  assert (E : x == 0) by lra. rewrite (proj2 (r53_zero x) E). lra.
Qed.
Lemma quotient_sign a b y : 0 < b -> 0 <= a * y -> 0 <= r53 (a / b) * y.
Proof. intros Hb H. apply r53_sign. assert (E : a / b * y == a * y / b) by (field; lra). rewrite E. apply Qle_shift_div_l; [exact Hb|]. now rewrite Qmult_0_l. Qed.

(** The variance of the z-score against the distances from the rounded mean. *)
Lemma var_f_within l ddof : (ddof < Z.of_nat (length l))%Z ->
  within u53 (length l + 4) (var_f l ddof) (qsum (map (fun x => (x - mean_f l) * (x - mean_f l)) l) / inject_Z (Z.of_nat (length l) - ddof)).
Proof.
  intro H. unfold var_f. cbv zeta. set (m := mean_f l).
  assert (D : 0 < inject_Z (Z.of_nat (length l) - ddof)) by (rewrite <- (Zlt_Qlt 0); lia).
  assert (W : within u53 (3 + length l) (fsum (map (fun x => r53 (r53 (x - m) * r53 (x - m))) l)) (qsum (map (fun x => (x - m) * (x - m)) l))).
  { apply within_fsum53. intros x _. split; [apply sq_nonneg'|]. apply within_r53; [apply sq_nonneg'|]. apply r53_sq. }
  replace (length l + 4)%nat with (S (3 + length l)) by lia. apply within_quot; auto.
  apply qsum_nonneg. intros y Hy. apply in_map_iff in Hy. destruct Hy as (x & <- & _). apply sq_nonneg'.
Qed.
Lemma term_le l (f : Q -> Q) x : (forall y, 0 <= f y) -> In x l -> f x <= qsum (map f l).
Proof.
  intros H. induction l as [|y l IH]; intro K; [contradiction|]. rewrite map_cons, qsum_cons.
  assert (N : 0 <= qsum (map f l)) by (apply qsum_nonneg; intros z Hz; apply in_map_iff in Hz; destruct Hz as (w & <- & _); apply H).
  pose proof (H y). destruct K as [->|K]; [lra|]. specialize (IH K). lra.
Qed.
