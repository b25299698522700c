(** P_profilef3.v -- proofs about volume profiles in float arithmetic: aggregation, buckets and shares. *)
From Verif Require Import Base M_logic M_bars M_footprint M_features M_volume M_float M_float11.
From Verif Require Import S_footprint S_features S_volume S_float S_profilef P_footprint P_weights P_features P_volume P_volume2 P_volume3.
From Verif Require Import P_float P_float5 P_float12 P_profilef P_profilef2.
Open Scope Q_scope.

(** ** float32 sums *)
Lemma within24_add n a x b y : 0 <= x -> 0 <= y -> within u24 n a x -> within u24 n b y -> within u24 (S n) (r24 (a + b)) (x + y).
Proof.
  intros Hx Hy A B. apply (within_rnd u24 u24_bounds n (a + b) (x + y)); [now apply within_plus|lra|apply r24_err].
Qed.
Lemma within24_sum n a x q : 0 <= x -> 0 <= q -> within u24 n a x -> within u24 (S n) (r24 (a + q)) (x + q).
Proof. intros Hx Hq A. apply within24_add; auto. now apply within_self; [exact u24_bounds|]. Qed.
Lemma fsum24_from l : (forall q, In q l -> 0 <= q) -> forall m c x, 0 <= x -> within u24 m c x ->
  within u24 (m + length l) (fold_left (fun c x => r24 (c + x)) l c) (x + qsum l).
Proof.
  induction l as [|q l IH]; intros Hl m c x Hx W; cbn [fold_left length].
  - eapply (within_comp u24); [reflexivity| |rewrite Nat.add_0_r; exact W]. cbn. ring.
  - assert (0 <= q) by (apply Hl; now left). rewrite <- plus_n_Sm. change (S (m + length l)) with (S m + length l)%nat.
    eapply (within_comp u24); [reflexivity| |apply (IH (fun z Hz => Hl z (or_intror Hz)) (S m) (r24 (c + q)) (x + q)); [lra|now apply within24_sum]].
    rewrite qsum_cons. ring.
Qed.
Lemma fsum24_within l : (forall q, In q l -> 0 <= q) -> within u24 (length l) (fsum24 l) (qsum l).
Proof.
  intro H. eapply (within_comp u24); [reflexivity| |apply (fsum24_from l H 0 0 0 (Qle_refl _)); apply within_0]. ring.
Qed.
(** Lots of 2^g with a total of at most 2^24 lots: no float32 sum is rounded. *)
Lemma fsum24_exact g l : (forall q, In q l -> 0 <= q /\ grid g q) -> qsum l <= two (24 + g) -> fsum24 l == qsum l.
Proof.
  intros Hl Ht. unfold fsum24.
  assert (G : forall c x, c == x -> 0 <= x -> grid g x -> x + qsum l <= two (24 + g) ->
    fold_left (fun c x => r24 (c + x)) l c == x + qsum l).
  { clear Ht. induction l as [|q l IH]; intros c x E Hx Gx B; cbn [fold_left].
    - rewrite E. cbn. ring.
    - destruct (Hl q (or_introl eq_refl)) as [Q1 Q2]. rewrite qsum_cons in B |- *.
      assert (N : 0 <= qsum l) by (apply qsum_nonneg; intros z Hz; apply Hl; now right).
      assert (E2 : r24 (c + q) == x + q).
      { unfold r24. rewrite (rnd_comp 24 _ (x + q)) by (rewrite E; reflexivity). apply (grid_rnd 24 g); [lia|now apply grid_plus|lra]. }
      rewrite (IH (fun z Hz => Hl z (or_intror Hz)) _ (x + q) E2); [ring|lra|now apply grid_plus|lra]. }
  rewrite (G 0 0); [ring|reflexivity|apply Qle_refl|apply grid_0|lra].
Qed.

(** ** Threshold *)
Lemma thr_within vols pct : (forall q, In q vols -> 0 <= q) -> 0 <= pct ->
  (1 - u24) ^ Z.of_nat (length vols) * (1 - u53) ^ 2 * (pct / 100 * qsum vols) <= va_thr_f vols pct <=
  (1 + u24) ^ Z.of_nat (length vols) * (1 + u53) ^ 2 * (pct / 100 * qsum vols).
Proof.
  intros Hn Hp. unfold va_thr_f. pose proof (fsum24_within vols Hn) as W. pose proof (qsum_nonneg vols Hn) as N.
  pose proof (within_nonneg u24 u24_bounds _ _ _ W N) as NF. destruct W as [W1 W2].
  assert (P0 : 0 <= pct / 100) by (apply Qle_shift_div_l; lra).
  pose proof (r53_nonneg _ P0) as P1. pose proof (r53_err (pct / 100)) as R1. rewrite (Qabs_pos (pct / 100)) in R1 by auto.
  apply Qabs_Qle_condition in R1. set (r := r53 (pct / 100)) in *. set (p := pct / 100) in *.
  set (t := fsum24 vols) in *. assert (T0 : 0 <= t * r) by (now apply Qmult_le_0_compat).
  pose proof (r53_err (t * r)) as R2. rewrite (Qabs_pos (t * r)) in R2 by auto. apply Qabs_Qle_condition in R2.
  pose proof u53_bounds as [U1 U2].
  pose proof (pow_nonneg (1 - u24) (length vols) ltac:(pose proof u24_bounds; lra)) as A0.
  pose proof (pow_nonneg (1 + u24) (length vols) ltac:(pose proof u24_bounds; lra)) as B0.
  set (A := (1 - u24) ^ _) in *. set (B := (1 + u24) ^ _) in *. set (T := qsum vols) in *. set (f := r53 (t * r)) in *.
  assert (S1 : (1 - u53) ^ 2 == (1 - u53) * (1 - u53)) by (cbn; ring). assert (S2 : (1 + u53) ^ 2 == (1 + u53) * (1 + u53)) by (cbn; ring).
  rewrite S1, S2. clearbody A B T f r t p. set (u := u53) in *. clearbody u.
  assert (L1 : (A * T) * (p * (1 - u)) <= t * r).
  { apply Qle_trans with (t * (p * (1 - u))).
    - apply Qmult_le_compat_r; [exact W1|]. apply Qmult_le_0_compat; lra.
    - rewrite !(Qmult_comm t). apply Qmult_le_compat_r; lra. }
  assert (L2 : t * r <= (B * T) * (p * (1 + u))).
  { apply Qle_trans with (t * (p * (1 + u))).
    - rewrite !(Qmult_comm t). apply Qmult_le_compat_r; lra.
    - apply Qmult_le_compat_r; [exact W2|]. apply Qmult_le_0_compat; lra. }
  split.
  - apply Qle_trans with ((A * T * (p * (1 - u))) * (1 - u)); [apply Qle_lteq; right; ring|].
    apply Qle_trans with (t * r * (1 - u)); [apply Qmult_le_compat_r; lra|lra].
  - apply Qle_trans with ((B * T * (p * (1 + u))) * (1 + u)); [|apply Qle_lteq; right; ring].
    apply Qle_trans with (t * r * (1 + u)); [lra|apply Qmult_le_compat_r; lra].
Qed.

(** ** Share above the POC *)
Lemma above_f_fold lv vols poc : (forall i, 0 <= nth i vols 0) -> forall is m c x, 0 <= x -> within u53 m c x ->
  within u53 (m + length is) (fold_left (fun acc i => if (poc <? nth i lv 0)%Z then r53 (acc + nth i vols 0) else acc) is c)
    (x + qsum (map (fun i => if (poc <? nth i lv 0)%Z then nth i vols 0 else 0) is)).
Proof.
  intro Hn. induction is as [|i is IH]; intros m c x Hx W; cbn [fold_left length map].
  - eapply (within_comp u53); [reflexivity| |rewrite Nat.add_0_r; exact W]. cbn. ring.
  - rewrite <- plus_n_Sm. change (S (m + length is)) with (S m + length is)%nat. specialize (Hn i). destruct (poc <? nth i lv 0)%Z.
    + eapply (within_comp u53); [reflexivity| |apply (IH (S m) _ (x + nth i vols 0)); [lra|now apply within_sum]]. rewrite qsum_cons. ring.
    + eapply (within_comp u53); [reflexivity| |apply (IH (S m) c x Hx); now apply within_S; [exact u53_bounds| |]]. rewrite qsum_cons. ring.
Qed.
Lemma share_f_spec lv vols poc : (forall x, In x vols -> 0 <= x) -> length vols = length lv ->
  let n := length vols in
  let A := vol_where (fun l => (poc <? l)%Z) lv vols in
  let s := pct_above_poc_f lv vols poc in
  0 <= s /\
  (1 - u53) ^ Z.of_nat (n + 1) * A <= s * ((1 + u24) ^ Z.of_nat n * qsum vols) /\
  s * ((1 - u24) ^ Z.of_nat n * qsum vols) <= (1 + u53) ^ Z.of_nat (n + 1) * A /\
  (qsum vols <= 0 -> s = 0).
Proof.
  intros Hn Hl n A s. assert (Hnn : forall i, 0 <= nth i vols 0).
  { intro i. destruct (Nat.lt_ge_cases i (length vols)) as [K|K]; [apply Hn, nth_In; auto|rewrite nth_overflow by auto; apply Qle_refl]. }
  pose proof (fsum24_within vols Hn) as W. fold n in W. pose proof (qsum_nonneg vols Hn) as N. destruct W as [W1 W2].
  assert (A0 : 0 <= A).
  { unfold A, vol_where. apply qsum_nonneg. intros x Hx. apply in_map_iff in Hx. destruct Hx as [i [<- _]]. destruct (_ <? _)%Z; [apply Hnn|apply Qle_refl]. }
  assert (AT : A <= qsum vols).
  { rewrite <- (vol_where_all (fun _ => true) lv vols) by auto. unfold A, vol_where. apply qsum_le. intros i Hi. pose proof (Hnn i). destruct (_ <? _)%Z; lra. }
  pose proof (above_f_fold lv vols poc Hnn (seq 0 (length lv)) 0 0 0 (Qle_refl _) (within_0 u53 0)) as V.
  rewrite seq_length, <- Hl in V. fold n in V. cbn [Nat.add] in V.
  assert (EA : 0 + qsum (map (fun i => if (poc <? nth i lv 0)%Z then nth i vols 0 else 0) (seq 0 (length lv))) == A) by (unfold A, vol_where; ring).
  rewrite <- Hl in EA. fold n in EA. apply (within_comp u53 _ _ _ _ _ (Qeq_refl _) EA) in V.
  set (ab := fold_left _ (seq 0 n) 0) in V.
  assert (PB : 0 < (1 - u53) ^ Z.of_nat n) by (apply pow_pos; vm_compute; reflexivity).
  assert (PC : 0 < (1 - u24) ^ Z.of_nat n) by (apply pow_pos; vm_compute; reflexivity).
  assert (PD : 0 < (1 + u53) ^ Z.of_nat n) by (apply pow_pos; vm_compute; reflexivity).
  assert (PE : 0 < (1 + u24) ^ Z.of_nat n) by (apply pow_pos; vm_compute; reflexivity).
  assert (X1 : (1 - u53) ^ Z.of_nat (n + 1) == (1 - u53) ^ Z.of_nat n * (1 - u53)) by (rewrite pow_add; reflexivity).
  assert (X2 : (1 + u53) ^ Z.of_nat (n + 1) == (1 + u53) ^ Z.of_nat n * (1 + u53)) by (rewrite pow_add; reflexivity).
  rewrite X1, X2. set (B := (1 - u53) ^ Z.of_nat n) in *. set (C := (1 - u24) ^ Z.of_nat n) in *.
  set (D := (1 + u53) ^ Z.of_nat n) in *. set (E := (1 + u24) ^ Z.of_nat n) in *.
  destruct V as [V1 V2]. fold B in V1. fold D in V2. pose proof u53_bounds as [U1 U2].
  unfold s, pct_above_poc_f. cbv zeta. rewrite <- Hl. fold n. fold ab. set (t := fsum24 vols) in *. set (T := qsum vols) in *.
  clearbody B C D E t T ab A. clear X1 X2 EA.
  destruct (Qleb_spec t 0) as [K|K].
  { assert (CT : 0 <= C * T) by (apply Qmult_le_0_compat; lra). assert (T0 : T == 0) by nra. assert (A1 : A == 0) by lra. rewrite A1, T0. repeat split; try lra. }
  assert (TP : 0 < T). { destruct (Qlt_le_dec 0 T) as [|Q]; [auto|]. exfalso. assert (T == 0) by lra. rewrite H in W2. lra. }
  destruct (Qleb_spec ab 0) as [K2|K2].
  { assert (BA : 0 <= B * A) by (apply Qmult_le_0_compat; lra). assert (A1 : A == 0) by nra. rewrite A1. repeat split; try lra. }
  assert (QP : 0 < ab / t) by (apply Qlt_shift_div_l; lra).
  pose proof (r53_nonneg (ab / t) ltac:(lra)) as SN. pose proof (r53_err (ab / t)) as R. rewrite (Qabs_pos (ab / t)) in R by lra. apply Qabs_Qle_condition in R.
  set (u := u53) in *. clearbody u. set (r := r53 (ab / t)) in *. set (q := ab / t) in *. assert (EQ : q * t == ab) by (unfold q; field; lra). clearbody r q.
  split; [exact SN|]. assert (H1 : q * (1 - u) <= r) by lra. assert (H2 : r <= q * (1 + u)) by lra.
  split; [|split; [|intro Q; lra]].
  - apply Qle_trans with (r * t); [|rewrite !(Qmult_comm r); apply Qmult_le_compat_r; lra].
    apply Qle_trans with (q * (1 - u) * t); [|apply Qmult_le_compat_r; lra].
    setoid_replace (q * (1 - u) * t) with (ab * (1 - u)) by (rewrite <- EQ; ring).
    setoid_replace (B * (1 - u) * A) with (B * A * (1 - u)) by ring. apply Qmult_le_compat_r; lra.
  - apply Qle_trans with (r * t); [rewrite !(Qmult_comm r); apply Qmult_le_compat_r; lra|].
    apply Qle_trans with (q * (1 + u) * t); [apply Qmult_le_compat_r; lra|].
    setoid_replace (q * (1 + u) * t) with (ab * (1 + u)) by (rewrite <- EQ; ring).
    setoid_replace (D * (1 + u) * A) with (D * A * (1 + u)) by ring. apply Qmult_le_compat_r; lra.
Qed.
