(** P_float12.v -- proofs about RSI, stochastic %K and ADX in float64. *)
From Verif Require Import Base M_logic M_bars M_features M_volume M_float M_float2 M_float3 S_logic S_features S_float.
From Verif Require Import P_features P_float P_float2 P_float3 P_float7 P_float9.
Open Scope Q_scope.

(** ** Quotients of numbers known up to relative errors *)
Lemma pow_inv n : 1 <= (1 - u53) ^ Z.of_nat n * (1 + u53) ^ Z.of_nat (2 * n).
Proof.
  pose proof u53_bounds. assert (B : u53 <= 1 # 2) by (vm_compute; discriminate). induction n as [|n IH]; [vm_compute; discriminate|].
  replace (2 * S n)%nat with (S (S (2 * n))) by lia. rewrite !pow_S. pose proof (pow_nonneg (1 - u53) n ltac:(lra)). pose proof (pow_nonneg (1 + u53) (2 * n) ltac:(lra)).
  set (p := (1 - u53) ^ Z.of_nat n) in *. set (q := (1 + u53) ^ Z.of_nat (2 * n)) in *. clearbody p q.
  assert (C : 1 <= (1 - u53) * ((1 + u53) * (1 + u53))) by (set (u := u53) in *; clearbody u; nra).
  setoid_replace ((1 - u53) * p * ((1 + u53) * ((1 + u53) * q))) with ((1 - u53) * ((1 + u53) * (1 + u53)) * (p * q)) by ring.
  assert (0 <= p * q) by nra. nra.
Qed.
Lemma pow_inv_low n : (1 - u53) ^ Z.of_nat n * (1 + u53) ^ Z.of_nat n <= 1.
Proof.
  pose proof u53_bounds. induction n as [|n IH]; [vm_compute; discriminate|]. rewrite !pow_S.
  pose proof (pow_nonneg (1 - u53) n ltac:(lra)). pose proof (pow_nonneg (1 + u53) n ltac:(lra)).
  set (p := (1 - u53) ^ Z.of_nat n) in *. set (q := (1 + u53) ^ Z.of_nat n) in *. clearbody p q.
  setoid_replace ((1 - u53) * p * ((1 + u53) * q)) with ((1 - u53 * u53) * (p * q)) by ring. assert (0 <= p * q) by nra. assert (0 <= u53 * u53) by nra. nra.
Qed.
Lemma within_pos n a x : 0 < x -> within u53 n a x -> 0 < a.
Proof.
  intros Hx [A _]. assert (P : 0 < 1 - u53) by reflexivity. pose proof (pow_pos (1 - u53) n P). assert (0 < (1 - u53) ^ Z.of_nat n * x) by nra. lra.
Qed.
Lemma within_div n m a x b y : 0 <= x -> 0 < y -> within u53 n a x -> within u53 m b y -> within u53 (n + 2 * m) (a / b) (x / y).
Proof.
  intros Hx Hy Wa Wb. pose proof (within_pos m b y Hy Wb) as Hb. pose proof (within_nonneg u53 u53_bounds n a x Wa Hx) as Ha. destruct Wa as [A1 A2], Wb as [B1 B2].
  pose proof u53_bounds as U. unfold within. rewrite !pow_add.
  pose proof (pow_nonneg (1 - u53) n ltac:(lra)) as Pn. pose proof (pow_nonneg (1 + u53) n ltac:(lra)) as Qn.
  pose proof (pow_nonneg (1 - u53) m ltac:(lra)) as Pm. pose proof (pow_nonneg (1 + u53) m ltac:(lra)) as Qm.
  pose proof (pow_nonneg (1 + u53) (2 * m) ltac:(lra)) as Q2. pose proof (pow_nonneg (1 - u53) (2 * m) ltac:(lra)) as P2.
  pose proof (pow_inv m) as I1. pose proof (pow_inv_low m) as I2.
  assert (I3 : (1 - u53) ^ Z.of_nat (2 * m) <= (1 - u53) ^ Z.of_nat m).
  { replace (2 * m)%nat with (m + m)%nat by lia. rewrite pow_add. pose proof (pow_le1 (1 - u53) m ltac:(lra)). nra. }
  set (pn := (1 - u53) ^ Z.of_nat n) in *. set (qn_ := (1 + u53) ^ Z.of_nat n) in *. set (pm := (1 - u53) ^ Z.of_nat m) in *. set (qm := (1 + u53) ^ Z.of_nat m) in *.
  set (p2 := (1 - u53) ^ Z.of_nat (2 * m)) in *. set (q2 := (1 + u53) ^ Z.of_nat (2 * m)) in *. clearbody pn qn_ pm qm p2 q2. clear U.
  split.
  - apply Qle_shift_div_l; [exact Hb|]. apply (Qle_trans _ (pn * x)); [|exact A1].
    assert (K : p2 * b <= y).
    { apply (Qle_trans _ (pm * b)); [apply Qmult_le_compat_r; lra|]. apply (Qle_trans _ (pm * (qm * y))); [rewrite !(Qmult_comm pm); apply Qmult_le_compat_r; lra|].
      setoid_replace (pm * (qm * y)) with (pm * qm * y) by ring. rewrite <- (Qmult_1_l y) at 2. apply Qmult_le_compat_r; lra. }
    setoid_replace (pn * p2 * (x / y) * b) with (pn * x * (p2 * b / y)) by (field; lra).
    rewrite <- (Qmult_1_r (pn * x)) at 2. rewrite !(Qmult_comm (pn * x)). apply Qmult_le_compat_r; [|nra]. apply Qle_shift_div_r; lra.
  - apply Qle_shift_div_r; [exact Hb|]. apply (Qle_trans _ (qn_ * x)); [exact A2|].
    assert (K : y <= q2 * b).
    { apply (Qle_trans _ (pm * q2 * y)); [rewrite <- (Qmult_1_l y) at 1; apply Qmult_le_compat_r; lra|].
      setoid_replace (pm * q2 * y) with (pm * y * q2) by ring. rewrite (Qmult_comm q2 b). apply Qmult_le_compat_r; lra. }
    setoid_replace (qn_ * q2 * (x / y) * b) with (qn_ * x * (q2 * b / y)) by (field; lra).
    rewrite <- (Qmult_1_r (qn_ * x)) at 1. rewrite !(Qmult_comm (qn_ * x)). apply Qmult_le_compat_r; [|nra]. apply Qle_shift_div_l; lra.
Qed.
Lemma within_scale c n a x : 0 <= c -> within u53 n a x -> within u53 n (c * a) (c * x).
Proof.
  intros Hc [A B]. unfold within. split; [apply (Qle_trans _ (c * ((1 - u53) ^ Z.of_nat n * x))); [lra|rewrite !(Qmult_comm c); apply Qmult_le_compat_r; auto]|].
  apply (Qle_trans _ (c * ((1 + u53) ^ Z.of_nat n * x))); [rewrite !(Qmult_comm c); apply Qmult_le_compat_r; auto|lra].
Qed.
Lemma within_r53 n a x : 0 <= x -> within u53 n a x -> within u53 (S n) (r53 a) x.
Proof. intros Hx W. apply (within_rnd u53 u53_bounds n a x); [exact W|exact Hx|apply r53_err]. Qed.
(** 1 - (1-u)^n is at most (1+u)^n - 1. *)
Lemma pow_low n : 2 - (1 + u53) ^ Z.of_nat n <= (1 - u53) ^ Z.of_nat n.
Proof.
  pose proof u53_bounds. induction n as [|n IH]; [vm_compute; discriminate|]. rewrite !pow_S. pose proof (pow_ge1 (1 + u53) n ltac:(lra)). pose proof (pow_le1 (1 - u53) n ltac:(lra)).
  set (p := (1 - u53) ^ Z.of_nat n) in *. set (q := (1 + u53) ^ Z.of_nat n) in *. clearbody p q. nra.
Qed.
Lemma within_abs_err n a x : 0 <= x -> within u53 n a x -> Qabs (a - x) <= ee n * x.
Proof.
  intros Hx [A B]. apply Qabs_Qle_condition. unfold ee. pose proof (pow_low n). set (p := (1 - u53) ^ Z.of_nat n) in *. set (q := (1 + u53) ^ Z.of_nat n) in *. clearbody p q.
  assert ((2 - q) * x <= p * x) by (apply Qmult_le_compat_r; lra). split; lra.
Qed.

(** ** Signs survive rounding *)
Lemma r53_pos_iff x : 0 < r53 x <-> 0 < x.
Proof.
  split; intro H.
  - apply Qnot_le_lt. intro K. apply r53_mono in K. unfold r53 at 2 in K. rewrite (rnd_0 53 0) in K by reflexivity. lra.
  - pose proof (r53_err x) as R. rewrite (Qabs_pos x) in R by lra. apply Qabs_Qle_condition in R. assert (u53 <= 1 # 2) by (vm_compute; discriminate). nra.
Qed.
Lemma r53_neg_iff x : r53 x < 0 <-> x < 0.
Proof.
  assert (E : r53 (- x) == - r53 x) by apply rnd_opp. pose proof (r53_pos_iff (- x)) as P. rewrite E in P. split; intro H.
  - assert (0 < - x) by (apply P; lra). lra.
  - assert (0 < - r53 x) by (apply P; lra). lra.
Qed.
Lemma Qltb_iff a b c d : (a < b <-> c < d) -> Qltb a b = Qltb c d.
Proof. intro H. destruct (Qltb_spec a b) as [A|A], (Qltb_spec c d) as [B|B]; [reflexivity| | |reflexivity]; exfalso; destruct H as [H1 H2]; [specialize (H1 A)|specialize (H2 B)]; lra. Qed.

(** ** RSI *)
Lemma gain_f_within close i : 0 <= gain close i /\ within u53 1 (gain_f close i) (gain close i).
Proof.
  unfold gain_f, gain, diff_f. fold (diff close i). rewrite (Qltb_iff 0 (r53 (diff close i)) 0 (diff close i)) by apply r53_pos_iff.
  destruct (Qltb_spec 0 (diff close i)) as [H|H]; [|split; [lra|apply within_0]]. split; [lra|]. apply (within_r53 0); [lra|]. apply within_self; [apply u53_bounds|lra].
Qed.
Lemma loss_f_within close i : 0 <= loss close i /\ within u53 1 (loss_f close i) (loss close i).
Proof.
  unfold loss_f, loss, diff_f. fold (diff close i). rewrite (Qltb_iff (r53 (diff close i)) 0 (diff close i) 0) by apply r53_neg_iff.
  destruct (Qltb_spec (diff close i) 0) as [H|H]; [|split; [lra|apply within_0]]. split; [lra|].
  apply (within_comp u53 1 (r53 (- diff close i)) (- diff close i)); [apply rnd_opp|reflexivity|]. apply (within_r53 0); [lra|]. apply within_self; [apply u53_bounds|lra].
Qed.
Lemma within_add n m a x b y : 0 <= x -> 0 <= y -> (m <= n)%nat -> within u53 n a x -> within u53 m b y -> within u53 (S n) (r53 (a + b)) (x + y).
Proof.
  intros Hx Hy L A B. apply within_r53; [lra|]. apply within_plus; [exact A|]. apply (within_le u53 u53_bounds m n); assumption.
Qed.
Lemma rsi_sums_within close l : forall n af lf a b, (1 <= n)%nat -> 0 <= a -> 0 <= b -> within u53 n af a -> within u53 n lf b ->
  let F := fold_left (fun s i => let d := diff_f close i in if Qltb 0 d then (r53 (fst s + d), snd s) else (fst s, r53 (snd s + - d))) l (af, lf) in
  let E := fold_left (fun s i => let d := diff close i in if Qltb 0 d then (fst s + d, snd s) else (fst s, snd s + - d)) l (a, b) in
  0 <= fst E /\ 0 <= snd E /\ within u53 (n + length l) (fst F) (fst E) /\ within u53 (n + length l) (snd F) (snd E).
Proof.
  induction l as [|i l IH]; intros n af lf a b Hn Ha Hb Wa Wb; cbv zeta; cbn [fold_left length].
  - rewrite Nat.add_0_r. cbn [fst snd]. auto.
  - rewrite (Qltb_iff 0 (diff_f close i) 0 (diff close i)) by apply r53_pos_iff. replace (n + S (length l))%nat with (S n + length l)%nat by lia.
    destruct (Qltb_spec 0 (diff close i)) as [H|H]; cbn [fst snd]; apply IH; try lia; try lra; try assumption.
    + apply (within_add n 1); try assumption; try lra. unfold diff_f. fold (diff close i). apply (within_r53 0); [lra|]. apply within_self; [apply u53_bounds|lra].
    + apply (within_S u53 u53_bounds); assumption.
    + apply (within_S u53 u53_bounds); assumption.
    + apply (within_add n 1); try assumption; try lra. unfold diff_f. fold (diff close i).
      apply (within_comp u53 1 (r53 (- diff close i)) (- diff close i)); [apply rnd_opp|reflexivity|]. apply (within_r53 0); [lra|]. apply within_self; [apply u53_bounds|lra].
Qed.
Lemma Qnat_ge1 n : (1 <= n)%nat -> 1 <= Qnat n.
Proof. intro H. unfold Qnat. change 1 with (inject_Z 1). rewrite <- Zle_Qle. lia. Qed.
Lemma within_quot n a x c : 0 <= x -> 0 < c -> within u53 n a x -> within u53 (S n) (r53 (a / c)) (x / c).
Proof.
  intros Hx Hc W. assert (I : 0 <= / c) by (apply Qinv_le_0_compat; lra). apply within_r53; [apply Qle_shift_div_l; lra|].
  apply (within_comp u53 n (/ c * a) (/ c * x)); [unfold Qdiv; ring|unfold Qdiv; ring|]. now apply within_scale.
Qed.
Lemma wilder_within w n a0f a0 xf x : (1 <= w)%nat -> (1 <= n)%nat -> 0 <= a0 -> within u53 n a0f a0 -> (forall i, 0 <= x i /\ within u53 1 (xf i) (x i)) ->
  forall k, 0 <= wilder w a0 x k /\ within u53 (n + 3 * k) (wilder_f w a0f xf k) (wilder w a0 x k).
Proof.
  intros Hw Hn Ha W Hx. pose proof (Qnat_ge1 w Hw) as Pw. induction k as [|k [I1 I2]]; cbn [wilder wilder_f]; [rewrite Nat.mul_0_r, Nat.add_0_r; auto|].
  destruct (Hx (w + S k)%nat) as [X1 X2]. assert (P : 0 <= (Qnat w - 1) * wilder w a0 x k) by (apply Qmult_le_0_compat; lra).
  assert (P2 : 0 <= (Qnat w - 1) * wilder w a0 x k + x (w + S k)%nat) by lra.
  split; [apply Qle_shift_div_l; lra|]. replace (n + 3 * S k)%nat with (S (S (S (n + 3 * k)))) by lia.
  apply within_quot; [exact P2|lra|]. apply (within_add _ 1); [exact P|exact X1|lia| |exact X2]. apply within_r53; [exact P|]. apply within_scale; [lra|exact I2].
Qed.
(** The two averages of bar [i]. *)
Lemma rsi_avgs close w k : (1 <= w)%nat ->
  let s := rsi_sums close w in let sf := rsi_sums_f close w in
  let ag := wilder w (fst s / Qnat w) (gain close) k in let al := wilder w (snd s / Qnat w) (loss close) k in
  0 <= ag /\ 0 <= al /\ within u53 (w + 2 + 3 * k) (wilder_f w (r53 (fst sf / Qnat w)) (gain_f close) k) ag /\
  within u53 (w + 2 + 3 * k) (wilder_f w (r53 (snd sf / Qnat w)) (loss_f close) k) al.
Proof.
  intros Hw. cbv zeta. pose proof (Qnat_ge1 w Hw) as Pw.
  destruct (rsi_sums_within close (seq 1 w) 1 0 0 0 0 ltac:(lia) ltac:(lra) ltac:(lra) (within_0 u53 1) (within_0 u53 1)) as (A & B & C & D).
  change (0 <= fst (rsi_sums close w)) in A. change (0 <= snd (rsi_sums close w)) in B. rewrite seq_length in C, D.
  change (within u53 (1 + w) (fst (rsi_sums_f close w)) (fst (rsi_sums close w))) in C. change (within u53 (1 + w) (snd (rsi_sums_f close w)) (snd (rsi_sums close w))) in D.
  assert (C' := within_quot _ _ _ (Qnat w) A ltac:(lra) C). assert (D' := within_quot _ _ _ (Qnat w) B ltac:(lra) D).
  assert (A' : 0 <= fst (rsi_sums close w) / Qnat w) by (apply Qle_shift_div_l; lra). assert (B' : 0 <= snd (rsi_sums close w) / Qnat w) by (apply Qle_shift_div_l; lra).
  destruct (wilder_within w (S (1 + w)) _ _ _ _ Hw ltac:(lia) A' C' (gain_f_within close) k) as [G1 G2].
  destruct (wilder_within w (S (1 + w)) _ _ _ _ Hw ltac:(lia) B' D' (loss_f_within close) k) as [L1 L2].
  replace (w + 2 + 3 * k)%nat with (S (1 + w) + 3 * k)%nat by lia. auto.
Qed.
Lemma fl_100 : fl 53 100.
Proof. exists 100%Z, 0%Z. split; [reflexivity|]. reflexivity. Qed.
Lemma fl_1 : fl 53 1.
Proof. exists 1%Z, 0%Z. split; reflexivity. Qed.
Lemma rsi_value_f_range ag al v : 0 <= ag -> rsi_value_f ag al = Some v -> 0 <= v <= 100.
Proof.
  intros Hg. unfold rsi_value_f. destruct (Qltb_spec 0 al) as [H|H]; [|discriminate]. intro E. injection E as <-.
  assert (R : 0 <= r53 (ag / al)) by (apply r53_nonneg, Qle_shift_div_l; lra). set (rs := r53 (ag / al)) in *. clearbody rs.
  assert (O : 1 <= r53 (1 + rs)) by (apply rnd_ge; [lia|apply fl_1|lra]). set (o := r53 (1 + rs)) in *. clearbody o.
  assert (Q1 : 0 <= r53 (100 / o)) by (apply r53_nonneg, Qle_shift_div_l; lra). assert (Q2 : r53 (100 / o) <= 100) by (apply rnd_le; [lia|apply fl_100|apply Qle_shift_div_r; lra]).
  set (q := r53 (100 / o)) in *. clearbody q. split; [apply r53_nonneg; lra|apply rnd_le; [lia|apply fl_100|lra]].
Qed.
Lemma rsi_value_near n agf ag alf al : 0 <= ag -> 0 <= al -> within u53 n agf ag -> within u53 n alf al ->
  match rsi_value_f agf alf, rsi_value ag al with
  | Some a, Some x => Qabs (a - x) <= ee (6 * n + 6) * 100
  | None, None => True
  | _, _ => False
  end.
Proof.
  intros Hg Hl Wg Wl. unfold rsi_value_f, rsi_value. destruct (Qltb_spec 0 al) as [H|H].
  - pose proof (within_pos n alf al H Wl) as Hf. destruct (Qltb_spec 0 alf) as [_|K]; [|lra].
    assert (P1 : 0 <= ag / al) by (apply Qle_shift_div_l; lra).
    pose proof (within_r53 _ _ _ P1 (within_div n n agf ag alf al Hg H Wg Wl)) as W1. replace (S (n + 2 * n))%nat with (3 * n + 1)%nat in W1 by lia.
    assert (W2 : within u53 (S (3 * n + 1)) (r53 (1 + r53 (agf / alf))) (1 + ag / al)).
    { apply within_r53; [lra|]. apply within_plus; [apply within_self; [apply u53_bounds|lra]|exact W1]. }
    assert (W3 : within u53 (S (0 + 2 * S (3 * n + 1))) (r53 (100 / r53 (1 + r53 (agf / alf)))) (100 / (1 + ag / al))).
    { apply within_r53; [apply Qle_shift_div_l; lra|]. apply within_div; [lra|lra|apply within_self; [apply u53_bounds|lra]|exact W2]. }
    replace (S (0 + 2 * S (3 * n + 1)))%nat with (6 * n + 5)%nat in W3 by lia.
    assert (B : 0 <= 100 / (1 + ag / al) <= 100) by (split; [apply Qle_shift_div_l; lra|apply Qle_shift_div_r; lra]).
    pose proof (within_abs_err _ _ _ (proj1 B) W3) as E3.
    assert (Hag : 0 <= agf) by (apply (within_nonneg u53 u53_bounds n agf ag Wg Hg)).
    assert (RS : 0 <= r53 (agf / alf)) by (apply r53_nonneg, Qle_shift_div_l; lra).
    assert (O : 1 <= r53 (1 + r53 (agf / alf))) by (apply rnd_ge; [lia|apply fl_1|lra]).
    assert (Y : 0 <= r53 (100 / r53 (1 + r53 (agf / alf))) <= 100).
    { split; [apply r53_nonneg, Qle_shift_div_l; lra|]. apply rnd_le; [lia|apply fl_100|]. apply Qle_shift_div_r; lra. }
    set (y := r53 (100 / r53 (1 + r53 (agf / alf)))) in *. set (x := 100 / (1 + ag / al)) in *. clearbody x y. clear - E3 Y B.
    pose proof (r53_err (100 - y)) as R. rewrite (Qabs_pos (100 - y)) in R by lra. apply Qabs_Qle_condition in R, E3. apply Qabs_Qle_condition.
    replace (6 * n + 6)%nat with (S (6 * n + 5)) by lia. pose proof (ee_S (6 * n + 5)) as ES. pose proof (ee_nonneg (6 * n + 5)) as E0. pose proof u53_bounds.
    set (e := ee (6 * n + 5)) in *. set (e' := ee (S (6 * n + 5))) in *. clearbody e e'. set (u := u53) in *. clearbody u.
    assert ((100 - y) * u <= 100 * u) by nra. assert (e * x <= e * 100) by nra. assert (u * (1 + e) * 100 >= u * 100) by nra.
    assert (e' * 100 == e * 100 + u * (1 + e) * 100) by (rewrite ES; ring). split; lra.
  - destruct (Qltb_spec 0 alf) as [K|_]; [|exact Logic.I]. assert (Z0 : al == 0) by lra. destruct Wl as [_ W]. rewrite Z0 in W. lra.
Qed.

(** ** Stochastic *)
Lemma stoch_value_f c lo hi : lo < hi -> lo <= c <= hi ->
  let v := r53 (r53 (100 * r53 (c - lo)) / r53 (hi - lo)) in
  0 <= v <= 100 + two (-46) /\ within u53 5 v (100 * (c - lo) / (hi - lo)).
Proof.
  intros H B. cbv zeta. assert (D : 0 < r53 (hi - lo)) by (apply r53_pos_iff; lra). assert (N : 0 <= r53 (c - lo)) by (apply r53_nonneg; lra).
  assert (L : r53 (c - lo) <= r53 (hi - lo)) by (apply r53_mono; lra). split.
  - assert (P : 0 <= r53 (100 * r53 (c - lo))) by (apply r53_nonneg; lra). split; [apply r53_nonneg, Qle_shift_div_l; lra|].
    apply rnd_le; [lia| |].
    + exists (100 * 2 ^ 46 + 1)%Z, (-46)%Z. split; [reflexivity|]. vm_compute. reflexivity.
    + apply Qle_shift_div_r; [exact D|]. pose proof (r53_err (100 * r53 (c - lo))) as R. rewrite (Qabs_pos (100 * r53 (c - lo))) in R by lra. apply Qabs_Qle_condition in R.
      assert (U : 100 * u53 <= two (-46)) by (vm_compute; discriminate). set (d := r53 (c - lo)) in *. set (D' := r53 (hi - lo)) in *. set (z := r53 (100 * d)) in *.
      set (t := two (-46)) in *. set (u := u53) in *. assert (0 <= u) by (vm_compute; discriminate). clearbody d D' z t u.
      assert (100 * u * d <= t * d) by nra. assert (t * d <= t * D') by nra. lra.
  - assert (Q1 : 0 <= c - lo) by lra. assert (W1 : within u53 1 (r53 (c - lo)) (c - lo)) by (apply (within_r53 0); [lra|apply within_self; [apply u53_bounds|lra]]).
    assert (W2 : within u53 2 (r53 (100 * r53 (c - lo))) (100 * (c - lo))) by (apply within_r53; [lra|apply within_scale; [lra|exact W1]]).
    assert (W3 : within u53 1 (r53 (hi - lo)) (hi - lo)) by (apply (within_r53 0); [lra|apply within_self; [apply u53_bounds|lra]]).
    apply within_r53; [apply Qle_shift_div_l; lra|]. change 4%nat with (2 + 2 * 1)%nat. apply within_div; [lra|lra|exact W2|exact W3].
Qed.

(** ** ADX *)
Lemma fl_int z : (0 <= z <= 2 ^ 53)%Z -> fl 53 (inject_Z z).
Proof. intro H. apply (fl_comp 53 (inject_Z z * two 0)); [unfold two; cbn; ring|]. apply fl_le; lia. Qed.
Lemma wsum_f_nonneg x len : (1 <= len)%nat -> (forall i, 0 <= x i) -> forall k, 0 <= wsum_f x len k /\ fl 53 (wsum_f x len k).
Proof.
  intros Hl Hx. assert (S0 : forall l c, 0 <= c -> fl 53 c -> (forall y, In y l -> 0 <= y) -> 0 <= fold_left (fun c y => r53 (c + y)) l c /\ fl 53 (fold_left (fun c y => r53 (c + y)) l c)).
  { induction l as [|y l IH]; intros c Hc Fc Hy; cbn [fold_left]; [auto|]. apply IH; [apply r53_nonneg; pose proof (Hy y (or_introl eq_refl)); lra|apply rnd_fl; lia|intros z Hz; apply Hy; now right]. }
  induction k as [|k [I1 I2]]; cbn [wsum_f].
  - apply S0; [lra|apply fl_0; lia|]. intros y Hy. apply in_map_iff in Hy. destruct Hy as (j & <- & _). apply Hx.
  - split; [|apply rnd_fl; lia]. apply r53_nonneg. pose proof (Hx (len + S k)%nat). assert (0 <= r53 (wsum_f x len k - r53 (wsum_f x len k / Qnat len))); [|lra].
    apply r53_nonneg. assert (r53 (wsum_f x len k / Qnat len) <= wsum_f x len k); [|lra]. apply rnd_le; [lia|exact I2|]. pose proof (Qnat_ge1 len Hl). apply Qle_shift_div_r; [lra|]. nra.
Qed.
Lemma dx_of_f_range p m : 0 <= p -> 0 <= m -> 0 <= dx_of_f p m <= 100.
Proof.
  intros Hp Hm. unfold dx_of_f. destruct (Qltb_spec 0 (r53 (p + m))) as [H|H]; [|lra].
  assert (A : Qabs (r53 (p - m)) <= r53 (p + m)).
  { apply Qabs_Qle_condition. split; [|apply r53_mono; lra]. assert (E : r53 (- (p + m)) == - r53 (p + m)) by apply rnd_opp. rewrite <- E. apply r53_mono. lra. }
  pose proof (Qabs_nonneg (r53 (p - m))) as B. set (a := Qabs (r53 (p - m))) in *. set (b := r53 (p + m)) in *. clearbody a b.
  assert (R : 0 <= r53 (a / b) <= 1) by (split; [apply r53_nonneg, Qle_shift_div_l; lra|apply rnd_le; [lia|apply fl_1|apply Qle_shift_div_r; lra]]).
  set (q := r53 (a / b)) in *. clearbody q. split; [apply r53_nonneg; lra|apply rnd_le; [lia|apply fl_100|lra]].
Qed.
Lemma dm_f_nonneg high low i : 0 <= plus_dm_f high low i /\ 0 <= minus_dm_f high low i.
Proof.
  unfold plus_dm_f, minus_dm_f. destruct (i =? 0)%nat; [lra|]. cbv zeta. set (a := r53 (qn high i - qn high (i - 1))). set (b := r53 (qn low (i - 1) - qn low i)). clearbody a b. split.
  - destruct (Qltb_spec b a), (Qltb_spec 0 a); cbn [andb]; lra.
  - destruct (Qltb_spec a b), (Qltb_spec 0 b); cbn [andb]; lra.
Qed.
Lemma di_f_nonneg dm tr : 0 <= dm -> 0 <= di_f dm tr.
Proof. intro H. unfold di_f. destruct (Qltb_spec 0 tr) as [K|K]; [|lra]. apply r53_nonneg. assert (0 <= r53 (dm / tr)) by (apply r53_nonneg, Qle_shift_div_l; lra). lra. Qed.
Lemma dx_f_range high low close len i : (1 <= len)%nat -> 0 <= dx_f high low close len i <= 100.
Proof.
  intro Hl. unfold dx_f. destruct (i <? len)%nat; [lra|]. cbv zeta.
  apply dx_of_f_range; apply di_f_nonneg; apply wsum_f_nonneg; auto; intro j; apply dm_f_nonneg.
Qed.
Lemma fsum_100 l : (forall x, In x l -> 0 <= x <= 100) -> forall k c, (0 <= k)%Z -> (100 * (k + Z.of_nat (length l)) <= 2 ^ 53)%Z -> 0 <= c <= inject_Z (100 * k) ->
  0 <= fold_left (fun c x => r53 (c + x)) l c <= inject_Z (100 * (k + Z.of_nat (length l))).
Proof.
  induction l as [|x l IH]; intros Hx k c Hk Hb Hc; cbn [fold_left length]; [rewrite Z.add_0_r; exact Hc|]. cbn [length] in Hb.
  replace (k + Z.of_nat (S (length l)))%Z with (k + 1 + Z.of_nat (length l))%Z by lia. apply IH; [intros y Hy; apply Hx; now right|lia|lia|].
  pose proof (Hx x (or_introl eq_refl)) as X. split; [apply r53_nonneg; lra|]. apply rnd_le; [lia|apply fl_int; lia|].
  assert (E : inject_Z (100 * (k + 1)) == inject_Z (100 * k) + 100) by (replace (100 * (k + 1))%Z with (100 * k + 100)%Z by lia; rewrite inject_Z_plus; reflexivity). rewrite E. lra.
Qed.
Lemma adx_at_f_range d len : (1 <= len)%nat -> (100 * Z.of_nat len <= 2 ^ 53)%Z -> (forall i, 0 <= d i <= 100) -> forall k, 0 <= adx_at_f d len k <= 100.
Proof.
  intros Hl Hb Hd. pose proof (Qnat_ge1 len Hl) as P. assert (E100 : inject_Z (100 * Z.of_nat len) == 100 * Qnat len) by (rewrite inject_Z_mult; reflexivity).
  induction k as [|k I]; cbn [adx_at_f].
  - assert (S0 : 0 <= fsum (map d (seq len len)) <= inject_Z (100 * Z.of_nat len)).
    { pose proof (fsum_100 (map d (seq len len)) ltac:(intros x Hx; apply in_map_iff in Hx; destruct Hx as (j & <- & _); apply Hd) 0 0 ltac:(lia)) as K.
      rewrite map_length, seq_length, Z.add_0_l in K. apply K; [exact Hb|]. change (inject_Z (100 * 0)) with 0. lra. }
    rewrite E100 in S0. split; [apply r53_nonneg, Qle_shift_div_l; lra|]. apply rnd_le; [lia|apply fl_100|]. apply Qle_shift_div_r; lra.
  - pose proof (Hd (2 * len - 1 + S k)%nat) as D. set (a := adx_at_f d len k) in *. set (x := d (2 * len - 1 + S k)%nat) in *. clearbody a x.
    assert (E99 : inject_Z (100 * (Z.of_nat len - 1)) == 100 * (Qnat len - 1)).
    { rewrite inject_Z_mult. unfold Z.sub. rewrite inject_Z_plus. unfold Qnat. change (inject_Z (- (1))) with (- (1)). change (inject_Z 100) with 100. ring. }
    assert (A : 0 <= r53 (a * (Qnat len - 1)) <= 100 * (Qnat len - 1)).
    { split; [apply r53_nonneg, Qmult_le_0_compat; lra|]. rewrite <- E99. apply rnd_le; [lia|apply fl_int; lia|]. rewrite E99. apply Qmult_le_compat_r; lra. }
    set (b := r53 (a * (Qnat len - 1))) in *. clearbody b.
    assert (C : 0 <= r53 (b + x) <= 100 * Qnat len) by (split; [apply r53_nonneg; lra|]; rewrite <- E100; apply rnd_le; [lia|apply fl_int; lia|rewrite E100; lra]).
    set (c := r53 (b + x)) in *. clearbody c. split; [apply r53_nonneg, Qle_shift_div_l; lra|]. apply rnd_le; [lia|apply fl_100|]. apply Qle_shift_div_r; lra.
Qed.
