(** P_footf.v -- proofs about footprint features in float32 and float64: relative errors with the float32 unit roundoff. *)
From Verif Require Import Base M_logic M_bars M_footprint M_features M_float M_float11 M_float12 S_float S_footf.
From Verif Require Import P_footprint P_weights P_features P_float P_float2 P_float3 P_float5 P_float7 P_float9 P_float12 P_profilef P_profilef2 P_profilef3 P_profilef5.
Open Scope Q_scope.

(** ** Quotients and products of numbers known up to relative float32 errors *)
Lemma pow_inv24 n : 1 <= (1 - u24) ^ Z.of_nat n * (1 + u24) ^ Z.of_nat (2 * n).
Proof.
  pose proof u24_bounds. assert (B : u24 <= 1 # 2) by (vm_compute; discriminate). induction n as [|n IH]; [vm_compute; discriminate|].
  replace (2 * S n)%nat with (S (S (2 * n))) by lia. rewrite !pow_S. pose proof (pow_nonneg (1 - u24) n ltac:(lra)). pose proof (pow_nonneg (1 + u24) (2 * n) ltac:(lra)).
  set (p := (1 - u24) ^ Z.of_nat n) in *. set (q := (1 + u24) ^ Z.of_nat (2 * n)) in *. clearbody p q.
  assert (C : 1 <= (1 - u24) * ((1 + u24) * (1 + u24))) by (set (u := u24) in *; clearbody u; nra).
  setoid_replace ((1 - u24) * p * ((1 + u24) * ((1 + u24) * q))) with ((1 - u24) * ((1 + u24) * (1 + u24)) * (p * q)) by ring.
  assert (0 <= p * q) by nra. nra.
Qed.
Lemma pow_inv_low24 n : (1 - u24) ^ Z.of_nat n * (1 + u24) ^ Z.of_nat n <= 1.
Proof.
  pose proof u24_bounds. induction n as [|n IH]; [vm_compute; discriminate|]. rewrite !pow_S.
  pose proof (pow_nonneg (1 - u24) n ltac:(lra)). pose proof (pow_nonneg (1 + u24) n ltac:(lra)).
  set (p := (1 - u24) ^ Z.of_nat n) in *. set (q := (1 + u24) ^ Z.of_nat n) in *. clearbody p q.
  setoid_replace ((1 - u24) * p * ((1 + u24) * q)) with ((1 - u24 * u24) * (p * q)) by ring. assert (0 <= p * q) by nra. assert (0 <= u24 * u24) by nra. nra.
Qed.
Lemma within_pos24 n a x : 0 < x -> within u24 n a x -> 0 < a.
Proof.
  intros Hx [A _]. assert (P : 0 < 1 - u24) by reflexivity. pose proof (pow_pos (1 - u24) n P). assert (0 < (1 - u24) ^ Z.of_nat n * x) by nra. lra.
Qed.
Lemma within_div24 n m a x b y : 0 <= x -> 0 < y -> within u24 n a x -> within u24 m b y -> within u24 (n + 2 * m) (a / b) (x / y).
Proof.
  intros Hx Hy Wa Wb. pose proof (within_pos24 m b y Hy Wb) as Hb. pose proof (within_nonneg u24 u24_bounds n a x Wa Hx) as Ha. destruct Wa as [A1 A2], Wb as [B1 B2].
  pose proof u24_bounds as U. unfold within. rewrite !pow_add.
  pose proof (pow_nonneg (1 - u24) n ltac:(lra)) as Pn. pose proof (pow_nonneg (1 + u24) n ltac:(lra)) as Qn.
  pose proof (pow_nonneg (1 - u24) m ltac:(lra)) as Pm. pose proof (pow_nonneg (1 + u24) m ltac:(lra)) as Qm.
  pose proof (pow_nonneg (1 + u24) (2 * m) ltac:(lra)) as Q2. pose proof (pow_nonneg (1 - u24) (2 * m) ltac:(lra)) as P2.
  pose proof (pow_inv24 m) as I1. pose proof (pow_inv_low24 m) as I2.
  assert (I3 : (1 - u24) ^ Z.of_nat (2 * m) <= (1 - u24) ^ Z.of_nat m).
  { replace (2 * m)%nat with (m + m)%nat by lia. rewrite pow_add. pose proof (pow_le1 (1 - u24) m ltac:(lra)). nra. }
  set (pn := (1 - u24) ^ Z.of_nat n) in *. set (qn_ := (1 + u24) ^ Z.of_nat n) in *. set (pm := (1 - u24) ^ Z.of_nat m) in *. set (qm := (1 + u24) ^ Z.of_nat m) in *.
  set (p2 := (1 - u24) ^ Z.of_nat (2 * m)) in *. set (q2 := (1 + u24) ^ Z.of_nat (2 * m)) in *. clearbody pn qn_ pm qm p2 q2. clear U.
  split.
  - apply Qle_shift_div_l; [exact Hb|]. apply (Qle_trans _ (pn * x)); [|exact A1].
    assert (K : p2 * b <= y).
    { apply (Qle_trans _ (pm * b)); [apply Qmult_le_compat_r; lra|]. apply (Qle_trans _ (pm * (qm * y))); [rewrite !(Qmult_comm pm); apply Qmult_le_compat_r; lra|].
      setoid_replace (pm * (qm * y)) with (pm * qm * y) by ring. rewrite <- (Qmult_1_l y) at 2. apply Qmult_le_compat_r; lra. }
    setoid_replace (pn * p2 * (x / y) * b) with (pn * x * (p2 * b / y)) by (field; lra).
    rewrite <- (Qmult_1_r (pn * x)) at 2. rewrite !(Qmult_comm (pn * x)). apply Qmult_le_compat_r; [|nra]. apply Qle_shift_div_r; lra.
  - apply Qle_shift_div_r; [exact Hb|]. apply (Qle_trans _ (qn_ * x)); [exact A2|].
    assert (K : y <= q2 * b).
    { apply (Qle_trans _ (pm * q2 * y)); [rewrite <- (Qmult_1_l y) at 1; apply Qmult_le_compat_r; lra|].
      setoid_replace (pm * q2 * y) with (pm * y * q2) by ring. rewrite (Qmult_comm q2 b). apply Qmult_le_compat_r; lra. }
    setoid_replace (qn_ * q2 * (x / y) * b) with (qn_ * x * (q2 * b / y)) by (field; lra).
    rewrite <- (Qmult_1_r (qn_ * x)) at 1. rewrite !(Qmult_comm (qn_ * x)). apply Qmult_le_compat_r; [|nra]. apply Qle_shift_div_l; lra.
Qed.
Lemma within_scale24 c n a x : 0 <= c -> within u24 n a x -> within u24 n (c * a) (c * x).
Proof.
  intros Hc [A B]. unfold within. split; [apply (Qle_trans _ (c * ((1 - u24) ^ Z.of_nat n * x))); [lra|rewrite !(Qmult_comm c); apply Qmult_le_compat_r; auto]|].
  apply (Qle_trans _ (c * ((1 + u24) ^ Z.of_nat n * x))); [rewrite !(Qmult_comm c); apply Qmult_le_compat_r; auto|lra].
Qed.
Lemma pow_low24 n : 2 - (1 + u24) ^ Z.of_nat n <= (1 - u24) ^ Z.of_nat n.
Proof.
  pose proof u24_bounds. induction n as [|n IH]; [vm_compute; discriminate|]. rewrite !pow_S. pose proof (pow_ge1 (1 + u24) n ltac:(lra)). pose proof (pow_le1 (1 - u24) n ltac:(lra)).
  set (p := (1 - u24) ^ Z.of_nat n) in *. set (q := (1 + u24) ^ Z.of_nat n) in *. clearbody p q. nra.
Qed.
Lemma within_mult24 n m a x b y : 0 <= x -> 0 <= y -> within u24 n a x -> within u24 m b y -> within u24 (n + m) (a * b) (x * y).
Proof.
  intros Hx Hy Wa Wb. pose proof (within_nonneg u24 u24_bounds n a x Wa Hx) as Ha. pose proof (within_nonneg u24 u24_bounds m b y Wb Hy) as Hb. destruct Wa as [A1 A2], Wb as [B1 B2].
  unfold within. rewrite !pow_add. pose proof u24_bounds as U. pose proof (pow_nonneg (1 - u24) n ltac:(lra)) as P1. pose proof (pow_nonneg (1 - u24) m ltac:(lra)) as P2. pose proof (pow_nonneg (1 + u24) n ltac:(lra)) as P3. pose proof (pow_nonneg (1 + u24) m ltac:(lra)) as P4.
  set (p := (1 - u24) ^ Z.of_nat n) in *. set (q := (1 - u24) ^ Z.of_nat m) in *. set (r := (1 + u24) ^ Z.of_nat n) in *. set (s := (1 + u24) ^ Z.of_nat m) in *. clearbody p q r s.
  split.
  - setoid_replace (p * q * (x * y)) with ((p * x) * (q * y)) by ring. assert (0 <= p * x) by (apply Qmult_le_0_compat; assumption). assert (0 <= q * y) by (apply Qmult_le_0_compat; assumption). apply Qle_trans with (a * (q * y)); [apply Qmult_le_compat_r; lra|]. rewrite !(Qmult_comm a). apply Qmult_le_compat_r; lra.
  - setoid_replace (r * s * (x * y)) with ((r * x) * (s * y)) by ring. assert (0 <= r * x) by (apply Qmult_le_0_compat; assumption). apply Qle_trans with (a * (s * y)); [rewrite !(Qmult_comm a); apply Qmult_le_compat_r; lra|]. apply Qmult_le_compat_r; [lra|]. apply Qmult_le_0_compat; assumption.
Qed.
Lemma within_r24 n a x : 0 <= x -> within u24 n a x -> within u24 (S n) (r24 a) x.
Proof. intros Hx W. apply (within_rnd u24 u24_bounds n a x); [exact W|exact Hx|apply r24_err]. Qed.
Lemma within_fsum24 {A} k (v x : A -> Q) is : (forall i, In i is -> 0 <= x i /\ within u24 k (v i) (x i)) ->
  within u24 (k + length is) (fsum24 (map v is)) (qsum (map x is)).
Proof.
  unfold fsum24. induction is as [|i is IH] using rev_ind; intro Hx; [apply within_0|].
  rewrite !map_app, fold_left_app, app_length. cbn [map fold_left length]. replace (k + (length is + 1))%nat with (S (k + length is)) by lia.
  assert (IHx : within u24 (k + length is) (fold_left (fun c x => r24 (c + x)) (map v is) 0) (qsum (map x is))).
  { apply IH. intros j Hj. apply Hx, in_or_app. now left. }
  destruct (Hx i ltac:(apply in_or_app; right; now left)) as [B0 B].
  assert (N : 0 <= qsum (map x is)).
  { apply qsum_nonneg. intros z Hz. apply in_map_iff in Hz. destruct Hz as [j [<- Hj]]. apply Hx, in_or_app. now left. }
  eapply (within_comp u24); [reflexivity| |apply (within24_add (k + length is) _ (qsum (map x is)) (v i) (x i)); auto].
  - rewrite qsum_app, qsum_cons. cbn. ring.
  - apply (within_le u24 u24_bounds k); [lia|auto|auto].
Qed.

(** ** Powers of the unit roundoff for few roundings *)
Lemma pow24_up m : Qnat m * u24 <= 1 # 2 -> (1 + u24) ^ Z.of_nat m <= 1 + 2 * (Qnat m * u24).
Proof.
  intro Hm. pose proof u24_bounds as [U1 U2]. induction m as [|m IH]; [vm_compute; discriminate|].
  assert (E : Qnat (S m) == Qnat m + 1) by (unfold Qnat; rewrite Nat2Z.inj_succ; unfold Z.succ; rewrite inject_Z_plus; reflexivity).
  rewrite E in *. assert (M0 : 0 <= Qnat m) by (unfold Qnat; change 0 with (inject_Z 0); rewrite <- Zle_Qle; lia).
  specialize (IH ltac:(lra)). rewrite pow_S. set (p := (1 + u24) ^ Z.of_nat m) in *. set (q := Qnat m) in *. set (u := u24) in *. clearbody p q u.
  assert ((1 + u) * p <= (1 + u) * (1 + 2 * (q * u))) by (rewrite !(Qmult_comm (1 + u)); apply Qmult_le_compat_r; lra).
  assert (2 * (q * u) * u <= 1 * u) by (apply Qmult_le_compat_r; lra). lra.
Qed.
Lemma pow24_down m : 1 - Qnat m * u24 <= (1 - u24) ^ Z.of_nat m.
Proof.
  pose proof u24_bounds as [U1 U2]. induction m as [|m IH]; [vm_compute; discriminate|].
  assert (E : Qnat (S m) == Qnat m + 1) by (unfold Qnat; rewrite Nat2Z.inj_succ; unfold Z.succ; rewrite inject_Z_plus; reflexivity).
  rewrite E. assert (M0 : 0 <= Qnat m) by (unfold Qnat; change 0 with (inject_Z 0); rewrite <- Zle_Qle; lia).
  rewrite pow_S. set (p := (1 - u24) ^ Z.of_nat m) in *. set (q := Qnat m) in *. set (u := u24) in *. clearbody p q u.
  assert ((1 - u) * (1 - q * u) <= (1 - u) * p) by (rewrite !(Qmult_comm (1 - u)); apply Qmult_le_compat_r; lra).
  assert (0 <= q * u * u) by (apply Qmult_le_0_compat; [apply Qmult_le_0_compat|]; lra). lra.
Qed.
Lemma within24_abs m a x : 0 <= x -> Qnat m * u24 <= 1 # 2 -> within u24 m a x -> Qabs (a - x) <= 2 * (Qnat m * u24) * x.
Proof.
  intros Hx Hm [A B]. pose proof (pow24_up m Hm) as P. pose proof (pow24_down m) as R. set (p := (1 + u24) ^ Z.of_nat m) in *. set (r := (1 - u24) ^ Z.of_nat m) in *.
  assert (K : 0 <= Qnat m * u24) by (apply Qmult_le_0_compat; [unfold Qnat; change 0 with (inject_Z 0); rewrite <- Zle_Qle; lia|discriminate]).
  set (k := Qnat m * u24) in *. clearbody p r k.
  assert (p * x <= (1 + 2 * k) * x) by (apply Qmult_le_compat_r; lra). assert ((1 - k) * x <= r * x) by (apply Qmult_le_compat_r; lra).
  assert (0 <= k * x) by (apply Qmult_le_0_compat; lra). apply Qabs_Qle_condition. split; lra.
Qed.

(** ** Imbalance flags *)
Lemma imb_sound a b m : fl 24 b -> Qltb (r53 (a * m)) b = true -> Qltb (a * m) b = true.
Proof.
  intros F Hb. destruct (Qltb_spec (r53 (a * m)) b) as [K|]; [|discriminate]. destruct (Qltb_spec (a * m) b) as [|J]; [reflexivity|]. exfalso.
  pose proof (rnd_ge 53 b (a * m) ltac:(lia) (fl_weaken 24 53 b ltac:(lia) F) J) as G. unfold r53 in K. lra.
Qed.
Lemma imb_exact a b m : fl 24 a -> fl 29 m -> Qltb (r53 (a * m)) b = Qltb (a * m) b.
Proof.
  intros [ma [ea [A1 A2]]] [mm [em [M1 M2]]]. assert (E : r53 (a * m) == a * m).
  { unfold r53. apply rnd_exact; [lia|]. exists (ma * mm)%Z, (ea + em)%Z. split.
    - rewrite Z.abs_mul. change (2 ^ 53)%Z with (2 ^ 24 * 2 ^ 29)%Z. apply Z.mul_lt_mono_nonneg; lia.
    - rewrite A2, M2, inject_Z_mult. fold (two (ea + em)) (two ea) (two em). rewrite two_plus. ring. }
  destruct (Qltb_spec (r53 (a * m)) b), (Qltb_spec (a * m) b); try reflexivity; lra.
Qed.

Lemma qsum_close {A} (f g h : A -> Q) is : (forall i, In i is -> Qabs (f i - g i) <= h i) -> Qabs (qsum (map f is) - qsum (map g is)) <= qsum (map h is).
Proof.
  induction is as [|i is IH]; intro K; cbn [map]; [vm_compute; discriminate|]. rewrite !qsum_cons.
  setoid_replace (f i + qsum (map f is) - (g i + qsum (map g is))) with ((f i - g i) + (qsum (map f is) - qsum (map g is))) by ring.
  eapply Qle_trans; [apply Qabs_triangle|]. apply Qplus_le_compat; [apply K; now left|apply IH; intros; apply K; now right].
Qed.

(** ** Totals, COT level and Gini *)
Section Levels.
  Variables (lv : list Z) (bv sv : list Q).
  Hypothesis Hb : forall i, 0 <= nth i bv 0.
  Hypothesis Hs : forall i, 0 <= nth i sv 0.
  Let n := length lv.
  Let t (i : nat) : Q := nth i bv 0 + nth i sv 0.
  Let T : Q := qsum (map t (seq 0 n)).
  Let tot := level_tot_f bv sv n.

  Lemma t_nonneg i : 0 <= t i.
  Proof. unfold t. pose proof (Hb i). pose proof (Hs i). lra. Qed.
  Lemma T_nonneg : 0 <= T.
  Proof. apply qsum_nonneg. intros z Hz. apply in_map_iff in Hz. destruct Hz as [j [<- _]]. apply t_nonneg. Qed.
  Lemma tot_within i : within u24 1 (r24 (t i)) (t i).
  Proof. apply within_r24; [apply t_nonneg|]. apply within_self; [exact u24_bounds|apply t_nonneg]. Qed.
  Lemma tot_sum : within u24 (n + 1) (fsum24 tot) T.
  Proof.
    unfold tot, level_tot_f, T. replace (n + 1)%nat with (1 + length (seq 0 n))%nat by (rewrite seq_length; lia).
    apply within_fsum24. intros i _. split; [apply t_nonneg|apply tot_within].
  Qed.
  Lemma tot_pos : 0 < fsum24 tot <-> 0 < T.
  Proof.
    pose proof tot_sum as W. pose proof T_nonneg as N. split; intro K.
    - destruct (Qlt_le_dec 0 T) as [|J]; [auto|]. exfalso. destruct W as [_ W]. assert (E : T == 0) by lra. rewrite E in W. lra.
    - exact (within_pos24 _ _ _ K W).
  Qed.
  Lemma gini_within : 0 < T -> exists g, within u24 (5 * n + 9) g (qsum (map (fun i => (t i / T) * (t i / T)) (seq 0 n))) /\ vp_gini_f tot = r53 (1 - g).
  Proof.
    intro HT. exists (fsum24 (map (fun x => r24 (r24 (x / fsum24 tot) * r24 (x / fsum24 tot))) tot)). split; [|reflexivity].
    pose proof tot_sum as WT. set (T0 := fsum24 tot) in *. clearbody T0. unfold tot, level_tot_f. rewrite map_map.
    replace (5 * n + 9)%nat with (4 * n + 9 + length (seq 0 n))%nat by (rewrite seq_length; lia).
    apply within_fsum24. intros i _. pose proof (t_nonneg i) as N. assert (Q : 0 <= t i / T) by (apply Qle_shift_div_l; lra).
    split; [now apply Qmult_le_0_compat|]. fold (t i).
    assert (W : within u24 (2 * n + 4) (r24 (r24 (t i) / T0)) (t i / T)).
    { replace (2 * n + 4)%nat with (S (1 + 2 * (n + 1)))%nat by lia. apply within_r24; [auto|]. apply within_div24; auto. apply tot_within. }
    replace (4 * n + 9)%nat with (S ((2 * n + 4) + (2 * n + 4)))%nat by lia. apply within_r24; [now apply Qmult_le_0_compat|]. now apply within_mult24.
  Qed.
  (** ** Skew *)
  Variable M : Q.
  Hypothesis HM : forall i, (i < n)%nat -> 0 <= inject_Z (nth i lv 0%Z) <= M.
  Hypothesis Hn : Qnat (n + 8) * u24 <= 1 # 16.
  Let l (i : nat) : Q := inject_Z (nth i lv 0%Z).
  Let Qs : Q := qsum (map (fun i => l i * t i) (seq 0 n)).
  Let V := level_vwap_f lv tot.

  Lemma Qn_nonneg k : 0 <= Qnat k.
  Proof. unfold Qnat. change 0 with (inject_Z 0). rewrite <- Zle_Qle. lia. Qed.
  Lemma Qn_plus k m : Qnat (k + m) == Qnat k + Qnat m.
  Proof. unfold Qnat. rewrite Nat2Z.inj_add, inject_Z_plus. reflexivity. Qed.
  Lemma vwap_close : 0 < T -> Qabs (V - Qs / T) <= 4 * Qnat (n + 4) * u24 * (Qs / T) /\ 0 <= Qs / T <= M /\ 0 <= V <= (3 # 2) * M.
  Proof.
    intro HT. assert (Q0 : 0 <= Qs).
    { apply qsum_nonneg. intros z Hz. apply in_map_iff in Hz. destruct Hz as [j [<- Hj]]. apply in_seq in Hj. apply Qmult_le_0_compat; [apply HM; lia|apply t_nonneg]. }
    assert (WP : within u24 (n + 3) (fsum24 (map (fun i => r24 (r24 (l i) * nth i tot 0)) (seq 0 n))) Qs).
    { unfold Qs. replace (n + 3)%nat with (3 + length (seq 0 n))%nat by (rewrite seq_length; lia). apply within_fsum24. intros i Hi. apply in_seq in Hi.
      assert (L0 : 0 <= l i) by (apply HM; lia). split; [apply Qmult_le_0_compat; [auto|apply t_nonneg]|].
      apply within_r24; [apply Qmult_le_0_compat; [auto|apply t_nonneg]|]. apply (within_mult24 1 1); auto; [apply t_nonneg| |].
      - apply within_r24; [auto|]. apply within_self; [exact u24_bounds|auto].
      - unfold tot, level_tot_f. rewrite nth_map_seq by lia. apply tot_within. }
    pose proof tot_sum as WT. pose proof (proj2 tot_pos HT) as TP.
    assert (EV : V = r24 (fsum24 (map (fun i => r24 (r24 (l i) * nth i tot 0)) (seq 0 n)) / fsum24 tot)) by reflexivity.
    set (P := fsum24 (map (fun i => r24 (r24 (l i) * nth i tot 0)) (seq 0 n))) in *. set (Tf := fsum24 tot) in *.
    assert (W0 : 0 <= Qs / T) by (apply Qle_shift_div_l; lra).
    assert (WM : Qs / T <= M).
    { apply Qle_shift_div_r; [auto|]. unfold Qs, T. rewrite <- qsum_map_scal. apply qsum_le. intros i Hi. apply in_seq in Hi. apply Qmult_le_compat_r; [apply HM; lia|apply t_nonneg]. }
    assert (N4 : Qnat (n + 4) * u24 <= 1 # 16).
    { eapply Qle_trans; [|exact Hn]. apply Qmult_le_compat_r; [|discriminate]. rewrite !Qn_plus. pose proof (Qn_nonneg n). assert (Qnat 4 == 4) by reflexivity. assert (Qnat 8 == 8) by reflexivity. lra. }
    assert (N3 : Qnat (n + 3) * u24 <= Qnat (n + 4) * u24 - u24).
    { rewrite !Qn_plus. assert (Qnat 4 == 4) by reflexivity. assert (Qnat 3 == 3) by reflexivity. rewrite H, H0. lra. }
    assert (N1 : Qnat (n + 1) * u24 <= Qnat (n + 4) * u24 - 3 * u24).
    { rewrite !Qn_plus. assert (Qnat 4 == 4) by reflexivity. assert (Qnat 1 == 1) by reflexivity. rewrite H, H0. lra. }
    pose proof u24_bounds as [U1 U2].
    assert (TL : (1 - Qnat (n + 1) * u24) * T <= Tf) by (destruct WT as [WT _]; eapply Qle_trans; [|exact WT]; apply Qmult_le_compat_r; [apply pow24_down|lra]).
    assert (TU : Tf <= (1 + 2 * (Qnat (n + 1) * u24)) * T) by (destruct WT as [_ WT]; eapply Qle_trans; [exact WT|]; apply Qmult_le_compat_r; [apply pow24_up; lra|lra]).
    assert (PL : (1 - Qnat (n + 3) * u24) * Qs <= P) by (destruct WP as [WP _]; eapply Qle_trans; [|exact WP]; apply Qmult_le_compat_r; [apply pow24_down|lra]).
    assert (PU : P <= (1 + 2 * (Qnat (n + 3) * u24)) * Qs) by (destruct WP as [_ WP]; eapply Qle_trans; [exact WP|]; apply Qmult_le_compat_r; [apply pow24_up; lra|lra]).
    set (W := Qs / T) in *. assert (EQ : Qs == W * T) by (unfold W; field; lra).
    pose proof (r24_err (P / Tf)) as RE. rewrite <- EV in RE. set (q := P / Tf) in *. assert (Eq : q * Tf == P) by (unfold q; field; lra).
    set (y := Qnat (n + 4) * u24) in *. assert (E4 : 4 * Qnat (n + 4) * u24 * W == 4 * y * W) by (unfold y; ring). rewrite E4.
    set (x3 := Qnat (n + 3) * u24) in *. set (x1 := Qnat (n + 1) * u24) in *. set (u := u24) in *.
    assert (X1 : 0 <= x1) by (apply Qmult_le_0_compat; [apply Qn_nonneg|exact U1]). assert (X3 : 0 <= x3) by (apply Qmult_le_0_compat; [apply Qn_nonneg|exact U1]).
    clearbody P Tf W q y x3 x1 u V. clear WP WT.
    (* q <= (1 + 2 x) / (1 - x) W, with x = y - u *)
    assert (QU : q <= (1 + (10 # 3) * (y - u)) * W).
    { destruct (Qlt_le_dec ((1 + (10 # 3) * (y - u)) * W) q) as [K|K]; [exfalso|exact K].
      assert (K2 : (1 + (10 # 3) * (y - u)) * W * Tf < P) by (rewrite <- Eq; apply Qmult_lt_compat_r; auto).
      assert (K3 : (1 + (10 # 3) * (y - u)) * W * ((1 - x1) * T) <= (1 + (10 # 3) * (y - u)) * W * Tf).
      { rewrite !(Qmult_comm ((1 + (10 # 3) * (y - u)) * W)). apply Qmult_le_compat_r; [auto|]. apply Qmult_le_0_compat; lra. }
      assert (K4 : P <= (1 + 2 * (y - u)) * (W * T)). { rewrite <- EQ. eapply Qle_trans; [exact PU|]. apply Qmult_le_compat_r; [lra|auto]. }
      assert (K5 : (1 + 2 * (y - u)) * (W * T) <= (1 + (10 # 3) * (y - u)) * (1 - x1) * (W * T)).
      { apply Qmult_le_compat_r; [|rewrite <- EQ; auto]. nra. }
      lra. }
    assert (QL : (1 - 3 * (y - u)) * W <= q).
    { destruct (Qlt_le_dec q ((1 - 3 * (y - u)) * W)) as [K|K]; [exfalso|exact K].
      assert (K2 : P < (1 - 3 * (y - u)) * W * Tf) by (rewrite <- Eq; apply Qmult_lt_compat_r; auto).
      assert (K3 : (1 - 3 * (y - u)) * W * Tf <= (1 - 3 * (y - u)) * W * ((1 + 2 * x1) * T)).
      { rewrite !(Qmult_comm ((1 - 3 * (y - u)) * W)). apply Qmult_le_compat_r; [auto|]. apply Qmult_le_0_compat; lra. }
      assert (K4 : (1 - (y - u)) * (W * T) <= P). { rewrite <- EQ. eapply Qle_trans; [|exact PL]. apply Qmult_le_compat_r; [lra|auto]. }
      assert (K5 : (1 - 3 * (y - u)) * (1 + 2 * x1) * (W * T) <= (1 - (y - u)) * (W * T)).
      { apply Qmult_le_compat_r; [|rewrite <- EQ; auto]. nra. }
      lra. }
    assert (q0 : 0 <= q) by nra. rewrite (Qabs_pos q) in RE by auto. apply Qabs_Qle_condition in RE.
    assert (Qu : q * u <= (5 # 4) * W * u) by (apply Qmult_le_compat_r; [nra|lra]).
    assert (VU : Qabs (V - W) <= 4 * y * W). { apply Qabs_Qle_condition. split; nra. }
    split; [exact VU|]. split; [split; lra|]. apply Qabs_Qle_condition in VU. split; nra.
  Qed.
  (** Cumulative offset of the float deviations. *)
  Let D (i : nat) : Q := r24 (r24 (l i) - V).
  Lemma dev_close i : 0 < T -> (i < n)%nat -> Qabs (D i - (l i - V)) <= 3 * u24 * M /\ Qabs (D i) <= 2 * M.
  Proof.
    intros HT Hi. destruct (vwap_close HT) as [_ [_ [V0 V1]]]. pose proof (HM i Hi) as [L0 L1]. fold (l i) in L0, L1. unfold D.
    pose proof (r24_err (l i)) as E1. rewrite (Qabs_pos (l i)) in E1 by auto. pose proof (r24_err (r24 (l i) - V)) as E2.
    pose proof u24_bounds as [U1 _]. assert (U3 : u24 <= 1 # 100) by (vm_compute; discriminate). clearbody V. set (x := r24 (l i)) in *. set (y := r24 (x - V)) in *. set (z := l i) in *. set (u := u24) in *. clearbody x y z u.
    apply Qabs_Qle_condition in E1. assert (A : z * u <= M * u) by (apply Qmult_le_compat_r; auto). assert (B : M * u <= (1 # 100) * M) by (rewrite Qmult_comm; apply Qmult_le_compat_r; lra).
    assert (B2 : z * u <= (1 # 100) * z) by (rewrite Qmult_comm; apply Qmult_le_compat_r; lra).
    assert (C : Qabs (x - V) <= (3 # 2) * M) by (apply Qabs_Qle_condition; split; lra).
    assert (C2 : Qabs (x - V) * u <= (3 # 2) * M * u) by (apply Qmult_le_compat_r; auto). apply Qabs_Qle_condition in E2. apply Qabs_Qle_condition in C.
    split; apply Qabs_Qle_condition; split; lra.
  Qed.

  Lemma moment_zero : 0 < T -> qsum (map (fun i => (l i - Qs / T) * t i) (seq 0 n)) == 0.
  Proof.
    intro HT. setoid_replace (qsum (map (fun i => (l i - Qs / T) * t i) (seq 0 n))) with (Qs + - (Qs / T) * T); [field; lra|].
    unfold Qs at 2, T at 3. rewrite <- qsum_map_scal, <- qsum_map_plus. apply qsum_map_ext. intros. ring.
  Qed.

  Lemma skew_small dot : dot_ok dot -> 0 < T -> Qabs (vp_skew_f dot lv tot) <= Qnat (9 * n + 29) * u24 * M.
  Proof.
    intros OK HT. destruct (vwap_close HT) as [VC [[W0 W1] _]]. pose proof (moment_zero HT) as MZ. set (W := Qs / T) in *. clearbody W.
    unfold vp_skew_f. fold n V. fold D.
    change (map (fun i : nat => r24 (r24 (inject_Z (nth i lv 0%Z)) - V)) (seq 0 n)) with (map D (seq 0 n)).
    assert (LX : length (map D (seq 0 n)) = n) by now rewrite map_length, seq_length.
    assert (LT : length tot = n) by (unfold tot, level_tot_f; now rewrite map_length, seq_length).
    pose proof (OK (map D (seq 0 n)) tot ltac:(lia)) as K. cbv zeta in K. rewrite LX in K. specialize (K Hn).
    assert (NX : forall i, In i (seq 0 n) -> nth i (map D (seq 0 n)) 0 * nth i tot 0 = D i * r24 (t i)).
    { intros i Hi. apply in_seq in Hi. unfold tot, level_tot_f. rewrite !nth_map_seq by lia. reflexivity. }
    assert (E1 : qsum (map (fun i => nth i (map D (seq 0 n)) 0 * nth i tot 0) (seq 0 n)) == qsum (map (fun i => D i * r24 (t i)) (seq 0 n))) by (apply qsum_map_ext; intros i Hi; now rewrite NX).
    assert (E2 : qsum (map (fun i => Qabs (nth i (map D (seq 0 n)) 0 * nth i tot 0)) (seq 0 n)) == qsum (map (fun i => Qabs (D i * r24 (t i))) (seq 0 n))) by (apply qsum_map_ext; intros i Hi; now rewrite NX).
    rewrite E1, E2 in K. clear E1 E2 NX. set (d := dot _ _) in *. clearbody d.
    pose proof u24_bounds as [U1 _]. assert (U3 : u24 <= 1 # 100) by (vm_compute; discriminate).
    assert (TB : forall i, (1 - u24) * t i <= r24 (t i) <= (1 + u24) * t i).
    { intro i. pose proof (tot_within i) as [A B]. exact (conj A B). }
    assert (M0 : 0 <= M) by lra.
    assert (A1 : qsum (map (fun i => Qabs (D i * r24 (t i))) (seq 0 n)) <= 2 * M * (1 + u24) * T).
    { unfold T. rewrite <- qsum_map_scal. apply qsum_le. intros i Hi. apply in_seq in Hi. destruct (dev_close i HT ltac:(lia)) as [_ DB].
      pose proof (TB i) as [B1 B2]. pose proof (t_nonneg i) as N. assert (R0 : 0 <= r24 (t i)) by nra.
      rewrite Qabs_Qmult, (Qabs_pos (r24 (t i))) by auto. eapply Qle_trans; [apply Qmult_le_compat_r; [exact DB|auto]|].
      set (r := r24 (t i)) in *. set (ti := t i) in *. clearbody r ti. set (u := u24) in *. clearbody u.
      setoid_replace (2 * M * (1 + u) * ti) with (2 * M * ((1 + u) * ti)) by ring. rewrite !(Qmult_comm (2 * M)). apply Qmult_le_compat_r; lra. }
    assert (A2 : Qabs (qsum (map (fun i => D i * r24 (t i)) (seq 0 n))) <= (5 * u24 * M + 4 * Qnat (n + 4) * u24 * M) * T).
    { setoid_replace (qsum (map (fun i => D i * r24 (t i)) (seq 0 n))) with (qsum (map (fun i => D i * r24 (t i)) (seq 0 n)) - qsum (map (fun i => (l i - W) * t i) (seq 0 n))) by (rewrite MZ; ring).
      unfold T. rewrite <- qsum_map_scal. apply qsum_close. intros i Hi. apply in_seq in Hi. destruct (dev_close i HT ltac:(lia)) as [DA DB].
      pose proof (TB i) as [B1 B2]. pose proof (t_nonneg i) as N.
      assert (VB : Qabs (V - W) <= 4 * Qnat (n + 4) * u24 * M).
      { eapply Qle_trans; [exact VC|]. rewrite !(Qmult_comm (4 * Qnat (n + 4) * u24)). apply Qmult_le_compat_r; [auto|]. repeat apply Qmult_le_0_compat; auto; try discriminate; apply Qn_nonneg. }
      set (k := 4 * Qnat (n + 4) * u24 * M) in *. set (r := r24 (t i)) in *. set (ti := t i) in *. set (u := u24) in *. set (Di := D i) in *. set (li := l i) in *. clearbody k r ti u Di li V.
      apply Qabs_Qle_condition in DA. apply Qabs_Qle_condition in VB.
      setoid_replace (Di * r - (li - W) * ti) with (Di * (r - ti) + (Di - (li - V) - (V - W)) * ti) by ring.
      eapply Qle_trans; [apply Qabs_triangle|]. rewrite !Qabs_Qmult, (Qabs_pos ti) by auto.
      assert (X1 : Qabs (r - ti) <= u * ti) by (apply Qabs_Qle_condition; split; lra).
      assert (X2 : Qabs (Di - (li - V) - (V - W)) <= 3 * u * M + k) by (apply Qabs_Qle_condition; split; lra).
      assert (X3 : Qabs Di * Qabs (r - ti) <= 2 * M * (u * ti)).
      { eapply Qle_trans; [apply Qmult_le_compat_r; [exact DB|apply Qabs_nonneg]|]. rewrite !(Qmult_comm (2 * M)). apply Qmult_le_compat_r; lra. }
      assert (X4 : Qabs (Di - (li - V) - (V - W)) * ti <= (3 * u * M + k) * ti) by (apply Qmult_le_compat_r; auto).
      lra. }
    assert (TL : (15 # 16) * T <= fsum24 tot).
    { pose proof tot_sum as [WT _]. eapply Qle_trans; [|exact WT]. apply Qmult_le_compat_r; [|lra]. eapply Qle_trans; [|apply pow24_down].
      assert (X : Qnat (n + 1) * u24 <= 1 # 16); [|lra]. eapply Qle_trans; [|exact Hn]. apply Qmult_le_compat_r; [|auto]. rewrite !Qn_plus. assert (E : Qnat 1 == 1) by reflexivity. assert (E' : Qnat 8 == 8) by reflexivity. lra. }
    assert (QN : Qnat (n + 4) == Qnat n + 4) by (rewrite Qn_plus; reflexivity). assert (QN1 : Qnat (n + 1) == Qnat n + 1) by (rewrite Qn_plus; reflexivity).
    assert (QN8 : Qnat (n + 8) == Qnat n + 8) by (rewrite Qn_plus; reflexivity).
    assert (QN9 : Qnat (9 * n + 29) == 9 * Qnat n + 29).
    { unfold Qnat. rewrite Nat2Z.inj_add, Nat2Z.inj_mul, inject_Z_plus, inject_Z_mult. reflexivity. }
    rewrite QN in A2. rewrite QN1 in K. rewrite QN9. pose proof Hn as Hn'. rewrite QN8 in Hn'. pose proof (Qn_nonneg n) as N0.
    set (N := Qnat n) in *. set (sm := qsum (map (fun i => D i * r24 (t i)) (seq 0 n))) in *. set (sa := qsum (map (fun i => Qabs (D i * r24 (t i))) (seq 0 n))) in *.
    set (Tf := fsum24 tot) in *. clearbody N sm sa Tf.
    pose proof (r24_err (d / Tf)) as RE. set (q := d / Tf) in *. assert (TP : 0 < Tf) by lra. assert (Eq : q * Tf == d) by (unfold q; field; lra). clearbody q. set (rq := r24 q) in *. clearbody rq.
    set (u := u24) in *. clearbody u.
    set (MT := M * T) in *. assert (MT0 : 0 <= MT) by (apply Qmult_le_0_compat; lra).
    assert (Nu : 0 <= N * u) by (apply Qmult_le_0_compat; auto).
    assert (K2 : 2 * (N + 1) * u * sa <= (4 * N + 5) * u * MT).
    { eapply Qle_trans with (2 * (N + 1) * u * (2 * M * (1 + u) * T)).
      - rewrite !(Qmult_comm (2 * (N + 1) * u)). apply Qmult_le_compat_r; [auto|]. repeat apply Qmult_le_0_compat; lra.
      - setoid_replace (2 * (N + 1) * u * (2 * M * (1 + u) * T)) with ((4 * (N + 1) * (1 + u)) * u * MT) by (unfold MT; ring).
        apply Qmult_le_compat_r; [|auto]. apply Qmult_le_compat_r; [|auto]. lra. }
    assert (A3 : (5 * u * M + 4 * (N + 4) * u * M) * T == (4 * N + 21) * u * MT) by (unfold MT; ring). rewrite A3 in A2.
    assert (DD : Qabs d <= (8 * N + 26) * u * MT).
    { setoid_replace d with ((d - sm) + sm) by ring. eapply Qle_trans; [apply Qabs_triangle|]. lra. }
    assert (QB : Qabs q <= (16 # 15) * ((8 * N + 26) * u * M)).
    { destruct (Qlt_le_dec ((16 # 15) * ((8 * N + 26) * u * M)) (Qabs q)) as [C|C]; [exfalso|auto].
      assert (C1 : (16 # 15) * ((8 * N + 26) * u * M) * Tf < Qabs q * Tf) by (apply Qmult_lt_compat_r; auto).
      assert (C2 : Qabs q * Tf == Qabs d) by (rewrite <- Eq, Qabs_Qmult, (Qabs_pos Tf) by lra; reflexivity).
      assert (C3 : (16 # 15) * ((8 * N + 26) * u * M) * ((15 # 16) * T) <= (16 # 15) * ((8 * N + 26) * u * M) * Tf).
      { rewrite !(Qmult_comm ((16 # 15) * ((8 * N + 26) * u * M))). apply Qmult_le_compat_r; [auto|]. repeat apply Qmult_le_0_compat; lra. }
      assert (C4 : (16 # 15) * ((8 * N + 26) * u * M) * ((15 # 16) * T) == (8 * N + 26) * u * MT) by (unfold MT; ring). lra. }
    assert (RB : Qabs rq <= (1 + u) * Qabs q).
    { setoid_replace rq with ((rq - q) + q) by ring. eapply Qle_trans; [apply Qabs_triangle|]. lra. }
    assert (UM : 0 <= u * M) by (apply Qmult_le_0_compat; auto). assert (NUM : 0 <= N * (u * M)) by (apply Qmult_le_0_compat; auto).
    pose proof (Qabs_nonneg q) as Q0. assert (RB2 : (1 + u) * Qabs q <= (101 # 100) * Qabs q) by (apply Qmult_le_compat_r; lra).
    lra.
  Qed.

  (** Centre of trades. *)
  Lemma cot_close i : (i < n)%nat -> (argmax tot < n)%nat /\ r24 (t i) <= r24 (t (argmax tot)) /\ (1 - u24) * t i <= (1 + u24) * t (argmax tot).
  Proof.
    intro Hi. assert (LT : length tot = n) by (unfold tot, level_tot_f; now rewrite map_length, seq_length).
    destruct (argmax_spec tot) as [A [B _]]; [intro E; rewrite E in LT; cbn in LT; lia|]. rewrite LT in A, B. split; [auto|].
    specialize (B i Hi). assert (E : forall k, (k < n)%nat -> nth k tot 0 = r24 (t k)) by (intros; unfold tot, level_tot_f; now rewrite nth_map_seq by lia).
    rewrite !E in B by auto. split; [auto|]. pose proof (tot_within i) as [X _]. pose proof (tot_within (argmax tot)) as [_ Y].
    change ((1 - u24) ^ Z.of_nat 1) with (1 - u24) in X. change ((1 + u24) ^ Z.of_nat 1) with (1 + u24) in Y. lra.
  Qed.
End Levels.
