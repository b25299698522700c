(** P_sizef.v -- lemmas for trade-size features in float64 (M_float13.v). *)
From Coq Require Import Qround.
From Verif Require Import Base M_logic M_bars M_features M_float M_float2 M_float13 S_bars S_float.
From Verif Require Import P_sort P_bars P_weights P_features P_float P_float2 P_float3 P_float5 P_float7 P_float9 P_float11 P_float12 P_float13 P_sumf P_retf.
Open Scope Q_scope.

(** ** Rank of the percentile *)
Lemma floor_unique x z : inject_Z z <= x -> x < inject_Z z + 1 -> Qfloor x = z.
Proof.
  intros A B. pose proof (Qfloor_le x) as C. pose proof (Qlt_floor x) as D. rewrite inject_Z_plus in D. change (inject_Z 1) with 1 in D.
  assert (inject_Z (Qfloor x) < inject_Z (z + 1)) by (rewrite inject_Z_plus; change (inject_Z 1) with 1; lra).
  assert (inject_Z z < inject_Z (Qfloor x + 1)) by (rewrite inject_Z_plus; change (inject_Z 1) with 1; lra).
  rewrite <- Zlt_Qlt in *. lia.
Qed.
Definition c95 : Q := r53 (95 / 100).
Lemma c95_val : c95 == 4278419646001971 # 4503599627370496.
Proof. vm_compute. reflexivity. Qed.
Lemma r53_near_fl x z : fl 53 z -> 0 < z -> Qabs (z - x) <= (45 # 100) * u53 * z -> r53 x == z.
Proof.
  intros F P K. pose proof (rnd_nearest 53 x ltac:(lia)) as [Fr [N _]]. specialize (N z F). fold (r53 x) in N, Fr.
  assert (U : 0 < u53 /\ u53 <= 1 # 100) by (split; [reflexivity|vm_compute; discriminate]). destruct U as [U0 U1].
  assert (D : Qabs (r53 x - z) <= (90 # 100) * u53 * z).
  { setoid_replace (r53 x - z) with ((r53 x - x) + - (z - x)) by ring. eapply Qle_trans; [apply Qabs_triangle|]. rewrite Qabs_opp. lra. }
  apply Qabs_Qle_condition in D. set (u := u53) in *. assert (uz : 0 < u * z) by nra. assert (uz2 : u * z <= (1 # 100) * z) by (apply Qmult_le_compat_r; lra).
  destruct (Q_dec (r53 x) z) as [[L|L]|E]; [| |exact E]; exfalso.
  - pose proof (fl_below (r53 x) z Fr F ltac:(lra) L). fold u in H. lra.
  - pose proof (fl_above (r53 x) z Fr F P L). fold u in H. lra.
Qed.
Lemma rank_err n : (2 <= n)%nat -> (Z.of_nat n <= 2 ^ 53)%Z -> Qabs (pct_rank_f n 95 - (1 + Qnat (n - 1) * (95 # 100))) <= 3 * u53 * Qnat n.
Proof.
  intros H2 _. unfold pct_rank_f. fold c95. assert (EN : Qnat n == Qnat (n - 1) + 1).
  { unfold Qnat. replace (Z.of_nat n) with (Z.of_nat (n - 1) + 1)%Z by lia. rewrite inject_Z_plus. reflexivity. }
  assert (N0 : 0 <= Qnat (n - 1)) by (unfold Qnat; change 0 with (inject_Z 0); rewrite <- Zle_Qle; lia).
  set (N := Qnat (n - 1)) in *. clearbody N. rewrite EN. pose proof c95_val as C.
  assert (C1 : Qabs (c95 - (95 # 100)) <= (1 # 2) * u53) by (vm_compute; discriminate).
  assert (C2 : 0 <= c95 <= 96 # 100) by (split; vm_compute; discriminate).
  set (c := c95) in *. clearbody c. pose proof (r53_err (N * c)) as E1. set (A := r53 (N * c)) in *. pose proof (r53_err (1 + A)) as E2. set (R := r53 (1 + A)) in *. clearbody A R.
  assert (U : 0 < u53 /\ u53 <= 1 # 100) by (split; [reflexivity|vm_compute; discriminate]). set (u := u53) in *. clearbody u.
  apply Qabs_Qle_condition in C1. assert (P : 0 <= N * c) by (apply Qmult_le_0_compat; lra). rewrite (Qabs_pos (N * c)) in E1 by auto. apply Qabs_Qle_condition in E1.
  assert (P2 : N * c <= N * (96 # 100)) by (rewrite !(Qmult_comm N); apply Qmult_le_compat_r; lra).
  assert (P3 : N * c * u <= N * (96 # 100) * u) by (apply Qmult_le_compat_r; lra).
  assert (P4 : N * (96 # 100) * u <= N * (96 # 100) * (1 # 100)) by (rewrite !(Qmult_comm (N * (96 # 100))); apply Qmult_le_compat_r; lra).
  assert (P5 : N * c * u <= N * c * (1 # 100)) by (rewrite !(Qmult_comm (N * c)); apply Qmult_le_compat_r; lra).
  rewrite (Qabs_pos (1 + A)) in E2 by lra. apply Qabs_Qle_condition in E2.
  assert (P6 : (1 + A) * u <= (1 + N) * u) by (apply Qmult_le_compat_r; lra).
  assert (Q1 : N * (c - (95 # 100)) <= N * ((1 # 2) * u)) by (rewrite !(Qmult_comm N); apply Qmult_le_compat_r; lra).
  assert (Q2 : N * (- ((1 # 2) * u)) <= N * (c - (95 # 100))) by (rewrite !(Qmult_comm N); apply Qmult_le_compat_r; lra).
  assert (Nu : 0 <= N * u) by (apply Qmult_le_0_compat; lra).
  apply Qabs_Qle_condition. split; lra.
Qed.

Lemma rank_floor n : (2 <= n)%nat -> (Z.of_nat n <= 2 ^ 40)%Z -> exists i m, (S i < n)%nat /\ 0 <= m /\ m < 1 /\
  Qfloor (pct_rank_f n 95) = (Z.of_nat i + 1)%Z /\ pct_rank_f n 95 == Qnat i + 1 + m /\
  Qnat i <= Qnat (n - 1) * (95 # 100) < Qnat i + 1 /\ Qabs (Qnat i + m - Qnat (n - 1) * (95 # 100)) <= 3 * u53 * Qnat n /\
  ((Z.of_nat (n - 1) mod 20 = 0)%Z -> m == 0).
Proof.
  intros H2 H40. pose proof (rank_err n H2 ltac:(lia)) as E. set (N := Z.of_nat (n - 1)).
  assert (EX : Qnat (n - 1) * (95 # 100) == inject_Z (19 * N) / 20) by (unfold Qnat; fold N; rewrite inject_Z_mult; field).
  set (q := (19 * N / 20)%Z). set (r := (19 * N mod 20)%Z). assert (DM : (19 * N = 20 * q + r)%Z) by (apply Z.div_mod; lia).
  assert (Hr : (0 <= r < 20)%Z) by (apply Z.mod_pos_bound; lia). assert (q0 : (0 <= q)%Z) by (apply Z.div_pos; lia).
  assert (EX2 : Qnat (n - 1) * (95 # 100) == inject_Z q + inject_Z r * (1 # 20)) by (rewrite EX, DM, inject_Z_plus, inject_Z_mult; field).
  assert (qn : (q + 1 < Z.of_nat n)%Z) by (unfold N in *; lia).
  assert (R0 : 0 <= inject_Z r <= 19) by (split; [change 0 with (inject_Z 0)|change 19 with (inject_Z 19)]; rewrite <- Zle_Qle; lia).
  assert (SM : 3 * u53 * Qnat n <= 1 # 1000).
  { eapply Qle_trans with (3 * u53 * inject_Z (2 ^ 40)); [|vm_compute; discriminate]. rewrite !(Qmult_comm (3 * u53)). apply Qmult_le_compat_r; [|discriminate]. unfold Qnat. now rewrite <- Zle_Qle. }
  assert (EQ : Qnat (Z.to_nat q) == inject_Z q) by (unfold Qnat; rewrite Z2Nat.id by lia; reflexivity).
  assert (Ex0 : (r = 0)%Z -> pct_rank_f n 95 == 1 + inject_Z q).
  { intro Z0. assert (K : exists k, (N = 20 * k)%Z /\ (q = 19 * k)%Z).
    { exists (N / 20)%Z. assert (M0 : (N mod 20 = 0)%Z).
      { pose proof (Z.mod_pos_bound N 20 ltac:(lia)). pose proof (Z.div_mod N 20 ltac:(lia)). set (h := (N / 20)%Z) in *. set (g := (N mod 20)%Z) in *. lia. }
      pose proof (Z.div_mod N 20 ltac:(lia)). lia. }
    destruct K as [k [K1 K2]]. assert (k1 : (1 <= k)%Z) by (unfold N in *; lia). unfold pct_rank_f. fold c95.
    assert (A : r53 (Qnat (n - 1) * c95) == inject_Z q).
    { apply r53_near_fl; [apply fl_int; unfold N in *; lia|change 0 with (inject_Z 0); rewrite <- Zlt_Qlt; lia|].
      unfold Qnat. fold N. rewrite K1, K2, !inject_Z_mult. rewrite c95_val.
      setoid_replace (inject_Z 19 * inject_Z k - inject_Z 20 * inject_Z k * (4278419646001971 # 4503599627370496)) with (inject_Z k * (19 - 20 * (4278419646001971 # 4503599627370496))) by ring.
      rewrite Qabs_Qmult. assert (k0 : 0 <= inject_Z k) by (change 0 with (inject_Z 0); rewrite <- Zle_Qle; lia). rewrite (Qabs_pos (inject_Z k)) by auto.
      setoid_replace ((45 # 100) * u53 * (inject_Z 19 * inject_Z k)) with (inject_Z k * ((45 # 100) * u53 * 19)) by (change (inject_Z 19) with 19; ring).
      rewrite !(Qmult_comm (inject_Z k)). apply Qmult_le_compat_r; [vm_compute; discriminate|auto]. }
    assert (RC : forall a b, a == b -> r53 a == r53 b) by (intros a b Hab; unfold r53; rewrite (rnd_comp 53 a b Hab); reflexivity).
    rewrite (RC _ (inject_Z (1 + q))); [|rewrite A, inject_Z_plus; reflexivity]. unfold r53. rewrite rnd_exact; [rewrite inject_Z_plus; reflexivity|lia|]. apply fl_int. unfold N in *; lia. }
  exists (Z.to_nat q), (pct_rank_f n 95 - (1 + inject_Z q)). rewrite EQ. rewrite EX2 in E |- *. apply Qabs_Qle_condition in E.
  set (R := pct_rank_f n 95) in *. clearbody R.
  assert (B : 0 <= R - (1 + inject_Z q) < 1).
  { destruct (Z.eq_dec r 0) as [Z0|NZ]; [rewrite (Ex0 Z0); lra|].
    assert (R1 : 1 <= inject_Z r) by (change 1 with (inject_Z 1); rewrite <- Zle_Qle; lia). lra. }
  split; [lia|]. split; [lra|]. split; [lra|]. split; [rewrite Z2Nat.id by lia; apply floor_unique; rewrite inject_Z_plus; change (inject_Z 1) with 1; lra|].
  split; [ring|]. split; [lra|]. split; [apply Qabs_Qle_condition; split; lra|].
  intro M0. fold N in M0. rewrite Ex0; [ring|]. unfold r. rewrite Z.mul_mod, M0 by lia. reflexivity.
Qed.

(** ** Percentile *)
Lemma r53_comp a b : a == b -> r53 a == r53 b.
Proof. intro Hab. unfold r53. rewrite (rnd_comp 53 a b Hab). reflexivity. Qed.
Lemma percentile_f_spec xs : (1 <= length xs)%nat -> (Z.of_nat (length xs) <= 2 ^ 40)%Z -> (forall x, In x xs -> 0 <= x) ->
  let n := length xs in let s := qsort xs in exists i m, (i < n)%nat /\ 0 <= m /\ m < 1 /\
  Qnat i <= Qnat (n - 1) * (95 # 100) < Qnat i + 1 /\ Qabs (Qnat i + m - Qnat (n - 1) * (95 # 100)) <= 3 * u53 * Qnat n /\
  within u53 2 (percentile_f xs 95) (nth i s 0 * (1 - m) + nth (Nat.min (S i) (n - 1)) s 0 * m) /\
  ((Z.of_nat (n - 1) mod 20 = 0)%Z -> (forall x, In x xs -> fl 53 x) -> percentile_f xs 95 == nth i s 0).
Proof.
  intros H1 H40 Hx n s. assert (LS : length s = n) by apply qsort_length.
  assert (IS : forall k, (k < n)%nat -> In (nth k s 0) xs).
  { intros k Hk. apply (Permutation_in (l := s)); [unfold s; symmetry; apply qsort_perm|apply nth_In; lia]. }
  unfold percentile_f. fold n. destruct (Nat.eqb_spec n 1) as [E1|E1].
  - exists 0%nat, 0. rewrite E1. split; [lia|]. split; [lra|]. split; [lra|]. split; [vm_compute; split; [discriminate|reflexivity]|].
    split; [vm_compute; discriminate|]. unfold s, n in *. destruct xs as [|x [|y t]]; try discriminate E1. cbn [qsort fold_right qinsert nth Nat.min Nat.sub].
    assert (X0 : 0 <= x) by (apply Hx; now left). split; [|reflexivity].
    apply (within_exact 2); [lra|ring].
  - destruct (rank_floor n ltac:(unfold n in *; lia) H40) as [i [m [Hi [M0 [M1 [F [R [I1 [I2 I3]]]]]]]]]. fold s. rewrite F.
    assert (Fr : fl 53 (pct_rank_f n 95)) by (apply (rnd_nearest 53); lia).
    assert (P1 : 1 <= pct_rank_f n 95) by (rewrite R; assert (0 <= Qnat i) by (unfold Qnat; change 0 with (inject_Z 0); rewrite <- Zle_Qle; lia); lra).
    assert (PU : pct_rank_f n 95 < two 53).
    { rewrite R. assert (Qnat i + 2 <= inject_Z (2 ^ 41)); [|assert (inject_Z (2 ^ 41) < two 53) by reflexivity; lra].
      unfold Qnat. change 2 with (inject_Z 2). rewrite <- inject_Z_plus, <- Zle_Qle. lia. }
    set (rk := pct_rank_f n 95) in *. destruct (ilog_spec rk ltac:(lra)) as [G1 G2]. rewrite (Qabs_pos rk) in G1, G2 by lra.
    assert (GL : (ilog rk < 53)%Z) by (apply two_lt_inv; lra).
    pose proof (fl_ulp rk Fr ltac:(lra)) as GR. set (g := (ilog rk - 52)%Z) in *.
    assert (GZ : forall z, grid g (inject_Z z)). { intro z. apply (grid_coarse g 0); [lia|]. exists z. change (2 ^ 0) with 1. ring. }
    assert (T1 : 1 <= two (53 + g)) by (replace (53 + g)%Z with (ilog rk + 1)%Z by lia; lra).
    assert (Gm : grid g m). { apply (grid_comp g (rk - inject_Z (Z.of_nat i + 1))); [rewrite R, inject_Z_plus; unfold Qnat; change (inject_Z 1) with 1; ring|]. apply grid_minus; auto. }
    assert (E2 : r53 (rk - inject_Z (Z.of_nat i + 1)) == m).
    { rewrite (r53_comp _ m); [|rewrite R, inject_Z_plus; unfold Qnat; change (inject_Z 1) with 1; ring]. apply (grid_rnd 53 g); [lia|auto|lra]. }
    assert (E3 : r53 (1 - r53 (rk - inject_Z (Z.of_nat i + 1))) == 1 - m).
    { rewrite (r53_comp _ (1 - m)); [|rewrite E2; reflexivity]. apply (grid_rnd 53 g); [lia|apply grid_minus; [exact (GZ 1%Z)|auto]|lra]. }
    replace (Z.to_nat (Z.of_nat i + 1 - 1)) with i by lia. replace (Z.to_nat (Z.of_nat i + 1)) with (S i) by lia.
    exists i, m. replace (Nat.min (S i) (n - 1)) with (S i) by lia.
    assert (L0 : 0 <= nth i s 0) by (apply Hx, IS; lia). assert (L1 : 0 <= nth (S i) s 0) by (apply Hx, IS; lia).
    split; [lia|]. split; [auto|]. split; [auto|]. split; [auto|]. split; [auto|]. set (lo := nth i s 0) in *. set (up := nth (S i) s 0) in *.
    set (a := r53 (1 - r53 (rk - inject_Z (Z.of_nat i + 1)))) in *. set (b := r53 (rk - inject_Z (Z.of_nat i + 1))) in *.
    assert (P : 0 <= lo * (1 - m)) by (apply Qmult_le_0_compat; lra). assert (P2 : 0 <= up * m) by (apply Qmult_le_0_compat; lra). split.
    + apply (within_add 1 1); auto.
      * apply within_r53; [auto|]. apply within_exact; [auto|]. now rewrite E3.
      * apply within_r53; [auto|]. apply within_exact; [auto|]. now rewrite E2.
    + intros M20 Fx. specialize (I3 M20). assert (Fl : fl 53 lo) by (apply Fx, IS; lia).
      assert (EA : r53 (lo * a) == lo) by (rewrite (r53_comp _ lo); [apply rnd_exact; [lia|auto]|rewrite E3, I3; ring]).
      assert (EB : r53 (up * b) == 0) by (rewrite (r53_comp _ 0); [reflexivity|rewrite E2, I3; ring]).
      rewrite (r53_comp _ lo); [apply rnd_exact; [lia|auto]|rewrite EA, EB; ring].
Qed.

(** ** Sums *)
Lemma within_fsum53 {A} k (v x : A -> Q) is : (forall i, In i is -> 0 <= x i /\ within u53 k (v i) (x i)) ->
  within u53 (k + length is) (fsum (map v is)) (qsum (map x is)).
Proof.
  unfold fsum. induction is as [|i is IH] using rev_ind; intro Hx; [apply within_0|].
  rewrite !map_app, fold_left_app, app_length. cbn [map fold_left length]. replace (k + (length is + 1))%nat with (S (k + length is)) by lia.
  assert (IHx : within u53 (k + length is) (fold_left (fun c x => r53 (c + x)) (map v is) 0) (qsum (map x is))).
  { apply IH. intros j Hj. apply Hx, in_or_app. now left. }
  destruct (Hx i ltac:(apply in_or_app; right; now left)) as [B0 B].
  assert (N : 0 <= qsum (map x is)).
  { apply qsum_nonneg. intros z Hz. apply in_map_iff in Hz. destruct Hz as [j [<- Hj]]. apply Hx, in_or_app. now left. }
  eapply (within_comp u53); [reflexivity| |apply (within_add (k + length is) k _ (qsum (map x is)) (v i) (x i)); auto; lia].
  rewrite qsum_app, qsum_cons. cbn. ring.
Qed.
Lemma fsum_within0 xs : (forall x, In x xs -> 0 <= x) -> within u53 (length xs) (fsum xs) (qsum xs).
Proof.
  intro Hx. pose proof (within_fsum53 0 (fun x => x) (fun x => x) xs) as W. rewrite !map_id in W. apply W. intros i Hi. split; [auto|]. apply within_self; [exact u53_bounds|auto].
Qed.
Lemma block_fold thr xs : forall c, fold_left (fun acc x => if Qltb thr x then r53 (acc + x) else acc) xs c = fold_left (fun acc x => r53 (acc + x)) (filter (Qltb thr) xs) c.
Proof. induction xs as [|x xs IH]; intro c; [reflexivity|]. cbn [fold_left filter]. destruct (Qltb thr x); cbn [fold_left]; apply IH. Qed.
Lemma block_le thr xs : (forall x, In x xs -> 0 <= x) -> forall c d, 0 <= c <= d -> fl 53 d ->
  0 <= fold_left (fun acc x => if Qltb thr x then r53 (acc + x) else acc) xs c <= fold_left (fun acc x => r53 (acc + x)) xs d.
Proof.
  induction xs as [|x xs IH]; intros Hx c d Hcd Fd; [auto|]. cbn [fold_left]. assert (X0 : 0 <= x) by (apply Hx; now left).
  assert (Fd' : fl 53 (r53 (d + x))) by (apply (rnd_nearest 53); lia).
  apply IH; [intros; apply Hx; now right| |auto]. destruct (Qltb thr x).
  - split; [apply r53_nonneg; lra|apply r53_mono; lra].
  - split; [lra|]. apply Qle_trans with d; [lra|]. apply (rnd_ge 53 d (d + x)); [lia|auto|lra].
Qed.
