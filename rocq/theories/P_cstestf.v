(** P_cstestf.v -- errors of the CUSUM test in float64. *)
From Coq Require Import Qround Qpower Qfield.
From Verif Require Import Base M_features M_cusumtest M_transforms S_transforms M_float M_float2 M_float9 S_features S_float S_cstestf.
From Verif Require Import P_weights P_features P_features2 P_float P_float2 P_float9 P_float11 P_float12 P_float13 P_sumf P_volatf P_ewmstf T_cusumtest.
Open Scope Q_scope.

(* ---------------------------------------------------------------- the square root *)
(** Comparison of nonnegative numbers by their squares. *)
Lemma sq_le a b : 0 <= b -> a * a <= b * b -> a <= b.
Proof. intros Hb H. destruct (Qlt_le_dec b a) as [K|K]; [nra|exact K]. Qed.
Lemma half_ulp r v : 1 # 2 <= r -> (r - (1 # 2)) * (r - (1 # 2)) <= v -> v <= (r + (1 # 2)) * (r + (1 # 2)) -> two 104 <= v -> within u53 2 (r * r) v.
Proof.
  intros Hr H1 H2 Hv.
  assert (P2 : forall c, c ^ Z.of_nat 2 == c * c) by (intro c; rewrite !pow_S; change (c ^ Z.of_nat 0) with 1; ring).
  unfold within. rewrite !P2. pose proof u53_bounds as U. assert (V0 : 0 < v) by (pose proof (two_pos 104); lra).
  assert (Hh : 1 # 4 <= u53 * u53 * v).
  { assert (E : u53 * u53 * two 104 == 1 # 4) by (vm_compute; reflexivity). rewrite <- E. rewrite !(Qmult_comm (u53 * u53)). apply Qmult_le_compat_r; [exact Hv|vm_compute; discriminate]. }
  assert (U1 : u53 <= 1 # 2) by (vm_compute; discriminate).
  set (u := u53) in *. clearbody u. split.
  - destruct (Qlt_le_dec (r * r) ((1 - u) * (1 - u) * v)) as [K|K]; [exfalso|exact K].
    assert (M : r * (1 # 2) <= (1 - u) * u * v).
    { apply sq_le; [apply Qmult_le_0_compat; [nra|lra]|].
      apply Qle_trans with (r * r * (u * u * v)); [assert (0 <= r * r) by nra; nra|].
      apply Qle_trans with ((1 - u) * (1 - u) * v * (u * u * v)); [apply Qmult_le_compat_r; [lra|nra]|].
      apply Qle_lteq. right. ring. }
    nra.
  - set (w := r - (1 # 2)) in *. assert (W0 : 0 <= w) by (unfold w; lra). assert (Er : r == w + (1 # 2)) by (unfold w; ring). clearbody w.
    assert (M : w * (1 # 2) <= u * v).
    { apply sq_le; [nra|]. apply Qle_trans with (v * (u * u * v)).
      - setoid_replace (w * (1 # 2) * (w * (1 # 2))) with (w * w * (1 # 4)) by ring. apply Qle_trans with (v * (1 # 4)); [apply Qmult_le_compat_r; [exact H1|discriminate]|].
        rewrite !(Qmult_comm v). apply Qmult_le_compat_r; lra.
      - apply Qle_lteq. right. ring. }
    assert (E : r * r == w * w + 2 * (w * (1 # 2)) + (1 # 4)) by (rewrite Er; ring). rewrite E. nra.
Qed.
Lemma sqrt53_rounded : sqrt_rounded sqrt53.
Proof.
  intros x Hx. unfold sqrt53. destruct (Qleb_spec x 0) as [K|K].
  - split; [discriminate|]. assert (E : x == 0) by lra. apply (within_comp u53 2 0 0); [ring|now symmetry|apply within_0].
  - set (e := (ilog x / 2 - 52)%Z). set (v := x * two (- (2 * e))). set (m := Z.sqrt (Qfloor v)).
    assert (Ev : v * (two e * two e) == x).
    { unfold v. rewrite <- two_plus. replace (e + e)%Z with (2 * e)%Z by lia. rewrite <- Qmult_assoc, (Qmult_comm (two _) (two _)), two_opp. ring. }
    assert (Vl : two 104 <= v).
    { destruct (ilog_spec x ltac:(lra)) as [A _]. rewrite Qabs_pos in A by lra. unfold v.
      apply Qle_trans with (two (2 * (ilog x / 2)) * two (- (2 * e))).
      - rewrite <- two_plus. apply two_le. unfold e. lia.
      - pose proof (two_pos (- (2 * e))). apply Qmult_le_compat_r; [|lra]. apply Qle_trans with (two (ilog x)); [|exact A]. apply two_le.
        pose proof (Z.mul_div_le (ilog x) 2 ltac:(lia)). lia. }
    assert (Fl : (2 ^ 104 <= Qfloor v)%Z).
    { rewrite <- (Qfloor_Z (2 ^ 104)). apply Qfloor_resp_le. rewrite <- two_Z by lia. exact Vl. }
    assert (Fv : inject_Z (Qfloor v) <= v) by apply Qfloor_le. assert (Fu : v < inject_Z (Qfloor v + 1)) by apply Qlt_floor.
    destruct (Z.sqrt_spec (Qfloor v) ltac:(lia)) as [S1 S2]. fold m in S1, S2.
    assert (M1 : (2 ^ 52 <= m)%Z). { unfold m. change (2 ^ 52)%Z with (Z.sqrt (2 ^ 104)). now apply Z.sqrt_le_mono. }
    assert (Q1 : inject_Z m * inject_Z m <= v) by (rewrite <- inject_Z_mult; apply Qle_trans with (inject_Z (Qfloor v)); [rewrite <- Zle_Qle; lia|exact Fv]).
    assert (Q2 : v < (inject_Z m + 1) * (inject_Z m + 1)).
    { change 1 with (inject_Z 1). rewrite <- inject_Z_plus, <- inject_Z_mult. apply Qlt_le_trans with (inject_Z (Qfloor v + 1)); [exact Fu|]. rewrite <- Zle_Qle. lia. }
    assert (Q3 : 1 <= inject_Z m) by (change 1 with (inject_Z 1); rewrite <- Zle_Qle; lia).
    assert (G : forall r, 1 # 2 <= r -> (r - (1 # 2)) * (r - (1 # 2)) <= v -> v <= (r + (1 # 2)) * (r + (1 # 2)) -> 0 <= r * two e /\ within u53 2 (r * two e * (r * two e)) x).
    { intros r R1 R2 R3. pose proof (two_pos e) as P. split; [apply Qmult_le_0_compat; lra|].
      apply (within_comp u53 2 (two e * two e * (r * r)) (two e * two e * v)); [ring|rewrite <- Ev; ring|].
      apply within_scale; [apply Qmult_le_0_compat; lra|]. now apply half_ulp. }
    assert (Ei : inject_Z (m * m + m) == inject_Z m * inject_Z m + inject_Z m) by (rewrite inject_Z_plus, inject_Z_mult; reflexivity).
    destruct (Qltb_spec (inject_Z (m * m + m) + (1 # 4)) v) as [L|L]; rewrite Ei in L.
    + assert (E1 : inject_Z (m + 1) == inject_Z m + 1) by (rewrite inject_Z_plus; reflexivity). apply G; rewrite E1; set (q := inject_Z m) in *; clearbody q; nra.
    + apply G; set (q := inject_Z m) in *; clearbody q; nra.
Qed.
Lemma sqrt53_fl x : fl 53 (sqrt53 x).
Proof.
  unfold sqrt53. destruct (Qleb_spec x 0) as [K|K]; [apply fl_0|].
  set (e := (ilog x / 2 - 52)%Z). set (v := x * two (- (2 * e))). set (m := Z.sqrt (Qfloor v)).
  assert (V2 : v < two 106).
  { destruct (ilog_spec x ltac:(lra)) as [_ A]. rewrite Qabs_pos in A by lra. unfold v. pose proof (two_pos (- (2 * e))) as P.
    apply Qlt_le_trans with (two (ilog x + 1) * two (- (2 * e))); [apply Qmult_lt_compat_r; lra|].
    rewrite <- two_plus. apply two_le. unfold e. pose proof (Z.mod_pos_bound (ilog x) 2 ltac:(lia)). pose proof (Z.div_mod (ilog x) 2 ltac:(lia)). lia. }
  assert (V0 : 0 <= v) by (unfold v; pose proof (two_pos (- (2 * e))); apply Qmult_le_0_compat; lra).
  assert (F0 : (0 <= Qfloor v)%Z) by (rewrite <- (Qfloor_Z 0); now apply Qfloor_resp_le).
  assert (F : (Qfloor v < 2 ^ 106)%Z).
  { rewrite Zlt_Qlt. apply Qle_lt_trans with v; [apply Qfloor_le|]. rewrite <- two_Z by lia. exact V2. }
  assert (M0 : (0 <= m)%Z) by apply Z.sqrt_nonneg.
  assert (M : (m < 2 ^ 53)%Z).
  { destruct (Z.sqrt_spec (Qfloor v) F0) as [S1 _]. fold m in S1. nia. }
  destruct (Qltb _ _).
  - destruct (Z.eq_dec (m + 1) (2 ^ 53)) as [E|E].
    + rewrite E. exists 1%Z, (53 + e)%Z. split; [reflexivity|]. fold (two (53 + e)). rewrite two_plus. rewrite (two_Z 53) by lia. ring.
    + exists (m + 1)%Z, e. split; [lia|reflexivity].
  - exists m, e. split; [lia|reflexivity].
Qed.

(* ---------------------------------------------------------------- the statistic *)
Lemma within_sq k a x : 0 <= x -> within u53 k a x -> within u53 (k + k) (a * a) (x * x).
Proof. intros Hx W. now apply within_mult. Qed.
Lemma within_of_r53 x : 0 <= x -> within u53 1 (r53 x) x.
Proof. intro H. apply within_r53; [exact H|]. now apply within_self, H. Qed.
Lemma fsum_within_k k (xf x : nat -> Q) l : (1 <= k)%nat -> (forall i, In i l -> 0 <= x i /\ within u53 k (xf i) (x i)) ->
  0 <= qsum (map x l) /\ within u53 (k + length l) (fsum (map xf l)) (qsum (map x l)).
Proof.
  intros Hk. induction l as [|i l IH] using rev_ind; intro H; [split; [discriminate|apply within_0]|].
  destruct IH as [I1 I2]; [intros; apply H, in_or_app; now left|]. destruct (H i ltac:(apply in_or_app; right; now left)) as [X1 X2].
  rewrite !map_app. cbn [map]. rewrite fsum_app. assert (E : qsum (map x l ++ [x i]) == qsum (map x l) + x i) by (rewrite qsum_app; cbn [qsum fold_right]; ring).
  split; [rewrite E; lra|]. eapply within_comp; [reflexivity|symmetry; exact E|]. rewrite app_length. cbn [length]. replace (k + (length l + 1))%nat with (S (k + length l)) by lia.
  apply (within_add _ k); [exact I1|exact X1|lia|exact I2|exact X2].
Qed.
Lemma dsq_within z : 0 <= z * z /\ within u53 3 (r53 (r53 z * r53 z)) (z * z).
Proof.
  assert (A : within u53 1 (r53 (Qabs z)) (Qabs z)) by apply within_of_r53, Qabs_nonneg.
  assert (E : z * z == Qabs z * Qabs z) by (destruct (Qlt_le_dec z 0); [rewrite Qabs_neg by lra|rewrite Qabs_pos by lra]; ring).
  assert (E2 : r53 z * r53 z == r53 (Qabs z) * r53 (Qabs z)).
  { rewrite <- r53_abs. destruct (Qlt_le_dec (r53 z) 0); [rewrite Qabs_neg by lra|rewrite Qabs_pos by lra]; ring. }
  assert (P : 0 <= z * z) by (destruct (Qlt_le_dec z 0); nra). split; [exact P|]. apply within_r53; [exact P|].
  apply (within_comp u53 2 (r53 (Qabs z) * r53 (Qabs z)) (Qabs z * Qabs z)); [now symmetry|now symmetry|]. apply (within_sq 1); [apply Qabs_nonneg|exact A].
Qed.
Lemma sq_moves_within y t : 0 <= sq_moves (at_ y) 0 t /\ within u53 (t + 3) (cum_sq_diff_f y t) (sq_moves (at_ y) 0 t).
Proof.
  unfold sq_moves, cum_sq_diff_f. rewrite Nat.sub_0_r.
  destruct (fsum_within_k 3 (fun k => r53 (r53 (qn y k - qn y (k - 1)) * r53 (qn y k - qn y (k - 1)))) (fun k => (at_ y k - at_ y (k - 1)) * (at_ y k - at_ y (k - 1))) (seq 1 t) ltac:(lia)) as [A B].
  { intros i _. apply dsq_within. }
  rewrite seq_length in B. split; [exact A|]. now rewrite Nat.add_comm.
Qed.
Section Sqrt.
  Variable sqrt : Q -> Q.
  Hypothesis Hq : sqrt_rounded sqrt.
  Lemma sigma_within y t : (2 <= t)%nat -> let s := cs_sigma_f sqrt y t in
    0 <= s /\ within u53 (t + 6) (s * s) (sq_moves (at_ y) 0 t / Qnat (t - 0 - 1)).
  Proof.
    intros Ht s. destruct (sq_moves_within y t) as [A B]. rewrite Nat.sub_0_r. assert (N : 0 < Qnat (t - 1)) by (pose proof (Qnat_ge1 (t - 1) ltac:(lia)); lra).
    pose proof (within_quot _ _ _ _ A N B) as W. assert (P : 0 <= sq_moves (at_ y) 0 t / Qnat (t - 1)) by (apply Qle_shift_div_l; lra).
    pose proof (within_nonneg u53 u53_bounds _ _ _ W P) as P2. destruct (Hq _ P2) as [S1 S2]. split; [exact S1|].
    replace (t + 6)%nat with (2 + S (t + 3))%nat by lia. eapply within_trans; [exact P|exact S2|exact W].
  Qed.
  Lemma den_within y t n : (2 <= t)%nat -> (n < t)%nat -> let s := cs_sigma_f sqrt y t in let d := cs_den_f sqrt t s n in
    0 <= d /\ within u53 (t + 10) (d * d) (sq_moves (at_ y) 0 t / Qnat (t - 0 - 1) * Qnat (t - n)).
  Proof.
    intros Ht Hn s d. destruct (sigma_within y t Ht) as [A B]. fold s in A, B. pose proof (Qnat_ge1 (t - n) ltac:(lia)) as N. destruct (Hq (Qnat (t - n)) ltac:(lra)) as [C D].
    destruct (sq_moves_within y t) as [M _]. assert (N1 : 1 <= Qnat (t - 0 - 1)) by (apply Qnat_ge1; lia).
    assert (P : 0 <= sq_moves (at_ y) 0 t / Qnat (t - 0 - 1)) by (apply Qle_shift_div_l; lra).
    set (q := sqrt (Qnat (t - n))) in *. assert (P0 : 0 <= s * q) by now apply Qmult_le_0_compat. split; [now apply r53_nonneg|].
    replace (t + 10)%nat with ((1 + 1) + ((t + 6) + 2))%nat by lia. eapply within_trans; [apply Qmult_le_0_compat; lra|unfold d, cs_den_f; fold q; apply within_sq; [exact P0|apply within_of_r53, P0]|].
    apply (within_comp u53 _ ((s * s) * (q * q)) (sq_moves (at_ y) 0 t / Qnat (t - 0 - 1) * Qnat (t - n))); [ring|reflexivity|]. apply within_mult; auto; lra.
  Qed.
  (** A quotient of a rounded nonnegative number by the denominator. *)
  Lemma stat_within y t n z : (2 <= t)%nat -> (n < t)%nat -> 0 < sq_moves (at_ y) 0 t -> 0 <= z ->
    let v := r53 (r53 z / cs_den_f sqrt t (cs_sigma_f sqrt y t) n) in
    0 <= v /\ within u53 (2 * t + 24) (v * v) (z * z / (sq_moves (at_ y) 0 t / Qnat (t - 0 - 1) * Qnat (t - n))).
  Proof.
    intros Ht Hn Hp Hz v. destruct (den_within y t n Ht Hn) as [A B]. unfold v. clear v. set (d := cs_den_f _ _ _ _) in *. set (D := _ * Qnat (t - n)) in *.
    assert (PD : 0 < D).
    { unfold D. pose proof (Qnat_ge1 (t - n) ltac:(lia)). pose proof (Qnat_ge1 (t - 0 - 1) ltac:(lia)). apply Qmult_lt_0_compat; [|lra]. apply Qlt_shift_div_l; lra. }
    pose proof (within_pos _ _ _ PD B) as Pd. assert (Pd1 : 0 < d) by nra. assert (Z1 := r53_nonneg z Hz).
    assert (P0 : 0 <= r53 z / d) by (apply Qle_shift_div_l; lra). split; [now apply r53_nonneg|].
    assert (P1 : 0 <= z * z / D) by (apply Qle_shift_div_l; [exact PD|nra]).
    replace (2 * t + 24)%nat with ((1 + 1) + ((1 + 1) + 2 * (t + 10)))%nat by lia. eapply within_trans; [exact P1|apply within_sq; [exact P0|apply within_of_r53, P0]|].
    apply (within_comp u53 _ ((r53 z * r53 z) / (d * d)) (z * z / D)); [field; lra|reflexivity|]. apply within_div; [nra|exact PD| |exact B]. apply within_sq; [exact Hz|]. now apply within_of_r53.
  Qed.
End Sqrt.

(* ---------------------------------------------------------------- the guard *)
Lemma pow_lin n : 1 - Qnat n * u53 <= (1 - u53) ^ Z.of_nat n.
Proof.
  pose proof u53_bounds as U. induction n as [|n IH]; [discriminate|]. rewrite pow_S. assert (E : Qnat (S n) == Qnat n + 1) by apply Qnat_S. rewrite E.
  assert (N : 0 <= Qnat n) by (unfold Qnat; change 0 with (inject_Z 0); rewrite <- Zle_Qle; lia).
  set (p := (1 - u53) ^ Z.of_nat n) in *. set (q := Qnat n) in *. set (u := u53) in *. clearbody p q u. nra.
Qed.
(** A root mean square step of at least 1e-16 passes the test against 1e-16 for up to 2^50 steps. *)
Lemma guard_ok sqrt y t n : sqrt_rounded sqrt -> (3 <= t)%nat -> (Z.of_nat t <= 2 ^ 50)%Z -> (1 <= n <= t - 2)%nat ->
  Qnat (t - 1) / 10 ^ 32 <= sq_moves (at_ y) 0 t ->
  r53 (1 # 10000000000000000) < cs_den_f sqrt t (cs_sigma_f sqrt y t) n.
Proof.
  intros Hq Ht Hb Hn Hs. destruct (den_within sqrt Hq y t n ltac:(lia) ltac:(lia)) as [A [B _]]. set (d := cs_den_f _ _ _ _) in *. clearbody d.
  assert (N1 : 1 <= Qnat (t - 1)) by (apply Qnat_ge1; lia). assert (N2 : 2 <= Qnat (t - n)) by (unfold Qnat; change 2 with (inject_Z 2); rewrite <- Zle_Qle; lia).
  assert (L : 1 - Qnat (t + 10) * u53 <= (1 - u53) ^ Z.of_nat (t + 10)) by apply pow_lin.
  assert (L2 : Qnat (t + 10) * u53 <= 1 # 4).
  { apply Qle_trans with (inject_Z (2 ^ 51) * u53); [|vm_compute; discriminate]. apply Qmult_le_compat_r; [|vm_compute; discriminate]. unfold Qnat. rewrite <- Zle_Qle. lia. }
  rewrite Nat.sub_0_r in B. set (p := (1 - u53) ^ Z.of_nat (t + 10)) in *. set (M := sq_moves (at_ y) 0 t) in *. clearbody p M.
  assert (G : / 10 ^ 32 <= M / Qnat (t - 1)).
  { apply Qle_shift_div_l; [lra|]. unfold Qdiv in Hs. rewrite Qmult_comm. exact Hs. }
  assert (G2 : 2 * / 10 ^ 32 <= M / Qnat (t - 1) * Qnat (t - n)).
  { assert (P : 0 <= / 10 ^ 32) by (vm_compute; discriminate). set (x := M / Qnat (t - 1)) in *. set (z := Qnat (t - n)) in *. set (w := / 10 ^ 32) in *. clearbody x z w. nra. }
  set (X := M / Qnat (t - 1) * Qnat (t - n)) in *. clearbody X.
  assert (G3 : (3 # 4) * (2 * / 10 ^ 32) <= d * d).
  { assert (P : 0 < 2 * / 10 ^ 32) by (vm_compute; reflexivity). set (w := 2 * / 10 ^ 32) in *. clearbody w. nra. }
  assert (C : r53 (1 # 10000000000000000) * r53 (1 # 10000000000000000) < (3 # 4) * (2 * / 10 ^ 32)) by (vm_compute; reflexivity).
  set (c := r53 (1 # 10000000000000000)) in *. assert (C0 : 0 < c) by (vm_compute; reflexivity). clearbody c.
  destruct (Qlt_le_dec c d) as [K|K]; [exact K|]. exfalso. assert (d * d <= c * c) by nra. lra.
Qed.

(* ---------------------------------------------------------------- the loop *)
Lemma cs_fold_f sqrt ln y t sigma k : (1 <= k)%nat ->
  (forall n, (1 <= n <= k)%nat -> r53 (1 # 10000000000000000) < cs_den_f sqrt t sigma n) ->
  (forall n, (1 <= n <= k)%nat -> 0 <= cs_up_f sqrt y t sigma n /\ 0 <= cs_dn_f sqrt y t sigma n) ->
  let s := fold_left (cs_step_f sqrt ln y t sigma) (seq 1 k) cs_init_f in
  first_sup (cs_up_f sqrt y t sigma) (cs_crit_f sqrt ln t) 1 k (c_up s) (c_cu s) /\
  first_sup (cs_dn_f sqrt y t sigma) (cs_crit_f sqrt ln t) 1 k (c_dn s) (c_cd s).
Proof.
  cbv zeta. induction k as [|k IH]; intros Hk Hd Hp; [lia|]. rewrite seq_S, fold_left_app. cbn [fold_left].
  replace (1 + k)%nat with (S k) by lia. set (s := fold_left _ _ _) in *.
  assert (E : cs_step_f sqrt ln y t sigma s (S k) =
    let u := cs_up_f sqrt y t sigma (S k) in let d := cs_dn_f sqrt y t sigma (S k) in
    mkCS (if Qltb (c_up s) u then u else c_up s) (if Qltb (c_dn s) d then d else c_dn s)
         (if Qltb (c_up s) u then cs_crit_f sqrt ln t (S k) else c_cu s)
         (if Qltb (c_dn s) d then cs_crit_f sqrt ln t (S k) else c_cd s)).
  { unfold cs_step_f. specialize (Hd (S k) ltac:(lia)). destruct (Qleb_spec (cs_den_f sqrt t sigma (S k)) (r53 (1 # 10000000000000000))); [lra|]. cbv zeta.
    destruct (Qltb (c_up s) _); destruct (Qltb (c_dn s) _); reflexivity. }
  rewrite E. cbv zeta. cbn [c_up c_dn c_cu c_cd]. destruct k as [|k].
  - cbn in s. subst s. unfold cs_init_f. cbn [c_up c_dn c_cu c_cd]. destruct (Hp 1%nat ltac:(lia)) as [N1 N2].
    assert (I0 : r53 (- (1 # 1000000)) < 0) by (vm_compute; reflexivity). set (i0 := r53 (- (1 # 1000000))) in *. clearbody i0.
    destruct (Qltb_spec i0 (cs_up_f sqrt y t sigma 1)); [|lra]. destruct (Qltb_spec i0 (cs_dn_f sqrt y t sigma 1)); [|lra].
    split; apply sup_start; reflexivity.
  - destruct IH as [I1 I2]; [lia|intros; apply Hd; lia|intros; apply Hp; lia|]. split; apply sup_ext; auto; try lia; reflexivity.
Qed.
Lemma first_to_rounded k g f crit lo hi v c : (forall n, (lo <= n <= hi)%nat -> 0 <= g n /\ within u53 k (g n * g n) (f n)) ->
  first_sup g crit lo hi v c -> rounded_sup k f crit lo hi v c.
Proof.
  intros H [n [Hn [Ev [Ec [Hs _]]]]]. destruct (H n Hn) as [P W]. split; [lra|]. exists n. split; [exact Hn|]. split; [|split; [exact Ec|]].
  - apply (within_comp u53 k (g n * g n) (f n)); [now rewrite Ev|reflexivity|exact W].
  - intros m Hm. destruct (H m Hm) as [Pm [Wm _]]. specialize (Hs m Hm). apply Qle_trans with (g m * g m); [exact Wm|]. nra.
Qed.
Lemma up_within sqrt y t n : sqrt_rounded sqrt -> (2 <= t)%nat -> (n < t)%nat -> 0 < sq_moves (at_ y) 0 t ->
  let v := cs_up_f sqrt y t (cs_sigma_f sqrt y t) n in 0 <= v /\ within u53 (2 * t + 24) (v * v) (rise2 (at_ y) 0 t n).
Proof.
  intros Hq Ht Hn Hp v. destruct (stat_within sqrt Hq y t n (Qmax 0 (at_ y t - at_ y n)) Ht Hn Hp ltac:(apply Q.le_max_l)) as [A B].
  assert (E : v == r53 (r53 (Qmax 0 (at_ y t - at_ y n)) / cs_den_f sqrt t (cs_sigma_f sqrt y t) n)).
  { unfold v, cs_up_f. apply r53_same. rewrite (pmax_r53 0 (r53 (qn y t - qn y n)) 0 (qn y t - qn y n)); [|reflexivity|reflexivity].
    rewrite (r53_same _ _ (pmax_Qmax (qn y t - qn y n))). reflexivity. }
  split; [rewrite E; exact A|]. eapply within_comp; [|reflexivity|exact B]. now rewrite E.
Qed.
Lemma dn_within sqrt y t n : sqrt_rounded sqrt -> (2 <= t)%nat -> (n < t)%nat -> 0 < sq_moves (at_ y) 0 t ->
  let v := cs_dn_f sqrt y t (cs_sigma_f sqrt y t) n in 0 <= v /\ within u53 (2 * t + 24) (v * v) (fall2 (at_ y) 0 t n).
Proof.
  intros Hq Ht Hn Hp v. destruct (stat_within sqrt Hq y t n (Qmax 0 (at_ y n - at_ y t)) Ht Hn Hp ltac:(apply Q.le_max_l)) as [A B].
  assert (E : v == r53 (r53 (Qmax 0 (at_ y n - at_ y t)) / cs_den_f sqrt t (cs_sigma_f sqrt y t) n)).
  { unfold v, cs_dn_f. apply r53_same. rewrite pmin_Qmax, <- pmax_Qmax.
    rewrite (pmax_r53 0 (- r53 (qn y t - qn y n)) 0 (qn y n - qn y t)); [|reflexivity|].
    - rewrite (r53_same _ _ (pmax_Qmax (qn y n - qn y t))). reflexivity.
    - unfold r53. rewrite <- rnd_opp. apply r53_same. ring. }
  split; [rewrite E; exact A|]. eapply within_comp; [|reflexivity|exact B]. now rewrite E.
Qed.
Lemma comp_f_rounded sqrt ln y t : sqrt_rounded sqrt -> (3 <= t)%nat -> (Z.of_nat t <= 2 ^ 50)%Z ->
  Qnat (t - 1) / 10 ^ 32 <= sq_moves (at_ y) 0 t ->
  let s := comp_max_s_nt_f sqrt ln y t (cs_sigma_f sqrt y t) in
  rounded_sup (2 * t + 24) (rise2 (at_ y) 0 t) (cs_crit_f sqrt ln t) 1 (t - 2) (c_up s) (c_cu s) /\
  rounded_sup (2 * t + 24) (fall2 (at_ y) 0 t) (cs_crit_f sqrt ln t) 1 (t - 2) (c_dn s) (c_cd s).
Proof.
  intros Hq Ht Hb Hs s. assert (N1 : 1 <= Qnat (t - 1)) by (apply Qnat_ge1; lia).
  assert (P : 0 < sq_moves (at_ y) 0 t) by (apply Qlt_le_trans with (Qnat (t - 1) / 10 ^ 32); [apply Qlt_shift_div_l; [reflexivity|lra]|exact Hs]).
  assert (Sp : 0 < cs_sigma_f sqrt y t).
  { destruct (sigma_within sqrt Hq y t ltac:(lia)) as [A B]. rewrite Nat.sub_0_r in B. assert (X : 0 < sq_moves (at_ y) 0 t / Qnat (t - 1)) by (apply Qlt_shift_div_l; lra).
    pose proof (within_pos _ _ _ X B). nra. }
  unfold s, comp_max_s_nt_f. destruct (Nat.ltb_spec t 1); [lia|]. destruct (Qleb_spec (cs_sigma_f sqrt y t) 0); [lra|]. cbn [orb].
  destruct (cs_fold_f sqrt ln y t (cs_sigma_f sqrt y t) (t - 2) ltac:(lia)) as [A B].
  - intros n Hn. now apply guard_ok.
  - intros n Hn. split; [apply up_within|apply dn_within]; auto; lia.
  - split; [revert A|revert B]; apply first_to_rounded; intros n Hn; [apply up_within|apply dn_within]; auto; lia.
Qed.
