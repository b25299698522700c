(** P_float4.v -- proofs about buy and sell volumes with float64 and float32 arithmetic. *)
From Verif Require Import Base M_bars S_bars P_sort P_bars M_float S_float P_features P_float P_float2 P_float3.
Open Scope Q_scope.

(* ---------------------------------------------------------------- signed running sums *)
(** Error of a running float64 sum of [k]/2 signed terms whose absolute values add up to [A]. *)
Definition drift (k : nat) (A : Q) : Q := Qnat k * u53 * ((1 + u53) ^ Z.of_nat k * A).
Definition sg_inv (k : nat) (A c x : Q) : Prop :=
  0 <= A /\ Qabs c <= (1 + u53) ^ Z.of_nat k * A /\ Qabs (c - x) <= drift k A.

Lemma drift_nonneg k A : 0 <= A -> 0 <= drift k A.
Proof.
  intro H. unfold drift. pose proof (pow_ge1 (1 + u53) k ltac:(pose proof u53_bounds; lra)). pose proof u53_bounds.
  assert (0 <= Qnat k) by (unfold Qnat; change 0 with (inject_Z 0); rewrite <- Zle_Qle; lia).
  assert (0 <= Qnat k * u53) by nra. assert (0 <= (1 + u53) ^ Z.of_nat k * A) by nra. nra.
Qed.
Lemma drift_mono k m A B : (k <= m)%nat -> 0 <= A <= B -> drift k A <= drift m B.
Proof.
  intros L [A0 AB]. unfold drift. pose proof u53_bounds.
  assert (P1 : forall n, 1 <= (1 + u53) ^ Z.of_nat n) by (intro; apply pow_ge1; lra).
  assert (PM : (1 + u53) ^ Z.of_nat k <= (1 + u53) ^ Z.of_nat m).
  { replace m with (k + (m - k))%nat by lia. rewrite pow_add. pose proof (P1 k). pose proof (P1 (m - k)%nat). nra. }
  assert (K : 0 <= Qnat k <= Qnat m) by (unfold Qnat; change 0 with (inject_Z 0); rewrite <- !Zle_Qle; lia).
  pose proof (P1 k). pose proof (P1 m). set (a := (1 + u53) ^ Z.of_nat k) in *. set (b := (1 + u53) ^ Z.of_nat m) in *. clearbody a b.
  assert (a * A <= b * B) by nra. assert (0 <= a * A) by nra.
  assert (Qnat k * u53 <= Qnat m * u53) by nra. assert (0 <= Qnat k * u53) by nra. nra.
Qed.
Lemma sg_inv_mono k m A B c x : (k <= m)%nat -> A <= B -> sg_inv k A c x -> sg_inv m B c x.
Proof.
  intros L AB [A0 [H1 H2]]. split; [lra|]. split; [|eapply Qle_trans; [exact H2|apply drift_mono; [exact L|lra]]].
  eapply Qle_trans; [exact H1|]. pose proof u53_bounds.
  assert (P1 : forall n, 1 <= (1 + u53) ^ Z.of_nat n) by (intro; apply pow_ge1; lra).
  replace m with (k + (m - k))%nat by lia. rewrite pow_add. pose proof (P1 k). pose proof (P1 (m - k)%nat).
  set (a := (1 + u53) ^ Z.of_nat k) in *. set (b := (1 + u53) ^ Z.of_nat (m - k)) in *. clearbody a b.
  assert (a * A <= a * B) by nra. assert (0 <= a * B) by nra. nra.
Qed.
Lemma sg_inv_step k A c x t tf sg : (sg == 1 \/ sg == -(1)) -> sg_inv k A c x -> 0 <= t -> Qabs (tf - t) <= t * u53 ->
  sg_inv (S (S k)) (A + t) (r53 (c + sg * tf)) (x + sg * t).
Proof.
  intros Hs [A0 [H1 H2]] Ht Hf. pose proof u53_bounds as Hu.
  pose proof (pow_ge1 (1 + u53) k ltac:(lra)) as P1.
  assert (Hk : 0 <= Qnat k) by (unfold Qnat; change 0 with (inject_Z 0); rewrite <- Zle_Qle; lia).
  unfold sg_inv, drift in *. rewrite !pow_S, !Qnat_S. set (a := (1 + u53) ^ Z.of_nat k) in *. clearbody a.
  pose proof (r53_err (c + sg * tf)) as R.
  set (y := c + sg * tf) in *. set (r := r53 y) in *. clearbody r.
  assert (T1 : Qabs (sg * tf) <= (1 + u53) * t).
  { rewrite Qabs_Qmult. apply Qabs_Qle_condition in Hf.
    assert (E : Qabs sg == 1) by (destruct Hs as [-> | ->]; reflexivity). rewrite E.
    assert (Qabs tf <= (1 + u53) * t) by (apply Qabs_Qle_condition; split; nra). lra. }
  assert (Y : Qabs y <= (1 + u53) * (a * (A + t))).
  { eapply Qle_trans; [apply Qabs_triangle|]. assert ((1 + u53) * t <= (1 + u53) * (a * t)).
    { assert (0 <= (a - 1) * t) by (apply Qmult_le_0_compat; lra). nra. }
    assert (a * A <= (1 + u53) * (a * A)) by (assert (0 <= a * A) by nra; nra). lra. }
  assert (Y0 := Qabs_nonneg y).
  assert (W0 : 0 <= a * (A + t)) by (assert (0 <= A + t) by lra; nra).
  set (W := a * (A + t)) in *.
  assert (AW : a * A <= W) by (unfold W; nra). assert (tW : t <= W) by (unfold W; assert (0 <= (a - 1) * (A + t)) by (apply Qmult_le_0_compat; lra); lra).
  split; [lra|]. split.
  - assert (Er : Qabs r <= Qabs y + Qabs (r - y)).
    { assert (E : r == y + (r - y)) by ring. rewrite E at 1. apply Qabs_triangle. }
    assert (EV : (1 + u53) * ((1 + u53) * a) * (A + t) == (1 + u53) * ((1 + u53) * W)) by (unfold W; ring). rewrite EV.
    apply Qle_trans with ((1 + u53) * Qabs y); [lra|]. assert (0 <= 1 + u53) by lra. clear - Y H. nra.
  - assert (Ex : Qabs (r - (x + sg * t)) <= Qabs (r - y) + (Qabs (c - x) + Qabs (tf - t))).
    { assert (E : r - (x + sg * t) == (r - y) + ((c - x) + sg * (tf - t))) by (unfold y; ring). rewrite E.
      eapply Qle_trans; [apply Qabs_triangle|]. apply Qplus_le_r. eapply Qle_trans; [apply Qabs_triangle|].
      apply Qplus_le_r. rewrite Qabs_Qmult. assert (E1 : Qabs sg == 1) by (destruct Hs as [-> | ->]; reflexivity). rewrite E1. lra. }
    assert (Z1 : Qabs (r - y) <= u53 * ((1 + u53) * W)) by nra.
    assert (Z2 : Qabs (c - x) <= Qnat k * u53 * W) by (assert (0 <= Qnat k * u53) by nra; nra).
    assert (Z3 : Qabs (tf - t) <= u53 * W) by nra.
    set (V := (1 + u53) * ((1 + u53) * W)).
    assert (WV : W <= (1 + u53) * W) by nra. assert (WV2 : (1 + u53) * W <= V) by (unfold V; nra).
    assert (Z1' : Qabs (r - y) <= u53 * V) by nra. assert (Z3' : Qabs (tf - t) <= u53 * V) by nra.
    assert (Z2' : Qabs (c - x) <= Qnat k * u53 * V) by (assert (0 <= Qnat k * u53) by nra; nra).
    assert (EV : (1 + u53) * ((1 + u53) * a) * (A + t) == V) by (unfold V, W; ring). rewrite EV. lra.
Qed.

(** Maxima kept in a float32 cell. *)
Lemma r24_pmax m c : r24 (pmax (r24 m) c) == r24 (pmax m c).
Proof.
  assert (I : r24 (r24 m) == r24 m) by (apply rnd_idem; lia).
  unfold pmax. destruct (Qltb_spec (r24 m) c) as [H|H], (Qltb_spec m c) as [K|K]; try reflexivity.
  - apply Qle_antisym; [now apply r24_mono|]. rewrite <- I. apply r24_mono. lra.
  - rewrite I. apply Qle_antisym; [apply r24_mono; lra|]. rewrite <- I. now apply r24_mono.
  - exact I.
Qed.
Lemma r24_pmin m c : r24 (pmin (r24 m) c) == r24 (pmin m c).
Proof.
  assert (I : r24 (r24 m) == r24 m) by (apply rnd_idem; lia).
  unfold pmin. destruct (Qltb_spec c (r24 m)) as [H|H], (Qltb_spec c m) as [K|K]; try reflexivity.
  - apply Qle_antisym; [|now apply r24_mono]. rewrite <- I. apply r24_mono. lra.
  - rewrite I. apply Qle_antisym; [|apply r24_mono; lra]. rewrite <- I. now apply r24_mono.
  - exact I.
Qed.
Lemma pmax_near a b a' b' e : Qabs (a - a') <= e -> Qabs (b - b') <= e -> Qabs (pmax a b - pmax a' b') <= e.
Proof.
  intros H1 H2. apply Qabs_Qle_condition in H1. apply Qabs_Qle_condition in H2. apply Qabs_Qle_condition.
  unfold pmax. destruct (Qltb_spec a b), (Qltb_spec a' b'); lra.
Qed.
Lemma pmin_near a b a' b' e : Qabs (a - a') <= e -> Qabs (b - b') <= e -> Qabs (pmin a b - pmin a' b') <= e.
Proof.
  intros H1 H2. apply Qabs_Qle_condition in H1. apply Qabs_Qle_condition in H2. apply Qabs_Qle_condition.
  unfold pmin. destruct (Qltb_spec b a), (Qltb_spec b' a'); lra.
Qed.
Lemma pmax_comp_l a a' b : a == a' -> pmax a b == pmax a' b.
Proof. intro E. unfold pmax. destruct (Qltb_spec a b), (Qltb_spec a' b); lra. Qed.
Lemma pmin_comp_l a a' b : a == a' -> pmin a b == pmin a' b.
Proof. intro E. unfold pmin. destruct (Qltb_spec b a), (Qltb_spec b a'); lra. Qed.

(** The cell holds the rounded extreme, the unrounded one is close to the exact one. *)
Definition cell_inv (d cell exact : Q) : Prop := exists m, cell == r24 m /\ Qabs (m - exact) <= d.
Lemma cell_max d d' cell ex c x : cell_inv d cell ex -> d <= d' -> Qabs (c - x) <= d' ->
  cell_inv d' (r24 (pmax cell c)) (pmax ex x).
Proof.
  intros [m [E H]] L Hc. exists (pmax m c). split.
  - rewrite (pmax_comp_l _ _ _ E). apply r24_pmax.
  - apply pmax_near; lra.
Qed.
Lemma cell_min d d' cell ex c x : cell_inv d cell ex -> d <= d' -> Qabs (c - x) <= d' ->
  cell_inv d' (r24 (pmin cell c)) (pmin ex x).
Proof.
  intros [m [E H]] L Hc. exists (pmin m c). split.
  - rewrite (pmin_comp_l _ _ _ E). apply r24_pmin.
  - apply pmin_near; lra.
Qed.
Lemma cell_weaken d d' cell ex : cell_inv d cell ex -> d <= d' -> cell_inv d' cell ex.
Proof. intros [m [E H]] L. exists m. split; [exact E|lra]. Qed.
Lemma cell_final d cell ex : 0 <= d -> cell_inv d cell ex -> Qabs (cell - ex) <= u24 * Qabs ex + (1 + u24) * d.
Proof.
  intros D0 [m [E H]]. rewrite E. pose proof (r24_err m) as R. pose proof u24_bounds as Hu.
  assert (Qabs (r24 m - ex) <= Qabs (r24 m - m) + Qabs (m - ex)).
  { assert (E2 : r24 m - ex == (r24 m - m) + (m - ex)) by ring. rewrite E2. apply Qabs_triangle. }
  assert (Qabs m <= Qabs ex + d).
  { assert (E2 : m == ex + (m - ex)) by ring. rewrite E2 at 1. eapply Qle_trans; [apply Qabs_triangle|]. lra. }
  nra.
Qed.

Section Dir.
  Variables prices vols : list Q.
  Variable sides : list Z.
  Hypothesis Hp : forall x, In x prices -> 0 <= x.
  Hypothesis Hq : forall x, In x vols -> 0 <= x.
  Notation p := (at_ prices).
  Notation q := (at_ vols).
  Notation dol := (fun j => at_ prices j * at_ vols j).

  Definition df_inv (s e : Z) (st st0 : dstate) : Prop :=
    let k := (2 * Z.to_nat (e - s))%nat in
    let V := bsum q s e in let D := bsum dol s e in
    d_tb st = d_tb st0 /\ d_ts st = d_ts st0 /\ d_ct st = d_ct st0 /\ d_tmin st = d_tmin st0 /\ d_tmax st = d_tmax st0 /\
    within u53 (bcount sides 1 s e) (d_vb st) (side_sum sides 1 q s e) /\
    within u53 (bcount sides (-1) s e) (d_vs st) (side_sum sides (-1) q s e) /\
    within u53 (S (bcount sides 1 s e)) (d_db st) (side_sum sides 1 dol s e) /\
    within u53 (S (bcount sides (-1) s e)) (d_ds st) (side_sum sides (-1) dol s e) /\
    sg_inv k V (d_cv st) (d_cv st0) /\ sg_inv k D (d_cd st) (d_cd st0) /\
    cell_inv (drift k V) (d_vmin st) (d_vmin st0) /\ cell_inv (drift k V) (d_vmax st) (d_vmax st0) /\
    cell_inv (drift k D) (d_dmin st) (d_dmin st0) /\ cell_inv (drift k D) (d_dmax st) (d_dmax st0).

  Lemma side_nonneg sg f s e : (forall j, 0 <= f j) -> 0 <= side_sum sides sg f s e.
  Proof. intro H. apply bsum_nonneg. intros j _. destruct (zat sides j =? sg)%Z; [apply H|lra]. Qed.
  Lemma dol_nonneg j : 0 <= dol j.
  Proof. cbn beta. pose proof (at_nonneg _ Hp j). pose proof (at_nonneg _ Hq j). nra. Qed.

  Lemma within_dol n d x t : within u53 (S n) d x -> 0 <= x -> 0 <= t -> forall tf, within u53 1 tf t ->
    within u53 (S (n + 1)) (r53 (d + tf)) (x + t).
  Proof.
    intros W Hx Ht tf Wt. replace (S (n + 1)) with (S (S n)) by lia.
    apply (within_rnd u53 u53_bounds (S n) (d + tf)); [|lra|apply r53_err].
    apply within_plus; [exact W|]. apply (within_le u53 u53_bounds 1); [lia|exact Ht|exact Wt].
  Qed.

  Lemma df_loop s e prev : (-1 <= s <= e)%Z ->
    df_inv s e (fold_left (d_step_f prices vols sides) (zrange (s + 1) (e + 1)) (d_init prev))
               (fold_left (d_step prices vols sides) (zrange (s + 1) (e + 1)) (d_init prev)).
  Proof.
    intros [Hs He]. revert e He. apply bar_ind.
    - rewrite zrange_nil by lia. cbn [fold_left]. unfold df_inv, d_init.
      cbn [d_tb d_ts d_vb d_vs d_db d_ds d_ct d_cv d_cd d_tmin d_tmax d_vmin d_vmax d_dmin d_dmax]. cbv zeta.
      rewrite !bcount_nil by lia. replace (2 * Z.to_nat (s - s))%nat with 0%nat by lia.
      assert (W0 : forall n x, x == 0 -> within u53 n 0 x) by (intros n x E; eapply within_comp; [reflexivity|symmetry; exact E|apply within_0]).
      assert (S0 : forall A, A == 0 -> sg_inv 0 A 0 0).
      { intros A E. split; [lra|]. unfold drift. change (Qnat 0) with 0. change (Qabs (0 - 0)) with 0. change (Qabs 0) with 0. change ((1 + u53) ^ Z.of_nat 0) with 1. split; lra. }
      assert (C0 : forall z A, A == 0 -> r24 (inject_Z z) == inject_Z z -> cell_inv (drift 0 A) (inject_Z z) (inject_Z z)).
      { intros z A E R. exists (inject_Z z). split; [symmetry; exact R|].
        assert (E2 : inject_Z z - inject_Z z == 0) by ring. rewrite E2. change (Qabs 0) with 0. unfold drift. change (Qnat 0) with 0. lra. }
      assert (R1 : r24 (inject_Z big) == inject_Z big) by (vm_compute; reflexivity).
      assert (R2 : r24 (inject_Z (- big)) == inject_Z (- big)) by (vm_compute; reflexivity).
      assert (BV : forall f, bsum f s s == 0) by (intro; apply bsum_nil; lia).
      repeat (split; [solve [reflexivity | apply W0, BV | apply S0, BV | apply C0; [apply BV|assumption]]|]).
      apply C0; [apply BV|assumption].
    - intros e He IH. rewrite !fold_bar by lia. set (st := fold_left (d_step_f prices vols sides) _ _) in *.
      set (st0 := fold_left (d_step prices vols sides) _ _) in *. clearbody st st0.
      destruct IH as [I1 [I2 [I3 [I4 [I5 [W1 [W2 [W3 [W4 [G1 [G2 [X1 [X2 [X3 X4]]]]]]]]]]]]]].
      unfold d_step_f, d_step. rewrite !(zget_nonneg _ _ (e + 1)) by lia.
      fold (zat sides (e + 1)) (p (e + 1)) (q (e + 1)).
      destruct (if negb (zat sides (e + 1) =? d_prev st)%Z then _ else _) as [mx cs].
      destruct (if negb (zat sides (e + 1) =? d_prev st0)%Z then _ else _) as [mx0 cs0].
      set (sg := zat sides (e + 1)) in *.
      pose proof (at_nonneg _ Hq (e + 1)) as Q0. pose proof (dol_nonneg (e + 1)) as D0. cbn beta in D0.
      pose proof (within_prod _ _ (at_nonneg _ Hp (e + 1)) Q0) as WP.
      pose proof (r53_err (p (e + 1) * q (e + 1))) as RP. rewrite (Qabs_pos (p (e + 1) * q (e + 1))) in RP by exact D0.
      set (pq := r53 (p (e + 1) * q (e + 1))) in *. set (t := p (e + 1) * q (e + 1)) in *.
      assert (Cb : bcount sides 1 s (e + 1) = (bcount sides 1 s e + if (sg =? 1)%Z then 1 else 0)%nat) by (now apply bcount_snoc).
      assert (Cs : bcount sides (-1) s (e + 1) = (bcount sides (-1) s e + if (sg =? -1)%Z then 1 else 0)%nat) by (now apply bcount_snoc).
      assert (Vb : side_sum sides 1 q s (e + 1) == side_sum sides 1 q s e + if (sg =? 1)%Z then q (e + 1)%Z else 0) by (now apply side_snoc).
      assert (Vs : side_sum sides (-1) q s (e + 1) == side_sum sides (-1) q s e + if (sg =? -1)%Z then q (e + 1)%Z else 0) by (now apply side_snoc).
      assert (Db : side_sum sides 1 dol s (e + 1) == side_sum sides 1 dol s e + if (sg =? 1)%Z then t else 0) by (now apply (side_snoc sides 1 dol)).
      assert (Ds : side_sum sides (-1) dol s (e + 1) == side_sum sides (-1) dol s e + if (sg =? -1)%Z then t else 0) by (now apply (side_snoc sides (-1) dol)).
      pose proof (side_nonneg 1 q s e (at_nonneg _ Hq)) as N1. pose proof (side_nonneg (-1) q s e (at_nonneg _ Hq)) as N2.
      pose proof (side_nonneg 1 dol s e dol_nonneg) as N3. pose proof (side_nonneg (-1) dol s e dol_nonneg) as N4.
      assert (BV : bsum q s (e + 1) == bsum q s e + q (e + 1)) by (apply bsum_snoc; lia).
      assert (BD : bsum dol s (e + 1) == bsum dol s e + t) by (apply (bsum_snoc dol); lia).
      assert (V0 : 0 <= bsum q s e) by (apply bsum_nonneg; intros; apply at_nonneg, Hq).
      assert (DD0 : 0 <= bsum dol s e) by (apply bsum_nonneg; intros; apply dol_nonneg).
      unfold df_inv. cbv zeta.
      replace (2 * Z.to_nat (e + 1 - s))%nat with (S (S (2 * Z.to_nat (e - s)))) by lia.
      set (k := (2 * Z.to_nat (e - s))%nat) in *.
      set (V := bsum q s e) in *. set (V' := bsum q s (e + 1)) in *.
      set (D := bsum dol s e) in *. set (D' := bsum dol s (e + 1)) in *.
      assert (DV : drift k V <= drift (S (S k)) V') by (apply drift_mono; [lia|lra]).
      assert (DDr : drift k D <= drift (S (S k)) D') by (apply drift_mono; [lia|lra]).
      assert (GC : forall A B c x c' x', A == B -> c == c' -> x == x' -> sg_inv (S (S k)) A c x -> sg_inv (S (S k)) B c' x').
      { intros A B c x c' x' E1 E2 E3 [a [b d]]. unfold sg_inv, drift in *. rewrite <- E1, <- E2, <- E3. auto. }
      assert (SV : forall z, (z == 1 \/ z == -(1)) -> sg_inv (S (S k)) V' (r53 (d_cv st + z * q (e + 1))) (d_cv st0 + z * q (e + 1))).
      { intros z Hz. eapply GC; [symmetry; exact BV|reflexivity|reflexivity|].
        apply sg_inv_step; [exact Hz|exact G1|exact Q0|]. assert (E : q (e + 1) - q (e + 1) == 0) by ring. rewrite E. change (Qabs 0) with 0.
        pose proof u53_bounds. nra. }
      assert (SD : forall z, (z == 1 \/ z == -(1)) -> sg_inv (S (S k)) D' (r53 (d_cd st + z * pq)) (d_cd st0 + z * t)).
      { intros z Hz. eapply GC; [symmetry; exact BD|reflexivity|reflexivity|].
        apply sg_inv_step; [exact Hz|exact G2|exact D0|exact RP]. }
      destruct (Z.eqb_spec sg 1) as [E1|E1].
      + assert (E2 : (sg =? -1)%Z = false) by (apply Z.eqb_neq; lia). rewrite E2 in *.
        cbn [d_tb d_ts d_vb d_vs d_db d_ds d_ct d_cv d_cd d_tmin d_tmax d_vmin d_vmax d_dmin d_dmax].
        assert (SV1 : sg_inv (S (S k)) V' (r53 (d_cv st + q (e + 1))) (d_cv st0 + q (e + 1))).
        { eapply GC; [reflexivity|apply r53_proper| |apply (SV 1); now left]; ring. }
        assert (SD1 : sg_inv (S (S k)) D' (r53 (d_cd st + pq)) (d_cd st0 + t)).
        { eapply GC; [reflexivity|apply r53_proper| |apply (SD 1); now left]; ring. }
        rewrite I1, I2, I3, I4, I5, Cb, Cs, Nat.add_0_r.
        do 5 (split; [reflexivity|]).
        split; [eapply within_comp; [reflexivity|symmetry; exact Vb|]; rewrite Nat.add_1_r; now apply within_sum|].
        split; [eapply within_comp; [reflexivity| |exact W2]; lra|].
        split; [eapply within_comp; [reflexivity|symmetry; exact Db|]; now apply within_dol|].
        split; [eapply within_comp; [reflexivity| |exact W4]; lra|].
        split; [exact SV1|]. split; [exact SD1|].
        split; [eapply cell_min; [exact X1|exact DV|apply SV1]|]. split; [eapply cell_max; [exact X2|exact DV|apply SV1]|].
        split; [eapply cell_min; [exact X3|exact DDr|apply SD1]|]. eapply cell_max; [exact X4|exact DDr|apply SD1].
      + destruct (Z.eqb_spec sg (-1)) as [E2|E2].
        * cbn [d_tb d_ts d_vb d_vs d_db d_ds d_ct d_cv d_cd d_tmin d_tmax d_vmin d_vmax d_dmin d_dmax].
          assert (SV1 : sg_inv (S (S k)) V' (r53 (d_cv st - q (e + 1))) (d_cv st0 - q (e + 1))).
          { eapply GC; [reflexivity|apply r53_proper| |apply (SV (-(1))); right; reflexivity]; ring. }
          assert (SD1 : sg_inv (S (S k)) D' (r53 (d_cd st - pq)) (d_cd st0 - t)).
          { eapply GC; [reflexivity|apply r53_proper| |apply (SD (-(1))); right; reflexivity]; ring. }
          rewrite I1, I2, I3, I4, I5, Cb, Cs, Nat.add_0_r.
          do 5 (split; [reflexivity|]).
          split; [eapply within_comp; [reflexivity| |exact W1]; lra|].
          split; [eapply within_comp; [reflexivity|symmetry; exact Vs|]; rewrite Nat.add_1_r; now apply within_sum|].
          split; [eapply within_comp; [reflexivity| |exact W3]; lra|].
          split; [eapply within_comp; [reflexivity|symmetry; exact Ds|]; now apply within_dol|].
          split; [exact SV1|]. split; [exact SD1|].
          split; [eapply cell_min; [exact X1|exact DV|apply SV1]|]. split; [eapply cell_max; [exact X2|exact DV|apply SV1]|].
          split; [eapply cell_min; [exact X3|exact DDr|apply SD1]|]. eapply cell_max; [exact X4|exact DDr|apply SD1].
        * cbn [d_tb d_ts d_vb d_vs d_db d_ds d_ct d_cv d_cd d_tmin d_tmax d_vmin d_vmax d_dmin d_dmax].
          rewrite I1, I2, I3, I4, I5, Cb, Cs, !Nat.add_0_r.
          do 5 (split; [reflexivity|]).
          split; [eapply within_comp; [reflexivity| |exact W1]; lra|].
          split; [eapply within_comp; [reflexivity| |exact W2]; lra|].
          split; [eapply within_comp; [reflexivity| |exact W3]; lra|].
          split; [eapply within_comp; [reflexivity| |exact W4]; lra|].
          split; [apply (sg_inv_mono k _ V); [lia|lra|exact G1]|]. split; [apply (sg_inv_mono k _ D); [lia|lra|exact G2]|].
          split; [eapply cell_weaken; [exact X1|exact DV]|]. split; [eapply cell_weaken; [exact X2|exact DV]|].
          split; [eapply cell_weaken; [exact X3|exact DDr]|]. eapply cell_weaken; [exact X4|exact DDr].
  Qed.
End Dir.
