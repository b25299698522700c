(** P_float7.v -- proofs about spreads, medians and whole bars with float64 and float32 arithmetic. *)
From Verif Require Import Base M_bars S_bars P_sort P_bars M_float S_float P_features P_float P_float2 P_float3 P_float4 P_float5.
Open Scope Q_scope.

Lemma within_abs x : within u53 1 (Qabs (r53 x)) (Qabs x).
Proof.
  pose proof (r53_err x) as R. pose proof (Qabs_nonneg x). pose proof u53_bounds.
  assert (A : Qabs (r53 x) <= Qabs x + Qabs (r53 x - x)).
  { assert (E : r53 x == x + (r53 x - x)) by ring. rewrite E at 1. apply Qabs_triangle. }
  assert (B : Qabs x <= Qabs (r53 x) + Qabs (r53 x - x)).
  { assert (E : x == r53 x + - (r53 x - x)) by ring. rewrite E at 1. eapply Qle_trans; [apply Qabs_triangle|]. rewrite Qabs_opp. lra. }
  unfold within. change ((1 - u53) ^ Z.of_nat 1) with (1 - u53). change ((1 + u53) ^ Z.of_nat 1) with (1 + u53). split; lra.
Qed.
Lemma within_max n a x b y : 0 <= x -> 0 <= y -> within u53 n a x -> within u53 n b y ->
  within u53 n (if Qltb a b then b else a) (if Qltb x y then y else x).
Proof.
  intros Hx Hy [A1 A2] [B1 B2]. unfold within. pose proof u53_bounds.
  pose proof (pow_nonneg (1 - u53) n ltac:(lra)). pose proof (pow_ge1 (1 + u53) n ltac:(lra)).
  set (l := (1 - u53) ^ Z.of_nat n) in *. set (h := (1 + u53) ^ Z.of_nat n) in *. clearbody l h.
  destruct (Qltb_spec a b), (Qltb_spec x y); split; nra.
Qed.
Lemma cell_within n a x : within u53 n a x -> 0 <= x ->
  (1 - u24) * (1 - u53) ^ Z.of_nat n * x <= r24 a <= (1 + u24) * (1 + u53) ^ Z.of_nat n * x.
Proof.
  intros W Hx. pose proof (within_nonneg u53 u53_bounds n a x W Hx) as Ha. destruct W as [A B].
  pose proof (r24_err a) as R. rewrite (Qabs_pos a) in R by auto. apply Qabs_Qle_condition in R. pose proof u24_bounds.
  set (l := (1 - u53) ^ Z.of_nat n) in *. set (h := (1 + u53) ^ Z.of_nat n) in *. clearbody l h. split; nra.
Qed.

Section Spread.
  Variables prices vols : list Q.
  Variable sides : list Z.
  Notation p := (at_ prices).

  Definition sp_inv (s e : Z) (st st0 : dstate) : Prop :=
    d_prev st = d_prev st0 /\ (d_tb st = d_tb st0 /\ d_ts st = d_ts st0 /\ (0 <= d_tb st0 /\ 0 <= d_ts st0)%Z) /\ 0 <= d_mx st0 /\ 0 <= d_cs st0 /\
    within u53 1 (d_mx st) (d_mx st0) /\ within u53 (S (Z.to_nat (e - s))) (d_cs st) (d_cs st0).

  Lemma sp_loop s e prev : (-1 <= s <= e)%Z ->
    sp_inv s e (fold_left (d_step_f prices vols sides) (zrange (s + 1) (e + 1)) (d_init prev))
               (fold_left (d_step prices vols sides) (zrange (s + 1) (e + 1)) (d_init prev)).
  Proof.
    intros [Hs He]. revert e He. apply bar_ind.
    - rewrite zrange_nil by lia. cbn [fold_left]. unfold sp_inv, d_init. cbn [d_prev d_mx d_cs d_tb d_ts].
      split; [reflexivity|]. split; [repeat split; lia|]. split; [lra|]. split; [lra|]. split; apply within_0.
    - intros e He IH. rewrite !fold_bar by lia. set (st := fold_left (d_step_f prices vols sides) _ _) in *.
      set (st0 := fold_left (d_step prices vols sides) _ _) in *. clearbody st st0.
      destruct IH as [I1 [[K1 [K2 K3]] [M0 [C0 [W1 W2]]]]].
      set (df := zget 0 prices (e + 1) - zget 0 prices (e + 1 - 1)).
      assert (S1 : d_prev (d_step_f prices vols sides st (e + 1)) = zget 0%Z sides (e + 1)).
      { unfold d_step_f. destruct (if negb _ then _ else _). destruct (_ =? 1)%Z; [reflexivity|]. destruct (_ =? -1)%Z; reflexivity. }
      assert (S2 : d_prev (d_step prices vols sides st0 (e + 1)) = zget 0%Z sides (e + 1)).
      { unfold d_step. destruct (if negb _ then _ else _). destruct (_ =? 1)%Z; [reflexivity|]. destruct (_ =? -1)%Z; reflexivity. }
      assert (S5 : let a := d_step_f prices vols sides st (e + 1) in let a0 := d_step prices vols sides st0 (e + 1) in
        d_tb a = d_tb a0 /\ d_ts a = d_ts a0 /\ (0 <= d_tb a0 /\ 0 <= d_ts a0)%Z).
      { unfold d_step_f, d_step. destruct (if negb (zget 0%Z sides (e + 1) =? d_prev st)%Z then _ else _).
        destruct (if negb (zget 0%Z sides (e + 1) =? d_prev st0)%Z then _ else _).
        destruct (zget 0%Z sides (e + 1) =? 1)%Z; [|destruct (zget 0%Z sides (e + 1) =? -1)%Z]; cbv zeta; cbn [d_tb d_ts]; repeat split; lia. }
      set (b := negb (zget 0%Z sides (e + 1) =? d_prev st)%Z).
      assert (S3 : (d_mx (d_step_f prices vols sides st (e + 1)), d_cs (d_step_f prices vols sides st (e + 1))) =
        if b then (if Qltb (d_mx st) (Qabs (r53 df)) then Qabs (r53 df) else d_mx st, r53 (d_cs st + Qabs (r53 df))) else (d_mx st, d_cs st)).
      { unfold d_step_f. fold df. fold b. destruct b, (zget 0%Z sides (e + 1) =? 1)%Z, (zget 0%Z sides (e + 1) =? -1)%Z; reflexivity. }
      assert (S4 : (d_mx (d_step prices vols sides st0 (e + 1)), d_cs (d_step prices vols sides st0 (e + 1))) =
        if b then (if Qltb (d_mx st0) (Qabs df) then Qabs df else d_mx st0, d_cs st0 + Qabs df) else (d_mx st0, d_cs st0)).
      { unfold d_step. fold df. rewrite <- I1. fold b. destruct b, (zget 0%Z sides (e + 1) =? 1)%Z, (zget 0%Z sides (e + 1) =? -1)%Z; reflexivity. }
      unfold sp_inv. rewrite S1, S2. split; [reflexivity|]. split; [exact S5|]. clear S5. replace (Z.to_nat (e + 1 - s)) with (S (Z.to_nat (e - s))) by lia.
      pose proof (Qabs_nonneg df) as D0. clearbody df b.
      destruct b; injection S3 as -> ->; injection S4 as -> ->.
      + split; [destruct (Qltb_spec (d_mx st0) (Qabs df)); lra|]. split; [lra|].
        split; [apply within_max; auto; apply within_abs|].
        apply (within_rnd u53 u53_bounds (S (Z.to_nat (e - s))) (d_cs st + Qabs (r53 df))); [|lra|apply r53_err].
        apply within_plus; [exact W2|]. apply (within_le u53 u53_bounds 1); [lia|exact D0|apply within_abs].
      + split; [exact M0|]. split; [exact C0|]. split; [exact W1|]. apply within_S; [exact u53_bounds|exact C0|exact W2].
  Qed.
End Spread.

Definition near_ext (n : nat) (a x : ext) : Prop :=
  match a, x with
  | Fin a, Fin x => 0 <= x /\ (1 - u24) * (1 - u53) ^ Z.of_nat n * x <= a <= (1 + u24) * (1 + u53) ^ Z.of_nat n * x
  | PInf, PInf | NaN, NaN => True
  | _, _ => False
  end.

Lemma div_near n a x k : 0 <= x -> within u53 n a x -> (0 <= k)%Z -> near_ext (S n) (div_count_f a k) (div_count x k).
Proof.
  intros Hx W Hk. unfold div_count_f, div_count. destruct (Z.eqb_spec k 0) as [_|N].
  - destruct W as [A B]. pose proof u53_bounds.
    assert (L : 0 < (1 - u53) ^ Z.of_nat n).
    { clear. induction n as [|n IH]; [reflexivity|]. rewrite pow_S. assert (0 < 1 - u53) by reflexivity. nra. }
    pose proof (pow_ge1 (1 + u53) n ltac:(lra)).
    destruct (Qltb_spec 0 a), (Qltb_spec 0 x); cbn [near_ext]; auto; nra.
  - cbn [near_ext]. assert (Kp : 0 < inject_Z k) by (change 0 with (inject_Z 0); rewrite <- Zlt_Qlt; lia).
    pose proof (Qinv_lt_0_compat _ Kp) as Ip. unfold Qdiv.
    assert (X0 : 0 <= x * / inject_Z k) by nra. split; [exact X0|]. apply cell_within; [|exact X0].
    apply (within_rnd u53 u53_bounds n (a * / inject_Z k)); [|exact X0|apply r53_err].
    destruct W as [A B]. unfold within. set (l := (1 - u53) ^ Z.of_nat n) in *. set (h := (1 + u53) ^ Z.of_nat n) in *. clearbody l h.
    set (i := / inject_Z k) in *. clearbody i. split.
    + assert (0 <= (a - l * x) * i) by (apply Qmult_le_0_compat; lra). lra.
    + assert (0 <= (h * x - a) * i) by (apply Qmult_le_0_compat; lra). lra.
Qed.

(** The median of non-negative numbers. *)
Lemma median_f_near l : (forall x, In x l -> 0 <= x) -> within u53 2 (median_f l) (median l) /\ 0 <= median l.
Proof.
  intro H. unfold median_f, median. set (n := length l).
  assert (P : forall k, 0 <= nth k (qsort l) 0).
  { intro k. destruct (Nat.lt_ge_cases k (length (qsort l))).
    - apply H. eapply Permutation_in; [apply Permutation_sym, qsort_perm|]. now apply nth_In.
    - rewrite nth_overflow by auto. lra. }
  destruct (Nat.odd n).
  - split; [|apply P]. apply within_self; [exact u53_bounds|apply P].
  - set (a := nth (n / 2 - 1) (qsort l) 0). set (b := nth (n / 2) (qsort l) 0).
    assert (A0 : 0 <= a) by apply P. assert (B0 : 0 <= b) by apply P.
    assert (H2 : 0 <= (a + b) / 2) by (apply Qle_shift_div_l; lra). split; [|exact H2].
    apply (within_rnd u53 u53_bounds 1 (r53 (a + b) / 2)); [|exact H2|apply r53_err].
    assert (W : within u53 1 (r53 (a + b)) (a + b)).
    { apply (within_rnd u53 u53_bounds 0 (a + b)); [apply within_self; [exact u53_bounds|lra]|lra|apply r53_err]. }
    destruct W as [W1 W2]. set (r := r53 (a + b)) in *. clearbody r. unfold within.
    set (lo := (1 - u53) ^ Z.of_nat 1) in *. set (hi := (1 + u53) ^ Z.of_nat 1) in *. clearbody lo hi.
    unfold Qdiv. change (/ 2) with (1 # 2). split; lra.
Qed.

Lemma bar_f_median prices vols s e : (-1 <= s < e)%Z -> (forall x, In x vols -> 0 <= x) ->
  within u53 2 (b_median (bar_ohlcv_f prices vols s e)) (b_median (bar_ohlcv prices vols s e)).
Proof.
  intros H Hq. unfold bar_ohlcv_f, bar_ohlcv. destruct (Z.eqb_spec s e) as [E|_]; [lia|].
  destruct (fold_left (ohlcv_step_f prices vols) _ _) as [[[h l] v] d].
  destruct (fold_left (ohlcv_step prices vols) _ _) as [[[h' l'] v'] d']. cbn [b_median].
  destruct (Z.ltb_spec 0 (e - (s + 1) + 1)); [|lia].
  apply median_f_near. intros x Hx. apply in_map_iff in Hx. destruct Hx as [j [<- Hj]]. apply in_zrange in Hj.
  rewrite zget_nonneg by lia. apply nth_nonneg, Hq.
Qed.

Section Whole.
  Variables prices vols : list Q.
  Variable sides : list Z.
  Variables s e : Z.
  Hypothesis Hse : (-1 <= s <= e)%Z.
  Notation f := (bar_directional_f prices vols sides s e).
  Notation f0 := (bar_directional prices vols sides s e).
  Notation dol := (fun j => at_ prices j * at_ vols j).

  Lemma dir_f_spread :
    (1 - u24) * (1 - u53) * f_max_spread f0 <= f_max_spread f <= (1 + u24) * (1 + u53) * f_max_spread f0 /\
    match f_mean_spread f, f_mean_spread f0 with
    | Fin a, Fin x => let n := (2 + Z.to_nat (e - s))%nat in
        0 <= x /\ (1 - u24) * (1 - u53) ^ Z.of_nat n * x <= a <= (1 + u24) * (1 + u53) ^ Z.of_nat n * x
    | PInf, PInf | NaN, NaN => True
    | _, _ => False
    end.
  Proof.
    unfold bar_directional_f, bar_directional. set (prev := if (s + 1 <? e)%Z then _ else _).
    destruct (sp_loop prices vols sides s e prev Hse) as [_ [[T1 [T2 [T3 T4]]] [M0 [C0 [W1 W2]]]]].
    set (st := fold_left (d_step_f prices vols sides) _ _) in *. set (st0 := fold_left (d_step prices vols sides) _ _) in *.
    cbn [f_max_spread f_mean_spread]. split.
    - exact (cell_within 1 _ _ W1 M0).
    - pose proof (div_near (S (Z.to_nat (e - s))) (d_cs st) (d_cs st0) (d_tb st0 + d_ts st0) C0 W2 ltac:(lia)) as N.
      rewrite T1, T2. exact N.
  Qed.

  Hypothesis Hp : forall x, In x prices -> 0 <= x.
  Hypothesis Hq : forall x, In x vols -> 0 <= x.

  Lemma dir_f_sides :
    let ok a n x := (1 - u24) * (1 - u53) ^ Z.of_nat n * x <= a <= (1 + u24) * (1 + u53) ^ Z.of_nat n * x in
    f_ticks_buy f = Z.of_nat (bcount sides 1 s e) /\ f_ticks_sell f = Z.of_nat (bcount sides (-1) s e) /\
    ok (f_vol_buy f) (bcount sides 1 s e) (side_sum sides 1 (at_ vols) s e) /\
    ok (f_vol_sell f) (bcount sides (-1) s e) (side_sum sides (-1) (at_ vols) s e) /\
    ok (f_dol_buy f) (S (bcount sides 1 s e)) (side_sum sides 1 dol s e) /\
    ok (f_dol_sell f) (S (bcount sides (-1) s e)) (side_sum sides (-1) dol s e).
  Proof.
    cbv zeta. unfold bar_directional_f. set (prev := if (s + 1 <? e)%Z then _ else _).
    destruct (df_loop prices vols sides Hp Hq s e prev Hse) as [I1 [I2 [_ [_ [_ [W1 [W2 [W3 [W4 _]]]]]]]]].
    destruct (d_loop prices vols sides s e prev Hse) as [J1 [J2 _]].
    set (st := fold_left (d_step_f prices vols sides) _ _) in *. set (st0 := fold_left (d_step prices vols sides) _ _) in *.
    cbn [f_ticks_buy f_ticks_sell f_vol_buy f_vol_sell f_dol_buy f_dol_sell].
    split; [now rewrite I1|]. split; [now rewrite I2|].
    split; [apply cell_within; [exact W1|apply side_nonneg; now apply at_nonneg]|].
    split; [apply cell_within; [exact W2|apply side_nonneg; now apply at_nonneg]|].
    split; (apply cell_within; [assumption|apply side_nonneg; intro; now apply dol_nonneg]).
  Qed.

  Lemma dir_f_extremes :
    let k := (2 * Z.to_nat (e - s))%nat in
    let err A := Qnat k * u53 * ((1 + u53) ^ Z.of_nat k * A) in
    let V := bsum (at_ vols) s e in let D := bsum dol s e in
    let near A a x := Qabs (a - x) <= u24 * Qabs x + (1 + u24) * err A in
    f_ct_min f = f_ct_min f0 /\ f_ct_max f = f_ct_max f0 /\
    near V (f_cv_min f) (f_cv_min f0) /\ near V (f_cv_max f) (f_cv_max f0) /\
    near D (f_cd_min f) (f_cd_min f0) /\ near D (f_cd_max f) (f_cd_max f0).
  Proof.
    cbv zeta. unfold bar_directional_f, bar_directional. set (prev := if (s + 1 <? e)%Z then _ else _).
    destruct (df_loop prices vols sides Hp Hq s e prev Hse) as [_ [_ [_ [I4 [I5 [_ [_ [_ [_ [_ [_ [X1 [X2 [X3 X4]]]]]]]]]]]]]].
    set (st := fold_left (d_step_f prices vols sides) _ _) in *. set (st0 := fold_left (d_step prices vols sides) _ _) in *.
    cbn [f_ct_min f_ct_max f_cv_min f_cv_max f_cd_min f_cd_max].
    assert (V0 : 0 <= bsum (at_ vols) s e) by (apply bsum_nonneg; intros; now apply at_nonneg).
    assert (D0 : 0 <= bsum dol s e) by (apply bsum_nonneg; intros; now apply dol_nonneg).
    split; [exact I4|]. split; [exact I5|].
    split; [apply (cell_final _ _ _ (drift_nonneg _ _ V0) X1)|]. split; [apply (cell_final _ _ _ (drift_nonneg _ _ V0) X2)|].
    split; [apply (cell_final _ _ _ (drift_nonneg _ _ D0) X3)|apply (cell_final _ _ _ (drift_nonneg _ _ D0) X4)].
  Qed.

  Lemma dir_f_add_up : (forall j, (s < j <= e)%Z -> zat sides j = 1%Z \/ zat sides j = (-1)%Z) ->
    let b := bar_ohlcv_f prices vols s e in
    let n := Z.to_nat (e - s) in let V := bsum (at_ vols) s e in
    Qabs (f_vol_buy f + f_vol_sell f - b_volume b) <= ((1 + u24) * (1 + u53) ^ Z.of_nat n - (1 - u24) * (1 - u53) ^ Z.of_nat n) * V.
  Proof.
    intro Sd. cbv zeta. pose proof (bar_f_volume prices vols s e Hse Hq) as BV. cbv zeta in BV.
    destruct dir_f_sides as [_ [_ [A [B _]]]].
    pose proof (bcount_total sides s e ltac:(lia) Sd) as CT. pose proof (bsum_side_total sides (at_ vols) s e Sd) as ST.
    pose proof (side_nonneg sides 1 (at_ vols) s e (at_nonneg _ Hq)) as N1. pose proof (side_nonneg sides (-1) (at_ vols) s e (at_nonneg _ Hq)) as N2.
    set (n := Z.to_nat (e - s)) in *.
    assert (Mono : forall m a x, (m <= n)%nat -> 0 <= x ->
      (1 - u24) * (1 - u53) ^ Z.of_nat m * x <= a <= (1 + u24) * (1 + u53) ^ Z.of_nat m * x ->
      (1 - u24) * (1 - u53) ^ Z.of_nat n * x <= a <= (1 + u24) * (1 + u53) ^ Z.of_nat n * x).
    { intros m a x L X [P Q0]. replace n with (m + (n - m))%nat by lia. rewrite !pow_add. pose proof u53_bounds. pose proof u24_bounds.
      pose proof (pow_nonneg (1 - u53) m ltac:(lra)). pose proof (pow_le1 (1 - u53) (n - m) ltac:(lra)).
      pose proof (pow_ge1 (1 + u53) m ltac:(lra)). pose proof (pow_ge1 (1 + u53) (n - m) ltac:(lra)).
      set (l1 := (1 - u53) ^ Z.of_nat m) in *. set (l2 := (1 - u53) ^ Z.of_nat (n - m)) in *.
      set (h1 := (1 + u53) ^ Z.of_nat m) in *. set (h2 := (1 + u53) ^ Z.of_nat (n - m)) in *. clearbody l1 l2 h1 h2.
      assert (0 <= (1 - u24) * l1 * x) by (apply Qmult_le_0_compat; [apply Qmult_le_0_compat; lra|lra]).
      assert (0 <= (1 + u24) * h1 * x) by (apply Qmult_le_0_compat; [apply Qmult_le_0_compat; lra|lra]).
      set (lx := (1 - u24) * l1 * x) in *. set (hx := (1 + u24) * h1 * x) in *.
      assert (E1 : (1 - u24) * (l1 * l2) * x == lx * l2) by (unfold lx; ring).
      assert (E2 : (1 + u24) * (h1 * h2) * x == hx * h2) by (unfold hx; ring). rewrite E1, E2. clearbody lx hx. split; nra. }
    assert (C1 : (bcount sides 1 s e <= n)%nat) by (unfold n; lia). assert (C2 : (bcount sides (-1) s e <= n)%nat) by (unfold n; lia).
    apply (Mono _ _ _ C1 N1) in A. apply (Mono _ _ _ C2 N2) in B.
    set (l := (1 - u24) * (1 - u53) ^ Z.of_nat n) in *. set (h := (1 + u24) * (1 + u53) ^ Z.of_nat n) in *. clearbody l h.
    set (x := side_sum sides 1 (at_ vols) s e) in *. set (y := side_sum sides (-1) (at_ vols) s e) in *. clearbody x y.
    rewrite <- ST in BV. rewrite <- ST. apply Qabs_Qle_condition. split; lra.
  Qed.
End Whole.
