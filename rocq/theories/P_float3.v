(** P_float3.v -- proofs about bar features with float64 and float32 arithmetic. *)
From Verif Require Import Base M_bars S_bars P_sort P_bars M_float S_float P_features P_float P_float2.
Open Scope Q_scope.

Lemma within_prod a b : 0 <= a -> 0 <= b -> within u53 1 (r53 (a * b)) (a * b).
Proof.
  intros Ha Hb. apply (within_rnd u53 u53_bounds 0 (a * b)); [|nra|apply r53_err].
  apply within_self; [exact u53_bounds|nra].
Qed.
Lemma bsum_pos f a b : (forall j, (a < j <= b)%Z -> 0 <= f j) -> 0 <= bsum f a b.
Proof. apply bsum_nonneg. Qed.
Lemma at_nonneg l : (forall x, In x l -> 0 <= x) -> forall j, 0 <= at_ l j.
Proof. intros H j. apply nth_nonneg, H. Qed.

(* ---------------------------------------------------------------- OHLCV *)
Section Ohlcv.
  Variables prices vols : list Q.
  Notation p := (at_ prices).
  Notation q := (at_ vols).

  (** High and low do not depend on the totals. *)
  Lemma ohlc_same js h l v d v' d' :
    let r := fold_left (ohlcv_step_f prices vols) js (h, l, v, d) in
    let r' := fold_left (ohlcv_step prices vols) js (h, l, v', d') in
    fst (fst (fst r)) = fst (fst (fst r')) /\ snd (fst (fst r)) = snd (fst (fst r')).
  Proof.
    revert h l v d v' d'. induction js as [|j js IH]; intros h l v d v' d'; [split; reflexivity|].
    cbv zeta. cbn [fold_left]. unfold ohlcv_step_f at 2 4, ohlcv_step at 2 4. apply IH.
  Qed.

  Definition tot_inv (s e : Z) (st : Q * Q * Q * Q) : Prop :=
    let '(h, l, v, d) := st in
    within u53 (Z.to_nat (e - s)) v (bsum q s e) /\
    ((forall x, In x prices -> 0 <= x) -> within u53 (S (Z.to_nat (e - s))) d (bsum (fun j => p j * q j) s e)).

  Lemma tot_loop s e a0 : (-1 <= s <= e)%Z -> (forall x, In x vols -> 0 <= x) ->
    tot_inv s e (fold_left (ohlcv_step_f prices vols) (zrange (s + 1) (e + 1)) (a0, a0, 0, 0)).
  Proof.
    intros [Hs He] Hq. revert e He. apply bar_ind.
    - rewrite zrange_nil by lia. cbn [fold_left]. unfold tot_inv. split; [|intros _].
      + eapply within_comp; [reflexivity|symmetry; apply bsum_nil; lia|apply within_0].
      + eapply within_comp; [reflexivity|symmetry; apply bsum_nil; lia|apply within_0].
    - intros e He IH. rewrite fold_bar by lia.
      destruct (fold_left _ _ _) as [[[h l] v] d]. unfold tot_inv in *. destruct IH as [Hv Hd].
      cbn [ohlcv_step_f]. rewrite !zget_nonneg by lia. fold (p (e + 1)) (q (e + 1)).
      replace (Z.to_nat (e + 1 - s)) with (S (Z.to_nat (e - s))) by lia.
      split.
      + eapply within_comp; [reflexivity|symmetry; apply bsum_snoc; lia|].
        apply within_sum; [exact Hv|apply bsum_nonneg; intros; apply at_nonneg, Hq|apply at_nonneg, Hq].
      + intro Hp. eapply within_comp; [reflexivity|symmetry; apply bsum_snoc; lia|].
        pose proof (at_nonneg _ Hp (e + 1)) as P0. pose proof (at_nonneg _ Hq (e + 1)) as Q0.
        assert (B0 : 0 <= bsum (fun j => p j * q j) s e).
        { apply bsum_nonneg. intros j _. pose proof (at_nonneg _ Hp j). pose proof (at_nonneg _ Hq j). nra. }
        apply (within_rnd u53 u53_bounds (S (Z.to_nat (e - s))) (d + r53 (p (e + 1) * q (e + 1)))); [|nra|apply r53_err].
        apply within_plus; [now apply Hd|]. apply (within_le u53 u53_bounds 1); [lia|nra|now apply within_prod].
  Qed.

  Lemma bar_f_prices s e : (-1 <= s < e)%Z ->
    let b := bar_ohlcv_f prices vols s e in
    b_open b = p (s + 1) /\ b_close b = p e /\
    is_max p (fun _ => True) s e (b_high b) /\ is_min p (fun _ => True) s e (b_low b) /\ b_trades b = (e - s)%Z.
  Proof.
    intro H. pose proof (bar_ohlcv_spec prices vols s e H) as K. cbv zeta in *.
    unfold bar_ohlcv_f, bar_ohlcv in *. destruct (Z.eqb_spec s e) as [Ese|_]; [lia|].
    pose proof (ohlc_same (zrange (s + 1) (e + 1)) (zget 0 prices (s + 1)) (zget 0 prices (s + 1)) 0 0 0 0) as S0.
    cbv zeta in S0.
    destruct (fold_left (ohlcv_step_f prices vols) _ _) as [[[h l] v] d].
    destruct (fold_left (ohlcv_step prices vols) _ _) as [[[h' l'] v'] d'].
    cbn [fst snd] in S0. destruct S0 as [-> ->].
    cbn [b_open b_close b_high b_low b_trades b_volume b_vwap] in *. tauto.
  Qed.

  Lemma bar_f_volume s e : (-1 <= s <= e)%Z -> (forall x, In x vols -> 0 <= x) ->
    let b := bar_ohlcv_f prices vols s e in let n := Z.to_nat (e - s) in
    (1 - u24) * (1 - u53) ^ Z.of_nat n * bsum q s e <= b_volume b <= (1 + u24) * (1 + u53) ^ Z.of_nat n * bsum q s e.
  Proof.
    intros H Hq. cbv zeta. destruct (Z.eq_dec s e) as [->|N].
    - unfold bar_ohlcv_f. rewrite Z.eqb_refl. cbn [b_volume]. rewrite bsum_nil by lia. lra.
    - pose proof (tot_loop s e (zget 0 prices (s + 1)) H Hq) as T.
      unfold bar_ohlcv_f. destruct (Z.eqb_spec s e) as [Ese|_]; [lia|].
      destruct (fold_left (ohlcv_step_f prices vols) _ _) as [[[h l] v] d]. cbn [b_volume]. destruct T as [W _].
      assert (B0 : 0 <= bsum q s e) by (apply bsum_nonneg; intros; apply at_nonneg, Hq).
      pose proof (within_nonneg u53 u53_bounds _ _ _ W B0) as V0. destruct W as [W1 W2].
      pose proof (r24_err v) as R. rewrite (Qabs_pos v) in R by auto. apply Qabs_Qle_condition in R.
      pose proof u24_bounds. set (L := (1 - u53) ^ _) in *. set (U := (1 + u53) ^ _) in *. clearbody L U.
      split; nra.
  Qed.

  Lemma bar_f_vwap s e : (-1 <= s < e)%Z -> (forall x, In x prices -> 0 <= x) -> (forall x, In x vols -> 0 <= x) ->
    let b := bar_ohlcv_f prices vols s e in let n := Z.to_nat (e - s) in
    let V := bsum q s e in let D := bsum (fun j => p j * q j) s e in
    0 < V ->
    (1 - u53) ^ Z.of_nat (n + 2) * D <= b_vwap b * ((1 + u53) ^ Z.of_nat n * V) /\
    b_vwap b * ((1 - u53) ^ Z.of_nat n * V) <= (1 + u53) ^ Z.of_nat (n + 2) * D.
  Proof.
    intros H Hp Hq. cbv zeta. intro PV.
    pose proof (tot_loop s e (zget 0 prices (s + 1)) ltac:(lia) Hq) as T.
    unfold bar_ohlcv_f. destruct (Z.eqb_spec s e) as [Ese|_]; [lia|].
    destruct (fold_left (ohlcv_step_f prices vols) _ _) as [[[h l] v] d]. cbn [b_vwap]. destruct T as [W WD].
    specialize (WD Hp). set (V := bsum q s e) in *. set (D := bsum (fun j => p j * q j) s e) in *.
    set (n := Z.to_nat (e - s)) in *.
    assert (D0 : 0 <= D).
    { apply bsum_nonneg. intros j _. pose proof (at_nonneg _ Hp j). pose proof (at_nonneg _ Hq j). nra. }
    pose proof (within_nonneg u53 u53_bounds _ _ _ WD D0) as d0.
    assert (L0 : 0 < (1 - u53) ^ Z.of_nat n).
    { clear. induction n as [|n IH]; [reflexivity|]. rewrite pow_S. assert (0 < 1 - u53) by reflexivity. nra. }
    destruct W as [W1 W2]. destruct WD as [WD1 WD2].
    assert (v0 : 0 < v) by nra.
    destruct (Qltb_spec 0 v); [|lra].
    assert (y0 : 0 <= d / v) by (apply Qle_shift_div_l; lra).
    pose proof (r53_err (d / v)) as R. rewrite (Qabs_pos (d / v)) in R by auto. apply Qabs_Qle_condition in R.
    set (w := r53 (d / v)) in *.
    assert (wv : (1 - u53) * d <= w * v <= (1 + u53) * d).
    { assert (E : d == d / v * v) by (field; lra). set (y := d / v) in *. clearbody y w. rewrite E. split; nra. }
    assert (w0 : 0 <= w) by (apply r53_nonneg; exact y0).
    replace (n + 2)%nat with (S (S n)) by lia. rewrite !pow_S in *.
    set (L := (1 - u53) ^ Z.of_nat n) in *. set (U := (1 + u53) ^ Z.of_nat n) in *.
    pose proof u53_bounds. assert (0 <= 1 - u53) by lra. assert (0 <= 1 + u53) by lra.
    clearbody L U w. split.
    - apply Qle_trans with (w * v); [|nra].
      apply Qle_trans with ((1 - u53) * d); [|lra]. assert ((1 - u53) * ((1 - u53) * L * D) <= (1 - u53) * d) by nra. lra.
    - apply Qle_trans with (w * v); [nra|].
      apply Qle_trans with ((1 + u53) * d); [lra|]. assert ((1 + u53) * d <= (1 + u53) * ((1 + u53) * U * D)) by nra. lra.
  Qed.

  (** On a grid coarse enough the volume is exact. *)
  Lemma bar_f_grid s e g : (-1 <= s <= e)%Z -> (forall x, In x vols -> grid g x /\ 0 <= x) -> bsum q s e <= two (24 + g) ->
    b_volume (bar_ohlcv_f prices vols s e) == bsum q s e.
  Proof.
    intros H Hg B. destruct (Z.eq_dec s e) as [->|N].
    - unfold bar_ohlcv_f. rewrite Z.eqb_refl. cbn [b_volume]. rewrite bsum_nil by lia. reflexivity.
    - unfold bar_ohlcv_f. destruct (Z.eqb_spec s e) as [Ese|_]; [lia|].
      assert (Q0 : forall j, 0 <= q j) by (apply at_nonneg; intros x Hx; apply (proj2 (Hg x Hx))).
      assert (Gq : forall j, grid g (q j)).
      { intro j. unfold at_. destruct (Nat.lt_ge_cases (Z.to_nat j) (length vols)).
        - apply Hg. now apply nth_In.
        - rewrite nth_overflow by auto. apply grid_0. }
      assert (G : forall e', (s <= e')%Z -> (e' <= e)%Z ->
        snd (fst (fold_left (ohlcv_step_f prices vols) (zrange (s + 1) (e' + 1)) (zget 0 prices (s + 1), zget 0 prices (s + 1), 0, 0))) == bsum q s e' /\ grid g (bsum q s e')).
      { intros e' He'. pattern e'. revert e' He'. apply bar_ind.
        - intros _. rewrite zrange_nil by lia. cbn [fold_left fst snd]. split; [now rewrite bsum_nil by lia|].
          eapply grid_comp; [symmetry; apply bsum_nil; lia|apply grid_0].
        - intros e' He IH He'. specialize (IH ltac:(lia)). rewrite fold_bar by lia.
          destruct (fold_left (ohlcv_step_f prices vols) _ _) as [[[h l] v] d]. cbn [fst snd] in *. destruct IH as [E Gb].
          cbn [ohlcv_step_f fst snd]. rewrite !zget_nonneg by lia. fold (p (e' + 1)) (q (e' + 1)).
          assert (Gn : grid g (bsum q s e' + q (e' + 1))) by (apply grid_plus; auto).
          split.
          + rewrite bsum_snoc by lia. rewrite E. apply (grid_rnd 53 g); [lia|exact Gn|].
            assert (T : bsum q s e == bsum q s e' + q (e' + 1) + bsum q (e' + 1) e).
            { rewrite (bsum_split q s (e' + 1) e) by lia. rewrite (bsum_snoc q s e') by lia. reflexivity. }
            pose proof (bsum_nonneg q (e' + 1) e ltac:(auto)). pose proof (bsum_nonneg q s e' ltac:(auto)). pose proof (Q0 (e' + 1)%Z).
            pose proof (two_le (24 + g) (53 + g) ltac:(lia)). lra.
          + eapply grid_comp; [symmetry; apply bsum_snoc; lia|exact Gn]. }
      specialize (G e ltac:(lia) ltac:(lia)).
      destruct (fold_left (ohlcv_step_f prices vols) _ _) as [[[h l] v] d]. cbn [fst snd b_volume] in *. destruct G as [E Gb].
      rewrite E. apply (grid_rnd 24 g); [lia|exact Gb|]. split; [|exact B]. apply bsum_nonneg; auto.
  Qed.
End Ohlcv.

Lemma comp_f_ok prices vols closes bars : comp_bar_ohlcv_f prices vols closes = Ok bars ->
  length prices = length vols /\ (2 <= length closes)%nat /\
  bars = map (fun k => bar_ohlcv_f prices vols (nth k closes 0%Z) (nth (S k) closes 0%Z)) (seq 0 (length closes - 1)).
Proof.
  unfold comp_bar_ohlcv_f. destruct (Nat.eqb_spec (length prices) (length vols)); [|discriminate].
  cbn [negb]. destruct (Nat.ltb_spec (length closes) 2); [discriminate|]. intro E. injection E as <-. auto.
Qed.
