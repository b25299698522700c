(** P_shapef.v -- proofs for T_shapef.v. *)
From Coq Require Import Qround Qpower Qfield Lqa.
From Verif Require Import Base M_transforms M_backend M_float M_float2 M_float15 S_float S_sumf S_backend.
From Verif Require Import P_float P_float9 P_float10 P_float11 P_float12 P_float13 P_sumf P_volatf P_volatf2 P_retf P_cstestf.
Open Scope Q_scope.

Lemma tiny_pos : 0 < tiny_f.
Proof. vm_compute. reflexivity. Qed.
Lemma fl_r53 x : fl 53 (r53 x).
Proof. apply rnd_fl. lia. Qed.
Lemma range_within h l : l <= h -> within u53 2 (candle_range_f h l) (h - l + (1 # 1000000000000)).
Proof.
  intro H. unfold candle_range_f. apply (within_add 1 1); [lra|discriminate|lia| |]; apply within_of_r53; [lra|discriminate].
Qed.
Lemma range_ge h l : l <= h -> r53 (h - l) <= candle_range_f h l.
Proof. intro H. unfold candle_range_f. apply (rnd_ge 53); [lia|apply fl_r53|]. pose proof tiny_pos. lra. Qed.
Lemma range_pos h l : l <= h -> 0 < candle_range_f h l.
Proof. intro H. apply (within_pos 2 _ (h - l + (1 # 1000000000000))); [lra|now apply range_within]. Qed.
Lemma ediv_pos a b : 0 < b -> ediv_f a b = Fin (r53 (a / b)).
Proof. intro H. unfold ediv_f. destruct (Qeqb_spec b 0); [lra|reflexivity]. Qed.
Lemma share_ok h l a : l <= h -> 0 <= a -> a <= h - l ->
  0 <= r53 (r53 a / candle_range_f h l) <= 1 /\ within u53 6 (r53 (r53 a / candle_range_f h l)) (a / (h - l + (1 # 1000000000000))).
Proof.
  intros H A0 A1. pose proof (range_pos h l H) as P. pose proof (range_ge h l H) as G. assert (R0 : 0 <= r53 a) by (apply r53_nonneg; exact A0).
  assert (R1 : r53 a <= r53 (h - l)) by (apply r53_mono; exact A1). split; [split|].
  - apply r53_nonneg. apply Qle_shift_div_l; lra.
  - apply (rnd_le 53); [lia|exact fl_1|]. apply Qle_shift_div_r; [exact P|lra].
  - apply (within_div_r 1 2); [exact A0|lra|now apply within_of_r53|now apply range_within].
Qed.

(** A float is left alone by an addition of less than half its last place. *)
Lemma absorb e x t : fl 53 x -> two e <= x -> 0 <= t -> t < two (e - 53) -> r53 (x + t) == x.
Proof.
  intros F Hx T0 T1. pose proof (two_pos e) as P. assert (G : x <= r53 (x + t)) by (apply (rnd_ge 53); [lia|exact F|lra]).
  pose proof (rnd_best 53 (x + t) x ltac:(lia) F) as B. fold (r53 (x + t)) in B. pose proof (fl_r53 (x + t)) as Fr. set (r := r53 (x + t)) in *. clearbody r.
  assert (E1 : x - (x + t) == - t) by ring. rewrite E1, Qabs_opp, (Qabs_pos t) in B by exact T0. apply Qabs_Qle_condition in B.
  assert (GX : forall y, fl 53 y -> two e <= y -> grid (e - 52) y).
  { intros y Fy Hy. apply (grid_coarse _ (ilog y - 52)); [|apply fl_ulp; [exact Fy|lra]]. assert ((e < ilog y + 1)%Z); [|lia].
    apply two_lt_inv. destruct (ilog_spec y ltac:(lra)) as [_ K]. rewrite Qabs_pos in K by lra. lra. }
  destruct (grid_minus _ _ _ (GX r Fr ltac:(lra)) (GX x F Hx)) as [k K]. fold (two (e - 52)) in K. pose proof (two_pos (e - 52)) as P2.
  assert (E2 : two (e - 52) == 2 * two (e - 53)) by (rewrite <- two_S; now replace (e - 53 + 1)%Z with (e - 52)%Z by lia).
  assert (KZ : (k = 0)%Z).
  { assert (inject_Z k < inject_Z 1) by (change (inject_Z 1) with 1; nra). assert (inject_Z (-1) < inject_Z k) by (change (inject_Z (-1)) with (- (1)); nra).
    rewrite <- Zlt_Qlt in *. lia. }
  subst k. change (inject_Z 0) with 0 in K. lra.
Qed.
Lemma range_absorbed h l : two 14 <= h - l -> candle_range_f h l == r53 (h - l).
Proof.
  intro H. apply (absorb 14).
  - apply fl_r53.
  - apply (rnd_ge 53); [lia| |exact H]. exists 1%Z, 14%Z. split; [reflexivity|]. unfold two. ring.
  - apply Qlt_le_weak, tiny_pos.
  - vm_compute. reflexivity.
Qed.

(** ** Durations *)
Lemma Qeq_refl_of (x y : Q) : x = y -> x == y.
Proof. intros ->. reflexivity. Qed.
Lemma seconds_nonneg dt : (0 <= dt)%Z -> 0 <= seconds_f dt.
Proof. intro H. apply r53_nonneg. apply Qle_shift_div_l; [lra|]. assert (0 <= r53 (inject_Z dt)) by (apply r53_nonneg; change 0 with (inject_Z 0); rewrite <- Zle_Qle; lia). lra. Qed.
Lemma seconds_within dt : (0 <= dt)%Z -> within u53 2 (seconds_f dt) (inject_Z dt / 1000000000).
Proof. intro H. assert (0 <= inject_Z dt) by (change 0 with (inject_Z 0); rewrite <- Zle_Qle; lia). apply within_quot; [assumption|lra|now apply within_of_r53]. Qed.
Lemma seconds_mono a b : (a <= b)%Z -> seconds_f a <= seconds_f b.
Proof. intro H. apply r53_mono. apply Qmult_le_compat_r; [|discriminate]. apply r53_mono. rewrite <- Zle_Qle. exact H. Qed.
Lemma int_exact z : (Z.abs z <= 2 ^ 53)%Z -> r53 (inject_Z z) == inject_Z z.
Proof. intro H. apply (rnd_exact 53); [lia|]. apply (fl_comp 53 (inject_Z z * two 0)); [unfold two; cbn; ring|]. apply fl_le; [lia|exact H]. Qed.
Lemma seconds_whole s : (Z.abs s * 1953125 <= 2 ^ 53)%Z -> seconds_f (s * 1000000000) == inject_Z s.
Proof.
  intro H. unfold seconds_f. assert (E : r53 (inject_Z (s * 1000000000)) == inject_Z (s * 1000000000)).
  { apply (rnd_exact 53); [lia|]. apply (fl_comp 53 (inject_Z (s * 1953125) * two 9)); [|apply fl_le; lia].
    change (two 9) with (inject_Z 512). rewrite <- inject_Z_mult. apply inject_Z_injective. lia. }
  rewrite <- (int_exact s) by lia. apply Qeq_refl_of. apply rnd_comp. rewrite E, inject_Z_mult. change (inject_Z 1000000000) with 1000000000. field.
Qed.

Lemma Qeq_le_of (x y : Q) : x == y -> x <= y.
Proof. intros ->. apply Qle_refl. Qed.
Lemma seconds_apart a b : (0 <= a < b)%Z -> (b <= 2 ^ 52)%Z -> seconds_f a < seconds_f b.
Proof.
  intros H B. unfold seconds_f. set (x := inject_Z a / 1000000000). set (y := inject_Z b / 1000000000).
  assert (Ea : r53 (r53 (inject_Z a) / 1000000000) = r53 x) by (apply rnd_comp; rewrite int_exact by lia; reflexivity).
  assert (Eb : r53 (r53 (inject_Z b) / 1000000000) = r53 y) by (apply rnd_comp; rewrite int_exact by lia; reflexivity).
  rewrite Ea, Eb. assert (A0 : 0 <= inject_Z a) by (change 0 with (inject_Z 0); rewrite <- Zle_Qle; lia).
  assert (AB : inject_Z a + 1 <= inject_Z b) by (change 1 with (inject_Z 1); rewrite <- inject_Z_plus, <- Zle_Qle; lia).
  assert (B2 : inject_Z b <= 4503599627370496) by (change 4503599627370496 with (inject_Z (2 ^ 52)); rewrite <- Zle_Qle; lia).
  assert (X : x == inject_Z a * (1 # 1000000000)) by (unfold x, Qdiv; reflexivity). assert (Y : y == inject_Z b * (1 # 1000000000)) by (unfold y, Qdiv; reflexivity).
  pose proof (r53_err x) as Rx. pose proof (r53_err y) as Ry. rewrite (Qabs_pos x) in Rx by lra. rewrite (Qabs_pos y) in Ry by lra.
  apply Qabs_Qle_condition in Rx. apply Qabs_Qle_condition in Ry. change u53 with (1 # 9007199254740992) in *.
  set (ra := r53 x) in *. set (rb := r53 y) in *. clearbody ra rb x y. lra.
Qed.

(** ** The weighted mean of pandas *)
Definition owithin (k : nat) (a x : option Q) : Prop :=
  match a, x with Some af, Some a => 0 <= a /\ within u53 k af a | None, None => True | _, _ => False end.
Definition kew (d i : nat) : nat := (d + 9 * i * i + 11 * i)%nat.
Lemma kew_S d i : (kew d i + 3 * (6 * i) + 20 = kew d (S i))%nat.
Proof. unfold kew. lia. Qed.
Lemma kew_ge d i : (d <= kew d i)%nat.
Proof. unfold kew. lia. Qed.
Lemma owithin_le k m a x : (k <= m)%nat -> owithin k a x -> owithin m a x.
Proof. intros H O. destruct a, x; cbn in *; try exact O. destruct O as [P W]. split; [exact P|]. now apply (within_le u53 u53_bounds k). Qed.
Lemma mean_step d i af a wf w bf b cf c : (0 <= a) -> (0 <= c) -> (0 < w) -> (0 < b) ->
  within u53 (kew d i) af a -> within u53 (6 * i) wf w -> within u53 4 bf b -> within u53 d cf c ->
  let wbf := r53 (wf * bf) in
  within u53 (6 * i + 5) wbf (w * b) /\ within u53 (6 * S i) (r53 (wbf + 1)) (w * b + 1) /\
  0 <= (w * b * a + c) / (w * b + 1) /\
  within u53 (kew d (S i)) (if Qeqb af cf then af else r53 (r53 (r53 (wbf * af) + cf) / r53 (wbf + 1))) ((w * b * a + c) / (w * b + 1)).
Proof.
  intros A0 C0 W0 B0 Wa Ww Wb Wc wbf. assert (WB : 0 < w * b) by (apply Qmult_lt_0_compat; assumption).
  assert (W1 : within u53 (6 * i + 5) wbf (w * b)).
  { unfold wbf. replace (6 * i + 5)%nat with (S (6 * i + 4)) by lia. apply within_mult_r; lra || assumption. }
  assert (W2 : within u53 (6 * i + 6) (r53 (wbf + 1)) (w * b + 1)).
  { replace (6 * i + 6)%nat with (S (6 * i + 5)) by lia. apply (within_add _ 0); [lra|lra|lia|exact W1|apply (within_self u53 u53_bounds); lra]. }
  assert (NN : 0 <= w * b * a + c) by (pose proof (Qmult_le_0_compat (w * b) a ltac:(lra) A0); lra).
  split; [exact W1|]. split; [replace (6 * S i)%nat with (6 * i + 6)%nat by lia; exact W2|]. split; [apply Qle_shift_div_l; lra|].
  destruct (Qeqb_spec af cf) as [E|E].
  - assert (Wc' : within u53 d af c) by (apply (within_comp u53 d cf c); [now symmetry|reflexivity|exact Wc]).
    assert (Wa' : within u53 (kew d i) af c) by (apply (within_le u53 u53_bounds d); [apply kew_ge|exact C0|exact Wc']).
    apply (within_le u53 u53_bounds (kew d i)); [pose proof (kew_S d i); lia|apply Qle_shift_div_l; lra|].
    destruct Wa as [A1 A2], Wa' as [C1 C2]. unfold within. set (p := (1 - u53) ^ Z.of_nat (kew d i)) in *. set (q := (1 + u53) ^ Z.of_nat (kew d i)) in *. clearbody p q wbf.
    assert (T : 0 < / (w * b + 1)) by (apply Qinv_lt_0_compat; lra). split.
    + apply Qle_trans with ((w * b * (p * a) + p * c) / (w * b + 1)); [apply Qeq_le_of; field; lra|]. apply Qle_shift_div_r; [lra|].
      assert (w * b * (p * a) <= w * b * af) by (rewrite !(Qmult_comm (w * b)); apply Qmult_le_compat_r; lra). lra.
    + apply Qle_trans with ((w * b * (q * a) + q * c) / (w * b + 1)); [|apply Qeq_le_of; field; lra]. apply Qle_shift_div_l; [lra|].
      assert (w * b * af <= w * b * (q * a)) by (rewrite !(Qmult_comm (w * b)); apply Qmult_le_compat_r; lra). lra.
  - rewrite <- kew_S. assert (N1 : within u53 (kew d i + 6 * i + 7) (r53 (r53 (wbf * af) + cf)) (w * b * a + c)).
    { replace (kew d i + 6 * i + 7)%nat with (S (S (6 * i + 5 + kew d i))) by lia. apply (within_add _ d); [apply Qmult_le_0_compat; lra|exact C0|pose proof (kew_ge d i); lia| |exact Wc].
      apply within_mult_r; lra || assumption. }
    replace (kew d i + 3 * (6 * i) + 20)%nat with (S (kew d i + 6 * i + 7 + 2 * (6 * i + 6))) by lia. apply within_div_r; lra || assumption.
Qed.
Definition mean_st (d i : nat) (af a : option Q) (wf w : Q) : Prop :=
  owithin (kew d i) af a /\ 0 < w /\ within u53 (6 * i) wf w.
Lemma ewm_loops bf b d : 0 < b -> within u53 4 bf b -> forall xf x, Forall2 (owithin d) xf x -> forall i af a wf w, mean_st d i af a wf w ->
  forall m, (m < length xf)%nat -> owithin (kew d (S i + m)) (nth m (ewm_loop_f bf af wf xf) None) (nth m (ewm_loop b a w x) None).
Proof.
  intros B0 Wb xf x F. induction F as [|cf c xf x O F IH]; intros i af a wf w (Oa & W0 & Ww) m Hm; [cbn in Hm; lia|].
  assert (ST : exists af' a' wf' w', mean_st d (S i) af' a' wf' w' /\ ewm_loop_f bf af wf (cf :: xf) = af' :: ewm_loop_f bf af' wf' xf /\ ewm_loop b a w (c :: x) = a' :: ewm_loop b a' w' x).
  { cbn [ewm_loop_f ewm_loop]. destruct af as [af|], a as [a|]; cbn [owithin] in Oa; try contradiction.
    - destruct Oa as [A0 Wa]. destruct cf as [cf|], c as [c|]; cbn [owithin] in O; try contradiction.
      + destruct O as [C0 Wc]. destruct (mean_step d i af a wf w bf b cf c A0 C0 W0 B0 Wa Ww Wb Wc) as (_ & M2 & M3 & M4). cbv zeta in *.
        eexists _, _, _, _. split; [|split; reflexivity]. split; [|split; [pose proof (Qmult_lt_0_compat w b W0 B0); lra|exact M2]]. cbn [owithin].
        pose proof (Qmult_lt_0_compat w b W0 B0) as WB. destruct (Qeqb_spec a c) as [E|E]; [|split; assumption]. split; [exact A0|].
        eapply within_comp; [reflexivity| |exact M4]. rewrite <- E. field. lra.
      + eexists _, _, _, _. split; [|split; reflexivity]. split; [|split; [apply Qmult_lt_0_compat; assumption|]].
        * cbn [owithin]. split; [exact A0|]. apply (within_le u53 u53_bounds (kew d i)); [pose proof (kew_S d i); lia|exact A0|exact Wa].
        * apply (within_le u53 u53_bounds (S (6 * i + 4))); [lia|apply Qmult_le_0_compat; lra|]. apply within_mult_r; lra || assumption.
    - eexists _, _, _, _. split; [|split; reflexivity]. split; [apply (owithin_le d); [apply kew_ge|exact O]|]. split; [exact W0|].
      apply (within_le u53 u53_bounds (6 * i)); [lia|lra|exact Ww]. }
  destruct ST as (af' & a' & wf' & w' & ST & -> & ->). destruct m as [|m].
  - cbn [nth]. rewrite Nat.add_0_r. apply ST.
  - cbn [nth]. replace (S i + S m)%nat with (S (S i) + m)%nat by lia. apply IH; [exact ST|cbn in Hm; lia].
Qed.
Lemma ewm_runs bf b d xf x : 0 < b -> within u53 4 bf b -> Forall2 (owithin d) xf x ->
  forall m, (m < length xf)%nat -> owithin (kew d m) (nth m (ewm_loop_f bf None 1 xf) None) (nth m (ewm_loop b None 1 x) None).
Proof.
  intros B0 Wb F m Hm. destruct F as [|cf c xf x O F]; [cbn in Hm; lia|]. cbn [ewm_loop_f ewm_loop].
  assert (K0 : (d <= kew d 0)%nat) by apply kew_ge. destruct m as [|m]; [cbn [nth]; now apply (owithin_le d)|]. cbn [nth].
  apply (ewm_loops bf b d B0 Wb xf x F 0); [|cbn in Hm; lia]. split; [now apply (owithin_le d)|]. split; [lra|apply (within_self u53 u53_bounds); lra].
Qed.
Lemma factor_within span : (2 <= span < 2 ^ 53)%Z -> within u53 4 (ewm_factor_f span) (1 - 2 / (inject_Z span + 1)).
Proof.
  intro H. unfold ewm_factor_f. assert (S2 : 2 <= inject_Z span) by (change 2 with (inject_Z 2); rewrite <- Zle_Qle; lia).
  assert (E1 : r53 (inject_Z (span - 1) / 2) == inject_Z (span - 1) / 2).
  { apply (rnd_exact 53); [lia|]. apply (fl_comp 53 (inject_Z (span - 1) * two (-1))); [reflexivity|]. apply fl_le; lia. }
  assert (E2 : r53 (1 + r53 (inject_Z (span - 1) / 2)) == (inject_Z span + 1) / 2).
  { rewrite (r53_eq _ ((inject_Z span + 1) / 2)) by (rewrite E1; unfold Z.sub; rewrite inject_Z_plus; change (inject_Z (-(1))) with (- (1)); field).
    apply (rnd_exact 53); [lia|]. apply (fl_comp 53 (inject_Z (span + 1) * two (-1))); [|apply fl_le; lia]. rewrite inject_Z_plus. reflexivity. }
  set (c := r53 (1 + r53 (inject_Z (span - 1) / 2))) in *. clearbody c.
  assert (E3 : 1 / c == 2 / (inject_Z span + 1)) by (rewrite E2; field; lra).
  pose proof (r53_err (1 / c)) as R. set (al := r53 (1 / c)) in *. set (b := 1 - 2 / (inject_Z span + 1)). assert (E4 : 1 / c == 1 - b) by (rewrite E3; unfold b; ring).
  assert (B1 : (1 # 3) <= b).
  { unfold b. assert (2 / (inject_Z span + 1) <= 2 # 3) by (apply Qle_shift_div_r; lra). lra. }
  assert (B2 : b <= 1). { unfold b. assert (0 <= 2 / (inject_Z span + 1)) by (apply Qle_shift_div_l; lra). lra. }
  rewrite E4 in R. rewrite (Qabs_pos (1 - b)) in R by lra. apply Qabs_Qle_condition in R. clearbody b al.
  apply within_r53; [lra|]. unfold within. change u53 with (1 # 9007199254740992) in *.
  assert (L : (1 - (1 # 9007199254740992)) ^ Z.of_nat 3 <= 1 - (2 # 9007199254740992)) by (vm_compute; discriminate).
  assert (U : 1 + (2 # 9007199254740992) <= (1 + (1 # 9007199254740992)) ^ Z.of_nat 3) by (vm_compute; discriminate).
  set (p := (1 - (1 # 9007199254740992)) ^ Z.of_nat 3) in *. set (q := (1 + (1 # 9007199254740992)) ^ Z.of_nat 3) in *. clearbody p q. split; nra.
Qed.
(** The hull of the values. *)
Lemma ewm_hull lo hi b : 0 <= lo -> 0 <= b -> forall x, (forall y, In (Some y) x -> lo <= y <= hi) -> forall i a w,
  (forall v, a = Some v -> (1 - u53) ^ Z.of_nat (5 * i) * lo <= v <= (1 + u53) ^ Z.of_nat (5 * i) * hi) -> 0 <= w ->
  forall m v, nth m (ewm_loop_f b a w x) None = Some v ->
    (1 - u53) ^ Z.of_nat (5 * (S i + m)) * lo <= v <= (1 + u53) ^ Z.of_nat (5 * (S i + m)) * hi.
Proof.
  intros L0 B0. induction x as [|c x IH]; intros Hx i a w Ha W0 m v E; [destruct m; discriminate|].
  assert (MONO : forall k n y, (k <= n)%nat -> 0 <= hi -> (1 - u53) ^ Z.of_nat k * lo <= y <= (1 + u53) ^ Z.of_nat k * hi -> (1 - u53) ^ Z.of_nat n * lo <= y <= (1 + u53) ^ Z.of_nat n * hi).
  { intros k n y K H0 [Y1 Y2]. pose proof u53_bounds as U. split.
    - eapply Qle_trans; [|exact Y1]. apply Qmult_le_compat_r; [|exact L0]. replace n with (k + (n - k))%nat by lia. rewrite pow_add.
      pose proof (pow_nonneg (1 - u53) k ltac:(lra)). pose proof (pow_le1 (1 - u53) (n - k) ltac:(lra)). nra.
    - eapply Qle_trans; [exact Y2|]. apply Qmult_le_compat_r; [|exact H0]. replace n with (k + (n - k))%nat by lia. rewrite pow_add.
      pose proof (pow_nonneg (1 + u53) k ltac:(lra)). pose proof (pow_ge1 (1 + u53) (n - k) ltac:(lra)). nra. }
  assert (ST : exists a' w', (forall v, a' = Some v -> (1 - u53) ^ Z.of_nat (5 * S i) * lo <= v <= (1 + u53) ^ Z.of_nat (5 * S i) * hi) /\ 0 <= w' /\ ewm_loop_f b a w (c :: x) = a' :: ewm_loop_f b a' w' x).
  { cbn [ewm_loop_f]. assert (HI : forall y, a = Some y -> 0 <= y).
    { intros y Ey. destruct (Ha y Ey) as [Y _]. pose proof (pow_nonneg (1 - u53) (5 * i) ltac:(pose proof u53_bounds; lra)). nra. }
    assert (HH : forall y, a = Some y -> 0 <= hi).
    { intros y Ey. pose proof (HI y Ey). destruct (Ha y Ey) as [_ Y]. pose proof (pow_ge1 (1 + u53) (5 * i) ltac:(pose proof u53_bounds; lra)).
      destruct (Qlt_le_dec hi 0); [|assumption]. exfalso. nra. }
    assert (WB : 0 <= r53 (w * b)) by (apply r53_nonneg, Qmult_le_0_compat; assumption).
    destruct a as [a|].
    - pose proof (HI a eq_refl) as A0. pose proof (HH a eq_refl) as H0. pose proof (Ha a eq_refl) as Ra. destruct c as [c|].
      + eexists _, _. split; [|split; [|reflexivity]]; [|apply r53_nonneg; lra]. intros v' Ev. injection Ev as <-.
        destruct (Hx c (or_introl eq_refl)) as [C1 C2]. destruct (Qeqb_spec a c) as [Q|Q]; [apply (MONO (5 * i)%nat); [lia|exact H0|exact Ra]|].
        set (W := r53 (w * b)) in *. clearbody W.
        assert (N1 : within u53 5 (r53 (r53 (r53 (W * a) + c) / r53 (W + 1))) ((W * a + c) / (W + 1))).
        { assert (0 <= W * a) by now apply Qmult_le_0_compat. apply (within_div_r 2 1); [lra|lra| |apply within_of_r53; lra]. apply (within_add 1 0); [assumption|lra|lia|now apply within_of_r53|apply (within_self u53 u53_bounds); lra]. }
        set (z := r53 (r53 (r53 (W * a) + c) / r53 (W + 1))) in *. clearbody z. destruct N1 as [N1 N2]. replace (5 * S i)%nat with (5 + 5 * i)%nat by lia. rewrite !pow_add.
        pose proof u53_bounds as U. pose proof (pow_nonneg (1 - u53) 5 ltac:(lra)) as P1. pose proof (pow_nonneg (1 + u53) 5 ltac:(lra)) as P2.
        pose proof (pow_le1 (1 - u53) (5 * i) ltac:(lra)) as P3. pose proof (pow_ge1 (1 + u53) (5 * i) ltac:(lra)) as P4. pose proof (pow_nonneg (1 - u53) (5 * i) ltac:(lra)) as P5.
        set (p5 := (1 - u53) ^ Z.of_nat 5) in *. set (q5 := (1 + u53) ^ Z.of_nat 5) in *. set (p := (1 - u53) ^ Z.of_nat (5 * i)) in *. set (q := (1 + u53) ^ Z.of_nat (5 * i)) in *. clearbody p5 q5 p q.
        split.
        * eapply Qle_trans; [|exact N1]. setoid_replace (p5 * p * lo) with (p * lo * p5) by ring. rewrite (Qmult_comm p5). apply Qmult_le_compat_r; [|exact P1]. apply Qle_shift_div_l; [lra|]. assert (p * lo <= c) by nra. nra.
        * eapply Qle_trans; [exact N2|]. setoid_replace (q5 * q * hi) with (q * hi * q5) by ring. rewrite (Qmult_comm q5). apply Qmult_le_compat_r; [|exact P2]. apply Qle_shift_div_r; [lra|]. assert (c <= q * hi) by nra. nra.
      + eexists _, _. split; [|split; [|reflexivity]]; [|exact WB]. intros v' Ev. injection Ev as <-. apply (MONO (5 * i)%nat); [lia|exact H0|exact Ra].
    - eexists _, _. split; [|split; [|reflexivity]]; [|exact W0]. intros v' ->. destruct (Hx v' (or_introl eq_refl)) as [C1 C2]. apply (MONO 0%nat); [lia|lra|]. change ((1 - u53) ^ Z.of_nat 0) with 1. change ((1 + u53) ^ Z.of_nat 0) with 1. lra. }
  destruct ST as (a' & w' & Ha' & W' & Eq). rewrite Eq in E. destruct m as [|m].
  - cbn [nth] in E. rewrite Nat.add_0_r. now apply Ha'.
  - cbn [nth] in E. replace (S i + S m)%nat with (S (S i) + m)%nat by lia. apply (IH (fun y Hy => Hx y (or_intror Hy)) (S i) a' w' Ha' W' m v E).
Qed.
