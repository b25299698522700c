(** P_profilef5.v -- proofs about volume profiles in float arithmetic: the rolling profile and the buckets. *)
From Verif Require Import Base M_logic M_bars M_footprint M_features M_volume M_float M_float11.
From Verif Require Import S_footprint S_features S_volume S_float S_profilef P_footprint P_weights P_features P_volume P_volume2 P_volume3.
From Verif Require Import P_float P_float5 P_float12 P_float13 P_retf P_profilef P_profilef2 P_profilef3 P_profilef4.
Open Scope Q_scope.

Lemma within_qsum {A} k (v x : A -> Q) is : (forall i, In i is -> 0 <= x i /\ within u24 k (v i) (x i)) ->
  within u24 k (qsum (map v is)) (qsum (map x is)).
Proof.
  induction is as [|i is IH]; intro Hh; cbn [map]; [apply within_0|].
  destruct (Hh i (or_introl eq_refl)) as [X W].
  assert (N : 0 <= qsum (map x is)).
  { apply qsum_nonneg. intros z Hz. apply in_map_iff in Hz. destruct Hz as [j [<- Hj]]. apply Hh. now right. }
  eapply (within_comp u24); [symmetry; apply qsum_cons|symmetry; apply qsum_cons|].
  apply within_plus; auto. apply IH. intros j Hj. apply Hh. now right.
Qed.

Lemma powers_le_one x n : 0 <= x <= 1 -> x ^ Z.of_nat n <= 1.
Proof.
  intro Hx. induction n as [|n IH]; [exact (Qle_refl 1)|]. replace (Z.of_nat (S n)) with (Z.of_nat (n + 1)) by (f_equal; lia). rewrite pow_add.
  pose proof (pow_nonneg x n (proj1 Hx)). change (x ^ Z.of_nat 1) with x. nra.
Qed.
Lemma powers_ge_one x n : 1 <= x -> 1 <= x ^ Z.of_nat n.
Proof.
  intro Hx. induction n as [|n IH]; [exact (Qle_refl 1)|]. replace (Z.of_nat (S n)) with (Z.of_nat (n + 1)) by (f_equal; lia). rewrite pow_add.
  change (x ^ Z.of_nat 1) with x. nra.
Qed.
Lemma powers_mono x m n : 1 <= x -> (m <= n)%nat -> x ^ Z.of_nat m <= x ^ Z.of_nat n.
Proof.
  intros Hx Hm. replace n with (m + (n - m))%nat by lia. rewrite pow_add. pose proof (powers_ge_one x (n - m) Hx). pose proof (powers_ge_one x m Hx). nra.
Qed.
Lemma mult_le_one x y : 0 <= x <= 1 -> 0 <= y <= 1 -> x * y <= 1.
Proof. intros. nra. Qed.

(** From positions to price levels. *)
Lemma profile_of_f L H tv f pct k : (L <= H)%Z -> length tv = Z.to_nat (H + 1 - L) ->
  (forall j, (j < length tv)%nat -> within u24 k (nth j tv 0) (f (L + Z.of_nat j)%Z)) ->
  (forall l, (L <= l <= H)%Z -> 0 <= f l) -> 0 <= pct <= 100 ->
  exists poc hva lva, comp_poc_hva_lva_f (zrange L (H + 1)) tv pct = Ok (Some (poc, hva, lva)) /\
    float_profile f L H pct k (span_sum f) poc hva lva (r24 (pct_above_poc_f (zrange L (H + 1)) tv poc)).
Proof.
  intros HLH Hlen Hf Hnn Hp.
  assert (Hne : tv <> []) by (intro K; rewrite K in Hlen; cbn in Hlen; lia).
  assert (Hk : forall k, (k < length tv)%nat -> (L <= L + Z.of_nat k <= H)%Z) by (intros; lia).
  assert (Htv : forall i, (i < length tv)%nat -> 0 <= nth i tv 0).
  { intros i Hi. apply (within_nonneg u24 u24_bounds _ _ _ (Hf i Hi)). apply Hnn. auto. }
  assert (HtvI : forall x, In x tv -> 0 <= x).
  { intros x Hx. apply (In_nth _ _ 0) in Hx. destruct Hx as [i [Hi <-]]. auto. }
  destruct (poc_area_f (zrange L (H + 1)) tv pct) as [p [a [b [E [[P1 [P2 P3]] [V [Hab Hb]]]]]]]; auto.
  { rewrite zrange_length. lia. }
  rewrite !zrange_nth in E by lia.
  exists (L + Z.of_nat p)%Z, (L + Z.of_nat b)%Z, (L + Z.of_nat a)%Z. split; [exact E|].
  assert (Esub : forall x y, (x <= y < length tv)%nat -> within u24 k (ssum (at_ tv) x (S y)) (span_sum f (L + Z.of_nat x) (L + Z.of_nat y))).
  { intros x y Hxy. rewrite span_ssum by lia. unfold ssum. apply within_qsum. intros i Hi. apply in_seq in Hi. split; [apply Hnn; lia|apply Hf; lia]. }
  assert (Wall : within u24 k (qsum tv) (span_sum f L H)).
  { pose proof (Esub 0%nat (length tv - 1)%nat ltac:(lia)) as S1.
    replace (L + Z.of_nat 0)%Z with L in S1 by lia. replace (L + Z.of_nat (length tv - 1))%Z with H in S1 by lia.
    eapply (within_comp u24); [symmetry; apply qsum_ssum|reflexivity|]. replace (length tv) with (S (length tv - 1)) by lia. exact S1. }
  assert (Sall : 0 <= span_sum f L H).
  { unfold span_sum. apply qsum_nonneg. intros x Hx. apply in_map_iff in Hx. destruct Hx as [l [<- Hl]]. apply in_zrange in Hl. apply Hnn. lia. }
  unfold float_profile. cbv zeta. rewrite <- Hlen. set (n := length tv) in *. split; [lia|]. split; [lia|]. split.
  { intros l Hl. specialize (P2 (Z.to_nat (l - L)) ltac:(lia)). unfold at_ in P2.
    destruct (Hf (Z.to_nat (l - L)) ltac:(lia)) as [F1 _]. destruct (Hf p P1) as [_ F2].
    replace (L + Z.of_nat (Z.to_nat (l - L)))%Z with l in F1 by lia. lra. }
  pose proof u24_bounds as [T1 T2]. pose proof u53_bounds as [U1 U2].
  assert (PA : forall m, 0 < (1 - u24) ^ Z.of_nat m) by (intro; apply pow_pos; vm_compute; reflexivity).
  assert (PB : forall m, 0 < (1 + u24) ^ Z.of_nat m) by (intro; apply pow_pos; vm_compute; reflexivity).
  assert (PC : forall m, 0 < (1 - u53) ^ Z.of_nat m) by (intro; apply pow_pos; vm_compute; reflexivity).
  assert (PD : forall m, 0 < (1 + u53) ^ Z.of_nat m) by (intro; apply pow_pos; vm_compute; reflexivity).
  assert (MA : forall m, (1 - u24) ^ Z.of_nat m <= 1) by (intro m; apply powers_le_one; lra).
  assert (MC : (1 - u53) ^ 2 <= 1) by (vm_compute; discriminate).
  assert (PC2 : 0 < (1 - u53) ^ 2) by (vm_compute; reflexivity).
  assert (MB : forall m, 1 <= (1 + u24) ^ Z.of_nat m) by (intro m; apply powers_ge_one; lra).
  assert (MD : forall m, 1 <= (1 + u53) ^ Z.of_nat m) by (intro m; apply powers_ge_one; lra).
  destruct Hp as [Hp0 Hp1]. assert (pc0 : 0 <= pct / 100) by (apply Qle_shift_div_l; lra). assert (pc1 : pct / 100 <= 1) by (apply Qle_shift_div_r; lra).
  destruct (Esub a b ltac:(lia)) as [B1 B2]. pose proof Wall as [Wa1 Wa2].
  assert (Sab : 0 <= span_sum f (L + Z.of_nat a) (L + Z.of_nat b)).
  { unfold span_sum. apply qsum_nonneg. intros x Hx. apply in_map_iff in Hx. destruct Hx as [l [<- Hl]]. apply in_zrange in Hl. apply Hnn. lia. }
  split.
  { destruct (vaf_cover (at_ tv) n (va_thr_f tv pct) Htv _ _ _ _ _ V ltac:(lia)) as [[[Ea Eb]|Cv] _].
    - eapply (within_comp u53); [reflexivity|rewrite ssum_one; reflexivity|]. apply within_self; [exact u53_bounds|apply Htv; lia].
    - subst a. replace (L + Z.of_nat b)%Z with H by lia. replace (L + Z.of_nat 0)%Z with L by lia.
      rewrite pow_add. pose proof (MA n). pose proof (MA k). pose proof (MD (n + 1)%nat). pose proof (MB k).
      pose proof (PA n). pose proof (PA k).
      apply Qle_trans with (1 * span_sum f L H).
      + setoid_replace ((1 - u24) ^ Z.of_nat n * (1 - u24) ^ Z.of_nat k * (1 - u53) ^ 2 * (pct / 100 * span_sum f L H))
          with ((((1 - u24) ^ Z.of_nat n * (1 - u24) ^ Z.of_nat k) * ((1 - u53) ^ 2 * (pct / 100))) * span_sum f L H) by ring.
        apply Qmult_le_compat_r; auto. apply mult_le_one; (split; [apply Qmult_le_0_compat; auto using Qlt_le_weak|apply mult_le_one; split; auto using Qlt_le_weak]).
      + apply Qmult_le_compat_r; auto. apply Qle_trans with (1 * 1); [discriminate|]. apply Qmult_le_compat_nonneg; split; first [discriminate|auto].
    - destruct (thr_within tv pct HtvI Hp0) as [Th _]. fold n in Th.
      apply Qle_trans with (va_thr_f tv pct).
      + eapply Qle_trans; [|exact Th]. rewrite pow_add.
        setoid_replace ((1 - u24) ^ Z.of_nat n * (1 - u24) ^ Z.of_nat k * (1 - u53) ^ 2 * (pct / 100 * span_sum f L H))
          with (((1 - u24) ^ Z.of_nat n * (1 - u53) ^ 2 * (pct / 100)) * ((1 - u24) ^ Z.of_nat k * span_sum f L H)) by ring.
        setoid_replace ((1 - u24) ^ Z.of_nat n * (1 - u53) ^ 2 * (pct / 100 * qsum tv)) with (((1 - u24) ^ Z.of_nat n * (1 - u53) ^ 2 * (pct / 100)) * qsum tv) by ring.
        rewrite !(Qmult_comm ((1 - u24) ^ Z.of_nat n * (1 - u53) ^ 2 * (pct / 100))). apply Qmult_le_compat_r; [exact Wa1|].
        pose proof (PA n). apply Qmult_le_0_compat; [apply Qmult_le_0_compat; lra|lra].
      + eapply Qle_trans; [exact Cv|].
        apply Qle_trans with ((1 + u53) ^ Z.of_nat (n + 1) * ssum (at_ tv) a (S b)).
        * apply Qmult_le_compat_r; [apply powers_mono; [lra|lia]|]. pose proof (PA k). assert (0 <= (1 - u24) ^ Z.of_nat k * span_sum f (L + Z.of_nat a) (L + Z.of_nat b)) by (apply Qmult_le_0_compat; lra). lra.
        * rewrite <- Qmult_assoc. rewrite !(Qmult_comm ((1 + u53) ^ Z.of_nat (n + 1))). apply Qmult_le_compat_r; [exact B2|apply Qlt_le_weak, PD]. }
  destruct (share_f_spec (zrange L (H + 1)) tv (L + Z.of_nat p)%Z HtvI) as [R0 [R1 [R2 R3]]]; [rewrite zrange_length; lia|]. fold n in R1, R2.
  set (s := pct_above_poc_f (zrange L (H + 1)) tv (L + Z.of_nat p)) in *.
  assert (WA : within u24 k (vol_where (fun l => (L + Z.of_nat p <? l)%Z) (zrange L (H + 1)) tv) (span_sum f (L + Z.of_nat p + 1) H)).
  { eapply (within_comp u24); [reflexivity|rewrite <- (above_levels L H f) by lia; reflexivity|].
    unfold vol_where. rewrite zrange_length. unfold zrange at 2. rewrite map_map. apply within_qsum. intros i Hi. apply in_seq in Hi.
    rewrite zrange_nth by lia. destruct (_ <? _)%Z; [split; [apply Hnn; lia|apply Hf; lia]|split; [apply Qle_refl|apply within_0]]. }
  set (A := vol_where _ _ tv) in *. destruct WA as [A1 A2]. set (F := span_sum f (L + Z.of_nat p + 1) H) in *. set (T := span_sum f L H) in *.
  pose proof (r24_err s) as Rs. rewrite (Qabs_pos s) in Rs by auto. apply Qabs_Qle_condition in Rs. pose proof (r24_nonneg s R0) as Rn.
  assert (F0 : 0 <= F).
  { unfold F, span_sum. apply qsum_nonneg. intros x Hx. apply in_map_iff in Hx. destruct Hx as [l [<- Hl]]. apply in_zrange in Hl. apply Hnn. lia. }
  assert (Q1 : (1 - u24) ^ Z.of_nat (k + 1) == (1 - u24) ^ Z.of_nat k * (1 - u24)) by (rewrite pow_add; reflexivity).
  assert (Q2 : (1 + u24) ^ Z.of_nat (k + 1) == (1 + u24) ^ Z.of_nat k * (1 + u24)) by (rewrite pow_add; reflexivity).
  rewrite Q1, Q2, !pow_add. rewrite pow_add in R1, R2.
  pose proof (PA k) as a0. pose proof (PA n) as a1. pose proof (PB k) as b0. pose proof (PB n) as b1.
  assert (c0 : 0 < (1 - u53) ^ Z.of_nat n * (1 - u53) ^ Z.of_nat 1) by (apply Qmult_lt_0_compat; apply PC).
  assert (d0 : 0 < (1 + u53) ^ Z.of_nat n * (1 + u53) ^ Z.of_nat 1) by (apply Qmult_lt_0_compat; apply PD).
  set (ak := (1 - u24) ^ Z.of_nat k) in *. set (an := (1 - u24) ^ Z.of_nat n) in *. set (bk := (1 + u24) ^ Z.of_nat k) in *. set (bn := (1 + u24) ^ Z.of_nat n) in *.
  set (cn := (1 - u53) ^ Z.of_nat n * _) in *. set (dn := (1 + u53) ^ Z.of_nat n * _) in *. set (tq := qsum tv) in *. set (rs := r24 s) in *. set (u := u24) in *.
  assert (r3 : tq <= 0 -> rs == 0). { intro K. unfold rs. rewrite (R3 K). reflexivity. }
  clearbody ak an bk bn cn dn tq rs u s A F T. clear R3.
  assert (rl : s * (1 - u) <= rs) by lra. assert (rh : rs <= s * (1 + u)) by lra.
  split; [|split].
  - apply Qle_trans with ((cn * A) * (1 - u)).
    + setoid_replace (ak * (1 - u) * cn * F) with ((ak * F) * (cn * (1 - u))) by ring. setoid_replace (cn * A * (1 - u)) with (A * (cn * (1 - u))) by ring.
      apply Qmult_le_compat_r; [exact A1|]. apply Qmult_le_0_compat; lra.
    + apply Qle_trans with (s * (bn * tq) * (1 - u)); [apply Qmult_le_compat_r; lra|].
      setoid_replace (s * (bn * tq) * (1 - u)) with (s * (1 - u) * (bn * tq)) by ring.
      apply Qle_trans with (rs * (bn * tq)); [apply Qmult_le_compat_r; [lra|]|].
      * assert (0 <= ak * T) by (apply Qmult_le_0_compat; lra). apply Qmult_le_0_compat; lra.
      * setoid_replace (rs * (bn * bk * T)) with ((bk * T) * (rs * bn)) by ring. setoid_replace (rs * (bn * tq)) with (tq * (rs * bn)) by ring.
        apply Qmult_le_compat_r; [exact Wa2|]. apply Qmult_le_0_compat; lra.
  - apply Qle_trans with (rs * (an * tq)).
    + setoid_replace (rs * (an * ak * T)) with ((ak * T) * (rs * an)) by ring. setoid_replace (rs * (an * tq)) with (tq * (rs * an)) by ring.
      apply Qmult_le_compat_r; [exact Wa1|]. apply Qmult_le_0_compat; lra.
    + apply Qle_trans with (s * (1 + u) * (an * tq)).
      { apply Qmult_le_compat_r; [lra|]. assert (0 <= ak * T) by (apply Qmult_le_0_compat; lra). apply Qmult_le_0_compat; lra. }
      setoid_replace (s * (1 + u) * (an * tq)) with (s * (an * tq) * (1 + u)) by ring.
      apply Qle_trans with ((dn * A) * (1 + u)); [apply Qmult_le_compat_r; lra|].
      setoid_replace (bk * (1 + u) * dn * F) with ((bk * F) * (dn * (1 + u))) by ring. setoid_replace (dn * A * (1 + u)) with (A * (dn * (1 + u))) by ring.
      apply Qmult_le_compat_r; [exact A2|]. apply Qmult_le_0_compat; lra.
  - intro K. apply r3. assert (T == 0) by lra. rewrite H0 in Wa2. lra.
Qed.

Lemma profile_at_f_spec ts highs lows plv pbv psv W tick pct i :
  ascZ ts -> 0 < tick -> length highs = length ts -> length lows = length ts -> (0 <= W)%Z ->
  vols_ok pbv -> vols_ok psv -> 0 <= pct <= 100 -> (i < length ts)%nat ->
  let bars := bars_in ts (nth i ts 0 - W)%Z (nth i ts 0%Z) in
  let f := level_total plv pbv psv bars in
  (forall t, In t bars -> footprint_ok (quots tick highs) (quots tick lows) plv 1 t) ->
  exists L H poc hva lva share, profile_at_f ts highs lows plv pbv psv W None tick pct i = Ok (Some (poc, hva, lva, share)) /\
    level_range (quots tick highs) (quots tick lows) 1 bars L H /\
    float_profile f L H pct (length bars + 1) (span_sum f) poc hva lva share.
Proof.
  intros Hasc Ht Hh Hl HW Hvb Hvs Hp Hi bars f Hok.
  assert (Hin : In i bars).
  { unfold bars, bars_in. apply filter_In. split; [apply in_seq; lia|].
    rewrite (proj2 (Z.leb_le _ _)) by lia. rewrite (proj2 (Z.leb_le _ _)) by lia. reflexivity. }
  destruct (aggregate_f_spec ts highs lows plv pbv psv (nth i ts 0 - W)%Z (nth i ts 0%Z) tick)
    as [L [H [bv [sv [E [Hr [HLH [Hlb [Hls Hk]]]]]]]]]; auto; try lia.
  { fold bars. intro K. rewrite K in Hin. inversion Hin. }
  fold bars in Hr, Hk. unfold profile_at_f. cbv zeta. rewrite E. rewrite zrange_length in Hlb, Hls.
  set (tv := map (fun k => r24 (nth k bv 0 + nth k sv 0)) (seq 0 (length bv))) in *.
  assert (T1 : length tv = Z.to_nat (H + 1 - L)) by (unfold tv; rewrite map_length, seq_length; auto).
  destruct (profile_of_f L H tv f pct (length bars + 1) HLH T1) as [poc [hva [lva [E2 P]]]]; auto.
  { intros j Hj. assert (Hj2 : (j < length bv)%nat) by lia. unfold tv. rewrite nth_map_seq by auto. destruct (Hk j Hj2) as [K1 K2]. replace (length bars + 1)%nat with (S (length bars)) by lia.
    apply within24_add; auto; apply lev_sum_nonneg; auto. }
  { intros. apply level_total_nonneg; auto. }
  rewrite E2. exists L, H, poc, hva, lva. eexists. split; [reflexivity|]. split; [exact Hr|exact P].
Qed.

Lemma rolling_f_spec ts highs lows plv pbv psv W tick pct :
  ascZ ts -> 0 < tick -> length highs = length ts -> length lows = length ts -> length plv = length ts -> (0 <= W)%Z ->
  vols_ok pbv -> vols_ok psv -> 0 <= pct <= 100 ->
  (forall t, (t < length ts)%nat -> footprint_ok (quots tick highs) (quots tick lows) plv 1 t) ->
  exists rows, volume_profile_rolling_f ts highs lows plv pbv psv W None tick pct = Ok rows /\ length rows = length ts /\
    forall i, (i < length ts)%nat ->
      ((nth i ts 0 < nth 0 ts 0 + W)%Z -> nth i rows None = Some (0%Z, 0%Z, 0%Z, 0)) /\
      ((nth 0 ts 0 + W <= nth i ts 0)%Z ->
         let bars := bars_in ts (nth i ts 0 - W)%Z (nth i ts 0%Z) in
         let f := level_total plv pbv psv bars in
         exists L H poc hva lva share, nth i rows None = Some (poc, hva, lva, share) /\
           level_range (quots tick highs) (quots tick lows) 1 bars L H /\
           float_profile f L H pct (length bars + 1) (span_sum f) poc hva lva share).
Proof.
  intros Hasc Ht Hh Hl Hp HW Hvb Hvs Hpct Hok.
  assert (Hin : forall a b t, In t (bars_in ts a b) -> (t < length ts)%nat).
  { intros a b t Htt. apply filter_In in Htt. destruct Htt as [Htt _]. apply in_seq in Htt. lia. }
  set (F := fun i => if (i <? ss_left ts (nth 0 ts 0 + W)%Z)%nat then Ok (Some (0%Z, 0%Z, 0%Z, 0))
                    else profile_at_f ts highs lows plv pbv psv W None tick pct i).
  assert (HF : forall i, (i < length ts)%nat -> exists a, F i = Ok a).
  { intros i Hi. unfold F. destruct (i <? _)%nat; [eauto|].
    destruct (profile_at_f_spec ts highs lows plv pbv psv W tick pct i) as [L [H [p [h [l [s [E _]]]]]]]; auto.
    - intros t Htt. apply Hok. eapply Hin. exact Htt.
    - eauto. }
  destruct (run_all_ok F (seq 0 (length plv))) as [rows Er].
  { intros k Hk. apply in_seq in Hk. apply HF. lia. }
  exists rows. split; [exact Er|]. destruct (run_all_nth F _ _ Er) as [Hlen Hn]. rewrite seq_length in Hlen.
  split; [lia|]. intros i Hi.
  assert (Ei : F i = Ok (nth i rows None)).
  { pose proof (Hn i (nth i rows None)) as K. rewrite seq_nth in K by lia. cbn [Nat.add] in K.
    apply K. apply nth_error_nth'. lia. }
  unfold F in Ei. split.
  - intro Hlt. rewrite (proj2 (Nat.ltb_lt i _)) in Ei.
    + now injection Ei.
    + destruct (Nat.lt_ge_cases i (ss_left ts (nth 0 ts 0 + W)%Z)) as [|K]; auto.
      pose proof (ss_left_ge ts (nth 0 ts 0 + W)%Z i Hasc ltac:(lia)). lia.
  - intros Hge bars f. rewrite (proj2 (Nat.ltb_ge i _)) in Ei.
    + destruct (profile_at_f_spec ts highs lows plv pbv psv W tick pct i) as [L [H [p [h [l [s [E [R1 R2]]]]]]]]; auto.
      { intros t Htt. apply Hok. eapply Hin. exact Htt. }
      exists L, H, p, h, l, s. rewrite E in Ei. injection Ei as <-. auto.
    + destruct (Nat.lt_ge_cases i (ss_left ts (nth 0 ts 0 + W)%Z)) as [K|]; auto.
      pose proof (ss_left_lt ts (nth 0 ts 0 + W)%Z i K). lia.
Qed.

(** ** Buckets: same prices as with exact volumes, every bucket volume within one float32 rounding per level *)
Lemma bin_step_f_length idx vols nb acc i : length (bin_step_f idx vols nb acc i) = length acc.
Proof.
  unfold bin_step_f, qadd_at_f. cbv zeta. destruct (_ && _)%bool; [now rewrite map_length, seq_length|].
  destruct (_ =? _)%Z; [now rewrite map_length, seq_length|reflexivity].
Qed.
Lemma bin_step_length idx vols nb acc i : length (bin_step idx vols nb acc i) = length acc.
Proof.
  unfold bin_step. cbv zeta. destruct (_ && _)%bool; [now rewrite qadd_at_length|].
  destruct (_ =? _)%Z; [now rewrite qadd_at_length|reflexivity].
Qed.
Definition cells_ok (m : nat) (a b : list Q) : Prop :=
  length a = length b /\ forall k, (k < length a)%nat -> 0 <= nth k b 0 /\ within u24 m (nth k a 0) (nth k b 0).
Lemma cells_add m a b j x : cells_ok m a b -> 0 <= x -> cells_ok (S m) (qadd_at_f a j x) (qadd_at b j x).
Proof.
  intros [HL HC] Hx. split; [unfold qadd_at_f; rewrite map_length, seq_length, qadd_at_length; auto|].
  unfold qadd_at_f at 1. rewrite map_length, seq_length. intros k Hk. rewrite qadd_at_nth by lia. unfold qadd_at_f. rewrite nth_map_seq by auto.
  destruct (HC k Hk) as [C1 C2]. destruct (k =? j)%nat.
  - split; [lra|]. apply within24_sum; auto.
  - split; [auto|]. now apply within_S; [exact u24_bounds| |].
Qed.
Lemma cells_step m idx vols nb a b i : (forall i, 0 <= nth i vols 0) -> cells_ok m a b -> cells_ok (S m) (bin_step_f idx vols nb a i) (bin_step idx vols nb b i).
Proof.
  intros Hv HC. unfold bin_step_f, bin_step. cbv zeta. destruct (_ && _)%bool; [now apply cells_add|].
  destruct (_ =? _)%Z; [now apply cells_add|]. destruct HC as [HL HC]. split; [auto|]. intros k Hk. destruct (HC k Hk). split; [auto|]. now apply within_S; [exact u24_bounds| |].
Qed.
Lemma cells_fold idx vols nb : (forall i, 0 <= nth i vols 0) -> forall is m a b, cells_ok m a b ->
  cells_ok (m + length is) (fold_left (bin_step_f idx vols nb) is a) (fold_left (bin_step idx vols nb) is b).
Proof.
  intro Hv. induction is as [|i is IH]; intros m a b HC; cbn [fold_left length]; [now rewrite Nat.add_0_r|].
  rewrite <- plus_n_Sm. change (S (m + length is)) with (S m + length is)%nat. apply IH. now apply cells_step.
Qed.
Lemma bucket_f_spec lv vols nb bp bv : (forall x, In x vols -> 0 <= x) -> bucket_price_levels lv vols nb = Ok (bp, bv) ->
  exists bf, bucket_price_levels_f lv vols nb = Ok (bp, bf) /\ cells_ok (length lv) bf bv.
Proof.
  intros Hn. assert (Hv : forall i, 0 <= nth i vols 0).
  { intro i. destruct (Nat.lt_ge_cases i (length vols)) as [K|K]; [apply Hn, nth_In; auto|rewrite nth_overflow by auto; apply Qle_refl]. }
  unfold bucket_price_levels, bucket_price_levels_f. destruct lv as [|x l]; [discriminate|]. set (lv := x :: l). destruct (nb =? 0)%Z; [discriminate|].
  cbv zeta. intro E. injection E as <- <-. eexists. split; [reflexivity|].
  pose proof (cells_fold (map (fun x0 => (Z.of_nat (ss_right (if (length (arange_step (zlmin lv) (zlmax lv + bin_width (zlmax lv - zlmin lv) nb) (bin_width (zlmax lv - zlmin lv) nb)) <? 2)%nat
       then [wraps 32 (zlmin lv); wraps 32 (zlmax lv + 1)] else arange_step (zlmin lv) (zlmax lv + bin_width (zlmax lv - zlmin lv) nb) (bin_width (zlmax lv - zlmin lv) nb)) x0) - 1)%Z) lv)
     vols (length (arange_step (zlmin lv) (zlmax lv + bin_width (zlmax lv - zlmin lv) nb) (bin_width (zlmax lv - zlmin lv) nb)) - 1)
     Hv (seq 0 (length lv)) 0) as K. rewrite seq_length in K. apply K.
  split; [reflexivity|]. intros k _. rewrite !nth_repeat. split; [apply Qle_refl|apply within_0].
Qed.

(** ** Rounding to eight decimals *)
Lemma fl24_ulp x : fl 24 x -> ~ x == 0 -> grid (ilog x - 23) x.
Proof.
  intros F N. pose proof (rnd_exact 24 x ltac:(lia) F) as E. unfold rnd in E. destruct (Qeqb_spec x 0); [contradiction|]. cbv zeta in E. rewrite Qred_correct in E.
  eexists. symmetry. exact E.
Qed.
Lemma r24_close x z : fl 24 x -> 0 < x -> 2 * Qabs (z - x) < two (ilog x - 24) -> r24 z == x.
Proof.
  intros F P Hd. pose proof (rnd_best 24 z x ltac:(lia) F) as B. fold (r24 z) in B. rewrite (Qabs_Qminus x z) in B.
  assert (W : Qabs (r24 z - x) < two (ilog x - 24)).
  { pose proof (Qabs_triangle (r24 z - z) (z - x)) as T. setoid_replace (r24 z - z + (z - x)) with (r24 z - x) in T by ring. lra. }
  pose proof (rnd_fl 24 z ltac:(lia)) as Fw. fold (r24 z) in Fw. set (w := r24 z) in *. clearbody w.
  apply Qabs_Qlt_condition in W. destruct (ilog_spec x ltac:(lra)) as [I1 I2]. rewrite (Qabs_pos x) in I1, I2 by lra.
  assert (T0 : two (ilog x) == two (ilog x - 24) * 16777216) by (replace (ilog x) with (ilog x - 24 + 24)%Z at 1 by lia; rewrite two_plus; reflexivity).
  pose proof (two_pos (ilog x - 24)) as TP.
  assert (T1 : two (ilog x - 1) == two (ilog x - 24) * 8388608) by (replace (ilog x - 1)%Z with (ilog x - 24 + 23)%Z by lia; rewrite two_plus; reflexivity).
  assert (PW : two (ilog x - 1) <= w) by lra.
  assert (IW : (ilog x - 1 <= ilog w)%Z).
  { pose proof (two_pos (ilog x - 1)). destruct (ilog_spec w ltac:(lra)) as [_ J]. rewrite (Qabs_pos w) in J by lra.
    assert (K : two (ilog x - 1) < two (ilog w + 1)) by lra. apply two_lt_inv in K. lia. }
  assert (Gw : grid (ilog x - 24) w) by (apply (grid_coarse _ (ilog w - 23)); [lia|apply fl24_ulp; [auto|lra]]).
  assert (Gx : grid (ilog x - 24) x) by (apply (grid_coarse _ (ilog x - 23)); [lia|apply fl24_ulp; [auto|lra]]).
  destruct (Q_dec w x) as [[K|K]|K]; [|  |exact K].
  - pose proof (grid_gap _ _ _ Gw Gx K). lra.
  - pose proof (grid_gap _ _ _ Gx Gw K). lra.
Qed.
Lemma round8_keeps x : fl 24 x -> 1 # 4 <= x -> round8_f x == x.
Proof.
  intros F Hx. unfold round8_f. apply r24_close; [auto|lra|].
  assert (IX : (-2 <= ilog x)%Z).
  { destruct (ilog_spec x ltac:(lra)) as [_ J]. rewrite (Qabs_pos x) in J by lra. assert (K : two (-2) < two (ilog x + 1)) by (change (two (-2)) with (1 # 4); lra). apply two_lt_inv in K. lia. }
  destruct (ilog_spec x ltac:(lra)) as [I1 I2]. rewrite (Qabs_pos x) in I1, I2 by lra.
  assert (T0 : two (ilog x) == two (ilog x - 24) * 16777216) by (replace (ilog x) with (ilog x - 24 + 24)%Z at 1 by lia; rewrite two_plus; reflexivity).
  assert (T1 : two (ilog x + 1) == two (ilog x - 24) * 33554432) by (replace (ilog x + 1)%Z with (ilog x - 24 + 25)%Z by lia; rewrite two_plus; reflexivity).
  assert (T2 : 1 # 67108864 <= two (ilog x - 24)) by (change (1 # 67108864) with (two (-26)); apply two_le; lia).
  set (t := two (ilog x - 24)) in *. rewrite T1 in I2. clearbody t. clear T0 T1.
  pose proof (r53_err (x * 100000000)) as E1. set (y := r53 (x * 100000000)) in *.
  pose proof (rhe_spec y) as [E2 _]. set (m := inject_Z (rhe y)) in *.
  pose proof (r53_err (m / 100000000)) as E3. set (z := r53 (m / 100000000)) in *.
  rewrite (Qabs_pos (x * 100000000)) in E1 by lra. apply Qabs_Qle_condition in E1. apply Qabs_Qle_condition in E2.
  assert (U : u53 == 1 # 9007199254740992) by reflexivity. set (u := u53) in *. clearbody y m u.
  assert (D : m / 100000000 == m * (1 # 100000000)) by reflexivity. clearbody z. rewrite D in E3. clear D.
  assert (M0 : 0 <= m) by nra. rewrite (Qabs_pos (m * (1 # 100000000))) in E3 by lra. apply Qabs_Qle_condition in E3.
  rewrite U in *. clear U u. apply Qabs_case; intros _; lra.
Qed.
