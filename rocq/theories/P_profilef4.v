(** P_profilef4.v -- proofs about volume profiles in float arithmetic: aggregation of footprints and the rolling profile. *)
From Verif Require Import Base M_logic M_bars M_footprint M_features M_volume M_float M_float11.
From Verif Require Import S_footprint S_features S_volume S_float S_profilef P_footprint P_weights P_features P_volume P_volume2 P_volume3.
From Verif Require Import P_float P_float5 P_float12 P_profilef P_profilef2 P_profilef3.
Open Scope Q_scope.

(** ** Aggregation *)
Lemma fancy_add_f_spec L H a lv v (X : nat -> Q) m : bar_ok L H lv -> length a = Z.to_nat (H + 1 - L) -> (forall x, In x v -> 0 <= x) ->
  (forall k, (k < length a)%nat -> 0 <= X k /\ within u24 m (nth k a 0) (X k)) ->
  exists a', fancy_add_f a (map (ss_left (zrange L (H + 1))) lv) v = Ok a' /\ length a' = length a /\
    forall k, (k < length a)%nat -> within u24 (S m) (nth k a' 0) (X k + vol_at (L + Z.of_nat k) lv v).
Proof.
  intros [Hd Hb] Hlen Hv HX. unfold fancy_add_f.
  set (idx := map (ss_left (zrange L (H + 1))) lv).
  assert (Hn : forall j, (j < length lv)%nat -> nth j idx 0%nat = Z.to_nat (nth j lv 0%Z - L)).
  { intros j Hj. unfold idx. rewrite (nth_indep _ 0%nat (ss_left (zrange L (H + 1)) 0%Z)) by (rewrite map_length; auto).
    rewrite map_nth. apply ss_left_zrange. specialize (Hb (nth j lv 0%Z) ltac:(apply nth_In; auto)). lia. }
  rewrite (proj2 (forallb_forall _ idx)).
  2:{ intros k Hk. apply (In_nth _ _ 0%nat) in Hk. destruct Hk as [j [Hj E]]. unfold idx in Hj. rewrite map_length in Hj.
      rewrite Hn in E by auto. specialize (Hb (nth j lv 0%Z) ltac:(apply nth_In; auto)). apply Nat.ltb_lt. lia. }
  eexists. split; [reflexivity|]. rewrite map_length, seq_length. split; [reflexivity|].
  intros k Hk. rewrite nth_map_seq by auto. destruct (HX k Hk) as [X0 X1].
  destruct (last_occ idx k) as [j|] eqn:E.
  - apply find_some_in in E. destruct E as [E1 E2]. apply in_rev, in_seq in E1. apply Nat.eqb_eq in E2.
    unfold idx in E1. rewrite map_length in E1. rewrite Hn in E2 by lia.
    specialize (Hb (nth j lv 0%Z) ltac:(apply nth_In; lia)).
    eapply (within_comp u24); [reflexivity|rewrite (vol_at_hit _ lv v j); auto; [reflexivity|lia|lia]|].
    apply within24_sum; auto. destruct (Nat.lt_ge_cases j (length v)) as [J|J]; [apply Hv, nth_In; auto|rewrite nth_overflow by auto; apply Qle_refl].
  - eapply (within_comp u24); [reflexivity| |now apply within_S; [exact u24_bounds| |exact X1]].
    rewrite vol_at_miss; [ring|]. intro K. apply (In_nth _ _ 0%Z) in K. destruct K as [j [Hj Ej]].
    pose proof (find_none _ _ E j) as F. cbv beta in F. rewrite Hn in F by auto.
    assert (Hin : In j (rev (seq 0 (length idx)))) by (apply -> in_rev; apply in_seq; unfold idx; rewrite map_length; lia).
    specialize (F Hin). apply Nat.eqb_neq in F. lia.
Qed.
Lemma agg_fold_f L H plv pbv psv : vols_ok pbv -> vols_ok psv -> forall bars m a b (X Y : nat -> Q), (forall t, In t bars -> bar_ok L H (nth t plv [])) ->
  length a = Z.to_nat (H + 1 - L) -> length b = Z.to_nat (H + 1 - L) ->
  (forall k, (k < length a)%nat -> 0 <= X k /\ within u24 m (nth k a 0) (X k)) ->
  (forall k, (k < length b)%nat -> 0 <= Y k /\ within u24 m (nth k b 0) (Y k)) ->
  exists a' b', fold_left (agg_step_f (zrange L (H + 1)) plv pbv psv) bars (Ok (a, b)) = Ok (a', b') /\
    length a' = length a /\ length b' = length b /\
    (forall k, (k < length a)%nat -> within u24 (m + length bars) (nth k a' 0) (X k + lev_sum plv pbv bars (L + Z.of_nat k))) /\
    (forall k, (k < length b)%nat -> within u24 (m + length bars) (nth k b' 0) (Y k + lev_sum plv psv bars (L + Z.of_nat k))).
Proof.
  intros Vb Vs. induction bars as [|t bars IH]; intros m a b X Y Hok Ha Hb HX HY.
  - exists a, b. cbn. split; [reflexivity|]. split; [auto|]. split; [auto|]. rewrite Nat.add_0_r.
    split; intros k Hk; [destruct (HX k Hk) as [_ W]|destruct (HY k Hk) as [_ W]]; (eapply (within_comp u24); [reflexivity| |exact W]; ring).
  - cbn [fold_left]. destruct (fancy_add_f_spec L H a (nth t plv []) (nth t pbv []) X m) as [a1 [E1 [A1 A2]]]; auto.
    { apply Hok. now left. } { apply Vb. }
    destruct (fancy_add_f_spec L H b (nth t plv []) (nth t psv []) Y m) as [b1 [E2 [B1 B2]]]; auto.
    { apply Hok. now left. } { apply Vs. }
    unfold agg_step_f at 2. cbv zeta. rewrite E1, E2.
    destruct (IH (S m) a1 b1 (fun k => X k + vol_at (L + Z.of_nat k) (nth t plv []) (nth t pbv []))
                (fun k => Y k + vol_at (L + Z.of_nat k) (nth t plv []) (nth t psv []))) as [a2 [b2 [E3 [A3 [B3 [A4 B4]]]]]]; try congruence.
    { intros. apply Hok. now right. }
    { intros k Hk. rewrite A1 in Hk. destruct (HX k Hk). pose proof (vol_at_nonneg (L + Z.of_nat k) (nth t plv []) (nth t pbv []) (Vb t)). split; [lra|auto]. }
    { intros k Hk. rewrite B1 in Hk. destruct (HY k Hk). pose proof (vol_at_nonneg (L + Z.of_nat k) (nth t plv []) (nth t psv []) (Vs t)). split; [lra|auto]. }
    exists a2, b2. split; [exact E3|]. split; [congruence|]. split; [congruence|]. cbn [length]. rewrite <- plus_n_Sm. split.
    + intros k Hk. eapply (within_comp u24); [reflexivity| |apply A4; lia]. unfold lev_sum. cbn [map]. rewrite qsum_cons. ring.
    + intros k Hk. eapply (within_comp u24); [reflexivity| |apply B4; lia]. unfold lev_sum. cbn [map]. rewrite qsum_cons. ring.
Qed.

(** ** Levels: quotients rounded to float64 before they are rounded to ticks *)
Lemma quot_mono tick x y : 0 < tick -> x <= y -> r53 (x / tick) <= r53 (y / tick).
Proof. intros Ht H. apply r53_mono. apply Qmult_le_compat_r; [exact H|apply Qlt_le_weak, Qinv_lt_0_compat, Ht]. Qed.
Lemma lmin_quots tick l : 0 < tick -> l <> [] -> lmin (quots tick l) == r53 (lmin l / tick).
Proof.
  intros Ht Hne. assert (Hq : quots tick l <> []) by (destruct l; [congruence|discriminate]).
  destruct (lmin_spec l Hne) as [M1 M2]. destruct (lmin_spec (quots tick l) Hq) as [N1 N2]. apply Qle_antisym.
  - apply N2. unfold quots. apply in_map_iff. exists (lmin l). auto.
  - unfold quots in N1. apply in_map_iff in N1. destruct N1 as [y [E Hy]]. unfold quots. rewrite <- E. apply quot_mono; auto.
Qed.
Lemma lmax_quots tick l : 0 < tick -> l <> [] -> lmax (quots tick l) == r53 (lmax l / tick).
Proof.
  intros Ht Hne. assert (Hq : quots tick l <> []) by (destruct l; [congruence|discriminate]).
  destruct (lmax_spec l Hne) as [M1 M2]. destruct (lmax_spec (quots tick l) Hq) as [N1 N2]. apply Qle_antisym.
  - unfold quots in N1. apply in_map_iff in N1. destruct N1 as [y [E Hy]]. unfold quots. rewrite <- E. apply quot_mono; auto.
  - apply N2. unfold quots. apply in_map_iff. exists (lmax l). auto.
Qed.
Lemma window_levels_quots highs lows tick s e : 0 < tick ->
  window_levels_f highs lows tick s e = window_levels (quots tick highs) (quots tick lows) 1 s e.
Proof.
  intro Ht. unfold window_levels_f, window_levels, quots. rewrite !skipn_map, !firstn_map. fold (quots tick (firstn (e - s) (skipn s lows))). fold (quots tick (firstn (e - s) (skipn s highs))).
  set (lo := firstn (e - s) (skipn s lows)). set (hi := firstn (e - s) (skipn s highs)).
  destruct lo as [|x lo'] eqn:E1; [reflexivity|]. destruct hi as [|y hi'] eqn:E2; [reflexivity|]. rewrite <- E1, <- E2.
  assert (N1 : lo <> []) by (rewrite E1; discriminate). assert (N2 : hi <> []) by (rewrite E2; discriminate).
  assert (Q1 : exists a b, quots tick lo = a :: b) by (rewrite E1; cbn; eauto). assert (Q2 : exists a b, quots tick hi = a :: b) by (rewrite E2; cbn; eauto).
  pose proof (lmin_quots tick lo Ht N1) as M1. pose proof (lmax_quots tick hi Ht N2) as M2.
  destruct Q1 as [a1 [b1 Q1]], Q2 as [a2 [b2 Q2]]. rewrite Q1, Q2 in *.
  destruct (Qeqb_spec tick 0) as [K|K]; [lra|]. destruct (Qeqb_spec 1 0) as [K2|K2]; [discriminate|]. unfold level_f.
  rewrite (rhe_comp (lmin (a1 :: b1) / 1) (r53 (lmin lo / tick))) by (rewrite M1; field).
  rewrite (rhe_comp (lmax (a2 :: b2) / 1) (r53 (lmax hi / tick))) by (rewrite M2; field). reflexivity.
Qed.

Lemma aggregate_f_spec ts highs lows plv pbv psv start_ts end_ts tick :
  ascZ ts -> 0 < tick -> length highs = length ts -> length lows = length ts ->
  (start_ts <= end_ts)%Z -> vols_ok pbv -> vols_ok psv ->
  let bars := bars_in ts start_ts end_ts in
  bars <> [] -> (forall t, In t bars -> footprint_ok (quots tick highs) (quots tick lows) plv 1 t) ->
  exists L H bv sv, aggregate_footprint_f ts highs lows plv pbv psv start_ts end_ts tick = Ok (zrange L (H + 1), bv, sv) /\
    level_range (quots tick highs) (quots tick lows) 1 bars L H /\ (L <= H)%Z /\
    length bv = length (zrange L (H + 1)) /\ length sv = length (zrange L (H + 1)) /\
    (forall k, (k < length bv)%nat ->
       within u24 (length bars) (nth k bv 0) (lev_sum plv pbv bars (L + Z.of_nat k)) /\
       within u24 (length bars) (nth k sv 0) (lev_sum plv psv bars (L + Z.of_nat k))).
Proof.
  intros Hasc Ht Hh Hl Hse Vb Vs bars Hne Hok.
  assert (Hh' : length (quots tick highs) = length ts) by (unfold quots; now rewrite map_length).
  assert (Hl' : length (quots tick lows) = length ts) by (unfold quots; now rewrite map_length).
  assert (Hok2 : forall t, In t bars -> fp_ok (quots tick highs) (quots tick lows) plv 1 t) by (intros t Htt; apply fp_ok_of; auto).
  assert (EB : bars = seq (ss_left ts start_ts) (ss_right ts end_ts - ss_left ts start_ts)) by (unfold bars; apply bars_in_seq; [auto|lia]).
  unfold aggregate_footprint_f, agg_range.
  set (s := ss_left ts start_ts) in *. set (e := ss_right ts end_ts) in *.
  assert (Hlt : (s < e)%nat).
  { destruct (Nat.lt_ge_cases s e) as [|K]; auto. exfalso. apply Hne. rewrite EB. replace (e - s)%nat with 0%nat by lia. reflexivity. }
  assert (He : (e <= length ts)%nat) by apply ss_right_le.
  rewrite (proj2 (Nat.eqb_neq s e)) by lia.
  assert (Hin : forall t, (s <= t < e)%nat -> In t bars) by (intros; rewrite EB; apply in_seq; lia).
  destruct (window_levels_spec (quots tick highs) (quots tick lows) 1 s e) as [L [H [E [[tl [TL1 TL2]] [[th [TH1 TH2]] Hb]]]]]; try lia; try reflexivity.
  { intros t Htt. destruct (Hok2 t (Hin t Htt)) as [_ K]. exact K. }
  rewrite window_levels_quots, E by auto. rewrite zrange_length.
  assert (Hr : level_range (quots tick highs) (quots tick lows) 1 bars L H).
  { apply range_of; [exists tl; auto|exists th; auto|]. intros t Htt. rewrite EB in Htt. apply in_seq in Htt. apply Hb. lia. }
  destruct (agg_fold_f L H plv pbv psv Vb Vs (seq s (e - s)) 0 (repeat 0 (Z.to_nat (H + 1 - L))) (repeat 0 (Z.to_nat (H + 1 - L))) (fun _ => 0) (fun _ => 0))
    as [a [b [E2 [A1 [B1 [A2 B2]]]]]]; try apply repeat_length.
  { intros t Htt. apply in_seq in Htt. destruct (Hok2 t ltac:(apply Hin; lia)) as [[K1 K2] _].
    destruct (Hb t ltac:(lia)). split; auto. intros l Hl2. specialize (K2 l Hl2). lia. }
  { intros k Hk. rewrite nth_repeat. split; [apply Qle_refl|apply within_0]. }
  { intros k Hk. rewrite nth_repeat. split; [apply Qle_refl|apply within_0]. }
  rewrite E2. rewrite repeat_length in *. exists L, H, a, b. split; [reflexivity|]. split; [exact Hr|].
  split; [apply (range_le (quots tick highs) (quots tick lows) 1 bars L H plv); auto; reflexivity|].
  rewrite zrange_length. split; [auto|]. split; [auto|]. rewrite <- EB in A2, B2. cbn [Nat.add] in A2, B2.
  intros k Hk. split; (eapply (within_comp u24); [reflexivity| |first [apply A2; lia|apply B2; lia]]; ring).
Qed.
