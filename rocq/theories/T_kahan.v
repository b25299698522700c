(** T_kahan.v -- C197: resampled time bars in float32 and float64. *)
From Coq Require Import Qround Qpower Qfield Lqa.
From Verif Require Import Base M_tbio M_float M_float11 M_float16 S_float P_float P_float12 P_kahan.
Open Scope Q_scope.

(** The compensated sum that pandas uses for groups: its error does not grow with the number of values to first order. [p] significant
    bits, up to 2^(2p - 12) values of either sign. *)
Theorem C197_kahan : forall p l, (10 <= p)%Z -> Qnat (length l) * (Qpower 2 (- p) * Qpower 2 (- p)) <= 1 # 4096 ->
  Qabs (kahan p l - qsum l) <= (11 * Qpower 2 (- p) + 30 * Qnat (length l) * (Qpower 2 (- p) * Qpower 2 (- p))) * qsum (map Qabs l).
Proof. exact kahan_err. Qed.
(** It is exact for multiples of 2^g whose magnitudes add up to no more than 2^(p + g). *)
Theorem C197_kahan_exact : forall p g l, (1 <= p)%Z -> (forall x, In x l -> grid g x) -> qsum (map Qabs l) <= two (p + g) -> kahan p l == qsum l.
Proof. exact kahan_grid. Qed.
(** A plain float32 sum has no such bound: it can lose any number of ones. *)
Lemma stuck n : fold_left (fun c x => r24 (c + x)) (repeat 1 n) (inject_Z (2 ^ 24)) == inject_Z (2 ^ 24).
Proof.
  induction n as [|n IH]; [reflexivity|]. cbn [repeat fold_left]. assert (E : r24 (inject_Z (2 ^ 24) + 1) = inject_Z (2 ^ 24)) by (vm_compute; reflexivity). now rewrite E.
Qed.
Theorem C197_plain_refuted : forall n, exists l, length l = S n /\ fsum24 l == inject_Z (2 ^ 24) /\ qsum l == inject_Z (2 ^ 24) + Qnat n.
Proof.
  intro n. exists (inject_Z (2 ^ 24) :: repeat 1 n). split; [cbn [length]; now rewrite repeat_length|]. split.
  - unfold fsum24. cbn [fold_left]. assert (E : r24 (0 + inject_Z (2 ^ 24)) = inject_Z (2 ^ 24)) by (vm_compute; reflexivity). rewrite E. apply stuck.
  - cbn [qsum fold_right]. fold (qsum (repeat 1 n)). assert (Q : qsum (repeat 1 n) == Qnat n).
    { induction n as [|n IH]; [reflexivity|]. cbn [repeat qsum fold_right]. fold (qsum (repeat 1 n)). rewrite IH. unfold Qnat. rewrite Nat2Z.inj_succ. unfold Z.succ. rewrite inject_Z_plus. change (inject_Z 1) with 1. ring. }
    rewrite Q. reflexivity.
Qed.

(** What float32 and float64 make of a resampled row: [n] is the number of stored bars of the period. *)
Definition row_close (n : nat) (a x : bar) : Prop :=
  b_ts a = b_ts x /\ b_open a = b_open x /\ b_high a = b_high x /\ b_low a = b_low x /\ b_close a = b_close x /\ b_trades a = b_trades x /\
  Qabs (b_vol a - b_vol x) <= (11 * u24 + 30 * Qnat n * (u24 * u24)) * b_vol x /\
  match b_vwap a, b_vwap x with
  | Some v, Some w => Qabs (v - w) <= (16 * u24 + 40 * Qnat n * (u24 * u24)) * w
  | None, None => True
  | _, _ => False
  end /\
  Qabs (b_med a - b_med x) <= u24 * Qabs (b_med x).
Theorem C197_resample : forall sort tf df, (Z.of_nat (length df) <= 2 ^ 36)%Z -> (forall b, In b df -> 0 <= b_vol b) -> (forall b v, In b df -> b_vwap b = Some v -> 0 <= v) ->
  Forall2 (fun a x => row_close (length (group tf df (b_ts x))) a x) (resample_f sort tf df) (resample sort tf df).
Proof.
  intros sort tf df HL HV HW. unfold resample_f, resample. induction (uniq (map (fun b => floor_to tf (b_ts b)) df)) as [|k ks IH]; [constructor|].
  cbn [map filter]. assert (HO : has_open (agg_f sort k (group tf df k)) = has_open (agg sort k (group tf df k))) by reflexivity. rewrite HO.
  destruct (has_open (agg sort k (group tf df k))); [|exact IH]. constructor; [|exact IH]. unfold agg_f, agg, row_close. cbn [b_ts b_open b_high b_low b_close b_vol b_trades b_vwap b_med].
  set (g := group tf df k). assert (IN : forall b, In b g -> In b df) by (intros b Hb; unfold g, group in Hb; apply filter_In in Hb; tauto).
  assert (LG : (length g <= length df)%nat). { unfold g, group. clear. induction df as [|b l IHl]; [apply Nat.le_refl|]. cbn [filter]. destruct (floor_to tf (b_ts b) =? k)%Z; cbn [length]; lia. }
  assert (HN : Qnat (length g) * (u_of 24 * u_of 24) <= 1 # 4096).
  { assert (Qnat (length g) <= inject_Z (2 ^ 36)) by (unfold Qnat; rewrite <- Zle_Qle; lia). change (u_of 24 * u_of 24) with ((1 # 16777216) * (1 # 16777216)). change (inject_Z (2 ^ 36)) with 68719476736 in *. lra. }
  do 6 (split; [reflexivity|]). split; [apply (vol_sum_close g (fun b Hb => HV b (IN b Hb)) HN)|]. split.
  - pose proof (vwap_close g (fun b v Hb => HW b v (IN b Hb)) (fun b Hb => HV b (IN b Hb)) HN) as K. destruct (vwap_of_f g), (vwap_of g); try exact K. apply K.
  - apply (rnd_err' 24).
Qed.
(** The same rows in the same order. *)
Theorem C197_rows : forall sort tf df, map b_ts (resample_f sort tf df) = map b_ts (resample sort tf df).
Proof.
  intros sort tf df. unfold resample_f, resample. induction (uniq (map (fun b => floor_to tf (b_ts b)) df)) as [|k ks IH]; [reflexivity|]. cbn [map filter].
  change (has_open (agg_f sort k (group tf df k))) with (has_open (agg sort k (group tf df k))). destruct (has_open _); cbn [map]; [f_equal|]; exact IH.
Qed.
(** Volumes that are multiples of 2^g are added without error while the period has no more than 2^(24 + g). *)
Theorem C197_volume_exact : forall sort tf df g r, (forall b, In b df -> grid g (b_vol b) /\ 0 <= b_vol b) -> In r (resample_f sort tf df) ->
  qsum (map b_vol (group tf df (b_ts r))) <= two (24 + g) -> b_vol r == qsum (map b_vol (group tf df (b_ts r))).
Proof.
  intros sort tf df g r HG Hr. unfold resample_f in Hr. apply filter_In in Hr. destruct Hr as [Hr _]. apply in_map_iff in Hr. destruct Hr as (k & <- & _). cbn [agg_f b_ts b_vol]. intro H.
  assert (P : forall x, In x (map b_vol (group tf df k)) -> grid g x /\ 0 <= x) by (intros x Hx; apply in_map_iff in Hx; destruct Hx as (b & <- & Hb); unfold group in Hb; apply filter_In in Hb; now apply HG).
  unfold vol_sum_f. apply (kahan_grid 24 g); [lia|intros x Hx; now apply P|]. rewrite qabs_sum_pos; [exact H|]. intros x Hx. now apply P.
Qed.
(** A day of seconds: volumes are right up to twelve, VWAPs up to seventeen float32 roundings. *)
Theorem C197_day : forall sort tf df, (Z.of_nat (length df) <= 86400)%Z -> (forall b, In b df -> 0 <= b_vol b) -> (forall b v, In b df -> b_vwap b = Some v -> 0 <= v) ->
  Forall2 (fun a x => Qabs (b_vol a - b_vol x) <= 12 * u24 * b_vol x /\ match b_vwap a, b_vwap x with Some v, Some w => Qabs (v - w) <= 17 * u24 * w | None, None => True | _, _ => False end)
    (resample_f sort tf df) (resample sort tf df).
Proof.
  intros sort tf df HL HV HW. pose proof (C197_resample sort tf df ltac:(lia) HV HW) as F.
  assert (BX : forall x, In x (resample sort tf df) -> 0 <= b_vol x /\ (forall w, b_vwap x = Some w -> 0 <= w) /\ (length (group tf df (b_ts x)) <= length df)%nat).
  { intros x Hx. unfold resample in Hx. apply filter_In in Hx. destruct Hx as [Hx _]. apply in_map_iff in Hx. destruct Hx as (k & <- & _). cbn [agg b_vol b_vwap b_ts].
    assert (IN : forall b, In b (group tf df k) -> In b df) by (intros b Hb; unfold group in Hb; apply filter_In in Hb; tauto).
    assert (V0 : 0 <= qsum (map b_vol (group tf df k))).
    { clear -HV IN. induction (group tf df k) as [|b l IHl]; [apply Qle_refl|]. cbn [map qsum fold_right]. fold (qsum (map b_vol l)). assert (0 <= b_vol b) by (apply HV, IN; now left). assert (0 <= qsum (map b_vol l)) by (apply IHl; intros; apply IN; now right). lra. }
    split; [exact V0|]. split.
    - intros w E. unfold vwap_of in E. destruct (Qeq_bool _ 0) eqn:Z0; [discriminate|]. injection E as <-. destruct (traded_sums (group tf df k) (fun b v Hb => HW b v (IN b Hb)) (fun b Hb => HV b (IN b Hb))) as [D0 _].
      assert (VP : 0 < qsum (map b_vol (group tf df k))). { destruct (Qlt_le_dec 0 (qsum (map b_vol (group tf df k)))) as [K|K]; [exact K|]. assert (E0 : qsum (map b_vol (group tf df k)) == 0) by lra. apply Qeq_bool_iff in E0. congruence. }
      apply Qle_shift_div_l; lra.
    - unfold group. clear. induction df as [|b l IHl]; [apply Nat.le_refl|]. cbn [filter]. destruct (floor_to tf (b_ts b) =? k)%Z; cbn [length]; lia. }
  revert F BX. generalize (resample_f sort tf df) (resample sort tf df). intros l1 l2 F. induction F as [|a x l1 l2 R F IH]; intro BX; constructor; [|apply IH; intros; apply BX; now right].
  destruct (BX x (or_introl eq_refl)) as (V0 & W0 & LG). destruct R as (_ & _ & _ & _ & _ & _ & RV & RW & _).
  assert (N : Qnat (length (group tf df (b_ts x))) <= 86400) by (change 86400 with (inject_Z 86400); unfold Qnat; rewrite <- Zle_Qle; lia). pose proof (Qnat_nonneg (length (group tf df (b_ts x)))) as N0.
  change u24 with (1 # 16777216) in *. set (n := Qnat (length (group tf df (b_ts x)))) in *. clearbody n. split.
  - eapply Qle_trans; [exact RV|]. apply Qmult_le_compat_r; [lra|exact V0].
  - destruct (b_vwap a) as [v|], (b_vwap x) as [w|]; try exact RW. eapply Qle_trans; [exact RW|]. apply Qmult_le_compat_r; [lra|now apply W0].
Qed.
(** Rounding depends on the periods: two steps do not give the volume of one. *)
Theorem C197_two_steps_refuted : exists sort tf m df r1 r2, (0 < tf)%Z /\ (0 < m)%Z /\ (forall b, In b df -> 0 <= b_vol b /\ fl 24 (b_vol b)) /\
  In r1 (resample_f sort (m * tf) (resample_f sort tf df)) /\ In r2 (resample_f sort (m * tf) df) /\ b_ts r1 = b_ts r2 /\ ~ b_vol r1 == b_vol r2.
Proof.
  set (mk := fun t v => mkBar t (Some 1) (Some 1) (Some 1) (Some 1) v 1 (Some 1) v).
  exists (fun l => l), 2%Z, 2%Z, [mk 0%Z 16777216; mk 1%Z 1; mk 2%Z 1]. eexists _, _. split; [lia|]. split; [lia|]. split.
  - intros b [<- | [<- | [<- | []]]]; (split; [discriminate|]); [exists 1%Z, 24%Z|exists 1%Z, 0%Z|exists 1%Z, 0%Z]; split; reflexivity.
  - split; [vm_compute; left; reflexivity|]. split; [vm_compute; left; reflexivity|]. split; [reflexivity|]. vm_compute. discriminate.
Qed.

Example C197_example_kahan : kahan 24 [16777216; 1; 1; 1; 1] == 16777220 /\ fsum24 [16777216; 1; 1; 1; 1] == 16777216 /\
  Qnat (length [16777216; 1; 1; 1; 1]) * (Qpower 2 (- 24) * Qpower 2 (- 24)) <= 1 # 4096.
Proof. split; [vm_compute; reflexivity|]. split; [vm_compute; reflexivity|]. vm_compute. discriminate. Qed.
Example C197_example_grid : (forall x, In x [3 # 4; -(1 # 2); 5] -> grid (-2) x) /\ qsum (map Qabs [3 # 4; -(1 # 2); 5]) <= two (24 + -2).
Proof. split; [intros x [<- | [<- | [<- | []]]]; [exists 3%Z|exists (-2)%Z|exists 20%Z]; reflexivity|vm_compute; discriminate]. Qed.
Example C197_example_rows : let mk := fun t v w => mkBar t (Some w) (Some w) (Some w) (Some w) v 1 (Some w) v in
  let df := [mk 0%Z (1 # 2) 10; mk 1%Z (3 # 2) 12; mk 2%Z 4 11] in
  map (fun b => (b_ts b, b_vol b, b_vwap b)) (resample_f (fun l => l) 2 df) = [(0%Z, 2, Some (23 # 2)); (2%Z, 4, Some 11)] /\
  (forall b, In b df -> 0 <= b_vol b) /\ (forall b v, In b df -> b_vwap b = Some v -> 0 <= v).
Proof.
  split; [vm_compute; reflexivity|]. split.
  - intros b [<- | [<- | [<- | []]]]; discriminate.
  - intros b v [<- | [<- | [<- | []]]] E; cbn in E; injection E as <-; discriminate.
Qed.

Print Assumptions C197_kahan.
Print Assumptions C197_kahan_exact.
Print Assumptions C197_plain_refuted.
Print Assumptions C197_resample.
Print Assumptions C197_rows.
Print Assumptions C197_volume_exact.
Print Assumptions C197_day.
Print Assumptions C197_two_steps_refuted.
