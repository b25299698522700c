(** T_float4.v -- property C180: RSI, stochastic %K and ADX in float64.
    [rnd p] is the rounding characterised in C137_rounding. *)
From Coq Require Import Qround Qpower Qfield.
From Verif Require Import Base M_logic M_bars M_features M_volume M_float M_float2 M_float3 S_logic S_features S_float.
From Verif Require Import P_weights P_features P_features2 P_float P_float2 P_float3 P_float9 P_float12 P_float13 T_features T_features2.
Open Scope Q_scope.

(** * C180  RSI *)
Theorem C180_rsi : forall close n i, (1 <= n)%nat -> (i < length close)%nat ->
  ((i < n)%nat -> nth i (rsi_wilder_f close n) None = None) /\
  ((n <= i)%nat ->
   let G := wilder_avg (gains close) n (i - n) in
   let L := wilder_avg (losses close) n (i - n) in
   (L == 0 -> nth i (rsi_wilder_f close n) None = None) /\
   (0 < L -> exists v x, nth i (rsi_wilder_f close n) None = Some v /\ 0 <= v <= 100 /\
      x * (G + L) == 100 * G /\ Qabs (v - x) <= 100 * ((1 + u53) ^ Z.of_nat (18 * i + 6) - 1))).
Proof.
  intros close n i Hn Hi. unfold rsi_wilder_f. cbv zeta. rewrite nth_map_seq by auto. split; intro H.
  - now replace (i <? n)%nat with true by (symmetry; apply Nat.ltb_lt; lia).
  - replace (i <? n)%nat with false by (symmetry; apply Nat.ltb_ge; lia).
    destruct (C49_value close n i (conj Hn H) Hi) as (_ & _ & V1 & V2). rewrite rsi_nth in V1, V2 by auto.
    destruct (rsi_avgs close n (i - n) Hn) as (A1 & A2 & A3 & A4). pose proof (rsi_value_near _ _ _ _ _ A1 A2 A3 A4) as N.
    set (L := wilder_avg (losses close) n (i - n)) in *. set (G := wilder_avg (gains close) n (i - n)) in *.
    set (gf := wilder_f n _ (gain_f close) _) in *. set (lf := wilder_f n _ (loss_f close) _) in *.
    set (g := wilder n _ (gain close) _) in *. set (l := wilder n _ (loss close) _) in *.
    assert (Gf : 0 <= gf) by (apply (within_nonneg u53 u53_bounds _ gf g A3 A1)).
    split; intro HL.
    + rewrite (V2 HL) in N. destruct (rsi_value_f gf lf); [contradiction|reflexivity].
    + destruct (V1 HL) as (x & E & Ex). rewrite E in N. destruct (rsi_value_f gf lf) as [v|] eqn:Ev; [|contradiction].
      exists v, x. split; [reflexivity|]. split; [exact (rsi_value_f_range _ _ _ Gf Ev)|]. split; [exact Ex|].
      change ((1 + u53) ^ Z.of_nat (18 * i + 6) - 1) with (ee (18 * i + 6)). rewrite Qmult_comm. eapply Qle_trans; [exact N|].
      apply Qmult_le_compat_r; [apply ee_mono; lia|lra].
Qed.
(** Closes 10.1, 10.3, 10.2, 10.4, 10.1 (nearest floats), window 2. *)
Definition c180_close : list Q := map r53 [101 # 10; 103 # 10; 102 # 10; 104 # 10; 101 # 10].
Example C180_rsi_example :
  map (option_map (fun v => Qfloor (v * 1000))) (rsi_wilder_f c180_close 2) = [None; None; Some 66666%Z; Some 85714%Z; Some 31578%Z] /\
  0 < wilder_avg (losses c180_close) 2 1 /\ wilder_avg (losses [5; 6; 7]) 2 0 == 0.
Proof. split; [vm_compute; reflexivity|]. split; [vm_compute; reflexivity|vm_compute; reflexivity]. Qed.

(** * C180  Stochastic %K *)
Theorem C180_stoch : forall close low high n t, (1 <= n)%nat ->
  length low = length close -> length high = length close ->
  (forall i, (i < length close)%nat -> at_ low i <= at_ close i <= at_ high i) -> (t < length close)%nat ->
  ((t + 1 < n)%nat -> nth t (stoch_k_f close low high n) None = None) /\
  ((n <= t + 1)%nat -> exists lo hi, is_min lo (window (at_ low) t n) /\ is_max hi (window (at_ high) t n) /\
     (hi <= lo -> nth t (stoch_k_f close low high n) None = None) /\
     (lo < hi -> exists v x, nth t (stoch_k_f close low high n) None = Some v /\ x * (hi - lo) == 100 * (at_ close t - lo) /\
        0 <= v <= 100 + (1 # 2 ^ 46) /\ (1 - u53) ^ 5 * x <= v <= (1 + u53) ^ 5 * x)).
Proof.
  intros close low high n t Hn Ll Lh B Ht. unfold stoch_k_f. rewrite nth_map_seq by auto. split; intro H.
  - now replace (t + 1 <? n)%nat with true by (symmetry; apply Nat.ltb_lt; lia).
  - replace (t + 1 <? n)%nat with false by (symmetry; apply Nat.ltb_ge; lia). cbv zeta.
    destruct (stoch_ext_spec low high n (t + 1 - n)) as [A C]; [auto|lia|lia|]. replace (n - 1 + (t + 1 - n))%nat with t in A, C by lia.
    set (s := stoch_ext low high n (t + 1 - n)) in *. exists (fst s), (snd s). split; [exact A|]. split; [exact C|].
    destruct A as [_ Hlo]. destruct C as [_ Hhi].
    assert (K1 : fst s <= at_ low t) by (apply Hlo, in_window; [lia|]; exists t; split; [lia|split; [lia|auto]]).
    assert (K2 : at_ high t <= snd s) by (apply Hhi, in_window; [lia|]; exists t; split; [lia|split; [lia|auto]]).
    pose proof (B t Ht) as K3. destruct (Qltb_spec (fst s) (snd s)) as [L|L]; split; intro K; try lra; [|reflexivity].
    change (qn close t) with (at_ close t). destruct (stoch_value_f (at_ close t) (fst s) (snd s) L ltac:(lra)) as [R1 R2].
    eexists. exists (100 * (at_ close t - fst s) / (snd s - fst s)). split; [reflexivity|]. split; [field; lra|]. split; [exact R1|exact R2].
Qed.
Lemma c180_stoch_ok : forall i, (i < 2)%nat -> at_ [1; 1] i <= at_ [1; r53 (111 # 100)] i <= at_ [r53 (111 # 100); r53 (111 # 100)] i.
Proof. intros i Hi. destruct i as [|[|i]]; [| |lia]; split; vm_compute; discriminate. Qed.
Example C180_stoch_example : exists lo hi, is_min lo (window (at_ [1; 1]) 1 2) /\ is_max hi (window (at_ [r53 (111 # 100); r53 (111 # 100)]) 1 2) /\ lo < hi.
Proof.
  exists 1, (r53 (111 # 100)). split; [split; [now left|intros y [<-|[<-|[]]]; vm_compute; discriminate]|].
  split; [split; [now left|intros y [<-|[<-|[]]]; vm_compute; discriminate]|reflexivity].
Qed.
(** The close at the top of the window: %K is 100 + 2^-46, above 100.  Low 1.0, high and close 1.11. *)
Theorem C180_stoch_refuted : exists close low high n t v,
  length low = length close /\ length high = length close /\ (t < length close)%nat /\
  (forall i, (i < length close)%nat -> fl 53 (at_ low i) /\ fl 53 (at_ close i) /\ fl 53 (at_ high i) /\ at_ low i <= at_ close i <= at_ high i) /\
  nth t (stoch_k_f close low high n) None = Some v /\ 100 < v.
Proof.
  exists [1; r53 (111 # 100)], [1; 1], [r53 (111 # 100); r53 (111 # 100)], 2%nat, 1%nat. eexists.
  split; [reflexivity|]. split; [reflexivity|]. split; [cbn [length]; lia|]. split.
  - intros i Hi. pose proof (c180_stoch_ok i Hi) as K. assert (F : fl 53 (r53 (111 # 100))) by (apply rnd_fl; lia).
    destruct i as [|[|i]]; [| |cbn [length] in Hi; lia]; (split; [exact fl_1|]); (split; [exact fl_1||exact F|]); (split; [exact F|exact K]).
  - split; [vm_compute; reflexivity|vm_compute; reflexivity].
Qed.

(** * C180  ADX *)
Theorem C180_adx_range : forall high low close n i, (1 <= n)%nat -> (100 * Z.of_nat n <= 2 ^ 53)%Z -> (i < length high)%nat ->
  0 <= nth i (adx_core_f high low close n) 0 <= 100 /\ ((i + 1 < 2 * n)%nat -> nth i (adx_core_f high low close n) 0 = 0).
Proof.
  intros high low close n i Hn Hb Hi. unfold adx_core_f. rewrite nth_map_seq by auto. destruct (Nat.ltb_spec (i + 1) (2 * n)) as [B|B].
  - split; [lra|auto].
  - split; [|lia]. apply adx_at_f_range; auto. intro j. now apply dx_f_range.
Qed.
(** Neighbouring highs, and neighbouring lows, within a factor of two of each other. *)
Theorem C180_adx : forall high low close n i, (1 <= n)%nat -> length low = length high -> (i < length high)%nat ->
  (forall j, (j < length high)%nat -> fl 53 (at_ high j) /\ fl 53 (at_ low j) /\ 0 < at_ low j <= at_ high j) ->
  (forall j, (S j < length high)%nat -> at_ high j <= 2 * at_ high (S j) /\ at_ high (S j) <= 2 * at_ high j /\
                                        at_ low j <= 2 * at_ low (S j) /\ at_ low (S j) <= 2 * at_ low j) ->
  Qabs (nth i (adx_core_f high low close n) 0 - nth i (adx_core high low close n) 0) <= 100 * ((1 + u53) ^ Z.of_nat (30 * i + 50) - 1).
Proof.
  intros high low close n i Hn Ll Hi F G.
  assert (Gh : gentle high).
  { split; [|intros j Hj; destruct (G j Hj) as (? & ? & _); split; assumption]. intros x Hx. apply (In_nth _ _ 0) in Hx. destruct Hx as (j & Hj & <-). destruct (F j Hj) as (A & _ & B). unfold at_ in A, B. split; [exact A|lra]. }
  assert (Gl : gentle low).
  { split; [|intros j Hj; rewrite Ll in Hj; destruct (G j Hj) as (_ & _ & ? & ?); split; assumption]. intros x Hx. apply (In_nth _ _ 0) in Hx. destruct Hx as (j & Hj & <-). rewrite Ll in Hj. destruct (F j Hj) as (_ & A & B). unfold at_ in A, B. split; [exact A|lra]. }
  assert (L : forall j, qn low j <= qn high j).
  { intro j. destruct (lt_dec j (length high)) as [Hj|Hj]; [destruct (F j Hj) as (_ & _ & _ & B); exact B|]. unfold qn. rewrite !nth_overflow by lia. lra. }
  unfold adx_core_f, adx_core. rewrite !nth_map_seq by auto. change ((1 + u53) ^ Z.of_nat (30 * i + 50) - 1) with (ee (30 * i + 50)).
  destruct (Nat.ltb_spec (i + 1) (2 * n)) as [B|B]; [change (Qabs (0 - 0)) with 0; pose proof (ee_nonneg (30 * i + 50)); lra|].
  destruct (adx_at_near (dx_f high low close n) (dx high low close n) n Hn ltac:(intro j; now apply dx_near) (i + 1 - 2 * n)) as [_ N].
  replace (2 * n - 1 + (i + 1 - 2 * n))%nat with i in N by lia. change ((1 + u53) ^ Z.of_nat (30 * i + 50) - 1) with (ee (30 * i + 50)) in N. lra.
Qed.
Definition c180_high : list Q := map r53 [121 # 10; 143 # 10; 157 # 10; 141 # 10; 162 # 10; 181 # 10].
Definition c180_low : list Q := map r53 [101 # 10; 111 # 10; 131 # 10; 121 # 10; 133 # 10; 152 # 10].
Definition c180_cl : list Q := map r53 [111 # 10; 133 # 10; 141 # 10; 133 # 10; 151 # 10; 172 # 10].
Example C180_adx_example :
  map (fun v => Qfloor (v * 1000)) (adx_core_f c180_high c180_low c180_cl 2) = [0; 0; 0; 64285; 67857; 77079]%Z /\
  (forall j, (j < 6)%nat -> fl 53 (at_ c180_high j) /\ fl 53 (at_ c180_low j) /\ 0 < at_ c180_low j <= at_ c180_high j) /\
  (forall j, (S j < 6)%nat -> at_ c180_high j <= 2 * at_ c180_high (S j) /\ at_ c180_high (S j) <= 2 * at_ c180_high j /\
                              at_ c180_low j <= 2 * at_ c180_low (S j) /\ at_ c180_low (S j) <= 2 * at_ c180_low j).
Proof.
  split; [vm_compute; reflexivity|]. split; intros j Hj.
  - do 6 (destruct j as [|j]; [unfold at_, c180_high, c180_low; cbn [map nth]; (split; [apply rnd_fl; lia|]); (split; [apply rnd_fl; lia|]); split; [vm_compute; reflexivity|vm_compute; discriminate]|]). lia.
  - do 5 (destruct j as [|j]; [repeat (split; [vm_compute; discriminate|]); vm_compute; discriminate|]). lia.
Qed.
(** Without it the two moves can tie after rounding: the float value is 0, the exact one 100.
    Highs 2, 3; lows 1, 2^-60; closes 2, 1; window 1. *)
Theorem C180_adx_gap_refuted : exists high low close n i,
  (1 <= n)%nat /\ length low = length high /\ length close = length high /\ (i < length high)%nat /\
  (forall j, (j < length high)%nat -> fl 53 (at_ high j) /\ fl 53 (at_ low j) /\ fl 53 (at_ close j) /\ 0 < at_ low j <= at_ close j /\ at_ close j <= at_ high j) /\
  nth i (adx_core_f high low close n) 0 = 0 /\ nth i (adx_core high low close n) 0 == 100.
Proof.
  exists [2; 3], [1; 1 # 2 ^ 60], [2; 1], 1%nat, 1%nat. split; [lia|]. split; [reflexivity|]. split; [reflexivity|]. split; [cbn [length]; lia|]. split.
  - intros j Hj. assert (F2 : fl 53 2) by (exists 1%Z, 1%Z; split; reflexivity). assert (F3 : fl 53 3) by (exists 3%Z, 0%Z; split; reflexivity).
    assert (Ft : fl 53 (1 # 2 ^ 60)) by (exists 1%Z, (-60)%Z; split; [reflexivity|vm_compute; reflexivity]).
    destruct j as [|[|j]]; [| |cbn [length] in Hj; lia].
    + split; [exact F2|]. split; [exact fl_1|]. split; [exact F2|]. split; [split; [reflexivity|discriminate]|discriminate].
    + split; [exact F3|]. split; [exact Ft|]. split; [exact fl_1|]. split; [split; [reflexivity|discriminate]|discriminate].
  - split; vm_compute; reflexivity.
Qed.

Print Assumptions C180_rsi.
Print Assumptions C180_stoch.
Print Assumptions C180_stoch_refuted.
Print Assumptions C180_adx_range.
Print Assumptions C180_adx.
Print Assumptions C180_adx_gap_refuted.
