(** P_pipe3.v -- bars made from trades and resampled, in float32 and float64. *)
From Coq Require Import Qpower Lqa.
From Verif Require Import Base M_logic M_bars M_float M_tbio M_float16 M_pipe S_logic S_bars S_float S_pipe P_bars P_float P_float3 P_float12 P_cstestf P_kahan T_logic T_tbio P_pipe P_pipe2.
Open Scope Q_scope.

(** ** One bar *)
Lemma bar_f_same px am s e : let x := bar_ohlcv_f px am s e in let y := bar_ohlcv px am s e in
  M_bars.b_open x = M_bars.b_open y /\ M_bars.b_high x = M_bars.b_high y /\ M_bars.b_low x = M_bars.b_low y /\ M_bars.b_close x = M_bars.b_close y /\ M_bars.b_trades x = M_bars.b_trades y.
Proof.
  cbv zeta. unfold bar_ohlcv_f, bar_ohlcv. destruct (Z.eqb s e); [repeat split|].
  pose proof (ohlc_same px am (zrange (s + 1) (e + 1)) (zget 0 px (s + 1)) (zget 0 px (s + 1)) 0 0 0 0) as S0. cbv zeta in S0.
  destruct (fold_left (ohlcv_step_f px am) _ _) as [[[h l] v] d]. destruct (fold_left (ohlcv_step px am) _ _) as [[[h' l'] v'] d']. cbn [fst snd] in S0. destruct S0 as [-> ->]. cbn. repeat split.
Qed.
Definition w24 : Q := 1 # 16777216.
Lemma pow_small n : (Z.of_nat n <= 2 ^ 28 + 2)%Z -> 1 - w24 <= (1 - u53) ^ Z.of_nat n /\ (1 + u53) ^ Z.of_nat n <= 1 + w24 /\ 1 <= (1 + u53) ^ Z.of_nat n.
Proof.
  intro H. assert (HQ : Qnat n <= 268435458) by (change 268435458 with (inject_Z 268435458); unfold Qnat; rewrite <- Zle_Qle; lia). assert (N0 : 0 <= Qnat n) by (unfold Qnat; change 0 with (inject_Z 0); rewrite <- Zle_Qle; lia).
  pose proof (pow_lin n) as A. pose proof (pow_inv_low n) as B. assert (C : 1 <= (1 + u53) ^ Z.of_nat n) by (apply pow_ge1; vm_compute; discriminate).
  unfold w24. set (x := (1 - u53) ^ Z.of_nat n) in *. set (y := (1 + u53) ^ Z.of_nat n) in *. set (q := Qnat n) in *. clearbody x y q. change u53 with (1 # 9007199254740992) in A.
  assert (A' : 1 - (1 # 33554431) <= x) by lra. split; [lra|]. split; [|exact C]. assert (0 <= (x - (1 - (1 # 33554431))) * y) by nra. nra.
Qed.
Section Bar.
  Variable px am : list Q.
  Variable s e : Z.
  Hypothesis H : (-1 <= s <= e)%Z.
  Hypothesis Hn : (e - s <= 2 ^ 28)%Z.
  Hypothesis Hp : forall x, In x px -> 0 <= x.
  Hypothesis Hq : forall x, In x am -> 0 <= x.
  Lemma vol_near : let V := bsum (at_ am) s e in 0 <= V /\ Qabs (M_bars.b_volume (bar_ohlcv_f px am s e) - V) <= (2 * w24 + w24 * w24) * V.
  Proof.
    cbv zeta. assert (V0 : 0 <= bsum (at_ am) s e) by (apply bsum_nonneg; intros; apply (am_pos am Hq)). split; [exact V0|].
    pose proof (bar_f_volume px am s e H Hq) as K. cbv zeta in K. destruct (pow_small (Z.to_nat (e - s)) ltac:(lia)) as (P1 & P2 & P3). change u24 with w24 in K. apply Qabs_Qle_condition.
    set (V := bsum (at_ am) s e) in *. set (b := M_bars.b_volume _) in *. set (x := (1 - u53) ^ _) in *. set (y := (1 + u53) ^ _) in *. clearbody V b x y. unfold w24 in *.
    assert (0 <= (x - (1 - (1 # 16777216))) * V) by nra. assert (0 <= (1 + (1 # 16777216) - y) * V) by nra. lra.
  Qed.
  (** Traded value: vwap times volume. *)
  Lemma value_near : let D := bsum (fun j => at_ px j * at_ am j) s e in let b := bar_ohlcv_f px am s e in
    0 <= D /\ 0 <= M_bars.b_vwap b /\ Qabs (M_bars.b_vwap b * M_bars.b_volume b - D) <= 5 * w24 * D.
  Proof.
    cbv zeta. assert (D0 : 0 <= bsum (fun j => at_ px j * at_ am j) s e) by (apply bsum_nonneg; intros j _; pose proof (am_pos am Hq j); pose proof (am_pos px Hp j); nra).
    split; [exact D0|]. destruct vol_near as [V0 VN]. cbv zeta in V0, VN.
    destruct (Z.eq_dec s e) as [E|NE].
    { unfold bar_ohlcv_f in *. rewrite E, Z.eqb_refl. cbn [M_bars.b_vwap M_bars.b_volume]. rewrite bsum_nil by lia. split; [discriminate|]. vm_compute. discriminate. }
    destruct (Qlt_le_dec 0 (bsum (at_ am) s e)) as [VP|VZ].
    - pose proof (bar_f_vwap px am s e ltac:(lia) Hp Hq VP) as K. cbv zeta in K. destruct (pow_small (Z.to_nat (e - s)) ltac:(lia)) as (P1 & P2 & P3). destruct (pow_small (Z.to_nat (e - s) + 2) ltac:(lia)) as (Q1 & Q2 & Q3).
      set (V := bsum (at_ am) s e) in *. set (D := bsum (fun j => at_ px j * at_ am j) s e) in *. set (v := M_bars.b_vwap _) in *. set (b := M_bars.b_volume _) in *.
      set (x := (1 - u53) ^ Z.of_nat (Z.to_nat (e - s))) in *. set (y := (1 + u53) ^ Z.of_nat (Z.to_nat (e - s))) in *. set (x' := (1 - u53) ^ Z.of_nat (Z.to_nat (e - s) + 2)) in *. set (y' := (1 + u53) ^ Z.of_nat (Z.to_nat (e - s) + 2)) in *. clearbody V D v b x y x' y'. unfold w24 in *.
      destruct K as [K1 K2]. apply Qabs_Qle_condition in VN.
      assert (YV : 0 < y * V) by (apply Qmult_lt_0_compat; lra). assert (X0 : 0 <= (x' - (1 - (1 # 16777216))) * D) by (apply Qmult_le_0_compat; lra). assert (v0 : 0 <= v).
      { destruct (Qlt_le_dec v 0) as [L|L]; [|exact L]. exfalso. assert (0 < (0 - v) * (y * V)) by (apply Qmult_lt_0_compat; lra). lra. }
      split; [exact v0|]. set (p := v * V). assert (p0 : 0 <= p) by (apply Qmult_le_0_compat; lra).
      assert (A1 : (1 - (1 # 16777216)) * D <= (1 + (1 # 16777216)) * p). { assert (0 <= (1 + (1 # 16777216) - y) * p) by (apply Qmult_le_0_compat; lra). assert (v * (y * V) == y * p) by (unfold p; ring). lra. }
      assert (A2 : (1 - (1 # 16777216)) * p <= (1 + (1 # 16777216)) * D). { assert (0 <= (x - (1 - (1 # 16777216))) * p) by (apply Qmult_le_0_compat; lra). assert (0 <= (1 + (1 # 16777216) - y') * D) by (apply Qmult_le_0_compat; lra). assert (v * (x * V) == x * p) by (unfold p; ring). lra. }
      assert (B1 : 0 <= v * (b - V + (2 * (1 # 16777216) + (1 # 16777216) * (1 # 16777216)) * V)) by (apply Qmult_le_0_compat; lra).
      assert (B2 : 0 <= v * ((2 * (1 # 16777216) + (1 # 16777216) * (1 # 16777216)) * V - (b - V))) by (apply Qmult_le_0_compat; lra).
      assert (C1 : v * (b - V + (2 * (1 # 16777216) + (1 # 16777216) * (1 # 16777216)) * V) == v * b - p + (2 * (1 # 16777216) + (1 # 16777216) * (1 # 16777216)) * p) by (unfold p; ring).
      assert (C2 : v * ((2 * (1 # 16777216) + (1 # 16777216) * (1 # 16777216)) * V - (b - V)) == (2 * (1 # 16777216) + (1 # 16777216) * (1 # 16777216)) * p - (v * b - p)) by (unfold p; ring).
      rewrite C1 in B1. rewrite C2 in B2. set (z := v * b) in *. clearbody z p. apply Qabs_Qle_condition. lra.
    - assert (VE : bsum (at_ am) s e == 0) by lra. rewrite VE in VN. assert (BE : M_bars.b_volume (bar_ohlcv_f px am s e) == 0) by (apply Qabs_Qle_condition in VN; lra).
      assert (DE : bsum (fun j => at_ px j * at_ am j) s e == 0).
      { rewrite (bsum_ext _ (fun _ => 0 * 0)); [rewrite bsum_scal; ring|]. intros j Hj. rewrite (bsum_zero (at_ am) s e (fun j _ => am_pos am Hq j) VE j Hj). ring. }
      rewrite BE, DE. split; [|generalize (M_bars.b_vwap (bar_ohlcv_f px am s e)); intro q; setoid_replace (q * 0 - 0) with 0 by ring; vm_compute; discriminate].
      pose proof (tot_loop px am s e (zget 0 px (s + 1)) ltac:(lia) Hq) as T. unfold bar_ohlcv_f. destruct (Z.eqb_spec s e) as [Ese|_]; [lia|].
      destruct (fold_left (ohlcv_step_f px am) _ _) as [[[h l] v] d]. cbn [M_bars.b_vwap]. destruct T as [[_ W] _]. rewrite VE in W. destruct (Qltb_spec 0 v) as [L|L]; [exfalso; lra|apply Qle_refl].
  Qed.
End Bar.

(** ** Sums of bars *)
Lemma rel_sum (f g : nat -> Q) c l : 0 <= c -> (forall k, In k l -> 0 <= g k /\ Qabs (f k - g k) <= c * g k) ->
  0 <= qsum (map g l) /\ Qabs (qsum (map f l) - qsum (map g l)) <= c * qsum (map g l).
Proof.
  intros C HK. induction l as [|k l IH]; [split; [apply Qle_refl|change (Qabs (0 - 0) <= c * 0); change (Qabs (0 - 0)) with 0; lra]|]. destruct IH as [I1 I2]; [intros; apply HK; now right|]. destruct (HK k (or_introl eq_refl)) as [K1 K2].
  cbn [map qsum fold_right]. fold (qsum (map f l)) (qsum (map g l)). split; [lra|]. setoid_replace (f k + qsum (map f l) - (g k + qsum (map g l))) with ((f k - g k) + (qsum (map f l) - qsum (map g l))) by ring.
  eapply Qle_trans; [apply Qabs_triangle|]. lra.
Qed.
(** ** Rows *)
Definition row_near (a x : bar) : Prop :=
  b_ts a = b_ts x /\ b_open a = b_open x /\ b_high a = b_high x /\ b_low a = b_low x /\ b_close a = b_close x /\ b_trades a = b_trades x /\
  Qabs (b_vol a - b_vol x) <= 14 * u24 * b_vol x /\
  match b_vwap a, b_vwap x with Some v, Some w => Qabs (v - w) <= 24 * u24 * w | None, None => True | _, _ => False end.
Section Rows.
  Variable px am : list Q.
  Variable idx lb : nat -> Z.
  Hypothesis Low : (-1 <= idx 0%nat)%Z.
  Hypothesis Mono : forall k, (idx k <= idx (S k))%Z.
  Hypothesis Few : forall k, (idx (S k) - idx k <= 2 ^ 28)%Z.
  Hypothesis Px : forall x, In x px -> 0 <= x.
  Hypothesis Am : forall x, In x am -> 0 <= x.
  Notation X := (B px am idx lb).
  Notation F := (Bf px am idx lb).
  Lemma idx_low' k : (-1 <= idx k)%Z.
  Proof. exact (idx_low idx Low Mono k). Qed.
  Lemma same_prices l : map b_ts (map F l) = map b_ts (map X l) /\ map b_open (map F l) = map b_open (map X l) /\ map b_high (map F l) = map b_high (map X l) /\
    map b_low (map F l) = map b_low (map X l) /\ map b_close (map F l) = map b_close (map X l) /\ map b_trades (map F l) = map b_trades (map X l).
  Proof.
    rewrite !map_map. repeat split; apply map_ext; intro k; unfold Bf, B, stored; cbn [b_ts b_open b_high b_low b_close b_trades]; destruct (bar_f_same px am (idx k) (idx (S k))) as (E1 & E2 & E3 & E4 & E5); congruence.
  Qed.
  Lemma vols_near l : 0 <= qsum (map b_vol (map X l)) /\ Qabs (qsum (map b_vol (map F l)) - qsum (map b_vol (map X l))) <= (2 * w24 + w24 * w24) * qsum (map b_vol (map X l)).
  Proof.
    rewrite !map_map. apply rel_sum; [vm_compute; discriminate|]. intros k _. unfold Bf, B, stored. cbn [b_vol]. pose proof (idx_low' k). pose proof (Mono k).
    rewrite bar_volume by lia. apply vol_near; [lia|apply Few|exact Am].
  Qed.
  Lemma values_near l : 0 <= qsum (map traded (map X l)) /\ Qabs (qsum (map traded (map F l)) - qsum (map traded (map X l))) <= 5 * w24 * qsum (map traded (map X l)).
  Proof.
    rewrite !map_map. apply rel_sum; [vm_compute; discriminate|]. intros k _. unfold Bf, B, stored, traded. cbn [b_vol b_vwap]. pose proof (idx_low' k). pose proof (Mono k).
    rewrite (bar_dollar px am) by (try lia; intros; apply (am_pos am Am)). destruct (value_near px am (idx k) (idx (S k)) ltac:(lia) (Few k) Px Am) as (K1 & _ & K3). split; [exact K1|exact K3].
  Qed.
  Lemma vol_f_pos l b : In b (map F l) -> 0 <= b_vol b /\ forall v, b_vwap b = Some v -> 0 <= v.
  Proof.
    intro Hb. apply in_map_iff in Hb. destruct Hb as (k & <- & _). unfold Bf, stored. cbn [b_vol b_vwap]. pose proof (idx_low' k). pose proof (Mono k). split.
    - destruct (vol_near px am (idx k) (idx (S k)) ltac:(lia) (Few k) Am) as [V0 VN]. apply Qabs_Qle_condition in VN. unfold w24 in VN. lra.
    - intros v E. injection E as <-. apply (value_near px am (idx k) (idx (S k)) ltac:(lia) (Few k) Px Am).
  Qed.
  Lemma agg_near sort sort' K l : (Z.of_nat (length l) <= 86400)%Z -> row_near (agg_f sort K (map F l)) (agg sort' K (map X l)).
  Proof.
    intro HL. unfold row_near, agg_f, agg. cbn [b_ts b_open b_high b_low b_close b_trades b_vol b_vwap]. destruct (same_prices l) as (_ & -> & -> & -> & -> & ->). do 6 (split; [reflexivity|]).
    assert (HN : Qnat (length (map F l)) <= 86400) by (rewrite map_length; change 86400 with (inject_Z 86400); unfold Qnat; rewrite <- Zle_Qle; lia). assert (N0 := Qnat_nonneg (length (map F l))).
    assert (HS : Qnat (length (map F l)) * (u_of 24 * u_of 24) <= 1 # 4096) by (change (u_of 24 * u_of 24) with ((1 # 16777216) * (1 # 16777216)); lra).
    destruct (vol_sum_close (map F l) (fun b Hb => proj1 (vol_f_pos l b Hb)) HS) as [S0 SN]. destruct (vols_near l) as [V0 VN]. destruct (values_near l) as [D0 DN].
    pose proof (vwap_close (map F l) (fun b v Hb => proj2 (vol_f_pos l b Hb) v) (fun b Hb => proj1 (vol_f_pos l b Hb)) HS) as W. change (u_of 24) with w24 in *. change u24 with w24.
    split.
    - set (n := Qnat _) in *. set (S := qsum (map b_vol (map F l))) in *. set (V := qsum (map b_vol (map X l))) in *. set (s := vol_sum_f _) in *. clearbody n S V s. unfold w24 in *.
      apply Qabs_Qle_condition in VN. assert (SB : Qabs (s - S) <= 12 * (1 # 16777216) * S - (1 # 2) * (1 # 16777216) * S). { eapply Qle_trans; [exact SN|]. assert (0 <= ((12 - (1 # 2)) * (1 # 16777216) - (11 * (1 # 16777216) + 30 * n * ((1 # 16777216) * (1 # 16777216)))) * S) by (apply Qmult_le_0_compat; lra). lra. }
      apply Qabs_Qle_condition in SB. apply Qabs_Qle_condition. lra.
    - unfold vwap_of in W |- *. cbv zeta in *. set (n := Qnat _) in *. set (S := qsum (map b_vol (map F l))) in *. set (V := qsum (map b_vol (map X l))) in *. set (T := qsum (map traded (map F l))) in *. set (D := qsum (map traded (map X l))) in *.
      destruct (Qeq_bool V 0) eqn:EV.
      + apply Qeq_bool_iff in EV. assert (ES : S == 0) by (rewrite EV in VN; apply Qabs_Qle_condition in VN; lra). apply Qeq_bool_iff in ES. rewrite ES in W. destruct (vwap_of_f _); [contradiction|exact Logic.I].
      + assert (VP : 0 < V). { destruct (Qlt_le_dec 0 V) as [L|L]; [exact L|]. assert (E0 : V == 0) by lra. apply Qeq_bool_iff in E0. congruence. }
        destruct (rel_quot (5 * w24) (2 * w24 + w24 * w24) T D S V D0 VP ltac:(vm_compute; discriminate) ltac:(split; vm_compute; discriminate) DN VN) as [SP QN].
        destruct (Qeq_bool S 0) eqn:ES; [apply Qeq_bool_iff in ES; lra|]. destruct (vwap_of_f _) as [a|]; [|contradiction]. destruct W as [X0 W].
        assert (Y0 : 0 <= D / V) by (apply Qle_shift_div_l; lra). set (x := T / S) in *. set (y := D / V) in *. clearbody x y n. unfold w24 in *.
        assert (WB : Qabs (a - x) <= (33 # 2) * (1 # 16777216) * x). { eapply Qle_trans; [exact W|]. assert (0 <= ((33 # 2) * (1 # 16777216) - (16 * (1 # 16777216) + 40 * n * ((1 # 16777216) * (1 # 16777216)))) * x) by (apply Qmult_le_0_compat; lra). lra. }
        assert (QB : Qabs (x - y) <= (71 # 10) * (1 # 16777216) * y). { eapply Qle_trans; [exact QN|]. apply Qmult_le_compat_r; [vm_compute; discriminate|exact Y0]. }
        apply Qabs_Qle_condition in WB. apply Qabs_Qle_condition in QB. apply Qabs_Qle_condition. lra.
  Qed.
End Rows.

Lemma group_map (F : nat -> bar) lb tf K l : (forall k, b_ts (F k) = lb k) -> group tf (map F l) K = map F (filter (fun k => floor_to tf (lb k) =? K)%Z l).
Proof. intro H. unfold group. rewrite filter_map'. f_equal. apply filter_ext. intro k. now rewrite H. Qed.

Lemma pipe_float sort sort' px am ts I tf a N bars bars_f : ts <> [] -> ascZ ts -> (0 < I)%Z -> (I | tf)%Z -> (0 < tf <= 86400 * I)%Z -> (Z.of_nat (length ts) < 2 ^ 28)%Z ->
  (forall x, In x px -> 0 <= x) -> (forall x, In x am -> 0 <= x) -> ticks_cover ts (fst (time_bar_indexer ts I)) I a N ->
  stored_bars px am ts I = Ok bars -> stored_bars_f px am ts I = Ok bars_f -> Forall2 row_near (resample_f sort tf bars_f) (resample sort' tf bars).
Proof.
  intros NE Asc IP D TP Few Px Am C SB SF. destruct (pipe_shape_f px am ts I a N bars_f NE Asc IP C SF) as (N2 & idx & (Low & Mono & Pos & Spec) & -> & SX).
  assert (EL : length px = length am). { clear -SB. unfold stored_bars in SB. destruct (comp_bar_ohlcv px am _) as [l|e] eqn:E; [|discriminate]. apply comp_ohlcv_ok in E. apply E. }
  specialize (SX EL). rewrite SX in SB. apply ok_eq in SB. subst bars. clear SX SF.
  set (idx' := fun k => idx (Nat.min k (N - 1))).
  assert (EX : map (B px am idx (lab a I)) (seq 0 (N - 1)) = map (B px am idx' (lab a I)) (seq 0 (N - 1))).
  { apply map_ext_in. intros k Hk. apply in_seq in Hk. unfold B, idx'. replace (Nat.min k (N - 1)) with k by lia. replace (Nat.min (S k) (N - 1)) with (S k) by lia. reflexivity. }
  assert (EF : map (Bf px am idx (lab a I)) (seq 0 (N - 1)) = map (Bf px am idx' (lab a I)) (seq 0 (N - 1))).
  { apply map_ext_in. intros k Hk. apply in_seq in Hk. unfold Bf, idx'. replace (Nat.min k (N - 1)) with k by lia. replace (Nat.min (S k) (N - 1)) with (S k) by lia. reflexivity. }
  rewrite EX, EF. assert (Low' : (-1 <= idx' 0%nat)%Z) by exact Low.
  assert (Mono' : forall k, (idx' k <= idx' (S k))%Z). { intro k. unfold idx'. apply (idx_mono idx Mono). lia. }
  assert (Few' : forall k, (idx' (S k) - idx' k <= 2 ^ 28)%Z). { intro k. unfold idx'. destruct (Spec (Nat.min k (N - 1)) ltac:(lia)) as [B1 _]. destruct (Spec (Nat.min (S k) (N - 1)) ltac:(lia)) as [B2 _]. lia. }
  clearbody idx'. clear EX EF Low Mono Pos Spec C idx EL. set (n := (N - 1)%nat). clearbody n. unfold resample_f, resample.
  assert (KE : map (fun b => floor_to tf (b_ts b)) (map (Bf px am idx' (lab a I)) (seq 0 n)) = map (fun b => floor_to tf (b_ts b)) (map (B px am idx' (lab a I)) (seq 0 n))) by (rewrite !map_map; reflexivity).
  rewrite KE. assert (KS : forall K, In K (uniq (map (fun b => floor_to tf (b_ts b)) (map (B px am idx' (lab a I)) (seq 0 n)))) -> exists k, (k < n)%nat /\ floor_to tf (lab a I k) = K).
  { intros K HK. apply (proj1 (uniq_In _ _)) in HK. rewrite map_map in HK. apply in_map_iff in HK. destruct HK as (k & E & Hk). apply in_seq in Hk. exists k. split; [lia|exact E]. }
  revert KS. generalize (uniq (map (fun b => floor_to tf (b_ts b)) (map (B px am idx' (lab a I)) (seq 0 n)))). intro ks. induction ks as [|K ks IH]; intro KS; [constructor|].
  assert (G : row_near (agg_f sort K (group tf (map (Bf px am idx' (lab a I)) (seq 0 n)) K)) (agg sort' K (group tf (map (B px am idx' (lab a I)) (seq 0 n)) K))).
  { destruct (KS K (or_introl eq_refl)) as (k0 & L0 & E0).
    destruct (group_range (B px am idx' (lab a I)) a I tf K n k0 IP D ltac:(lia)) as (lo & m & _ & _ & _ & L2 & _ & U2); [reflexivity|exact L0|exact E0|].
    rewrite (group_map (Bf px am idx' (lab a I)) (lab a I)) by reflexivity. rewrite (group_map (B px am idx' (lab a I)) (lab a I)) by reflexivity.
    apply agg_near; auto.
    destruct (group_range (B px am idx' (lab a I)) a I tf K n k0 IP D ltac:(lia)) as (lo1 & m1 & _ & EG & _ & L3 & _ & U3); [reflexivity|exact L0|exact E0|].
    rewrite (group_map (B px am idx' (lab a I)) (lab a I)) in EG by reflexivity. apply (f_equal (@length bar)) in EG. rewrite !map_length, seq_length in EG. rewrite EG. unfold lab in L3, U3. nia. }
  cbn [map filter]. assert (HO : has_open (agg_f sort K (group tf (map (Bf px am idx' (lab a I)) (seq 0 n)) K)) = has_open (agg sort' K (group tf (map (B px am idx' (lab a I)) (seq 0 n)) K))).
  { destruct G as (_ & EO & _). unfold has_open. now rewrite EO. }
  rewrite HO. specialize (IH (fun K' HK' => KS K' (or_intror HK'))). destruct (has_open (agg sort' K (group tf (map (B px am idx' (lab a I)) (seq 0 n)) K))); [constructor; [exact G|exact IH]|exact IH].
Qed.
