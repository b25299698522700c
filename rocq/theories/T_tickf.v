(** T_tickf.v -- the tick size estimate in float64 (C177). *)
From Coq Require Import Qround Qpower.
From Verif Require Import Base M_weights M_footprint M_trades M_float M_tickf S_float S_tickf P_float P_float5 P_trades2 P_tickf.
Open Scope Q_scope.

(* ================================================================== *)
(** * C177  The tick size estimate in float64 *)

(** An exact floor of the decimal logarithm, used to instantiate the theorems. *)
Definition log10_floor (d : Q) : Z :=
  let e := (Z.log2 (Zpos (Qden d)) + 1)%Z in
  let z := Qfloor (d * inject_Z (10 ^ e)) in
  (ilog10 (Z.to_nat (Z.log2 z)) z - e)%Z.
Lemma log10_floor_like : floor_log10_like log10_floor.
Proof.
  intros d Hd. unfold log10_floor. set (e := (Z.log2 (Zpos (Qden d)) + 1)%Z).
  pose proof (Z.log2_nonneg (Zpos (Qden d))) as L0. assert (E0 : (0 <= e)%Z) by (unfold e; lia).
  set (z := Qfloor (d * inject_Z (10 ^ e))).
  assert (Hz : (1 <= z)%Z).
  { unfold z. rewrite <- (Qfloor_Z 1). apply Qfloor_resp_le. destruct d as [n m]. cbn [Qden] in e. unfold Qlt in Hd. cbn in Hd. unfold Qle, Qmult, inject_Z. cbn [Qnum Qden].
    rewrite Pos.mul_1_r. assert (Zpos m <= 10 ^ e)%Z; [|nia].
    apply Z.le_trans with (2 ^ e)%Z; [|apply Z.pow_le_mono_l; lia]. pose proof (Z.log2_spec (Zpos m) ltac:(lia)). unfold e. lia. }
  assert (B : (1 <= z < 10 ^ (Z.of_nat (Z.to_nat (Z.log2 z)) + 1))%Z).
  { split; [lia|]. pose proof (Z.log2_nonneg z). rewrite Z2Nat.id by auto. pose proof (Z.log2_spec z ltac:(lia)) as [_ L].
    apply Z.lt_le_trans with (1 := L). apply Z.pow_le_mono_l. lia. }
  destruct (ilog10_spec _ _ B) as [R0 [R1 R2]]. set (r := ilog10 _ z) in *. clearbody r.
  pose proof (Qfloor_le (d * inject_Z (10 ^ e))) as F1. pose proof (Qlt_floor (d * inject_Z (10 ^ e))) as F2. fold z in F1, F2. clearbody z.
  assert (PE : p10 e == inject_Z (10 ^ e)) by (apply p10_Z; lia). rewrite <- PE in F1, F2. pose proof (p10_pos e) as EP.
  assert (G1 : p10 (r - e) * p10 e <= d * p10 e).
  { rewrite <- p10_plus. replace (r - e + e)%Z with r by lia. rewrite p10_Z by lia. apply Qle_trans with (inject_Z z); [|exact F1]. rewrite <- Zle_Qle. lia. }
  assert (G2 : d * p10 e < p10 (r - e + 1) * p10 e).
  { rewrite <- p10_plus. replace (r - e + 1 + e)%Z with (r + 1)%Z by lia. rewrite (p10_Z (r + 1)) by lia. apply Qlt_le_trans with (inject_Z (z + 1)); [exact F2|]. rewrite <- Zle_Qle. lia. }
  fold (p10 (r - e)). fold (p10 (r - e + 1)). pose proof (p10_pos (r - e)) as P1. pose proof (p10_pos (r - e + 1)) as P2.
  assert (p10 (r - e) <= d) by (apply Qmult_le_r with (p10 e); auto). assert (d < p10 (r - e + 1)) by (apply Qmult_lt_r with (p10 e); auto). split; lra.
Qed.

(** Prices that are the float64 numbers nearest to multiples of 10^-k, two of them fewer than ten such steps apart: the estimate is the float64 number
    nearest to the exact greatest common divisor of all sampled differences. *)
Theorem C177_estimate : forall (flog10 : Q -> Z) (k : Z) (prices : list Q) (l : list Z),
  floor_log10_like flog10 -> (0 <= k <= 12)%Z ->
  Forall2 (fun p a => p == grid_price k a) (firstn (Z.to_nat 10000) prices) l ->
  (forall a, In a l -> (Z.abs a <= 2 ^ 45)%Z) ->
  (exists a b, In a l /\ In b l /\ (0 < a - b < 10)%Z) ->
  exists g, (0 < g)%Z /\ gcd_of_differences l g /\ comp_price_tick_size_f flog10 prices = Ok (grid_price k g).
Proof. intros f k prices l Hf Hk H1 H2 H3. exact (tick_f k Hk f prices l Hf H1 H2 H3). Qed.
Definition ex_ticks : list Z := [4312345; 4312350; 4312345; 4312335; 4312365]%Z.
Example C177_estimate_example :
  (exists g, (0 < g)%Z /\ gcd_of_differences ex_ticks g /\ comp_price_tick_size_f log10_floor (map (grid_price 2) ex_ticks) = Ok (grid_price 2 g)) /\
  comp_price_tick_size_f log10_floor (map (grid_price 2) ex_ticks) = Ok (r53 (5 # 100)) /\ ~ r53 (5 # 100) == 5 # 100.
Proof.
  split; [|split; [vm_compute; reflexivity|vm_compute; discriminate]].
  apply (C177_estimate log10_floor 2 _ ex_ticks log10_floor_like ltac:(lia)).
  - repeat constructor.
  - intros a Ha. cbn in Ha. repeat (destruct Ha as [<-|Ha]; [vm_compute; discriminate|]). destruct Ha.
  - exists 4312350%Z, 4312345%Z. repeat split; try lia; cbn; auto.
Qed.

(** With that estimate the price level of every price on the grid of the tick is the exact number of ticks. *)
Theorem C177_level : forall (k g a : Z), (0 <= k)%Z -> (0 < g)%Z -> (g | a)%Z -> (Z.abs a <= 2 ^ 45)%Z ->
  level_f (grid_price k g) (grid_price k a) = (a / g)%Z.
Proof.
  intros k g a Hk Hg [n ->] Ha. rewrite Z.div_mul by lia. unfold grid_price. set (K := inject_Z (10 ^ k)).
  assert (KP : 1 <= K) by (unfold K; rewrite <- p10_Z by lia; now apply p10_ge1).
  assert (GP : 1 <= inject_Z g) by (change 1 with (inject_Z 1); rewrite <- Zle_Qle; lia).
  assert (IK : 0 < / K) by (apply Qinv_lt_0_compat; lra).
  pose proof (r53_err' (inject_Z g / K) (inject_Z g * / K) ltac:(unfold Qdiv; rewrite Qabs_pos by nra; lra)) as E1.
  assert (NA : Qabs (inject_Z (n * g)) <= 35184372088832) by (apply small_abs; exact Ha).
  assert (A2 : Qabs (inject_Z (n * g) / K) <= 35184372088832 * / K) by (unfold Qdiv; rewrite Qabs_scale by exact IK; apply Qmult_le_compat_r; lra).
  pose proof (r53_err' _ _ A2) as E2.
  assert (Hn : (Z.abs n <= 2 ^ 45)%Z) by (rewrite Z.abs_mul in Ha; nia).
  set (t := r53 (inject_Z g / K)) in *. set (p := r53 (inject_Z (n * g) / K)) in *. clearbody t p. set (i := / K) in *.
  assert (Eg : inject_Z g / K == inject_Z g * i) by reflexivity. assert (Ea : inject_Z (n * g) / K == inject_Z n * inject_Z g * i) by (rewrite inject_Z_mult; reflexivity).
  rewrite Eg in E1. rewrite Ea in E2. rewrite inject_Z_mult in NA.
  set (G := inject_Z g) in *. set (N := inject_Z n) in *. clearbody i. clear Eg Ea A2 KP K Ha.
  assert (GI : i <= G * i) by nra.
  assert (T0 : G * i * (9999 # 10000) <= t) by (apply Qabs_to in E1; lra).
  assert (D1 : Qabs (N * (t - G * i)) <= 35184372088832 * i * (1 # 9007199254740992)).
  { rewrite Qabs_Qmult. rewrite Qabs_Qmult, (Qabs_pos G) in NA by lra.
    apply Qle_trans with (Qabs N * (G * i * (1 # 9007199254740992))).
    - rewrite !(Qmult_comm (Qabs N)). apply Qmult_le_compat_r; [exact E1|apply Qabs_nonneg].
    - setoid_replace (Qabs N * (G * i * (1 # 9007199254740992))) with (Qabs N * G * (i * (1 # 9007199254740992))) by ring.
      setoid_replace (35184372088832 * i * (1 # 9007199254740992)) with (35184372088832 * (i * (1 # 9007199254740992))) by ring. apply Qmult_le_compat_r; [exact NA|lra]. }
  apply level_f_near.
  - lra.
  - apply Z.le_trans with (1 := Hn). vm_compute. discriminate.
  - fold N. setoid_replace (p - N * t) with ((p - N * G * i) - N * (t - G * i)) by ring.
    apply Qabs_to. apply Qabs_to in E2, D1. lra.
Qed.
Example C177_level_example : level_f (grid_price 2 5) (grid_price 2 4312345) = 862469%Z /\ ~ grid_price 2 4312345 == 862469 * grid_price 2 5.
Proof. split; [exact (C177_level 2 5 4312345 ltac:(lia) ltac:(lia) ltac:(exists 862469%Z; reflexivity) ltac:(vm_compute; discriminate))|vm_compute; discriminate]. Qed.

(** An empty array raises; prices that are all the same give 0. *)
Theorem C177_edges : forall (flog10 : Q -> Z) (prices : list Q),
  (comp_price_tick_size_f flog10 prices = Raise ValueError <-> prices = []) /\
  (forall p, prices <> [] -> (forall q, In q prices -> q == p) -> comp_price_tick_size_f flog10 prices = Ok 0).
Proof.
  intros f prices. split.
  - destruct prices as [|x t]; [tauto|]. split; [|discriminate]. unfold comp_price_tick_size_f. cbv zeta. destruct (_ <=? 1)%nat; discriminate.
  - intros p Hne H. unfold comp_price_tick_size_f. destruct prices as [|x t]; [congruence|]. set (n := Nat.min _ _).
    assert (S : forall l, (forall q, In q l -> q == p) -> (length (qunique (map round12_f l)) <= 1)%nat /\ forall y, In y (qunique (map round12_f l)) -> y = round12_f p).
    { induction l as [|q l IH]; intro Hl; [split; [cbn; lia|intros y []]|]. destruct IH as [I1 I2]; [intros; apply Hl; now right|].
      cbn [map]. unfold qunique in *. cbn [fold_right]. rewrite (round12_comp q p) by (apply Hl; now left).
      destruct (fold_right qinsert [] (map round12_f l)) as [|y [|z u]]; [split; [cbn; lia|intros y [<-|[]]; reflexivity]| |cbn in I1; lia].
      assert (y = round12_f p) by (apply I2; now left). subst y. cbn [qinsert]. destruct (Qltb_spec (round12_f p) (round12_f p)); [lra|].
      destruct (Qeqb_spec (round12_f p) (round12_f p)) as [|NE]; [|exfalso; apply NE; reflexivity]. split; [cbn; lia|exact I2]. }
    destruct (S (firstn n (x :: t))) as [S1 _].
    + intros q Hq. apply H. rewrite <- (firstn_skipn n (x :: t)). apply in_or_app. now left.
    + destruct (Nat.leb_spec (length (qunique (map round12_f (firstn n (x :: t))))) 1); [reflexivity|lia].
Qed.
Example C177_edges_example : comp_price_tick_size_f log10_floor [] = Raise ValueError /\ comp_price_tick_size_f log10_floor [1 # 3; 1 # 3; 2 # 6] = Ok 0.
Proof.
  split; [now apply (C177_edges log10_floor [])|]. apply (proj2 (C177_edges log10_floor [1 # 3; 1 # 3; 2 # 6]) (1 # 3)); [discriminate|].
  intros q Hq. cbn in Hq. repeat (destruct Hq as [<-|Hq]; [reflexivity|]). destruct Hq.
Qed.

(** False: two different prices always give a positive estimate (1.5 and 2.5 give 0). *)
Theorem C177_positive_refuted : exists prices, (exists p q, In p prices /\ In q prices /\ ~ p == q) /\ comp_price_tick_size_f log10_floor prices = Ok 0.
Proof. exists [3 # 2; 5 # 2]. split; [exists (3 # 2), (5 # 2); repeat split; cbn; auto; discriminate|vm_compute; reflexivity]. Qed.
(** False: the estimate divides the differences when no two prices are fewer than ten steps apart (0, 0.25 and 0.4 give 0.2 for steps of 0.05;
    the ticks are counted after rounding half to even). *)
Theorem C177_close_pair_refuted : exists l t, comp_price_tick_size_f log10_floor (map (grid_price 2) l) = Ok t /\
  ~ exists g, gcd_of_differences l g /\ t == grid_price 2 g.
Proof.
  exists [0; 25; 40]%Z. eexists. split; [vm_compute; reflexivity|]. intros (g & [G1 G2] & E).
  assert (D1 : (g | 25 - 0)%Z) by (apply G1; cbn; auto). assert (D2 : (g | 40 - 25)%Z) by (apply G1; cbn; auto).
  assert (D5 : (g | 5)%Z) by (replace 5%Z with (2 * (25 - 0) - 3 * (40 - 25))%Z by lia; apply Z.divide_sub_r; now apply Z.divide_mul_r).
  assert (Z5 : (g <= 5)%Z) by (apply Z.divide_pos_le; [lia|exact D5]).
  assert (Q : grid_price 2 g <= grid_price 2 5). { unfold grid_price. apply r53_mono. unfold Qdiv. apply Qmult_le_compat_r; [rewrite <- Zle_Qle; lia|vm_compute; discriminate]. }
  rewrite <- E in Q. clear -Q. vm_compute in Q. apply Q. reflexivity.
Qed.
(** False: whole prices far apart have a whole tick size (100000 and 200000 give a number below 100000, and 100000 divided by it is not an integer). *)
Theorem C177_large_steps_refuted : exists t, comp_price_tick_size_f log10_floor [inject_Z 100000; inject_Z 200000] = Ok t /\ t < inject_Z 100000 /\ (99999 # 1) < t.
Proof. eexists. split; [vm_compute; reflexivity|]. split; vm_compute; reflexivity. Qed.

Print Assumptions C177_estimate.
Print Assumptions C177_level.
Print Assumptions C177_edges.
Print Assumptions C177_positive_refuted.
Print Assumptions C177_close_pair_refuted.
Print Assumptions C177_large_steps_refuted.
