(** T_retf.v -- properties of returns, burst ratio, Parkinson range and variance ratio in float64 (feature/core/utils.py,
    momentum.py, volatility.py). *)
From Coq Require Import Qround Qpower Qfield.
From Verif Require Import Base M_logic M_bars M_features M_volat M_float M_float2 M_float7 M_float10 S_features S_volat S_float.
From Verif Require Import P_weights P_features P_features2 P_volat P_float P_float2 P_float9 P_float11 P_float12 P_float13 P_sumf P_volatf P_volatf2 P_ewmstf P_sort T_features2 T_volatf P_retf.
Open Scope Q_scope.

(* ------------------------------------------------------------------ *)
(** ** C188: returns, burst ratio, Parkinson range and variance ratio in float64 *)

(** The rounded ratio of two positive prices is above, below or equal to 1 as the prices are. *)
Theorem C188_ratio : forall a b, fl 53 a -> fl 53 b -> 0 < a -> 0 < b ->
  (1 < r53 (a / b) <-> b < a) /\ (r53 (a / b) < 1 <-> a < b) /\ (r53 (a / b) == 1 <-> a == b).
Proof. exact quot_cmp. Qed.
Example C188_ratio_example : (* neighbouring numbers *)
  let b := 2 - 2 * u53 in fl 53 b /\ fl 53 2 /\ r53 (2 / b) == 1 + 2 * u53 /\ r53 (b / 2) == 1 - u53.
Proof.
  cbv zeta. split; [exists (2 ^ 53 - 1)%Z, (-52)%Z; split; [reflexivity|vm_compute; reflexivity]|]. split; [exists 1%Z, 1%Z; split; reflexivity|].
  split; vm_compute; reflexivity.
Qed.

(** Lagged returns: NaN where exact arithmetic says so; a simple return has the sign of the exact one and is off by at most
    one rounding of the price ratio if that is between 1/2 and 2, by two of the ratio plus one otherwise; a log return has the sign of the
    exact one for every logarithm with the right signs. *)
Theorem C188_lagged : forall ln ts close W out is_log i, (forall p, In p close -> fl 53 p /\ 0 < p) ->
  comp_lagged_returns ln ts close W is_log = Ok out -> (i < length close)%nat ->
  exists outf, comp_lagged_returns_f ln ts close W is_log = Ok outf /\ length outf = length close /\
  (nth i outf NaN = NaN <-> nth i out NaN = NaN) /\
  (nth i out NaN <> NaN -> exists x y, nth i out NaN = Fin x /\ nth i outf NaN = Fin y /\
     (is_log = false -> (0 < y <-> 0 < x) /\ (y == 0 <-> x == 0) /\
        Qabs (y - x) <= ((1 + u53) ^ 2 - 1) * (x + 2) /\ (- (1 # 2) <= x <= 1 -> Qabs (y - x) <= u53 * (x + 1))) /\
     (is_log = true -> (forall z, 0 < z -> (0 < ln z <-> 1 < z) /\ (ln z == 0 <-> z == 1)) ->
        (0 < y <-> 0 < x) /\ (y == 0 <-> x == 0))).
Proof.
  intros ln ts close W out is_log i Hc E Hi. destruct (lagged_nth _ _ _ _ _ _ _ E Hi) as (W0 & Lo & ->). clear E.
  unfold comp_lagged_returns_f. destruct (Z.leb_spec W 0); [lia|]. eexists. split; [reflexivity|]. rewrite map_length, seq_length. split; [reflexivity|].
  rewrite nth_map_seq by exact Hi. destruct (_ <? _)%nat; [split; [reflexivity|congruence]|]. cbv zeta. set (lag := (_ - 1)%Z).
  destruct ((0 <=? lag) && (lag <? Z.of_nat i))%Z eqn:G; [|split; [reflexivity|congruence]]. apply Bool.andb_true_iff in G. destruct G as [G1 G2]. apply Z.leb_le in G1. apply Z.ltb_lt in G2.
  set (a := qn close i). set (b := qn close (Z.to_nat lag)).
  destruct (Hc a ltac:(apply nth_In; lia)) as [Fa Pa]. destruct (Hc b ltac:(apply nth_In; lia)) as [Fb Pb]. pose proof (quot_pos a b Pa Pb) as Pq. pose proof (r53_pos _ Pq) as Pr.
  unfold lag_return_f, lag_return. destruct (Qeqb_spec b 0) as [Z0|_]; [lra|]. destruct is_log.
  - unfold flog. destruct (Qltb_spec 0 (a / b)); [|lra]. destruct (Qltb_spec 0 (r53 (a / b))); [|lra]. split; [split; discriminate|]. intros _.
    do 2 eexists. split; [reflexivity|]. split; [reflexivity|]. split; [discriminate|]. intros _ Hl. destruct (Hl _ Pq) as [L1 L2]. destruct (Hl _ Pr) as [L3 L4].
    destruct (quot_cmp a b Fa Fb Pa Pb) as (C1 & _ & C3). rewrite L1, L2, L3, L4, C1, C3.
    assert (Eq : a / b * b == a) by (field; lra). split; split; intro K.
    + apply Qlt_shift_div_l; lra.
    + assert (J := Qmult_lt_compat_r _ _ b Pb K). lra.
    + rewrite K. field. lra.
    + rewrite K in Eq. lra.
  - split; [split; discriminate|]. intros _. do 2 eexists. split; [reflexivity|]. split; [reflexivity|]. split; [|discriminate]. intros _.
    destruct (ret_f_spec a b Fa Fb Pa Pb) as (R1 & R2 & [_ R3] & R4). split; [exact R1|]. split; [exact R2|]. split.
    + setoid_replace (a / b - 1 + 2) with (a / b + 1) by ring. exact R3.
    + intros [X1 X2]. setoid_replace (a / b - 1 + 1) with (a / b) by ring. apply R4; lra.
Qed.
Example C188_lagged_example :
  let ts := [0; 1000000000; 2000000000]%Z in let close := [3; 4; 2] in
  (forall p, In p close -> fl 53 p /\ 0 < p) /\
  comp_lagged_returns (fun x => x) ts close 1000000000 false = Ok [NaN; Fin (4 / 3 - 1); Fin (2 / 4 - 1)] /\
  exists y, comp_lagged_returns_f (fun x => x) ts close 1000000000 false = Ok [NaN; Fin y; Fin (-(1 # 2))] /\ y == 6004799503160660 # 18014398509481984.
Proof.
  cbv zeta. split; [|split; [vm_compute; reflexivity|]].
  - intros p [<-|[<-|[<-|[]]]]; (split; [|reflexivity]).
    + exists 3%Z, 0%Z; split; reflexivity.
    + exists 1%Z, 2%Z; split; reflexivity.
    + exists 1%Z, 1%Z; split; reflexivity.
  - eexists. split; [vm_compute; reflexivity|]. vm_compute. reflexivity.
Qed.
(** No relative error: for neighbouring prices around 1.5 the lagged return is half as large again as the exact one; pct_change of the
    same prices carries two relative roundings (C188_pct). *)
Theorem C188_lagged_relative_refuted : exists a b y, fl 53 a /\ fl 53 b /\ 0 < b /\
  lag_return_f (fun x => x) false a b = Fin y /\ y == (3 # 2) * (a / b - 1) /\ ~ a / b - 1 == 0.
Proof.
  exists ((3 # 2) + 2 * u53), (3 # 2). eexists. split; [exists (3 * 2 ^ 51 + 1)%Z, (-52)%Z; split; [reflexivity|vm_compute; reflexivity]|].
  split; [exists 3%Z, (-1)%Z; split; reflexivity|]. split; [reflexivity|]. split; [vm_compute; reflexivity|]. split; [vm_compute; reflexivity|vm_compute; discriminate].
Qed.

(** Percentage change: two relative roundings. *)
Theorem C188_pct : forall xs k i, (i < length xs)%nat ->
  ((i < k)%nat -> nth i (pct_change_f xs k) None = None) /\
  ((k <= i)%nat -> at_ xs (i - k) <= 0 -> nth i (pct_change_f xs k) None = None) /\
  ((k <= i)%nat -> 0 < at_ xs (i - k) -> exists v x, nth i (pct_change_f xs k) None = Some v /\
     at_ xs i == (1 + x) * at_ xs (i - k) /\ Qabs (v - x) <= ((1 + u53) ^ 2 - 1) * Qabs x).
Proof.
  intros xs k i Hi. unfold pct_change_f. rewrite nth_map_seq by exact Hi. change (qn xs) with (at_ xs). cbv zeta.
  split; [intro H; now rewrite (proj2 (Nat.ltb_lt _ _) H)|]. split; intros H P; rewrite (proj2 (Nat.ltb_ge _ _) H).
  - destruct (Qltb_spec 0 (at_ xs (i - k))); [lra|reflexivity].
  - destruct (Qltb_spec 0 (at_ xs (i - k))); [|lra]. do 2 eexists. split; [reflexivity|]. split; [|exact (proj2 (pct_f_near (at_ xs i) (at_ xs (i - k)) ltac:(lra)))]. field. lra.
Qed.
Example C188_pct_example : exists v, pct_change_f [3; 4; 0; 5] 1 = [None; Some v; Some (-1 # 1); None] /\ v == 6004799503160661 # 18014398509481984.
Proof. eexists. split; [vm_compute; reflexivity|]. vm_compute. reflexivity. Qed.
(** Rate of change: three relative roundings. *)
Theorem C188_roc : forall p k,
  (roc_f p k = Raise ZeroDivisionError <-> exists i, (k <= i < length p)%nat /\ at_ p (i - k) == 0) /\
  (forall out, roc_f p k = Ok out -> length out = length p /\ forall i, (i < length p)%nat ->
     ((i < k)%nat -> nth i out None = None) /\
     ((k <= i)%nat -> exists v x, nth i out None = Some v /\ x * at_ p (i - k) == 100 * (at_ p i - at_ p (i - k)) /\
        Qabs (v - x) <= ((1 + u53) ^ 3 - 1) * Qabs x)).
Proof.
  intros p k.
  assert (X : existsb (fun i => Qeqb (qn p (i - k)) 0) (seq k (length p - k)) = true <->
              exists i, (k <= i < length p)%nat /\ at_ p (i - k) == 0).
  { rewrite existsb_exists. split.
    - intros (i & Hi & E). apply in_seq in Hi. exists i. split; [lia|]. now apply Qeq_bool_iff.
    - intros (i & Hi & E). exists i. split; [apply in_seq; lia|]. now apply Qeq_bool_iff. }
  unfold roc_f. destruct (existsb _ _).
  - split; [|discriminate]. split; auto. intros _. now apply X.
  - split. { split; [discriminate|]. intro C. apply X in C. discriminate. }
    intros out E. injection E as <-. rewrite map_length, seq_length. split; auto. intros i Hi. rewrite nth_map_seq by auto. change (qn p) with (at_ p).
    split; intro H; [now rewrite (proj2 (Nat.ltb_lt _ _) H)|]. rewrite (proj2 (Nat.ltb_ge _ _) H).
    assert (N : ~ at_ p (i - k) == 0). { intro C. apply (Bool.diff_false_true). apply X. exists i. split; [lia|auto]. }
    exists (r53 (r53 (r53 (at_ p i - at_ p (i - k)) / at_ p (i - k)) * 100)), ((at_ p i - at_ p (i - k)) / at_ p (i - k) * 100). split; [reflexivity|].
    split; [field; exact N|]. pose proof (near_rnd _ _ _ _ (near_mult 2 0 _ _ _ 100 100 100 (pct_f_near (at_ p i) (at_ p (i - k)) N) (near_exact 0 100 100 ltac:(discriminate)))) as [_ M].
    rewrite Qabs_Qmult. exact M.
Qed.
Example C188_roc_example : exists v, roc_f [3; 4] 1 = Ok [None; Some v] /\ v == 2345624805922133 # 70368744177664 /\ roc_f [0; 1] 1 = Raise ZeroDivisionError.
Proof. eexists. split; [vm_compute; reflexivity|]. split; vm_compute; reflexivity. Qed.
(** Burst ratio: NaN where exact arithmetic says so, three relative roundings elsewhere. *)
Theorem C188_burst : forall xs n i, (1 <= n)%nat -> (i < length xs)%nat ->
  ((i + 1 < n)%nat -> nth i (comp_burst_ratio_f xs n) None = None) /\
  ((n <= i + 1)%nat -> exists m, is_median m (window (at_ xs) i n) /\
     (0 < m -> exists v x, nth i (comp_burst_ratio_f xs n) None = Some v /\ x * m == at_ xs i /\ Qabs (v - x) <= ((1 + u53) ^ 3 - 1) * Qabs x) /\
     (m <= 0 -> nth i (comp_burst_ratio_f xs n) None = None)).
Proof.
  intros xs n i Hn Hi. unfold comp_burst_ratio_f. rewrite nth_map_seq by auto. split; intro H; [now rewrite (proj2 (Nat.ltb_lt _ _) H)|]. rewrite (proj2 (Nat.ltb_ge _ _) H).
  cbv zeta. rewrite lastn_window by lia. set (l := window (at_ xs) i n). exists (median l). split.
  { intros srt A P. apply median_mid; auto. now apply window_nonnil. }
  pose proof (proj2 (median_f_signed l)) as S0. destruct (Qltb_spec 0 (median_f l)) as [K|K]; split; intro C.
  - exists (r53 (qn xs i / median_f l)), (qn xs i / median l). split; [reflexivity|]. split; [unfold qn, at_; field; lra|]. exact (proj2 (burst_near (qn xs i) l C)).
  - apply S0 in K. lra.
  - apply S0 in C. lra.
  - reflexivity.
Qed.
Example C188_burst_example : exists v, comp_burst_ratio_f [1; 3; 5; 4] 2 = [None; Some (3 # 2); Some (5 # 4); Some v] /\ v == 2001599834386887 # 2251799813685248 /\
  is_median (9 # 2) (window (at_ [1; 3; 5; 4]) 3 2).
Proof.
  eexists. split; [vm_compute; reflexivity|]. split; [vm_compute; reflexivity|]. cbv [window]. intros srt A P.
  assert (E : (9 # 2) == median [5; 4]) by (vm_compute; reflexivity). rewrite E. apply (median_mid [5; 4]); [discriminate|exact A|exact P].
Qed.
(** Parkinson range: two relative roundings of the squared computed logarithm over 4 ln 2, and 0 exactly for bars with high = low. *)
Theorem C188_parkinson : forall ln high low i, length low = length high -> (forall p, In p high \/ In p low -> fl 53 p /\ 0 < p) -> fl 53 (ln 2) ->
  (forall z, 0 < z -> (0 < ln z <-> 1 < z) /\ (ln z == 0 <-> z == 1)) -> (i < length high)%nat ->
  exists out, parkinson_range_f ln high low = Ok out /\ length out = length high /\
  let v := at_ out i in let x := ln (r53 (at_ high i / at_ low i)) in
  within u53 2 v (x * x / (4 * ln 2)) /\ (v == 0 <-> at_ high i == at_ low i).
Proof.
  intros ln high low i Ll Hp F2 Hl Hi.
  assert (P2 : 0 < ln 2) by (apply Hl; reflexivity).
  assert (E4 : r53 (ln 2 * 4) == ln 2 * 4).
  { apply rnd_exact; [lia|]. destruct F2 as (m & e & Hm & E). exists m, (e + 2)%Z. split; [exact Hm|]. rewrite E, Qpower_plus by discriminate. change (2 ^ 2) with 4. ring. }
  assert (Pl : forall k, (k < length high)%nat -> 0 < qn low k) by (intros k Hk; apply Hp; right; apply nth_In; lia).
  assert (Ec : parkinson_range_f ln high low = Ok (map (fun k => let x := ln (r53 (qn high k / qn low k)) in r53 (r53 (x * x) / r53 (ln 2 * 4))) (seq 0 (length high)))).
  { unfold parkinson_range_f. assert (Ps : forall k, In k (seq 0 (length high)) -> 0 < qn low k) by (intros k Hk; apply in_seq in Hk; apply Pl; lia). revert Ps. generalize (seq 0 (length high)) as l.
    induction l as [|k l IH]; intro Ps; [reflexivity|]. cbn [map collect]. destruct (Qeqb_spec (qn low k) 0) as [Z0|_]; [specialize (Ps k (or_introl eq_refl)); lra|]. rewrite IH by (intros j Hj; apply Ps; now right). reflexivity. }
  eexists. split; [exact Ec|]. rewrite map_length, seq_length. split; [reflexivity|]. cbv zeta. match goal with |- context [at_ (map ?f ?l) i] => assert (Ev : at_ (map f l) i = f i) by (unfold at_; now rewrite nth_map_seq by exact Hi) end. rewrite Ev. clear Ev. cbv beta zeta.
  change (qn high i) with (at_ high i). change (qn low i) with (at_ low i).
  destruct (Hp (at_ high i) ltac:(left; apply nth_In; lia)) as [Fa Pa]. destruct (Hp (at_ low i) ltac:(right; apply nth_In; lia)) as [Fb Pb].
  set (a := at_ high i) in *. set (b := at_ low i) in *. pose proof (r53_pos _ (quot_pos a b Pa Pb)) as Pr. destruct (Hl _ Pr) as [_ L2]. destruct (quot_cmp a b Fa Fb Pa Pb) as (_ & _ & C3). rewrite C3 in L2. set (x := ln (r53 (a / b))) in *.
  destruct (sq_within x) as [S1 S2].
  assert (D : 0 < r53 (ln 2 * 4)) by (rewrite E4; lra).
  assert (W : within u53 2 (r53 (r53 (x * x) / r53 (ln 2 * 4))) (x * x / (4 * ln 2))).
  { pose proof (within_quot 1 _ _ _ S1 D S2) as Q0. eapply within_comp; [reflexivity| |exact Q0]. rewrite E4. field. lra. }
  split; [exact W|]. rewrite <- L2. split; intro K.
  - destruct (Qeq_dec x 0) as [E0|N0]; [exact E0|exfalso]. assert (0 < x * x) by (destruct (Qlt_le_dec x 0); nra). assert (0 < x * x / (4 * ln 2)) by (apply Qlt_shift_div_l; lra). pose proof (within_pos _ _ _ H0 W). lra.
  - apply r53_zero. assert (Z0 : r53 (x * x) == 0) by (apply r53_zero; rewrite K; ring). rewrite Z0. unfold Qdiv. ring.
Qed.
Example C188_parkinson_example : let ln := fun z => z - 1 in
  parkinson_range_f ln [3; 2] [2; 2] = Ok [1 # 16; 0] /\ fl 53 (ln 2) /\ forall z, 0 < z -> (0 < ln z <-> 1 < z) /\ (ln z == 0 <-> z == 1).
Proof.
  cbv zeta. split; [vm_compute; reflexivity|]. split; [exists 1%Z, 0%Z; split; reflexivity|]. intros z _. split; split; intro; lra.
Qed.

(** Variance ratio: the computed one-bar and four-bar returns against the exact ones, and the ratio of the rolling variances of these
    returns up to three roundings; NaN if a variance is missing or the second one is not positive. *)
Lemma known_map (f : nat -> option Q) n i : (i < n)%nat -> known (map f (seq 0 n)) i = f i.
Proof. intro H. unfold known. now rewrite nth_map_seq. Qed.
Theorem C188_variance_ratio : forall ln price n ddof is_log i, (1 <= n)%nat -> (0 <= ddof)%Z -> (n + 4 <= length price)%nat -> (i < length price)%nat ->
  exists r1 r4 : list (option Q), length r1 = length price /\ length r4 = length price /\
  (forall j, (j < length price)%nat ->
     (is_log = false -> forall a b, (1 <= j)%nat -> nth j price None = Some a -> nth (j - 1) price None = Some b -> fl 53 a -> fl 53 b -> 0 < a -> 0 < b ->
        exists y, nth j r1 None = Some y /\ (0 < y <-> b < a) /\ (y == 0 <-> a == b) /\ (b <= 2 * a -> a <= 2 * b -> Qabs (y - (a / b - 1)) <= u53 * (a / b))) /\
     (is_log = true -> forall a b, (1 <= j)%nat -> nth j price None = Some a -> nth (j - 1) price None = Some b -> 0 < a -> 0 < b -> nth j r1 None = Some (ln (r53 (a / b)))) /\
     ((j = 0)%nat \/ nth j price None = None \/ nth (j - 1) price None = None -> nth j r1 None = None) /\
     (forall w x y z, (4 <= j)%nat -> nth j r1 None = Some w -> nth (j - 1) r1 None = Some x -> nth (j - 2) r1 None = Some y -> nth (j - 3) r1 None = Some z ->
        exists s, nth j r4 None = Some s /\ Qabs (s - (w + x + y + z)) <= ((1 + u53) ^ 3 - 1) * (Qabs w + Qabs x + Qabs y + Qabs z)) /\
     ((j < 4)%nat \/ (exists k, (k <= 3)%nat /\ nth (j - k) r1 None = None) -> nth j r4 None = None)) /\
  let v1 := nth i (rolling_variance_f r1 n ddof 1) None in
  let v4 := nth i (rolling_variance_f r4 n ddof 1) None in
  (forall a b, v1 = Some a -> v4 = Some b -> 0 < b -> exists v, nth i (variance_ratio_f ln price n ddof is_log) None = Some v /\ within u53 3 v (4 * a / b)) /\
  (v1 = None \/ v4 = None \/ v4 = Some 0 -> nth i (variance_ratio_f ln price n ddof is_log) None = None).
Proof.
  intros ln price n ddof is_log i Hn Hd Hl Hi. set (N := length price) in *.
  set (r1 := map (vr_ret1_f ln price is_log) (seq 0 N)). set (r4 := map (vr_ret4_f r1) (seq 0 N)).
  assert (L1 : length r1 = N) by (unfold r1; now rewrite map_length, seq_length). assert (L4 : length r4 = N) by (unfold r4; now rewrite map_length, seq_length).
  exists r1, r4. split; [exact L1|]. split; [exact L4|]. split.
  - intros j Hj. assert (E1 : nth j r1 None = vr_ret1_f ln price is_log j) by (apply known_map; exact Hj). assert (E4 : nth j r4 None = vr_ret4_f r1 j) by (apply known_map; exact Hj).
    split; [|split; [|split; [|split]]].
    + intros El a b J Ea Eb Fa Fb Pa Pb. rewrite E1. destruct j as [|j]; [lia|]. cbn [Nat.sub] in Eb. rewrite Nat.sub_0_r in Eb. unfold vr_ret1_f, known. rewrite Ea, Eb. destruct (Qleb_spec b 0); [lra|]. rewrite El.
      eexists. split; [reflexivity|]. destruct (ret_f_spec a b Fa Fb Pa Pb) as (R1 & R2 & _ & R4). assert (Eq : a / b * b == a) by (field; lra).
      split; [|split].
      * rewrite R1. split; intro K; [assert (J2 : 1 < a / b) by lra; apply (Qmult_lt_compat_r _ _ b Pb) in J2; lra|]. assert (1 < a / b) by (apply Qlt_shift_div_l; lra). lra.
      * rewrite R2. split; intro K; [assert (J2 : a / b == 1) by lra; rewrite J2 in Eq; lra|]. rewrite K. field. lra.
      * intros K1 K2. apply R4; [apply Qle_shift_div_l; lra|apply Qle_shift_div_r; lra].
    + intros El a b J Ea Eb Pa Pb. rewrite E1. destruct j as [|j]; [lia|]. cbn [Nat.sub] in Eb. rewrite Nat.sub_0_r in Eb. unfold vr_ret1_f, known. rewrite Ea, Eb. destruct (Qleb_spec b 0); [lra|]. rewrite El. destruct (Qleb_spec a 0); [lra|reflexivity].
    + intro K. rewrite E1. destruct j as [|j]; [reflexivity|]. unfold vr_ret1_f, known. cbn [Nat.sub] in K. rewrite Nat.sub_0_r in K. destruct K as [K|[K|K]]; [lia|now rewrite K|rewrite K; now destruct (nth (S j) price None)].
    + intros w x y z J Ew Ex Ey Ez. rewrite E4. unfold vr_ret4_f, known. rewrite (proj2 (Nat.ltb_ge _ _) J), Ew, Ex, Ey, Ez. eexists. split; [reflexivity|].
      assert (NE := near_rnd 2 _ _ _ (near_plus 2 _ _ _ _ _ _ (near_rnd 1 _ _ _ (near_plus 1 _ _ _ _ _ _ (near_rnd 0 _ _ _ (near_plus 0 _ _ _ _ _ _ (near_self w) (near_self x))) (near_le 0 1 _ _ _ _ ltac:(lia) (Qle_refl _) (near_self y)))) (near_le 0 2 _ _ _ _ ltac:(lia) (Qle_refl _) (near_self z)))).
      exact (proj2 NE).
    + intros K. rewrite E4. unfold vr_ret4_f, known. destruct (Nat.ltb_spec j 4) as [J|J]; [reflexivity|]. destruct K as [K|(k & Hk & K)]; [lia|].
      destruct k as [|[|[|[|k]]]]; [rewrite Nat.sub_0_r in K| | | |lia]; rewrite K; repeat (match goal with |- context [match ?o with Some _ => _ | None => _ end] => destruct o end); reflexivity.
  - cbv zeta. assert (Eo : nth i (variance_ratio_f ln price n ddof is_log) None = match nth i (rolling_variance_f r1 n ddof 1) None, nth i (rolling_variance_f r4 n ddof 1) None with
                    | Some a, Some b => if Qltb 0 b then Some (r53 (a / r53 (b / 4))) else None | _, _ => None end).
    { unfold variance_ratio_f. fold N. destruct (Nat.ltb_spec N (n + 4)); [lia|]. cbv zeta. rewrite nth_map_seq by exact Hi. reflexivity. }
    split.
    + intros a b Ea Eb Pb. rewrite Eo, Ea, Eb. destruct (Qltb_spec 0 b); [|lra]. eexists. split; [reflexivity|].
      destruct (C185_rolling_variance r1 n ddof 1 i Hn Hd ltac:(lia)) as [_ V]. destruct (V a Ea) as [Pa _].
      assert (P4 : 0 < b / 4) by (apply Qlt_shift_div_l; lra).
      pose proof (within_div_r 0 1 a a (r53 (b / 4)) (b / 4) Pa P4 ltac:(now apply within_self, Pa) ltac:(apply within_r53; [lra|now apply within_self, Qlt_le_weak])) as W.
      eapply within_comp; [reflexivity| |exact W]. field. lra.
    + intro K. rewrite Eo. destruct K as [-> | [-> | ->]]; [reflexivity|now destruct (nth i (rolling_variance_f r1 n ddof 1) None)|]. now destruct (nth i (rolling_variance_f r1 n ddof 1) None).
Qed.
(** Prices growing by 1 percent per bar have no variance, so that the ratio is NaN; the code returns 1/4. *)
Definition c188_trend : list (option Q) := map (fun z => Some (inject_Z z)) [1000000000000; 1010000000000; 1020100000000; 1030301000000; 1040604010000; 1051010050100; 1061520150601]%Z.
Theorem C188_trend_refuted : forall ln,
  (forall p, In (Some p) c188_trend -> fl 53 p) /\
  (forall j a b, nth (S j) c188_trend None = Some a -> nth j c188_trend None = Some b -> a == (101 # 100) * b) /\
  variance_ratio ln c188_trend 3 1 false = repeat None 7 /\
  variance_ratio_f ln c188_trend 3 1 false = repeat None 6 ++ [Some (1 # 4)].
Proof.
  intro ln. split; [|split; [|split; vm_compute; reflexivity]].
  - intros p Hp. cbn in Hp. repeat (destruct Hp as [Hp|Hp]; [injection Hp as <-; apply fl_int; lia|]). destruct Hp.
  - intros j a b Ha Hb. do 6 (destruct j as [|j]; [cbn in Ha, Hb; injection Ha as <-; injection Hb as <-; vm_compute; reflexivity|]). cbn in Ha. destruct j; discriminate.
Qed.
Example C188_variance_ratio_example :
  map (option_map (fun v => Qfloor (v * 1000))) (variance_ratio_f (fun x => x) (map Some [10; 11; 10; 12; 11; 13; 12]) 3 1 false) = [None; None; None; None; None; Some 30058%Z; Some 34177%Z] /\ (3 + 4 <= 7)%nat.
Proof. split; [vm_compute; reflexivity|lia]. Qed.

Print Assumptions C188_ratio.
Print Assumptions C188_lagged.
Print Assumptions C188_lagged_relative_refuted.
Print Assumptions C188_pct.
Print Assumptions C188_roc.
Print Assumptions C188_burst.
Print Assumptions C188_parkinson.
Print Assumptions C188_variance_ratio.
Print Assumptions C188_trend_refuted.
