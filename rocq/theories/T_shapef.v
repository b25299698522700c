(** T_shapef.v -- C196: candle shapes, gaps, bar rates, bi-power variation and bar durations in float64. *)
From Coq Require Import Qround Qpower Qfield Lqa.
From Verif Require Import Base M_features S_features P_weights P_features M_transforms S_transforms M_backend S_backend M_float M_float2 M_float15 S_float S_sumf.
From Verif Require Import P_float P_float9 P_float10 P_float11 P_float12 P_float13 P_sumf P_weightsf P_volatf P_volatf2 P_retf P_cstestf P_shapef.
From Verif Require Import T_transforms T_transforms2 T_transforms3 T_backend.
Open Scope Q_scope.

(** The wicks and the body of a candle are shares between 0 and 1, right up to six roundings, and together at most 1 up to as many. *)
Theorem C196_shares : forall o h l c v, l <= o <= h -> l <= c <= h ->
  exists up dn body x, candle_shape_f o h l c v = (Fin up, Fin dn, Fin body, x) /\
    (0 <= up <= 1 /\ 0 <= dn <= 1 /\ 0 <= body <= 1) /\
    (let range := h - l + (1 # 1000000000000) in
     within u53 6 up ((h - Qmax o c) / range) /\ within u53 6 dn ((Qmin o c - l) / range) /\ within u53 6 body (Qabs (c - o) / range)) /\
    up + dn + body <= Qpower (1 + u53) 6.
Proof.
  intros o h l c v Ho Hc. assert (H : l <= h) by lra. pose proof (range_pos h l H) as P. unfold candle_shape_f. cbv zeta. rewrite !(ediv_pos _ _ P).
  do 4 eexists. split; [reflexivity|].
  assert (MX : pmax o c == Qmax o c). { destruct (pmax_case o c) as [E|E]; pose proof (pmax_l o c); pose proof (pmax_r o c); rewrite E in *; destruct (Q.max_spec o c) as [[? ->]|[? ->]]; lra. }
  assert (MN : pmin o c == Qmin o c). { destruct (pmin_case o c) as [E|E]; pose proof (pmin_l o c); pose proof (pmin_r o c); rewrite E in *; destruct (Q.min_spec o c) as [[? ->]|[? ->]]; lra. }
  assert (AB : r53 (Qabs (r53 (c - o)) / candle_range_f h l) == r53 (r53 (Qabs (c - o)) / candle_range_f h l)).
  { apply Qeq_refl_of, r53_eq. rewrite r53_abs. reflexivity. }
  assert (UP := Q.le_max_l o c). assert (UP2 := Q.le_max_r o c). assert (LO := Q.le_min_l o c). assert (LO2 := Q.le_min_r o c).
  assert (SP : Qmax o c - Qmin o c == Qabs (c - o)).
  { destruct (Q.max_spec o c) as [[K M1]|[K M1]], (Q.min_spec o c) as [[K' M2]|[K' M2]]; rewrite M1, M2; try lra; [rewrite Qabs_pos by lra; ring|rewrite Qabs_neg by lra; ring]. }
  assert (B1 : Qmax o c <= h) by (apply Q.max_lub; lra). assert (B2 : l <= Qmin o c) by (apply Q.min_glb; lra). pose proof (Qabs_nonneg (c - o)) as A0.
  set (mx := Qmax o c) in *. set (mn := Qmin o c) in *. set (ab := Qabs (c - o)) in *. set (px := pmax o c) in *. set (pn := pmin o c) in *. clearbody mx mn ab px pn.
  destruct (share_ok h l (h - px) H ltac:(lra) ltac:(lra)) as [U1 U2]. destruct (share_ok h l (pn - l) H ltac:(lra) ltac:(lra)) as [D1 D2].
  destruct (share_ok h l ab H ltac:(lra) ltac:(lra)) as [Y1 Y2]. rewrite <- AB in Y1. apply (within_comp u53 6 _ _ _ _ (Qeq_sym _ _ AB) (Qeq_refl _)) in Y2.
  apply (within_comp u53 6 _ _ _ ((h - mx) / (h - l + (1 # 1000000000000))) (Qeq_refl _)) in U2; [|now rewrite MX].
  apply (within_comp u53 6 _ _ _ ((mn - l) / (h - l + (1 # 1000000000000))) (Qeq_refl _)) in D2; [|now rewrite MN].
  split; [repeat split; tauto|]. cbv zeta. split; [split; [exact U2|split; [exact D2|exact Y2]]|].
  set (up := r53 (r53 (h - px) / candle_range_f h l)) in *. set (dn := r53 (r53 (pn - l) / candle_range_f h l)) in *. set (bd := r53 (Qabs (r53 (c - o)) / candle_range_f h l)) in *. clearbody up dn bd.
  destruct U2 as [_ U2], D2 as [_ D2], Y2 as [_ Y2]. change (Z.of_nat 6) with 6%Z in *. pose proof (pow_nonneg (1 + u53) 6 ltac:(pose proof u53_bounds; lra)) as Q0. change (Z.of_nat 6) with 6%Z in Q0.
  set (q := (1 + u53) ^ 6) in *. clearbody q. set (rg := h - l + (1 # 1000000000000)) in *. assert (RP : 0 < rg) by (unfold rg; lra).
  assert (T : (h - mx) / rg + (mn - l) / rg + ab / rg <= 1).
  { setoid_replace ((h - mx) / rg + (mn - l) / rg + ab / rg) with ((h - mx + (mn - l) + ab) / rg) by (field; lra). apply Qle_shift_div_r; [exact RP|]. unfold rg. lra. }
  set (a1 := (h - mx) / rg) in *. set (a2 := (mn - l) / rg) in *. set (a3 := ab / rg) in *. clearbody a1 a2 a3. nra.
Qed.
(** A candle without range has no wicks and no body. *)
Theorem C196_flat : forall p v, exists up dn body x, candle_shape_f p p p p v = (Fin up, Fin dn, Fin body, x) /\ up == 0 /\ dn == 0 /\ body == 0.
Proof.
  intros p v. destruct (C196_shares p p p p v ltac:(lra) ltac:(lra)) as (up & dn & body & x & E & _ & (W1 & W2 & W3) & _). exists up, dn, body, x. split; [exact E|].
  assert (Z0 : forall a y, within u53 6 a y -> y == 0 -> a == 0) by (intros a y [L1 L2] Y; rewrite Y in L1, L2; lra).
  split; [|split]; (eapply Z0; [eassumption|]).
  - destruct (Q.max_spec p p) as [[? ->]|[? ->]]; unfold Qdiv; ring.
  - destruct (Q.min_spec p p) as [[? ->]|[? ->]]; unfold Qdiv; ring.
  - assert (E0 : p - p == 0) by ring. rewrite E0. change (Qabs 0) with 0. unfold Qdiv. ring.
Qed.
(** The 1e-12 is lost in a range of 2^14 or more: a candle that is all body then has a body of exactly 1 ... *)
Theorem C196_full_body : forall o h l c v, two 14 <= h - l -> (o == l /\ c == h) \/ (o == h /\ c == l) ->
  exists up dn body x, candle_shape_f o h l c v = (up, dn, Fin body, x) /\ body == 1.
Proof.
  intros o h l c v H E. pose proof (two_pos 14) as P14. assert (P : 0 < candle_range_f h l) by (apply range_pos; lra). unfold candle_shape_f. cbv zeta. rewrite !(ediv_pos _ _ P).
  do 4 eexists. split; [reflexivity|]. assert (AB : Qabs (r53 (c - o)) == r53 (h - l)).
  { rewrite r53_abs. apply Qeq_refl_of, r53_eq. destruct E as [[-> ->]|[-> ->]]; [apply Qabs_pos; lra|rewrite Qabs_neg by lra; ring]. }
  rewrite (r53_eq _ 1); [vm_compute; reflexivity|]. rewrite AB, <- (range_absorbed h l H). field. lra.
Qed.
(** ... where exact arithmetic always leaves it below 1. *)
Theorem C196_exact_body : forall o h l c v up dn body x, l <= o <= h -> l <= c <= h -> candle_shape o h l c v = (up, dn, Fin body, x) -> body < 1.
Proof.
  intros o h l c v up dn body x Ho Hc E. unfold candle_shape in E. cbv zeta in E. unfold ediv in E at 3. destruct (Qeqb_spec (h - l + (1 # 1000000000000)) 0) as [K|K]; [lra|].
  assert (B : Qabs (c - o) / (h - l + (1 # 1000000000000)) = body) by congruence. rewrite <- B. apply Qlt_shift_div_r; [lra|].
  assert (Qabs (c - o) <= h - l) by (apply Qabs_Qle_condition; lra). lra.
Qed.
(** In a range of at most 1e-12 the shares of a candle add up to no more than one half, up to six roundings. *)
Theorem C196_small_range : forall o h l c v up dn body x, l <= o <= h -> l <= c <= h -> h - l <= 1 # 1000000000000 ->
  candle_shape_f o h l c v = (Fin up, Fin dn, Fin body, x) -> up + dn + body <= Qpower (1 + u53) 6 / 2.
Proof.
  intros o h l c v up dn body x Ho Hc Hr E. destruct (C196_shares o h l c v Ho Hc) as (up' & dn' & body' & x' & E' & _ & (W1 & W2 & W3) & _). rewrite E in E'. injection E' as <- <- <- _.
  assert (SP : Qmax o c - Qmin o c == Qabs (c - o)).
  { destruct (Q.max_spec o c) as [[K M1]|[K M1]], (Q.min_spec o c) as [[K' M2]|[K' M2]]; rewrite M1, M2; try lra; [rewrite Qabs_pos by lra; ring|rewrite Qabs_neg by lra; ring]. }
  set (mx := Qmax o c) in *. set (mn := Qmin o c) in *. set (ab := Qabs (c - o)) in *. clearbody mx mn ab. set (rg := h - l + (1 # 1000000000000)) in *. assert (RP : 0 < rg) by (unfold rg; lra).
  destruct W1 as [_ U], W2 as [_ D], W3 as [_ Y]. change (Z.of_nat 6) with 6%Z in *. pose proof (pow_nonneg (1 + u53) 6 ltac:(pose proof u53_bounds; lra)) as Q0. change (Z.of_nat 6) with 6%Z in Q0.
  set (q := (1 + u53) ^ 6) in *. clearbody q.
  assert (T : (h - mx) / rg + (mn - l) / rg + ab / rg <= 1 # 2).
  { setoid_replace ((h - mx) / rg + (mn - l) / rg + ab / rg) with ((h - mx + (mn - l) + ab) / rg) by (field; lra). apply Qle_shift_div_r; [exact RP|]. unfold rg. lra. }
  set (a1 := (h - mx) / rg) in *. set (a2 := (mn - l) / rg) in *. set (a3 := ab / rg) in *. clearbody a1 a2 a3. unfold Qdiv. change (/ 2) with (1 # 2). nra.
Qed.
(** The three shares of a candle can add up to more than 1. *)
Theorem C196_total_refuted : exists o h l c v up dn body x, l <= o <= h /\ l <= c <= h /\
  candle_shape_f o h l c v = (Fin up, Fin dn, Fin body, x) /\ 1 < up + dn + body.
Proof.
  exists 0, 81920, 0, 16384, 1. do 4 eexists. split; [lra|]. split; [lra|]. split; [vm_compute; reflexivity|vm_compute; reflexivity].
Qed.

Lemma ediv_same a b : match ediv (a - b) b with
  | Fin g => exists gf, ediv_f (r53 (a - b)) b = Fin gf /\ near 2 gf g (Qabs g)
  | e => ediv_f (r53 (a - b)) b = e end.
Proof.
  unfold ediv, ediv_f. destruct (Qeqb_spec b 0) as [E|E]; [|eexists; split; [reflexivity|now apply pct_f_near]].
  destruct (Qltb_spec 0 (a - b)), (Qltb_spec 0 (r53 (a - b))) as [K|K]; try reflexivity; try (apply (proj1 (r53_pos_iff _)) in K; lra); try (exfalso; apply Qle_not_lt in K; apply K; now apply r53_pos_iff).
  destruct (Qltb_spec (a - b) 0), (Qltb_spec (r53 (a - b)) 0) as [K'|K']; try reflexivity; [exfalso; apply Qle_not_lt in K'; apply K'; now apply r53_neg_iff|apply (proj1 (r53_neg_iff _)) in K'; lra].
Qed.
(** The drift of the VWAP is right up to two roundings. *)
Theorem C196_drift : forall o h l c v, ~ o == 0 -> exists up dn body x, candle_shape_f o h l c v = (up, dn, body, Fin x) /\
  near 2 x ((v - o) / o) (Qabs ((v - o) / o)).
Proof.
  intros o h l c v H. unfold candle_shape_f. cbv zeta. pose proof (ediv_same v o) as E. unfold ediv in E. destruct (Qeqb_spec o 0); [contradiction|].
  destruct E as (x & -> & N). do 4 eexists. split; [reflexivity|exact N].
Qed.
(** Daily gaps: every finite gap is right up to two roundings, every other row is as in exact arithmetic. *)
Theorem C196_gap : forall ts close i, (i < length ts)%nat ->
  match nth i (daily_gap ts close) NaN with
  | Fin g => exists gf, nth i (daily_gap_f ts close) NaN = Fin gf /\ near 2 gf g (Qabs g)
  | e => nth i (daily_gap_f ts close) NaN = e
  end.
Proof.
  intros ts close i Hi. unfold daily_gap, daily_gap_f.
  rewrite (nth_indep _ NaN ((fun t => if (t mod DAY =? 0)%Z then daily_gap_of ts close (day_of t) else NaN) 0%Z)) by now rewrite map_length.
  rewrite (nth_indep (map (fun t => if (t mod DAY =? 0)%Z then daily_gap_of_f ts close (day_of t) else NaN) ts) NaN ((fun t => if (t mod DAY =? 0)%Z then daily_gap_of_f ts close (day_of t) else NaN) 0%Z)) by now rewrite map_length.
  rewrite !(map_nth (fun t => if (t mod DAY =? 0)%Z then _ else NaN)). destruct (nth i ts 0 mod DAY =? 0)%Z; [|reflexivity].
  unfold daily_gap_of, daily_gap_of_f. destruct (first_valid_close _) as [a|]; [|reflexivity]. destruct (last_valid_close _) as [b|]; [|reflexivity]. apply ediv_same.
Qed.

(** Bar rate: with k the first bar not older than the window, the number of bars k..i per window in hours, up to four roundings; up to
    two when the window is a whole number of seconds. *)
Lemma count_is ts w i k : (k <= i < length ts)%nat -> (forall j, (k <= j <= i)%nat -> (nth i ts 0 - nth j ts 0 <= w)%Z) ->
  (forall j, (j < k)%nat -> (w < nth i ts 0 - nth j ts 0)%Z) -> rate_count ts w i = (i + 1 - k)%nat.
Proof.
  intros Hk H1 H2. unfold rate_count. replace (i + 1 - k)%nat with (S i - k)%nat by lia. apply filter_suffix; [lia| |].
  - intros j Hj. apply Z.leb_gt. specialize (H2 j Hj). lia.
  - intros j Hj. apply Z.leb_le. specialize (H1 j ltac:(lia)). lia.
Qed.
Theorem C196_rate : forall ts w i k, (0 < w)%Z -> (k <= i < length ts)%nat ->
  (forall j, (k <= j <= i)%nat -> (nth i ts 0 - nth j ts 0 <= w)%Z) -> (forall j, (j < k)%nat -> (w < nth i ts 0 - nth j ts 0)%Z) ->
  within u53 4 (nth i (bar_rate_f ts w) 0) (Qnat (i + 1 - k) / (inject_Z w / 3600000000000)) /\
  (forall s, w = (s * 1000000000)%Z -> (s <= 2 ^ 53)%Z -> within u53 2 (nth i (bar_rate_f ts w) 0) (Qnat (i + 1 - k) / (inject_Z w / 3600000000000))).
Proof.
  intros ts w i k Hw Hk H1 H2. unfold bar_rate_f. rewrite nth_map_seq by lia. rewrite (count_is ts w i k Hk H1 H2).
  assert (W0 : 0 < inject_Z w) by (change 0 with (inject_Z 0); rewrite <- Zlt_Qlt; lia). set (n := (i + 1 - k)%nat). pose proof (Qnat_nonneg n) as N0.
  assert (WS : 0 < inject_Z w / 1000000000) by (apply Qlt_shift_div_l; lra).
  assert (EX : Qnat n / (inject_Z w / 1000000000) * 3600 == Qnat n / (inject_Z w / 3600000000000)) by (field; lra).
  assert (NN : 0 <= Qnat n / (inject_Z w / 1000000000)) by (apply Qle_shift_div_l; lra).
  assert (G : forall m c, within u53 m c (inject_Z w / 1000000000) -> within u53 (2 * m + 2) (r53 (r53 (Qnat n / c) * 3600)) (Qnat n / (inject_Z w / 3600000000000))).
  { intros m c Wc. apply (within_comp u53 _ (r53 (r53 (Qnat n / c) * 3600)) _ _ _ (Qeq_refl _) EX). replace (2 * m + 2)%nat with (S (S (0 + 2 * m) + 0)) by lia.
    apply within_mult_r; [exact NN|lra| |apply (within_self u53 u53_bounds); lra]. apply within_div_r; [exact N0|exact WS|apply (within_self u53 u53_bounds); exact N0|exact Wc]. }
  split; [apply (G 1%nat); apply within_of_r53; lra|]. intros s -> Hs. apply (G 0%nat). apply within_exact; [lra|].
  rewrite (r53_eq _ (inject_Z s)) by (rewrite inject_Z_mult; change (inject_Z 1000000000) with 1000000000; field). rewrite int_exact by lia.
  rewrite inject_Z_mult. change (inject_Z 1000000000) with 1000000000. field.
Qed.
(** 57 bars in a window of one hour are not reported as 57 bars per hour. *)
Theorem C196_rate_refuted : exists ts w i k, (0 < w)%Z /\ (k <= i < length ts)%nat /\
  (forall j, (k <= j <= i)%nat -> (nth i ts 0 - nth j ts 0 <= w)%Z) /\ (forall j, (j < k)%nat -> (w < nth i ts 0 - nth j ts 0)%Z) /\
  inject_Z w / 3600000000000 == 1 /\ ~ nth i (bar_rate_f ts w) 0 == Qnat (i + 1 - k).
Proof.
  exists (map Z.of_nat (seq 0 57)), 3600000000000%Z, 56%nat, 0%nat. split; [lia|]. split; [rewrite map_length, seq_length; lia|].
  split; [intros j Hj; rewrite !nth_map_seq by lia; lia|]. split; [lia|]. split; [reflexivity|]. vm_compute. discriminate.
Qed.

(** Bi-power variation: numpy may add in any order. *)
Theorem C196_bipower : forall sumf f r window i, sums_somehow sumf -> 0 <= f -> (window <= i < length r)%nat ->
  exists v, nth i (bipower_f sumf f (map Some r) window) None = Some v /\
    within u53 (window + 2) v (f * qsum (map (fun j => Qabs (nth j r 0) * Qabs (nth (j - 1) r 0)) (seq (i + 1 - window) window))).
Proof.
  intros sumf f r w i HS F0 H. unfold bipower_f. rewrite map_length, nth_map_seq by lia. destruct (Nat.ltb_spec i w); [lia|]. cbv zeta. rewrite no_missing by lia.
  destruct (existsb _ _) eqn:E.
  - exfalso. apply existsb_exists in E. destruct E as [x [Hx Ex]]. apply in_map_iff in Hx. destruct Hx as [j [<- _]]. discriminate.
  - eexists. split; [reflexivity|]. rewrite map_map.
    assert (EC : map (fun p => r53 (fst p * snd p)) (combine (tl (map (fun j => Qabs (nth j r 0)) (seq (i - w) (w + 1)))) (map (fun j => Qabs (nth j r 0)) (seq (i - w) (w + 1)))) =
                 map (fun j => r53 (Qabs (nth j r 0) * Qabs (nth (j - 1) r 0))) (seq (i + 1 - w) w)).
    { rewrite <- (map_map (fun p => fst p * snd p) r53). rewrite (combine_tl_seq (fun j => Qabs (nth j r 0)) (i - w) w).
      replace (i + 1 - w)%nat with (S (i - w)) by lia. rewrite <- seq_shift, !map_map. apply map_ext. intro j. replace (S j - 1)%nat with j by lia. reflexivity. }
    rewrite EC. pose proof (sum_within sumf 1 (fun j => r53 (Qabs (nth j r 0) * Qabs (nth (j - 1) r 0))) (fun j => Qabs (nth j r 0) * Qabs (nth (j - 1) r 0)) (seq (i + 1 - w) w) HS) as S1.
    rewrite seq_length in S1. assert (T : forall j, 0 <= Qabs (nth j r 0) * Qabs (nth (j - 1) r 0)) by (intro j; apply Qmult_le_0_compat; apply Qabs_nonneg).
    specialize (S1 (fun j _ => conj (T j) (within_of_r53 _ (T j)))). replace (w + 2)%nat with (S (0 + (1 + w))) by lia. apply within_mult_r; [exact F0| |apply (within_self u53 u53_bounds); exact F0|exact S1].
    clear -T. induction (seq (i + 1 - w) w) as [|a l IH]; [apply Qle_refl|]. cbn [map qsum fold_right]. specialize (T a). unfold qsum in IH. lra.
Qed.
(** Missing values are where they are in exact arithmetic. *)
Theorem C196_bipower_missing : forall sumf f r window i, (i < length r)%nat ->
  (nth i (bipower_f sumf f r window) None = None <-> (i < window)%nat \/ exists j, (i - window <= j <= i)%nat /\ nth j r None = None).
Proof.
  intros sumf f r window i Hi. rewrite <- (C115_missing 1 r window i Hi). unfold bipower_f, bipower. rewrite !nth_map_seq by lia.
  destruct (i <? window)%nat; [tauto|]. cbv zeta. destruct (existsb _ _); [tauto|]. split; discriminate.
Qed.

(** Bar durations: not negative, in the right order, right up to two roundings; whole seconds (up to 146 years) are exact, and up to 2^52 ns
    (52 days) different durations stay different. *)
Theorem C196_duration : forall ts n i, (n <= i < length ts)%nat -> (nth (i - n) ts 0 <= nth i ts 0)%Z ->
  exists v, nth i (bar_duration_f ts n) None = Some v /\ 0 <= v /\ within u53 2 v (inject_Z (nth i ts 0 - nth (i - n) ts 0)%Z / 1000000000) /\
    (forall s, (nth i ts 0 - nth (i - n) ts 0 = s * 1000000000)%Z -> (s * 1953125 <= 2 ^ 53)%Z -> v == inject_Z s) /\
    (forall us m j v', (m <= j < length us)%nat -> nth j (bar_duration_f us m) None = Some v' ->
      ((nth i ts 0 - nth (i - n) ts 0 <= nth j us 0 - nth (j - m) us 0)%Z -> v <= v') /\
      ((nth i ts 0 - nth (i - n) ts 0 < nth j us 0 - nth (j - m) us 0 <= 2 ^ 52)%Z -> v < v')).
Proof.
  intros ts n i Hi Hs. assert (N : forall us m j, (m <= j < length us)%nat -> nth j (bar_duration_f us m) None = Some (seconds_f (nth j us 0 - nth (j - m) us 0)%Z)).
  { intros us m j Hj. unfold bar_duration_f. rewrite nth_map_seq by lia. destruct (Nat.ltb_spec j m); [lia|reflexivity]. }
  exists (seconds_f (nth i ts 0 - nth (i - n) ts 0)%Z). split; [now apply N|]. split; [apply seconds_nonneg; lia|]. split; [apply seconds_within; lia|]. split.
  - intros s E B. rewrite E. apply seconds_whole. lia.
  - intros us m j v' Hj E. rewrite (N us m j Hj) in E. injection E as <-. split; [intro L; now apply seconds_mono|]. intro L. apply seconds_apart; lia.
Qed.
Theorem C196_duration_missing : forall ts n i, (i < length ts)%nat -> (i < n)%nat -> nth i (bar_duration_f ts n) None = None.
Proof. intros ts n i Hi Hn. unfold bar_duration_f. rewrite nth_map_seq by lia. destruct (Nat.ltb_spec i n); [reflexivity|lia]. Qed.
(** Beyond 2^53 ns (104 days) two durations a nanosecond apart can be the same number. *)
Theorem C196_apart_refuted : exists ts us, (nth 1 ts 0 - nth 0 ts 0 < nth 1 us 0 - nth 0 us 0)%Z /\ bar_duration_f ts 1 = bar_duration_f us 1.
Proof. exists [0; 9007199254740992]%Z, [0; 9007199254740993]%Z. split; [reflexivity|vm_compute; reflexivity]. Qed.

(** The weighted mean of non-negative values, as pandas computes it, is the mean weighted by age up to a number of roundings that depends on
    the row only. *)
Lemma own_rel x : (forall y, In (Some y) x -> 0 <= y) -> Forall2 (owithin 0) x x.
Proof.
  induction x as [|[y|] x IH]; intro H; constructor; try (apply IH; intros z Hz; apply H; now right); cbn [owithin]; [|exact I].
  assert (0 <= y) by (apply H; now left). split; [assumption|now apply (within_self u53 u53_bounds)].
Qed.
Theorem C196_ewma : forall x span, (2 <= span < 2 ^ 53)%Z -> (forall y, In (Some y) x -> 0 <= y) ->
  exists out, ewma_pd_f x span = Ok out /\ forall i, (i < length x)%nat ->
    ((forall j, (j <= i)%nat -> nth j x None = None) -> nth i out None = None) /\
    (forall j, (j <= i)%nat -> nth j x None <> None ->
       exists vf v, nth i out None = Some vf /\ decayed_mean x (1 - 2 / (inject_Z span + 1)) i v /\ within u53 (9 * i * i + 11 * i) vf v).
Proof.
  intros x span Hs Hx. destruct (C130_pandas x span ltac:(lia)) as (out & E & L & D). unfold ewma_pd in E. replace (span <? 1)%Z with false in E by (symmetry; apply Z.ltb_ge; lia). injection E as E.
  unfold ewma_pd_f. replace (span <? 1)%Z with false by (symmetry; apply Z.ltb_ge; lia). eexists. split; [reflexivity|]. intros i Hi.
  pose proof (ewm_runs _ _ 0 x x (proj1 (span_factor span ltac:(lia))) (factor_within span Hs) (own_rel x Hx) i Hi) as O. rewrite E in O. destruct (D i Hi) as [D1 D2].
  split.
  - intro H. rewrite (D1 H) in O. destruct (nth i (ewm_loop_f _ None 1 x) None); [contradiction|reflexivity].
  - intros j Hj N. destruct (D2 j Hj N) as (v & Ev & M). rewrite Ev in O. destruct (nth i (ewm_loop_f _ None 1 x) None) as [vf|]; [|contradiction]. exists vf, v. split; [reflexivity|]. split; [exact M|apply O].
Qed.
(** So are the smoothed bar durations, with two roundings more: [x] are the exact durations in seconds. *)
Theorem C196_duration_ewma : forall ts span, (2 <= span < 2 ^ 53)%Z -> (forall i, (S i < length ts)%nat -> (nth i ts 0 <= nth (S i) ts 0)%Z) ->
  exists out, bar_duration_ewma_f ts span = Ok out /\ forall i, (1 <= i < length ts)%nat ->
    exists vf v, nth i out None = Some vf /\
      decayed_mean (None :: map (fun k => Some (inject_Z (nth (S k) ts 0 - nth k ts 0)%Z / 1000000000)) (seq 0 (length ts - 1))) (1 - 2 / (inject_Z span + 1)) i v /\
      within u53 (9 * i * i + 11 * i + 2) vf v.
Proof.
  intros ts span Hs Hts. destruct (Nat.eq_dec (length ts) 0) as [L0|L0].
  { destruct ts; [|discriminate]. eexists. split; [unfold bar_duration_ewma_f, ewma_pd_f; replace (span <? 1)%Z with false by (symmetry; apply Z.ltb_ge; lia); reflexivity|cbn [length]; lia]. }
  set (x := None :: _). assert (Lx : length x = length ts) by (unfold x; cbn [length]; rewrite map_length, seq_length; lia).
  assert (F : Forall2 (owithin 2) (bar_duration_f ts 1) x).
  { unfold bar_duration_f, x. destruct (length ts) as [|n] eqn:En; [lia|]. cbn [seq map Nat.ltb Nat.leb]. constructor; [exact I|]. replace (S n - 1)%nat with n by lia.
    rewrite <- seq_shift, map_map. assert (G : forall l, (forall k, In k l -> (S k < S n)%nat) -> Forall2 (owithin 2) (map (fun k => if (S k <? 1)%nat then None else Some (seconds_f (nth (S k) ts 0%Z - nth (S k - 1) ts 0%Z))) l) (map (fun k => Some (inject_Z (nth (S k) ts 0 - nth k ts 0)%Z / 1000000000)) l)).
    { induction l as [|k l IH]; intro Hl; cbn [map]; constructor; [|apply IH; intros; apply Hl; now right]. cbn [Nat.ltb Nat.leb]. cbn [owithin]. replace (S k - 1)%nat with k by lia.
      specialize (Hts k (Hl k (or_introl eq_refl))). split; [|apply seconds_within; lia]. apply Qle_shift_div_l; [lra|]. assert (inject_Z 0 <= inject_Z (nth (S k) ts 0 - nth k ts 0)%Z) by (rewrite <- Zle_Qle; lia). change (inject_Z 0) with 0 in *. lra. }
    apply G. intros k Hk. apply in_seq in Hk. lia. }
  destruct (C130_pandas x span ltac:(lia)) as (out & E & L & D). unfold ewma_pd in E. replace (span <? 1)%Z with false in E by (symmetry; apply Z.ltb_ge; lia). apply (f_equal (fun r => match r with Ok a => a | Raise _ => [] end)) in E. cbv beta iota in E.
  unfold bar_duration_ewma_f, ewma_pd_f. replace (span <? 1)%Z with false by (symmetry; apply Z.ltb_ge; lia). eexists. split; [reflexivity|]. intros i Hi.
  assert (Lf : length (bar_duration_f ts 1) = length ts) by (unfold bar_duration_f; now rewrite map_length, seq_length).
  pose proof (ewm_runs _ _ 2 _ x (proj1 (span_factor span ltac:(lia))) (factor_within span Hs) F i ltac:(lia)) as O. rewrite E in O.
  destruct (D i ltac:(lia)) as [_ D2]. destruct (D2 1%nat ltac:(lia)) as (v & Ev & M). { unfold x. cbn [nth]. rewrite nth_map_seq by lia. discriminate. }
  rewrite Ev in O. destruct (nth i (ewm_loop_f _ None 1 _) None) as [vf|]; [|contradiction]. exists vf, v. split; [reflexivity|]. split; [exact M|].
  destruct O as [_ O]. unfold kew in O. replace (9 * i * i + 11 * i + 2)%nat with (2 + 9 * i * i + 11 * i)%nat by lia. exact O.
Qed.
(** Whatever the span, the mean stays between the least and the greatest value up to five roundings per row ... *)
Theorem C196_ewma_hull : forall x span lo hi out i v, (1 <= span < 2 ^ 53)%Z -> 0 <= lo -> (forall y, In (Some y) x -> lo <= y <= hi) ->
  ewma_pd_f x span = Ok out -> nth i out None = Some v -> Qpower (1 - u53) (Z.of_nat (5 * i)) * lo <= v <= Qpower (1 + u53) (Z.of_nat (5 * i)) * hi.
Proof.
  intros x span lo hi out i v Hs L0 Hx E Ev. unfold ewma_pd_f in E. replace (span <? 1)%Z with false in E by (symmetry; apply Z.ltb_ge; lia). injection E as <-.
  assert (B0 : 0 <= ewm_factor_f span).
  { destruct (Z.eq_dec span 1) as [->|N]; [vm_compute; discriminate|]. pose proof (span_factor span ltac:(lia)) as B. apply (within_nonneg u53 u53_bounds 4 _ (1 - 2 / (inject_Z span + 1))); [apply factor_within; lia|lra]. }
  destruct x as [|c x]; [destruct i; discriminate|]. cbn [ewm_loop_f] in Ev. destruct i as [|i].
  - cbn [nth] in Ev. subst c. change ((1 - u53) ^ Z.of_nat (5 * 0)) with 1. change ((1 + u53) ^ Z.of_nat (5 * 0)) with 1. specialize (Hx v (or_introl eq_refl)). lra.
  - cbn [nth] in Ev. apply (ewm_hull lo hi (ewm_factor_f span) L0 B0 x (fun y Hy => Hx y (or_intror Hy)) 0 c 1) with (m := i); [|lra|exact Ev].
    intros w ->. change ((1 - u53) ^ Z.of_nat (5 * 0)) with 1. change ((1 + u53) ^ Z.of_nat (5 * 0)) with 1. specialize (Hx w (or_introl eq_refl)). lra.
Qed.
(** ... a constant series is kept exactly ... *)
Theorem C196_ewma_constant : forall c n span out i, (1 <= span)%Z -> ewma_pd_f (repeat (Some c) n) span = Ok out -> (i < n)%nat -> nth i out None = Some c.
Proof.
  intros c n span out i Hs E Hi. unfold ewma_pd_f in E. replace (span <? 1)%Z with false in E by (symmetry; apply Z.ltb_ge; lia). injection E as <-. generalize (ewm_factor_f span) as b. intro b.
  assert (G : forall n w i, (i < n)%nat -> nth i (ewm_loop_f b (Some c) w (repeat (Some c) n)) None = Some c).
  { clear. induction n as [|n IH]; intros w i Hi; [lia|]. cbn [repeat ewm_loop_f]. destruct (Qeqb_spec c c) as [_|K]; [|exfalso; apply K; reflexivity]. destruct i as [|i]; [reflexivity|]. cbn [nth]. apply IH. lia. }
  destruct n as [|n]; [lia|]. cbn [repeat ewm_loop_f]. destruct i as [|i]; [reflexivity|]. cbn [nth]. apply G. lia.
Qed.
(** ... but the mean of two values can lie below both. *)
Theorem C196_hull_refuted : exists x y out v, fl 53 x /\ fl 53 y /\ ewma_pd_f [Some x; Some y] 2 = Ok out /\ nth 1 out None = Some v /\ v < x /\ v < y.
Proof.
  exists (6642809450371483 # 1125899906842624), (6642809450371482 # 1125899906842624). eexists _, _. split; [exists 6642809450371483%Z, (-50)%Z; split; reflexivity|].
  split; [exists 6642809450371482%Z, (-50)%Z; split; reflexivity|]. split; [vm_compute; reflexivity|]. split; [vm_compute; reflexivity|]. split; vm_compute; reflexivity.
Qed.

Example C196_example_shares : exists up dn body x, candle_shape_f 10 14 8 13 11 = (Fin up, Fin dn, Fin body, Fin x) /\
  (16 # 100) < up < (17 # 100) /\ (33 # 100) < dn < (34 # 100) /\ (49 # 100) < body < (51 # 100) /\ (9 # 100) < x < (11 # 100).
Proof. do 4 eexists. split; [vm_compute; reflexivity|]. repeat split; vm_compute; reflexivity. Qed.
Example C196_example_full : two 14 <= 50000 - 30000 /\ snd (fst (candle_shape_f 30000 50000 30000 50000 40000)) = Fin 1.
Proof. split; [vm_compute; discriminate|vm_compute; reflexivity]. Qed.
Example C196_example_gap : daily_gap_f [0; 43200000000000; 86400000000000]%Z [Some 1; Some 2; Some 3] = [Fin 0; NaN; Fin (1 # 2)].
Proof. vm_compute. reflexivity. Qed.
Example C196_example_rate : nth 2 (bar_rate_f [0; 60000000000; 90000000000]%Z 240000000000) 0 == 45 /\
  (forall j, (0 <= j <= 2)%nat -> (nth 2 [0; 60000000000; 90000000000] 0 - nth j [0; 60000000000; 90000000000] 0 <= 240000000000)%Z).
Proof. split; [vm_compute; reflexivity|]. intros j Hj. destruct j as [|[|[|j]]]; [discriminate|discriminate|discriminate|lia]. Qed.
Example C196_example_bipower : sums_somehow fsum /\ nth 2 (bipower_f fsum 2 (map Some [1; -2; 3]) 2) None = Some 16.
Proof. split; [intro l; apply fsum_some_order|vm_compute; reflexivity]. Qed.
Example C196_example_duration : bar_duration_f [0; 1000000000; 3500000000]%Z 1 = [None; Some 1; Some (5 # 2)] /\
  (exists out, bar_duration_ewma_f [0; 1000000000; 4000000000]%Z 3 = Ok out /\ nth 1 out None = Some 1 /\
     match nth 2 out None with Some v => (7 # 3) - (1 # 1000000) <= v <= (7 # 3) + (1 # 1000000) | None => False end).
Proof. split; [vm_compute; reflexivity|]. eexists. split; [vm_compute; reflexivity|]. split; [vm_compute; reflexivity|]. split; vm_compute; discriminate. Qed.
Example C196_example_small : exists up dn body x, candle_shape_f (1 # 1000000000000) (2 # 1000000000000) (1 # 1000000000000) (2 # 1000000000000) 1 = (Fin up, Fin dn, Fin body, x) /\ up == 0 /\ dn == 0 /\ (49 # 100) < body < (51 # 100).
Proof. do 4 eexists. split; [vm_compute; reflexivity|]. repeat split; vm_compute; reflexivity. Qed.

Print Assumptions C196_shares.
Print Assumptions C196_flat.
Print Assumptions C196_full_body.
Print Assumptions C196_exact_body.
Print Assumptions C196_small_range.
Print Assumptions C196_total_refuted.
Print Assumptions C196_drift.
Print Assumptions C196_gap.
Print Assumptions C196_rate.
Print Assumptions C196_rate_refuted.
Print Assumptions C196_bipower.
Print Assumptions C196_bipower_missing.
Print Assumptions C196_duration.
Print Assumptions C196_duration_missing.
Print Assumptions C196_apart_refuted.
Print Assumptions C196_ewma.
Print Assumptions C196_duration_ewma.
Print Assumptions C196_ewma_hull.
Print Assumptions C196_ewma_constant.
Print Assumptions C196_hull_refuted.
