(** T_features.v -- property theorems of the rolling feature kernels
    (C45-C50, C52, C53, C58, C63, C89-C92). *)
From Coq Require Import Qpower.
From Verif Require Import Base M_logic M_bars M_features S_features P_weights P_sort P_features P_features2.
Open Scope Q_scope.

(* ------------------------------------------------------------------ *)
(** ** C45: simple moving average *)
Theorem C45_sma : forall xs n i, (1 <= n)%nat -> (i < length xs)%nat ->
  length (sma xs n) = length xs /\
  ((i + 1 < n)%nat -> nth i (sma xs n) None = None) /\
  ((n <= i + 1)%nat -> exists m, nth i (sma xs n) None = Some m /\ is_mean m (window (at_ xs) i n) /\
     forall a b, (forall x, In x (window (at_ xs) i n) -> a <= x <= b) -> a <= m <= b).
Proof.
  intros xs n i Hn Hi. split; [unfold sma; now rewrite map_length, seq_length|]. rewrite sma_nth by auto. split; intro H.
  - now replace (i + 1 <? n)%nat with true by (symmetry; apply Nat.ltb_lt; lia).
  - replace (i + 1 <? n)%nat with false by (symmetry; apply Nat.ltb_ge; lia).
    eexists; split; [reflexivity|]. rewrite lastn_window by lia.
    assert (M : is_mean (1 / Qnat n * qsum (window (at_ xs) i n)) (window (at_ xs) i n)).
    { apply is_mean_compat with (qsum (window (at_ xs) i n) / Qnat (length (window (at_ xs) i n))).
      - rewrite window_length. assert (0 < Qnat n) by now apply Qnat_pos. field. lra.
      - apply mean_div. now apply window_nonnil. }
    split; auto. intros a b. apply is_mean_between; auto. now apply window_nonnil.
Qed.
Example C45_example : map (option_map Qred) (sma [1; 2; 6; 4] 3) = [None; None; Some 3; Some 4] /\
  window (at_ [1; 2; 6; 4]) 3 3 = [2; 6; 4].
Proof. vm_compute. split; reflexivity. Qed.

(* ------------------------------------------------------------------ *)
(** ** C46: exponentially weighted moving average *)
Theorem C46_ewma : forall ys span out, ewma ys span = Ok out ->
  length out = length ys /\ forall i, (i < length ys)%nat ->
    is_ew_mean (nth i out 0) (at_ ys) i (1 - 2 / (inject_Z span + 1)) /\
    forall a b, (forall j, (j <= i)%nat -> a <= at_ ys j <= b) -> a <= nth i out 0 <= b.
Proof.
  intros ys span out E. split.
  - revert E. unfold ewma. destruct (span <? 1)%Z; [discriminate|]. destruct ys; intro E; injection E as <-; auto.
    cbn [length]. now rewrite ewma_loop_length.
  - intros i Hi. assert (Hs : (1 <= span)%Z).
    { revert E. unfold ewma. destruct (Z.ltb_spec span 1); [discriminate|auto]. }
    assert (M : is_ew_mean (nth i out 0) (at_ ys) i (1 - 2 / (inject_Z span + 1))).
    { destruct (geox_ew_mean (1 - 2 / (inject_Z span + 1)) (at_ ys) i (proj1 (ew_factor span Hs))) as (w & W1 & W2 & W3 & W4).
      exists w. split; auto. split; auto. split; auto. rewrite (ewma_nth _ _ _ _ E Hi). exact W4. }
    split; auto. intros a b. apply (ew_mean_between _ _ _ _ _ _ M).
Qed.
Theorem C46_rejects : forall ys span, ewma ys span = Raise ValueError <-> (span < 1)%Z.
Proof.
  intros. unfold ewma. destruct (Z.ltb_spec span 1); [tauto|]. destruct ys; split; intro; try discriminate; lia.
Qed.
(** No dependence on later values. *)
Theorem C46_causal : forall ys zs span o1 o2, ys <> [] -> ewma ys span = Ok o1 -> ewma (ys ++ zs) span = Ok o2 ->
  exists t, o2 = o1 ++ t.
Proof.
  intros ys zs span o1 o2 Hy. unfold ewma. destruct (span <? 1)%Z; [discriminate|].
  destruct ys as [|y t]; [contradiction|]. intros E1 E2. injection E1 as <-. injection E2 as <-.
  destruct (ewma_loop_app (2 / (inject_Z span + 1)) t zs y 1) as [r ->]. now exists r.
Qed.
Example C46_example : exists o, ewma [1; 4; 10] 3 = Ok o /\ map Qred o = [1; 3; 7].
Proof. eexists. split; [reflexivity|]. vm_compute. reflexivity. Qed.

(* ------------------------------------------------------------------ *)
(** ** C47, C48: stochastic oscillator *)
Theorem C48_extremes : forall close low high n t, (1 <= n)%nat ->
  length low = length close -> length high = length close -> (t < length close)%nat ->
  ((t + 1 < n)%nat -> nth t (stoch_k close low high n) None = None) /\
  ((n <= t + 1)%nat -> exists lo hi,
     is_min lo (window (at_ low) t n) /\ is_max hi (window (at_ high) t n) /\
     (lo < hi -> exists v, nth t (stoch_k close low high n) None = Some v /\ v * (hi - lo) == 100 * (at_ close t - lo)) /\
     (hi <= lo -> nth t (stoch_k close low high n) None = None)).
Proof.
  intros close low high n t Hn Ll Lh Ht. unfold stoch_k. rewrite nth_map_seq by auto. split; intro H.
  - now replace (t + 1 <? n)%nat with true by (symmetry; apply Nat.ltb_lt; lia).
  - replace (t + 1 <? n)%nat with false by (symmetry; apply Nat.ltb_ge; lia). cbv zeta.
    destruct (stoch_ext_spec low high n (t + 1 - n)) as [A B]; [auto|lia|lia|].
    replace (n - 1 + (t + 1 - n))%nat with t in A, B by lia.
    set (s := stoch_ext low high n (t + 1 - n)) in *. exists (fst s), (snd s). split; auto. split; auto.
    destruct (Qltb_spec (fst s) (snd s)) as [L|L]; split; intro C; try lra.
    + eexists. split; [reflexivity|]. unfold qn, at_. field. lra.
    + reflexivity.
Qed.
Theorem C47_core_range_partial : forall close low high n t v, (1 <= n)%nat ->
  length low = length close -> length high = length close ->
  (forall i, (i < length close)%nat -> at_ low i <= at_ close i <= at_ high i) ->
  (t < length close)%nat -> nth t (stoch_k close low high n) None = Some v -> 0 <= v <= 100.
Proof.
  intros close low high n t v Hn Ll Lh H Ht E.
  destruct (C48_extremes close low high n t Hn Ll Lh Ht) as [C1 C2].
  destruct (le_lt_dec n (t + 1)) as [L|L]; [|rewrite C1 in E by lia; discriminate].
  destruct (C2 L) as (lo & hi & [_ Hlo] & [_ Hhi] & C3 & C4).
  destruct (Qlt_le_dec lo hi) as [Lt|Ge]; [|rewrite C4 in E by auto; discriminate].
  destruct (C3 Lt) as (v' & E' & Ev). rewrite E in E'. injection E' as <-.
  assert (lo <= at_ low t). { apply Hlo. apply in_window; [lia|]. exists t. split; [lia|split; [lia|auto]]. }
  assert (at_ high t <= hi). { apply Hhi. apply in_window; [lia|]. exists t. split; [lia|split; [lia|auto]]. }
  specialize (H t Ht). split.
  - apply Qnot_lt_le. intro C. nra.
  - apply Qnot_lt_le. intro C. nra.
Qed.
(** The transform hands the columns over in another order and leaves [0, 100]. *)
Theorem C47_transform_refuted : exists high low close n t v,
  length low = length close /\ length high = length close /\ (t < length close)%nat /\
  (forall i, (i < length close)%nat -> at_ low i <= at_ close i <= at_ high i) /\
  nth t (stoch_transform high low close n) None = Some v /\ 100 < v.
Proof.
  exists [12; 12; 14], [8; 9; 9], [10; 11; 10], 2%nat, 2%nat, (100 * (14 - 9) / (11 - 9)).
  split; [reflexivity|]. split; [reflexivity|]. split; [simpl; lia|]. split.
  - intros i Hi. simpl in Hi. destruct i as [|[|[|i]]]; [| | |lia]; unfold at_; cbn [nth]; lra.
  - split; [vm_compute; reflexivity|]. reflexivity.
Qed.
Example C48_example :
  map (option_map Qred) (stoch_k [10; 11; 10; 12] [8; 9; 9; 11] [12; 12; 14; 13] 2) = [None; Some 75; Some 20; Some 60].
Proof. vm_compute. reflexivity. Qed.
Example C47_example : forall i, (i < 4)%nat -> at_ [8; 9; 9; 11] i <= at_ [10; 11; 10; 12] i <= at_ [12; 12; 14; 13] i.
Proof. intros i Hi. destruct i as [|[|[|[|i]]]]; [| | | |lia]; unfold at_; cbn [nth]; lra. Qed.

(* ------------------------------------------------------------------ *)
(** ** C49, C50: relative strength index *)
Definition gains (close : list Q) (i : nat) : Q := up (at_ close (i - 1)) (at_ close i).
Definition losses (close : list Q) (i : nat) : Q := down (at_ close (i - 1)) (at_ close i).

(** Value: 100 - 100/(1+G/L) of the Wilder averages; defined exactly when L > 0. *)
Theorem C49_value : forall close n i, (1 <= n <= i)%nat -> (i < length close)%nat ->
  let G := wilder_avg (gains close) n (i - n) in
  let L := wilder_avg (losses close) n (i - n) in
  0 <= G /\ 0 <= L /\
  (0 < L -> exists v, nth i (rsi_wilder close n) None = Some v /\ v * (G + L) == 100 * G) /\
  (L == 0 -> nth i (rsi_wilder close n) None = None).
Proof.
  intros close n i Hn Hi G L.
  assert (NG : 0 <= G) by (apply wilder_avg_nonneg; [lia|intro; apply up_nonneg]).
  assert (NL : 0 <= L) by (apply wilder_avg_nonneg; [lia|intro; apply down_nonneg]).
  split; auto. split; auto. rewrite rsi_nth by lia.
  pose proof (rsi_gain_avg close n (i - n) ltac:(lia)) as EG. pose proof (rsi_loss_avg close n (i - n) ltac:(lia)) as EL.
  change (wilder_avg (ups close) n (i - n)) with G in EG. change (wilder_avg (downs close) n (i - n)) with L in EL.
  set (g := wilder n _ (gain close) _) in *. set (l := wilder n _ (loss close) _) in *. clearbody g l.
  unfold rsi_value. split; intro H; destruct (Qltb_spec 0 l) as [P|P]; try lra.
  - eexists. split; [reflexivity|]. rewrite <- EG, <- EL. field. split; lra.
  - reflexivity.
Qed.
Theorem C49_range : forall close n i v, (1 <= n)%nat -> (i < length close)%nat ->
  nth i (rsi_wilder close n) None = Some v -> (n <= i)%nat /\ 0 <= v <= 100.
Proof.
  intros close n i v Hn Hi E. destruct (le_lt_dec n i) as [L|L].
  - split; auto. rewrite rsi_nth in E by auto. apply rsi_value_range in E; auto.
    rewrite rsi_gain_avg by auto. apply wilder_avg_nonneg; [auto|intro; apply up_nonneg].
  - unfold rsi_wilder in E. rewrite nth_map_seq in E by auto.
    replace (i <? n)%nat with true in E by (symmetry; apply Nat.ltb_lt; lia). discriminate.
Qed.
Example C49_example : map (option_map Qred) (rsi_wilder [10; 12; 11; 14; 13] 2) = [None; None; Some (200 # 3); Some (800 # 9); Some (800 # 13)].
Proof. vm_compute. reflexivity. Qed.

(** Both backends agree from index n on exactly when some loss is still visible; where
    there was none the numba kernel gives NaN and pandas gives 100. *)
Theorem C50_backends_partial : forall close n i out, (1 <= n <= i)%nat -> (i < length close)%nat ->
  rsi_pd close n = Ok out ->
  ((exists j, (1 <= j <= i)%nat /\ at_ close j < at_ close (j - 1) /\ (n = 1%nat -> j = i)) ->
     exists v w, nth i (rsi_wilder close n) None = Some v /\ nth i out None = Some w /\ v == w) /\
  (~ (exists j, (1 <= j <= i)%nat /\ at_ close j < at_ close (j - 1) /\ (n = 1%nat -> j = i)) ->
     nth i (rsi_wilder close n) None = None /\ nth i out None = Some 100).
Proof.
  intros close n i out Hn Hi E. unfold rsi_pd in E. destruct (length close <=? n)%nat; [discriminate|].
  cbv zeta in E. injection E as <-. rewrite nth_map_seq by auto.
  replace (i <? n)%nat with false by (symmetry; apply Nat.ltb_ge; lia).
  rewrite rsi_nth by lia.
  pose proof (rsi_gain_avg close n (i - n) ltac:(lia)) as EG. pose proof (rsi_loss_avg close n (i - n) ltac:(lia)) as EL.
  pose proof (pd_avg (gain_pd close) (ups close) n (i - n) ltac:(lia) (gain_pd_up close)) as PG.
  pose proof (pd_avg (loss_pd close) (downs close) n (i - n) ltac:(lia) (loss_pd_down close)) as PL.
  pose proof (wilder_avg_pos (downs close) n (i - n) ltac:(lia) (fun i => down_nonneg _ _)) as PP.
  pose proof (wilder_avg_nonneg (downs close) n (i - n) ltac:(lia) (fun i => down_nonneg _ _)) as NN.
  replace (n + (i - n))%nat with i in PP by lia.
  set (g := wilder n _ (gain close) _) in *. set (l := wilder n _ (loss close) _) in *.
  set (g' := wilder n _ (gain_pd close) _) in *. set (l' := wilder n _ (loss_pd close) _) in *. clearbody g l g' l'.
  unfold rsi_value, rsi_value_pd. split; intro H.
  - assert (P : 0 < wilder_avg (downs close) n (i - n)).
    { apply PP. destruct H as (j & Hj & C & Hj1). exists j. split; auto. split; auto. now apply down_pos. }
    destruct (Qltb_spec 0 l); [|lra]. destruct (Qeqb_spec l' 0); [lra|].
    eexists. eexists. split; [reflexivity|]. split; [reflexivity|]. rewrite EG, EL, PG, PL. reflexivity.
  - assert (P : ~ 0 < wilder_avg (downs close) n (i - n)).
    { intro C. apply H. apply PP in C. destruct C as (j & Hj & C & Hj1). exists j. split; auto. split; auto.
      apply (proj1 (down_pos _ _)). exact C. }
    destruct (Qltb_spec 0 l); [lra|]. destruct (Qeqb_spec l' 0) as [|N]; [auto|]. exfalso. apply N. lra.
Qed.
Theorem C50_no_loss_refuted : exists close n i out, (1 <= n <= i)%nat /\ (i < length close)%nat /\
  rsi_pd close n = Ok out /\ nth i out None = Some 100 /\ nth i (rsi_wilder close n) None = None.
Proof.
  exists [10; 11; 12], 2%nat, 2%nat. eexists. split; [lia|]. split; [simpl; lia|]. split; [reflexivity|].
  split; vm_compute; reflexivity.
Qed.
(** A series not longer than the window: pandas backend raises, numba returns NaN. *)
Theorem C50_short_refuted : exists close n, (1 <= n)%nat /\ rsi_pd close n = Raise IndexError /\
  rsi_wilder close n = [None; None].
Proof. exists [10; 11], 2%nat. split; [lia|]. split; reflexivity. Qed.
Example C50_example : exists j, (1 <= j <= 3)%nat /\ at_ [10; 12; 11; 14; 13] j < at_ [10; 12; 11; 14; 13] (j - 1) /\ (2%nat = 1%nat -> j = 3%nat).
Proof. exists 2%nat. split; [lia|]. split; [reflexivity|]. discriminate. Qed.

(* ------------------------------------------------------------------ *)
(** ** C52: distance from the volume-weighted average price *)
(** [o] is the (simple or log) distance of price c from VWAP pv/v: with x = c/(pv/v),
    the value x - 1, or ln x for positive x. *)
Definition is_distance (ln : Q -> Q) (is_log : bool) (c pv v : Q) (o : ext) : Prop :=
  exists x, x * pv == c * v /\ (if is_log then (0 < x -> o = Fin (ln x)) else exists d, o = Fin d /\ d == x - 1).
Theorem C52_rolling_partial : forall ln close volume n is_log out i, (1 <= n)%nat ->
  vwap_distance ln close volume n is_log = Ok out -> (i < length close)%nat ->
  let pv := qsum (window (fun j => at_ close j * at_ volume j) i n) in
  let v := qsum (window (at_ volume) i n) in
  ((i + 1 < n)%nat -> nth i out NaN = NaN) /\
  ((n <= i)%nat -> 0 < v -> is_distance ln is_log (at_ close i) pv v (nth i out NaN)) /\
  ((n <= i)%nat -> v <= 0 -> nth i out NaN = nth (i - 1) out NaN) /\
  (i = (n - 1)%nat -> 0 < v -> is_distance ln false (at_ close i) pv v (nth i out NaN)) /\
  (i = (n - 1)%nat -> v <= 0 -> nth i out NaN = NaN).
Proof.
  intros ln close volume n lg out i Hn E Hi pv v.
  destruct (vwap_nth _ _ _ _ _ _ _ E Hi) as [L H].
  split.
  { intro C. replace (i + 1 <? n)%nat with true in H by (symmetry; apply Nat.ltb_lt; lia). now injection H as <-. }
  destruct (le_lt_dec n (i + 1)) as [B|B]; [|repeat split; intro C; exfalso; lia].
  replace (i + 1 <? n)%nat with false in H by (symmetry; apply Nat.ltb_ge; lia).
  pose proof (vwap_sums ln close volume n lg (i + 1 - n) Hn) as [S1 S2].
  replace (n - 1 + (i + 1 - n))%nat with i in S1, S2 by lia. fold pv in S1. fold v in S2.
  split; [|split; [|split]]; intros C V.
  - assert (K : exists k, (i + 1 - n)%nat = S k) by (exists (i - n)%nat; lia). destruct K as [k K]. rewrite K in *.
    cbn [vwap_state] in *. cbv zeta in *. cbn [fst snd] in *. replace (n + k)%nat with i in * by lia.
    set (w' := fst (fst _) + _) in *. set (v' := snd (fst _) + _) in *. clearbody w' v'.
    destruct (Qltb_spec 0 v'); [|lra]. apply vwap_dist_spec in H; [|auto]. destruct H as [H _].
    eapply dist_spec_compat; [exact S1|exact S2|exact H].
  - assert (K : exists k, (i + 1 - n)%nat = S k) by (exists (i - n)%nat; lia). destruct K as [k K].
    destruct (vwap_nth _ _ _ _ _ _ (i - 1) E ltac:(lia)) as [_ H']. replace (i - 1 + 1 <? n)%nat with false in H' by (symmetry; apply Nat.ltb_ge; lia).
    replace (i - 1 + 1 - n)%nat with k in H' by lia. rewrite K in *.
    cbn [vwap_state] in *. cbv zeta in *. cbn [fst snd] in *. replace (n + k)%nat with i in * by lia.
    set (w' := fst (fst _) + _) in *. set (v' := snd (fst _) + _) in *. clearbody w' v'.
    destruct (Qltb_spec 0 v'); [lra|]. rewrite H' in H. now injection H as <-.
  - replace (i + 1 - n)%nat with 0%nat in * by lia. cbn [vwap_state fst snd] in *. cbv zeta in *. rewrite <- C in H.
    set (w' := fold_left (fun s j => s + qn close j * qn volume j) _ _) in *. set (v' := fold_left (fun s j => s + qn volume j) _ _) in *. clearbody w' v'.
    destruct (Qltb_spec 0 v'); [|lra]. apply vwap_dist_spec in H; [|auto]. destruct H as [H _].
    eapply dist_spec_compat; [exact S1|exact S2|exact H].
  - replace (i + 1 - n)%nat with 0%nat in * by lia. cbn [vwap_state fst snd] in *. cbv zeta in *.
    set (w' := fold_left (fun s j => s + qn close j * qn volume j) _ _) in *. set (v' := fold_left (fun s j => s + qn volume j) _ _) in *. clearbody w' v'.
    destruct (Qltb_spec 0 v'); [lra|]. now injection H as <-.
Qed.
(** With positive prices and non-negative volumes the call does not raise. *)
Theorem C52_total : forall ln close volume n is_log, (1 <= n)%nat -> length volume = length close ->
  (forall i, (i < length close)%nat -> 0 < at_ close i /\ 0 <= at_ volume i) ->
  exists out, vwap_distance ln close volume n is_log = Ok out.
Proof.
  intros ln close volume n lg Hn Lv Hp. apply collect_exists. intros x Hx. apply in_map_iff in Hx.
  destruct Hx as (i & <- & Hi). apply in_seq in Hi. destruct (Nat.ltb_spec (i + 1) n) as [|B]; [eauto|].
  assert (G : forall k, (n + k <= length close)%nat -> exists a, snd (vwap_state ln close volume n lg k) = Ok a).
  { assert (D : forall k c w v lg', (n + k <= length close)%nat ->
      w == qsum (window (fun j => at_ close j * at_ volume j) (n - 1 + k) n) -> v == qsum (window (at_ volume) (n - 1 + k) n) ->
      0 < v -> exists a, vwap_dist ln lg' c w v = Ok a).
    { intros k c w v lg' Hk Ew Ev V. unfold vwap_dist. destruct (Qeqb_spec (w / v) 0) as [Z0|N].
      - exfalso. assert (W0 : w == 0). { setoid_replace w with (w / v * v) by (field; lra). rewrite Z0. ring. }
        rewrite Ev in V. unfold window in V.
        assert (NV : forall y, In y (map (at_ volume) (seq (n - 1 + k + 1 - n) n)) -> 0 <= y).
        { intros y Hy. apply in_map_iff in Hy. destruct Hy as (j & <- & Hj). apply in_seq in Hj. apply Hp. lia. }
        assert (NP : forall y, In y (map (fun j => at_ close j * at_ volume j) (seq (n - 1 + k + 1 - n) n)) -> 0 <= y).
        { intros y Hy. apply in_map_iff in Hy. destruct Hy as (j & <- & Hj). apply in_seq in Hj. destruct (Hp j ltac:(lia)). nra. }
        rewrite Ew in W0. unfold window in W0.
        assert (AZ : qsum (map (at_ volume) (seq (n - 1 + k + 1 - n) n)) == 0).
        { rewrite (qsum_map_ext_seq (at_ volume) (fun _ => 0)).
          - rewrite qsum_map_const. ring.
          - intros j Hj. destruct (Hp j ltac:(lia)) as [P1 P2].
            assert (Z1 : at_ close j * at_ volume j == 0).
            { apply (qsum_zero_all _ NP); [lra|]. apply in_map_iff. exists j. split; auto. apply in_seq. lia. }
            destruct (Qmult_integral _ _ Z1); lra. }
        lra.
      - destruct lg'; eauto. }
    induction k as [|k IH]; intro Hk.
    - pose proof (vwap_sums ln close volume n lg 0 Hn) as [S1 S2]. cbn [vwap_state fst snd] in *. cbv zeta in *.
      set (w' := fold_left (fun s j => s + qn close j * qn volume j) _ _) in *. set (v' := fold_left (fun s j => s + qn volume j) _ _) in *. clearbody w' v'.
      destruct (Qltb_spec 0 v'); [|eauto]. apply (D 0%nat); auto.
    - pose proof (vwap_sums ln close volume n lg (S k) Hn) as [S1 S2]. cbn [vwap_state] in *. cbv zeta in *. cbn [fst snd] in *.
      set (w' := fst (fst _) + _) in *. set (v' := snd (fst _) + _) in *. clearbody w' v'.
      destruct (Qltb_spec 0 v'); [|apply IH; lia]. apply (D (S k)); auto. }
  apply G. lia.
Qed.
(** The first defined value ignores is_log: for a logarithm with ln(3/2) < 1/2. *)
Theorem C52_first_log_refuted : forall ln, ln (3 # 2) < 1 # 2 ->
  exists close volume n out, vwap_distance ln close volume n true = Ok out /\
    0 < qsum (window (at_ volume) (n - 1) n) /\
    qsum (window (fun j => at_ close j * at_ volume j) (n - 1) n) * (3 # 2)
      == at_ close (n - 1) * qsum (window (at_ volume) (n - 1) n) /\
    nth (n - 1) out NaN <> Fin (ln (3 # 2)) /\ exists d, nth (n - 1) out NaN = Fin d /\ d == 1 # 2.
Proof.
  intros ln Hln. exists [1; 3], [1; 1], 2%nat. eexists. split; [vm_compute; reflexivity|].
  split; [reflexivity|]. split; [reflexivity|]. cbn [nth Nat.sub]. split.
  - intro C. injection C as C. rewrite <- C in Hln. revert Hln. apply Qle_not_lt. vm_compute. discriminate.
  - eexists. split; reflexivity.
Qed.
Example C52_example : exists out, vwap_distance (fun x => x - 1) [1; 3; 2] [1; 1; 3] 2 false = Ok out /\
  map (fun o => match o with Fin q => Some (Qred q) | _ => None end) out = [None; Some (1 # 2); Some (-1 # 9)].
Proof. eexists. split; [vm_compute; reflexivity|]. vm_compute. reflexivity. Qed.

Print Assumptions C45_sma.
Print Assumptions C46_ewma.
Print Assumptions C46_rejects.
Print Assumptions C46_causal.
Print Assumptions C48_extremes.
Print Assumptions C47_core_range_partial.
Print Assumptions C47_transform_refuted.
Print Assumptions C49_value.
Print Assumptions C49_range.
Print Assumptions C50_backends_partial.
Print Assumptions C50_no_loss_refuted.
Print Assumptions C50_short_refuted.
Print Assumptions C52_rolling_partial.
Print Assumptions C52_total.
Print Assumptions C52_first_log_refuted.
