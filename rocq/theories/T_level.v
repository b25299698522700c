(** T_level.v -- indicators of prices with a constant added and of prices turned upside down (C176). *)
From Verif Require Import Base M_logic M_bars M_features M_volat M_cusumtest S_units S_level P_units P_units2 P_units4 P_units5 P_units6 P_level P_level2 T_units T_units2.
Open Scope Q_scope.

(* ================================================================== *)
(** * C176  A constant added to the prices; prices turned upside down *)

Definition shifted (d : Q) (l : list Q) : list Q := map (fun x => x + d) l.
Definition turned_at (d : Q) (l : list Q) : list Q := map (fun x => d - x) l.
Lemma shifted_lin d l : linl 1 d l (shifted d l).
Proof. induction l as [|x l IH]; constructor; [unfold lin; ring|exact IH]. Qed.
Lemma turned_lin d l : linl (-(1)) d l (turned_at d l).
Proof. induction l as [|x l IH]; constructor; [unfold lin; ring|exact IH]. Qed.
Lemma qsqrt_respects : respects qsqrt.
Proof. intros x y E. pose proof (qsqrt_like 1 x y ltac:(reflexivity)) as H. unfold sc in H. rewrite H; [ring|]. rewrite E. ring. Qed.
Lemma sign_1 : sign_like 1. Proof. left. reflexivity. Qed.
Lemma sign_m1 : sign_like (-(1)). Proof. right. reflexivity. Qed.

(** Averages move with the prices. *)
Theorem C176_averages : forall (s d : Q) (xs xs' : list Q) (w : nat) (span : Z), (1 <= w)%nat -> linl s d xs xs' ->
  olinl s d (sma xs w) (sma xs' w) /\ both (linl s d) (ewma xs span) (ewma xs' span).
Proof. intros s d xs xs' w span Hw H. split; [now apply sma_level|now apply ewma_level]. Qed.
Definition ex_p : list Q := [10; 12; 11; 15; 14; 18].
Example C176_averages_example :
  olinl 1 100 (sma ex_p 3) (sma (shifted 100 ex_p) 3) /\ both (linl (-(1)) 20) (ewma ex_p 3) (ewma (turned_at 20 ex_p) 3) /\
  map (option_map Qred) (sma ex_p 3) = [None; None; Some 11; Some (38 # 3); Some (40 # 3); Some (47 # 3)].
Proof.
  split; [exact (proj1 (C176_averages 1 100 ex_p _ 3 1 ltac:(lia) (shifted_lin _ _)))|].
  split; [exact (proj2 (C176_averages (-(1)) 20 ex_p _ 3 3 ltac:(lia) (turned_lin _ _)))|vm_compute; reflexivity].
Qed.

(** The relative strength index ignores a constant; turned upside down it is reflected at 50, except that a value 0 and a missing value
    stand for each other. *)
Theorem C176_rsi : forall (d : Q) (p q r : list Q) (w : nat), (1 <= w)%nat -> linl 1 d p q -> linl (-(1)) d p r ->
  oscl 1 (rsi_wilder p w) (rsi_wilder q w) /\ Forall2 turned (rsi_wilder p w) (rsi_wilder r w) /\
  both (oscl 1) (rsi_pd p w) (rsi_pd q w) /\ both (Forall2 turned_pd) (rsi_pd p w) (rsi_pd r w).
Proof.
  intros d p q r w Hw H1 H2. split; [now apply (rsi_shift d)|]. split; [now apply (rsi_turn d)|]. split; [now apply (rsi_pd_shift d)|now apply (rsi_pd_turn d)].
Qed.
Example C176_rsi_example :
  oscl 1 (rsi_wilder ex_p 3) (rsi_wilder (shifted 100 ex_p) 3) /\ Forall2 turned (rsi_wilder ex_p 3) (rsi_wilder (turned_at 20 ex_p) 3) /\
  map (option_map Qred) (rsi_wilder ex_p 3) = [None; None; None; Some (600 # 7); Some (1200 # 17); Some (600 # 7)] /\
  map (option_map Qred) (rsi_wilder (turned_at 20 ex_p) 3) = [None; None; None; Some (100 # 7); Some (500 # 17); Some (100 # 7)].
Proof.
  destruct (C176_rsi 100 ex_p _ _ 3 ltac:(lia) (shifted_lin _ _) (turned_lin _ _)) as (A & _).
  destruct (C176_rsi 20 ex_p _ _ 3 ltac:(lia) (shifted_lin _ _) (turned_lin _ _)) as (_ & B & _).
  split; [exact A|]. split; [exact B|]. vm_compute. repeat split.
Qed.
(** So RSI is not symmetric: falling prices have RSI 0, the same prices upside down have no RSI with numba; flat prices are at 100 with
    pandas, upside down too. *)
Theorem C176_rsi_refuted : exists d p r w i, (1 <= w)%nat /\ linl (-(1)) d p r /\
  osc 1 (Some 0) (known (rsi_wilder p w) i) /\ known (rsi_wilder r w) i = None /\
  exists d' p' r' v, linl (-(1)) d' p' r' /\ rsi_pd p' w = Ok v /\ rsi_pd r' w = Ok v /\ known v i = Some 100.
Proof.
  exists 10, [5; 4; 3], (turned_at 10 [5; 4; 3]), 2%nat, 2%nat. split; [lia|]. split; [apply turned_lin|]. split; [vm_compute; reflexivity|].
  split; [vm_compute; reflexivity|]. exists 10, [5; 5; 5], (turned_at 10 [5; 5; 5]), [None; None; Some 100]. split; [apply turned_lin|]. vm_compute. repeat split.
Qed.

(** Stochastic %K of close, low and high. *)
Theorem C176_stochastic : forall (d : Q) (cl lo hi cl' lo' hi' : list Q) (n : nat), (1 <= n)%nat -> length lo = length cl -> length hi = length cl ->
  (linl 1 d cl cl' -> linl 1 d lo lo' -> linl 1 d hi hi' -> oscl 1 (stoch_k cl lo hi n) (stoch_k cl' lo' hi' n)) /\
  (linl (-(1)) d cl cl' -> linl (-(1)) d hi lo' -> linl (-(1)) d lo hi' -> Forall2 (osum 100) (stoch_k cl lo hi n) (stoch_k cl' lo' hi' n)).
Proof. intros. split; intros; [now apply (stoch_shift d)|now apply (stoch_turn d)]. Qed.
Definition ex_cl : list Q := [10; 12; 11; 15].
Definition ex_lo : list Q := [9; 10; 10; 12].
Definition ex_hi : list Q := [11; 13; 12; 16].
Example C176_stochastic_example :
  Forall2 (osum 100) (stoch_k ex_cl ex_lo ex_hi 3) (stoch_k (turned_at 20 ex_cl) (turned_at 20 ex_hi) (turned_at 20 ex_lo) 3) /\
  oscl 1 (stoch_k ex_cl ex_lo ex_hi 3) (stoch_k (shifted 20 ex_cl) (shifted 20 ex_lo) (shifted 20 ex_hi) 3) /\
  map (option_map Qred) (stoch_k ex_cl ex_lo ex_hi 3) = [None; None; Some 50; Some (250 # 3)] /\
  map (option_map Qred) (stoch_k (turned_at 20 ex_cl) (turned_at 20 ex_hi) (turned_at 20 ex_lo) 3) = [None; None; Some 50; Some (50 # 3)].
Proof.
  destruct (C176_stochastic 20 ex_cl ex_lo ex_hi (turned_at 20 ex_cl) (turned_at 20 ex_hi) (turned_at 20 ex_lo) 3 ltac:(lia) eq_refl eq_refl) as [_ A].
  destruct (C176_stochastic 20 ex_cl ex_lo ex_hi (shifted 20 ex_cl) (shifted 20 ex_lo) (shifted 20 ex_hi) 3 ltac:(lia) eq_refl eq_refl) as [B _].
  split; [apply A; apply turned_lin|]. split; [apply B; apply shifted_lin|]. vm_compute. repeat split.
Qed.
(** The transform of the feature kit passes high, low and close in the wrong places; it is not reflected at 50. *)
Theorem C176_stochastic_refuted : exists d hi lo cl hi' lo' cl' n, length lo = length hi /\ length cl = length hi /\
  linl (-(1)) d cl cl' /\ linl (-(1)) d hi lo' /\ linl (-(1)) d lo hi' /\ ~ Forall2 (osum 100) (stoch_transform hi lo cl n) (stoch_transform hi' lo' cl' n).
Proof.
  exists 20, ex_hi, ex_lo, ex_cl, (turned_at 20 ex_lo), (turned_at 20 ex_hi), (turned_at 20 ex_cl), 3%nat.
  split; [reflexivity|]. split; [reflexivity|]. split; [apply turned_lin|]. split; [apply turned_lin|]. split; [apply turned_lin|].
  intro H. apply (F2_nth (osum 100) None None) with (i := 3%nat) in H; [|exact I]. vm_compute in H. discriminate.
Qed.

(** ADX, true range and ATR. *)
Theorem C176_trend : forall (d : Q) (hi lo cl hi' lo' cl' : list Q) (len : nat), (1 <= len)%nat -> length lo = length hi -> length cl = length hi ->
  linl 1 d hi hi' /\ linl 1 d lo lo' /\ linl 1 d cl cl' \/ linl (-(1)) d lo hi' /\ linl (-(1)) d hi lo' /\ linl (-(1)) d cl cl' ->
  scl 1 (adx_core hi lo cl len) (adx_core hi' lo' cl' len).
Proof. intros d hi lo cl hi' lo' cl' len Hn L1 L2 [(A & B & C)|(A & B & C)]; [now apply (adx_shift d)|now apply (adx_turn d)]. Qed.
Definition ex_h6 : list Q := [11; 13; 12; 16; 17; 15].
Definition ex_l6 : list Q := [9; 10; 10; 12; 14; 11].
Definition ex_c6 : list Q := [10; 12; 11; 15; 16; 12].
Example C176_trend_example :
  scl 1 (adx_core ex_h6 ex_l6 ex_c6 2) (adx_core (turned_at 30 ex_l6) (turned_at 30 ex_h6) (turned_at 30 ex_c6) 2) /\
  scl 1 (adx_core ex_h6 ex_l6 ex_c6 2) (adx_core (shifted 30 ex_h6) (shifted 30 ex_l6) (shifted 30 ex_c6) 2) /\
  exists x, Qltb 0 x = true /\ map Qred (adx_core ex_h6 ex_l6 ex_c6 2) = [0; 0; 0; 100; 100; x].
Proof.
  split; [apply (C176_trend 30); [lia|reflexivity|reflexivity|right; repeat split; apply turned_lin]|].
  split; [apply (C176_trend 30); [lia|reflexivity|reflexivity|left; repeat split; apply shifted_lin]|].
  eexists. split; [|vm_compute; reflexivity]. vm_compute. reflexivity.
Qed.
Theorem C176_ranges : forall (d : Q) (h l k h' l' k' : list (option Q)) (w : nat) (ema : bool),
  olinl 1 d h h' /\ olinl 1 d l l' /\ olinl 1 d k k' \/ olinl (-(1)) d l h' /\ olinl (-(1)) d h l' /\ olinl (-(1)) d k k' ->
  both (oscl 1) (true_range h l k) (true_range h' l' k') /\ both (oscl 1) (atr h l k w ema false) (atr h' l' k' w ema false).
Proof.
  intros d h l k h' l' k' w ema [(A & B & C)|(A & B & C)]; [now apply (range_shift d)|]. split; [now apply (true_range_turn d)|now apply (atr_turn d)].
Qed.
Definition oturned_at (d : Q) (l : list (option Q)) : list (option Q) := map (option_map (fun x => d - x)) l.
Definition oshifted (d : Q) (l : list (option Q)) : list (option Q) := map (option_map (fun x => x + d)) l.
Lemma oturned_lin d l : olinl (-(1)) d l (oturned_at d l).
Proof. induction l as [|[x|] l IH]; constructor; try exact IH; cbn; [unfold lin; ring|exact I]. Qed.
Lemma oshifted_lin d l : olinl 1 d l (oshifted d l).
Proof. induction l as [|[x|] l IH]; constructor; try exact IH; cbn; [unfold lin; ring|exact I]. Qed.
Example C176_ranges_example :
  both (oscl 1) (atr (map Some ex_h6) (map Some ex_l6) (map Some ex_c6) 3 false false)
    (atr (oturned_at 30 (map Some ex_l6)) (oturned_at 30 (map Some ex_h6)) (oturned_at 30 (map Some ex_c6)) 3 false false) /\
  true_range (map Some ex_h6) (map Some ex_l6) (map Some ex_c6) = Ok (map Some [2; 3; 2; 5; 3; 5]).
Proof.
  split; [|vm_compute; reflexivity]. apply (C176_ranges 30). right. repeat split; apply oturned_lin.
Qed.
(** An ATR in units of the close depends on the level of prices. *)
Theorem C176_ranges_refuted : exists d h l k w v v' i, atr h l k w true true = Ok v /\ atr (oshifted d h) (oshifted d l) (oshifted d k) w true true = Ok v' /\
  ~ osc 1 (known v i) (known v' i).
Proof.
  eexists 100, (map Some ex_h6), (map Some ex_l6), (map Some ex_c6), 2%nat, _, _, 3%nat. split; [vm_compute; reflexivity|]. split; [vm_compute; reflexivity|].
  vm_compute. discriminate.
Qed.

(** Deviations from a mean: the z-score of turned prices is opposite, %b is reflected at 1/2, variances and weighted volatilities stay. *)
Theorem C176_deviations : forall (sqrt : Q -> Q) (s d k : Q) (xs xs' : list Q) (w : nat) (ddof : Z), respects sqrt -> sign_like s -> (1 <= w)%nat -> linl s d xs xs' ->
  olinl s 0 (comp_zscore sqrt xs w ddof) (comp_zscore sqrt xs' w ddof) /\
  both (Forall2 (bb_rel s)) (bollinger_percent_b sqrt xs w k) (bollinger_percent_b sqrt xs' w k).
Proof. intros. split; [now apply (zscore_level sqrt s d)|now apply (bb_level sqrt s d)]. Qed.
Definition sq01 (x : Q) : Q := if Qeqb x 0 then 0 else x.
Example C176_deviations_example :
  olinl (-(1)) 0 (comp_zscore qsqrt ex_p 2 0) (comp_zscore qsqrt (turned_at 20 ex_p) 2 0) /\
  both (Forall2 (bb_rel (-(1)))) (bollinger_percent_b qsqrt [1; 3; 5; 3; 1] 3 1) (bollinger_percent_b qsqrt (turned_at 6 [1; 3; 5; 3; 1]) 3 1).
Proof.
  split; [exact (proj1 (C176_deviations qsqrt (-(1)) 20 1 ex_p _ 2 0 qsqrt_respects sign_m1 ltac:(lia) (turned_lin _ _)))|].
  exact (proj2 (C176_deviations qsqrt (-(1)) 6 1 [1; 3; 5; 3; 1] _ 3 0 qsqrt_respects sign_m1 ltac:(lia) (turned_lin _ _))).
Qed.
Theorem C176_volatilities : forall (sqrt exp : Q -> Q) (s d : Q) (ts : list Z) (y y' : list (option Q)) (span ddof mp : Z) (w : nat) (hl f : Q),
  respects sqrt -> sign_like s -> (0 <= ddof)%Z -> olinl s d y y' ->
  oscl 1 (ewms sqrt y span) (ewms sqrt y' span) /\
  oscl 1 (rolling_variance y w ddof mp) (rolling_variance y' w ddof mp) /\
  (d == 0 \/ (forall j, (1 <= j < length y)%nat -> known y j <> None) -> both (oscl 1) (ewmst sqrt exp ts y hl f) (ewmst sqrt exp ts y' hl f)).
Proof.
  intros sqrt exp s d ts y y' span ddof mp w hl f Hr Hs Hd H. split; [now apply (ewms_level sqrt s d)|]. split; [now apply (rolling_variance_level s d)|].
  intro K. now apply (ewmst_level sqrt exp s d).
Qed.
Definition ex_y : list (option Q) := [Some 1; Some 3; None; Some 2; Some 7].
Definition ex_expm (x : Q) : Q := 1 # 2.
Example C176_volatilities_example :
  oscl 1 (ewms qsqrt ex_y 3) (ewms qsqrt (oturned_at 10 ex_y) 3) /\
  oscl 1 (rolling_variance ex_y 3 1 1) (rolling_variance (oshifted 10 ex_y) 3 1 1) /\
  both (oscl 1) (ewmst qsqrt ex_expm [0; 1; 2; 3; 4]%Z ex_y 1 0) (ewmst qsqrt ex_expm [0; 1; 2; 3; 4]%Z (oturned_at 0 ex_y) 1 0) /\
  map (option_map Qred) (rolling_variance ex_y 3 1 1) = [None; None; Some 2; Some (1 # 2); Some (25 # 2)].
Proof.
  destruct (C176_volatilities qsqrt ex_expm (-(1)) 10 [0; 1; 2; 3; 4]%Z ex_y _ 3 1 1 3 1 0 qsqrt_respects sign_m1 ltac:(lia) (oturned_lin _ _)) as (A & _ & _).
  destruct (C176_volatilities qsqrt ex_expm 1 10 [0; 1; 2; 3; 4]%Z ex_y _ 3 1 1 3 1 0 qsqrt_respects sign_1 ltac:(lia) (oshifted_lin _ _)) as (_ & B & _).
  destruct (C176_volatilities qsqrt ex_expm (-(1)) 0 [0; 1; 2; 3; 4]%Z ex_y _ 3 1 1 3 1 0 qsqrt_respects sign_m1 ltac:(lia) (oturned_lin _ _)) as (_ & _ & C).
  split; [exact A|]. split; [exact B|]. split; [apply C; left; reflexivity|]. vm_compute. reflexivity.
Qed.
(** With a missing return the time weighted volatility does depend on the level of the returns. *)
Theorem C176_volatilities_refuted : exists d ts y v v' i, ewmst sq01 ex_expm ts y 1 0 = Ok v /\ ewmst sq01 ex_expm ts (oshifted d y) 1 0 = Ok v' /\ ~ osc 1 (known v i) (known v' i).
Proof.
  eexists 100, [0; 1; 2; 3; 4]%Z, ex_y, _, _, 4%nat. split; [vm_compute; reflexivity|]. split; [vm_compute; reflexivity|]. vm_compute. discriminate.
Qed.
(** Volatilities around zero ignore the sign of returns. *)
Theorem C176_zero_mean : forall (sqrt exp : Q -> Q) (s : Q) (ts : list Z) (y y' : list (option Q)) (w : nat) (sm : bool) (hl f : Q),
  respects sqrt -> sign_like s -> olinl s 0 y y' ->
  oscl 1 (realized_vol sqrt y w sm) (realized_vol sqrt y' w sm) /\ both (oscl 1) (ewmst_mean0 sqrt exp ts y hl f) (ewmst_mean0 sqrt exp ts y' hl f).
Proof. intros. split; [now apply (realized_level sqrt s)|now apply (mean0_level sqrt exp s)]. Qed.
Example C176_zero_mean_example :
  oscl 1 (realized_vol qsqrt ex_y 3 true) (realized_vol qsqrt (oturned_at 0 ex_y) 3 true) /\
  map (option_map Qred) (realized_vol sq01 ex_y 3 true) = [None; None; Some 10; Some 13; Some 53].
Proof. split; [|vm_compute; reflexivity]. exact (proj1 (C176_zero_mean qsqrt ex_expm (-(1)) [] ex_y _ 3 true 1 0 qsqrt_respects sign_m1 (oturned_lin _ _))). Qed.

(** Prices turned on a logarithmic scale: log returns are opposite, ranges and variance ratios stay. *)
Theorem C176_log : forall (ln : Q -> Q) (c : Q) (ts : list Z) (W : Z) (h l p h' l' p' : list Q) (o o' : list (option Q)) (w : nat) (ddof : Z),
  odd_log ln -> 0 < c -> length ts = length p -> length h = length l -> (0 <= ddof)%Z ->
  Forall2 (turned_log c) p p' -> Forall2 (turned_log c) l h' -> Forall2 (turned_log c) h l' -> Forall2 (oturned_log c) o o' ->
  both (Forall2 eopp) (comp_lagged_returns ln ts p W true) (comp_lagged_returns ln ts p' W true) /\
  both (scl 1) (parkinson_range ln h l) (parkinson_range ln h' l') /\
  oscl 1 (variance_ratio ln o w ddof true) (variance_ratio ln o' w ddof true).
Proof.
  intros ln c ts W h l p h' l' p' o o' w ddof Hl Hc L1 L2 Hd H1 H2 H3 H4. split; [now apply (lagged_turn ln c)|]. split; [apply (parkinson_turn ln c); auto; apply Hl|].
  now apply (variance_ratio_turn ln c).
Qed.
Definition oddf (x : Q) : Q := x - / x.
Lemma oddf_log : odd_log oddf.
Proof. split; [intros x y E; unfold oddf; now rewrite E|]. intros x Hx. unfold oddf. field. lra. Qed.
Definition over (c : Q) (l : list Q) : list Q := map (fun x => c / x) l.
Lemma over_turned c l : Forall (fun x => 0 < x) l -> Forall2 (turned_log c) l (over c l).
Proof. induction 1; constructor; auto. split; [assumption|reflexivity]. Qed.
Lemma over_oturned c l : Forall (fun x => 0 < x) l -> Forall2 (oturned_log c) (map Some l) (map Some (over c l)).
Proof. induction 1; constructor; auto. split; [assumption|reflexivity]. Qed.
Lemma ex_pos l : forallb (Qltb 0) l = true -> Forall (fun x => 0 < x) l.
Proof. induction l as [|x l IH]; cbn [forallb]; constructor; destruct (Qltb_spec 0 x); try discriminate; auto. Qed.
Example C176_log_example :
  both (Forall2 eopp) (comp_lagged_returns oddf [0; 5; 10; 15]%Z ex_cl 5 true) (comp_lagged_returns oddf [0; 5; 10; 15]%Z (over 60 ex_cl) 5 true) /\
  both (scl 1) (parkinson_range oddf ex_hi ex_lo) (parkinson_range oddf (over 60 ex_lo) (over 60 ex_hi)) /\
  oscl 1 (variance_ratio oddf (map Some ex_p) 2 0 true) (variance_ratio oddf (map Some (over 60 ex_p)) 2 0 true) /\
  map (option_map (Qltb 0)) (variance_ratio oddf (map Some ex_p) 2 0 true) = [None; None; None; None; None; Some true].
Proof.
  destruct (C176_log oddf 60 [0; 5; 10; 15]%Z 5 ex_hi ex_lo ex_cl _ _ _ (map Some ex_p) _ 2 0 oddf_log ltac:(reflexivity) eq_refl eq_refl ltac:(lia)
    (over_turned 60 ex_cl (ex_pos ex_cl ltac:(reflexivity))) (over_turned 60 ex_lo (ex_pos ex_lo ltac:(reflexivity))) (over_turned 60 ex_hi (ex_pos ex_hi ltac:(reflexivity))) (over_oturned 60 ex_p (ex_pos ex_p ltac:(reflexivity)))) as (A & B & C).
  split; [exact A|]. split; [exact B|]. split; [exact C|]. vm_compute. reflexivity.
Qed.
(** Simple returns are not opposite. *)
Theorem C176_log_refuted : exists c ts W p, Forall (fun x => 0 < x) p /\ 0 < c /\ length ts = length p /\
  ~ both (Forall2 eopp) (comp_lagged_returns oddf ts p W false) (comp_lagged_returns oddf ts (over c p) W false).
Proof.
  exists 60, [0; 5; 10; 15]%Z, 5%Z, ex_cl. split; [apply ex_pos; reflexivity|]. split; [reflexivity|]. split; [reflexivity|].
  intro H. vm_compute in H. inversion H as [|? ? ? ? ? K1]. inversion K1 as [|? ? ? ? K2 ?]. vm_compute in K2. discriminate.
Qed.

(** The structural break test: a factor on the prices changes nothing, turned prices have the upward and the downward statistic with their
    critical values exchanged. *)
Theorem C176_break_test : forall (sqrt ln : Q -> Q) (s d : Q) (p p' : list Q) (window warmup : nat), respects sqrt -> sign_like s ->
  Forall (fun x => 0 < x) p -> Forall (fun x => 0 < x) p' -> linl s d (map ln p) (map ln p') ->
  both (Forall2 (ocs_rel s)) (cusum_rolling sqrt ln p window warmup) (cusum_rolling sqrt ln p' window warmup) /\
  both (Forall2 (ocs_rel s)) (cusum_developing sqrt ln p warmup) (cusum_developing sqrt ln p' warmup) /\
  (p <> [] -> cs_rel s (cusum_last sqrt ln p) (cusum_last sqrt ln p')).
Proof.
  intros. split; [now apply (rolling_level sqrt ln s d)|]. split; [now apply (developing_level sqrt ln s d)|]. intro. now apply (last_level sqrt ln s d).
Qed.
Lemma over_linl l : Forall (fun x => 0 < x) l -> linl (-(1)) 0 (map oddf l) (map oddf (over 1 l)).
Proof. induction 1 as [|x l Hx _ IH]; constructor; [|exact IH]. unfold lin, oddf. field. lra. Qed.
Definition sqid (x : Q) : Q := x.
Example C176_break_test_example :
  both (Forall2 (ocs_rel (-(1)))) (cusum_rolling sqid oddf [1; 2; 1; 3; 2; 4; 1] 4 2) (cusum_rolling sqid oddf (over 1 [1; 2; 1; 3; 2; 4; 1]) 4 2) /\
  match cusum_rolling sqid oddf [1; 2; 1; 3; 2; 4; 1] 4 2, cusum_rolling sqid oddf (over 1 [1; 2; 1; 3; 2; 4; 1]) 4 2 with
  | Ok v, Ok v' => (option_map (fun s => (Qltb 0 (c_up s), Qltb 0 (c_dn s))) (nth 5 v None), option_map (fun s => (Qltb 0 (c_up s), Qltb 0 (c_dn s))) (nth 5 v' None))
  | _, _ => (None, None) end = (Some (true, false), Some (false, true)).
Proof.
  split; [|vm_compute; reflexivity].
  apply (C176_break_test sqid oddf (-(1)) 0); [intros x y E; exact E|exact sign_m1|apply ex_pos; reflexivity|apply ex_pos; vm_compute; reflexivity|apply over_linl, ex_pos; reflexivity].
Qed.

Print Assumptions C176_averages.
Print Assumptions C176_rsi.
Print Assumptions C176_rsi_refuted.
Print Assumptions C176_stochastic.
Print Assumptions C176_stochastic_refuted.
Print Assumptions C176_trend.
Print Assumptions C176_ranges.
Print Assumptions C176_ranges_refuted.
Print Assumptions C176_deviations.
Print Assumptions C176_volatilities.
Print Assumptions C176_volatilities_refuted.
Print Assumptions C176_zero_mean.
Print Assumptions C176_log.
Print Assumptions C176_log_refuted.
Print Assumptions C176_break_test.
