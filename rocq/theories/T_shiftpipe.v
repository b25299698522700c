(** T_shiftpipe.v -- C200: stored and resampled time bars on a later clock. *)
From Verif Require Import Base M_logic M_bars M_tbio M_float M_float16 M_pipe S_shift S_shiftpipe P_shiftpipe T_tbio.
Open Scope Z_scope.

(** Sorting by size does not depend on the clock. *)
Theorem C200_order : forall d, order_timeless d sort_med.
Proof.
  intros d g. unfold sort_med. induction g as [|b g IH]; [reflexivity|]. cbn [map fold_right]. rewrite IH. generalize (fold_right ins_med [] g) as l. clear IH.
  induction l as [|c l IH]; [reflexivity|]. cbn [map ins_med]. cbn [later_bar b_med]. destruct (Qleb (b_med b) (b_med c)); [reflexivity|]. cbn [map]. now rewrite IH.
Qed.
(** Bars whole periods later: the same rows as much later, exact and in floats. *)
Theorem C200_resample : forall d sort tf df, 0 < tf -> (tf | d) -> order_timeless d sort ->
  resample sort tf (map (later_bar d) df) = map (later_bar d) (resample sort tf df) /\
  resample_f sort tf (map (later_bar d) df) = map (later_bar d) (resample_f sort tf df).
Proof. intros d sort tf df P D O. split; [now apply resample_later|now apply resample_f_later]. Qed.
(** Trades between 2006 and 2043 whole periods later: the same rows as much later. *)
Theorem C200_trades : forall d sort px am ts I tf, ts <> [] -> ascZ ts -> 512 <= I -> (512 | I) -> (I | tf) -> 0 < tf -> (tf | d) -> order_timeless d sort ->
  2 ^ 60 <= hd 0 ts -> 2 ^ 60 <= hd 0 ts + d -> last ts 0 + 2 * I + 512 < 2 ^ 61 -> last ts 0 + d + 2 * I + 512 < 2 ^ 61 ->
  on_ok (resample sort tf) (stored_bars px am (later d ts) I) = on_ok (map (later_bar d)) (on_ok (resample sort tf) (stored_bars px am ts I)) /\
  on_ok (resample_f sort tf) (stored_bars_f px am (later d ts) I) = on_ok (map (later_bar d)) (on_ok (resample_f sort tf) (stored_bars_f px am ts I)).
Proof.
  intros d sort px am ts I tf NE A I1 I2 IT TP D O H1 H2 L1 L2. destruct (Z.divide_trans _ _ _ IT D) as [m E].
  assert (H2' : 2 ^ 60 <= hd 0 ts + m * I) by (rewrite <- E; exact H2). assert (L2' : last ts 0 + m * I + 2 * I + 512 < 2 ^ 61) by (rewrite <- E; exact L2).
  destruct (stored_bars_later px am ts I m NE A I1 I2 H1 H2' L1 L2') as [S1 S2]. rewrite <- E in S1, S2. rewrite S1, S2. split.
  - destruct (stored_bars px am ts I) as [df|x]; [|reflexivity]. cbn [on_ok]. f_equal. now apply resample_later.
  - destruct (stored_bars_f px am ts I) as [df|x]; [|reflexivity]. cbn [on_ok]. f_equal. now apply resample_f_later.
Qed.

(** Three trades within eleven seconds. *)
Definition ht : list Z := [1600000000500000000; 1600000002500000000; 1600000010500000000].
Definition hs : Z := 1000000000.
(** A part of a period is too little: the same trades a second later fall into other periods of four seconds. *)
Theorem C200_part_refuted : exists d px am ts I tf df df', (I | d) /\ (I | tf) /\ 2 ^ 60 <= hd 0 ts /\
  stored_bars px am ts I = Ok df /\ stored_bars px am (later d ts) I = Ok df' /\ df' = map (later_bar d) df /\
  map b_trades (resample sort_med tf df) = [2; 0; 1] /\ map b_trades (resample sort_med tf df') = [1; 1; 0; 1].
Proof.
  exists hs, [100; 50; 60]%Q, [1; 2; 3]%Q, ht, hs, (4 * hs). eexists _, _. split; [exists 1; reflexivity|]. split; [exists 4; reflexivity|]. split; [vm_compute; discriminate|].
  split; [vm_compute; reflexivity|]. split; [vm_compute; reflexivity|]. split; [vm_compute; reflexivity|]. split; vm_compute; reflexivity.
Qed.

(** A day later. *)
Example C200_example : ht <> [] /\ ascZ ht /\ 512 <= hs /\ (512 | hs) /\ (hs | 4 * hs) /\ (4 * hs | 86400 * hs) /\ order_timeless (86400 * hs) sort_med /\
  2 ^ 60 <= hd 0 ht /\ last ht 0 + 86400 * hs + 2 * hs + 512 < 2 ^ 61 /\
  (exists df, stored_bars [100; 50; 60]%Q [1; 2; 3]%Q (later (86400 * hs) ht) hs = Ok df /\
    map b_ts (resample sort_med (4 * hs) df) = [1600086400 * hs; 1600086404 * hs; 1600086408 * hs] /\ map b_trades (resample sort_med (4 * hs) df) = [2; 0; 1]) /\
  exists df, stored_bars_f [100; 50; 60]%Q [1; 2; 3]%Q ht hs = Ok df /\ map b_ts (resample_f sort_med (4 * hs) df) = [1600000000 * hs; 1600000004 * hs; 1600000008 * hs].
Proof.
  split; [discriminate|]. split; [intros [|[|[|i]]] [|[|[|j]]] H; cbn in *; lia|]. split; [vm_compute; discriminate|]. split; [exists 1953125; reflexivity|]. split; [exists 4; reflexivity|].
  split; [exists 21600; reflexivity|]. split; [apply C200_order|]. split; [vm_compute; discriminate|]. split; [vm_compute; reflexivity|].
  split; eexists; (split; [vm_compute; reflexivity|]); [split|]; vm_compute; reflexivity.
Qed.
Example C200_example_resample : 0 < 2 /\ (2 | 10) /\ map b_ts (resample sort_med 2 ex_df) = [0; 4; 6] /\ map b_ts (resample sort_med 2 (map (later_bar 10) ex_df)) = [10; 14; 16] /\
  map b_ts (resample_f sort_med 2 (map (later_bar 10) ex_df)) = [10; 14; 16].
Proof. split; [lia|]. split; [exists 5; reflexivity|]. repeat split; vm_compute; reflexivity. Qed.

Print Assumptions C200_order.
Print Assumptions C200_resample.
Print Assumptions C200_trades.
Print Assumptions C200_part_refuted.
