(** T_pipe.v -- C198: from trades to resampled time bars. *)
From Coq Require Import Qpower Lqa.
From Verif Require Import Base M_logic M_bars M_float M_tbio M_float16 M_pipe M_builder S_logic S_bars S_float S_pipe T_logic P_pipe3 P_pipe2.
Open Scope Z_scope.

(** Under the conditions of C01 the ticks are whole multiples of the interval that cover the trades. *)
Theorem C198_ticks : forall ts I, ts <> [] -> ascZ ts -> 512 <= I -> (256 | I) -> 0 <= hd 0 ts -> last ts 0 + 2 * I < 2 ^ 61 ->
  hd 0 ts mod I + 128 < I -> (last ts 0 mod I = 0 \/ 384 < last ts 0 mod I) -> exists N a, ticks_cover ts (fst (time_bar_indexer ts I)) I a N.
Proof.
  intros ts I NE A I1 I2 H0 HL HM HN. destruct (C01_clock ts I NE A I1 I2 H0 HL HM HN) as (N & a & _ & E & F & L & _). exists N, a. split; [exact E|]. split; [exact F|exact L].
Qed.

(** The stored bars are the frame of the bar builder. *)
Theorem C198_builder : forall ln ts px am sd I f, fst (build_ohlcv ln (fresh (KTime I) (mkTr ts px am sd))) = Ok f -> stored_bars px am ts I = Ok (map stored f).
Proof.
  intros ln ts px am sd I f. unfold build_ohlcv, set_close, fresh, comp_bar_close, stored_bars. cbn [bd_close bd_kit bd_tr t_ts t_px t_am].
  destruct (time_bar_indexer ts I) as [c x]. cbn [fst snd]. destruct (comp_bar_ohlcv px am x) as [l|e]; [|discriminate]. unfold frame. destruct (length (tl c) =? length l)%nat; [|discriminate].
  cbn [fst]. destruct (freq_ok _ _); [|discriminate]. intro E. apply ok_eq in E. now subst f.
Qed.
(** A resampled row labelled K holds the totals of the trades in (K - I, K + tf - I], without those at the first tick.  Its candle is
    theirs if one of them is in the first bar of the period, otherwise it starts with the trade before. *)
Theorem C198_row : forall sort px am ts I tf a N bars r, ts <> [] -> ascZ ts -> 0 < I -> (I | tf) -> 0 < tf -> (forall x, In x am -> (0 <= x)%Q) ->
  ticks_cover ts (fst (time_bar_indexer ts I)) I a N -> stored_bars px am ts I = Ok bars -> In r (resample sort tf bars) ->
  exists s e, -1 <= s <= e /\ 0 <= e < Z.of_nat (length ts) /\
    (forall j, (j < length ts)%nat -> (s < Z.of_nat j <= e <-> b_ts r - I < nth j ts 0 <= b_ts r + tf - I /\ a * I < nth j ts 0)) /\
    totals px am s e r /\
    let first := Z.max (b_ts r) ((a + 1) * I) in
    ((exists j, (j < length ts)%nat /\ s < Z.of_nat j /\ nth j ts 0 <= first) -> candle px s e r) /\
    ((forall j, (j < length ts)%nat -> s < Z.of_nat j -> first < nth j ts 0) -> 0 <= s /\ candle px (s - 1) e r).
Proof. exact pipe_row. Qed.
(** Every period from the first to the last bar has a row, with or without trades. *)
Theorem C198_periods : forall sort px am ts I tf a N bars K, ts <> [] -> ascZ ts -> 0 < I -> (I | tf) -> 0 < tf ->
  ticks_cover ts (fst (time_bar_indexer ts I)) I a N -> stored_bars px am ts I = Ok bars ->
  (In K (map b_ts (resample sort tf bars)) <-> (tf | K) /\ floor_to tf ((a + 1) * I) <= K <= floor_to tf ((a + Z.of_nat N - 1) * I)).
Proof. exact pipe_periods. Qed.
(** All rows together hold every trade after the first tick exactly once. *)
Theorem C198_totals : forall sort px am ts I tf a N bars, ts <> [] -> ascZ ts -> 0 < I -> (forall x, In x am -> (0 <= x)%Q) ->
  ticks_cover ts (fst (time_bar_indexer ts I)) I a N -> stored_bars px am ts I = Ok bars ->
  exists s, -1 <= s < Z.of_nat (length ts) /\ (forall j, (j < length ts)%nat -> (s < Z.of_nat j <-> a * I < nth j ts 0)) /\
    zsum (map b_trades (resample sort tf bars)) = Z.of_nat (length ts) - 1 - s /\
    (qsum (map b_vol (resample sort tf bars)) == bsum (at_ am) s (Z.of_nat (length ts) - 1))%Q.
Proof. exact pipe_totals. Qed.
(** In float32 and float64: the rows of exact arithmetic, volumes up to 14 and VWAPs up to 24 float32 roundings, for periods of up to
    86400 bars and fewer than 2^28 trades. *)
Theorem C198_float : forall sort sort' px am ts I tf a N bars bars_f, ts <> [] -> ascZ ts -> 0 < I -> (I | tf) -> 0 < tf <= 86400 * I -> Z.of_nat (length ts) < 2 ^ 28 ->
  (forall x, In x px -> (0 <= x)%Q) -> (forall x, In x am -> (0 <= x)%Q) -> ticks_cover ts (fst (time_bar_indexer ts I)) I a N ->
  stored_bars px am ts I = Ok bars -> stored_bars_f px am ts I = Ok bars_f ->
  Forall2 (fun r x =>
    b_ts r = b_ts x /\ b_open r = b_open x /\ b_high r = b_high x /\ b_low r = b_low x /\ b_close r = b_close x /\ b_trades r = b_trades x /\
    (Qabs (b_vol r - b_vol x) <= 14 * u24 * b_vol x)%Q /\
    match b_vwap r, b_vwap x with Some v, Some w => (Qabs (v - w) <= 24 * u24 * w)%Q | None, None => True | _, _ => False end)
    (resample_f sort tf bars_f) (resample sort' tf bars).
Proof. exact pipe_float. Qed.

(** Two trades ten seconds apart. *)
Definition pt : list Z := [1600000000500000000; 1600000010500000000].
Definition pp : list Q := [100%Q; 50%Q].
Definition pa : list Q := [1%Q; 2%Q].
Definition ps : Z := 1000000000.
(** "Periods with no trading activity are automatically excluded" (io.py L906) is false for stored bars. *)
Theorem C198_no_empty_periods_refuted : exists sort px am ts I tf bars r, ts <> [] /\ ascZ ts /\ 0 < I /\ (I | tf) /\ stored_bars px am ts I = Ok bars /\
  In r (resample sort tf bars) /\ b_trades r = 0 /\ b_vwap r = None.
Proof.
  exists (fun l => l), pp, pa, pt, ps, (2 * ps). eexists _, _. split; [discriminate|]. split.
  { intros i j Hij. cbn [length pt] in Hij. destruct i as [|[|i]], j as [|[|j]]; cbn; lia. }
  split; [reflexivity|]. split; [exists 2; reflexivity|]. split; [vm_compute; reflexivity|]. split; [vm_compute; right; left; reflexivity|]. split; reflexivity.
Qed.
(** "The open is the price of the first trade" is false: a row of one trade opens with the close of an earlier period. *)
Theorem C198_first_trade_opens_refuted : exists sort px am ts I tf bars r o w, ts <> [] /\ ascZ ts /\ 0 < I /\ (I | tf) /\ stored_bars px am ts I = Ok bars /\
  In r (resample sort tf bars) /\ b_trades r = 1 /\ b_vwap r = Some w /\ b_open r = Some o /\ b_high r = Some o /\ (w < o)%Q.
Proof.
  exists (fun l => l), pp, pa, pt, ps, (4 * ps). eexists _, _, _, _. split; [discriminate|]. split.
  { intros i j Hij. cbn [length pt] in Hij. destruct i as [|[|i]], j as [|[|j]]; cbn; lia. }
  split; [reflexivity|]. split; [exists 4; reflexivity|]. split; [vm_compute; reflexivity|]. split; [vm_compute; right; right; left; reflexivity|]. repeat (split; [reflexivity|]). reflexivity.
Qed.

Example C198_example : pt <> [] /\ ascZ pt /\ ticks_cover pt (fst (time_bar_indexer pt ps)) ps 1600000000 12 /\ (ps | 4 * ps) /\ 4 * ps <= 86400 * ps /\
  (forall x, In x pp -> (0 <= x)%Q) /\ (forall x, In x pa -> (0 <= x)%Q) /\
  exists bars bars_f, stored_bars pp pa pt ps = Ok bars /\ stored_bars_f pp pa pt ps = Ok bars_f /\ length bars = 11%nat /\
    map b_ts (resample (fun l => l) (4 * ps) bars) = [1600000000 * ps; 1600000004 * ps; 1600000008 * ps] /\
    map b_trades (resample_f (fun l => l) (4 * ps) bars_f) = [1; 0; 1].
Proof.
  split; [discriminate|]. split; [intros i j Hij; cbn [length pt] in Hij; destruct i as [|[|i]], j as [|[|j]]; cbn; lia|]. split; [split; [vm_compute; reflexivity|]; vm_compute; repeat split; discriminate || reflexivity|].
  split; [exists 4; reflexivity|]. split; [unfold ps; lia|]. split; [intros x [<- | [<- | []]]; discriminate|]. split; [intros x [<- | [<- | []]]; discriminate|].
  eexists _, _. split; [vm_compute; reflexivity|]. split; [vm_compute; reflexivity|]. split; [reflexivity|]. split; vm_compute; reflexivity.
Qed.
Example C198_example_builder : exists f, fst (build_ohlcv (fun x => x) (fresh (KTime ps) (mkTr pt pp pa None))) = Ok f /\ length f = 11%nat.
Proof. eexists. split; [vm_compute; reflexivity|reflexivity]. Qed.
Example C198_example_ticks : 512 <= ps /\ (256 | ps) /\ 0 <= hd 0 pt /\ last pt 0 + 2 * ps < 2 ^ 61 /\ hd 0 pt mod ps + 128 < ps /\ 384 < last pt 0 mod ps.
Proof. split; [unfold ps; lia|]. split; [exists 3906250; reflexivity|]. vm_compute. repeat split; discriminate || reflexivity. Qed.

Print Assumptions C198_ticks.
Print Assumptions C198_builder.
Print Assumptions C198_row.
Print Assumptions C198_periods.
Print Assumptions C198_totals.
Print Assumptions C198_float.
Print Assumptions C198_no_empty_periods_refuted.
Print Assumptions C198_first_trade_opens_refuted.
