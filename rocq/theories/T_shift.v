(** T_shift.v -- bars under a change of the clock (C170). *)
From Verif Require Import Base M_logic M_bars M_footprint M_trades M_fpdata M_builder S_logic S_builder S_shift P_time P_shift P_shift2 T_builder.
Open Scope Z_scope.

(* ================================================================== *)
(** * C170  The clock only names the bars *)

(** Tick, volume and dollar bars do not look at the clock: with any other time stamps in place of
    the old ones, every call of every session returns the same bars under the new labels (or the
    same exception). *)
Theorem C170_counted : forall (ln log1p : Q -> Q) (f : Z -> Z) (t : trades) (k : kit) (h : list call) (c : call),
  (exists n, k = KTick n) \/ (exists thr, k = KVolume thr \/ k = KDollar thr) ->
  fst (exec ln log1p (after ln log1p (fresh k (retimed f t)) h) c) =
  on_ok (reply_relabel f) (fst (exec ln log1p (after ln log1p (fresh k t) h) c)).
Proof.
  intros ln log1p f t k h c K. apply counted_builder. destruct K as [[n ->]|[thr [->| ->]]]; exact Logic.I.
Qed.

(** CUSUM bars look only at which neighbours share a time stamp: any change of the clock that
    keeps different times different keeps the bars. *)
Theorem C170_cusum : forall (ln log1p : Q -> Q) (f : Z -> Z) (t : trades) (sigma : list (option Q)) (flr mult : Q)
    (h : list call) (c : call),
  (forall x y, f x = f y -> x = y) -> length (t_ts t) = length (t_px t) ->
  fst (exec ln log1p (after ln log1p (fresh (KCusum sigma flr mult) (retimed f t)) h) c) =
  on_ok (reply_relabel f) (fst (exec ln log1p (after ln log1p (fresh (KCusum sigma flr mult) t) h) c)).
Proof. intros ln log1p f t sigma flr mult h c Hf L. apply untimed_builder; [exact Hf|exact L|exact Logic.I]. Qed.

(** Time bars: moving all trades by a whole number of intervals moves the labels and changes
    nothing else, under the float64 conditions of C01 and as long as both the old and the new
    last trade are on the same side of 2^53 ns (15 April 1970). *)
Theorem C170_time : forall (ln log1p : Q -> Q) (t : trades) (I m : Z) (h : list call) (c : call),
  t_ts t <> [] -> ascZ (t_ts t) -> 512 <= I -> (256 | I) ->
  0 <= hd 0 (t_ts t) -> 0 <= hd 0 (t_ts t) + m * I ->
  last (t_ts t) 0 + 2 * I < 2 ^ 61 -> last (t_ts t) 0 + m * I + 2 * I < 2 ^ 61 ->
  hd 0 (t_ts t) mod I + 128 < I -> (last (t_ts t) 0 mod I = 0 \/ 384 < last (t_ts t) 0 mod I) ->
  ((2 ^ 53 <= last (t_ts t) 0 /\ 2 ^ 53 <= last (t_ts t) 0 + m * I) \/
   (last (t_ts t) 0 + 2 * I < 2 ^ 53 /\ last (t_ts t) 0 + m * I + 2 * I < 2 ^ 53)) ->
  fst (exec ln log1p (after ln log1p (fresh (KTime I) (retimed (fun x => x + m * I) t)) h) c) =
  on_ok (reply_relabel (fun x => x + m * I)) (fst (exec ln log1p (after ln log1p (fresh (KTime I) t) h) c)).
Proof.
  intros ln log1p t I m h c H1 H2 H3 H4 H5 H6 H7 H8 H9 H10 H11. apply timed_builder; try assumption.
  cbn [good_kit]. repeat split; assumption.
Qed.

(** The clock for trades of the years 2006 (2^60 ns) to 2043 (2^61 ns) and intervals that are
    multiples of 512 ns (every whole number of seconds is), without further conditions: consecutive
    multiples of the interval, from the last one not after the first trade to the first one not
    before the last trade, both trades taken to the nearest multiple of 256 ns. *)
Theorem C170_clock : forall (ts : list Z) (I : Z),
  ts <> [] -> ascZ ts -> 512 <= I -> (512 | I) -> 2 ^ 60 <= hd 0 ts -> last ts 0 + 2 * I + 512 < 2 ^ 61 ->
  exists (N : nat) (a r0 rN : Z), (1 <= N)%nat /\
    fst (time_bar_indexer ts I) = map (fun i => (a + Z.of_nat i) * I) (seq 0 N) /\
    (256 | r0) /\ (256 | rN) /\ hd 0 ts - 128 <= r0 <= hd 0 ts + 128 /\ last ts 0 - 128 <= rN <= last ts 0 + 128 /\
    a * I <= r0 < (a + 1) * I /\ (a + Z.of_nat N - 2) * I < rN <= (a + Z.of_nat N - 1) * I.
Proof.
  intros ts I Hne Ha HI DI H0 HN. pose proof (hd_le_last ts Hne Ha) as Hle.
  destruct (modern_clock (hd 0 ts) (last ts 0) I HI DI H0 Hle HN) as [AK E].
  assert (M0 : 2 ^ 60 <= hd 0 ts < 2 ^ 61) by lia. assert (MN : 2 ^ 60 <= last ts 0 < 2 ^ 61) by lia.
  set (a := f64 (hd 0 ts) / I) in *. set (k := cdiv (f64 (last ts 0)) I) in *.
  exists (Z.to_nat (k + 1 - a)), a, (f64 (hd 0 ts)), (f64 (last ts 0)).
  split; [lia|]. split; [exact E|]. split; [now apply f64_modern_div|]. split; [now apply f64_modern_div|].
  split; [apply f64_modern_range; exact M0|]. split; [apply f64_modern_range; exact MN|]. rewrite Z2Nat.id by lia.
  replace (a + (k + 1 - a) - 2) with (k - 1) by ring. replace (a + (k + 1 - a) - 1) with k by ring.
  split; [|apply cdiv_spec; lia].
  unfold a. pose proof (Z.div_mod (f64 (hd 0 ts)) I ltac:(lia)). pose proof (Z.mod_pos_bound (f64 (hd 0 ts)) I ltac:(lia)).
  clearbody a. lia.
Qed.

(** In these years a shift by a whole number of intervals is harmless wherever the trades lie. *)
Theorem C170_modern : forall (ln log1p : Q -> Q) (t : trades) (I m : Z) (h : list call) (c : call),
  t_ts t <> [] -> ascZ (t_ts t) -> 512 <= I -> (512 | I) ->
  2 ^ 60 <= hd 0 (t_ts t) -> 2 ^ 60 <= hd 0 (t_ts t) + m * I ->
  last (t_ts t) 0 + 2 * I + 512 < 2 ^ 61 -> last (t_ts t) 0 + m * I + 2 * I + 512 < 2 ^ 61 ->
  fst (exec ln log1p (after ln log1p (fresh (KTime I) (retimed (fun x => x + m * I) t)) h) c) =
  on_ok (reply_relabel (fun x => x + m * I)) (fst (exec ln log1p (after ln log1p (fresh (KTime I) t) h) c)).
Proof. exact modern_builder. Qed.

(** A first trade 100 ns before a tick, moved by a million intervals: the same answer. *)
Example C170_modern_example : let t := mkTr [1600000063999999900; 1600000090000000000] [1; 2]%Q [1; 1]%Q None in
  ascZ (t_ts t) /\ (512 | 64000000000) /\ 2 ^ 60 <= hd 0 (t_ts t) /\
  last (t_ts t) 0 + 1000000 * 64000000000 + 2 * 64000000000 + 512 < 2 ^ 61 /\
  fst (exec xb_id xb_id (fresh xb_time t) CTs) = Ok (RTs [1600000128000000000]) /\
  fst (exec xb_id xb_id (fresh xb_time (retimed (fun x => x + 1000000 * 64000000000) t)) CTs) = Ok (RTs [1664000128000000000]).
Proof.
  cbv zeta. split; [intros [|[|i]] [|[|j]] H; cbn in *; lia|]. split; [exists 125000000; reflexivity|].
  split; [vm_compute; discriminate|]. split; [reflexivity|]. split; vm_compute; reflexivity.
Qed.

Example C170_example :
  good_kit xb_time xb_t /\ 2 ^ 53 <= last (t_ts xb_t) 0 /\
  fst (exec xb_id xb_id (fresh xb_time (retimed (fun x => x + 1000 * 64000000000) xb_t)) CTs) =
    Ok (RTs [1600064064000000000; 1600064128000000000; 1600064192000000000; 1600064256000000000]) /\
  (exists f, fst (exec xb_id xb_id (fresh xb_time (retimed (fun x => x + 1000 * 64000000000) xb_t)) COhlcv) = Ok (ROhlcv f) /\
     map (fun r => b_volume (snd r)) f = [2; 4; 0; 2]%Q) /\
  fst (exec xb_id xb_id (fresh (KTick 2) (retimed (fun x => 3 - x) xb_t)) CTs) =
    Ok (RTs [-1600000029999999997; -1600000079999999997]) /\
  (forall x y : Z, 2 * x + 1 = 2 * y + 1 -> x = y) /\
  fst (exec xb_id xb_id (fresh xb_cusum (retimed (fun x => 2 * x + 1) xb_t)) CTs) = Ok (RTs [3200000160000000001]).
Proof.
  split; [exact (proj1 (proj2 xb_good))|]. split; [vm_compute; discriminate|]. split; [vm_compute; reflexivity|].
  split; [eexists; split; vm_compute; reflexivity|]. split; [vm_compute; reflexivity|]. split; [intros; lia|].
  vm_compute. reflexivity.
Qed.

(** A shift by part of an interval regroups the trades: 64-second bars of the same five trades half
    a minute later. *)
Theorem C170_part_refuted : exists t d, good_trades t /\ good_kit xb_time t /\ good_kit xb_time (retimed (fun x => x + d) t) /\
  exists f g,
  fst (exec xb_id xb_id (fresh xb_time t) COhlcv) = Ok (ROhlcv f) /\
  fst (exec xb_id xb_id (fresh xb_time (retimed (fun x => x + d) t)) COhlcv) = Ok (ROhlcv g) /\
  map (fun r => b_volume (snd r)) f = [2; 4; 0; 2]%Q /\ map (fun r => b_volume (snd r)) g = [1; 6; 0; 2]%Q.
Proof.
  exists xb_t, 40000000000. split; [exact (proj1 xb_good)|]. split; [exact (proj1 (proj2 xb_good))|].
  split.
  { repeat split; try (vm_compute; first [reflexivity|discriminate]).
    - intros i j H. cbn in H. destruct i as [|[|[|[|[|i]]]]], j as [|[|[|[|[|j]]]]]; cbn; lia.
    - exists 250000000. reflexivity.
    - right. vm_compute. reflexivity. }
  do 2 eexists. split; [vm_compute; reflexivity|]. split; [vm_compute; reflexivity|]. split; vm_compute; reflexivity.
Qed.

(** The same trades in January 1970 and 50 years later, a whole number of intervals apart: the
    early copy has one bar more, because adding 1 to the end of the clock is lost in float64 only
    above 2^53 ns. *)
Theorem C170_epoch_refuted : exists t m, good_trades t /\ good_kit xb_time t /\
  good_kit xb_time (retimed (fun x => x + m * 64000000000) t) /\
  fst (exec xb_id xb_id (fresh xb_time t) CTs) = Ok (RTs [64000000000; 128000000000]) /\
  fst (exec xb_id xb_id (fresh xb_time (retimed (fun x => x + m * 64000000000) t)) CTs) = Ok (RTs [1600000064000000000]).
Proof.
  exists (mkTr [0; 30000000000] [1; 2]%Q [1; 1]%Q None), 25000000. 
  assert (A : forall d, ascZ [0 + d; 30000000000 + d]) by (intros d [|[|i]] [|[|j]] H; cbn in *; lia).
  split; [split; [discriminate|split; reflexivity]|].
  split; [|split; [|split; vm_compute; reflexivity]].
  - repeat split; try (vm_compute; first [reflexivity|discriminate]); [exact (A 0)|exists 250000000; reflexivity|right; vm_compute; reflexivity].
  - repeat split; try (vm_compute; first [reflexivity|discriminate]); [exact (A 1600000000000000000)|exists 250000000; reflexivity|right; vm_compute; reflexivity].
Qed.

(** A whole number of intervals and both copies after 2^53 ns: a first trade 100 ns before a clock
    tick is in the bar before the tick in 1970 and opens the clock at the tick in 2020, so that the
    bar before the tick disappears. *)
Theorem C170_rounding_refuted : exists t m, good_trades t /\ ascZ (t_ts t) /\ 2 ^ 53 <= hd 0 (t_ts t) /\
  exists a b, fst (exec xb_id xb_id (fresh (KTime 64000000000) t) CTs) = Ok (RTs a) /\
  fst (exec xb_id xb_id (fresh (KTime 64000000000) (retimed (fun x => x + m * 64000000000) t)) CTs) = Ok (RTs b) /\
  length a = 2%nat /\ length b = 1%nat.
Proof.
  exists (mkTr [64000000000 * 150000 - 100; 64000000000 * 150000 + 30000000000] [1; 2]%Q [1; 1]%Q None), 25000000.
  split; [split; [discriminate|split; reflexivity]|].
  split; [intros [|[|i]] [|[|j]] H; cbn in *; lia|]. split; [vm_compute; discriminate|].
  do 2 eexists. split; [vm_compute; reflexivity|]. split; [vm_compute; reflexivity|]. split; reflexivity.
Qed.

(** CUSUM bars on a coarser clock: the same trades with time stamps cut to milliseconds. Two trades
    of one millisecond become a block, and the event inside the block is not reported. *)
Theorem C170_coarser_refuted : exists t sigma, good_trades t /\ length sigma = length (t_ts t) /\
  fst (exec xb_id xb_id (fresh (KCusum sigma (1 # 1000) 1) t) CIdx) = Ok (RIdx [1]) /\
  fst (exec xb_id xb_id (fresh (KCusum sigma (1 # 1000) 1) (retimed (fun x => x / 1000000 * 1000000) t)) CIdx) = Ok (RIdx []).
Proof.
  exists (mkTr [1000000; 2000000; 2500000] [100; 110; 100]%Q [1; 1; 1]%Q None), [Some (1 # 20); Some (1 # 20); Some (1 # 10)]%Q.
  split; [split; [discriminate|split; reflexivity]|]. split; [reflexivity|]. split; vm_compute; reflexivity.
Qed.

Print Assumptions C170_counted.
Print Assumptions C170_cusum.
Print Assumptions C170_time.
Print Assumptions C170_clock.
Print Assumptions C170_modern.
Print Assumptions C170_part_refuted.
Print Assumptions C170_epoch_refuted.
Print Assumptions C170_rounding_refuted.
Print Assumptions C170_coarser_refuted.
