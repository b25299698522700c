(** T_logic.v -- property theorems C01-C08 (finmlkit/bar/logic.py bar indexers). *)
From Verif Require Import Base M_logic S_logic P_cusum P_logic P_cusumbar P_time.
Open Scope Q_scope.

(* ================================================================== *)
(** * C01  Time bars put every trade into the clock interval that contains it *)

(** The clock: consecutive multiples of the interval, from the largest multiple not
    after the first trade to a multiple not before the last trade.  [I] is a multiple
    of 256 ns (every whole number of seconds is), timestamps below 2^61 ns (year 2043).
    The first trade must not lie in the last 128 ns before a boundary and the last not
    in the first 384 ns after one (see C02 for what happens otherwise). *)
Theorem C01_clock : forall (ts : list Z) (I : Z),
  ts <> [] -> ascZ ts ->
  (512 <= I)%Z -> (256 | I)%Z -> (0 <= hd 0 ts)%Z -> (last ts 0 + 2 * I < 2 ^ 61)%Z ->
  (hd 0 ts mod I + 128 < I)%Z -> (last ts 0 mod I = 0 \/ 384 < last ts 0 mod I)%Z ->
  exists (N : nat) (a : Z), (1 <= N)%nat /\
    fst (time_bar_indexer ts I) = map (fun i => (a + Z.of_nat i) * I)%Z (seq 0 N) /\
    (a * I <= hd 0 ts < (a + 1) * I)%Z /\
    (last ts 0 <= (a + Z.of_nat N - 1) * I)%Z /\
    (2 ^ 53 <= last ts 0 -> (a + Z.of_nat N - 2) * I < last ts 0)%Z /\
    (last ts 0 + 2 * I < 2 ^ 53 ->
       (a + Z.of_nat N - 3) * I < last ts 0 <= (a + Z.of_nat N - 2) * I)%Z.
Proof. exact time_bar_main. Qed.

(** The reported close positions: for every sorted list of timestamps and every
    interval, the k-th index is the position of the last trade not after the k-th
    tick (-1 if there is none). *)
Theorem C01_close_positions : forall (ts : list Z) (I : Z) (k : nat),
  ts <> [] -> ascZ ts ->
  let clock := fst (time_bar_indexer ts I) in
  let idx := snd (time_bar_indexer ts I) in
  length idx = length clock /\
  ((k < length clock)%nat ->
     (-1 <= nth k idx 0 < Z.of_nat (length ts))%Z /\
     forall j, (j < length ts)%nat ->
       (Z.of_nat j <= nth k idx 0 <-> nth j ts 0 <= nth k clock 0)%Z).
Proof. exact time_close_positions. Qed.

(** Hence trade j is in bar k (after close k, not after close k+1) iff its timestamp
    is in (tick_k, tick_{k+1}]: for every sorted input and interval. *)
Theorem C01_bar_of_trade : forall (ts : list Z) (I : Z) (k j : nat),
  ascZ ts ->
  let clock := fst (time_bar_indexer ts I) in
  let idx := snd (time_bar_indexer ts I) in
  (S k < length clock)%nat -> (j < length ts)%nat ->
  (nth k idx 0 < Z.of_nat j <= nth (S k) idx 0 <-> nth k clock 0 < nth j ts 0 <= nth (S k) clock 0)%Z.
Proof. exact time_bar_of_trade. Qed.

(** ... and every trade after the first tick is in exactly one bar. *)
Theorem C01_cover : forall (ts : list Z) (I : Z) (j : nat),
  ts <> [] -> ascZ ts ->
  (512 <= I)%Z -> (256 | I)%Z -> (0 <= hd 0 ts)%Z -> (last ts 0 + 2 * I < 2 ^ 61)%Z ->
  (hd 0 ts mod I + 128 < I)%Z -> (last ts 0 mod I = 0 \/ 384 < last ts 0 mod I)%Z ->
  let clock := fst (time_bar_indexer ts I) in
  let idx := snd (time_bar_indexer ts I) in
  (j < length ts)%nat -> (nth 0 clock 0 < nth j ts 0)%Z ->
  exists! k, (S k < length clock)%nat /\ (nth k idx 0 < Z.of_nat j <= nth (S k) idx 0)%Z.
Proof. exact time_bar_cover. Qed.

(** Microsecond timestamps and intervals that are multiples of 32 microseconds (all
    multiples of 4 ms) always satisfy the float conditions. *)
Theorem C01_microseconds : forall t I : Z,
  (1000 | t)%Z -> (32000 | I)%Z -> (0 < I)%Z ->
  (512 <= I)%Z /\ (256 | I)%Z /\ (t mod I + 128 < I)%Z /\ (t mod I = 0 \/ 384 < t mod I)%Z.
Proof.
  intros t I [a ->] [b ->] HI.
  replace (a * 1000)%Z with (1000 * a)%Z by ring. replace (b * 32000)%Z with (1000 * (32 * b))%Z by ring.
  rewrite Z.mul_mod_distr_l by lia.
  pose proof (Z.mod_pos_bound a (32 * b) ltac:(lia)).
  repeat split; try lia. exists (125 * b)%Z. ring.
Qed.

(** Concrete case: five trades in 2020, one-minute bars; trade 3 opens a new bar and
    one minute has no trade. *)
Definition ex_ts : list Z :=
  [1600000000000001000; 1600000030000000000; 1600000080000000000;
   1600000080000001000; 1600000200000005000]%Z.
Definition ex_I : Z := 60000000000%Z.
Example C01_example :
  ex_ts <> [] /\ ascZ ex_ts /\ (512 <= ex_I)%Z /\ (256 | ex_I)%Z /\ (0 <= hd 0 ex_ts)%Z /\
  (last ex_ts 0 + 2 * ex_I < 2 ^ 61)%Z /\ (hd 0 ex_ts mod ex_I + 128 < ex_I)%Z /\
  (384 < last ex_ts 0 mod ex_I)%Z /\
  time_bar_indexer ex_ts ex_I =
    ([1599999960000000000; 1600000020000000000; 1600000080000000000;
      1600000140000000000; 1600000200000000000; 1600000260000000000],
     [-1; 0; 2; 3; 3; 4])%Z.
Proof.
  split; [discriminate|]. split.
  { intros i j Hij. simpl length in Hij.
    destruct i as [|[|[|[|[|i]]]]], j as [|[|[|[|[|j]]]]]; simpl; lia. }
  split; [vm_compute; discriminate|]. split; [exists 234375000%Z; reflexivity|].
  split; [vm_compute; discriminate|]. split; [reflexivity|]. split; [reflexivity|].
  split; vm_compute; reflexivity.
Qed.

(* ================================================================== *)
(** * C02  The first time bar never starts after the first trade *)

(** False of the code: a trade 64 ns before a boundary is moved past it by the
    int64 -> float64 conversion, and then lies in no bar. *)
Theorem C02_first_tick_refuted : exists (ts : list Z) (I : Z),
  ts <> [] /\ ascZ ts /\ (0 < I)%Z /\
  let clock := fst (time_bar_indexer ts I) in
  let idx := snd (time_bar_indexer ts I) in
  (hd 0 ts < nth 0 clock 0)%Z /\ nth 0 idx 0%Z = 0%Z.
Proof.
  exists [1600000019999999936; 1600000030000000000]%Z, 60000000000%Z.
  split; [discriminate|]. split.
  { intros i j Hij. simpl length in Hij. destruct i as [|[|i]], j as [|[|j]]; simpl; lia. }
  split; [lia|]. vm_compute. auto.
Qed.

(** The symmetric loss at the end: a last trade 64 ns after a boundary is in no bar. *)
Theorem C02_last_trade_uncovered_refuted : exists (ts : list Z) (I : Z) (j : nat),
  ts <> [] /\ ascZ ts /\ (0 < I)%Z /\ (j < length ts)%nat /\
  let clock := fst (time_bar_indexer ts I) in
  let idx := snd (time_bar_indexer ts I) in
  forall k, (k < length idx)%nat -> (nth k idx 0 < Z.of_nat j)%Z.
Proof.
  exists [1600000000000000000; 1600000080000000064]%Z, 60000000000%Z, 1%nat.
  split; [discriminate|]. split.
  { intros i j Hij. simpl length in Hij. destruct i as [|[|i]], j as [|[|j]]; simpl; lia. }
  split; [lia|]. split; [simpl; lia|].
  intros clock idx. assert (E : idx = [-1; 0; 0]%Z) by (vm_compute; reflexivity).
  clearbody clock idx. subst idx. intros [|[|[|k]]] H; simpl in *; lia.
Qed.

(** What does hold: the first tick is never more than 128 ns after the first trade,
    and not after it at all unless the trade is within 128 ns of the next boundary.
    Missing for the full statement: trades in that last 128 ns window. *)
Theorem C02_first_tick_partial : forall t0 I : Z,
  (0 < I)%Z -> (0 <= t0 < 2 ^ 61 - 128)%Z -> (256 | I)%Z ->
  (bar_start t0 I <= t0 + 128)%Z /\ ((t0 mod I + 128 < I)%Z -> (bar_start t0 I <= t0)%Z).
Proof.
  intros t0 I HI Ht Hd. split; [exact (bar_start_bound t0 I HI Ht Hd)|exact (bar_start_le t0 I HI Ht Hd)].
Qed.
Example C02_example : (0 < ex_I)%Z /\ (0 <= 1600000000000001000 < 2 ^ 61 - 128)%Z /\ (256 | ex_I)%Z /\
  (1600000000000001000 mod ex_I + 128 < ex_I)%Z /\ bar_start 1600000000000001000 ex_I = 1599999960000000000%Z.
Proof. repeat split; try (vm_compute; congruence). exists 234375000%Z; reflexivity. Qed.

(* ================================================================== *)
(** * C03  Tick bars *)
Theorem C03_tick_positions : forall (n thr i : nat), (1 <= n)%nat -> (1 <= thr)%nat ->
  (In i (tick_bar_indexer n (Z.of_nat thr)) <-> i = 0%nat \/ ((1 <= i < n)%nat /\ Nat.divide thr (i + 1))).
Proof. exact tick_in. Qed.

Theorem C03_tick_closed_form : forall n thr : nat, (1 <= n)%nat -> (2 <= thr)%nat ->
  tick_bar_indexer n (Z.of_nat thr) = 0%nat :: map (fun k => k * thr - 1)%nat (seq 1 (n / thr)).
Proof. exact tick_closed. Qed.

Theorem C03_tick_threshold_one : forall (n : nat) (thr : Z), (1 <= n)%nat -> (thr <= 1)%Z ->
  tick_bar_indexer n thr = seq 0 n.
Proof. exact tick_all. Qed.
Example C03_example : tick_bar_indexer 10 3 = [0; 2; 5; 8]%nat /\ tick_bar_indexer 4 1 = [0; 1; 2; 3]%nat.
Proof. split; reflexivity. Qed.

(* ================================================================== *)
(** * C04  Volume bars *)
Theorem C04_volume_greedy : forall (vols : list Q) (thr : Q), (1 <= length vols)%nat ->
  greedy_volume (fun i => nth i vols 0) thr (length vols) (volume_bar_indexer vols thr).
Proof. exact volume_greedy. Qed.

(** The specification determines the closes. *)
Theorem C04_volume_greedy_unique : forall (vols : list Q) (thr : Q) (closes : list nat),
  (1 <= length vols)%nat ->
  (greedy_volume (fun i => nth i vols 0) thr (length vols) closes <-> closes = volume_bar_indexer vols thr).
Proof.
  intros vols thr closes H. split.
  - intro G. exact (greedy_unique _ _ _ _ _ G (volume_greedy vols thr H)).
  - intros ->. exact (volume_greedy vols thr H).
Qed.
Example C04_example : (1 <= length [1; 2; 4; 1; 1; 1; 5])%nat /\
  volume_bar_indexer [1; 2; 4; 1; 1; 1; 5] 3 = [0; 1; 2; 5; 6]%nat.
Proof. split; [simpl; lia|reflexivity]. Qed.

(* ================================================================== *)
(** * C05  Dollar bars *)
Theorem C05_dollar_closes : forall (p v : list Q) (thr : Q) (i : nat), (1 <= i < length p)%nat ->
  let dollars k := nth k p 0 * nth k v 0 in
  let closes := dollar_bar_indexer p v thr in
  (In i closes <-> thr <= ssum dollars 0 (S i) - thr * Qnat (closes_below closes i)).
Proof.
  intros p v thr i Hi. destruct (dollar_char p v thr ltac:(lia)) as [_ [_ H]]. exact (H i Hi).
Qed.

Theorem C05_dollar_sorted : forall (p v : list Q) (thr : Q), (1 <= length p)%nat ->
  strict_asc (dollar_bar_indexer p v thr) /\ hd_error (dollar_bar_indexer p v thr) = Some 0%nat /\
  (forall c, In c (dollar_bar_indexer p v thr) -> (c < length p)%nat).
Proof.
  intros p v thr H. destruct (dollar_sorted p v thr) as [H1 H2].
  destruct (dollar_char p v thr H) as [_ [H3 _]]. auto.
Qed.

(** Conservation: the final residual is the dollars traded minus threshold times the
    number of bars closed after the opening trade. *)
Theorem C05_dollar_conservation : forall (p v : list Q) (thr : Q), (1 <= length p)%nat ->
  let dollars k := nth k p 0 * nth k v 0 in
  snd (dollar_bar_run p v thr) ==
  ssum dollars 0 (length p) - thr * Qnat (closes_below (dollar_bar_indexer p v thr) (length p)).
Proof. intros p v thr H. destruct (dollar_char p v thr H) as [H1 _]. exact H1. Qed.

Theorem C05_dollar_residual_nonneg : forall (p v : list Q) (thr : Q) (i : nat),
  (forall k, 0 <= nth k p 0 * nth k v 0) -> (i < length p)%nat ->
  thr * Qnat (closes_below (dollar_bar_indexer p v thr) (S i)) <= ssum (fun k => nth k p 0 * nth k v 0) 0 (S i).
Proof.
  intros p v thr i H Hi. pose proof (dollar_residual_nonneg p v thr i ltac:(lia) H Hi) as R.
  unfold dol in R. lra.
Qed.
Example C05_example : (1 <= 2 < length [10; 10; 10; 10])%nat /\
  (forall k, 0 <= nth k [10; 10; 10; 10] 0 * nth k [1; 5; 1; 1] 0) /\
  dollar_bar_indexer [10; 10; 10; 10] [1; 5; 1; 1] 25 = [0; 1; 2; 3]%nat.
Proof.
  split; [simpl; lia|]. split; [|reflexivity].
  intros [|[|[|[|k]]]]; simpl; try lra. destruct k; simpl; lra.
Qed.

(* ================================================================== *)
(** * C06  CUSUM bars *)
Theorem C06_cusum_bars : forall (ln : Q -> Q) (ts : list Z) (prices : list Q)
    (sigma : list (option Q)) (flr mult : Q) (f : nat),
  length prices = length ts -> length sigma = length ts ->
  0 < flr -> first_known sigma f ->
  exists evs, cusum_bar_indexer ln ts prices sigma flr mult = f :: evs /\
    cusum_events (fun i => ln (nth i prices 0 / nth (i - 1) prices 0)) f (length prices)
      (fun i => ~ block_goes_on ts i)
      (fun i x => exists s, last_known sigma i s /\ Qmax (mult * s) flr <= x)
      (fun i x => exists s, last_known sigma i s /\ x <= - Qmax (mult * s) flr) evs.
Proof. exact cusum_bar_events. Qed.
Definition ex_ln (x : Q) : Q := x - 1.
Example C06_example : first_known [None; Some (1 # 10); None; None; Some (1 # 10)] 1 /\
  cusum_bar_indexer ex_ln [1; 2; 3; 3; 4]%Z [100; 100; 120; 130; 70]
    [None; Some (1 # 10); None; None; Some (1 # 10)] (1 # 20) 1 = [1; 3; 4]%nat.
Proof.
  split; [|reflexivity]. split; [now exists (1 # 10)|]. intros [|j] H; [reflexivity|lia].
Qed.

(* ================================================================== *)
(** * C83  Length check of the CUSUM bar indexer *)
Theorem C83_accepts_iff : forall (ts : list Z) (prices : list Q) (sigma : list (option Q)),
  cusum_len_check ts prices sigma = true <-> length prices = length sigma \/ length sigma = length ts.
Proof.
  intros. unfold cusum_len_check. destruct (Nat.eqb_spec (length prices) (length sigma)), (Nat.eqb_spec (length sigma) (length ts));
  cbn; intuition congruence.
Qed.
Theorem C83_equal_lengths_refuted : exists (ts : list Z) (prices : list Q) (sigma : list (option Q)),
  cusum_len_check ts prices sigma = true /\ length ts <> length prices.
Proof. exists [1; 2; 3]%Z, [1; 2], [None; Some 1]. split; [reflexivity|discriminate]. Qed.

(* ================================================================== *)
(** * C07  Filling of sigma *)
Theorem C07_sigma_fill : forall (sigma : list (option Q)) (f : nat), first_known sigma f ->
  length (fill_sigma sigma) = length sigma /\
  (forall i, (i < f)%nat -> nth i (fill_sigma sigma) None = None) /\
  (forall i, (f <= i < length sigma)%nat ->
     exists s, nth i (fill_sigma sigma) None = Some s /\ last_known sigma i s).
Proof.
  intros sigma f Hf. split; [exact (fill_sigma_length sigma)|].
  split; [exact (fun i => fill_sigma_before sigma f i Hf)|exact (fun i => fill_sigma_known sigma f i Hf)].
Qed.

(** No known sigma at all: no bar is ever closed. *)
Theorem C07_sigma_unknown : forall (ln : Q -> Q) ts prices sigma flr mult,
  length prices = length ts -> length sigma = length ts ->
  (forall j, nth j sigma None = None) ->
  cusum_bar_indexer ln ts prices sigma flr mult = [0%nat].
Proof. exact cusum_bar_unknown. Qed.
Example C07_example : first_known [None; Some 2; None; Some 3; None] 1 /\
  fill_sigma [None; Some 2; None; Some 3; None] = [None; Some 2; Some 2; Some 3; Some 3] /\
  cusum_bar_indexer ex_ln [1; 2]%Z [1; 2] [None; None] 1 1 = [0%nat].
Proof.
  split; [|split; reflexivity]. split; [now exists 2|]. intros [|j] H; [reflexivity|lia].
Qed.

(* ================================================================== *)
(** * C08  Causality *)
Theorem C08_tick_prefix : forall (n m : nat) (thr : Z), (1 <= m <= n)%nat ->
  filter (fun i => i <? m)%nat (tick_bar_indexer n thr) = tick_bar_indexer m thr.
Proof. exact tick_prefix. Qed.
Theorem C08_volume_prefix : forall (v : list Q) (m : nat) (thr : Q), (1 <= m <= length v)%nat ->
  filter (fun i => i <? m)%nat (volume_bar_indexer v thr) = volume_bar_indexer (firstn m v) thr.
Proof. exact volume_prefix. Qed.
Theorem C08_dollar_prefix : forall (p v : list Q) (m : nat) (thr : Q), (1 <= m <= length p)%nat ->
  filter (fun i => i <? m)%nat (dollar_bar_indexer p v thr) = dollar_bar_indexer (firstn m p) (firstn m v) thr.
Proof. exact dollar_prefix. Qed.
(** CUSUM bars: the same at every cut that does not split a block of equal timestamps
    (a block cut short may close one trade earlier). *)
Theorem C08_cusum_bar_prefix : forall (ln : Q -> Q) ts prices sigma flr mult f m,
  length prices = length ts -> length sigma = length ts ->
  first_known sigma f -> (f < m <= length ts)%nat -> ~ block_goes_on ts (m - 1) ->
  filter (fun i => i <? m)%nat (cusum_bar_indexer ln ts prices sigma flr mult)
  = cusum_bar_indexer ln (firstn m ts) (firstn m prices) (firstn m sigma) flr mult.
Proof. exact cusum_bar_prefix. Qed.
(** Without that condition it fails. *)
Theorem C08_cusum_bar_block_refuted : exists (ln : Q -> Q) ts prices sigma flr mult f m,
  length prices = length ts /\ length sigma = length ts /\
  first_known sigma f /\ (f < m <= length ts)%nat /\
  filter (fun i => i <? m)%nat (cusum_bar_indexer ln ts prices sigma flr mult)
  <> cusum_bar_indexer ln (firstn m ts) (firstn m prices) (firstn m sigma) flr mult.
Proof.
  exists ex_ln, [1; 2; 2]%Z, [100; 120; 121], [Some 1; Some 1; Some 1], (1 # 10), (1 # 10), 0%nat, 2%nat.
  split; [reflexivity|]. split; [reflexivity|].
  split; [split; [now exists 1|intros j H; inversion H]|].
  split; [simpl; lia|]. vm_compute. discriminate.
Qed.
Example C08_example : (1 <= 4 <= length [1; 2; 4; 1; 1; 1; 5])%nat /\
  ~ block_goes_on [1; 2; 3; 3; 4]%Z (4 - 1).
Proof. split; [simpl; lia|]. intros [_ H]. vm_compute in H. discriminate. Qed.

Print Assumptions C01_clock.
Print Assumptions C01_close_positions.
Print Assumptions C01_bar_of_trade.
Print Assumptions C01_cover.
Print Assumptions C01_microseconds.
Print Assumptions C02_first_tick_refuted.
Print Assumptions C02_last_trade_uncovered_refuted.
Print Assumptions C02_first_tick_partial.
Print Assumptions C03_tick_positions.
Print Assumptions C03_tick_closed_form.
Print Assumptions C03_tick_threshold_one.
Print Assumptions C04_volume_greedy.
Print Assumptions C04_volume_greedy_unique.
Print Assumptions C05_dollar_closes.
Print Assumptions C05_dollar_sorted.
Print Assumptions C05_dollar_conservation.
Print Assumptions C05_dollar_residual_nonneg.
Print Assumptions C06_cusum_bars.
Print Assumptions C83_accepts_iff.
Print Assumptions C83_equal_lengths_refuted.
Print Assumptions C07_sigma_fill.
Print Assumptions C07_sigma_unknown.
Print Assumptions C08_tick_prefix.
Print Assumptions C08_volume_prefix.
Print Assumptions C08_dollar_prefix.
Print Assumptions C08_cusum_bar_prefix.
Print Assumptions C08_cusum_bar_block_refuted.
