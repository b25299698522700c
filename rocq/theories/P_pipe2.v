(** P_pipe2.v -- resampled rows of bars made from trades. *)
From Coq Require Import Lqa.
From Verif Require Import Base M_logic M_bars M_float M_tbio M_pipe S_logic S_bars S_pipe P_bars P_float3 T_logic T_tbio P_pipe.
Open Scope Z_scope.

Lemma ok_eq {A} (x y : A) : Ok x = Ok y -> x = y.
Proof. congruence. Qed.
(** Close positions, constant after the last one. *)
Definition pos (ts : list Z) (I : Z) (N k : nat) : Z := nth (Nat.min k (N - 1)) (snd (time_bar_indexer ts I)) 0.
(** Labels. *)
Definition lab (a I : Z) (k : nat) : Z := (a + Z.of_nat (S k)) * I.

Section Clock.
  Variable ts : list Z.
  Variable I a : Z.
  Variable N : nat.
  Hypothesis NE : ts <> [].
  Hypothesis Asc : ascZ ts.
  Hypothesis IP : 0 < I.
  Hypothesis N2 : (2 <= N)%nat.
  Hypothesis C : ticks_cover ts (fst (time_bar_indexer ts I)) I a N.

  Lemma clock_len : length (fst (time_bar_indexer ts I)) = N.
  Proof. destruct C as (-> & _). now rewrite map_length, seq_length. Qed.
  Lemma clock_nth k : (k < N)%nat -> nth k (fst (time_bar_indexer ts I)) 0 = (a + Z.of_nat k) * I.
  Proof.
    intro H. destruct C as (-> & _). rewrite (nth_indep _ 0 ((a + Z.of_nat 0) * I)) by (rewrite map_length, seq_length; lia).
    rewrite (map_nth (fun i => (a + Z.of_nat i) * I)), seq_nth by lia. reflexivity.
  Qed.
  Lemma pos_spec k : (k < N)%nat -> -1 <= pos ts I N k < Z.of_nat (length ts) /\ forall j, (j < length ts)%nat -> (Z.of_nat j <= pos ts I N k <-> nth j ts 0 <= (a + Z.of_nat k) * I).
  Proof.
    intro H. destruct (C01_close_positions ts I k NE Asc) as [_ K]. rewrite clock_len in K. specialize (K H). rewrite clock_nth in K by exact H. unfold pos. replace (Nat.min k (N - 1)) with k by lia. exact K.
  Qed.
  Lemma pos_low : -1 <= pos ts I N 0.
  Proof. apply pos_spec. lia. Qed.
  Lemma pos_first : 0 <= pos ts I N 1.
  Proof.
    destruct (pos_spec 1 ltac:(lia)) as [_ K]. assert (L : (0 < length ts)%nat) by (destruct ts; [congruence|cbn; lia]). apply (K 0%nat L). destruct C as (_ & H & _).
    replace (nth 0 ts 0) with (hd 0 ts) by (destruct ts; reflexivity). replace (a + Z.of_nat 1) with (a + 1) by lia. lia.
  Qed.
  Lemma pos_mono k : pos ts I N k <= pos ts I N (S k).
  Proof.
    destruct (Nat.lt_ge_cases (S k) N) as [L|L].
    - destruct (pos_spec k ltac:(lia)) as [B1 K1]. destruct (pos_spec (S k) L) as [B2 K2]. destruct (Z_lt_ge_dec (pos ts I N k) 0); [lia|].
      pose proof (K1 (Z.to_nat (pos ts I N k)) ltac:(lia)) as H1. pose proof (K2 (Z.to_nat (pos ts I N k)) ltac:(lia)) as H2. rewrite Z2Nat.id in * by lia.
      apply H2. assert (nth (Z.to_nat (pos ts I N k)) ts 0 <= (a + Z.of_nat k) * I) by (apply H1; lia). nia.
    - unfold pos. replace (Nat.min k (N - 1)) with (N - 1)%nat by lia. replace (Nat.min (S k) (N - 1)) with (N - 1)%nat by lia. lia.
  Qed.
  Lemma labels : tl (fst (time_bar_indexer ts I)) = map (lab a I) (seq 0 (N - 1)).
  Proof.
    destruct C as (-> & _). destruct N as [|n]; [lia|]. cbn [seq map tl]. rewrite <- seq_shift, map_map. replace (S n - 1)%nat with n by lia. reflexivity.
  Qed.
  Lemma shape px am bars : stored_bars px am ts I = Ok bars -> bars = map (B px am (pos ts I N) (lab a I)) (seq 0 (N - 1)).
  Proof.
    unfold stored_bars. destruct (comp_bar_ohlcv px am _) as [l|e] eqn:E; [|discriminate]. intro H. apply ok_eq in H. subst bars. apply comp_ohlcv_ok in E. destruct E as (_ & _ & ->).
    rewrite labels. assert (L : length (snd (time_bar_indexer ts I)) = N) by (destruct (C01_close_positions ts I 0 NE Asc) as [K _]; cbv zeta in K; rewrite K; apply clock_len).
    rewrite L, combine_map', map_map. apply map_ext_in. intros k Hk. apply in_seq in Hk. unfold B, pos. replace (Nat.min k (N - 1)) with k by lia. replace (Nat.min (S k) (N - 1)) with (S k) by lia. reflexivity.
  Qed.
  (** The same with rounding. *)
  Definition Bf (px am : list Q) (idx lb : nat -> Z) (k : nat) : bar := stored (lb k, bar_ohlcv_f px am (idx k) (idx (S k))).
  Lemma shape_f px am bars : stored_bars_f px am ts I = Ok bars -> bars = map (Bf px am (pos ts I N) (lab a I)) (seq 0 (N - 1)).
  Proof.
    unfold stored_bars_f. destruct (comp_bar_ohlcv_f px am _) as [l|e] eqn:E; [|discriminate]. intro H. apply ok_eq in H. subst bars. apply comp_f_ok in E. destruct E as (_ & _ & ->).
    rewrite labels. assert (L : length (snd (time_bar_indexer ts I)) = N) by (destruct (C01_close_positions ts I 0 NE Asc) as [K _]; cbv zeta in K; rewrite K; apply clock_len).
    rewrite L, combine_map', map_map. apply map_ext_in. intros k Hk. apply in_seq in Hk. unfold Bf, pos. replace (Nat.min k (N - 1)) with k by lia. replace (Nat.min (S k) (N - 1)) with (S k) by lia. reflexivity.
  Qed.
End Clock.
Lemma two_ticks px am ts I a N bars : ts <> [] -> ascZ ts -> ticks_cover ts (fst (time_bar_indexer ts I)) I a N -> stored_bars px am ts I = Ok bars -> (2 <= N)%nat.
Proof.
  intros NE Asc C. unfold stored_bars. destruct (comp_bar_ohlcv px am _) as [l|e] eqn:E; [|discriminate]. intros _. apply comp_ohlcv_ok in E. destruct E as (_ & L & _).
  destruct (C01_close_positions ts I 0 NE Asc) as [K _]. cbv zeta in K. rewrite (clock_len ts I a N C) in K. lia.
Qed.
Lemma two_ticks_f px am ts I a N bars : ts <> [] -> ascZ ts -> ticks_cover ts (fst (time_bar_indexer ts I)) I a N -> stored_bars_f px am ts I = Ok bars -> (2 <= N)%nat.
Proof.
  intros NE Asc C. unfold stored_bars_f. destruct (comp_bar_ohlcv_f px am _) as [l|e] eqn:E; [|discriminate]. intros _. apply comp_f_ok in E. destruct E as (_ & L & _).
  destruct (C01_close_positions ts I 0 NE Asc) as [K _]. cbv zeta in K. rewrite (clock_len ts I a N C) in K. lia.
Qed.

(** The bars of a period are consecutive. *)
Lemma group_range (F : nat -> bar) a I tf K n k0 : 0 < I -> (I | tf) -> 0 < tf -> (forall k, b_ts (F k) = lab a I k) -> (k0 < n)%nat -> floor_to tf (lab a I k0) = K ->
  exists lo m, (lo + S m <= n)%nat /\ group tf (map F (seq 0 n)) K = map F (seq lo (S m)) /\ (lo = 0%nat \/ lab a I lo = K) /\ K <= lab a I lo /\
    ((lo + S m)%nat = n \/ lab a I (lo + m) = K + tf - I) /\ lab a I (lo + m) <= K + tf - I.
Proof.
  intros IP [q ->] TP HF Hk EK. assert (QP : 0 < q) by nia. assert (D : exists c, K = c * q * I) by (exists (lab a I k0 / (q * I)); rewrite <- EK; unfold floor_to; ring). destruct D as [c Ec].
  assert (R : forall k, floor_to (q * I) (lab a I k) = K <-> c * q <= a + Z.of_nat (S k) < c * q + q).
  { intro k. split.
    - intro E. pose proof (floor_bounds (q * I) (lab a I k) TP) as Bd. rewrite E, Ec in Bd. unfold lab in Bd. split; nia.
    - intro E. apply floor_unique; [exact TP|exists c; lia|]. unfold lab. rewrite Ec. split; nia. }
  pose proof (proj1 (R k0) EK) as R0. set (lo := Z.to_nat (c * q - a - 1)). set (hi := Nat.min n (Z.to_nat (c * q + q - a - 1))).
  assert (LH : (lo < hi <= n)%nat) by (unfold lo, hi; lia).
  exists lo, (hi - lo - 1)%nat. split; [lia|]. split.
  - unfold group. rewrite filter_map'. f_equal. replace (S (hi - lo - 1)) with (hi - lo)%nat by lia. apply filter_seq; [lia|]. intros k Lk. rewrite HF, Z.eqb_eq, R. unfold lo, hi. lia.
  - assert (L1 : c * q <= a + Z.of_nat (S lo)) by (unfold lo; lia). assert (L2 : a + Z.of_nat (S (lo + (hi - lo - 1))) <= c * q + q - 1) by (unfold lo, hi in *; lia).
    split; [|split; [unfold lab; rewrite Ec; nia|split; [|unfold lab; rewrite Ec; nia]]].
    + destruct (Z_le_gt_dec (c * q - a - 1) 0); [left; unfold lo; lia|right]. unfold lab. rewrite Ec. replace (a + Z.of_nat (S lo)) with (c * q) by (unfold lo; lia). reflexivity.
    + destruct (Nat.eq_dec hi n) as [E|E]; [left; lia|right]. unfold lab. rewrite Ec. replace (a + Z.of_nat (S (lo + (hi - lo - 1)))) with (c * q + q - 1) by (unfold lo, hi in *; lia). ring.
Qed.
Lemma row_group sort tf df r : In r (resample sort tf df) -> exists K b, In b df /\ floor_to tf (b_ts b) = K /\ r = agg sort K (group tf df K).
Proof.
  intro H. unfold resample in H. apply filter_In in H. destruct H as [H _]. apply in_map_iff in H. destruct H as (K & <- & H). apply (proj1 (uniq_In _ _)) in H. apply in_map_iff in H. destruct H as (b & E & Hb). exists K, b. auto.
Qed.
Lemma nth_le_last ts j : ascZ ts -> (j < length ts)%nat -> nth j ts 0 <= last ts 0.
Proof.
  intros A L. assert (E : last ts 0 = nth (length ts - 1) ts 0). { clear -L. destruct ts as [|x l] using rev_ind; [cbn in L; lia|]. rewrite last_last, app_length. cbn [length]. rewrite app_nth2 by lia. replace (length l + 1 - 1 - length l)%nat with 0%nat by lia. reflexivity. }
  rewrite E. apply A. lia.
Qed.

(** The closes of the bars, as positions. *)
Definition closes_ok (ts : list Z) (I a : Z) (N : nat) (idx : nat -> Z) : Prop :=
  -1 <= idx 0%nat /\ (forall k, idx k <= idx (S k)) /\ 0 <= idx 1%nat /\
  forall k, (k < N)%nat -> -1 <= idx k < Z.of_nat (length ts) /\ forall j, (j < length ts)%nat -> (Z.of_nat j <= idx k <-> nth j ts 0 <= (a + Z.of_nat k) * I).
Lemma pos_ok ts I a N : ts <> [] -> ascZ ts -> 0 < I -> (2 <= N)%nat -> ticks_cover ts (fst (time_bar_indexer ts I)) I a N -> closes_ok ts I a N (pos ts I N).
Proof.
  intros NE Asc IP N2 C. split; [exact (pos_low ts I a N NE Asc N2 C)|]. split; [exact (pos_mono ts I a N NE Asc IP N2 C)|]. split; [exact (pos_first ts I a N NE Asc N2 C)|]. exact (pos_spec ts I a N NE Asc N2 C).
Qed.
Lemma pipe_shape px am ts I a N bars : ts <> [] -> ascZ ts -> 0 < I -> ticks_cover ts (fst (time_bar_indexer ts I)) I a N -> stored_bars px am ts I = Ok bars ->
  (2 <= N)%nat /\ exists idx, closes_ok ts I a N idx /\ bars = map (B px am idx (lab a I)) (seq 0 (N - 1)).
Proof.
  intros NE Asc IP C SB. pose proof (two_ticks _ _ _ _ _ _ _ NE Asc C SB) as N2. split; [exact N2|]. exists (pos ts I N). split; [now apply pos_ok|]. exact (shape ts I a N NE Asc N2 C px am bars SB).
Qed.
Lemma pipe_shape_f px am ts I a N bars : ts <> [] -> ascZ ts -> 0 < I -> ticks_cover ts (fst (time_bar_indexer ts I)) I a N -> stored_bars_f px am ts I = Ok bars ->
  (2 <= N)%nat /\ exists idx, closes_ok ts I a N idx /\ bars = map (Bf px am idx (lab a I)) (seq 0 (N - 1)) /\ (length px = length am -> stored_bars px am ts I = Ok (map (B px am idx (lab a I)) (seq 0 (N - 1)))).
Proof.
  intros NE Asc IP C SB. pose proof (two_ticks_f _ _ _ _ _ _ _ NE Asc C SB) as N2. split; [exact N2|]. exists (pos ts I N). split; [now apply pos_ok|]. split; [exact (shape_f ts I a N NE Asc N2 C px am bars SB)|].
  intro EL. destruct (stored_bars px am ts I) as [l|e] eqn:E; [f_equal; exact (shape ts I a N NE Asc N2 C px am l E)|]. exfalso. revert E. unfold stored_bars, comp_bar_ohlcv. rewrite EL, Nat.eqb_refl. cbn [negb].
  destruct (C01_close_positions ts I 0 NE Asc) as [K _]. cbv zeta in K. rewrite (clock_len ts I a N C) in K. rewrite K. destruct (Nat.ltb_spec N 2); [lia|discriminate].
Qed.

Lemma pipe_row sort px am ts I tf a N bars r : ts <> [] -> ascZ ts -> 0 < I -> (I | tf) -> 0 < tf -> (forall x, In x am -> (0 <= x)%Q) ->
  ticks_cover ts (fst (time_bar_indexer ts I)) I a N -> stored_bars px am ts I = Ok bars -> In r (resample sort tf bars) ->
  exists s e, -1 <= s <= e /\ 0 <= e < Z.of_nat (length ts) /\
    (forall j, (j < length ts)%nat -> (s < Z.of_nat j <= e <-> b_ts r - I < nth j ts 0 <= b_ts r + tf - I /\ a * I < nth j ts 0)) /\
    totals px am s e r /\
    let first := Z.max (b_ts r) ((a + 1) * I) in
    ((exists j, (j < length ts)%nat /\ s < Z.of_nat j /\ nth j ts 0 <= first) -> candle px s e r) /\
    ((forall j, (j < length ts)%nat -> s < Z.of_nat j -> first < nth j ts 0) -> 0 <= s /\ candle px (s - 1) e r).
Proof.
  intros NE Asc IP D TP Am C SB Hr. destruct (pipe_shape px am ts I a N bars NE Asc IP C SB) as (N2 & idx & (Low & Mono & Pos & Spec) & ->). clear SB.
  destruct (row_group _ _ _ _ Hr) as (K & b & Hb & EK & ->). clear Hr. apply in_map_iff in Hb. destruct Hb as (k0 & <- & Hk0). apply in_seq in Hk0.
  destruct (group_range (B px am idx (lab a I)) a I tf K (N - 1) k0 IP D TP) as (lo & m & LM & EG & L1 & L2 & U1 & U2); [reflexivity|lia|exact EK|]. rewrite EG. clear EG EK.
  exists (idx lo), (idx (lo + S m)%nat). destruct (Spec lo ltac:(lia)) as [Bl Pl]. destruct (Spec (lo + S m)%nat ltac:(lia)) as [Bu Pu].
  pose proof (idx_mono idx Mono lo (lo + S m) ltac:(lia)) as ML. pose proof (idx_pos idx Mono Pos (lo + m)) as IPs. replace (S (lo + m)) with (lo + S m)%nat in IPs by lia.
  pose proof (group_totals px am idx (lab a I) Low Mono Am sort K lo (S m)) as GT. pose proof (group_candle px am idx (lab a I) Low Mono Pos sort K lo m) as G. replace (S (lo + m)) with (lo + S m)%nat in G by lia.
  assert (ER : b_ts (agg sort K (map (B px am idx (lab a I)) (seq lo (S m)))) = K) by reflexivity.
  revert ER GT G. generalize (agg sort K (map (B px am idx (lab a I)) (seq lo (S m)))). intros r ER GT G. rewrite ER. destruct C as (_ & CF & CL).
  split; [lia|]. split; [lia|]. split; [|split].
  - intros j Hj. specialize (Pl j Hj). specialize (Pu j Hj). pose proof (nth_le_last ts j Asc Hj) as JL. unfold lab in *.
    assert (A1 : Z.of_nat j <= idx lo <-> nth j ts 0 <= (a + Z.of_nat lo) * I) by exact Pl. split.
    + intros [H1 H2]. assert ((a + Z.of_nat lo) * I < nth j ts 0) by lia. assert (nth j ts 0 <= (a + Z.of_nat (lo + S m)) * I) by (apply Pu; lia).
      split; [|nia]. split.
      * destruct L1 as [-> | L1]; [|nia]. nia.
      * replace (lo + S m)%nat with (S (lo + m)) in * by lia. lia.
    + intros [[H1 H2] H3]. split.
      * assert ((a + Z.of_nat lo) * I < nth j ts 0) by (destruct L1 as [-> | L1]; [replace (a + Z.of_nat 0) with a by lia; lia|nia]). lia.
      * apply Pu. replace (lo + S m)%nat with (S (lo + m)) in * by lia. destruct U1 as [U1|U1]; [|lia]. replace (a + Z.of_nat (S (lo + m))) with (a + Z.of_nat N - 1) by lia. lia.
  - exact GT.
  - cbv zeta.
    assert (FL : lab a I lo = Z.max K ((a + 1) * I)). { destruct L1 as [-> | L1]; [unfold lab in *; replace (a + Z.of_nat 1) with (a + 1) in * by lia; lia|]. rewrite L1. unfold lab in L1. nia. }
    rewrite <- FL. destruct (Spec (S lo) ltac:(lia)) as [Bs Ps]. unfold from in G. split.
    + intros (j & Hj & H1 & H2). destruct (Z.eqb_spec (idx lo) (idx (S lo))) as [E|E]; [|exact G]. exfalso. apply (Ps j Hj) in H2. lia.
    + intro H. destruct (Z.eqb_spec (idx lo) (idx (S lo))) as [E|E].
      * split; [pose proof (idx_pos idx Mono Pos lo); lia|exact G].
      * exfalso. pose proof (Mono lo). assert (HJ : (Z.to_nat (idx (S lo)) < length ts)%nat) by lia. specialize (H _ HJ ltac:(lia)). apply (Z.lt_irrefl (lab a I lo)). eapply Z.lt_le_trans; [exact H|]. apply (Ps _ HJ). rewrite Z2Nat.id; [apply Z.le_refl|]. apply (idx_pos idx Mono Pos lo).
Qed.
(** Every period from the first to the last label has a row. *)
Lemma pipe_periods sort px am ts I tf a N bars K : ts <> [] -> ascZ ts -> 0 < I -> (I | tf) -> 0 < tf ->
  ticks_cover ts (fst (time_bar_indexer ts I)) I a N -> stored_bars px am ts I = Ok bars ->
  (In K (map b_ts (resample sort tf bars)) <-> (tf | K) /\ floor_to tf ((a + 1) * I) <= K <= floor_to tf ((a + Z.of_nat N - 1) * I)).
Proof.
  intros NE Asc IP D TP C SB. destruct (pipe_shape px am ts I a N bars NE Asc IP C SB) as (N2 & idx & (Low & Mono & Pos & _) & ->). clear SB C.
  assert (FM : forall x y, x <= y -> floor_to tf x <= floor_to tf y) by (intros x y H; unfold floor_to; pose proof (Z.div_le_mono x y tf TP H); nia). split.
  - intro H. apply in_map_iff in H. destruct H as (r & <- & Hr). destruct (row_group _ _ _ _ Hr) as (K' & b & Hb & EK & ->). cbn [agg b_ts]. apply in_map_iff in Hb. destruct Hb as (k & <- & Hk). apply in_seq in Hk.
    change (b_ts (B px am idx (lab a I) k)) with (lab a I k) in EK. subst K'. split; [exists (lab a I k / tf); reflexivity|]. split; apply FM; unfold lab; nia.
  - intros [DK [K1 K2]]. set (x := Z.max K ((a + 1) * I)). pose proof (floor_bounds tf ((a + 1) * I) TP) as B1. pose proof (floor_bounds tf ((a + Z.of_nat N - 1) * I) TP) as B2.
    assert (DI : exists c, x = c * I). { destruct D as [q ->], DK as [d ->]. destruct (Z.max_spec (d * (q * I)) ((a + 1) * I)) as [[_ E]|[_ E]]; unfold x; rewrite E; [exists (a + 1); reflexivity|exists (d * q); ring]. }
    destruct DI as [c Ec]. assert (CB : a + 1 <= c <= a + Z.of_nat N - 1) by (unfold x in Ec; nia).
    set (k := Z.to_nat (c - a - 1)). assert (EL : lab a I k = x) by (unfold lab, k; rewrite Ec; f_equal; lia).
    assert (EF : floor_to tf (lab a I k) = K) by (apply floor_unique; [exact TP|exact DK|rewrite EL; unfold x; lia]).
    assert (Hk : (k < N - 1)%nat) by (unfold k; lia).
    set (df := map (B px am idx (lab a I)) (seq 0 (N - 1))) in *. apply in_map_iff. exists (agg sort K (group tf df K)). split; [reflexivity|]. unfold resample. apply filter_In. split.
    + apply in_map_iff. exists K. split; [reflexivity|]. apply (proj2 (uniq_In _ _)). apply in_map_iff. exists (B px am idx (lab a I) k). split; [exact EF|]. unfold df. apply in_map. apply in_seq. lia.
    + destruct (group_range (B px am idx (lab a I)) a I tf K (N - 1) k IP D TP) as (lo & m & _ & EG & _); [reflexivity|exact Hk|exact EF|]. unfold df. rewrite EG.
      destruct (group_candle px am idx (lab a I) Low Mono Pos sort K lo m) as [EO _]. unfold has_open. rewrite EO. reflexivity.
Qed.
(** All rows together hold every trade after the first tick once. *)
Lemma pipe_totals sort px am ts I tf a N bars : ts <> [] -> ascZ ts -> 0 < I -> (forall x, In x am -> (0 <= x)%Q) ->
  ticks_cover ts (fst (time_bar_indexer ts I)) I a N -> stored_bars px am ts I = Ok bars ->
  exists s, -1 <= s < Z.of_nat (length ts) /\ (forall j, (j < length ts)%nat -> (s < Z.of_nat j <-> a * I < nth j ts 0)) /\
    zsum (map b_trades (resample sort tf bars)) = Z.of_nat (length ts) - 1 - s /\
    (qsum (map b_vol (resample sort tf bars)) == bsum (at_ am) s (Z.of_nat (length ts) - 1))%Q.
Proof.
  intros NE Asc IP Am C SB. destruct (pipe_shape px am ts I a N bars NE Asc IP C SB) as (N2 & idx & (Low & Mono & Pos & Spec) & ->). clear SB.
  assert (LT : (0 < length ts)%nat) by (destruct ts; [congruence|cbn; lia]).
  assert (LL : idx (N - 1)%nat = Z.of_nat (length ts) - 1).
  { destruct (Spec (N - 1)%nat ltac:(lia)) as [B1 K]. assert (Z.of_nat (length ts - 1) <= idx (N - 1)%nat); [|lia]. apply K; [lia|]. destruct C as (_ & _ & CL). pose proof (nth_le_last ts (length ts - 1) Asc ltac:(lia)).
    replace (a + Z.of_nat (N - 1)) with (a + Z.of_nat N - 1) by lia. lia. }
  exists (idx 0%nat). destruct (Spec 0%nat ltac:(lia)) as [B0 K0]. split; [exact B0|]. split.
  { intros j Hj. specialize (K0 j Hj). replace (a + Z.of_nat 0) with a in K0 by lia. lia. }
  destruct (C69_totals sort tf (map (B px am idx (lab a I)) (seq 0 (N - 1)))) as [T1 T2].
  { intros b Hb. apply in_map_iff in Hb. destruct Hb as (k & <- & _). unfold B, stored, valid_bar. cbn [b_vol b_open]. split; [|discriminate].
    pose proof (idx_low idx Low Mono k). pose proof (Mono k). rewrite bar_volume by lia. apply bsum_nonneg. intros. apply (am_pos am Am). }
  rewrite T2, T1. destruct (group_sums px am idx (lab a I) Low Mono Am 0 (N - 1)) as (G1 & G2 & _). cbn [plus] in G1, G2. rewrite LL in G1, G2. split; [exact G1|exact G2].
Qed.
