(** P_float10.v -- proofs about the feature kernels with float rounding. *)
From Coq Require Import Qround Qpower Qfield.
From Verif Require Import Base M_logic M_bars M_footprint M_features M_volume M_float M_float2 S_logic S_features S_volume S_float.
From Verif Require Import P_weights P_features P_features2 P_logic P_volume3 P_float P_float2 P_float9.
Open Scope Q_scope.

(* ---------------------------------------------------------------- simple moving average *)
Lemma near_r53 x A : Qabs x <= A -> near 1 (r53 x) x A.
Proof. intro H. apply near_rnd. now apply near_exact. Qed.
Lemma r53_eq x y : x == y -> r53 x = r53 y.
Proof. apply rnd_comp. Qed.

Lemma sma_f_nth xs n i : (1 <= n)%nat -> (i < length xs)%nat ->
  nth i (sma_f xs n) None = if (i + 1 <? n)%nat then None else Some (r53 (r53 (1 / Qnat n) * fsum (window (at_ xs) i n))).
Proof.
  intros Hn Hi. unfold sma_f. rewrite nth_map_seq by auto. destruct (Nat.ltb_spec (i + 1) n); [reflexivity|].
  now rewrite lastn_window by lia.
Qed.
Lemma sma_f_near xs n i : (1 <= n <= i + 1)%nat -> (i < length xs)%nat ->
  exists a, nth i (sma_f xs n) None = Some a /\
    near (n + 2) a (1 / Qnat n * qsum (window (at_ xs) i n)) (1 / Qnat n * asum (window (at_ xs) i n)).
Proof.
  intros [Hn Hk] Hi. eexists. rewrite sma_f_nth by auto. destruct (Nat.ltb_spec (i + 1) n); [lia|]. split; [reflexivity|].
  assert (P : 0 < Qnat n) by (apply Qnat_pos; lia).
  replace (n + 2)%nat with (S (1 + n)) by lia. apply near_rnd, near_mult.
  - apply near_r53. rewrite Qabs_pos; [lra|]. apply Qle_shift_div_l; lra.
  - pose proof (fsum_near (window (at_ xs) i n)) as F. now rewrite window_length in F.
Qed.
Lemma two_inv k : / two k == two (- k).
Proof. pose proof (two_opp k). pose proof (two_pos k). field_simplify_eq; [|lra]. rewrite Qmult_comm. symmetry. lra. Qed.
Lemma two_fl p e : (1 <= p)%Z -> fl p (two e).
Proof. intro H. exists 1%Z, e. split; [cbn; apply Z.pow_gt_1; lia|]. unfold two. change (inject_Z 1) with 1. ring. Qed.
Lemma sma_f_grid xs n k g i : Z.of_nat n = (2 ^ k)%Z -> (0 <= k)%Z -> (n <= i + 1)%nat -> (i < length xs)%nat ->
  (forall x, In x (window (at_ xs) i n) -> grid g x) -> asum (window (at_ xs) i n) <= two (53 + g) ->
  exists a, nth i (sma_f xs n) None = Some a /\ a * Qnat n == qsum (window (at_ xs) i n).
Proof.
  intros En K0 Hk Hi G B. assert (Hn : (1 <= n)%nat) by (pose proof (Z.pow_pos_nonneg 2 k); lia).
  eexists. rewrite sma_f_nth by auto. destruct (Nat.ltb_spec (i + 1) n); [lia|]. split; [reflexivity|].
  set (l := window (at_ xs) i n) in *. assert (Qn : Qnat n == two k) by (unfold Qnat; rewrite En, two_Z by auto; reflexivity).
  assert (E1 : r53 (1 / Qnat n) == two (- k)).
  { rewrite (r53_eq (1 / Qnat n) (two (- k))).
    - apply rnd_exact; [lia|]. now apply two_fl.
    - rewrite Qn. unfold Qdiv. rewrite two_inv. ring. }
  rewrite (r53_eq _ (two (- k) * qsum l)) by (rewrite E1, (fsum_grid g l G B); reflexivity).
  rewrite (r53_grid (g - k)).
  - rewrite Qn. pose proof (two_opp k) as O. setoid_replace (two (- k) * qsum l * two k) with (qsum l * (two k * two (- k))) by ring. rewrite O. ring.
  - replace (g - k)%Z with (- k + g)%Z by lia. apply grid_mult; [exists 1%Z; unfold two; change (inject_Z 1) with 1; ring|now apply qsum_grid].
  - rewrite Qabs_Qmult, (Qabs_pos (two (- k))) by (pose proof (two_pos (- k)); lra).
    replace (53 + (g - k))%Z with (- k + (53 + g))%Z by lia. rewrite two_plus. pose proof (qsum_abs l). pose proof (two_pos (- k)).
    apply Qmult_le_l; [auto|lra].
Qed.

(* ---------------------------------------------------------------- distance from the VWAP *)
Definition tot_abs (f : nat -> Q) (m : nat) : Q := qsum (map (fun j => Qabs (f j)) (seq 0 m)).
Lemma tot_abs_S f m : tot_abs f (S m) == tot_abs f m + Qabs (f m).
Proof. unfold tot_abs. rewrite seq_S, map_app, qsum_app. cbn [map qsum fold_right Nat.add]. ring. Qed.
Lemma tot_abs_mono f m k : (m <= k)%nat -> tot_abs f m <= tot_abs f k.
Proof. intro H. induction H as [|k H IH]; [lra|]. rewrite tot_abs_S. pose proof (Qabs_nonneg (f k)). lra. Qed.
Lemma tot_abs_nonneg f m : 0 <= tot_abs f m.
Proof. apply (tot_abs_mono f 0 m). lia. Qed.
Lemma near_fold ff f n : (forall j, (j < n)%nat -> near 1 (ff j) (f j) (Qabs (f j))) ->
  near (n + 1) (fold_left (fun s j => r53 (s + ff j)) (seq 0 n) 0) (qsum (map f (seq 0 n))) (tot_abs f n).
Proof.
  induction n as [|n IH]; intro H; [apply near_exact; discriminate|].
  rewrite seq_S, fold_left_app, map_app. cbn [fold_left map Nat.add].
  eapply near_comp; [reflexivity|symmetry; apply qsum_app|symmetry; apply tot_abs_S|].
  assert (K : near (n + 1) (ff n) (f n) (Qabs (f n))) by (eapply near_le; [|apply Qle_refl|apply H; lia]; lia).
  eapply near_comp; [reflexivity| |reflexivity|apply near_rnd, near_plus; [apply IH; intros; apply H; lia|exact K]].
  cbn [qsum fold_right]. ring.
Qed.

Section Vwap.
  Variable ln : Q -> Q.
  Variables close volume : list Q.
  Variable n : nat.
  Variable lg : bool.
  Hypothesis Hn : (1 <= n)%nat.
  Let pv j := at_ close j * at_ volume j.
  Let vv j := at_ volume j.
  Lemma vwap_f_near k : let i := (n - 1 + k)%nat in
    near (i + 2) (fst (fst (vwap_state_f ln close volume n lg k))) (qsum (window pv i n)) (tot_abs pv (n + k) + tot_abs pv k) /\
    near (i + 2) (snd (fst (vwap_state_f ln close volume n lg k))) (qsum (window vv i n)) (tot_abs vv (n + k) + tot_abs vv k).
  Proof.
    cbv zeta. induction k as [|k [I1 I2]].
    - cbn [vwap_state_f fst snd]. unfold window. rewrite !Nat.add_0_r. replace (n - 1 + 1 - n)%nat with 0%nat by lia.
      replace (n - 1 + 2)%nat with (n + 1)%nat by lia. split.
      + eapply near_comp; [reflexivity|reflexivity| |apply (near_fold (fun j => r53 (qn close j * qn volume j)) pv)].
        * unfold tot_abs at 3. cbn [seq map qsum fold_right]. ring.
        * intros j _. apply near_r53. apply Qle_refl.
      + eapply near_comp; [reflexivity|reflexivity| |apply (near_fold (fun j => qn volume j) vv)].
        * unfold tot_abs at 3. cbn [seq map qsum fold_right]. ring.
        * intros j _. apply near_exact. apply Qle_refl.
    - cbn [vwap_state_f]. cbv zeta. cbn [fst snd]. replace (n - 1 + S k)%nat with (n + k)%nat by lia.
      replace (n + k - n)%nat with k by lia. replace (n + k + 2)%nat with (S (n - 1 + k + 2)) by lia.
      replace (n + S k)%nat with (S (n + k)) by lia. split.
      + eapply near_comp; [reflexivity|symmetry; now apply window_slide|rewrite !tot_abs_S; reflexivity|].
        assert (K : near (n - 1 + k + 2) (r53 (r53 (pv (n + k)) - r53 (pv k))) (pv (n + k)%nat - pv k) (Qabs (pv (n + k)) + Qabs (pv k))).
        { apply (near_le 2 _ _ _ (Qabs (pv (n + k)) + Qabs (pv k))); [lia|apply Qle_refl|].
          apply near_rnd, near_minus; apply near_r53; apply Qle_refl. }
        eapply near_comp; [reflexivity|reflexivity| |apply near_rnd, near_plus; [exact I1|exact K]]. ring.
      + eapply near_comp; [reflexivity|symmetry; now apply window_slide|rewrite !tot_abs_S; reflexivity|].
        assert (K : near (n - 1 + k + 2) (r53 (vv (n + k)%nat - vv k)) (vv (n + k)%nat - vv k) (Qabs (vv (n + k)) + Qabs (vv k))).
        { apply (near_le 1 _ _ _ (Qabs (vv (n + k)) + Qabs (vv k))); [lia|apply Qle_refl|].
          apply near_rnd, near_minus; apply near_exact; apply Qle_refl. }
        eapply near_comp; [reflexivity|reflexivity| |apply near_rnd, near_plus; [exact I2|exact K]]. ring.
  Qed.
End Vwap.

(** A running window sum with rounding (reversion.py) on a grid. *)
Lemma run_grid (ff f : nat -> Q) g n len B : (1 <= n)%nat -> B <= two (53 + g) ->
  (forall j, (j < len)%nat -> grid g (f j) /\ 0 <= f j /\ ff j == f j) ->
  (forall i, (n <= i + 1)%nat -> (i < len)%nat -> qsum (window f i n) <= B) ->
  (forall k, (k <= n <= len)%nat -> fold_left (fun s j => r53 (s + ff j)) (seq 0 k) 0 == qsum (map f (seq 0 k))) /\
  (forall k c, (n + k < len)%nat -> c == qsum (window f (n - 1 + k) n) ->
     r53 (c + r53 (ff (n + k)%nat - ff k)) == qsum (window f (n + k) n)).
Proof.
  intros Hn HB Hf HW.
  assert (NN : forall a m, (a + m <= len)%nat -> forall y, In y (map f (seq a m)) -> 0 <= y /\ grid g y).
  { intros a m H y Hy. apply in_map_iff in Hy. destruct Hy as (j & <- & Hj). apply in_seq in Hj. destruct (Hf j ltac:(lia)) as [A [C _]]. auto. }
  assert (TB : (n <= len)%nat -> forall j, (j < len)%nat -> f j <= B).
  { intros Hl j Hj. eapply Qle_trans; [|apply (HW (Nat.max j (n - 1))); lia]. apply qsum_elem_le.
    - unfold window. intros y Hy. eapply NN; [|exact Hy]. lia.
    - unfold window. apply in_map. apply in_seq. lia. }
  split.
  - induction k as [|k IH]; intro Hk; [reflexivity|]. rewrite seq_S, fold_left_app, map_app, qsum_app. cbn [fold_left map Nat.add qsum fold_right].
    destruct (Hf k ltac:(lia)) as [G [P E]].
    rewrite (r53_eq _ (qsum (map f (seq 0 k)) + f k)) by (rewrite IH, E by lia; reflexivity).
    rewrite Qplus_0_r. apply (r53_grid g).
    + apply grid_plus; [|auto]. apply qsum_grid. intros y Hy. eapply NN; [|exact Hy]. lia.
    + rewrite Qabs_pos.
      * eapply Qle_trans; [|exact HB]. eapply Qle_trans; [|apply (HW (n - 1)%nat); lia].
        unfold window. replace (n - 1 + 1 - n)%nat with 0%nat by lia. replace n with (S k + (n - S k))%nat at 1 by lia.
        rewrite seq_app, map_app, qsum_app, seq_S, map_app, qsum_app. cbn [map qsum fold_right Nat.add].
        pose proof (qsum_nonneg (map f (seq (S k) (n - S k)))) as Q0.
        assert (0 <= qsum (map f (seq (S k) (n - S k)))) by (apply Q0; intros y Hy; eapply NN; [|exact Hy]; lia). lra.
      * assert (0 <= qsum (map f (seq 0 k))) by (apply qsum_nonneg; intros y Hy; eapply NN; [|exact Hy]; lia). lra.
  - intros k c Hk E. destruct (Hf (n + k)%nat ltac:(lia)) as [G1 [P1 E1]], (Hf k ltac:(lia)) as [G2 [P2 E2]].
    pose proof (TB ltac:(lia) (n + k)%nat ltac:(lia)). pose proof (TB ltac:(lia) k ltac:(lia)).
    assert (D : r53 (ff (n + k)%nat - ff k) == f (n + k)%nat - f k).
    { rewrite (r53_eq _ (f (n + k)%nat - f k)) by (rewrite E1, E2; reflexivity). apply (r53_grid g); [now apply grid_minus|].
      apply Qabs_Qle_condition. lra. }
    rewrite (r53_eq _ (qsum (window f (n + k) n))) by (rewrite D, E, window_slide by auto; reflexivity).
    apply (r53_grid g).
    + apply qsum_grid. unfold window. intros y Hy. eapply NN; [|exact Hy]. lia.
    + rewrite Qabs_pos; [eapply Qle_trans; [apply HW; lia|exact HB]|]. apply qsum_nonneg. unfold window. intros y Hy. eapply NN; [|exact Hy]. lia.
Qed.

Section Vwap2.
  Variable ln : Q -> Q.
  Variables close volume : list Q.
  Variable n : nat.
  Variable lg : bool.
  Hypothesis Hn : (1 <= n)%nat.
  Let pv j := at_ close j * at_ volume j.
  Let vv j := at_ volume j.
  Variables g h : Z.
  Hypothesis Hp : forall j, (j < length close)%nat -> grid g (at_ close j) /\ 0 <= at_ close j.
  Hypothesis Hv : forall j, (j < length close)%nat -> grid h (at_ volume j) /\ 0 <= at_ volume j.
  Hypothesis BW : forall i, (n <= i + 1)%nat -> (i < length close)%nat -> qsum (window pv i n) <= two (53 + (g + h)).
  Hypothesis BV : forall i, (n <= i + 1)%nat -> (i < length close)%nat -> qsum (window vv i n) <= two (53 + h).
  Lemma vwap_f_grid k : (n + k <= length close)%nat ->
    fst (fst (vwap_state_f ln close volume n lg k)) == qsum (window pv (n - 1 + k) n) /\
    snd (fst (vwap_state_f ln close volume n lg k)) == qsum (window vv (n - 1 + k) n).
  Proof.
    assert (FW : forall j, (j < length close)%nat -> (n <= length close)%nat -> grid (g + h) (pv j) /\ 0 <= pv j /\ r53 (qn close j * qn volume j) == pv j).
    { intros j Hj Hl. destruct (Hp j Hj), (Hv j Hj). assert (G : grid (g + h) (pv j)) by (now apply grid_mult).
      assert (P : 0 <= pv j) by (unfold pv; nra). split; [auto|]. split; [auto|]. apply (r53_grid (g + h)); [exact G|].
      change (qn close j * qn volume j) with (pv j). rewrite Qabs_pos by auto. eapply Qle_trans; [|apply (BW (Nat.max j (n - 1))); lia].
      apply qsum_elem_le.
      - unfold window. intros y Hy. apply in_map_iff in Hy. destruct Hy as (t & <- & Ht). apply in_seq in Ht. destruct (Hp t ltac:(lia)), (Hv t ltac:(lia)). unfold pv. nra.
      - unfold window. apply in_map. apply in_seq. lia. }
    destruct (Nat.le_gt_cases n (length close)) as [Hl|Hl]; [|intro; lia].
    destruct (run_grid (fun j => r53 (qn close j * qn volume j)) pv (g + h) n (length close) _ Hn (Qle_refl _)) as [W1 W2];
      [intros j Hj; apply FW; auto|exact BW|].
    destruct (run_grid (fun j => qn volume j) vv h n (length close) _ Hn (Qle_refl _)) as [V1 V2];
      [intros j Hj; destruct (Hv j Hj); split; [auto|split; [auto|reflexivity]]|exact BV|].
    induction k as [|k IH]; intro Hk.
    - cbn [vwap_state_f fst snd]. unfold window. rewrite Nat.add_0_r. replace (n - 1 + 1 - n)%nat with 0%nat by lia.
      split; [apply W1; lia|apply V1; lia].
    - destruct (IH ltac:(lia)) as [I1 I2]. cbn [vwap_state_f]. cbv zeta. cbn [fst snd].
      replace (n - 1 + S k)%nat with (n + k)%nat by lia. replace (n + k - n)%nat with k by lia.
      split; [apply (W2 k _ ltac:(lia) I1)|apply (V2 k _ ltac:(lia) I2)].
  Qed.
End Vwap2.

Lemma vwap_f_nth ln close volume n lg out i : vwap_distance_f ln close volume n lg = Ok out -> (i < length close)%nat ->
  length out = length close /\
  (if (i + 1 <? n)%nat then Ok NaN else snd (vwap_state_f ln close volume n lg (i + 1 - n))) = Ok (nth i out NaN).
Proof.
  intros E Hi. unfold vwap_distance_f in E. apply (collect_ok _ _ NaN) in E. destruct E as [L H].
  rewrite map_length, seq_length in L. split; auto. rewrite <- H by (rewrite map_length, seq_length; auto).
  now rewrite nth_map_seq.
Qed.
Lemma vwap_f_out ln close volume n lg out i : (1 <= n)%nat -> vwap_distance_f ln close volume n lg = Ok out -> (i < length close)%nat ->
  let st := vwap_state_f ln close volume n lg (i + 1 - n) in
  ((i + 1 < n)%nat -> nth i out NaN = NaN) /\
  ((n <= i)%nat -> if Qltb 0 (snd (fst st)) then vwap_dist_f ln lg (at_ close i) (fst (fst st)) (snd (fst st)) = Ok (nth i out NaN)
                  else nth i out NaN = nth (i - 1) out NaN) /\
  (i = (n - 1)%nat -> if Qltb 0 (snd (fst st)) then vwap_dist_f ln false (at_ close i) (fst (fst st)) (snd (fst st)) = Ok (nth i out NaN)
                  else nth i out NaN = NaN).
Proof.
  intros Hn E Hi st. destruct (vwap_f_nth _ _ _ _ _ _ _ E Hi) as [L H]. split; [|split].
  - intro C. replace (i + 1 <? n)%nat with true in H by (symmetry; apply Nat.ltb_lt; lia). now injection H as <-.
  - intro C. replace (i + 1 <? n)%nat with false in H by (symmetry; apply Nat.ltb_ge; lia).
    assert (K : exists k, (i + 1 - n)%nat = S k) by (exists (i - n)%nat; lia). destruct K as [k K].
    destruct (vwap_f_nth _ _ _ _ _ _ (i - 1) E ltac:(lia)) as [_ H']. replace (i - 1 + 1 <? n)%nat with false in H' by (symmetry; apply Nat.ltb_ge; lia).
    replace (i - 1 + 1 - n)%nat with k in H' by lia. unfold st. rewrite K in *.
    cbn [vwap_state_f] in *. cbv zeta in *. cbn [fst snd] in *. replace (n + k)%nat with i in * by lia.
    destruct (Qltb 0 _); [exact H|]. rewrite H' in H. now injection H as <-.
  - intro C. replace (i + 1 <? n)%nat with false in H by (symmetry; apply Nat.ltb_ge; lia). unfold st.
    replace (i + 1 - n)%nat with 0%nat in * by lia. cbn [vwap_state_f] in *. cbv zeta in *. cbn [fst snd] in *. rewrite <- C in H.
    destruct (Qltb 0 _); [exact H|]. now injection H as <-.
Qed.
Lemma vwap_dist_f_comp ln lg c w v w' v' : w == w' -> v == v' -> vwap_dist_f ln lg c w v = vwap_dist_f ln lg c w' v'.
Proof. intros E F. unfold vwap_dist_f. rewrite (r53_eq (w / v) (w' / v')) by (rewrite E, F; reflexivity). reflexivity. Qed.
Lemma vwap_dist_f_inv ln lg c w v o : vwap_dist_f ln lg c w v = Ok o ->
  ~ r53 (w / v) == 0 /\ o = if lg then flog ln (r53 (c / r53 (w / v))) else Fin (r53 (r53 (c / r53 (w / v)) - 1)).
Proof.
  unfold vwap_dist_f. destruct (Qeqb_spec (r53 (w / v)) 0) as [|N]; [discriminate|]. intro E. split; [auto|].
  destruct lg; now injection E as <-.
Qed.

(* ---------------------------------------------------------------- running sums *)
Lemma prefix_f_fl f k : fl 53 (prefix_f f k).
Proof. destruct k; cbn [prefix_f]; [apply fl_0; lia|apply rnd_fl; lia]. Qed.
Lemma prefix_f_step f k : 0 <= f k -> prefix_f f k <= prefix_f f (S k).
Proof. intro H. cbn [prefix_f]. apply rnd_ge; [lia|apply prefix_f_fl|lra]. Qed.
Lemma prefix_f_mono f k m : (forall j, 0 <= f j) -> (k <= m)%nat -> prefix_f f k <= prefix_f f m.
Proof. intros H L. induction L as [|m L IH]; [lra|]. pose proof (prefix_f_step f m (H m)). lra. Qed.
Lemma prefix_f_near m xf x X k : (forall j, (j < k)%nat -> near m (xf j) (x j) (X j)) ->
  near (m + k) (prefix_f xf k) (prefix x k) (prefix X k).
Proof.
  induction k as [|k IH]; intro H; cbn [prefix prefix_f]; [apply near_exact; discriminate|].
  replace (m + S k)%nat with (S (m + k)) by lia. apply near_rnd, near_plus; [apply IH; intros; apply H; lia|].
  eapply near_le; [|apply Qle_refl|apply H; lia]. lia.
Qed.
Lemma prefix_grid g f k : (forall j, (j < k)%nat -> grid g (f j)) -> grid g (prefix f k).
Proof. induction k as [|k IH]; intro H; cbn [prefix]; [apply grid_0|]. apply grid_plus; [apply IH; intros; apply H; lia|apply H; lia]. Qed.
Lemma prefix_mono f k m : (forall j, (j < m)%nat -> 0 <= f j) -> (k <= m)%nat -> prefix f k <= prefix f m.
Proof.
  intros H L. induction L as [|m L IH]; [lra|]. cbn [prefix]. pose proof (H m ltac:(lia)).
  assert (prefix f k <= prefix f m) by (apply IH; intros; apply H; lia). lra.
Qed.
Lemma prefix_f_grid g xf f k : (forall j, (j < k)%nat -> grid g (f j) /\ 0 <= f j /\ xf j == f j) -> prefix f k <= two (53 + g) ->
  prefix_f xf k == prefix f k.
Proof.
  induction k as [|k IH]; intros H B; [reflexivity|]. cbn [prefix prefix_f] in *. destruct (H k ltac:(lia)) as [G [P E]].
  assert (N : 0 <= prefix f k) by (apply (prefix_mono f 0 k); [intros j Hj; apply H; lia|lia]).
  assert (I : prefix_f xf k == prefix f k) by (apply IH; [intros; apply H; lia|lra]).
  rewrite (r53_eq _ (prefix f k + f k)) by (rewrite I, E; reflexivity). apply (r53_grid g).
  - apply grid_plus; [apply prefix_grid; intros; apply H; lia|auto].
  - rewrite Qabs_pos; lra.
Qed.
