(** P_time.v -- float64 facts and proofs about the time bar clock. *)
From Verif Require Import Base M_logic S_logic.
Open Scope Z_scope.

Lemma rne_div_bounds n d : 0 < d ->
  d * (2 * rne_div n d - 1) <= 2 * n <= d * (2 * rne_div n d + 1).
Proof.
  intro Hd. unfold rne_div.
  pose proof (Z.div_mod n d ltac:(lia)) as E. pose proof (Z.mod_pos_bound n d Hd).
  set (q := n / d) in *. set (r := n mod d) in *.
  destruct (Z.ltb_spec (2 * r) d); [nia|].
  destruct (Z.ltb_spec d (2 * r)); [nia|].
  destruct (Z.even q); nia.
Qed.

Lemma rne_ge n d k : 0 < d -> k * d <= n -> k <= rne_div n d.
Proof.
  intros Hd H. unfold rne_div.
  assert (k <= n / d) by (apply Z.div_le_lower_bound; lia).
  destruct (2 * (n mod d) <? d); [lia|].
  destruct (d <? 2 * (n mod d)); [lia|]. destruct (Z.even (n / d)); lia.
Qed.
Lemma rne_le n d k : 0 < d -> n <= k * d -> rne_div n d <= k.
Proof.
  intros Hd H. pose proof (rne_div_bounds n d Hd) as [B _].
  destruct (Z.le_gt_cases (rne_div n d) k) as [|C]; [assumption|exfalso].
  assert (d * (2 * k + 1) <= d * (2 * rne_div n d - 1)) by (apply Z.mul_le_mono_nonneg_l; lia).
  nia.
Qed.
Lemma rne_exact d k : 0 < d -> rne_div (k * d) d = k.
Proof.
  intro Hd. apply Z.le_antisymm; [apply rne_le|apply rne_ge]; lia.
Qed.

Lemma div256_pow z e : (256 | z) -> 0 <= e <= 8 -> (2 ^ e | z).
Proof.
  intros H He. eapply Z.divide_trans; [|exact H].
  exists (2 ^ (8 - e)). rewrite <- Z.pow_add_r by lia. replace (8 - e + e) with 8 by lia. reflexivity.
Qed.

Lemma log2_lt61 z : 0 <= z < 2 ^ 61 -> Z.log2 z - 52 <= 8.
Proof.
  intros [H1 H2]. destruct (Z.eq_dec z 0) as [->|]; [cbn; lia|].
  apply Z.log2_lt_pow2 in H2; lia.
Qed.

Lemma f64_exact z : 0 <= z < 2 ^ 61 -> (256 | z) -> f64 z = z.
Proof.
  intros Hz Hd. unfold f64. pose proof (log2_lt61 z Hz) as He.
  set (e := Z.log2 z - 52) in *. destruct (Z.leb_spec e 0); [reflexivity|].
  destruct (div256_pow z e Hd ltac:(lia)) as [k Ek]. clearbody e. rewrite Ek.
  rewrite rne_exact; [reflexivity|]. apply Z.pow_pos_nonneg; lia.
Qed.

Lemma f64_small z : 0 <= z < 2 ^ 53 -> f64 z = z.
Proof.
  intros Hz. unfold f64. destruct (Z.leb_spec (Z.log2 z - 52) 0) as [|C]; [reflexivity|exfalso].
  destruct (Z.eq_dec z 0) as [->|]; [cbn in C; lia|].
  destruct Hz as [H1 H2]. apply Z.log2_lt_pow2 in H2; lia.
Qed.

Lemma f64_ge z y : 0 <= z < 2 ^ 61 -> (256 | y) -> y <= z -> y <= f64 z.
Proof.
  intros Hz Hd Hy. unfold f64. pose proof (log2_lt61 z Hz) as He.
  set (e := Z.log2 z - 52) in *. destruct (Z.leb_spec e 0); [assumption|].
  assert (0 < 2 ^ e) by (apply Z.pow_pos_nonneg; lia).
  destruct (div256_pow y e Hd ltac:(lia)) as [k Ek].
  assert (k <= rne_div z (2 ^ e)) by (apply rne_ge; lia). nia.
Qed.
Lemma f64_le z y : 0 <= z < 2 ^ 61 -> (256 | y) -> z <= y -> f64 z <= y.
Proof.
  intros Hz Hd Hy. unfold f64. pose proof (log2_lt61 z Hz) as He.
  set (e := Z.log2 z - 52) in *. destruct (Z.leb_spec e 0); [assumption|].
  assert (0 < 2 ^ e) by (apply Z.pow_pos_nonneg; lia).
  destruct (div256_pow y e Hd ltac:(lia)) as [k Ek].
  assert (rne_div z (2 ^ e) <= k) by (apply rne_le; lia). nia.
Qed.

Lemma f64_err z : 0 <= z < 2 ^ 61 -> z - 128 <= f64 z <= z + 128.
Proof.
  intros Hz. unfold f64. pose proof (log2_lt61 z Hz) as He.
  set (e := Z.log2 z - 52) in *. destruct (Z.leb_spec e 0); [lia|].
  assert (0 < 2 ^ e) by (apply Z.pow_pos_nonneg; lia).
  assert (2 ^ e <= 2 ^ 8) by (apply Z.pow_le_mono_r; lia). change (2 ^ 8) with 256 in *.
  pose proof (rne_div_bounds z (2 ^ e) ltac:(lia)). nia.
Qed.

(** The ceiling of the rounded quotient is the true ceiling as soon as the quotient
    is not closer above an integer than half a unit in the last place. *)
Lemma ceil_fdiv_eq a b k : 0 < b -> 0 < a -> a < 2 ^ 52 * b ->
  (k - 1) * b < a <= k * b -> a < 2 ^ 53 * (a - (k - 1) * b) -> ceil_fdiv a b = k.
Proof.
  intros Hb Ha Hab Hk Hr. unfold ceil_fdiv.
  destruct (Z.leb_spec a 0); [lia|].
  set (k0 := Z.log2 a - Z.log2 b).
  set (E := if (if 0 <=? k0 then b * 2 ^ k0 <=? a else b <=? a * 2 ^ (- k0)) then k0 else k0 - 1).
  assert (HE : (0 <= E /\ b * 2 ^ E <= a) \/ (E < 0 /\ b <= a * 2 ^ (- E))).
  { pose proof (Z.log2_spec a Ha) as [La1 La2]. pose proof (Z.log2_spec b Hb) as [Lb1 Lb2].
    pose proof (Z.log2_nonneg a) as Na. pose proof (Z.log2_nonneg b) as Nb.
    unfold E. destruct (Z.leb_spec 0 k0) as [H0|H0].
    - destruct (Z.leb_spec (b * 2 ^ k0) a) as [H1|H1]; [left; lia|].
      destruct (Z.eq_dec k0 0) as [E0|Hne].
      + right. rewrite E0. split; [lia|]. change (2 ^ (- (0 - 1))) with 2.
        unfold k0 in E0. replace (Z.log2 b) with (Z.log2 a) in Lb2 by lia.
        rewrite Z.pow_succ_r in Lb2 by lia. lia.
      + left. split; [lia|]. 
        assert (b * 2 ^ (k0 - 1) < 2 ^ (Z.succ (Z.log2 b)) * 2 ^ (k0 - 1)).
        { apply Z.mul_lt_mono_pos_r; [apply Z.pow_pos_nonneg; lia|lia]. }
        rewrite <- Z.pow_add_r in H2 by lia.
        replace (Z.succ (Z.log2 b) + (k0 - 1)) with (Z.log2 a) in H2 by (unfold k0; lia). lia.
    - destruct (Z.leb_spec b (a * 2 ^ (- k0))) as [H1|H1]; [right; lia|].
      right. split; [lia|].
      assert (2 ^ (Z.log2 a) * 2 ^ (- (k0 - 1)) <= a * 2 ^ (- (k0 - 1))).
      { apply Z.mul_le_mono_nonneg_r; [apply Z.pow_nonneg; lia|lia]. }
      rewrite <- Z.pow_add_r in H2 by lia.
      replace (Z.log2 a + - (k0 - 1)) with (Z.succ (Z.log2 b)) in H2 by (unfold k0; lia). lia. }
  clearbody E.
  assert (HE52 : E < 52).
  { destruct HE as [[H1 H2]|]; [|lia]. destruct (Z.lt_ge_cases E 52) as [|C]; [assumption|exfalso].
    assert (2 ^ 52 <= 2 ^ E) by (apply Z.pow_le_mono_r; lia). nia. }
  destruct (Z.leb_spec 0 (E - 52)) as [|_]; [lia|].
  set (P := 2 ^ (- (E - 52))).
  assert (HP : 0 < P) by (apply Z.pow_pos_nonneg; lia).
  set (m := rne_div (a * P) b).
  assert (Hm1 : m <= k * P) by (apply rne_le; nia).
  assert (HrP : b < 2 * (a - (k - 1) * b) * P).
  { set (r := a - (k - 1) * b) in *. unfold P.
    destruct HE as [[H1 H2]|[H1 H2]].
    - assert (E2 : 2 ^ (- (E - 52)) * 2 ^ E = 2 ^ 52).
      { rewrite <- Z.pow_add_r by lia. f_equal. lia. }
      assert (HpE : 0 < 2 ^ E) by (apply Z.pow_pos_nonneg; lia).
      apply (Z.mul_lt_mono_pos_r (2 ^ E)); [assumption|].
      replace (2 * r * 2 ^ (- (E - 52)) * 2 ^ E) with (2 * r * (2 ^ (- (E - 52)) * 2 ^ E)) by ring.
      rewrite E2. change (2 ^ 53) with (2 * 2 ^ 52) in Hr. lia.
    - replace (- (E - 52)) with (52 + - E) by lia. rewrite Z.pow_add_r by lia.
      assert (HpE : 0 < 2 ^ (- E)) by (apply Z.pow_pos_nonneg; lia).
      change (2 ^ 53) with (2 * 2 ^ 52) in Hr. nia. }
  assert (Hm2 : (k - 1) * P < m).
  { pose proof (rne_div_bounds (a * P) b Hb) as [_ B]. fold m in B.
    destruct (Z.lt_ge_cases ((k - 1) * P) m) as [|C]; [assumption|exfalso].
    assert (b * (2 * m + 1) <= b * (2 * ((k - 1) * P) + 1)) by (apply Z.mul_le_mono_nonneg_l; lia).
    nia. }
  apply Z.le_antisymm.
  - apply Z.lt_succ_r. apply Z.div_lt_upper_bound; nia.
  - apply Z.div_le_lower_bound; nia.
Qed.

(* ------------------------------------------------------------------ *)
(** ** The clock *)

Section Clock.
  Variables (t0 tN I : Z).
  Hypothesis HI : 512 <= I.
  Hypothesis HId : (256 | I).
  Hypothesis Ht0 : 0 <= t0.
  Hypothesis Ht : t0 <= tN.
  Hypothesis Hmax : tN + 2 * I < 2 ^ 61.
  (** the first trade is not within 128 ns before a boundary *)
  Hypothesis Hfirst : t0 mod I + 128 < I.
  (** the last trade is on a boundary or more than 384 ns after it *)
  Hypothesis Hlast : tN mod I = 0 \/ 384 < tN mod I.

  Let a := t0 / I.
  Let c := (tN + I - 1) / I.   (* ceiling of tN / I *)

  Lemma dI k : (256 | k * I).
  Proof. apply Z.divide_mul_r. exact HId. Qed.

  Lemma bar_start_eq : bar_start t0 I = a * I.
  Proof.
    unfold bar_start.
    assert (E : f64 t0 / I = a).
    { unfold a. pose proof (Z.div_mod t0 I ltac:(lia)) as Ed.
      pose proof (Z.mod_pos_bound t0 I ltac:(lia)).
      pose proof (f64_err t0 ltac:(lia)) as Err.
      pose proof (f64_ge t0 (t0 / I * I) ltac:(lia) (dI _) ltac:(nia)).
      symmetry. apply (Z.div_unique _ _ _ (f64 t0 - t0 / I * I)); lia. }
    rewrite E. apply f64_exact; [|apply dI].
    pose proof (Z.mul_div_le t0 I ltac:(lia)). fold a in H.
    assert (0 <= a) by (apply Z.div_pos; lia). nia.
  Qed.

  Lemma c_bounds : (c - 1) * I < tN <= c * I /\ a <= c /\ 0 <= c.
  Proof.
    unfold c, a. pose proof (Z.div_mod (tN + I - 1) I ltac:(lia)) as Ed.
    pose proof (Z.mod_pos_bound (tN + I - 1) I ltac:(lia)).
    split; [nia|]. split; [apply Z.div_le_mono; lia|apply Z.div_pos; lia].
  Qed.

  Lemma tN_split : (tN = c * I) \/ ((c - 1) * I + 384 < tN).
  Proof.
    pose proof c_bounds as [B _]. pose proof (Z.div_mod tN I ltac:(lia)) as Ed.
    pose proof (Z.mod_pos_bound tN I ltac:(lia)).
    destruct Hlast as [H0|H0].
    - left. assert (tN / I = c) by nia. nia.
    - right. assert (tN / I = c - 1) by nia. nia.
  Qed.

  Lemma last_tick_eq : last_tick tN I = c * I.
  Proof.
    unfold last_tick. pose proof c_bounds as [B [_ Hc]].
    assert (Hlt : 0 <= tN < 2 ^ 61) by lia.
    assert (Ec : ceil_fdiv (f64 tN) I = c).
    { destruct (Z.eq_dec tN 0) as [E0|Hne].
      - rewrite E0. rewrite (f64_small 0) by lia. unfold ceil_fdiv. simpl.
        assert (c = 0) by nia. lia.
      - pose proof (f64_err tN Hlt) as Err.
        destruct tN_split as [Es|Es].
        + rewrite f64_exact by (auto; rewrite Es; apply dI).
          assert (tN - (c - 1) * I = I) by lia.
          apply ceil_fdiv_eq; try lia; rewrite ?H; lia.
        + assert (Hc1 : f64 tN <= c * I) by (apply f64_le; auto; [apply dI|lia]).
          assert (Hc2 : (c - 1) * I + 256 < f64 tN) by lia.
          assert (1 <= c) by nia.
          assert (0 <= (c - 1) * I) by (apply Z.mul_nonneg_nonneg; lia).
          apply ceil_fdiv_eq; try lia. }
    rewrite Ec. apply f64_exact; [nia|apply dI].
  Qed.

  (** number of clock ticks *)
  Definition clock_len : Z := c + 1 - a + (if (c + 1) * I <? 2 ^ 53 then 1 else 0).

  Lemma stop_eq : f64 (f64 (last_tick tN I + I) + 1) =
    (c + 1) * I + (if (c + 1) * I <? 2 ^ 53 then 1 else 0).
  Proof.
    pose proof c_bounds as [B [_ Hc]]. rewrite last_tick_eq.
    replace (c * I + I) with ((c + 1) * I) by ring.
    assert (Hr : 0 <= (c + 1) * I < 2 ^ 61) by nia.
    rewrite (f64_exact ((c + 1) * I)) by (auto; apply dI).
    set (S := (c + 1) * I) in *.
    destruct (Z.ltb_spec S (2 ^ 53)) as [Hs|Hs].
    - apply f64_small. split; [lia|].
      destruct (dI (c + 1)) as [k Ek]. fold S in Ek.
      change (2 ^ 53) with (256 * 35184372088832) in *. lia.
    - rewrite Z.add_0_r. unfold f64.
      assert (He1 : 53 <= Z.log2 (S + 1)).
      { apply Z.log2_le_pow2; lia. }
      assert (He2 : Z.log2 (S + 1) - 52 <= 8).
      { destruct (dI (c + 1)) as [k Ek]. fold S in Ek.
        apply log2_lt61. split; [lia|]. change (2 ^ 61) with (256 * 9007199254740992) in *. lia. }
      set (e := Z.log2 (S + 1) - 52) in *.
      destruct (Z.leb_spec e 0); [lia|].
      destruct (div256_pow S e (dI _) ltac:(lia)) as [k Ek].
      assert (Hp : 2 <= 2 ^ e) by (change 2 with (2 ^ 1) at 1; apply Z.pow_le_mono_r; lia).
      rewrite Ek. f_equal. unfold rne_div.
      assert (Eq : (k * 2 ^ e + 1) / 2 ^ e = k) by (symmetry; apply (Z.div_unique _ _ _ 1); lia).
      assert (Er : (k * 2 ^ e + 1) mod 2 ^ e = 1) by (symmetry; apply (Z.mod_unique _ _ k); lia).
      rewrite Eq, Er. change (2 * 1) with 2.
      destruct (Z.ltb_spec 2 (2 ^ e)); [reflexivity|].
      destruct (Z.ltb_spec (2 ^ e) 2); [lia|].
      assert (e = 1).
      { destruct (Z.le_gt_cases e 1) as [|C]; [lia|].
        assert (2 ^ 2 <= 2 ^ e) by (apply Z.pow_le_mono_r; lia). change (2 ^ 2) with 4 in *. lia. }
      assert (Ev : Z.even k = true).
      { destruct (dI (c + 1)) as [k' Ek']. fold S in Ek'. subst e.
        assert (k = 2 * (64 * k')) by (rewrite H2 in Ek; change (2 ^ 1) with 2 in Ek; lia).
        rewrite H3. apply Z.even_mul. }
      rewrite Ev. reflexivity.
  Qed.

  Lemma nitems_eq :
    ceil_fdiv (f64 (f64 (f64 (last_tick tN I + I) + 1) - bar_start t0 I)) I = clock_len.
  Proof.
    pose proof c_bounds as [B [Hac Hc]]. rewrite stop_eq, bar_start_eq. unfold clock_len.
    assert (0 <= a) by (apply Z.div_pos; lia).
    set (n := c + 1 - a). assert (Hn : 1 <= n) by (unfold n; lia).
    assert (HnI : 0 <= n * I) by nia.
    assert (HnI2 : n * I <= (c + 1) * I) by (unfold n; nia).
    assert (HcI : (c + 1) * I < 2 ^ 61) by nia.
    destruct (Z.ltb_spec ((c + 1) * I) (2 ^ 53)) as [Hs|Hs].
    - replace ((c + 1) * I + 1 - a * I) with (n * I + 1) by (unfold n; ring).
      assert (Hn53 : n * I + 1 < 2 ^ 53).
      { change (2 ^ 53) with (256 * 35184372088832) in *. destruct (dI n) as [k Ek]. lia. }
      rewrite f64_small by lia.
      apply ceil_fdiv_eq; replace (n + 1 - 1) with n by ring; lia.
    - replace ((c + 1) * I + 0 - a * I) with (n * I) by (unfold n; ring).
      rewrite f64_exact by (try apply dI; lia).
      rewrite Z.add_0_r. apply ceil_fdiv_eq; lia.
  Qed.

  Lemma bar_clock_eq : bar_clock t0 tN I =
    map (fun i => (a + Z.of_nat i) * I) (seq 0 (Z.to_nat clock_len)).
  Proof.
    pose proof c_bounds as [B [Hac Hc]]. assert (Ha : 0 <= a) by (apply Z.div_pos; lia).
    unfold bar_clock. rewrite nitems_eq, bar_start_eq.
    apply map_ext_in. intros i Hi. apply in_seq in Hi.
    assert (Hi' : Z.of_nat i <= c + 1 - a).
    { unfold clock_len in Hi. destruct (_ <? _); lia. }
    assert (0 <= Z.of_nat i * I) by nia.
    assert (Z.of_nat i * I <= (c + 1 - a) * I) by nia.
    assert ((c + 1) * I < 2 ^ 61) by nia.
    rewrite (f64_exact (Z.of_nat i * I)); [|nia|apply dI].
    replace (a * I + Z.of_nat i * I) with ((a + Z.of_nat i) * I) by ring.
    apply f64_exact; [nia|apply dI].
  Qed.
End Clock.

(** ** Close positions for an arbitrary clock *)
Lemma ss_right_iff l v j : ascZ l -> (j < length l)%nat ->
  (Z.of_nat j <= Z.of_nat (ss_right l v) - 1 <-> nth j l 0 <= v).
Proof.
  intros Ha Hj. split.
  - intro H. apply ss_right_lt. lia.
  - intro H. destruct (Nat.lt_ge_cases j (ss_right l v)) as [|C]; [lia|exfalso].
    pose proof (ss_right_ge l v j Ha (conj C Hj)). lia.
Qed.

Lemma nth_seq_map {A} (f : nat -> A) n k d : (k < n)%nat -> nth k (map f (seq 0 n)) d = f k.
Proof.
  intro H. rewrite (nth_indep _ d (f 0%nat)) by (rewrite map_length, seq_length; lia).
  rewrite map_nth, seq_nth by lia. reflexivity.
Qed.

Lemma close_positions ts clock k : ascZ ts -> (k < length clock)%nat ->
  let idx := map (fun t => Z.of_nat (ss_right ts t) - 1) clock in
  (-1 <= nth k idx 0 < Z.of_nat (length ts) \/ ts = []) /\
  forall j, (j < length ts)%nat -> (Z.of_nat j <= nth k idx 0 <-> nth j ts 0 <= nth k clock 0).
Proof.
  intros Ha Hk idx.
  assert (E : nth k idx 0 = Z.of_nat (ss_right ts (nth k clock 0)) - 1).
  { unfold idx. rewrite (nth_indep _ 0 (Z.of_nat (ss_right ts 0) - 1)) by (rewrite map_length; lia).
    rewrite (map_nth (fun t => Z.of_nat (ss_right ts t) - 1)). reflexivity. }
  rewrite E. split.
  - destruct ts; [now right|left]. pose proof (ss_right_le (z :: ts) (nth k clock 0)). lia.
  - intros j Hj. apply ss_right_iff; auto.
Qed.

Lemma bar_of_trade ts clock idx k j : ascZ ts ->
  idx = map (fun t => Z.of_nat (ss_right ts t) - 1) clock ->
  (S k < length clock)%nat -> (j < length ts)%nat ->
  (nth k idx 0 < Z.of_nat j <= nth (S k) idx 0 <-> nth k clock 0 < nth j ts 0 <= nth (S k) clock 0).
Proof.
  intros Ha -> Hk Hj.
  destruct (close_positions ts clock k Ha ltac:(lia)) as [_ H1].
  destruct (close_positions ts clock (S k) Ha Hk) as [_ H2].
  specialize (H1 j Hj). specialize (H2 j Hj). lia.
Qed.

Lemma time_idx_eq ts I : snd (time_bar_indexer ts I) =
  map (fun t => Z.of_nat (ss_right ts t) - 1) (fst (time_bar_indexer ts I)).
Proof. unfold time_bar_indexer. cbn [fst snd]. reflexivity. Qed.

Lemma time_close_positions ts I k : ts <> [] -> ascZ ts ->
  let clock := fst (time_bar_indexer ts I) in
  let idx := snd (time_bar_indexer ts I) in
  length idx = length clock /\
  ((k < length clock)%nat ->
     (-1 <= nth k idx 0 < Z.of_nat (length ts))%Z /\
     forall j, (j < length ts)%nat ->
       (Z.of_nat j <= nth k idx 0 <-> nth j ts 0 <= nth k clock 0)%Z).
Proof.
  intros Hne Ha. rewrite time_idx_eq. generalize (fst (time_bar_indexer ts I)). intros clock. cbv zeta. split.
  - apply map_length.
  - intro Hk. destruct (close_positions ts clock k Ha Hk) as [[H|H] H1]; [|congruence].
    split; [exact H|exact H1].
Qed.

Lemma time_bar_of_trade ts I k j : ascZ ts ->
  let clock := fst (time_bar_indexer ts I) in
  let idx := snd (time_bar_indexer ts I) in
  (S k < length clock)%nat -> (j < length ts)%nat ->
  (nth k idx 0 < Z.of_nat j <= nth (S k) idx 0 <-> nth k clock 0 < nth j ts 0 <= nth (S k) clock 0)%Z.
Proof.
  intros Ha. rewrite time_idx_eq. generalize (fst (time_bar_indexer ts I)). intros clock. cbv zeta.
  apply bar_of_trade; auto.
Qed.

Lemma time_bar_main ts I : ts <> [] -> ascZ ts ->
  512 <= I -> (256 | I) -> 0 <= hd 0 ts -> last ts 0 + 2 * I < 2 ^ 61 ->
  hd 0 ts mod I + 128 < I -> (last ts 0 mod I = 0 \/ 384 < last ts 0 mod I) ->
  exists (N : nat) (a : Z), (1 <= N)%nat /\
    fst (time_bar_indexer ts I) = map (fun i => (a + Z.of_nat i) * I) (seq 0 N) /\
    a * I <= hd 0 ts < (a + 1) * I /\
    last ts 0 <= (a + Z.of_nat N - 1) * I /\
    (2 ^ 53 <= last ts 0 -> (a + Z.of_nat N - 2) * I < last ts 0) /\
    (last ts 0 + 2 * I < 2 ^ 53 -> (a + Z.of_nat N - 3) * I < last ts 0 <= (a + Z.of_nat N - 2) * I).
Proof.
  intros Hne Ha HI Hd H0 Hmax Hf Hl.
  assert (Ht : hd 0 ts <= last ts 0).
  { destruct ts as [|x l]; [congruence|]. simpl hd.
    pose proof (Ha 0%nat (length l)) as H. simpl nth in H at 1.
    replace (last (x :: l) 0) with (nth (length l) (x :: l) 0).
    - apply H. simpl. lia.
    - clear. revert x. induction l as [|y l IH]; intro x; [reflexivity|]. simpl length.
      change (nth (S (length l)) (x :: y :: l) 0) with (nth (length l) (y :: l) 0). rewrite IH. reflexivity. }
  set (t0 := hd 0 ts) in *. set (tN := last ts 0) in *.
  exists (Z.to_nat (clock_len t0 tN I)), (t0 / I).
  assert (E := bar_clock_eq t0 tN I HI Hd H0 Ht Hmax Hf Hl).
  pose proof (c_bounds t0 tN I HI H0 Ht) as [B [Hac Hc]].
  assert (Hcl : Z.of_nat (Z.to_nat (clock_len t0 tN I)) = clock_len t0 tN I).
  { apply Z2Nat.id. unfold clock_len. destruct (_ <? _); lia. }
  split; [unfold clock_len; destruct (_ <? _); lia|].
  split; [exact E|]. rewrite Hcl.
  split.
  { pose proof (Z.div_mod t0 I ltac:(lia)). pose proof (Z.mod_pos_bound t0 I ltac:(lia)).
    rewrite Z.mul_add_distr_r. rewrite (Z.mul_comm (t0 / I) I). lia. }
  unfold clock_len. set (c := (tN + I - 1) / I) in *. set (q := t0 / I) in *.
  destruct (Z.ltb_spec ((c + 1) * I) (2 ^ 53)) as [Hs|Hs].
  - replace (q + (c + 1 - q + 1) - 1) with (c + 1) by ring.
    replace (q + (c + 1 - q + 1) - 2) with c by ring.
    replace (q + (c + 1 - q + 1) - 3) with (c - 1) by ring.
    rewrite Z.mul_add_distr_r in *. lia.
  - replace (q + (c + 1 - q + 0) - 1) with c by ring.
    replace (q + (c + 1 - q + 0) - 2) with (c - 1) by ring.
    rewrite Z.mul_add_distr_r, Z.mul_sub_distr_r in *. lia.
Qed.

Lemma clock_find (clock : list Z) t : (1 <= length clock)%nat ->
  nth 0 clock 0 < t -> t <= nth (length clock - 1) clock 0 ->
  exists k, (S k < length clock)%nat /\ nth k clock 0 < t <= nth (S k) clock 0.
Proof.
  intros Hl H0 H1.
  assert (W : forall m, (m < length clock)%nat -> t <= nth m clock 0 ->
     exists k, (S k < length clock)%nat /\ nth k clock 0 < t <= nth (S k) clock 0).
  { induction m as [|m IH]; intros Hm Ht; [lia|].
    destruct (Z.lt_ge_cases (nth m clock 0) t) as [C|C].
    - exists m. split; [assumption|lia].
    - apply IH; lia. }
  apply (W (length clock - 1)%nat); [lia|assumption].
Qed.

Lemma time_bar_cover ts I j : ts <> [] -> ascZ ts ->
  512 <= I -> (256 | I) -> 0 <= hd 0 ts -> last ts 0 + 2 * I < 2 ^ 61 ->
  hd 0 ts mod I + 128 < I -> (last ts 0 mod I = 0 \/ 384 < last ts 0 mod I) ->
  let clock := fst (time_bar_indexer ts I) in
  let idx := snd (time_bar_indexer ts I) in
  (j < length ts)%nat -> nth 0 clock 0 < nth j ts 0 ->
  exists! k, (S k < length clock)%nat /\ nth k idx 0 < Z.of_nat j <= nth (S k) idx 0.
Proof.
  intros Hne Ha HI Hd H0 Hmax Hf Hl clock idx Hj Hgt.
  destruct (time_bar_main ts I Hne Ha HI Hd H0 Hmax Hf Hl) as [N [a [HN [E [Ha1 [Hlast _]]]]]].
  fold clock in E.
  assert (Eidx : idx = map (fun t => Z.of_nat (ss_right ts t) - 1) clock).
  { unfold idx, clock, time_bar_indexer. cbn [fst snd]. reflexivity. }
  clearbody idx clock.
  assert (Hlen : length clock = N) by (rewrite E, map_length, seq_length; reflexivity).
  assert (Hnth : forall k, (k < N)%nat -> nth k clock 0 = (a + Z.of_nat k) * I).
  { intros k Hk. rewrite E. rewrite (nth_seq_map (fun i => (a + Z.of_nat i) * I)) by lia. reflexivity. }
  assert (Hjl : nth j ts 0 <= last ts 0).
  { assert (last ts 0 = nth (length ts - 1) ts 0) as ->.
    { clear -Hne. destruct ts as [|x l]; [congruence|]. simpl length.
      replace (S (length l) - 1)%nat with (length l) by lia. clear. revert x.
      induction l as [|y l IH]; intro x; [reflexivity|].
      change (nth (length (y :: l)) (x :: y :: l) 0) with (nth (length l) (y :: l) 0).
      rewrite <- IH. reflexivity. }
    apply Ha. lia. }
  destruct (clock_find clock (nth j ts 0)) as [k [Hk Hkt]]; try lia.
  { rewrite Hlen, Hnth by lia. replace (Z.of_nat (N - 1)) with (Z.of_nat N - 1) by lia.
    replace (a + (Z.of_nat N - 1)) with (a + Z.of_nat N - 1) by ring. lia. }
  exists k. split.
  - split; [assumption|]. apply (bar_of_trade ts clock idx k j Ha Eidx Hk Hj). exact Hkt.
  - intros k' [Hk' Hk'i]. apply (bar_of_trade ts clock idx k' j Ha Eidx Hk' Hj) in Hk'i.
    rewrite !Hnth in * by lia. rewrite !Nat2Z.inj_succ in *.
    destruct (Nat.lt_trichotomy k k') as [C|[C|C]]; [exfalso|assumption|exfalso].
    + assert ((a + Z.succ (Z.of_nat k)) * I <= (a + Z.of_nat k') * I) by (apply Z.mul_le_mono_nonneg_r; lia). lia.
    + assert ((a + Z.succ (Z.of_nat k')) * I <= (a + Z.of_nat k) * I) by (apply Z.mul_le_mono_nonneg_r; lia). lia.
Qed.

Lemma bar_start_bound t0 I : 0 < I -> 0 <= t0 < 2 ^ 61 - 128 -> (256 | I) ->
  bar_start t0 I <= t0 + 128.
Proof.
  intros HI Ht Hd. unfold bar_start. pose proof (f64_err t0 ltac:(lia)) as Err.
  assert (0 <= f64 t0) by (apply f64_ge; [lia|exists 0; lia|lia]).
  assert (0 <= f64 t0 / I) by (apply Z.div_pos; lia).
  assert (f64 t0 / I * I <= f64 t0) by (rewrite Z.mul_comm; apply Z.mul_div_le; lia).
  rewrite f64_exact; [lia|nia|]. now apply Z.divide_mul_r.
Qed.

Lemma bar_start_le t0 I : 0 < I -> 0 <= t0 < 2 ^ 61 - 128 -> (256 | I) ->
  t0 mod I + 128 < I -> bar_start t0 I <= t0.
Proof.
  intros HI Ht Hd Hf. unfold bar_start.
  pose proof (f64_err t0 ltac:(lia)) as Err.
  pose proof (Z.div_mod t0 I ltac:(lia)) as Ed. pose proof (Z.mod_pos_bound t0 I HI).
  assert (H0 : 0 <= f64 t0) by (apply f64_ge; [lia|exists 0; lia|lia]).
  assert (H1 : f64 t0 / I <= t0 / I).
  { apply Z.lt_succ_r. apply Z.div_lt_upper_bound; nia. }
  assert (H2 : 0 <= f64 t0 / I) by (apply Z.div_pos; lia).
  rewrite f64_exact; [nia|nia|]. now apply Z.divide_mul_r.
Qed.
