(** P_pipe.v -- consecutive bars of trades, grouped. *)
From Coq Require Import Lqa.
From Verif Require Import Base M_logic M_bars M_tbio M_pipe S_logic S_bars S_pipe P_bars T_logic T_tbio.
Open Scope Z_scope.

Lemma filter_seq P n lo hi : (lo <= hi <= n)%nat -> (forall k, (k < n)%nat -> P k = true <-> (lo <= k < hi)%nat) -> filter P (seq 0 n) = seq lo (hi - lo).
Proof.
  intros B H. replace n with (lo + ((hi - lo) + (n - hi)))%nat by lia. rewrite seq_app, seq_app, !filter_app. cbn [plus].
  assert (E1 : filter P (seq 0 lo) = []).
  { assert (G : forall l, (forall k, In k l -> P k = false) -> filter P l = []) by (induction l as [|x l IH]; intro K; [reflexivity|]; cbn [filter]; rewrite (K x (or_introl eq_refl)); apply IH; intros; apply K; now right).
    apply G. intros k Hk. apply in_seq in Hk. destruct (P k) eqn:E; [|reflexivity]. apply H in E; lia. }
  assert (E3 : filter P (seq (lo + (hi - lo)) (n - hi)) = []).
  { assert (G : forall l, (forall k, In k l -> P k = false) -> filter P l = []) by (induction l as [|x l IH]; intro K; [reflexivity|]; cbn [filter]; rewrite (K x (or_introl eq_refl)); apply IH; intros; apply K; now right).
    apply G. intros k Hk. apply in_seq in Hk. destruct (P k) eqn:E; [|reflexivity]. apply H in E; lia. }
  assert (E2 : filter P (seq lo (hi - lo)) = seq lo (hi - lo)).
  { assert (G : forall l, (forall k, In k l -> P k = true) -> filter P l = l) by (induction l as [|x l IH]; intro K; [reflexivity|]; cbn [filter]; rewrite (K x (or_introl eq_refl)); f_equal; apply IH; intros; apply K; now right).
    apply G. intros k Hk. apply in_seq in Hk. apply H; lia. }
  rewrite E1, E2, E3, app_nil_r. reflexivity.
Qed.
Lemma filter_map' {A B} (p : B -> bool) (f : A -> B) l : filter p (map f l) = map f (filter (fun x => p (f x)) l).
Proof. induction l as [|x l IH]; [reflexivity|]. cbn [map filter]. destruct (p (f x)); cbn [map]; now rewrite IH. Qed.
Lemma combine_map' {A B C} (f : A -> B) (g : A -> C) l : combine (map f l) (map g l) = map (fun x => (f x, g x)) l.
Proof. induction l as [|x l IH]; [reflexivity|]. cbn [map combine]. now rewrite IH. Qed.

Lemma max_join f a b b' c x y : (a <= b' <= b)%Z -> (b <= c)%Z -> is_max f (fun _ => True) a b x -> is_max f (fun _ => True) b' c y -> is_max f (fun _ => True) a c (Qmax x y).
Proof.
  intros B C [[j1 (J1 & _ & E1)] H1] [[j2 (J2 & _ & E2)] H2]. split.
  - destruct (Q.max_spec x y) as [[L E]|[L E]]; [exists j2|exists j1]; (split; [lia|split; [exact I|rewrite E; assumption]]).
  - intros j Hj _. destruct (Z_le_gt_dec j b); [specialize (H1 j ltac:(lia) I); pose proof (Q.le_max_l x y); lra|specialize (H2 j ltac:(lia) I); pose proof (Q.le_max_r x y); lra].
Qed.
Lemma min_join f a b b' c x y : (a <= b' <= b)%Z -> (b <= c)%Z -> is_min f (fun _ => True) a b x -> is_min f (fun _ => True) b' c y -> is_min f (fun _ => True) a c (Qmin x y).
Proof.
  intros B C [[j1 (J1 & _ & E1)] H1] [[j2 (J2 & _ & E2)] H2]. split.
  - destruct (Q.min_spec x y) as [[L E]|[L E]]; [exists j1|exists j2]; (split; [lia|split; [exact I|rewrite E; assumption]]).
  - intros j Hj _. destruct (Z_le_gt_dec j b); [specialize (H1 j ltac:(lia) I); pose proof (Q.le_min_l x y); lra|specialize (H2 j ltac:(lia) I); pose proof (Q.le_min_r x y); lra].
Qed.

(** One bar: an empty one repeats the trade before it. *)
Definition from (idx : nat -> Z) (k : nat) : Z := if (idx k =? idx (S k))%Z then idx k - 1 else idx k.
Section Bars.
  Variable px am : list Q.
  Variable idx lab : nat -> Z.
  Hypothesis Low : -1 <= idx 0%nat.
  Hypothesis Mono : forall k, idx k <= idx (S k).
  Hypothesis Pos : 0 <= idx 1%nat.
  Hypothesis Am : forall x, In x am -> (0 <= x)%Q.
  Definition B (k : nat) : bar := stored (lab k, bar_ohlcv px am (idx k) (idx (S k))).

  Lemma idx_low k : -1 <= idx k.
  Proof. induction k as [|k IH]; [exact Low|]. specialize (Mono k). lia. Qed.
  Lemma idx_pos k : 0 <= idx (S k).
  Proof. induction k as [|k IH]; [exact Pos|]. specialize (Mono (S k)). lia. Qed.
  Lemma idx_mono k m : (k <= m)%nat -> idx k <= idx m.
  Proof. intro H. induction H as [|m H IH]; [lia|]. specialize (Mono m). lia. Qed.
  Lemma from_le k : from idx k < idx (S k) /\ from idx k <= idx k /\ -1 <= from idx k.
  Proof. unfold from. pose proof (Mono k). pose proof (idx_pos k). pose proof (idx_low k). destruct (Z.eqb_spec (idx k) (idx (S k))); lia. Qed.
  Lemma bar_candle k : candle px (from idx k) (idx (S k)) (B k).
  Proof.
    unfold candle, B, stored, from. cbn [b_open b_close b_high b_low]. pose proof (Mono k) as M. pose proof (idx_pos k) as P.
    destruct (Z.eqb_spec (idx k) (idx (S k))) as [E|NE].
    - rewrite E. rewrite (bar_ohlcv_empty px am _ P). cbn [M_bars.b_open M_bars.b_close M_bars.b_high M_bars.b_low]. replace (idx (S k) - 1 + 1) with (idx (S k)) by lia.
      split; [reflexivity|]. split; [reflexivity|].
      split; eexists; (split; [reflexivity|split; [exists (idx (S k)); split; [lia|split; [exact I|reflexivity]]|intros j Hj _; replace j with (idx (S k)) by lia; apply Qle_refl]]).
    - pose proof (bar_ohlcv_spec px am (idx k) (idx (S k)) ltac:(pose proof (idx_low k); lia)) as K. cbv zeta in K. destruct K as (K1 & K2 & K3 & K4 & _). rewrite K1, K2.
      split; [reflexivity|]. split; [reflexivity|]. split; eexists; (split; [reflexivity|assumption]).
  Qed.
  (** m + 1 consecutive bars. *)
  Lemma group_candle sort K k m : candle px (from idx k) (idx (S (k + m))) (agg sort K (map B (seq k (S m)))).
  Proof.
    unfold candle, agg. cbn [b_open b_close b_high b_low]. split; [|split; [|split]].
    - cbn [seq map]. destruct (bar_candle k) as [-> _]. reflexivity.
    - rewrite seq_S, !map_app. unfold last_val. rewrite rev_app_distr. cbn [map rev app first_val]. destruct (bar_candle (k + m)) as (_ & -> & _). reflexivity.
    - induction m as [|m (h & E & IH)].
      + cbn [seq map]. destruct (bar_candle k) as (_ & _ & (h & Eh & Hh) & _). exists h. unfold max_val. cbn [fold_left]. rewrite Eh. split; [reflexivity|]. rewrite Nat.add_0_r. exact Hh.
      + rewrite seq_S, !map_app. unfold max_val in *. rewrite fold_left_app, E. cbn [map fold_left]. destruct (bar_candle (k + S m)) as (_ & _ & (y & Ey & Hy) & _). rewrite Ey. cbn [pick].
        exists (Qmax h y). split; [reflexivity|]. pose proof (from_le (k + S m)). pose proof (from_le k). pose proof (idx_mono (S k) (k + S m) ltac:(lia)).
        replace (S (k + m)) with (k + S m)%nat in IH by lia. apply (max_join _ _ (idx (k + S m)) (from idx (k + S m))); [|apply Mono|exact IH|exact Hy].
        unfold from in *. destruct (Z.eqb_spec (idx (k + S m)) (idx (S (k + S m)))), (Z.eqb_spec (idx k) (idx (S k))); lia.
    - induction m as [|m (h & E & IH)].
      + cbn [seq map]. destruct (bar_candle k) as (_ & _ & _ & (h & Eh & Hh)). exists h. unfold min_val. cbn [fold_left]. rewrite Eh. split; [reflexivity|]. rewrite Nat.add_0_r. exact Hh.
      + rewrite seq_S, !map_app. unfold min_val in *. rewrite fold_left_app, E. cbn [map fold_left]. destruct (bar_candle (k + S m)) as (_ & _ & _ & (y & Ey & Hy)). rewrite Ey. cbn [pick].
        exists (Qmin h y). split; [reflexivity|]. pose proof (from_le (k + S m)). pose proof (from_le k). pose proof (idx_mono (S k) (k + S m) ltac:(lia)).
        replace (S (k + m)) with (k + S m)%nat in IH by lia. apply (min_join _ _ (idx (k + S m)) (from idx (k + S m))); [|apply Mono|exact IH|exact Hy].
        unfold from in *. destruct (Z.eqb_spec (idx (k + S m)) (idx (S (k + S m)))), (Z.eqb_spec (idx k) (idx (S k))); lia.
  Qed.
  Lemma am_pos j : (0 <= at_ am j)%Q.
  Proof. unfold at_. destruct (Nat.lt_ge_cases (Z.to_nat j) (length am)) as [L|L]; [apply Am, nth_In, L|rewrite nth_overflow by exact L; apply Qle_refl]. Qed.
  Lemma qsum_snoc l x : (qsum (l ++ [x]) == qsum l + x)%Q.
  Proof. unfold qsum. induction l as [|y l IH]; cbn [app fold_right]; [ring|]. rewrite IH. ring. Qed.
  Lemma zsum_snoc l x : zsum (l ++ [x]) = zsum l + x.
  Proof. unfold zsum. induction l as [|y l IH]; cbn [app fold_right]; lia. Qed.
  Lemma group_sums k m : zsum (map b_trades (map B (seq k m))) = idx (k + m) - idx k /\
    (qsum (map b_vol (map B (seq k m))) == bsum (at_ am) (idx k) (idx (k + m)))%Q /\
    (qsum (map traded (map B (seq k m))) == bsum (fun j => at_ px j * at_ am j) (idx k) (idx (k + m)))%Q.
  Proof.
    induction m as [|m (I1 & I2 & I3)].
    - rewrite Nat.add_0_r. cbn [seq map]. split; [unfold zsum; cbn; lia|]. split; rewrite bsum_nil by lia; reflexivity.
    - rewrite seq_S, !map_app. cbn [map]. rewrite zsum_snoc, I1, !qsum_snoc, I2, I3. replace (k + S m)%nat with (S (k + m)) by lia.
      pose proof (Mono (k + m)) as M. pose proof (idx_low (k + m)) as L. pose proof (idx_mono k (k + m) ltac:(lia)) as Mk.
      split; [|split].
      + unfold B at 1, stored. cbn [b_trades]. rewrite bar_trades by lia. lia.
      + unfold B at 1, stored. cbn [b_vol]. rewrite bar_volume by lia. symmetry. apply bsum_split. lia.
      + unfold traded, B, stored. cbn [b_vwap b_vol]. rewrite (bar_dollar px am) by (try lia; intros; apply am_pos). symmetry. apply bsum_split. lia.
  Qed.
  Lemma group_totals sort K k m : totals px am (idx k) (idx (k + m)) (agg sort K (map B (seq k m))).
  Proof.
    destruct (group_sums k m) as (I1 & I2 & I3). unfold totals, agg. cbn [b_trades b_vol b_vwap]. split; [exact I1|]. split; [exact I2|].
    assert (V0 : (0 <= bsum (at_ am) (idx k) (idx (k + m)))%Q) by (apply bsum_nonneg; intros; apply am_pos).
    unfold vwap_of. cbv zeta. destruct (Qeq_bool _ 0) eqn:Z0.
    - now apply Qeq_bool_iff in Z0.
    - assert (NZ : ~ (qsum (map b_vol (map B (seq k m))) == 0)%Q) by (intro H; apply Qeq_bool_iff in H; congruence). rewrite I2 in *. split; [lra|]. rewrite <- I3. field. exact NZ.
  Qed.
End Bars.
