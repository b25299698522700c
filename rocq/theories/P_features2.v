(** P_features2.v -- proofs about the rolling feature kernels, continued. *)
From Coq Require Import Qpower Qfield.
From Verif Require Import Base M_logic M_bars M_features S_features P_weights P_sort P_time P_tbm P_features.
Open Scope Q_scope.

(* ---------------- vwap distance ---------------- *)
Lemma collect_ok {A} (l : list (result A)) r d : collect l = Ok r ->
  length r = length l /\ forall i, (i < length l)%nat -> nth i l (Raise ValueError) = Ok (nth i r d).
Proof.
  revert r. induction l as [|[a|e] l IH]; intros r E; cbn [collect] in E; [injection E as <-; split; [auto|simpl; lia]| |discriminate].
  destruct (collect l) as [r'|]; [|discriminate]. injection E as <-. destruct (IH r' eq_refl) as [L H].
  split; [simpl; lia|]. intros [|i] Hi; [reflexivity|]. simpl in Hi. cbn [nth]. apply H. lia.
Qed.
Lemma collect_exists {A} (l : list (result A)) : (forall x, In x l -> exists a, x = Ok a) -> exists r, collect l = Ok r.
Proof.
  induction l as [|x l IH]; intro H; [now exists []|].
  destruct (H x (or_introl eq_refl)) as [a ->]. destruct IH as [r E]. { intros; apply H; now right. }
  exists (a :: r). cbn [collect]. now rewrite E.
Qed.
Lemma window_slide (f : nat -> Q) n k : (1 <= n)%nat ->
  qsum (window f (n + k) n) == qsum (window f (n - 1 + k) n) + (f (n + k)%nat - f k).
Proof.
  intro H. unfold window. replace (n + k + 1 - n)%nat with (S k) by lia. replace (n - 1 + k + 1 - n)%nat with k by lia.
  assert (E : qsum (map f (seq k (S n))) == f k + qsum (map f (seq (S k) n))) by (cbn [seq map]; now rewrite qsum_cons).
  rewrite (seq_S n), map_app, qsum_app in E. cbn [map] in E. rewrite qsum_cons in E. cbn [qsum fold_right] in E.
  rewrite (Nat.add_comm n k). lra.
Qed.
Lemma vwap_sums ln close volume n lg k : (1 <= n)%nat ->
  fst (fst (vwap_state ln close volume n lg k)) == qsum (window (fun j => at_ close j * at_ volume j) (n - 1 + k) n) /\
  snd (fst (vwap_state ln close volume n lg k)) == qsum (window (at_ volume) (n - 1 + k) n).
Proof.
  intro Hn. induction k as [|k [I1 I2]].
  - cbn [vwap_state fst snd]. rewrite !fold_left_qsum. unfold window. rewrite Nat.add_0_r.
    replace (n - 1 + 1 - n)%nat with 0%nat by lia. split; rewrite Qplus_0_l; reflexivity.
  - cbn [vwap_state]. cbv zeta. cbn [fst snd]. replace (n - 1 + S k)%nat with (n + k)%nat by lia.
    replace (n + k - n)%nat with k by lia. rewrite !window_slide, I1, I2 by auto. unfold qn, at_. split; ring.
Qed.
Definition dist_spec (ln : Q -> Q) (lg : bool) (c pv v : Q) (o : ext) : Prop :=
  exists x, x * pv == c * v /\ (if lg then (0 < x -> o = Fin (ln x)) else exists d, o = Fin d /\ d == x - 1).
Lemma vwap_dist_spec ln lg c w v o : 0 < v -> vwap_dist ln lg c w v = Ok o ->
  dist_spec ln lg c w v o /\ ~ w == 0.
Proof.
  intros Hv. unfold vwap_dist. destruct (Qeqb_spec (w / v) 0) as [|N]; [discriminate|]. intro E.
  assert (Nw : ~ w == 0). { intro C. apply N. rewrite C. field. lra. }
  split; auto. exists (c / (w / v)). split. { field; repeat split; first [exact Nw | lra]. }
  destruct lg; injection E as <-.
  - intro P. unfold flog. destruct (Qltb_spec 0 (c / (w / v))); [reflexivity|lra].
  - eauto using Qeq_refl.
Qed.
Lemma dist_spec_compat ln lg c w v w' v' o : w == w' -> v == v' -> dist_spec ln lg c w v o -> dist_spec ln lg c w' v' o.
Proof. intros E1 E2 (x & Hx & H). exists x. split; auto. now rewrite <- E1, <- E2. Qed.
Lemma vwap_nth ln close volume n lg out i : vwap_distance ln close volume n lg = Ok out -> (i < length close)%nat ->
  length out = length close /\
  (if (i + 1 <? n)%nat then Ok NaN else snd (vwap_state ln close volume n lg (i + 1 - n))) = Ok (nth i out NaN).
Proof.
  intros E Hi. unfold vwap_distance in E. apply (collect_ok _ _ NaN) in E. destruct E as [L H].
  rewrite map_length, seq_length in L. split; auto. rewrite <- H by (rewrite map_length, seq_length; auto).
  now rewrite nth_map_seq.
Qed.

(* ---------------- lagged returns ---------------- *)
Lemma lagged_nth ln ts close W lg out i : comp_lagged_returns ln ts close W lg = Ok out -> (i < length close)%nat ->
  (0 < W)%Z /\ length out = length close /\
  nth i out NaN = if (i <? ss_left (map f64 ts) (f64 (f64 (nth 0 ts 0%Z) + W)))%nat then NaN
    else let lag := (Z.of_nat (ss_right (map f64 ts) (f64 (f64 (nth i ts 0%Z) - W))) - 1)%Z in
         if ((0 <=? lag) && (lag <? Z.of_nat i))%Z then lag_return ln lg (qn close i) (qn close (Z.to_nat lag)) else NaN.
Proof.
  unfold comp_lagged_returns. destruct (Z.leb_spec W 0); [discriminate|]. intros E Hi. injection E as <-.
  split; [auto|]. rewrite map_length, seq_length. split; auto. now rewrite nth_map_seq.
Qed.
Lemma ascZ_map_f64 ts : ascZ ts -> ascZ (map f64 ts).
Proof.
  intros H i j Hij. rewrite map_length in Hij. change 0%Z with (f64 0). rewrite !map_nth. apply f64_mono. now apply H.
Qed.
Lemma map_f64_id ts : (forall t, In t ts -> f64 t = t) -> map f64 ts = ts.
Proof. intro H. rewrite <- (map_id ts) at 2. now apply map_ext_in. Qed.
Lemma lagged_exact ln ts close W lg out i :
  comp_lagged_returns ln ts close W lg = Ok out -> length ts = length close -> ascZ ts ->
  (forall t, In t ts -> (0 <= t < 2 ^ 61 - W)%Z /\ (256 | t)%Z) -> (256 | W)%Z -> (i < length close)%nat ->
  (forall j, last_at_or_before ts (nth i ts 0 - W)%Z j ->
     (j < i)%nat /\ nth i out NaN = lag_return ln lg (at_ close i) (at_ close j)) /\
  ((forall j, (j < length ts)%nat -> (nth i ts 0%Z - W < nth j ts 0%Z)%Z) -> nth i out NaN = NaN).
Proof.
  intros E L Hs Ht HW Hi. destruct (lagged_nth _ _ _ _ _ _ _ E Hi) as (W0 & _ & ->).
  rewrite map_f64_id by (intros t H; destruct (Ht t H); apply f64_exact; [lia|auto]).
  assert (In0 : forall k, (k < length ts)%nat -> (0 <= nth k ts 0%Z < 2 ^ 61 - W)%Z /\ (256 | nth k ts 0%Z)%Z).
  { intros k Hk. apply Ht. now apply nth_In. }
  assert (Fk : forall k, (k < length ts)%nat -> f64 (nth k ts 0%Z) = nth k ts 0%Z).
  { intros k Hk. destruct (In0 k Hk). apply f64_exact; [lia|auto]. }
  rewrite !Fk by lia.
  destruct (In0 i ltac:(lia)) as [Ri Di]. destruct (In0 0%nat ltac:(lia)) as [R0 D0].
  assert (F0 : f64 (nth 0 ts 0 + W)%Z = (nth 0 ts 0%Z + W)%Z) by (apply f64_exact; [lia|now apply Z.divide_add_r]).
  assert (Fi : f64 (nth i ts 0 - W)%Z = (nth i ts 0%Z - W)%Z).
  { destruct (Z.le_gt_cases 0 (nth i ts 0%Z - W)).
    - apply f64_exact; [lia|now apply Z.divide_sub_r].
    - unfold f64. rewrite Z.log2_nonpos by lia. reflexivity. }
  rewrite F0, Fi. set (x := (nth i ts 0%Z - W)%Z) in *.
  pose proof (ss_right_le ts x) as B.
  assert (Lt : forall k, (k < ss_right ts x)%nat -> (nth k ts 0%Z <= x)%Z) by (intros; now apply ss_right_lt).
  assert (Ge : forall k, (ss_right ts x <= k < length ts)%nat -> (x < nth k ts 0%Z)%Z) by (intros; now apply ss_right_ge).
  split.
  - intros j (J1 & J2 & J3).
    assert (SR : ss_right ts x = S j).
    { destruct (Nat.lt_trichotomy (ss_right ts x) (S j)) as [C|[C|C]]; auto.
      - specialize (Ge j ltac:(lia)). lia.
      - specialize (Lt (S j) C). specialize (J3 (S j) ltac:(lia)). lia. }
    assert (Ji : (j < i)%nat).
    { destruct (le_lt_dec i j); auto. pose proof (Hs i j ltac:(lia)). unfold x in J2. lia. }
    split; auto.
    assert (St : (ss_left ts (nth 0 ts 0%Z + W)%Z <= i)%nat).
    { destruct (le_lt_dec (ss_left ts (nth 0 ts 0%Z + W)%Z) i); auto. pose proof (ss_left_lt ts (nth 0 ts 0%Z + W)%Z i l).
      pose proof (Hs 0%nat j ltac:(lia)). unfold x in J2. lia. }
    apply Nat.ltb_ge in St. rewrite St. cbv zeta. rewrite SR.
    replace (Z.of_nat (S j) - 1)%Z with (Z.of_nat j) by lia.
    replace ((0 <=? Z.of_nat j) && (Z.of_nat j <? Z.of_nat i))%Z with true by (symmetry; apply andb_true_iff; split; [apply Z.leb_le|apply Z.ltb_lt]; lia).
    now rewrite Nat2Z.id.
  - intro H. assert (SR : ss_right ts x = 0%nat).
    { destruct (ss_right ts x) as [|m] eqn:Em; auto. specialize (Lt 0%nat ltac:(lia)). specialize (H 0%nat ltac:(lia)). lia. }
    rewrite SR. cbv zeta. destruct (i <? _)%nat; auto.
Qed.
Lemma lagged_accuracy ln ts close W lg out i :
  comp_lagged_returns ln ts close W lg = Ok out -> length ts = length close -> ascZ ts ->
  (forall t, In t ts -> (W <= t < 2 ^ 61 - W - 256)%Z) -> (i < length close)%nat -> nth i out NaN <> NaN ->
  exists j, (j < i)%nat /\ nth i out NaN = lag_return ln lg (at_ close i) (at_ close j) /\
    (nth j ts 0%Z <= nth i ts 0%Z - W + 384)%Z /\
    forall k, (j < k < length ts)%nat -> (nth i ts 0%Z - W - 384 < nth k ts 0%Z)%Z.
Proof.
  intros E L Hs Ht Hi. destruct (lagged_nth _ _ _ _ _ _ _ E Hi) as (W0 & _ & ->).
  destruct (i <? _)%nat; [now intros []|]. cbv zeta.
  set (fts := map f64 ts). set (x := f64 (f64 (nth i ts 0%Z) - W)%Z).
  destruct ((0 <=? Z.of_nat (ss_right fts x) - 1)%Z && (Z.of_nat (ss_right fts x) - 1 <? Z.of_nat i)%Z) eqn:C; [|now intros []].
  intros _. apply andb_true_iff in C. destruct C as [C1 C2]. apply Z.leb_le in C1. apply Z.ltb_lt in C2.
  set (j := Z.to_nat (Z.of_nat (ss_right fts x) - 1)) in *.
  assert (Hlen : length fts = length ts) by apply map_length.
  assert (Nf : forall k, nth k fts 0%Z = f64 (nth k ts 0%Z)).
  { intro k. unfold fts. change 0%Z with (f64 0) at 1. apply map_nth. }
  assert (R : forall k, (k < length ts)%nat -> (W <= nth k ts 0%Z < 2 ^ 61 - W - 256)%Z) by (intros k Hk; apply Ht; now apply nth_In).
  assert (Er : forall k, (k < length ts)%nat -> (nth k ts 0%Z - 128 <= f64 (nth k ts 0%Z) <= nth k ts 0%Z + 128)%Z).
  { intros k Hk. apply f64_err. specialize (R k Hk). lia. }
  assert (Ex : (nth i ts 0%Z - W - 256 <= x <= nth i ts 0%Z - W + 256)%Z).
  { unfold x. pose proof (Er i ltac:(lia)) as Ei. pose proof (R i ltac:(lia)) as Ri.
    assert (M : (f64 W <= f64 (nth i ts 0%Z))%Z) by (apply f64_mono; lia).
    destruct (Z.le_gt_cases 0 (f64 (nth i ts 0%Z) - W)) as [P|P].
    - pose proof (f64_err (f64 (nth i ts 0%Z) - W)%Z ltac:(lia)). lia.
    - unfold f64 at 1 3. rewrite !Z.log2_nonpos by lia. cbn [Z.leb Z.compare Z.sub]. 
      change (0 - 52 <=? 0)%Z with true. cbv iota. lia. }
  assert (Hj : (j < i)%nat) by (unfold j; lia).
  exists j. split; auto. split; auto. split.
  - assert (G : (nth j fts 0%Z <= x)%Z) by (apply ss_right_lt; unfold j; lia). rewrite Nf in G.
    pose proof (Er j ltac:(lia)). lia.
  - intros k Hk. assert (G : (x < nth k fts 0%Z)%Z).
    { apply ss_right_ge; [apply ascZ_map_f64, Hs|]. rewrite Hlen. unfold j in Hk. lia. }
    rewrite Nf in G. pose proof (Er k ltac:(lia)). lia.
Qed.

(* ---------------- correlation ---------------- *)
Lemma combine_fst_snd {A B} (l : list (A * B)) : combine (map fst l) (map snd l) = l.
Proof. induction l as [|[a b] l IH]; simpl; congruence. Qed.
Lemma cross_pairs ps : cross (map fst ps) (map snd ps) =
  qsum (map (fun p => (fst p - qsum (map fst ps) / Qnat (length ps)) * (snd p - qsum (map snd ps) / Qnat (length ps))) ps).
Proof. unfold cross, mean. now rewrite combine_fst_snd, !map_length. Qed.
Lemma combine_diag {A} (l : list A) : combine l l = map (fun x => (x, x)) l.
Proof. induction l; simpl; congruence. Qed.
Lemma cross_diag xs : cross xs xs = qsum (map (fun x => (x - mean xs) * (x - mean xs)) xs).
Proof. unfold cross. rewrite combine_diag, map_map. reflexivity. Qed.
Definition clamp (c : Q) : Q := if Qltb 1 c then 1 else if Qltb c (-(1)) then -(1) else c.
Lemma corr_pairs_eq sqrt ps :
  let rs := map fst ps in let vs := map snd ps in
  corr_pairs sqrt ps =
  if (length ps <? 2)%nat then None
  else if Qltb 0 (cross rs rs) && Qltb 0 (cross vs vs)
       then Some (clamp (cross rs vs / (sqrt (cross rs rs) * sqrt (cross vs vs)))) else None.
Proof.
  cbv zeta. unfold corr_pairs. cbv zeta. rewrite !cross_diag, cross_pairs. unfold mean. rewrite !map_length, !map_map.
  reflexivity.
Qed.
(* Cauchy-Schwarz *)
Lemma sum_sq_cs (l : list (Q * Q)) :
  let A := qsum (map (fun p => fst p * fst p) l) in
  let B := qsum (map (fun p => snd p * snd p) l) in
  let C := qsum (map (fun p => fst p * snd p) l) in
  0 <= A /\ 0 <= B /\ C * C <= A * B.
Proof.
  induction l as [|[a b] l IH]; cbv zeta in *.
  - cbn. lra.
  - cbn [map]. rewrite !qsum_cons. cbn [fst snd]. destruct IH as (IA & IB & IC).
    set (A := qsum (map (fun p => fst p * fst p) l)) in *.
    set (B := qsum (map (fun p => snd p * snd p) l)) in *.
    set (C := qsum (map (fun p => fst p * snd p) l)) in *.
    assert (0 <= a * a) by (destruct (Qlt_le_dec a 0); nra).
    assert (0 <= b * b) by (destruct (Qlt_le_dec b 0); nra).
    split; [lra|]. split; [lra|].
    assert (K : 2 * (a * b * C) <= a * a * B + b * b * A).
    { (* (a*b*C)^2 <= (a^2 B)(b^2 A) <= ((a^2B + b^2A)/2)^2 *)
      apply Qnot_lt_le. intro Hc.
      set (X := a * a * B) in *. set (Y := b * b * A) in *. set (Z0 := a * b * C) in *.
      assert (0 <= X) by (apply Qmult_le_0_compat; auto). assert (0 <= Y) by (apply Qmult_le_0_compat; auto).
      assert (E : Z0 * Z0 <= X * Y).
      { unfold X, Y, Z0. setoid_replace (a * b * C * (a * b * C)) with ((a * a) * (b * b) * (C * C)) by ring.
        setoid_replace (a * a * B * (b * b * A)) with ((a * a) * (b * b) * (A * B)) by ring.
        assert (0 <= (a * a) * (b * b)) by (apply Qmult_le_0_compat; auto).
        apply Qle_trans with ((a * a) * (b * b) * (A * B)); [|lra].
        rewrite (Qmult_comm _ (C * C)), (Qmult_comm _ (A * B)). now apply Qmult_le_compat_r. }
      assert (S2 : (X + Y) * (X + Y) < (2 * Z0) * (2 * Z0)) by nra.
      assert (0 <= (X - Y) * (X - Y)) by (destruct (Qlt_le_dec (X - Y) 0); nra). nra. }
    nra.
Qed.
Lemma cross_cs xs ys : length xs = length ys ->
  0 <= cross xs xs /\ 0 <= cross ys ys /\ cross xs ys * cross xs ys <= cross xs xs * cross ys ys.
Proof.
  intro L.
  pose proof (sum_sq_cs (map (fun p => (fst p - mean xs, snd p - mean ys)) (combine xs ys))) as H. cbv zeta in H.
  rewrite !map_map in H. cbn [fst snd] in H.
  assert (E1 : map (fun x => (fst x - mean xs) * (fst x - mean xs)) (combine xs ys) = map (fun x => (x - mean xs) * (x - mean xs)) xs).
  { rewrite <- (map_map fst (fun x => (x - mean xs) * (x - mean xs))). f_equal.
    revert ys L H. induction xs; intros [|y ys] L H; simpl in *; try discriminate; auto.
    f_equal. clear H. assert (L' : length xs = length ys) by lia. clear -L'. revert ys L'. induction xs; intros [|y ys] L; simpl in *; try discriminate; auto. f_equal. auto. }
  assert (E2 : map (fun x => (snd x - mean ys) * (snd x - mean ys)) (combine xs ys) = map (fun x => (x - mean ys) * (x - mean ys)) ys).
  { rewrite <- (map_map snd (fun x => (x - mean ys) * (x - mean ys))). f_equal.
    clear -L. revert ys L. induction xs; intros [|y ys] L; simpl in *; try discriminate; auto. f_equal. auto. }
  rewrite E1, E2 in H. rewrite <- !cross_diag in H. exact H.
Qed.
Lemma clamp_range c : -(1) <= clamp c <= 1.
Proof. unfold clamp. destruct (Qltb_spec 1 c); [lra|]. destruct (Qltb_spec c (-(1))); lra. Qed.
Lemma clamp_id c : -(1) <= c <= 1 -> clamp c = c.
Proof. intro. unfold clamp. destruct (Qltb_spec 1 c); [lra|]. destruct (Qltb_spec c (-(1))); [lra|auto]. Qed.
Lemma corr_bound c s1 s2 A B : 0 < s1 -> 0 < s2 -> s1 * s1 == A -> s2 * s2 == B -> c * c <= A * B ->
  -(1) <= c / (s1 * s2) <= 1.
Proof.
  intros H1 H2 E1 E2 H. assert (P : 0 < s1 * s2) by nra. rewrite <- E1, <- E2 in H.
  assert (H' : c * c <= (s1 * s2) * (s1 * s2)) by (setoid_replace ((s1 * s2) * (s1 * s2)) with (s1 * s1 * (s2 * s2)) by ring; exact H).
  set (s := s1 * s2) in *. clearbody s. split; [apply Qle_shift_div_l|apply Qle_shift_div_r]; auto.
  - apply Qnot_lt_le. intro. nra.
  - apply Qnot_lt_le. intro. nra.
Qed.

(* ---------------- adx ---------------- *)
Lemma wsum_wilder (x : nat -> Q) n k : (1 <= n)%nat -> wsum x n k == Qnat n * wilder_avg x n k.
Proof.
  intro Hn. assert (Hp : 0 < Qnat n) by now apply Qnat_pos.
  rewrite <- (wilder_closed n (qsum (map x (seq 1 n)) / Qnat n)) by (auto; reflexivity).
  induction k as [|k IH].
  - cbn [wsum wilder]. field. lra.
  - cbn [wsum wilder]. rewrite IH. field. lra.
Qed.
Lemma adx_wilder (d : nat -> Q) n k : (1 <= n)%nat -> adx_at d n k == wilder_avg (fun j => d (n - 1 + j)%nat) n k.
Proof.
  intro Hn. assert (Hp : 0 < Qnat n) by now apply Qnat_pos.
  rewrite <- (wilder_closed n (qsum (map (fun j => d (n - 1 + j)%nat) (seq 1 n)) / Qnat n)) by (auto; reflexivity).
  induction k as [|k IH].
  - cbn [adx_at wilder]. apply Qmult_comp; [|reflexivity]. replace (seq n n) with (map (fun j => (n - 1 + j)%nat) (seq 1 n)).
    + rewrite map_map. reflexivity.
    + apply nth_ext with (d := 0%nat) (d' := 0%nat); rewrite map_length, !seq_length; auto.
      intros m Hm. rewrite (nth_indep _ 0%nat ((n - 1) + 0)%nat) by (rewrite map_length, seq_length; auto).
      rewrite (map_nth (fun j => (n - 1 + j)%nat)), !seq_nth by auto. lia.
  - cbn [adx_at wilder]. rewrite IH. replace (n - 1 + (n + S k))%nat with (2 * n - 1 + S k)%nat by lia.
    apply Qmult_comp; [|reflexivity]. ring.
Qed.
Lemma wilder_avg_ext (f g : nat -> Q) n k : (1 <= n)%nat -> (forall i, (1 <= i <= n + k)%nat -> f i == g i) ->
  wilder_avg f n k == wilder_avg g n k.
Proof.
  intros Hn H. unfold wilder_avg. cbv zeta.
  rewrite (qsum_map_ext_seq f g) by (intros; apply H; lia).
  apply Qplus_comp; [reflexivity|]. apply qsum_map_ext_seq. intros j Hj. rewrite (H (n + j)%nat) by lia. reflexivity.
Qed.
Lemma wilder_bounds x n k a b : (1 <= n)%nat -> (forall i, (1 <= i <= n + k)%nat -> a <= x i <= b) -> a <= wilder_avg x n k <= b.
Proof.
  intros Hn H. assert (Hp : 1 <= Qnat n) by (change 1 with (Qnat 1); now apply Qnat_le).
  rewrite <- (wilder_closed n (qsum (map x (seq 1 n)) / Qnat n)) by (auto; reflexivity).
  induction k as [|k IH].
  - cbn [wilder]. assert (B : forall y, In y (map x (seq 1 n)) -> a <= y <= b).
    { intros y Hy. apply in_map_iff in Hy. destruct Hy as (j & <- & Hj). apply in_seq in Hj. apply H. lia. }
    destruct (qsum_bounds _ a b B) as [H1 H2]. rewrite map_length, seq_length in H1, H2.
    split; [apply Qle_shift_div_l|apply Qle_shift_div_r]; lra.
  - cbn [wilder]. destruct IH as [I1 I2]. { intros; apply H; lia. } pose proof (H (n + S k)%nat ltac:(lia)).
    split; [apply Qle_shift_div_l|apply Qle_shift_div_r]; nra.
Qed.
Lemma dx_of_range p m : 0 <= p -> 0 <= m -> 0 <= dx_of p m <= 100.
Proof.
  intros Hp Hm. unfold dx_of. destruct (Qltb_spec 0 (p + m)); [|lra].
  assert (0 <= Qabs (p - m) <= p + m).
  { split; [apply Qabs_nonneg|]. apply Qabs_Qle_condition. lra. }
  assert (0 <= Qabs (p - m) / (p + m) <= 1). { split; [apply Qle_shift_div_l|apply Qle_shift_div_r]; lra. }
  lra.
Qed.
Lemma plus_dm_nonneg high low i : 0 <= plus_dm high low i.
Proof.
  unfold plus_dm. destruct (i =? 0)%nat; [lra|]. cbv zeta.
  destruct (Qltb_spec (qn low (i - 1) - qn low i) (qn high i - qn high (i - 1))); cbn [andb]; [|lra].
  destruct (Qltb_spec 0 (qn high i - qn high (i - 1))); lra.
Qed.
Lemma minus_dm_nonneg high low i : 0 <= minus_dm high low i.
Proof.
  unfold minus_dm. destruct (i =? 0)%nat; [lra|]. cbv zeta.
  destruct (Qltb_spec (qn high i - qn high (i - 1)) (qn low (i - 1) - qn low i)); cbn [andb]; [|lra].
  destruct (Qltb_spec 0 (qn low (i - 1) - qn low i)); lra.
Qed.
Lemma di_nonneg a b : 0 <= a -> 0 <= di a b.
Proof. intro. unfold di. destruct (Qltb_spec 0 b); [|lra]. assert (0 <= a / b) by (apply Qle_shift_div_l; lra). lra. Qed.
Lemma dx_range high low close n i : (1 <= n)%nat -> 0 <= dx high low close n i <= 100.
Proof.
  intro Hn. unfold dx. destruct (i <? n)%nat; [lra|]. cbv zeta.
  assert (G : forall x, (forall j, 0 <= x j) -> 0 <= wsum x n (i - n)).
  { intros x Hx. rewrite wsum_wilder by auto. pose proof (wilder_avg_nonneg x n (i - n) Hn Hx). pose proof (Qnat_nonneg n). nra. }
  apply dx_of_range; apply di_nonneg, G; intro; [apply plus_dm_nonneg|apply minus_dm_nonneg].
Qed.
Lemma adx_nth high low close n i : (i < length high)%nat ->
  nth i (adx_core high low close n) 0 = if (i + 1 <? 2 * n)%nat then 0 else adx_at (dx high low close n) n (i + 1 - 2 * n).
Proof. intro. unfold adx_core. now rewrite nth_map_seq. Qed.
