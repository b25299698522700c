(** P_features.v -- proofs about the rolling feature kernels. *)
From Coq Require Import Qpower Qfield.
From Verif Require Import Base M_logic M_bars M_features S_features P_weights P_sort.
Open Scope Q_scope.

(* ---------------- windows ---------------- *)
Lemma map_qn_seq l a n : (a + n <= length l)%nat -> map (qn l) (seq a n) = firstn n (skipn a l).
Proof.
  intro H. apply nth_ext with (d := 0) (d' := 0).
  { rewrite map_length, seq_length, firstn_length, skipn_length. lia. }
  intros k Hk. rewrite map_length, seq_length in Hk.
  rewrite (nth_indep _ 0 (qn l 0)) by (rewrite map_length, seq_length; auto).
  rewrite map_nth, seq_nth by auto. rewrite nth_firstn by auto. now rewrite nth_skipn.
Qed.
Lemma lastn_window l i n : (1 <= n)%nat -> (n <= i + 1)%nat -> (i < length l)%nat ->
  lastn l i n = window (at_ l) i n.
Proof. intros. unfold lastn, window. symmetry. apply map_qn_seq. lia. Qed.
Lemma window_length {A} (f : nat -> A) i n : length (window f i n) = n.
Proof. unfold window. now rewrite map_length, seq_length. Qed.
Lemma in_window {A} (f : nat -> A) i n x : (1 <= n <= i + 1)%nat ->
  In x (window f i n) <-> exists j, (i < j + n)%nat /\ (j <= i)%nat /\ f j = x.
Proof.
  intro H. unfold window. rewrite in_map_iff. split.
  - intros (j & E & Hj). apply in_seq in Hj. exists j. split; [lia|split;[lia|auto]].
  - intros (j & H1 & H2 & E). exists j. split; auto. apply in_seq. lia.
Qed.

Lemma qsum_bounds l a b : (forall x, In x l -> a <= x <= b) ->
  a * Qnat (length l) <= qsum l /\ qsum l <= b * Qnat (length l).
Proof.
  induction l as [|x l IH]; intro H.
  - cbn [length qsum fold_right]. unfold Qnat. split; change (inject_Z (Z.of_nat 0)) with 0; lra.
  - destruct IH as [I1 I2]. { intros y Hy. apply H. now right. }
    destruct (H x (or_introl eq_refl)) as [H1 H2].
    cbn [length]. rewrite qsum_cons, Qnat_S. split; nra.
Qed.

(* ---------------- sma ---------------- *)
Lemma sma_nth xs n i : (i < length xs)%nat ->
  nth i (sma xs n) None = if (i + 1 <? n)%nat then None else Some (1 / Qnat n * qsum (lastn xs i n)).
Proof. intro H. unfold sma. now rewrite nth_map_seq. Qed.
Lemma mean_div l : l <> [] -> is_mean (qsum l / Qnat (length l)) l.
Proof.
  intro H. unfold is_mean. assert (0 < Qnat (length l)) by (apply Qnat_pos; destruct l; [contradiction|simpl; lia]).
  field. lra.
Qed.
Lemma is_mean_between m l a b : l <> [] -> is_mean m l -> (forall x, In x l -> a <= x <= b) -> a <= m <= b.
Proof.
  intros Hl Hm H. assert (0 < Qnat (length l)) by (apply Qnat_pos; destruct l; [contradiction|simpl; lia]).
  destruct (qsum_bounds l a b H) as [H1 H2]. unfold is_mean in Hm. rewrite <- Hm in H1, H2.
  split; apply (Qmult_le_r _ _ (Qnat (length l))); auto.
Qed.
Lemma is_mean_compat m m' l : m == m' -> is_mean m l -> is_mean m' l.
Proof. unfold is_mean. intros E H. now rewrite <- E. Qed.

(* ---------------- ewma ---------------- *)
Definition geo (q : Q) (i : nat) : Q := qsum (map (fun j => q ^ Z.of_nat (i - j)) (seq 0 (S i))).
Definition geox (q : Q) (x : nat -> Q) (i : nat) : Q :=
  qsum (map (fun j => q ^ Z.of_nat (i - j) * x j) (seq 0 (S i))).
Lemma pow_S q n : q ^ Z.of_nat (S n) == q * q ^ Z.of_nat n.
Proof.
  destruct (Qeq_dec q 0) as [E|N].
  - rewrite E. rewrite Qpower_0 by lia. lra.
  - rewrite Nat2Z.inj_succ, <- Z.add_1_r, Qpower_plus by auto. rewrite (Qmult_comm q).
    apply Qmult_comp; [reflexivity|]. change 1%Z with (Z.of_nat 1). reflexivity.
Qed.
Lemma geox_S q x i : geox q x (S i) == x (S i) + q * geox q x i.
Proof.
  unfold geox. rewrite (seq_S (S i)), map_app, qsum_app. cbn [map]. rewrite qsum_cons.
  replace (0 + S i)%nat with (S i) by lia. rewrite Nat.sub_diag.
  rewrite (qsum_map_ext _ (fun j => q * (q ^ Z.of_nat (i - j) * x j))).
  - rewrite qsum_map_scal. change (q ^ Z.of_nat 0) with 1. cbn [qsum fold_right]. ring.
  - intros j Hj. apply in_seq in Hj. replace (S i - j)%nat with (S (i - j)) by lia. rewrite pow_S. ring.
Qed.
Lemma geo_geox q i : geo q i == geox q (fun _ => 1) i.
Proof. unfold geo, geox. apply qsum_map_ext. intros. ring. Qed.
Lemma pow_nonneg q n : 0 <= q -> 0 <= q ^ Z.of_nat n.
Proof. intro. now apply Qpower_pos. Qed.
Lemma geo_pos q i : 0 <= q -> 1 <= geo q i.
Proof.
  intro H. unfold geo. rewrite (seq_S i), map_app, qsum_app. cbn [map]. rewrite qsum_cons.
  replace (0 + i)%nat with i by lia. rewrite Nat.sub_diag. change (q ^ Z.of_nat 0) with 1. cbn [qsum fold_right].
  assert (0 <= qsum (map (fun j => q ^ Z.of_nat (i - j)) (seq 0 i))).
  { apply qsum_nonneg. intros y Hy. apply in_map_iff in Hy. destruct Hy as (j & <- & _). now apply pow_nonneg. }
  unfold qsum in *. lra.
Qed.
Lemma ewma_loop_nth alpha x : forall ys i0 u v k,
  u == geox (1 - alpha) x i0 -> v == geo (1 - alpha) i0 ->
  (forall j, (j < length ys)%nat -> nth j ys 0 = x (S i0 + j)%nat) -> (k < length ys)%nat ->
  nth k (ewma_loop alpha u v ys) 0 == geox (1 - alpha) x (S i0 + k) / geo (1 - alpha) (S i0 + k).
Proof.
  induction ys as [|y ys IH]; intros i0 u v k Hu Hv Hx Hk; [simpl in Hk; lia|].
  assert (Hu' : y + (1 - alpha) * u == geox (1 - alpha) x (S i0)).
  { rewrite geox_S, Hu. pose proof (Hx 0%nat ltac:(simpl; lia)) as E. simpl in E. rewrite Nat.add_0_r in E. now rewrite E. }
  assert (Hv' : 1 + (1 - alpha) * v == geo (1 - alpha) (S i0)).
  { rewrite geo_geox, geox_S, Hv, geo_geox. reflexivity. }
  cbn [ewma_loop]. destruct k as [|k].
  - cbn [nth]. rewrite Nat.add_0_r, Hu', Hv'. reflexivity.
  - cbn [nth]. rewrite (IH (S i0)); auto.
    + now replace (S (S i0) + k)%nat with (S i0 + S k)%nat by lia.
    + intros j Hj. replace (S (S i0) + j)%nat with (S i0 + S j)%nat by lia.
      rewrite <- (Hx (S j)) by (simpl; lia). reflexivity.
    + simpl in Hk. lia.
Qed.
Lemma ewma_loop_length alpha : forall ys u v, length (ewma_loop alpha u v ys) = length ys.
Proof. induction ys; intros; simpl; auto. Qed.
Lemma geox0 q x : geox q x 0 == x 0%nat.
Proof. unfold geox. cbn [seq map]. rewrite qsum_cons. change (q ^ Z.of_nat (0 - 0)) with 1. cbn [qsum fold_right]. ring. Qed.
Lemma geo0 q : geo q 0 == 1.
Proof. rewrite geo_geox. apply geox0. Qed.
Lemma ewma_nth ys span out i : ewma ys span = Ok out -> (i < length ys)%nat ->
  nth i out 0 == geox (1 - 2 / (inject_Z span + 1)) (at_ ys) i / geo (1 - 2 / (inject_Z span + 1)) i.
Proof.
  unfold ewma. destruct (span <? 1)%Z; [discriminate|]. destruct ys as [|y t]; intros E Hi; [simpl in Hi; lia|].
  injection E as <-. destruct i as [|i]; cbn [nth].
  - rewrite geox0, geo0. unfold at_. simpl. field.
  - apply (ewma_loop_nth _ (at_ (y :: t)) t 0).
    + symmetry. apply geox0.
    + symmetry. apply geo0.
    + reflexivity.
    + simpl in Hi. lia.
Qed.
Lemma ew_factor span : (1 <= span)%Z -> 0 <= 1 - 2 / (inject_Z span + 1) < 1.
Proof.
  intro H. assert (1 <= inject_Z span) by (change 1 with (inject_Z 1); now rewrite <- Zle_Qle).
  assert (E : 2 / (inject_Z span + 1) * (inject_Z span + 1) == 2) by (field; lra).
  set (a := 2 / (inject_Z span + 1)) in *. assert (0 < a) by (apply Qlt_shift_div_l; lra). nra.
Qed.
Lemma geox_ew_mean q x i : 0 <= q -> is_ew_mean (geox q x i / geo q i) x i q.
Proof.
  intro Hq. pose proof (geo_pos q i Hq) as Hg.
  exists (fun j => q ^ Z.of_nat (i - j) / geo q i). repeat split.
  - intros j _. apply Qle_shift_div_l; [lra|]. pose proof (pow_nonneg q (i - j) Hq). lra.
  - intros j _. rewrite Nat.sub_diag. change (q ^ Z.of_nat 0) with 1. field. lra.
  - rewrite (qsum_map_ext _ (fun j => / geo q i * q ^ Z.of_nat (i - j))) by (intros; field; lra).
    rewrite qsum_map_scal. fold (geo q i). field. lra.
  - rewrite (qsum_map_ext _ (fun j => / geo q i * (q ^ Z.of_nat (i - j) * x j))) by (intros; field; lra).
    rewrite qsum_map_scal. fold (geox q x i). field. lra.
Qed.
Lemma ew_mean_between v x i q a b : is_ew_mean v x i q -> (forall j, (j <= i)%nat -> a <= x j <= b) -> a <= v <= b.
Proof.
  intros (w & Hw & _ & H1 & Hv) H. rewrite Hv.
  assert (A : qsum (map (fun j => a * w j) (seq 0 (S i))) == a) by (rewrite qsum_map_scal, H1; ring).
  assert (B : qsum (map (fun j => b * w j) (seq 0 (S i))) == b) by (rewrite qsum_map_scal, H1; ring).
  split.
  - rewrite <- A at 1. apply qsum_le. intros j Hj. apply in_seq in Hj.
    specialize (Hw j ltac:(lia)). specialize (H j ltac:(lia)). nra.
  - rewrite <- B. apply qsum_le. intros j Hj. apply in_seq in Hj.
    specialize (Hw j ltac:(lia)). specialize (H j ltac:(lia)). nra.
Qed.
Lemma ewma_loop_app alpha : forall ys zs u v,
  exists t, ewma_loop alpha u v (ys ++ zs) = ewma_loop alpha u v ys ++ t.
Proof.
  induction ys as [|y ys IH]; intros zs u v.
  - simpl. eauto.
  - cbn [ewma_loop app]. destruct (IH zs (y + (1 - alpha) * u) (1 + (1 - alpha) * v)) as [t E].
    rewrite E. now exists t.
Qed.

(* ---------------- Wilder smoothing ---------------- *)
Lemma wilder_closed n a0 (x : nat -> Q) k : (1 <= n)%nat ->
  a0 == qsum (map x (seq 1 n)) / Qnat n -> wilder n a0 x k == wilder_avg x n k.
Proof.
  intros Hn Ha. assert (Hp : 0 < Qnat n) by now apply Qnat_pos. unfold wilder_avg. cbv zeta. rewrite <- Ha.
  set (r := (Qnat n - 1) / Qnat n).
  induction k as [|k IH].
  - cbn [wilder seq map]. change (r ^ Z.of_nat 0) with 1. cbn [qsum fold_right]. ring.
  - cbn [wilder]. rewrite IH, (seq_S k), map_app, qsum_app. cbn [map]. rewrite qsum_cons.
    replace (1 + k)%nat with (S k) by lia. rewrite Nat.sub_diag, pow_S.
    rewrite (qsum_map_ext (fun j => r ^ Z.of_nat (S k - j) * _)
                          (fun j => r * (r ^ Z.of_nat (k - j) * (x (n + j)%nat / Qnat n)))).
    + rewrite qsum_map_scal. change (r ^ Z.of_nat 0) with 1. cbn [qsum fold_right].
      set (T := qsum _). set (P := r ^ Z.of_nat k). clearbody T P. unfold r. field. lra.
    + intros j Hj. apply in_seq in Hj. replace (S k - j)%nat with (S (k - j)) by lia. rewrite pow_S. ring.
Qed.
Lemma wilder_ext n a0 a1 (x y : nat -> Q) k : a0 == a1 -> (forall i, (n < i <= n + k)%nat -> x i == y i) ->
  wilder n a0 x k == wilder n a1 y k.
Proof.
  intro Ha. induction k as [|k IH]; intro H; cbn [wilder]; auto.
  rewrite IH by (intros; apply H; lia). rewrite (H (n + S k)%nat) by lia. reflexivity.
Qed.
Lemma gain_up close i : (1 <= i)%nat -> gain close i == up (at_ close (i - 1)) (at_ close i).
Proof.
  intro H. unfold gain, diff, up, qn, at_. destruct (Qltb_spec 0 (nth i close 0 - nth (i - 1) close 0)).
  - now rewrite Q.max_l by lra.
  - now rewrite Q.max_r by lra.
Qed.
Lemma loss_down close i : (1 <= i)%nat -> loss close i == down (at_ close (i - 1)) (at_ close i).
Proof.
  intro H. unfold loss, diff, down, qn, at_. destruct (Qltb_spec (nth i close 0 - nth (i - 1) close 0) 0).
  - rewrite Q.max_l by lra. ring.
  - now rewrite Q.max_r by lra.
Qed.
Lemma rsi_sums_eq close : forall l a b,
  let s := fold_left (fun s i => let d := diff close i in
                        if Qltb 0 d then (fst s + d, snd s) else (fst s, snd s + - d)) l (a, b) in
  fst s == a + qsum (map (gain close) l) /\ snd s == b + qsum (map (loss close) l).
Proof.
  induction l as [|i l IH]; intros a b.
  - cbn. split; ring.
  - cbn [fold_left map]. cbv zeta. rewrite !qsum_cons. unfold gain at 1, loss at 1.
    destruct (Qltb_spec 0 (diff close i)) as [H|H]; cbn [fst snd].
    + destruct (Qltb_spec (diff close i) 0); [lra|].
      destruct (IH (a + diff close i) b) as [E1 E2]. rewrite E1, E2. split; ring.
    + destruct (IH a (b + - diff close i)) as [E1 E2]. rewrite E1, E2.
      destruct (Qltb_spec (diff close i) 0); split; try ring. assert (diff close i == 0) as -> by lra. ring.
Qed.
Lemma qsum_map_ext_seq (f g : nat -> Q) a n : (forall i, (a <= i < a + n)%nat -> f i == g i) ->
  qsum (map f (seq a n)) == qsum (map g (seq a n)).
Proof. intro H. apply qsum_map_ext. intros i Hi. apply in_seq in Hi. apply H. lia. Qed.
Definition ups (close : list Q) (i : nat) : Q := up (at_ close (i - 1)) (at_ close i).
Definition downs (close : list Q) (i : nat) : Q := down (at_ close (i - 1)) (at_ close i).
Lemma rsi_gain_avg close n k : (1 <= n)%nat ->
  wilder n (fst (rsi_sums close n) / Qnat n) (gain close) k == wilder_avg (ups close) n k.
Proof.
  intro Hn. rewrite <- (wilder_closed n (qsum (map (ups close) (seq 1 n)) / Qnat n)) by (auto; reflexivity).
  apply wilder_ext.
  - destruct (rsi_sums_eq close (seq 1 n) 0 0) as [E _]. cbv zeta in E. unfold rsi_sums. cbv zeta. rewrite E.
    rewrite (qsum_map_ext_seq (gain close) (ups close)). { now rewrite Qplus_0_l. }
    intros i Hi. apply gain_up. lia.
  - intros i Hi. apply gain_up. lia.
Qed.
Lemma rsi_loss_avg close n k : (1 <= n)%nat ->
  wilder n (snd (rsi_sums close n) / Qnat n) (loss close) k == wilder_avg (downs close) n k.
Proof.
  intro Hn. rewrite <- (wilder_closed n (qsum (map (downs close) (seq 1 n)) / Qnat n)) by (auto; reflexivity).
  apply wilder_ext.
  - destruct (rsi_sums_eq close (seq 1 n) 0 0) as [_ E]. cbv zeta in E. unfold rsi_sums. cbv zeta. rewrite E.
    rewrite (qsum_map_ext_seq (loss close) (downs close)). { now rewrite Qplus_0_l. }
    intros i Hi. apply loss_down. lia.
  - intros i Hi. apply loss_down. lia.
Qed.
Lemma up_nonneg a b : 0 <= up a b.
Proof. apply Q.le_max_r. Qed.
Lemma down_nonneg a b : 0 <= down a b.
Proof. apply Q.le_max_r. Qed.
Lemma down_pos a b : 0 < down a b <-> b < a.
Proof.
  unfold down. split; intro H.
  - destruct (Q.max_spec (a - b) 0) as [[_ E]|[_ E]]; rewrite E in H; lra.
  - pose proof (Q.le_max_l (a - b) 0). lra.
Qed.
Lemma wilder_r n : (1 <= n)%nat -> 0 <= (Qnat n - 1) / Qnat n < 1.
Proof.
  intro Hn. assert (1 <= Qnat n) by (change 1 with (Qnat 1); now apply Qnat_le). split.
  - apply Qle_shift_div_l; lra.
  - apply Qlt_shift_div_r; lra.
Qed.
Lemma wilder_avg_nonneg x n k : (1 <= n)%nat -> (forall i, 0 <= x i) -> 0 <= wilder_avg x n k.
Proof.
  intros Hn Hx. pose proof (wilder_r n Hn) as Hr. assert (Hp : 0 < Qnat n) by now apply Qnat_pos.
  unfold wilder_avg. cbv zeta. set (r := (Qnat n - 1) / Qnat n) in *.
  assert (0 <= qsum (map x (seq 1 n)) / Qnat n).
  { apply Qle_shift_div_l; auto. rewrite Qmult_0_l. apply qsum_nonneg. intros y Hy. apply in_map_iff in Hy.
    destruct Hy as (j & <- & _). auto. }
  assert (0 <= qsum (map (fun j => r ^ Z.of_nat (k - j) * (x (n + j)%nat / Qnat n)) (seq 1 k))).
  { apply qsum_nonneg. intros y Hy. apply in_map_iff in Hy. destruct Hy as (j & <- & _).
    apply Qmult_le_0_compat; [now apply pow_nonneg|]. apply Qle_shift_div_l; auto; rewrite ?Qmult_0_l; auto. }
  pose proof (pow_nonneg r k (proj1 Hr)). nra.
Qed.
Lemma rsi_value_range ag al v : 0 <= ag -> rsi_value ag al = Some v -> 0 <= v <= 100.
Proof.
  unfold rsi_value. intros Hg. destruct (Qltb_spec 0 al) as [Hl|]; [|discriminate]. intro E. injection E as <-.
  assert (0 <= ag / al) by (apply Qle_shift_div_l; lra).
  assert (0 < 100 / (1 + ag / al) <= 100).
  { split; [apply Qlt_shift_div_l|apply Qle_shift_div_r]; lra. }
  lra.
Qed.
Lemma rsi_nth close n i : (i < length close)%nat -> (n <= i)%nat ->
  nth i (rsi_wilder close n) None =
  rsi_value (wilder n (fst (rsi_sums close n) / Qnat n) (gain close) (i - n))
            (wilder n (snd (rsi_sums close n) / Qnat n) (loss close) (i - n)).
Proof.
  intros H1 H2. unfold rsi_wilder. rewrite nth_map_seq by auto.
  replace (i <? n)%nat with false by (symmetry; apply Nat.ltb_ge; lia). reflexivity.
Qed.
(* pandas backend *)
Lemma gain_pd_up close i : (1 <= i)%nat -> gain_pd close i == ups close i.
Proof.
  intro H. unfold ups. rewrite <- gain_up by auto. unfold gain_pd, gain.
  destruct (Qltb_spec (diff close i) 0), (Qltb_spec 0 (diff close i)); lra.
Qed.
Lemma loss_pd_down close i : (1 <= i)%nat -> loss_pd close i == downs close i.
Proof.
  intro H. unfold downs. rewrite <- loss_down by auto. unfold loss_pd, loss.
  destruct (Qltb_spec (diff close i) 0), (Qltb_spec 0 (diff close i)); lra.
Qed.
Lemma pd_avg (f g : nat -> Q) n k : (1 <= n)%nat -> (forall i, (1 <= i)%nat -> f i == g i) ->
  wilder n (qsum (map f (seq 1 n)) / Qnat n) f k == wilder_avg g n k.
Proof.
  intros Hn H. rewrite <- (wilder_closed n (qsum (map g (seq 1 n)) / Qnat n)) by (auto; reflexivity).
  apply wilder_ext.
  - rewrite (qsum_map_ext_seq f g) by (intros; apply H; lia). reflexivity.
  - intros i Hi. apply H. lia.
Qed.
Lemma qsum_pos_iff (f : nat -> Q) l : (forall i, 0 <= f i) -> 0 < qsum (map f l) <-> exists i, In i l /\ 0 < f i.
Proof.
  intro Hf. split.
  - induction l as [|i l IH]; intro H; [cbn in H; lra|].
    cbn [map] in H. rewrite qsum_cons in H. destruct (Qlt_le_dec 0 (f i)) as [P|P].
    + exists i. split; [now left|auto].
    + destruct IH as (j & Hj & Pj). { lra. } exists j. split; [now right|auto].
  - intros (i & Hi & P).
    assert (f i <= qsum (map f l)).
    { apply qsum_elem_le. { intros y Hy. apply in_map_iff in Hy. destruct Hy as (j & <- & _). auto. }
      apply in_map_iff. eauto. }
    lra.
Qed.
Lemma pow_pos q n : 0 < q -> 0 < q ^ Z.of_nat n.
Proof. intro H. induction n as [|n IH]; [reflexivity|]. rewrite pow_S. nra. Qed.
Lemma wilder_avg_pos x n k : (1 <= n)%nat -> (forall i, 0 <= x i) ->
  0 < wilder_avg x n k <->
  exists i, (1 <= i <= n + k)%nat /\ 0 < x i /\ (n = 1%nat -> i = (n + k)%nat).
Proof.
  intros Hn Hx. assert (Hp : 0 < Qnat n) by now apply Qnat_pos.
  pose proof (wilder_r n Hn) as Hr.
  (* recursion form *)
  set (a0 := qsum (map x (seq 1 n)) / Qnat n).
  assert (R : forall m, wilder_avg x n m == wilder n a0 x m).
  { intro m. symmetry. apply wilder_closed; auto. reflexivity. }
  assert (NN : forall m, 0 <= wilder n a0 x m). { intro m. rewrite <- R. now apply wilder_avg_nonneg. }
  assert (A0 : 0 < a0 <-> exists i, In i (seq 1 n) /\ 0 < x i).
  { rewrite <- (qsum_pos_iff x (seq 1 n) Hx). unfold a0. split; intro H.
    - apply Qnot_le_lt. intro C. apply (Qlt_not_le _ _ H). apply Qle_shift_div_r; lra.
    - apply Qlt_shift_div_l; lra. }
  rewrite R. clear R. induction k as [|k IH].
  - cbn [wilder]. rewrite A0. split.
    + intros (i & Hi & P). apply in_seq in Hi. exists i. split; [lia|]. split; auto. lia.
    + intros (i & Hi & P & _). exists i. split; auto. apply in_seq. lia.
  - cbn [wilder].
    assert (D : 0 < ((Qnat n - 1) * wilder n a0 x k + x (n + S k)%nat) / Qnat n <->
                (n <> 1%nat /\ 0 < wilder n a0 x k) \/ 0 < x (n + S k)%nat).
    { specialize (NN k). specialize (Hx (n + S k)%nat). destruct (Nat.eq_dec n 1) as [->|N1].
      - change (Qnat 1) with 1. assert (E : ((1 - 1) * wilder 1 a0 x k + x (1 + S k)%nat) / 1 == x (1 + S k)%nat) by field.
        rewrite E. split; [auto|]. intros [[C _]|P]; [contradiction|auto].
      - assert (2 <= Qnat n) by (change 2 with (Qnat 2); apply Qnat_le; lia).
        split; intro H0.
        + assert (P : 0 < (Qnat n - 1) * wilder n a0 x k + x (n + S k)%nat).
          { apply Qnot_le_lt. intro C. apply (Qlt_not_le _ _ H0). apply Qle_shift_div_r; lra. }
          destruct (Qlt_le_dec 0 (x (n + S k)%nat)); [auto|]. left. split; auto. nra.
        + apply Qlt_shift_div_l; auto. destruct H0 as [[_ P]|P]; nra. }
    rewrite D, IH. clear IH D. split.
    + intros [[N1 (i & Hi & P & _)]|P].
      * exists i. split; [lia|]. split; auto. lia.
      * exists (n + S k)%nat. split; [lia|]. split; auto.
    + intros (i & Hi & P & L). destruct (Nat.eq_dec i (n + S k)) as [->|Ni]; [auto|]. left.
      assert (n <> 1%nat) by (intro C; apply Ni, L, C). split; auto. exists i. split; [lia|]. split; auto. lia.
Qed.
Lemma rsi_value_compat ag al ag' al' : ag == ag' -> al == al' ->
  match rsi_value ag al, rsi_value ag' al' with
  | Some a, Some b => a == b | None, None => True | _, _ => False end.
Proof.
  intros E1 E2. unfold rsi_value. destruct (Qltb_spec 0 al), (Qltb_spec 0 al'); try lra; auto. now rewrite E1, E2.
Qed.

(* ---------------- stochastic ---------------- *)
Lemma fold_pmin_spec : forall l x, In (fold_left pmin l x) (x :: l) /\ forall y, In y (x :: l) -> fold_left pmin l x <= y.
Proof.
  induction l as [|a l IH]; intro x; cbn [fold_left].
  - split; [now left|]. intros y [<-|[]]. lra.
  - destruct (IH (pmin x a)) as [H1 H2]. split.
    + destruct H1 as [H1|H1]; [|right; now right]. rewrite <- H1. destruct (pmin_case x a) as [->| ->]; [now left|right; now left].
    + intros y Hy. pose proof (H2 (pmin x a) (or_introl eq_refl)). destruct Hy as [<-|[<-|Hy]].
      * pose proof (pmin_l x a). lra.
      * pose proof (pmin_r x a). lra.
      * apply H2. now right.
Qed.
Lemma fold_pmax_spec : forall l x, In (fold_left pmax l x) (x :: l) /\ forall y, In y (x :: l) -> y <= fold_left pmax l x.
Proof.
  induction l as [|a l IH]; intro x; cbn [fold_left].
  - split; [now left|]. intros y [<-|[]]. lra.
  - destruct (IH (pmax x a)) as [H1 H2]. split.
    + destruct H1 as [H1|H1]; [|right; now right]. rewrite <- H1. destruct (pmax_case x a) as [->| ->]; [now left|right; now left].
    + intros y Hy. pose proof (H2 (pmax x a) (or_introl eq_refl)). destruct Hy as [<-|[<-|Hy]].
      * pose proof (pmax_l x a). lra.
      * pose proof (pmax_r x a). lra.
      * apply H2. now right.
Qed.
Lemma lmin_spec l : l <> [] -> is_min (lmin l) l.
Proof. destruct l as [|x l]; [contradiction|]. intros _. exact (fold_pmin_spec l x). Qed.
Lemma lmax_spec l : l <> [] -> is_max (lmax l) l.
Proof. destruct l as [|x l]; [contradiction|]. intros _. exact (fold_pmax_spec l x). Qed.
Lemma window_nonnil {A} (f : nat -> A) i n : (1 <= n)%nat -> window f i n <> [].
Proof. intro H. intro C. apply (f_equal (@length A)) in C. rewrite window_length in C. simpl in C. lia. Qed.
Lemma firstn_window l n : (1 <= n <= length l)%nat -> firstn n l = window (at_ l) (n - 1) n.
Proof.
  intro H. rewrite <- lastn_window by lia. unfold lastn. replace (n - 1 + 1 - n)%nat with 0%nat by lia. reflexivity.
Qed.
Lemma stoch_ext_spec low high n k : (1 <= n)%nat -> (n + k <= length low)%nat -> (n + k <= length high)%nat ->
  is_min (fst (stoch_ext low high n k)) (window (at_ low) (n - 1 + k) n) /\
  is_max (snd (stoch_ext low high n k)) (window (at_ high) (n - 1 + k) n).
Proof.
  intros Hn. induction k as [|k IH]; intros Hl Hh.
  - cbn [stoch_ext fst snd]. rewrite Nat.add_0_r, !firstn_window by lia. split.
    + apply lmin_spec. now apply window_nonnil.
    + apply lmax_spec. now apply window_nonnil.
  - destruct IH as [[A1 A2] [B1 B2]]; [lia|lia|].
    cbn [stoch_ext]. cbv zeta. set (s := stoch_ext low high n k) in *.
    replace (n + k - n)%nat with k by lia. replace (n - 1 + S k)%nat with (n + k)%nat by lia.
    destruct (Qeqb_spec (qn low k) (fst s)) as [E|NE]; cbn [orb].
    { cbn [fst snd]. rewrite !lastn_window by lia. split; [apply lmin_spec|apply lmax_spec]; now apply window_nonnil. }
    destruct (Qeqb_spec (qn high k) (snd s)) as [E|NE']; cbn [fst snd].
    { rewrite !lastn_window by lia. split; [apply lmin_spec|apply lmax_spec]; now apply window_nonnil. }
    apply in_window in A1; [|lia]. apply in_window in B1; [|lia].
    destruct A1 as (ja & Ha1 & Ha2 & Ea). destruct B1 as (jb & Hb1 & Hb2 & Eb).
    assert (ja <> k). { intros ->. apply NE. rewrite <- Ea. reflexivity. }
    assert (jb <> k). { intros ->. apply NE'. rewrite <- Eb. reflexivity. }
    split; split.
    + apply in_window; [lia|]. destruct (pmin_case (fst s) (qn low (n + k))) as [->| ->].
      * exists ja. split; [lia|split; [lia|auto]].
      * exists (n + k)%nat. split; [lia|split; [lia|auto]].
    + intros x Hx. apply in_window in Hx; [|lia]. destruct Hx as (j & H1 & H2 & <-).
      destruct (Nat.eq_dec j (n + k)) as [->|Nj]. { apply pmin_r. }
      eapply Qle_trans; [apply pmin_l|]. apply A2. apply in_window; [lia|]. exists j. split; [lia|split; [lia|auto]].
    + apply in_window; [lia|]. destruct (pmax_case (snd s) (qn high (n + k))) as [->| ->].
      * exists jb. split; [lia|split; [lia|auto]].
      * exists (n + k)%nat. split; [lia|split; [lia|auto]].
    + intros x Hx. apply in_window in Hx; [|lia]. destruct Hx as (j & H1 & H2 & <-).
      destruct (Nat.eq_dec j (n + k)) as [->|Nj]. { apply pmax_r. }
      eapply Qle_trans; [|apply pmax_l]. apply B2. apply in_window; [lia|]. exists j. split; [lia|split; [lia|auto]].
Qed.
