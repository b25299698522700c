(** T_transforms.v -- properties of feature/transforms.py. *)
From Verif Require Import Base M_features S_features P_weights P_features M_transforms S_transforms.
Open Scope Q_scope.

(* ------------------------------------------------------------------ *)
(** ** C59: directional run length *)
Lemma run_state_S x i : run_state x (S i) = run_step x (run_state x i) (S i).
Proof. unfold run_state. rewrite seq_S, fold_left_app. reflexivity. Qed.
Lemma run_state_sign x i : (1 <= i)%nat -> fst (run_state x i) = osign (nth i x None).
Proof. intro H. destruct i as [|i]; [lia|]. rewrite run_state_S. reflexivity. Qed.
Lemma same_sign a b : ((qsign a =? qsign b) && negb (qsign a =? 0))%Z%bool = true <-> 0 < b * a.
Proof.
  assert (C : forall q, (q < 0 /\ qsign q = (-1)%Z) \/ (q == 0 /\ qsign q = 0%Z) \/ (0 < q /\ qsign q = 1%Z)).
  { intros [n d]. unfold qsign, Qlt, Qeq. simpl. destruct n; simpl; lia. }
  destruct (C a) as [[Ha ->]|[[Ha ->]|[Ha ->]]]; destruct (C b) as [[Hb ->]|[[Hb ->]|[Hb ->]]]; cbn; split; intro H; try discriminate; try reflexivity; try nra.
Qed.
Lemma sq_pos v : ~ v == 0 -> 0 < v * v.
Proof. intro H. destruct (Q_dec v 0) as [[K|K]|K]; [nra|nra|contradiction]. Qed.
Lemma dir_trans a u v : 0 < a * u -> 0 < u * v -> 0 < a * v.
Proof.
  intros H1 H2. destruct (Q_dec u 0) as [[K|K]|K]; [| |rewrite K in H1; lra].
  - assert (a < 0) by nra. assert (v < 0) by nra. nra.
  - assert (0 < a) by nra. assert (0 < v) by nra. nra.
Qed.
Lemma firstn_S_nth {A} (l : list A) n d : (n < length l)%nat -> firstn (S n) l = firstn n l ++ [nth n l d].
Proof.
  revert n. induction l as [|x l IH]; intros n H; [simpl in H; lia|]. destruct n; [reflexivity|].
  cbn [firstn nth app]. f_equal. apply IH. simpl in H. lia.
Qed.
Lemma nth_repeat_lt {A} (x d : A) n k : (k < n)%nat -> nth k (repeat x n) d = x.
Proof. revert k. induction n; intros [|k] H; cbn; auto; try lia. apply IHn. lia. Qed.
Lemma run_spec x i : (1 <= i)%nat ->
  match nth i x None with
  | None => snd (run_state x i) = 1%Z
  | Some v => (v == 0 -> snd (run_state x i) = 0%Z) /\
              (~ v == 0 -> exists k, is_run x i k /\ snd (run_state x i) = Z.of_nat k)
  end.
Proof.
  induction i as [|i IH]; intro Hi; [lia|]. rewrite run_state_S. unfold run_step. cbn [fst snd].
  destruct (nth (S i) x None) as [v|] eqn:Ev; cbn [osign option_map]; [|reflexivity].
  destruct i as [|i].
  - cbn [run_state seq fold_left fst snd]. rewrite Ev. cbn [osign option_map]. rewrite Z.eqb_refl. cbn [andb]. split; intro H.
    + apply qsign_zero in H. now rewrite H.
    + exists 1%nat. split.
      * split; [lia|]. split; [|left; lia]. intros j Hj. replace j with 1%nat by lia. rewrite Ev. cbn.
        now apply sq_pos.
      * destruct (Z.eqb_spec (qsign v) 0) as [E|E]; [apply qsign_zero in E; contradiction|reflexivity].
  - specialize (IH ltac:(lia)). rewrite run_state_sign by lia.
    assert (ND : ~ v == 0 -> ~ same_dir (nth (S i) x None) (Some v) -> is_run x (S (S i)) 1).
    { intros Hv Hb. split; [lia|]. split.
      - intros j Hj. replace j with (S (S i)) by lia. rewrite Ev. now apply sq_pos.
      - right. replace (S (S i) - 1)%nat with (S i) by lia. now rewrite Ev. }
    assert (Z1 : (match qsign v with 0%Z => 0%Z | _ => 1%Z end) = (if Qeqb v 0 then 0 else 1)%Z).
    { destruct (Qeqb_spec v 0) as [E|E]; [apply qsign_zero in E; now rewrite E|].
      destruct (qsign v) eqn:F; [apply qsign_zero in F; contradiction| |]; reflexivity. }
    rewrite Z1. clear Z1.
    destruct (nth (S i) x None) as [u|] eqn:Eu; cbn [osign option_map].
    + destruct ((qsign v =? qsign u) && negb (qsign v =? 0))%Z%bool eqn:S0.
      * apply same_sign in S0. split; [intro H; rewrite H in S0; lra|]. intros Hv. destruct IH as [_ IH].
        destruct IH as [k [[R1 [R2 R3]] E]]; [intro H; rewrite H in S0; lra|]. exists (S k). rewrite Eu in R2, R3. split; [|lia].
        split; [lia|]. rewrite Ev. split.
        -- intros j Hj. destruct (Nat.eq_dec j (S (S i))) as [->|Hne]; [rewrite Ev; now apply sq_pos|].
           specialize (R2 j ltac:(lia)). destruct (nth j x None) as [a|]; [|contradiction]. cbn in *. eapply dir_trans; eauto.
        -- replace (S (S i) - S k)%nat with (S i - k)%nat by lia. destruct R3 as [R3|R3]; [auto|]. right. intro H. apply R3.
           destruct (nth (S i - k) x None) as [a|]; [|contradiction]. cbn in *. eapply dir_trans; [exact H|]. nra.
      * assert (NS : ~ same_dir (Some u) (Some v)). { intro H. apply same_sign in H. congruence. }
        destruct (Qeqb_spec v 0) as [E|E]; split; intro H; try contradiction; [reflexivity|].
        exists 1%nat. split; [now apply ND|reflexivity].
    + destruct (Qeqb_spec v 0) as [E|E]; split; intro H; try contradiction; [reflexivity|].
      exists 1%nat. split; [apply ND; auto|reflexivity].
Qed.
Lemma wraps8_small k : (0 <= k <= 127)%Z -> wraps 8 k = k.
Proof. intro H. apply wraps_id; [lia|]. change (2 ^ (8 - 1))%Z with 128%Z. lia. Qed.
(** The code counts the run modulo 2^8 (int8). *)
Theorem C59_run_partial : forall x i, (i < length x)%nat ->
  let out := nth i (dir_run_len x) 0%Z in
  length (dir_run_len x) = length x /\
  (i = 0%nat -> out = 0%Z) /\
  (forall v, (0 < i)%nat -> nth i x None = Some v -> v == 0 -> out = 0%Z) /\
  (forall v, (0 < i)%nat -> nth i x None = Some v -> ~ v == 0 ->
     exists k, is_run x i k /\ out = wraps 8 (Z.of_nat k) /\ ((k <= 127)%nat -> out = Z.of_nat k)).
Proof.
  intros x i Hi out. unfold out, dir_run_len. rewrite map_length, seq_length. split; [auto|]. rewrite nth_map_seq by auto.
  destruct i as [|i]; [split; [auto|split; intros; lia]|]. split; [lia|].
  pose proof (run_spec x (S i) ltac:(lia)) as R. split; intros v _ Ev Hv; rewrite Ev in R; destruct R as [R1 R2].
  - rewrite R1 by auto. reflexivity.
  - destruct (R2 Hv) as [k [Hk E]]. exists k. rewrite E. split; [auto|]. split; [reflexivity|]. intro. apply wraps8_small. lia.
Qed.
(** The run of a bar is unique, so the theorem determines the output. *)
Theorem C59_run_unique : forall x i k k', is_run x i k -> is_run x i k' -> k = k'.
Proof.
  assert (G : forall x i k k', is_run x i k -> is_run x i k' -> (k <= k')%nat).
  { intros x i k k' [A1 [A2 _]] [B1 [_ B3]]. destruct (Nat.le_gt_cases k k') as [H|H]; [auto|]. exfalso.
    destruct B3 as [B3|B3]; [lia|]. apply B3, A2. lia. }
  intros x i k k' A B. pose proof (G _ _ _ _ A B). pose proof (G _ _ _ _ B A). lia.
Qed.
Theorem C59_long_run_refuted : exists x i k, is_run x i k /\ (i < length x)%nat /\ nth i (dir_run_len x) 0%Z = (-128)%Z /\ k = 128%nat.
Proof.
  exists (repeat (Some 1) 129), 128%nat, 128%nat. split; [|split; [vm_compute; lia|split; [vm_compute; reflexivity|reflexivity]]].
  split; [lia|]. split; [|left; lia]. intros j Hj. rewrite !nth_repeat_lt by lia. reflexivity.
Qed.
(** A missing return is reported as a run of length one. *)
Theorem C59_missing_counts_one : forall x i, (0 < i < length x)%nat -> nth i x None = None -> nth i (dir_run_len x) 0%Z = 1%Z.
Proof.
  intros x i Hi E. unfold dir_run_len. rewrite nth_map_seq by lia. destruct i as [|i]; [lia|].
  pose proof (run_spec x (S i) ltac:(lia)) as R. rewrite E in R. rewrite R. reflexivity.
Qed.
Example C59_example : dir_run_len [Some 1; Some 1; Some 2; Some (-1); Some 0; None; Some (-2); Some (-3)] = [0; 1; 2; 1; 0; 1; 1; 2]%Z.
Proof. vm_compute. reflexivity. Qed.

(* ------------------------------------------------------------------ *)
(** ** C60: age of the last break *)
Lemma key_S flags i : flag_key flags (S i) = (flag_key flags i + if nth (S i) flags false then 1 else 0)%nat.
Proof.
  unfold flag_key. destruct (Nat.lt_ge_cases (S i) (length flags)) as [H|H].
  - rewrite (firstn_S_nth _ _ false H), filter_app, app_length. f_equal. cbn [filter]. now destruct (nth (S i) flags false).
  - rewrite !firstn_all2 by lia. rewrite nth_overflow by lia. lia.
Qed.
Lemma key_mono flags i j : (j <= i)%nat -> (flag_key flags j <= flag_key flags i)%nat.
Proof. intro H. induction H as [|i H IH]; [lia|]. rewrite key_S. lia. Qed.
Lemma key_same flags i j : (j <= i)%nat -> (forall m, (j < m <= i)%nat -> nth m flags false = false) -> flag_key flags j = flag_key flags i.
Proof.
  intro H. induction H as [|i H IH]; intro Hm; [auto|]. rewrite key_S, (Hm (S i)) by lia. rewrite IH; [lia|]. intros; apply Hm; lia.
Qed.
Lemma key_less flags i j m : (j < m <= i)%nat -> nth m flags false = true -> (flag_key flags j < flag_key flags i)%nat.
Proof.
  intros H E. destruct m as [|m]; [lia|]. pose proof (key_mono flags m j ltac:(lia)). pose proof (key_mono flags i (S m) ltac:(lia)).
  rewrite key_S, E in H1. lia.
Qed.
Lemma filter_none {A} (f : A -> bool) l : (forall x, In x l -> f x = false) -> filter f l = [].
Proof. induction l as [|x l IH]; intro H; [auto|]. cbn. rewrite (H x (or_introl eq_refl)). apply IH. intros; apply H; now right. Qed.
Lemma filter_every {A} (f : A -> bool) l : (forall x, In x l -> f x = true) -> filter f l = l.
Proof. induction l as [|x l IH]; intro H; [auto|]. cbn. rewrite (H x (or_introl eq_refl)). f_equal. apply IH. intros; apply H; now right. Qed.
Lemma count_since flags i k : since_flag flags i k -> flag_count flags i = k.
Proof.
  intros [Hk [Hn Hf]]. unfold flag_count. replace (seq 0 i) with (seq 0 (i - k) ++ seq (i - k) k) by (rewrite <- seq_app; f_equal; lia).
  rewrite filter_app, app_length. rewrite (filter_every _ (seq (i - k) k)).
  - rewrite seq_length. destruct Hf as [Hf|[-> H0]]; [|rewrite Nat.sub_diag; reflexivity].
    rewrite filter_none; [reflexivity|]. intros j Hj. apply in_seq in Hj. apply Nat.eqb_neq.
    pose proof (key_less flags i j (i - k) ltac:(lia) Hf). lia.
  - intros j Hj. apply in_seq in Hj. apply Nat.eqb_eq. apply key_same; [lia|]. intros m Hm. apply Hn. lia.
Qed.
Lemma since_exists flags i : exists k, since_flag flags i k.
Proof.
  induction i as [|i [k [Hk [Hn Hf]]]].
  - exists 0%nat. split; [lia|]. split; [intros; lia|]. cbn. destruct (nth 0 flags false) eqn:E; auto.
  - destruct (nth (S i) flags false) eqn:E.
    + exists 0%nat. split; [lia|]. split; [intros; lia|]. rewrite Nat.sub_0_r. auto.
    + exists (S k). split; [lia|]. replace (S i - S k)%nat with (i - k)%nat by lia. split.
      * intros j Hj. destruct (Nat.eq_dec j (S i)) as [->|]; [auto|]. apply Hn. lia.
      * destruct Hf as [?|[-> ?]]; auto.
Qed.
Theorem C60_age_partial : forall flags max_age i, (0 <= max_age)%Z -> (i < length flags)%nat ->
  let out := nth i (cusum_age flags max_age) 0%Z in
  length (cusum_age flags max_age) = length flags /\
  exists k, since_flag flags i k /\ out = (Z.min (Z.of_nat k) max_age mod 256)%Z /\
    ((max_age <= 255)%Z -> out = Z.min (Z.of_nat k) max_age).
Proof.
  intros flags ma i Hm Hi out. unfold out, cusum_age. rewrite map_length, seq_length. split; [auto|]. rewrite nth_map_seq by auto.
  destruct (since_exists flags i) as [k Hk]. exists k. split; [auto|]. rewrite (count_since _ _ _ Hk). split; [reflexivity|].
  intro. apply wrapu_id. change (2 ^ 8)%Z with 256%Z. lia.
Qed.
Theorem C60_large_max_age_refuted : exists flags i k, since_flag flags i k /\ (i < length flags)%nat /\ k = 256%nat /\ nth i (cusum_age flags 300) 7%Z = 0%Z.
Proof.
  exists (true :: repeat false 256), 256%nat, 256%nat. split; [|split; [cbn [length]; rewrite repeat_length; lia|split; [reflexivity|vm_compute; reflexivity]]].
  split; [lia|]. split; [|left; reflexivity]. intros j Hj. destruct j as [|j]; [lia|]. cbn [nth]. apply nth_repeat_lt. lia.
Qed.
(** Before the first break the age counts from the start of the series. *)
Theorem C60_before_first_break : forall flags max_age i, (0 <= max_age <= 255)%Z -> (i < length flags)%nat ->
  (forall j, (j <= i)%nat -> nth j flags false = false) -> nth i (cusum_age flags max_age) 0%Z = Z.min (Z.of_nat i) max_age.
Proof.
  intros flags ma i Hm Hi Hn. unfold cusum_age. rewrite nth_map_seq by auto. rewrite (count_since flags i i).
  - apply wrapu_id. change (2 ^ 8)%Z with 256%Z. lia.
  - split; [lia|]. split; [intros; apply Hn; lia|]. right. split; [auto|]. apply Hn. lia.
Qed.
Example C60_example : cusum_age [false; false; true; false; true; false; false; false; false] 3 = [0; 1; 0; 1; 0; 1; 2; 3; 3]%Z.
Proof. vm_compute. reflexivity. Qed.
(** The score is the excess of the statistic over the critical value, cut at 10 in both directions, and
    it is positive exactly when the break flag is set; it is missing exactly when one of the two is. *)
Theorem C60_score : forall s c, exists v, cusum_score (Some s) (Some c) = Some v /\
  -(10) <= v <= 10 /\ (-(10) <= s - c <= 10 -> v == s - c) /\ (10 < s - c -> v == 10) /\ (s - c < -(10) -> v == -(10)) /\
  (cusum_flag (Some s) (Some c) = true <-> 0 < v).
Proof.
  intros s c. eexists. split; [reflexivity|]. unfold cusum_flag, pmin, pmax.
  assert (F : Qltb 0 (s - c) = true <-> 0 < s - c) by apply Qltb_iff. rewrite F. clear F.
  destruct (Qltb (s - c) (-(10))) eqn:E1; [apply Qltb_iff in E1|apply Qltb_false in E1].
  - destruct (Qltb 10 (-(10))) eqn:E2; [discriminate|]. repeat split; try lra; intros; lra.
  - destruct (Qltb 10 (s - c)) eqn:E2; [apply Qltb_iff in E2|apply Qltb_false in E2]; repeat split; try lra; intros; lra.
Qed.
Theorem C60_score_missing : forall s c, cusum_score s c = None <-> s = None \/ c = None.
Proof. intros [s|] [c|]; cbn; split; intro H; try tauto; try discriminate; destruct H; discriminate. Qed.
Example C60_score_example : cusum_score (Some 14) (Some 3) = Some 10 /\ cusum_score (Some 2) (Some 3) = Some (-(1)) /\
  cusum_score (Some (7 # 2)) (Some 3) = Some (1 # 2) /\ cusum_score None (Some 3) = None /\ cusum_flag (Some (7 # 2)) (Some 3) = true.
Proof. vm_compute. repeat split. Qed.

(* ------------------------------------------------------------------ *)
(** ** C61: candle shape *)
Theorem C61_candle : forall o h l c vw, l <= o <= h -> l <= c <= h ->
  exists u d b, fst (candle_shape o h l c vw) = (Fin u, Fin d, Fin b) /\
    0 <= u < 1 /\ 0 <= d < 1 /\ 0 <= b < 1 /\
    (u + d + b) * (h - l + (1 # 1000000000000)) == h - l /\ u + d + b < 1 /\
    u * (h - l + (1 # 1000000000000)) == h - Qmax o c /\ d * (h - l + (1 # 1000000000000)) == Qmin o c - l.
Proof.
  intros o h l c vw Ho Hc. unfold candle_shape. cbv zeta. set (r := h - l + (1 # 1000000000000)).
  assert (Hr : 0 < r) by (unfold r; lra). unfold ediv. destruct (Qeqb_spec r 0) as [E|E]; [lra|]. do 3 eexists. split; [reflexivity|].
  assert (D : forall x, 0 <= x -> x <= h - l -> 0 <= x / r < 1).
  { intros x H1 H2. split; [apply Qle_shift_div_l; lra|apply Qlt_shift_div_r; unfold r in *; lra]. }
  assert (X : forall x, x / r * r == x) by (intro x; field; lra).
  assert (B : Qabs (c - o) == pmax o c - pmin o c /\ Qmax o c == pmax o c /\ Qmin o c == pmin o c).
  { unfold pmax, pmin. destruct (Q.max_spec o c) as [[M1 M2]|[M1 M2]]; rewrite M2.
    - rewrite (Qabs_pos (c - o)) by lra. destruct (Qltb_spec o c), (Qltb_spec c o); try lra. split; [lra|]. split; [lra|]. apply Q.min_l. lra.
    - rewrite (Qabs_neg (c - o)) by lra. destruct (Qltb_spec o c), (Qltb_spec c o); try lra; (split; [lra|]; split; [lra|]).
      + apply Q.min_r. lra.
      + assert (E2 : o == c) by lra. rewrite (Q.min_l o c) by lra. reflexivity. }
  destruct B as [B1 [B2 B3]]. rewrite B1, B2, B3. set (M := pmax o c). set (m := pmin o c).
  assert (HM : M <= h /\ l <= m /\ m <= M).
  { unfold M, m, pmax, pmin. destruct (Qltb_spec o c), (Qltb_spec c o); lra. }
  split; [apply D; lra|]. split; [apply D; lra|]. split; [apply D; lra|]. clearbody M m. clear B1 B2 B3.
  assert (S : ((h - M) / r + (m - l) / r + (M - m) / r) * r == h - l) by (field; lra).
  split; [exact S|]. split; [|split; apply X]. set (t := (h - M) / r + (m - l) / r + (M - m) / r) in *. clearbody t.
  unfold r in *. destruct (Qlt_le_dec t 1); [auto|]. exfalso. nra.
Qed.
Theorem C61_vwap_drift : forall o h l c vw, ~ o == 0 ->
  exists v, snd (candle_shape o h l c vw) = Fin v /\ v * o == vw - o.
Proof. intros o h l c vw H. unfold candle_shape, ediv. cbv zeta. cbn [snd]. destruct (Qeqb_spec o 0); [contradiction|]. eexists. split; [reflexivity|]. field. auto. Qed.
Example C61_example : match candle_shape 2 5 1 3 4 with (Fin u, Fin d, Fin b, Fin v) =>
    Qred (u * 4000000000001) = 2000000000000 /\ Qred (d * 4000000000001) = 1000000000000 /\ Qred (b * 4000000000001) = 1000000000000 /\ Qred v = 1
  | _ => False end.
Proof. vm_compute. auto. Qed.

Print Assumptions C59_run_partial.
Print Assumptions C59_run_unique.
Print Assumptions C59_long_run_refuted.
Print Assumptions C59_missing_counts_one.
Print Assumptions C60_age_partial.
Print Assumptions C60_large_max_age_refuted.
Print Assumptions C60_before_first_break.
Print Assumptions C60_score.
Print Assumptions C60_score_missing.
Print Assumptions C61_candle.
Print Assumptions C61_vwap_drift.
