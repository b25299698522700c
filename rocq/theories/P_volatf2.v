(** P_volatf2.v -- errors of the rolling sums of Bollinger bands and of ewms in float64. *)
From Coq Require Import Qround Qpower Qfield.
From Verif Require Import Base M_logic M_bars M_features M_volume M_volat M_float M_float2 M_float3 M_float7 S_logic S_features S_volat S_float S_sumf.
From Verif Require Import P_weights P_features P_features2 P_volat P_float P_float2 P_float9 P_float11 P_float12 P_float13 P_sumf P_weightsf P_volatf T_volat2.
Open Scope Q_scope.

(* ---------------------------------------------------------------- Bollinger sums *)
(** Magnitude of everything that has entered or left a rolling sum after [k] updates. *)
Definition moved (x : nat -> Q) (n k : nat) : Q := ssum (fun j => Qabs (x j)) 0 (n + k) + ssum (fun j => Qabs (x j)) 0 k.
Definition at2 (close : list Q) (j : nat) : Q := at_ close j * at_ close j.
Lemma near_self x : near 0 x x (Qabs x).
Proof. apply near_exact. lra. Qed.
Lemma sq_near v : near 1 (r53 (v * v)) (v * v) (Qabs (v * v)).
Proof. apply near_rnd, near_self. Qed.
Lemma bb_first_near close n : forall a b A B x y m, near m a x A -> near (S m) b y B ->
  let s := fold_left (fun s j => (r53 (fst s + qn close j), r53 (snd s + r53 (qn close j * qn close j)))) (seq 0 n) (a, b) in
  near (m + n) (fst s) (x + ssum (at_ close) 0 n) (A + ssum (fun j => Qabs (at_ close j)) 0 n) /\
  near (S (m + n)) (snd s) (y + ssum (at2 close) 0 n) (B + ssum (fun j => Qabs (at2 close j)) 0 n).
Proof.
  induction n as [|n IH]; intros a b A B x y m Ha Hb.
  - cbv zeta. cbn [seq fold_left fst snd]. rewrite Nat.add_0_r. split; (eapply near_comp; [reflexivity| | |eassumption]); unfold ssum; cbn; ring.
  - cbv zeta. rewrite fold_left_seq_S. specialize (IH a b A B x y m Ha Hb). cbv zeta in IH. destruct (fold_left _ (seq 0 n) (a, b)) as [s t]. cbn [fst snd] in *.
    destruct IH as [I1 I2]. rewrite Nat.add_0_l. change (qn close n) with (at_ close n). rewrite <- plus_n_Sm. split.
    + eapply near_comp; [reflexivity|rewrite ssum_snoc by lia; symmetry; apply Qplus_assoc|rewrite ssum_snoc by lia; symmetry; apply Qplus_assoc|].
      apply near_rnd, near_plus; [exact I1|]. apply (near_le 0 (m + n) _ _ (Qabs (at_ close n))); [lia|lra|apply near_self].
    + eapply near_comp; [reflexivity|rewrite ssum_snoc by lia; symmetry; apply Qplus_assoc|rewrite ssum_snoc by lia; symmetry; apply Qplus_assoc|].
      apply near_rnd, near_plus; [exact I2|]. apply (near_le 1 (S (m + n)) _ _ (Qabs (at2 close n))); [lia|lra|apply sq_near].
Qed.
Lemma moved_S x n k : moved x n (S k) == moved x n k + (Qabs (x (n + k)%nat) + Qabs (x k)).
Proof. unfold moved. rewrite <- plus_n_Sm. rewrite !ssum_snoc by lia. ring. Qed.
Lemma window_first (f : nat -> Q) n : (1 <= n)%nat -> qsum (window f (n - 1) n) == ssum f 0 n.
Proof. intro H. unfold window, ssum. replace (n - 1 + 1 - n)%nat with 0%nat by lia. now rewrite Nat.sub_0_r. Qed.
Lemma bb_sums_near close n k : (1 <= n)%nat ->
  near (n + k) (fst (bb_sums_f close n k)) (qsum (window (at_ close) (n - 1 + k) n)) (moved (at_ close) n k) /\
  near (n + k + 1) (snd (bb_sums_f close n k)) (qsum (window (at2 close) (n - 1 + k) n)) (moved (at2 close) n k).
Proof.
  intro Hn. induction k as [|k [I1 I2]].
  - cbn [bb_sums_f]. destruct (bb_first_near close n 0 0 0 0 0 0 0%nat (near_self 0) (near_exact 1 0 0 ltac:(cbn; lra))) as [A B]. cbv zeta in A, B.
    rewrite !Nat.add_0_r. unfold moved. rewrite !Nat.add_0_r. rewrite Nat.add_1_r.
    split; [refine (near_comp _ _ _ _ _ _ _ _ _ _ A)|refine (near_comp _ _ _ _ _ _ _ _ _ _ B)]; try reflexivity; try (rewrite window_first by auto; ring);
      unfold ssum at 3; cbn [Nat.sub seq map qsum fold_right]; ring.
  - cbn [bb_sums_f fst snd]. replace (n + k - n)%nat with k by lia. change (qn close) with (at_ close).
    replace (n - 1 + S k)%nat with (n + k)%nat by lia. replace (n + S k)%nat with (S (n + k)) by lia. cbn [Nat.add]. split.
    + eapply near_comp; [reflexivity|symmetry; apply window_slide; auto|symmetry; apply moved_S|]. replace (n + k - n)%nat with k by lia.
      apply near_rnd. eapply near_comp; [reflexivity| |reflexivity|apply near_plus; [exact I1|]].
      2:{ apply (near_le 1 (n + k) _ _ (Qabs (at_ close (n + k)%nat) + Qabs (at_ close k))); [lia|lra|]. apply near_rnd, near_minus; apply near_self. }
      ring.
    + eapply near_comp; [reflexivity|symmetry; apply window_slide; auto|symmetry; apply moved_S|]. replace (n + k - n)%nat with k by lia.
      apply near_rnd. eapply near_comp; [reflexivity| |reflexivity|apply near_plus; [exact I2|]].
      2:{ apply (near_le 2 (n + k + 1) _ _ (Qabs (at2 close (n + k)%nat) + Qabs (at2 close k))); [lia|lra|]. apply near_rnd, near_minus; apply sq_near. }
      unfold at2. ring.
Qed.
(** Sums of numbers on a grid do not drift. *)
Lemma window_abs_le (f : nat -> Q) i n C : (forall j, Qabs (f j) <= C) -> Qabs (qsum (window f i n)) <= Qnat n * C.
Proof.
  intro H. unfold window. generalize (i + 1 - n)%nat as a. induction n as [|n IH]; intro a; [change (0 <= 0 * C); lra|]. cbn [seq map]. rewrite qsum_cons, Qnat_S.
  eapply Qle_trans; [apply Qabs_triangle|]. specialize (IH (S a)). pose proof (H a). lra.
Qed.
Lemma window_grid g (f : nat -> Q) i n : (forall j, grid g (f j)) -> grid g (qsum (window f i n)).
Proof. intro H. apply qsum_grid. intros x Hx. unfold window in Hx. apply in_map_iff in Hx. destruct Hx as [j [<- _]]. apply H. Qed.
Lemma bb_first_grid close g h C D n N : (forall j, grid g (at_ close j)) -> (forall j, Qabs (at_ close j) <= C) -> (forall j, grid h (at2 close j)) ->
  (forall j, Qabs (at2 close j) <= D) -> (n <= N)%nat -> (1 <= N)%nat -> Qnat N * C <= two (53 + g) -> Qnat N * D <= two (53 + h) ->
  let s := fold_left (fun s j => (r53 (fst s + qn close j), r53 (snd s + r53 (qn close j * qn close j)))) (seq 0 n) (0, 0) in
  fst s == ssum (at_ close) 0 n /\ snd s == ssum (at2 close) 0 n.
Proof.
  intros G HC G2 HD L HN KC KD. assert (CN : 0 <= C) by (pose proof (HC 0%nat); pose proof (Qabs_nonneg (at_ close 0)); lra).
  assert (DN : 0 <= D) by (pose proof (HD 0%nat); pose proof (Qabs_nonneg (at2 close 0)); lra).
  assert (N1 := Qnat_ge1 N HN). assert (C1 : C <= two (53 + g)) by nra. assert (D1 : D <= two (53 + h)) by nra.
  induction n as [|n IH]; [cbn; split; reflexivity|]. cbv zeta. rewrite fold_left_seq_S. specialize (IH ltac:(lia)). cbv zeta in IH.
  destruct (fold_left _ (seq 0 n) (0, 0)) as [s t]. cbn [fst snd] in *. destruct IH as [I1 I2]. rewrite Nat.add_0_l. change (qn close n) with (at_ close n).
  assert (W : forall f, ssum f 0 (S n) == qsum (window f n (S n))).
  { intro f. unfold ssum, window. replace (n + 1 - S n)%nat with 0%nat by lia. now rewrite Nat.sub_0_r. }
  assert (Le : Qnat (S n) <= Qnat N) by (apply Qnat_le; lia).
  split.
  - rewrite (rnd_comp 53 _ (ssum (at_ close) 0 (S n))) by (rewrite ssum_snoc by lia; rewrite I1; reflexivity). fold (r53 (ssum (at_ close) 0 (S n))).
    apply r53_grid with g; [eapply grid_comp; [symmetry; apply W|now apply window_grid]|]. rewrite W. eapply Qle_trans; [apply (window_abs_le _ _ _ C HC)|]. nra.
  - assert (E : r53 (at_ close n * at_ close n) == at2 close n) by (apply r53_grid with h; [apply G2|]; eapply Qle_trans; [apply HD|exact D1]).
    rewrite (rnd_comp 53 _ (ssum (at2 close) 0 (S n))) by (rewrite ssum_snoc by lia; rewrite I2, E; reflexivity). fold (r53 (ssum (at2 close) 0 (S n))).
    apply r53_grid with h; [eapply grid_comp; [symmetry; apply W|now apply window_grid]|]. rewrite W. eapply Qle_trans; [apply (window_abs_le _ _ _ D HD)|]. nra.
Qed.
Lemma bb_sums_grid close g n C k : (2 <= n)%nat -> (forall x, In x close -> grid g x /\ 0 <= x <= C) -> 0 <= C ->
  Qnat n * C <= two (53 + g) -> Qnat n * (C * C) <= two (53 + 2 * g) ->
  fst (bb_sums_f close n k) == qsum (window (at_ close) (n - 1 + k) n) /\ snd (bb_sums_f close n k) == qsum (window (at2 close) (n - 1 + k) n).
Proof.
  intros Hn H HC KC KD.
  assert (At : forall j, grid g (at_ close j) /\ 0 <= at_ close j <= C).
  { intro j. unfold at_. destruct (Nat.lt_ge_cases j (length close)); [apply H, nth_In; auto|]. rewrite nth_overflow by auto. split; [apply grid_0|lra]. }
  assert (A1 : forall j, Qabs (at_ close j) <= C) by (intro j; destruct (At j) as [_ K]; rewrite Qabs_pos; lra).
  assert (G2 : forall j, grid (2 * g) (at2 close j)) by (intro j; destruct (At j) as [K _]; unfold at2; replace (2 * g)%Z with (g + g)%Z by lia; now apply grid_mult).
  assert (A2 : forall j, 0 <= at2 close j <= C * C) by (intro j; destruct (At j) as [_ K]; unfold at2; split; nra).
  assert (A3 : forall j, Qabs (at2 close j) <= C * C) by (intro j; pose proof (A2 j); rewrite Qabs_pos; lra).
  assert (N2 : 2 <= Qnat n) by (apply (Qnat_le 2 n Hn)). assert (C2 : 0 <= C * C) by nra.
  assert (C1 : 2 * C <= two (53 + g)) by nra. assert (D1 : 2 * (C * C) <= two (53 + 2 * g)) by nra.
  induction k as [|k [I1 I2]].
  - cbn [bb_sums_f]. rewrite !Nat.add_0_r.
    destruct (bb_first_grid close g (2 * g) C (C * C) n n (fun j => proj1 (At j)) A1 G2 A3 ltac:(lia) ltac:(lia) KC KD) as [A B]. cbv zeta in A, B.
    rewrite !window_first by lia. split; [exact A|exact B].
  - cbn [bb_sums_f fst snd]. replace (n + k - n)%nat with k by lia. change (qn close) with (at_ close).
    replace (n - 1 + S k)%nat with (n + k)%nat by lia. split.
    + assert (E : r53 (at_ close (n + k)%nat - at_ close k) == at_ close (n + k)%nat - at_ close k).
      { apply r53_grid with g; [apply grid_minus; apply At|]. destruct (At (n + k)%nat) as [_ K1], (At k) as [_ K2]. apply Qabs_Qle_condition. lra. }
      rewrite (rnd_comp 53 _ (qsum (window (at_ close) (n + k) n))).
      2:{ rewrite E, I1, window_slide by lia. replace (n + k - n)%nat with k by lia. ring. }
      fold (r53 (qsum (window (at_ close) (n + k) n))).
      apply r53_grid with g; [apply window_grid; intro; apply At|]. eapply Qle_trans; [apply (window_abs_le _ _ _ C A1)|exact KC].
    + assert (S1 : forall j, r53 (at_ close j * at_ close j) == at2 close j) by (intro j; apply r53_grid with (2 * g)%Z; [apply G2|]; pose proof (A3 j); lra).
      assert (E : r53 (r53 (at_ close (n + k)%nat * at_ close (n + k)%nat) - r53 (at_ close k * at_ close k)) == at2 close (n + k)%nat - at2 close k).
      { rewrite (rnd_comp 53 _ (at2 close (n + k)%nat - at2 close k)) by (rewrite !S1; reflexivity). fold (r53 (at2 close (n + k)%nat - at2 close k)).
        apply r53_grid with (2 * g)%Z; [apply grid_minus; apply G2|]. pose proof (A2 (n + k)%nat). pose proof (A2 k). apply Qabs_Qle_condition. lra. }
      rewrite (rnd_comp 53 _ (qsum (window (at2 close) (n + k) n))).
      2:{ rewrite E, I2, window_slide by lia. replace (n + k - n)%nat with k by lia. ring. }
      fold (r53 (qsum (window (at2 close) (n + k) n))).
      apply r53_grid with (2 * g)%Z; [apply window_grid; intro; apply G2|]. eapply Qle_trans; [apply (window_abs_le _ _ _ (C * C) A3)|exact KD].
Qed.
(** Mean and variance of a window. *)
Lemma bb_moments_near first s q A M B n m : (2 <= n)%nat -> near m (fst s) A M -> near (m + 1) (snd s) q B ->
  near (m + 1) (fst (bb_moments_f first s n)) (A / Qnat n) (M / Qnat n) /\
  near (2 * m + 6) (snd (bb_moments_f first s n)) ((q - Qnat n * (A / Qnat n) * (A / Qnat n)) / (Qnat n - 1)) ((B + M * M / Qnat n) / (Qnat n - 1)).
Proof.
  intros Hn H1 H2. assert (N2 : 2 <= Qnat n) by (apply (Qnat_le 2 n Hn)). unfold bb_moments_f. cbv zeta. cbn [fst snd].
  assert (MN : near (m + 1) (r53 (fst s / Qnat n)) (A / Qnat n) (M / Qnat n)) by (rewrite Nat.add_1_r; apply near_rnd, near_div; [lra|exact H1]).
  split; [exact MN|]. set (mf := r53 (fst s / Qnat n)) in *. clearbody mf. set (N := Qnat n) in *.
  assert (NN : near 0 N N N) by (apply near_exact; rewrite Qabs_pos; lra).
  assert (SQ : near (2 * m + 4) (if first then r53 (r53 (N * mf) * mf) else r53 (N * r53 (mf * mf))) (N * (A / N) * (A / N)) (M * M / N)).
  { destruct first.
    - apply (near_comp _ (r53 (r53 (N * mf) * mf)) _ (N * (A / N) * (A / N)) _ (N * (M / N) * (M / N))); [reflexivity|reflexivity|field; lra|].
      replace (2 * m + 4)%nat with (S (S (0 + (m + 1)) + (m + 1))) by lia. apply near_rnd, near_mult; [apply near_rnd, near_mult; [exact NN|exact MN]|exact MN].
    - apply (near_comp _ (r53 (N * r53 (mf * mf))) _ (N * (A / N * (A / N))) _ (N * (M / N * (M / N)))); [reflexivity|ring|field; lra|].
      replace (2 * m + 4)%nat with (S (0 + S (m + 1 + (m + 1)))) by lia. apply near_rnd, near_mult; [exact NN|]. apply near_rnd, near_mult; exact MN. }
  replace (2 * m + 6)%nat with (S (S (2 * m + 4))) by lia. apply near_rnd, near_div; [lra|]. apply near_rnd, near_minus; [|exact SQ].
  apply (near_le (m + 1) (2 * m + 4) _ _ B); [lia|lra|exact H2].
Qed.

(* ---------------------------------------------------------------- ewms *)
(** Magnitude of the weighted sum: the same sum of absolute values. *)
Definition oabs (ys : list (option Q)) : list (option Q) := map (option_map Qabs) ys.
Definition ew_tracks (k : nat) (sf s a : ew_st) : Prop :=
  0 <= e_w s /\ 0 <= e_w2 s /\ 0 <= e_y2 s /\
  within u53 (2 * k) (e_w sf) (e_w s) /\ within u53 (3 * k) (e_w2 sf) (e_w2 s) /\
  near (2 * k) (e_y sf) (e_y s) (e_y a) /\ within u53 (2 * k) (e_y2 sf) (e_y2 s).
Lemma near_scale b k a x A : 0 <= b -> near k a x A -> near (S k) (r53 (b * a)) (b * x) (b * A).
Proof. intros Hb H. apply near_rnd. change k with (0 + k)%nat. apply near_mult; [apply near_exact; rewrite Qabs_pos; lra|exact H]. Qed.
Lemma ew_step_tracks b k sf s a y : 0 <= b -> ew_tracks k sf s a ->
  ew_tracks (S k) (ew_step_f b sf y) (ew_step b s y) (ew_step b a (option_map Qabs y)).
Proof.
  intros Hb (P1 & P2 & P3 & W1 & W2 & N & W3).
  assert (B2 : 0 <= b * b) by nra. assert (Q1 : 0 <= b * e_w s) by (apply Qmult_le_0_compat; auto).
  assert (Q2 : 0 <= b * b * e_w2 s) by (apply Qmult_le_0_compat; auto). assert (Q3 : 0 <= b * e_y2 s) by (apply Qmult_le_0_compat; auto).
  assert (S1 : within u53 (S (2 * k)) (r53 (b * e_w sf)) (b * e_w s)) by (apply within_r53; [exact Q1|now apply within_scale]).
  assert (S2 : within u53 (S (1 + 3 * k)) (r53 (r53 (b * b) * e_w2 sf)) (b * b * e_w2 s)).
  { apply within_mult_r; [exact B2|exact P2| |exact W2]. apply within_r53; [exact B2|now apply within_self, B2]. }
  assert (S3 : within u53 (S (2 * k)) (r53 (b * e_y2 sf)) (b * e_y2 s)) by (apply within_r53; [exact Q3|now apply within_scale]).
  pose proof (near_scale b _ _ _ _ Hb N) as S4. unfold ew_tracks.
  replace (2 * S k)%nat with (S (S (2 * k))) by lia. replace (3 * S k)%nat with (S (S (1 + 3 * k))) by lia.
  destruct y as [v|]; cbn [ew_step_f ew_step option_map e_w e_w2 e_y e_y2].
  - destruct (sq_within v) as [V1 V2]. split; [lra|]. split; [lra|]. split; [lra|].
    split; [apply within_sum; [exact S1|exact Q1|lra]|]. split; [apply within_sum; [exact S2|exact Q2|lra]|].
    split; [apply near_rnd, near_plus; [exact S4|]; apply (near_le 0 (S (2 * k)) _ _ (Qabs v)); [lia|lra|apply near_self]|].
    apply (within_add _ 1); [exact Q3|exact V1|lia|exact S3|exact V2].
  - split; [lra|]. split; [lra|]. split; [lra|].
    split; [apply (within_comp u53 _ (r53 (b * e_w sf)) (b * e_w s)); [reflexivity|ring|]; apply (within_S u53 u53_bounds); [exact Q1|exact S1]|].
    split; [apply (within_comp u53 _ (r53 (r53 (b * b) * e_w2 sf)) (b * b * e_w2 s)); [reflexivity|ring|]; apply (within_S u53 u53_bounds); [exact Q2|exact S2]|].
    split; [apply (near_le (S (2 * k)) _ _ _ (b * e_y a)); [lia|lra|exact S4]|].
    apply (within_S u53 u53_bounds); [exact Q3|exact S3].
Qed.
Lemma ew_fold_tracks b ys : 0 <= b -> forall k, (k <= length ys)%nat ->
  ew_tracks k (fold_left (ew_step_f b) (firstn k ys) (mkEW 0 0 0 0)) (fold_left (ew_step b) (firstn k ys) (mkEW 0 0 0 0))
    (fold_left (ew_step b) (firstn k (oabs ys)) (mkEW 0 0 0 0)).
Proof.
  intros Hb. induction k as [|k IH]; intro Hk.
  - cbn [firstn fold_left]. unfold ew_tracks. cbn [e_w e_w2 e_y e_y2]. split; [lra|]. split; [lra|]. split; [lra|]. split; [apply within_0|].
    split; [apply within_0|]. split; [apply near_self|apply within_0].
  - rewrite !(firstn_snoc None) by (unfold oabs; rewrite ?map_length; lia). rewrite !fold_left_app. cbn [fold_left].
    assert (E : nth k (oabs ys) None = option_map Qabs (nth k ys None)) by (unfold oabs; change (@None Q) with (option_map Qabs None) at 1; apply map_nth).
    rewrite E. apply ew_step_tracks; [exact Hb|]. apply IH. lia.
Qed.
Lemma ew_loop_f_length sqrt b : forall ys s, length (ew_loop_f sqrt b s ys) = length ys.
Proof. induction ys as [|y t IH]; intro s; cbn [ew_loop_f length]; [reflexivity|]. now rewrite IH. Qed.
Lemma ew_loop_f_nth sqrt b : forall ys s i, (i < length ys)%nat ->
  nth i (ew_loop_f sqrt b s ys) None = ew_out_f sqrt (fold_left (ew_step_f b) (firstn (S i) ys) s).
Proof.
  induction ys as [|y t IH]; intros s i Hi; [cbn in Hi; lia|]. cbn [ew_loop_f]. cbv zeta. destruct i as [|i]; [reflexivity|].
  cbn [nth]. rewrite IH by (cbn in Hi; lia). reflexivity.
Qed.
(** Quotient of a number with error measured against a magnitude by a positive number. *)
Lemma near_over k m a x A b y : 0 < y -> near k a x A -> within u53 m b y -> near (k + 2 * m) (a / b) (x / y) (A / y).
Proof.
  intros Hy N W. assert (I0 : 0 < / y) by (apply Qinv_lt_0_compat; lra).
  assert (D : within u53 (0 + 2 * m) (1 / b) (1 / y)) by (apply within_div; [lra|exact Hy|apply within_self; [exact u53_bounds|lra]|exact W]).
  assert (Y0 : 0 <= 1 / y) by (apply Qle_shift_div_l; lra).
  eapply near_comp; [| | |exact (near_mult k (2 * m) _ _ _ _ _ _ N (near_within _ _ _ Y0 D))]; unfold Qdiv; ring.
Qed.
Lemma ew_raw_near k sf s a : ew_tracks k sf s a -> 0 < e_w s ->
  near (12 * k + 4) (ew_raw_f sf) (e_y2 s / e_w s - e_y s / e_w s * (e_y s / e_w s)) (e_y2 s / e_w s + e_y a / e_w s * (e_y a / e_w s)).
Proof.
  intros (P1 & P2 & P3 & W1 & W2 & N & W3) HW. unfold ew_raw_f. cbv zeta.
  assert (MN : near (6 * k + 1) (r53 (e_y sf / e_w sf)) (e_y s / e_w s) (e_y a / e_w s)).
  { replace (6 * k + 1)%nat with (S (2 * k + 2 * (2 * k))) by lia. apply near_rnd, near_over; auto. }
  replace (12 * k + 4)%nat with (S (12 * k + 3)) by lia. apply near_rnd, near_minus.
  - apply (near_le (6 * k + 1) (12 * k + 3) _ _ (e_y2 s / e_w s)); [lia|lra|]. replace (6 * k + 1)%nat with (S (2 * k + 2 * (2 * k))) by lia.
    apply near_rnd, near_over; auto. now apply near_within.
  - replace (12 * k + 3)%nat with (S (6 * k + 1 + (6 * k + 1))) by lia. apply near_rnd, near_mult; exact MN.
Qed.
Lemma ew_den_near k sf s a : ew_tracks k sf s a -> 0 < e_w s ->
  near (7 * k + 2) (ew_den_f sf) (e_w s - e_w2 s / e_w s) (e_w s + e_w2 s / e_w s).
Proof.
  intros (P1 & P2 & P3 & W1 & W2 & N & W3) HW. unfold ew_den_f.
  replace (7 * k + 2)%nat with (S (7 * k + 1)) by lia. apply near_rnd, near_minus.
  - apply (near_le (2 * k) _ _ _ (e_w s)); [lia|lra|]. now apply near_within.
  - replace (7 * k + 1)%nat with (S (3 * k + 2 * (2 * k))) by lia. apply near_rnd, near_over; auto. now apply near_within.
Qed.
(** Without missing values the denominator is positive from the second observation on. *)
Lemma beta_f_lower span : (2 <= span)%Z -> 1 # 4 <= ewma_beta_f span.
Proof.
  intro H. unfold ewma_beta_f.
  assert (S2 : 3 <= inject_Z span + 1) by (assert (2 <= inject_Z span) by (change 2 with (inject_Z 2); rewrite <- Zle_Qle; lia); lra).
  assert (F3 : 3 <= r53 (inject_Z span + 1)) by (apply rnd_ge; [lia|change 3 with (inject_Z 3); apply fl_int; lia|exact S2]).
  assert (A : r53 (2 / r53 (inject_Z span + 1)) <= 3 # 4).
  { apply rnd_le; [lia|exists 3%Z, (-2)%Z; split; [reflexivity|reflexivity]|]. apply Qle_shift_div_r; lra. }
  apply rnd_ge; [lia|exists 1%Z, (-2)%Z; split; [reflexivity|reflexivity]|lra].
Qed.
Definition ew_full (k : nat) (s : ew_st) : Prop :=
  0 <= e_w2 s /\ e_w2 s <= e_w s /\ match k with O => e_w s == 0 /\ e_w2 s == 0 | S O => e_w s == 1 /\ e_w2 s == 1 | _ => 5 # 4 <= e_w s end.
Lemma ew_full_step b k s v : fl 53 b -> (1 # 4) <= b <= 1 -> ew_full k s -> ew_full (S k) (ew_step_f b s (Some v)).
Proof.
  intros Fb Hb (F1 & F2 & F3). cbn [ew_step_f]. unfold ew_full. cbn [e_w e_w2].
  assert (B2 : 0 <= b * b <= b) by nra. assert (R0 : 0 <= r53 (b * b)) by (apply r53_nonneg; lra).
  assert (Rb : r53 (b * b) <= b) by (apply rnd_le; [lia|exact Fb|lra]).
  assert (M0 : 0 <= r53 (r53 (b * b) * e_w2 s)) by (apply r53_nonneg, Qmult_le_0_compat; auto).
  assert (M1 : r53 (r53 (b * b) * e_w2 s) <= r53 (b * e_w s)) by (apply r53_mono; nra).
  split; [apply r53_nonneg; lra|]. split; [apply r53_mono; lra|]. destruct k as [|k].
  - destruct F3 as [E1 E2]. assert (Z1 : r53 (b * e_w s) = 0) by (apply rnd_0; rewrite E1; ring).
    assert (Z2 : r53 (r53 (b * b) * e_w2 s) = 0) by (apply rnd_0; rewrite E2; ring). rewrite Z1, Z2. split; reflexivity.
  - assert (W1 : 1 <= e_w s) by (destruct k; [destruct F3; lra|lra]).
    assert (L : (1 # 4) <= r53 (b * e_w s)) by (apply rnd_ge; [lia|exists 1%Z, (-2)%Z; split; [reflexivity|reflexivity]|nra]).
    apply rnd_ge; [lia|exists 5%Z, (-2)%Z; split; [reflexivity|reflexivity]|lra].
Qed.
Lemma ew_full_fold b ys : fl 53 b -> (1 # 4) <= b <= 1 -> (forall y, In y ys -> y <> None) -> forall k, (k <= length ys)%nat ->
  ew_full k (fold_left (ew_step_f b) (firstn k ys) (mkEW 0 0 0 0)).
Proof.
  intros Fb Hb Hy. induction k as [|k IH]; intro Hk.
  - cbn [firstn fold_left]. unfold ew_full. cbn [e_w e_w2]. split; [lra|]. split; [lra|]. split; reflexivity.
  - rewrite (firstn_snoc None) by lia. rewrite fold_left_app. cbn [fold_left]. destruct (nth k ys None) as [v|] eqn:E.
    + apply ew_full_step; auto. apply IH. lia.
    + exfalso. apply (Hy None); [|reflexivity]. rewrite <- E. apply nth_In. lia.
Qed.
Lemma ew_full_den k s : ew_full k s -> (0 < ew_den_f s <-> (2 <= k)%nat) /\ (0 < e_w s <-> (1 <= k)%nat).
Proof.
  intros (F1 & F2 & F3). destruct k as [|[|k]].
  - destruct F3 as [E1 E2]. split; split; intro K; try lia; [|lra]. exfalso. unfold ew_den_f in K. apply (proj1 (r53_pos_iff _)) in K.
    assert (Z : r53 (e_w2 s / e_w s) = 0) by (apply rnd_0; rewrite E2; unfold Qdiv; ring). rewrite Z in K. lra.
  - destruct F3 as [E1 E2]. split; split; intro K; try lia; [|lra]. exfalso. unfold ew_den_f in K. apply (proj1 (r53_pos_iff _)) in K.
    unfold r53 in K at 1. rewrite (rnd_comp 53 (e_w2 s / e_w s) 1) in K by (rewrite E1, E2; reflexivity). fold (r53 1) in K.
    assert (Z : r53 1 == 1) by (apply rnd_exact; [lia|exact fl_1]). rewrite Z in K. lra.
  - assert (R : r53 (e_w2 s / e_w s) <= 1) by (apply rnd_le; [lia|exact fl_1|apply Qle_shift_div_r; lra]).
    split; split; intro K; try lia; [|lra]. unfold ew_den_f. apply r53_pos_iff. lra.
Qed.
