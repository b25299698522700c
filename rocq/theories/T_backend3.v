(** T_backend3.v -- least squares and the trend slope transform (C135). *)
From Verif Require Import Base M_logic M_features S_features P_weights P_features P_features2 T_features T_features2
  M_transforms S_transforms M_backend S_backend P_backend T_backend T_backend2.
Open Scope Q_scope.

(* ------------------------------------------------------------------ *)
(** ** Least squares *)

Lemma cross_pts (pts : list (Q * Q)) : pts <> [] ->
  cross (map fst pts) (map snd pts) == qsum (map (fun p => fst p * snd p) pts) - Qnat (length pts) * (mean (map fst pts) * mean (map snd pts)).
Proof.
  intro Hl. unfold cross. set (a := mean (map fst pts)). set (c := mean (map snd pts)).
  assert (CB : combine (map fst pts) (map snd pts) = pts) by (clear; induction pts as [|[x y] l IH]; [reflexivity|cbn; now rewrite IH]).
  rewrite CB.
  assert (P : 0 < Qnat (length pts)) by (apply Qnat_pos; destruct pts; [congruence|cbn; lia]).
  assert (A : qsum (map fst pts) == a * Qnat (length pts)) by (unfold a, mean; rewrite map_length; field; lra).
  assert (C : qsum (map snd pts) == c * Qnat (length pts)) by (unfold c, mean; rewrite map_length; field; lra).
  assert (E : qsum (map (fun p => (fst p - a) * (snd p - c)) pts) ==
              qsum (map (fun p => fst p * snd p) pts) + (-c) * qsum (map fst pts) + (-a) * qsum (map snd pts) + qsum (map (fun _ => a * c) pts)).
  { rewrite <- !qsum_map_scal, <- !qsum_map_plus. apply qsum_map_ext. intros j _. ring. }
  rewrite E, A, C, qsum_map_const. fold (Qnat (length pts)). ring.
Qed.
Lemma sse_expand a b pts : sse a b pts == qsum (map (fun p => snd p * snd p) pts) - 2 * a * qsum (map snd pts) - 2 * b * qsum (map (fun p => fst p * snd p) pts)
  + Qnat (length pts) * (a * a) + 2 * a * b * qsum (map fst pts) + b * b * qsum (map (fun p => fst p * fst p) pts).
Proof.
  unfold sse. induction pts as [|[x y] l IH]; [cbn [map length]; change (qsum []) with 0; change (Qnat 0) with 0; ring|]. cbn [map length]. rewrite !qsum_cons, Qnat_S, IH. cbn [fst snd]. ring.
Qed.
(** Two of the points have different abscissae. *)
Definition spread (pts : list (Q * Q)) : Prop := exists p q, In p pts /\ In q pts /\ ~ fst p == fst q.
Lemma line_sq a b (pts : list (Q * Q)) : qsum (map (fun p => (a + b * fst p) * (a + b * fst p)) pts) == Qnat (length pts) * (a * a) + 2 * a * b * qsum (map fst pts) + b * b * qsum (map (fun p => fst p * fst p) pts).
Proof. induction pts as [|[x y] l IH]; [cbn [map length]; change (qsum []) with 0; change (Qnat 0) with 0; ring|]. cbn [map length]. rewrite !qsum_cons, Qnat_S, IH. cbn [fst snd]. ring. Qed.
(** The normal equations give a best line, and every best line has that slope. *)
Lemma normal_fit a b pts : Qnat (length pts) * a + b * qsum (map fst pts) == qsum (map snd pts) ->
  a * qsum (map fst pts) + b * qsum (map (fun p => fst p * fst p) pts) == qsum (map (fun p => fst p * snd p) pts) ->
  is_fit b pts /\ (spread pts -> forall b', is_fit b' pts -> b' == b).
Proof.
  intros N1 N2. assert (D : forall a' b', sse a' b' pts == sse a b pts + qsum (map (fun p => ((a' - a) + (b' - b) * fst p) * ((a' - a) + (b' - b) * fst p)) pts)).
  { intros a' b'. rewrite line_sq, !sse_expand, <- N1, <- N2. ring. }
  assert (NN : forall a' b', 0 <= qsum (map (fun p => ((a' - a) + (b' - b) * fst p) * ((a' - a) + (b' - b) * fst p)) pts)).
  { intros a' b'. apply qsum_nonneg. intros y Hy. apply in_map_iff in Hy. destruct Hy as [x [<- _]]. apply sq_nonneg. }
  split.
  - exists a. intros a' b'. rewrite (D a' b'). specialize (NN a' b'). lra.
  - intros [p [q [Hp [Hq NE]]]] b' [a' F]. specialize (F a b). rewrite D in F.
    assert (Z : forall r, In r pts -> (a' - a) + (b' - b) * fst r == 0).
    { intros r Hr. apply sq_zero. apply (qsum_zero_all (map (fun p => ((a' - a) + (b' - b) * fst p) * ((a' - a) + (b' - b) * fst p)) pts)); [|lra|].
      - intros y Hy. apply in_map_iff in Hy. destruct Hy as [x [<- _]]. apply sq_nonneg.
      - apply in_map_iff. now exists r. }
    pose proof (Z p Hp) as Z1. pose proof (Z q Hq) as Z2. assert (E : (b' - b) * (fst p - fst q) == 0) by lra.
    apply Qmult_integral in E. destruct E as [E|E]; [lra|]. exfalso. apply NE. lra.
Qed.
Lemma dev2_cross l : cross l l = dev2 l.
Proof. unfold cross, dev2. f_equal. generalize (mean l). intro m. induction l as [|x l IH]; [reflexivity|]. cbn. now rewrite IH. Qed.
Lemma spread_dev pts : spread pts -> 0 < dev2 (map fst pts).
Proof.
  intros [p [q [Hp [Hq NE]]]]. pose proof (dev2_nonneg (map fst pts)) as N. destruct (Qeq_dec (dev2 (map fst pts)) 0) as [Z|Z]; [|lra].
  exfalso. apply NE. rewrite (dev2_zero _ (fst p) Z), (dev2_zero _ (fst q) Z); [reflexivity| |]; now apply in_map.
Qed.
Lemma ols_pts pts : ols (map fst pts) (map snd pts) = (cross (map fst pts) (map snd pts) / Qnat (length pts)) / (dev2 (map fst pts) / Qnat (length pts)).
Proof. unfold ols, cross, dev2, mean. rewrite !map_length. reflexivity. Qed.
Lemma ols_slope pts : spread pts -> ols (map fst pts) (map snd pts) * dev2 (map fst pts) == cross (map fst pts) (map snd pts).
Proof.
  intro S. pose proof (spread_dev pts S) as D. assert (Hl : pts <> []) by (destruct S as [p [q [H _]]]; intro E; rewrite E in H; destruct H).
  assert (P : 0 < Qnat (length pts)) by (apply Qnat_pos; destruct pts; [congruence|cbn; lia]).
  rewrite ols_pts. field. split; lra.
Qed.
Lemma ols_fit pts : spread pts -> is_fit (ols (map fst pts) (map snd pts)) pts /\ forall b, is_fit b pts -> b == ols (map fst pts) (map snd pts).
Proof.
  intro S. pose proof (spread_dev pts S) as D. pose proof (ols_slope pts S) as E. set (b := ols _ _) in *.
  assert (Hl : pts <> []) by (destruct S as [p [q [H _]]]; intro K; rewrite K in H; destruct H).
  assert (P : 0 < Qnat (length pts)) by (apply Qnat_pos; destruct pts; [congruence|cbn; lia]).
  assert (DX : dev2 (map fst pts) == qsum (map (fun p => fst p * fst p) pts) - Qnat (length pts) * (mean (map fst pts) * mean (map fst pts))).
  { rewrite <- dev2_cross. pose proof (cross_pts (map (fun p => (fst p, fst p)) pts)) as C. rewrite !map_map, map_length in C. cbn [fst snd] in C. apply C. intro K. apply Hl. destruct pts; [auto|discriminate]. }
  rewrite (cross_pts pts Hl), DX in E.
  assert (A : qsum (map fst pts) == mean (map fst pts) * Qnat (length pts)) by (unfold mean; rewrite map_length; field; lra).
  assert (C : qsum (map snd pts) == mean (map snd pts) * Qnat (length pts)) by (unfold mean; rewrite map_length; field; lra).
  clearbody b. set (mx := mean (map fst pts)) in *. set (my := mean (map snd pts)) in *. clearbody mx my.
  assert (E' : qsum (map (fun p => fst p * snd p) pts) == b * qsum (map (fun p => fst p * fst p) pts) - b * (Qnat (length pts) * (mx * mx)) + Qnat (length pts) * (mx * my)) by lra.
  destruct (normal_fit (my - b * mx) b pts) as [F1 F2].
  - rewrite A, C. ring.
  - rewrite A, E'. ring.
  - split; [exact F1|now apply F2].
Qed.

(* ------------------------------------------------------------------ *)
(** ** C135: TrendSlope *)

(** The points (position in the window, log price). *)
Definition log_points (ln : Q -> Q) (x : list (option Q)) (i n : nat) : list (Q * Q) :=
  map (fun k => (Qnat k, ln (val x (i + 1 - n + k)%nat))) (seq 0 n).
Lemma points_spread ln x i n : (2 <= n)%nat -> spread (log_points ln x i n).
Proof.
  intro Hn. exists (Qnat 0, ln (val x (i + 1 - n + 0)%nat)), (Qnat 1, ln (val x (i + 1 - n + 1)%nat)). unfold log_points.
  split; [apply (in_map (fun k => (Qnat k, ln (val x (i + 1 - n + k)%nat)))), in_seq; lia|].
  split; [apply (in_map (fun k => (Qnat k, ln (val x (i + 1 - n + k)%nat)))), in_seq; lia|]. cbn. intro H. discriminate H.
Qed.
Lemma seq_shift_map a n : seq a n = map (fun k => (a + k)%nat) (seq 0 n).
Proof. apply (nth_ext _ _ 0%nat 0%nat); [now rewrite map_length, !seq_length|]. intros k Hk. rewrite seq_length in Hk. rewrite nth_seq_map by auto. now rewrite seq_nth. Qed.
Lemma trend_row ln angle x n i : (2 <= n)%nat -> (i < length x)%nat ->
  (priced x i n -> nth i (trend_slope ln angle x n) None = Some (angle (ols (map fst (log_points ln x i n)) (map snd (log_points ln x i n))))) /\
  (~ priced x i n -> nth i (trend_slope ln angle x n) None = None).
Proof.
  intros Hn Hi. unfold trend_slope. rewrite nth_map_seq by auto. assert (Hi' : (i < length (map (log_price ln) x))%nat) by now rewrite map_length.
  assert (N : forall j, nth j (map (log_price ln) x) None = log_price ln (nth j x None)).
  { intro j. change None with (log_price ln None) at 1. apply map_nth. }
  split; intro F.
  - assert (FF : full (map (log_price ln) x) i n).
    { destruct F as [F0 F]. split; [auto|]. intros j J1 J2. rewrite N. destruct (F j J1 J2) as [v [-> V]]. cbn. destruct (Qltb_spec 0 v); [discriminate|lra]. }
    rewrite rolling_full by auto. replace (n <? 2)%nat with false by (symmetry; apply Nat.ltb_ge; lia). do 2 f_equal.
    unfold log_points. rewrite !map_map. cbn [fst snd]. f_equal. rewrite (seq_shift_map (i + 1 - n) n), map_map. apply map_ext_in. intros k Hk. apply in_seq in Hk.
    destruct F as [F0 F]. destruct (F (i + 1 - n + k)%nat ltac:(lia) ltac:(lia)) as [v [E V]]. unfold val. rewrite N, E. cbn. destruct (Qltb_spec 0 v); [reflexivity|lra].
  - rewrite rolling_none; auto. intros [F0 FF]. apply F. split; [auto|]. intros j J1 J2. specialize (FF j J1 J2). rewrite N in FF.
    destruct (nth j x None) as [v|]; cbn in FF; [|congruence]. exists v. split; [auto|]. destruct (Qltb_spec 0 v); [auto|congruence].
Qed.
(** The value is the angle of the line with the least squared error through the last n log prices;
    missing exactly when one of them has no positive price. *)
Theorem C135_value : forall ln angle x n i, (2 <= n)%nat -> (i < length x)%nat ->
  let out := nth i (trend_slope ln angle x n) None in
  (~ priced x i n -> out = None) /\
  (priced x i n -> exists s, out = Some (angle s) /\ is_fit s (log_points ln x i n) /\ forall s', is_fit s' (log_points ln x i n) -> s' == s).
Proof.
  intros ln angle x n i Hn Hi out. destruct (trend_row ln angle x n i Hn Hi) as [A B]. split; [exact B|]. intro F.
  eexists. split; [now apply A|]. apply ols_fit, points_spread; auto.
Qed.
(** Log prices on a line: its slope. *)
Theorem C135_exact : forall ln angle x n i a b, (2 <= n)%nat -> (i < length x)%nat -> priced x i n ->
  (forall k, (k < n)%nat -> ln (val x (i + 1 - n + k)%nat) == a + b * Qnat k) ->
  exists s, nth i (trend_slope ln angle x n) None = Some (angle s) /\ s == b.
Proof.
  intros ln angle x n i a b Hn Hi F L. destruct (C135_value ln angle x n i Hn Hi) as [_ V]. destruct (V F) as [s [E [_ U]]].
  exists s. split; [exact E|]. symmetry. apply U. exists a. intros a' b'.
  assert (Z : sse a b (log_points ln x i n) == 0).
  { unfold sse, log_points. rewrite map_map. cbn [fst snd]. rewrite (qsum_map_ext _ (fun _ => 0)).
    - rewrite qsum_map_const. ring.
    - intros k Hk. apply in_seq in Hk. rewrite L by lia. ring. }
  rewrite Z. unfold sse. apply qsum_nonneg. intros y Hy. apply in_map_iff in Hy. destruct Hy as [p [<- _]]. apply sq_nonneg.
Qed.
Lemma mean_seq n : (1 <= n)%nat -> 2 * mean (map Qnat (seq 0 n)) == Qnat n - 1.
Proof.
  intro Hn. assert (P : 0 < Qnat n) by (apply Qnat_pos; lia).
  assert (S : 2 * qsum (map Qnat (seq 0 n)) == Qnat n * (Qnat n - 1)).
  { clear. induction n as [|n IH]; [reflexivity|]. rewrite seq_S, map_app, qsum_app. cbn [map plus]. rewrite qsum_cons. rewrite Qnat_S. change (qsum []) with 0.
    setoid_replace (2 * (qsum (map Qnat (seq 0 n)) + (Qnat n + 0))) with (2 * qsum (map Qnat (seq 0 n)) + 2 * Qnat n) by ring. rewrite IH. ring. }
  unfold mean. rewrite map_length, seq_length. setoid_replace (2 * (qsum (map Qnat (seq 0 n)) / Qnat n)) with (2 * qsum (map Qnat (seq 0 n)) / Qnat n) by (field; lra).
  rewrite S. field. lra.
Qed.
(** Rising log prices have a positive slope, falling ones a negative slope. *)
Lemma slope_up ln x i n : (2 <= n)%nat -> (forall j k, (j < k < n)%nat -> ln (val x (i + 1 - n + j)%nat) < ln (val x (i + 1 - n + k)%nat)) ->
  0 < cross (map fst (log_points ln x i n)) (map snd (log_points ln x i n)).
Proof.
  intros Hn Up. set (y := fun k => ln (val x (i + 1 - n + k)%nat)). unfold log_points. rewrite !map_map. cbn [fst snd].
  change (map (fun k => ln (val x (i + 1 - n + k)%nat)) (seq 0 n)) with (map y (seq 0 n)). change (map (fun k => Qnat k) (seq 0 n)) with (map Qnat (seq 0 n)).
  rewrite cross_fun. pose proof (mean_seq n ltac:(lia)) as M. set (m := mean (map Qnat (seq 0 n))) in *. set (my := mean (map y (seq 0 n))).
  assert (DS : qsum (map (fun j => Qnat j - m) (seq 0 n)) == 0).
  { pose proof (dev_sum (map Qnat (seq 0 n))) as D. rewrite map_map in D. apply D. destruct n; [lia|discriminate]. }
  set (c := ((n - 1) / 2)%nat).
  assert (E : qsum (map (fun j => (Qnat j - m) * (y j - my)) (seq 0 n)) == qsum (map (fun j => (Qnat j - m) * (y j - y c)) (seq 0 n))).
  { assert (E1 : qsum (map (fun j => (Qnat j - m) * (y j - my)) (seq 0 n)) == qsum (map (fun j => (Qnat j - m) * (y j - y c)) (seq 0 n)) + (y c - my) * qsum (map (fun j => Qnat j - m) (seq 0 n))).
    { rewrite <- qsum_map_scal, <- qsum_map_plus. apply qsum_map_ext. intros; ring. }
    rewrite E1, DS. ring. }
  rewrite E. clear E. clearbody m.
  assert (C : (2 * c <= n - 1 < 2 * c + 2)%nat).
  { unfold c. pose proof (Nat.div_mod (n - 1) 2 ltac:(lia)). pose proof (Nat.mod_upper_bound (n - 1) 2 ltac:(lia)). lia. }
  assert (QN : Qnat n == Qnat (n - 1) + 1) by (rewrite <- Qnat_S; replace (S (n - 1)) with n by lia; reflexivity).
  assert (U : forall j, (j < n)%nat -> 0 <= (Qnat j - m) * (y j - y c)).
  { intros j Hj. destruct (lt_eq_lt_dec j c) as [[K|K]|K].
    - assert (y j < y c) by (apply Up; lia). assert (Qnat j <= Qnat c - 1). { pose proof (Qnat_le (S j) c ltac:(lia)) as L. rewrite Qnat_S in L. lra. }
      pose proof (Qnat_le (c + c) (n - 1) ltac:(lia)) as L. rewrite Qnat_plus in L. assert (Qnat j - m <= 0) by lra. nra.
    - subst j. setoid_replace ((Qnat c - m) * (y c - y c)) with 0 by ring. lra.
    - assert (y c < y j) by (apply Up; lia). pose proof (Qnat_le (S (n - 1)) (j + j) ltac:(lia)) as L. rewrite Qnat_S, Qnat_plus in L. assert (0 <= Qnat j - m) by lra. nra. }
  assert (S : seq 0 n = seq 0 (n - 1) ++ [(n - 1)%nat]) by (replace n with (S (n - 1)) at 1 by lia; now rewrite seq_S).
  rewrite S, map_app, qsum_app. cbn [map]. rewrite qsum_cons. change (qsum []) with 0.
  assert (A : 0 <= qsum (map (fun j => (Qnat j - m) * (y j - y c)) (seq 0 (n - 1)))).
  { apply qsum_nonneg. intros z Hz. apply in_map_iff in Hz. destruct Hz as [j [<- Hj]]. apply in_seq in Hj. apply U. lia. }
  assert (B : 0 < (Qnat (n - 1) - m) * (y (n - 1)%nat - y c)).
  { assert (y c < y (n - 1)%nat) by (apply Up; lia). pose proof (Qnat_le 1 (n - 1) ltac:(lia)) as L. change (Qnat 1) with 1 in L. assert (0 < Qnat (n - 1) - m) by lra. nra. }
  lra.
Qed.
Theorem C135_rising : forall ln angle x n i, (2 <= n)%nat -> (i < length x)%nat -> priced x i n ->
  (forall a b, 0 < a < b -> ln a < ln b) -> (forall j, (i < j + n)%nat -> (j < i)%nat -> val x j < val x (S j)) ->
  exists s, nth i (trend_slope ln angle x n) None = Some (angle s) /\ 0 < s.
Proof.
  intros ln angle x n i Hn Hi F Ml Up. destruct (trend_row ln angle x n i Hn Hi) as [A _]. eexists. split; [now apply A|].
  pose proof (points_spread ln x i n Hn) as SP. pose proof (ols_slope _ SP) as E. pose proof (spread_dev _ SP) as D.
  assert (C : 0 < cross (map fst (log_points ln x i n)) (map snd (log_points ln x i n))).
  { apply slope_up; auto. assert (UU : forall k j, (j < k < n)%nat -> 0 < val x (i + 1 - n + j)%nat < val x (i + 1 - n + k)%nat).
    { induction k as [|k IH]; intros j Hj; [lia|]. destruct F as [F0 F].
      destruct (F (i + 1 - n + j)%nat ltac:(lia) ltac:(lia)) as [v [Ev V]]. assert (PJ : 0 < val x (i + 1 - n + j)%nat) by (unfold val; now rewrite Ev).
      pose proof (Up (i + 1 - n + k)%nat ltac:(lia) ltac:(lia)) as St. replace (S (i + 1 - n + k)) with (i + 1 - n + S k)%nat in St by lia.
      destruct (Nat.eq_dec j k) as [->|K]; [split; auto|]. specialize (IH j ltac:(lia)). split; [auto|lra]. }
    intros j k Hjk. apply Ml. now apply UU. }
  set (s := ols _ _) in *. clearbody s. rewrite <- E in C. destruct (Qlt_le_dec 0 s) as [K|K]; [auto|]. nra.
Qed.
(** Changing the unit of the price does not change it. *)
Theorem C135_scale : forall ln angle c x n i, 0 < c -> (2 <= n)%nat -> (forall a b, a == b -> angle a == angle b) ->
  (forall v, In (Some v) x -> 0 < v -> ln (c * v) == ln c + ln v) ->
  oeq (nth i (trend_slope ln angle (map (option_map (Qmult c)) x) n) None) (nth i (trend_slope ln angle x n) None).
Proof.
  intros ln angle c x n i Hc Hn An Sc. destruct (le_lt_dec (length x) i) as [L|L].
  { rewrite !nth_overflow by (unfold trend_slope; rewrite !map_length, seq_length, ?map_length; lia). exact I. }
  set (x' := map _ x). assert (L' : (i < length x')%nat) by (unfold x'; now rewrite map_length).
  assert (N : forall j, nth j x' None = option_map (Qmult c) (nth j x None)).
  { intro j. unfold x'. change None with (option_map (Qmult c) None) at 1. apply map_nth. }
  assert (PR : priced x' i n <-> priced x i n).
  { split; intros [F0 F]; (split; [auto|]); intros j J1 J2; destruct (F j J1 J2) as [v [E V]].
    - rewrite N in E. destruct (nth j x None) as [u|]; [|discriminate]. injection E as <-. exists u. split; [auto|]. destruct (Qlt_le_dec 0 u); [auto|nra].
    - exists (c * v). rewrite N, E. split; [reflexivity|nra]. }
  destruct (C135_value ln angle x n i Hn L) as [A1 A2]. destruct (C135_value ln angle x' n i Hn L') as [B1 B2].
  assert (DEC : {priced x i n} + {~ priced x i n}).
  { destruct (full_dec (map (log_price ln) x) i n) as [K|K].
    - left. destruct K as [F0 K]. split; [auto|]. intros j J1 J2. specialize (K j J1 J2).
      assert (M : nth j (map (log_price ln) x) None = log_price ln (nth j x None)) by (change None with (log_price ln None) at 1; apply map_nth).
      rewrite M in K. destruct (nth j x None) as [v|]; cbn in K; [|congruence]. exists v. split; [auto|]. destruct (Qltb_spec 0 v); [auto|congruence].
    - right. intros [F0 F]. apply K. split; [auto|]. intros j J1 J2.
      assert (M : nth j (map (log_price ln) x) None = log_price ln (nth j x None)) by (change None with (log_price ln None) at 1; apply map_nth).
      rewrite M. destruct (F j J1 J2) as [v [-> V]]. cbn. destruct (Qltb_spec 0 v); [discriminate|lra]. }
  destruct DEC as [F|F]; [|rewrite A1, B1; [exact I| |auto]; intro K; apply F; now apply PR].
  destruct (A2 F) as [s [-> [Fs Us]]]. destruct (B2 ltac:(now apply PR)) as [s' [-> [Fs' Us']]]. cbn. apply An. symmetry. apply Us'.
  destruct Fs as [a Fa]. exists (a + ln c). intros a' b'.
  assert (T : forall a b, sse (a + ln c) b (log_points ln x' i n) == sse a b (log_points ln x i n)).
  { intros a0 b0. unfold sse, log_points. rewrite !map_map. apply qsum_map_ext. intros k Hk. apply in_seq in Hk. cbn [fst snd].
    destruct F as [F0 F]. destruct (F (i + 1 - n + k)%nat ltac:(lia) ltac:(lia)) as [v [E V]]. unfold val. rewrite N, E. cbn [option_map].
    rewrite Sc; [ring| |auto]. rewrite <- E. apply nth_In. lia. }
  assert (T2 : sse a' b' (log_points ln x' i n) == sse (a' - ln c) b' (log_points ln x i n)).
  { rewrite <- T. unfold sse. apply qsum_map_ext. intros; ring. }
  rewrite T, T2. apply Fa.
Qed.
Definition ex_ln (q : Q) : Q := if Qeqb q 2 then 1 else if Qeqb q 4 then 2 else if Qeqb q 8 then 3 else 0.
Example C135_example : map (option_map Qred) (trend_slope ex_ln (fun q => q) (map Some [1; 2; 4; 8; 4; -1; 2; 4]) 3) =
    [None; None; Some 1; Some 1; Some 0; None; None; None] /\
  priced (map Some [1; 2; 4; 8]) 3 3 /\ (forall k, (k < 3)%nat -> ex_ln (val (map Some [1; 2; 4; 8]) (3 + 1 - 3 + k)%nat) == 1 + 1 * Qnat k) /\
  (forall j, (3 < j + 3)%nat -> (j < 3)%nat -> val (map Some [1; 2; 4; 8]) j < val (map Some [1; 2; 4; 8]) (S j)) /\
  ex_ln (2 * 2) == ex_ln 2 + ex_ln 2.
Proof.
  split; [vm_compute; reflexivity|]. split. { split; [lia|]. intros j J1 J2. destruct j as [|[|[|[|j]]]]; try lia; eexists; (split; [reflexivity|]); reflexivity. }
  split. { intros k Hk. destruct k as [|[|[|k]]]; try lia; reflexivity. }
  split; [|reflexivity]. intros j J1 J2. destruct j as [|[|[|j]]]; try lia; reflexivity.
Qed.

Print Assumptions C135_value.
Print Assumptions C135_exact.
Print Assumptions C135_rising.
Print Assumptions C135_scale.
