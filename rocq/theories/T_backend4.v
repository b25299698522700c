(** T_backend4.v -- the Hurst exponent transform (C136). *)
From Verif Require Import Base M_logic M_features S_features P_weights P_features P_features2 T_features T_features2
  M_transforms S_transforms M_backend S_backend P_backend T_backend T_backend2 T_backend3.
Open Scope Q_scope.

Lemma csum_nth : forall w acc i, (i < length w)%nat -> nth i (csum acc w) 0 == acc + qsum (firstn (S i) w).
Proof.
  induction w as [|x w IH]; intros acc i Hi; [cbn in Hi; lia|]. cbn [csum]. destruct i as [|i].
  - cbn [nth firstn]. rewrite qsum_cons. change (qsum []) with 0. ring.
  - cbn [nth]. cbn in Hi. rewrite IH by lia. change (firstn (S (S i)) (x :: w)) with (x :: firstn (S i) w). rewrite qsum_cons. ring.
Qed.
Lemma csum_length : forall w acc, length (csum acc w) = length w.
Proof. induction w; intro acc; cbn; auto. Qed.
(** The differences of the price path at lag k are the sums of k consecutive returns, without the
    first return of the window. *)
Lemma lag_runs w k : (1 <= k)%nat -> length (lag_diff (csum 0 w) k) = length (runs (tl w) k) /\
  forall i, nth i (lag_diff (csum 0 w) k) 0 == nth i (runs (tl w) k) 0.
Proof.
  intro Hk. assert (L : length (lag_diff (csum 0 w) k) = length (runs (tl w) k)).
  { unfold lag_diff, runs. rewrite !map_length, !seq_length, csum_length. destruct w; cbn [length tl]; lia. }
  split; [exact L|]. intro i. destruct (le_lt_dec (length (lag_diff (csum 0 w) k)) i) as [O|O]; [rewrite !nth_overflow by lia; reflexivity|].
  assert (O2 := O). rewrite L in O2. unfold lag_diff, runs in *. rewrite map_length, seq_length in O, O2. rewrite csum_length in *.
  rewrite !nth_seq_map by auto. cbn [plus]. rewrite !csum_nth by lia.
  assert (E : firstn (S (i + k)) w = firstn (S i) w ++ firstn k (skipn i (tl w))).
  { destruct w as [|x w]; [cbn in O; lia|]. cbn [tl]. cbn [firstn app]. f_equal. rewrite Nat.add_comm.
    clear. revert w. induction i as [|i IH]; intro w; [now rewrite Nat.add_0_r|]. destruct w; [now rewrite !firstn_nil|]. rewrite Nat.add_succ_r. cbn [firstn skipn app]. now rewrite IH. }
  rewrite E, qsum_app. ring.
Qed.
(** Lists of equal numbers. *)
Definition qlist_eq (a b : list Q) : Prop := length a = length b /\ forall i, nth i a 0 == nth i b 0.
Lemma as_map (l : list Q) : l = map (fun i => nth i l 0) (seq 0 (length l)).
Proof. apply (nth_ext _ _ 0 0); [now rewrite map_length, seq_length|]. intros k Hk. now rewrite nth_map_seq. Qed.
Lemma qsum_eq a b : qlist_eq a b -> qsum a == qsum b.
Proof. intros [L H]. rewrite (as_map a), (as_map b), L. apply qsum_map_ext. intros; apply H. Qed.
Lemma qmap_eq f a b : (forall x y, x == y -> f x == f y) -> qlist_eq a b -> qlist_eq (map f a) (map f b).
Proof.
  intros F [L H]. split; [now rewrite !map_length|]. intro i. destruct (le_lt_dec (length a) i) as [O|O].
  - rewrite !nth_overflow by (rewrite map_length; lia). reflexivity.
  - rewrite (nth_indep _ 0 (f 0)) by (rewrite map_length; lia). rewrite (nth_indep (map f b) 0 (f 0)) by (rewrite map_length; lia). rewrite !map_nth. apply F, H.
Qed.
Lemma mean_eq a b : qlist_eq a b -> mean a == mean b.
Proof. intro H. unfold mean. rewrite (qsum_eq a b H). destruct H as [-> _]. reflexivity. Qed.
Lemma dev2_eq a b : qlist_eq a b -> dev2 a == dev2 b.
Proof.
  intro H. unfold dev2. transitivity (qsum (map (fun y => (y - mean a) * (y - mean a)) b)).
  - apply qsum_eq, qmap_eq; auto. intros x y E. rewrite E. reflexivity.
  - apply qsum_map_ext. intros y _. rewrite (mean_eq a b H). reflexivity.
Qed.
Lemma pvar_dev l : pvar l = dev2 l / Qnat (length l).
Proof. reflexivity. Qed.
(** Variance of the k-return sums of a window. *)
Definition spread_at (w : list Q) (k : nat) : Q := dev2 (runs (tl w) k) / Qnat (length w - k).
Lemma pvar_lag w k : (1 <= k)%nat -> pvar (lag_diff (csum 0 w) k) == spread_at w k.
Proof.
  intro Hk. rewrite pvar_dev. unfold spread_at. destruct (lag_runs w k Hk) as [L H]. rewrite (dev2_eq _ _ (conj L H)).
  assert (E : length (lag_diff (csum 0 w) k) = (length w - k)%nat) by (unfold lag_diff; now rewrite map_length, seq_length, csum_length). now rewrite E.
Qed.
Lemma taus_long sqrt w : (9 <= length w)%nat -> hurst_taus sqrt w = map (fun k => sqrt (pvar (lag_diff (csum 0 w) k))) hurst_lags.
Proof.
  intro H. unfold hurst_taus. rewrite csum_length. f_equal. unfold hurst_lags. cbn [filter].
  replace (1 <? length w)%nat with true by (symmetry; apply Nat.ltb_lt; lia). replace (2 <? length w)%nat with true by (symmetry; apply Nat.ltb_lt; lia).
  replace (4 <? length w)%nat with true by (symmetry; apply Nat.ltb_lt; lia). replace (8 <? length w)%nat with true by (symmetry; apply Nat.ltb_lt; lia). reflexivity.
Qed.
(** Points of the regression: log lag against log root of the variance. *)
Definition hurst_points (sqrt ln : Q -> Q) (w : list Q) : list (Q * Q) :=
  map (fun k => (ln (Qnat k), ln (sqrt (spread_at w k)))) hurst_lags.
Lemma is_fit_eq b pts pts' : length pts = length pts' -> (forall i, fst (nth i pts (0, 0)) == fst (nth i pts' (0, 0)) /\ snd (nth i pts (0, 0)) == snd (nth i pts' (0, 0))) ->
  is_fit b pts -> is_fit b pts'.
Proof.
  intros L H [a F]. exists a. intros a' b'.
  assert (S : forall c d, sse c d pts == sse c d pts').
  { intros c d. unfold sse. assert (AM : forall l : list (Q * Q), l = map (fun i => nth i l (0, 0)) (seq 0 (length l))).
    { intro l. apply (nth_ext _ _ (0, 0) (0, 0)); [now rewrite map_length, seq_length|]. intros k Hk. now rewrite nth_map_seq. }
    rewrite (AM pts), (AM pts'), L, !map_map. apply qsum_map_ext. intros j _. destruct (H j) as [H1 H2]. rewrite H1, H2. reflexivity. }
  rewrite <- !S. apply F.
Qed.
Lemma tau_split (sqrt : Q -> Q) w : (forall a b, a == b -> sqrt a == sqrt b) ->
  (forallb (Qltb 0) (map (fun k => sqrt (pvar (lag_diff (csum 0 w) k))) hurst_lags) = true <-> forall k, In k hurst_lags -> 0 < sqrt (spread_at w k)).
Proof.
  intro C. rewrite forallb_forall. split.
  - intros H k Hk. assert (K1 : (1 <= k)%nat) by (cbn in Hk; lia). specialize (H (sqrt (pvar (lag_diff (csum 0 w) k)))).
    rewrite <- (C _ _ (pvar_lag w k K1)). apply Qltb_iff, H, in_map_iff. now exists k.
  - intros H t Ht. apply in_map_iff in Ht. destruct Ht as [k [<- Hk]]. assert (K1 : (1 <= k)%nat) by (cbn in Hk; lia).
    apply Qltb_iff. rewrite (C _ _ (pvar_lag w k K1)). now apply H.
Qed.
Lemma hurst_window_value sqrt ln w : (9 <= length w)%nat -> (forall a b, a == b -> sqrt a == sqrt b) -> (forall a b, a == b -> ln a == ln b) -> ~ ln 1 == ln 2 ->
  (~ (forall k, In k hurst_lags -> 0 < sqrt (spread_at w k)) -> hurst_window sqrt ln w = Ok None) /\
  ((forall k, In k hurst_lags -> 0 < sqrt (spread_at w k)) ->
   exists h, hurst_window sqrt ln w = Ok (Some h) /\ is_fit h (hurst_points sqrt ln w) /\ forall h', is_fit h' (hurst_points sqrt ln w) -> h' == h).
Proof.
  intros Lw Cs Cl N. unfold hurst_window. cbv zeta. rewrite taus_long by auto. split; intro H.
  - destruct (forallb _ _) eqn:E; [|reflexivity]. exfalso. apply H. now apply (tau_split sqrt w Cs).
  - replace (forallb _ _) with true by (symmetry; now apply (tau_split sqrt w Cs)). rewrite map_length, Nat.eqb_refl.
    set (pts := map (fun k => (ln (Qnat k), ln (sqrt (pvar (lag_diff (csum 0 w) k))))) hurst_lags).
    assert (E1 : map (fun k => ln (Qnat k)) hurst_lags = map fst pts) by (unfold pts; now rewrite map_map).
    assert (E2 : map ln (map (fun k => sqrt (pvar (lag_diff (csum 0 w) k))) hurst_lags) = map snd pts) by (unfold pts; now rewrite !map_map).
    rewrite E1, E2. eexists. split; [reflexivity|].
    assert (S : spread pts).
    { exists (ln (Qnat 1), ln (sqrt (pvar (lag_diff (csum 0 w) 1)))), (ln (Qnat 2), ln (sqrt (pvar (lag_diff (csum 0 w) 2)))).
      unfold pts. split; [apply (in_map (fun k => (ln (Qnat k), ln (sqrt (pvar (lag_diff (csum 0 w) k)))))); cbn; tauto|].
      split; [apply (in_map (fun k => (ln (Qnat k), ln (sqrt (pvar (lag_diff (csum 0 w) k)))))); cbn; tauto|]. cbn [fst]. exact N. }
    destruct (ols_fit pts S) as [F U].
    assert (EQ : forall i, fst (nth i pts (0, 0)) == fst (nth i (hurst_points sqrt ln w) (0, 0)) /\ snd (nth i pts (0, 0)) == snd (nth i (hurst_points sqrt ln w) (0, 0))).
    { intro i. destruct i as [|[|[|[|i]]]]; unfold pts, hurst_points, hurst_lags; cbn [map nth fst snd]; (split; [reflexivity|]); try (apply Cl, Cs, pvar_lag; lia).
      destruct i; reflexivity. }
    split.
    + apply (is_fit_eq _ pts); auto.
    + intros h' F'. apply U. revert F'. apply is_fit_eq; [unfold pts, hurst_points; now rewrite !map_length|]. intro i. destruct (EQ i) as [A B]. split; symmetry; auto.
Qed.
(** Windows of at least 9 rows: no exception; a row has a value exactly when its window is full and
    the sums of 1, 2, 4 and 8 returns (after the first) all vary, and then it is the least squares
    slope of the log roots of their variances over the log lags. *)
Theorem C136_value : forall sqrt ln x n, (9 <= n)%nat -> (forall a b, a == b -> sqrt a == sqrt b) -> (forall a b, a == b -> ln a == ln b) -> ~ ln 1 == ln 2 ->
  exists out, hurst sqrt ln x n = Ok out /\ length out = length x /\ forall i, (i < length x)%nat ->
    let w := window (val x) i n in
    (~ full x i n -> nth i out None = None) /\
    (full x i n -> ~ (forall k, In k [1; 2; 4; 8]%nat -> 0 < sqrt (spread_at w k)) -> nth i out None = None) /\
    (full x i n -> (forall k, In k [1; 2; 4; 8]%nat -> 0 < sqrt (spread_at w k)) ->
       exists h, nth i out None = Some h /\ is_fit h (hurst_points sqrt ln w) /\ forall h', is_fit h' (hurst_points sqrt ln w) -> h' == h).
Proof.
  intros sqrt ln x n Hn Cs Cl N. unfold hurst.
  set (row := fun i => match rolling x n i with Some w => hurst_window sqrt ln w | None => Ok None end).
  assert (Lw : forall i, length (window (val x) i n) = n) by (intro; apply window_length).
  destruct (collect_exists (map row (seq 0 (length x)))) as [out E].
  { intros r Hr. apply in_map_iff in Hr. destruct Hr as [i [<- Hi]]. apply in_seq in Hi. unfold row. destruct (full_dec x i n) as [F|F].
    - rewrite rolling_full by (auto; lia). change (map (val x) (seq (i + 1 - n) n)) with (window (val x) i n).
      assert (W9 : (9 <= length (window (val x) i n))%nat) by (rewrite Lw; lia). unfold hurst_window. cbv zeta. rewrite taus_long by auto. rewrite map_length, Nat.eqb_refl.
      destruct (forallb _ _); eexists; reflexivity.
    - rewrite rolling_none by (auto; lia). eexists; reflexivity. }
  exists out. split; [exact E|]. apply (collect_ok _ _ None) in E. destruct E as [L H]. rewrite map_length, seq_length in L. split; [exact L|].
  intros i Hi. cbv zeta. set (w := window (val x) i n). assert (R : row i = Ok (nth i out None)). { specialize (H i ltac:(rewrite map_length, seq_length; lia)). rewrite nth_map_seq in H by auto. exact H. }
  assert (W9 : (9 <= length w)%nat) by (unfold w; rewrite Lw; lia).
  destruct (hurst_window_value sqrt ln w W9 Cs Cl N) as [V1 V2].
  split; [intro F; unfold row in R; rewrite rolling_none in R by auto; now injection R|].
  split; intros F K; unfold row in R; rewrite rolling_full in R by auto; change (map (val x) (seq (i + 1 - n) n)) with w in R.
  - rewrite V1 in R by auto. now injection R.
  - destruct (V2 K) as [h [Eh Fh]]. rewrite Eh in R. exists h. split; [now injection R|exact Fh].
Qed.

(** Windows 2, 3, 5 and 9: never a value (one lag leaves a single sum). *)
Theorem C136_short : forall sqrt ln x n, In n [2; 3; 5; 9]%nat -> (forall a, a == 0 -> sqrt a <= 0) -> hurst sqrt ln x n = Ok (repeat None (length x)).
Proof.
  intros sqrt ln x n Hn S0.
  assert (W : forall w, length w = n -> hurst_window sqrt ln w = Ok None).
  { intros w Lw. unfold hurst_window. cbv zeta. replace (forallb (Qltb 0) (hurst_taus sqrt w)) with false; [reflexivity|]. symmetry.
    apply not_true_iff_false. intro F. rewrite forallb_forall in F.
    assert (K : In (n - 1)%nat hurst_lags) by (cbn in Hn; unfold hurst_lags; cbn; lia).
    specialize (F (sqrt (pvar (lag_diff (csum 0 w) (n - 1))))).
    assert (T : In (sqrt (pvar (lag_diff (csum 0 w) (n - 1)))) (hurst_taus sqrt w)).
    { unfold hurst_taus. apply (in_map (fun k => sqrt (pvar (lag_diff (csum 0 w) k)))). apply filter_In. split; [exact K|]. rewrite csum_length, Lw. apply Nat.ltb_lt. cbn in Hn. lia. }
    specialize (F T). apply Qltb_iff in F.
    assert (P : pvar (lag_diff (csum 0 w) (n - 1)) == 0).
    { unfold lag_diff. rewrite csum_length, Lw. replace (n - (n - 1))%nat with 1%nat by (cbn in Hn; lia). cbn [seq map]. rewrite pvar_dev.
      set (d := nth _ _ 0 - _). rewrite (dev2_same [d] d); [reflexivity| |discriminate]. intros y [<-|[]]. reflexivity. }
    specialize (S0 _ P). lra. }
  unfold hurst. assert (R : forall m s, (s + m <= length x)%nat -> collect (map (fun i => match rolling x n i with Some w => hurst_window sqrt ln w | None => Ok None end) (seq s m)) = Ok (repeat None m)).
  { induction m as [|m IH]; intros s Hs; [reflexivity|]. cbn [seq map collect repeat]. rewrite IH by lia.
    assert (E : match rolling x n s with Some w => hurst_window sqrt ln w | None => Ok None end = Ok None).
    { destruct (full_dec x s n) as [F|F]; [|rewrite rolling_none by (auto; lia); reflexivity]. rewrite rolling_full by (auto; lia). apply W. now rewrite map_length, seq_length. }
    now rewrite E. }
  apply R. lia.
Qed.
Lemma collect_raise {A} (l : list (result A)) e : (forall x e', In x l -> x = Raise e' -> e' = e) -> In (Raise e) l -> collect l = Raise e.
Proof.
  induction l as [|x l IH]; intros U H; [destruct H|]. destruct H as [->|H]; [reflexivity|]. cbn [collect]. destruct x as [a|e'].
  - rewrite IH; auto. intros y e' Hy. apply U. now right.
  - f_equal. eapply U; [left; reflexivity|reflexivity].
Qed.
(** Windows 1, 4, 6, 7 and 8: an exception as soon as one window is full and varies. *)
Theorem C136_raises : forall sqrt ln x n i, In n [1; 4; 6; 7; 8]%nat -> (forall a b, a == b -> sqrt a == sqrt b) -> (i < length x)%nat -> full x i n ->
  (forall k, In k [1; 2; 4; 8]%nat -> (k < n)%nat -> 0 < sqrt (spread_at (window (val x) i n) k)) -> hurst sqrt ln x n = Raise TypeError.
Proof.
  intros sqrt ln x n i Hn Cs Hi F P. unfold hurst. apply collect_raise.
  - intros r e' Hr ->. apply in_map_iff in Hr. destruct Hr as [j [E _]]. destruct (rolling x n j); [|discriminate]. unfold hurst_window in E. cbv zeta in E.
    destruct (forallb _ _); [|discriminate]. destruct (length _ =? _)%nat; [discriminate|]. now injection E.
  - apply in_map_iff. exists i. split; [|apply in_seq; lia]. rewrite rolling_full by auto. change (map (val x) (seq (i + 1 - n) n)) with (window (val x) i n).
    assert (Lw : length (window (val x) i n) = n) by apply window_length. set (w := window (val x) i n) in *. clearbody w.
    unfold hurst_window. cbv zeta. replace (forallb (Qltb 0) (hurst_taus sqrt w)) with true.
    + replace (length (hurst_taus sqrt w) =? length hurst_lags)%nat with false; [reflexivity|]. symmetry. unfold hurst_taus. rewrite map_length, csum_length, Lw.
      cbn in Hn. destruct Hn as [<-|[<-|[<-|[<-|[<-|[]]]]]]; reflexivity.
    + symmetry. apply forallb_forall. intros t Ht. unfold hurst_taus in Ht. apply in_map_iff in Ht. destruct Ht as [k [<- Hk]]. apply filter_In in Hk. destruct Hk as [K1 K2].
      rewrite csum_length, Lw in K2. apply Nat.ltb_lt in K2. assert (K0 : (1 <= k)%nat) by (cbn in K1; lia). apply Qltb_iff. rewrite (Cs _ _ (pvar_lag w k K0)). now apply P.
Qed.
(** A single present value is enough with window 1. *)
Theorem C136_raises_refuted : forall sqrt ln, exists x n, (forall y, In y x -> y <> None) /\ (1 <= n <= length x)%nat /\ hurst sqrt ln x n = Raise TypeError.
Proof. intros sqrt ln. exists (map Some [1; 2]), 1%nat. split. { intros y Hy. apply in_map_iff in Hy. destruct Hy as [z [<- _]]. discriminate. } split; [cbn; lia|reflexivity]. Qed.

Lemma points_fit_shift (sqrt ln : Q -> Q) w w' d h : (forall k, In k hurst_lags -> ln (sqrt (spread_at w' k)) == d + ln (sqrt (spread_at w k))) ->
  is_fit h (hurst_points sqrt ln w) -> is_fit h (hurst_points sqrt ln w').
Proof.
  intros H [a F]. exists (a + d).
  assert (T : forall a b, sse (a + d) b (hurst_points sqrt ln w') == sse a b (hurst_points sqrt ln w)).
  { intros a0 b0. unfold sse, hurst_points. rewrite !map_map. apply qsum_map_ext. intros k Hk. cbn [fst snd]. rewrite (H k Hk). ring. }
  intros a' b'. assert (T2 : sse a' b' (hurst_points sqrt ln w') == sse (a' - d) b' (hurst_points sqrt ln w)).
  { rewrite <- T. unfold sse. apply qsum_map_ext. intros; ring. }
  rewrite T, T2. apply F.
Qed.
(** Windows whose varying sums have the same roots up to a positive factor have the same value. *)
Lemma hurst_window_eq sqrt ln w w' d : (9 <= length w)%nat -> (9 <= length w')%nat -> (forall a b, a == b -> sqrt a == sqrt b) -> (forall a b, a == b -> ln a == ln b) -> ~ ln 1 == ln 2 ->
  (forall k, In k hurst_lags -> 0 < sqrt (spread_at w' k) <-> 0 < sqrt (spread_at w k)) ->
  (forall k, In k hurst_lags -> 0 < sqrt (spread_at w k) -> ln (sqrt (spread_at w' k)) == d + ln (sqrt (spread_at w k))) ->
  exists o o', hurst_window sqrt ln w = Ok o /\ hurst_window sqrt ln w' = Ok o' /\ oeq o' o.
Proof.
  intros L L' Cs Cl N H1 H2. destruct (hurst_window_value sqrt ln w L Cs Cl N) as [A1 A2]. destruct (hurst_window_value sqrt ln w' L' Cs Cl N) as [B1 B2].
  assert (DEC : {forall k, In k hurst_lags -> 0 < sqrt (spread_at w k)} + {~ forall k, In k hurst_lags -> 0 < sqrt (spread_at w k)}).
  { destruct (forallb (Qltb 0) (map (fun k => sqrt (pvar (lag_diff (csum 0 w) k))) hurst_lags)) eqn:E.
    - left. now apply tau_split.
    - right. intro K. apply (tau_split sqrt w Cs) in K. congruence. }
  destruct DEC as [K|K].
  - assert (K' : forall k, In k hurst_lags -> 0 < sqrt (spread_at w' k)) by (intros k Hk; exact (proj2 (H1 k Hk) (K k Hk))).
    destruct (A2 K) as [h [E [F U]]]. destruct (B2 K') as [h' [E' [F' U']]]. exists (Some h), (Some h'). split; [auto|]. split; [auto|]. cbn. symmetry. apply U'.
    revert F. apply (points_fit_shift sqrt ln w w' d). intros k Hk. apply H2; auto.
  - exists None, None. split; [auto|]. split; [|exact I]. apply B1. intro K'. apply K. intros k Hk. exact (proj1 (H1 k Hk) (K' k Hk)).
Qed.
Lemma skipn_map' {A B} (f : A -> B) l i : skipn i (map f l) = map f (skipn i l).
Proof. revert l. induction i; intro l; [reflexivity|]. destruct l; [reflexivity|]. cbn. apply IHi. Qed.
Lemma runs_affine a b v k : (1 <= k)%nat -> qlist_eq (runs (map (fun y => a * y + b) v) k) (map (fun s => a * s + Qnat k * b) (runs v k)).
Proof.
  intro Hk. unfold runs. rewrite map_length, map_map. split; [now rewrite !map_length|]. intro i.
  destruct (le_lt_dec (length v + 1 - k) i) as [O|O]; [rewrite !nth_overflow by (rewrite map_length, seq_length; lia); reflexivity|].
  rewrite !nth_seq_map by auto. cbn [plus]. rewrite skipn_map', firstn_map. set (u := firstn k (skipn i v)).
  assert (Lu : length u = k) by (unfold u; rewrite firstn_length, skipn_length; lia).
  transitivity (qsum (map (fun y => a * y) u) + qsum (map (fun _ => b) u)); [rewrite <- qsum_map_plus; reflexivity|].
  rewrite qsum_map_const. fold (Qnat (length u)). rewrite Lu. assert (E : qsum (map (fun y => a * y) u) == a * qsum u) by (rewrite <- (map_id u) at 2; apply qsum_map_scal). rewrite E. ring.
Qed.
Lemma spread_affine a b w k : (1 <= k)%nat -> (k < length w)%nat -> spread_at (map (fun y => a * y + b) w) k == a * a * spread_at w k.
Proof.
  intros Hk Kn. unfold spread_at. rewrite map_length. assert (T : tl (map (fun y => a * y + b) w) = map (fun y => a * y + b) (tl w)) by (destruct w; reflexivity).
  rewrite T, (dev2_eq _ _ (runs_affine a b (tl w) k Hk)).
  assert (NE : runs (tl w) k <> []).
  { intro E. assert (length (runs (tl w) k) = 0%nat) by now rewrite E. unfold runs in H. rewrite map_length, seq_length in H. destruct w; cbn in Kn, H; lia. }
  destruct (dev_affine a (Qnat k * b) _ NE) as [D _]. rewrite D. assert (P : 0 < Qnat (length w - k)) by (apply Qnat_pos; lia). field. lra.
Qed.
(** A constant drift added to the returns, or another unit of the returns, does not change the value. *)
Theorem C136_affine : forall sqrt ln x n c b out out', (9 <= n)%nat -> 0 < c -> (forall a a', a == a' -> sqrt a == sqrt a') -> (forall a a', a == a' -> ln a == ln a') -> ~ ln 1 == ln 2 ->
  (forall i k, (i < length x)%nat -> In k [1; 2; 4; 8]%nat -> let v := spread_at (window (val x) i n) k in
     sqrt (c * c * v) == c * sqrt v /\ (0 < sqrt v -> ln (c * sqrt v) == ln c + ln (sqrt v))) ->
  hurst sqrt ln x n = Ok out -> hurst sqrt ln (map (option_map (fun y => c * y + b)) x) n = Ok out' ->
  forall i, (i < length x)%nat -> oeq (nth i out' None) (nth i out None).
Proof.
  intros sqrt ln x n c b out out' Hn Hc Cs Cl N SC E E' i Hi. set (x' := map _ x) in *. assert (Lx : length x' = length x) by apply map_length.
  assert (NX : forall j, nth j x' None = option_map (fun y => c * y + b) (nth j x None)).
  { intro j. unfold x'. change None with (option_map (fun y => c * y + b) None) at 1. apply map_nth. }
  unfold hurst in E, E'. apply (collect_ok _ _ None) in E. apply (collect_ok _ _ None) in E'. destruct E as [_ E]. destruct E' as [_ E'].
  specialize (E i ltac:(rewrite map_length, seq_length; lia)). specialize (E' i ltac:(rewrite map_length, seq_length; lia)).
  rewrite nth_map_seq in E by auto. rewrite nth_map_seq in E' by lia.
  destruct (full_dec x i n) as [F|F].
  - assert (F' : full x' i n) by (destruct F as [F0 F]; split; [auto|]; intros j J1 J2; rewrite NX; specialize (F j J1 J2); destruct (nth j x None); [discriminate|congruence]).
    rewrite rolling_full in E by auto. rewrite rolling_full in E' by (auto; lia).
    assert (W : map (val x') (seq (i + 1 - n) n) = map (fun y => c * y + b) (window (val x) i n)).
    { unfold window. rewrite map_map. apply map_ext_in. intros j Hj. apply in_seq in Hj. destruct F as [F0 F]. specialize (F j ltac:(lia) ltac:(lia)).
      unfold val. rewrite NX. destruct (nth j x None); [reflexivity|congruence]. }
    rewrite W in E'. change (map (val x) (seq (i + 1 - n) n)) with (window (val x) i n) in E. specialize (SC i). set (w := window (val x) i n) in *.
    assert (Lw : length w = n) by apply window_length.
    assert (SP : forall k, In k hurst_lags -> sqrt (spread_at (map (fun y => c * y + b) w) k) == c * sqrt (spread_at w k)).
    { intros k Hk. assert (K : (1 <= k < length w)%nat) by (rewrite Lw; cbn in Hk; lia). rewrite (Cs _ _ (spread_affine c b w k ltac:(lia) ltac:(lia))). now apply SC. }
    destruct (hurst_window_eq sqrt ln w (map (fun y => c * y + b) w) (ln c)) as [o [o' [O1 [O2 O3]]]]; auto.
    + lia.
    + rewrite map_length. lia.
    + intros k Hk. rewrite (SP k Hk). set (s := sqrt (spread_at w k)). clearbody s. split; intro; [destruct (Qlt_le_dec 0 s); [auto|nra]|nra].
    + intros k Hk P. rewrite (Cl _ _ (SP k Hk)). destruct (SC k Hi Hk) as [_ SL]. now apply SL.
    + rewrite O1 in E. rewrite O2 in E'. injection E as <-. injection E' as <-. exact O3.
  - assert (F' : ~ full x' i n) by (intros [F0 F']; apply F; split; [auto|]; intros j J1 J2 K; apply (F' j J1 J2); now rewrite NX, K).
    rewrite rolling_none in E by auto. rewrite rolling_none in E' by (auto; lia). injection E as <-. injection E' as <-. exact I.
Qed.
(** The first return of the window does not matter. *)
Theorem C136_first : forall sqrt ln x x' n i out out', (9 <= n)%nat -> (forall a a', a == a' -> sqrt a == sqrt a') -> (forall a a', a == a' -> ln a == ln a') -> ~ ln 1 == ln 2 ->
  hurst sqrt ln x n = Ok out -> hurst sqrt ln x' n = Ok out' -> (i < length x)%nat -> (i < length x')%nat -> full x i n -> full x' i n ->
  (forall j, (i + 1 < j + n)%nat -> (j <= i)%nat -> nth j x None = nth j x' None) -> oeq (nth i out' None) (nth i out None).
Proof.
  intros sqrt ln x x' n i out out' Hn Cs Cl N E E' Hi Hi' F F' A.
  unfold hurst in E, E'. apply (collect_ok _ _ None) in E. apply (collect_ok _ _ None) in E'. destruct E as [_ E]. destruct E' as [_ E'].
  specialize (E i ltac:(rewrite map_length, seq_length; lia)). specialize (E' i ltac:(rewrite map_length, seq_length; lia)).
  rewrite nth_map_seq in E by auto. rewrite nth_map_seq in E' by auto. rewrite rolling_full in E, E' by auto.
  assert (T : tl (map (val x) (seq (i + 1 - n) n)) = tl (map (val x') (seq (i + 1 - n) n))).
  { pose proof (proj1 F) as F0. destruct n as [|n]; [lia|]. cbn [seq map tl]. apply map_ext_in. intros j Hj. apply in_seq in Hj. unfold val. rewrite A by lia. reflexivity. }
  set (w := map (val x) _) in *. set (w' := map (val x') _) in *.
  assert (Lw : length w = n) by (unfold w; now rewrite map_length, seq_length). assert (Lw' : length w' = n) by (unfold w'; now rewrite map_length, seq_length).
  assert (SP : forall k, spread_at w' k = spread_at w k) by (intro k; unfold spread_at; now rewrite T, Lw, Lw').
  destruct (hurst_window_eq sqrt ln w w' 0) as [o [o' [O1 [O2 O3]]]]; auto; try lia.
  - intros k _. rewrite SP. tauto.
  - intros k _ _. rewrite SP. ring.
  - rewrite O1 in E. rewrite O2 in E'. injection E as <-. injection E' as <-. exact O3.
Qed.
(** Ten returns, one unusual: the variances of the sums and a value; the same with a drift added. *)
Definition ex_hurst : list (option Q) := map Some [9; 1; 0; 0; 0; 0; 0; 0; 0; 0].
Example C136_example : map (fun k => Qred (spread_at (window (val ex_hurst) 9 10) k)) [1; 2; 4; 8]%nat = [8 # 81; 7 # 64; 5 # 36; 1 # 4] /\
  full ex_hurst 9 10 /\ (forall k, In k [1; 2; 4; 8]%nat -> 0 < spread_at (window (val ex_hurst) 9 10) k) /\
  match hurst (fun q => q) (fun q => q - 1) ex_hurst 10 with
  | Ok l => map (option_map Qred) l = repeat None 9 ++ [Some (Qred (ols [1; 2; 4; 8] [8 # 81; 7 # 64; 5 # 36; 1 # 4]))] | Raise _ => False end /\
  match hurst (fun q => q) (fun q => q - 1) (map (option_map (fun y => 1 * y + 3)) ex_hurst) 10 with
  | Ok l => map (option_map Qred) l = repeat None 9 ++ [Some (Qred (ols [1; 2; 4; 8] [8 # 81; 7 # 64; 5 # 36; 1 # 4]))] | Raise _ => False end /\
  (forall v, 1 * 1 * v == 1 * v /\ (0 < v -> 1 * v - 1 == (1 - 1) + (v - 1))) /\
  hurst (fun q => q) (fun q => q) ex_hurst 4 = Raise TypeError /\ hurst (fun q => q) (fun q => q) ex_hurst 5 = Ok (repeat None 10).
Proof.
  split; [vm_compute; reflexivity|]. split. { apply complete_full; [apply complete_map|cbn; lia|lia]. }
  split. { intros k Hk. cbn in Hk. destruct Hk as [<-|[<-|[<-|[<-|[]]]]]; vm_compute; reflexivity. }
  split; [vm_compute; reflexivity|]. split; [vm_compute; reflexivity|]. split; [intro v; split; [ring|intros _; ring]|]. split; vm_compute; reflexivity.
Qed.

Print Assumptions C136_value.
Print Assumptions C136_short.
Print Assumptions C136_raises.
Print Assumptions C136_raises_refuted.
Print Assumptions C136_affine.
Print Assumptions C136_first.
