(** T_cusumtest.v -- properties of the CUSUM test (feature/core/structural_break/cusum.py). *)
From Verif Require Import Base M_features S_features P_weights P_features P_features2 M_cusumtest M_transforms S_transforms.
Open Scope Q_scope.

Lemma pmax_Qmax x : pmax 0 x == Qmax 0 x.
Proof. unfold pmax. destruct (Q.max_spec 0 x) as [[H ->]|[H ->]]; destruct (Qltb_spec 0 x); lra. Qed.
Lemma pmin_Qmax x : - pmin 0 x == Qmax 0 (- x).
Proof. unfold pmin. destruct (Q.max_spec 0 (- x)) as [[H ->]|[H ->]]; destruct (Qltb_spec x 0); lra. Qed.
Lemma Qmax0_nonneg x : 0 <= Qmax 0 x.
Proof. apply Q.le_max_l. Qed.

Lemma sup_start f crit lo u : u == f lo -> first_sup f crit lo lo u (crit lo).
Proof.
  intro E. exists lo. split; [lia|]. split; [auto|]. split; [auto|]. split; intros m Hm; [|lia].
  replace m with lo by lia. lra.
Qed.
Lemma sup_ext f crit lo hi v c u : (lo <= hi)%nat -> first_sup f crit lo hi v c -> u == f (S hi) ->
  first_sup f crit lo (S hi) (if Qltb v u then u else v) (if Qltb v u then crit (S hi) else c).
Proof.
  intros Hl [n [Hn [Ev [Ec [Hs Hf]]]]] Eu. destruct (Qltb_spec v u) as [K|K].
  - exists (S hi). split; [lia|]. split; [auto|]. split; [auto|]. split; intros m Hm.
    + destruct (Nat.eq_dec m (S hi)) as [->|]; [lra|]. specialize (Hs m ltac:(lia)). lra.
    + specialize (Hs m ltac:(lia)). lra.
  - exists n. split; [lia|]. split; [auto|]. split; [auto|]. split; intros m Hm.
    + destruct (Nat.eq_dec m (S hi)) as [->|]; [lra|]. apply Hs. lia.
    + apply Hf. lia.
Qed.

Lemma cs_step_eq sqrt ln y t sigma s n : (1 # 10000000000000000) < sigma * sqrt (Qnat (t - n)) ->
  exists u d, u == rise_stat sqrt (at_ y) sigma t n /\ d == fall_stat sqrt (at_ y) sigma t n /\
    cs_step sqrt ln y t sigma s n =
      mkCS (if Qltb (c_up s) u then u else c_up s) (if Qltb (c_dn s) d then d else c_dn s)
           (if Qltb (c_up s) u then crit_value sqrt ln t n else c_cu s)
           (if Qltb (c_dn s) d then crit_value sqrt ln t n else c_cd s).
Proof.
  intro H. unfold cs_step. destruct (Qleb_spec (sigma * sqrt (Qnat (t - n))) (1 # 10000000000000000)); [lra|].
  exists (pmax 0 (qn y t - qn y n) / (sigma * sqrt (Qnat (t - n)))), (- pmin 0 (qn y t - qn y n) / (sigma * sqrt (Qnat (t - n)))).
  split; [|split].
  3:{ cbv zeta. change (crit_value sqrt ln t n) with (cs_crit sqrt ln t n).
      destruct (Qltb (c_up s) _); destruct (Qltb (c_dn s) _); reflexivity. }
  - unfold rise_stat. rewrite pmax_Qmax. reflexivity.
  - unfold fall_stat. rewrite pmin_Qmax. change (qn y) with (at_ y).
    assert (E : - (at_ y t - at_ y n) == at_ y n - at_ y t) by ring. rewrite E. reflexivity.
Qed.
Lemma stat_nonneg sqrt y sigma t n : 0 < sigma * sqrt (Qnat (t - n)) -> 0 <= rise_stat sqrt y sigma t n /\ 0 <= fall_stat sqrt y sigma t n.
Proof.
  intro H. unfold rise_stat, fall_stat. split; apply Qle_shift_div_l; auto; rewrite Qmult_0_l; apply Qmax0_nonneg.
Qed.
Lemma cs_fold sqrt ln y t sigma k : (1 <= k)%nat ->
  (forall n, (1 <= n <= k)%nat -> (1 # 10000000000000000) < sigma * sqrt (Qnat (t - n))) ->
  let s := fold_left (cs_step sqrt ln y t sigma) (seq 1 k) cs_init in
  first_sup (rise_stat sqrt (at_ y) sigma t) (crit_value sqrt ln t) 1 k (c_up s) (c_cu s) /\
  first_sup (fall_stat sqrt (at_ y) sigma t) (crit_value sqrt ln t) 1 k (c_dn s) (c_cd s).
Proof.
  cbv zeta. induction k as [|k IH]; intros Hk Hd; [lia|]. rewrite seq_S, fold_left_app. cbn [fold_left].
  replace (1 + k)%nat with (S k) by lia.
  set (s := fold_left _ _ _) in *.
  destruct (cs_step_eq sqrt ln y t sigma s (S k) (Hd (S k) ltac:(lia))) as [u [d [Eu [Ed ->]]]]. cbn [c_up c_dn c_cu c_cd].
  destruct k as [|k].
  - cbn in s. subst s. cbn [c_up c_dn c_cu c_cd cs_init].
    assert (P : 0 < sigma * sqrt (Qnat (t - 1))) by (specialize (Hd 1%nat ltac:(lia)); lra).
    destruct (stat_nonneg sqrt (at_ y) sigma t 1 P) as [N1 N2].
    destruct (Qltb_spec (-(1 # 1000000)) u); [|lra]. destruct (Qltb_spec (-(1 # 1000000)) d); [|lra].
    split; now apply sup_start.
  - destruct IH as [I1 I2]; [lia|intros; apply Hd; lia|]. split; apply sup_ext; auto; lia.
Qed.

(* ------------------------------------------------------------------ *)
(** ** C110: the statistics are suprema over the start points 1..t-2 *)
Theorem C110_suprema : forall sqrt ln y t sigma, (3 <= t)%nat -> 0 < sigma ->
  (forall n, (1 <= n <= t - 2)%nat -> (1 # 10000000000000000) < sigma * sqrt (Qnat (t - n))) ->
  let s := comp_max_s_nt sqrt ln y t sigma in
  first_sup (rise_stat sqrt (at_ y) sigma t) (crit_value sqrt ln t) 1 (t - 2) (c_up s) (c_cu s) /\
  first_sup (fall_stat sqrt (at_ y) sigma t) (crit_value sqrt ln t) 1 (t - 2) (c_dn s) (c_cd s) /\
  0 <= c_up s /\ 0 <= c_dn s.
Proof.
  intros sqrt ln y t sigma Ht Hs Hd s. unfold s, comp_max_s_nt. destruct (Nat.ltb_spec t 1); [lia|].
  destruct (Qleb_spec sigma 0); [lra|]. cbn [orb].
  destruct (cs_fold sqrt ln y t sigma (t - 2) ltac:(lia) Hd) as [A B]. cbv zeta in A, B. split; [exact A|]. split; [exact B|].
  set (f := fold_left _ _ _) in *. clearbody f.
  destruct A as [n [Hn [-> _]]]. destruct B as [m [Hm [-> _]]].
  split; apply stat_nonneg; [specialize (Hd n Hn)|specialize (Hd m Hm)]; lra.
Qed.
Theorem C110_no_start_point : forall sqrt ln y t sigma, (t <= 2)%nat \/ sigma <= 0 ->
  let s := comp_max_s_nt sqrt ln y t sigma in
  c_up s == -(1 # 1000000) /\ c_dn s == -(1 # 1000000) /\ c_cu s == 0 /\ c_cd s == 0 /\
  cusum_flag (Some (c_up s)) (Some (c_cu s)) = false /\ cusum_flag (Some (c_dn s)) (Some (c_cd s)) = false.
Proof.
  intros sqrt ln y t sigma H s. assert (E : s = cs_init).
  { unfold s, comp_max_s_nt. destruct (Nat.ltb_spec t 1); [reflexivity|]. destruct (Qleb_spec sigma 0); [reflexivity|]. cbn [orb].
    destruct H; [|lra]. replace (t - 2)%nat with 0%nat by lia. reflexivity. }
  rewrite E. repeat split; reflexivity.
Qed.
Example C110_example :
  let s := comp_max_s_nt (fun q => q) (fun q => q) [0; 1; 5; 2; 4] 4 1 in
  map Qred [c_up s; c_dn s; c_cu s; c_cd s] = [1; 1 # 2; 38 # 5; 33 # 5] /\
  forall n, (1 <= n <= 4 - 2)%nat -> (1 # 10000000000000000) < 1 * (fun q => q) (Qnat (4 - n)).
Proof. cbv zeta. split; [vm_compute; reflexivity|]. intros n Hn. destruct n as [|[|[|n]]]; try lia; reflexivity. Qed.

(* ------------------------------------------------------------------ *)
(** ** C111: break flags against the family of tests *)
Theorem C111_flag_sound_partial : forall sqrt ln y t sigma, (3 <= t)%nat -> 0 < sigma ->
  (forall n, (1 <= n <= t - 2)%nat -> (1 # 10000000000000000) < sigma * sqrt (Qnat (t - n))) ->
  let s := comp_max_s_nt sqrt ln y t sigma in
  (cusum_flag (Some (c_up s)) (Some (c_cu s)) = true ->
     exists n, (1 <= n <= t - 2)%nat /\ crit_value sqrt ln t n < rise_stat sqrt (at_ y) sigma t n) /\
  (cusum_flag (Some (c_dn s)) (Some (c_cd s)) = true ->
     exists n, (1 <= n <= t - 2)%nat /\ crit_value sqrt ln t n < fall_stat sqrt (at_ y) sigma t n).
Proof.
  intros sqrt ln y t sigma Ht Hs Hd s. destruct (C110_suprema sqrt ln y t sigma Ht Hs Hd) as [[n [Hn [E1 [E2 _]]]] [[m [Hm [F1 [F2 _]]]] _]].
  fold s in E1, E2, F1, F2. split; intro H; apply Qltb_iff in H.
  - exists n. split; [auto|]. rewrite E2 in H. lra.
  - exists m. split; [auto|]. rewrite F2 in H. lra.
Qed.
(** The converse fails: the pair with the largest statistic need not be the one that
    exceeds its critical value.  The bounds are those of the real functions. *)
Theorem C111_flag_complete_refuted : forall sqrt ln : Q -> Q,
  (14142 # 10000) < sqrt (Qnat 2) < (14143 # 10000) -> (17320 # 10000) < sqrt (Qnat 3) < (17321 # 10000) ->
  (2300 # 1000) < crit_value sqrt ln 4 2 < (2301 # 1000) -> (2387 # 1000) < crit_value sqrt ln 4 1 < (2388 # 1000) ->
  exists y, let s := comp_max_s_nt sqrt ln y 4 1 in
    cusum_flag (Some (c_up s)) (Some (c_cu s)) = false /\
    exists n, (1 <= n <= 4 - 2)%nat /\ crit_value sqrt ln 4 n < rise_stat sqrt (at_ y) 1 4 n.
Proof.
  intros sqrt ln H2 H3 C2 C1. exists [0; 0; 8106 # 10000; 1; 408 # 100]. intro s.
  assert (Hd : forall n, (1 <= n <= 4 - 2)%nat -> (1 # 10000000000000000) < 1 * sqrt (Qnat (4 - n))).
  { intros n Hn. destruct n as [|[|[|n]]]; try lia; cbn [Nat.sub]; lra. }
  destruct (C110_suprema sqrt ln [0; 0; 8106 # 10000; 1; 408 # 100] 4 1 ltac:(lia) ltac:(lra) Hd) as [[n [Hn [E1 [E2 [Hs _]]]]] _].
  fold s in E1, E2, Hs. set (y := [0; 0; 8106 # 10000; 1; 408 # 100]) in *.
  assert (R1 : rise_stat sqrt (at_ y) 1 4 1 == (408 # 100) / sqrt (Qnat 3)).
  { unfold rise_stat. assert (E : Qmax 0 (at_ y 4 - at_ y 1) == 408 # 100) by (vm_compute; reflexivity). rewrite E. cbn [Nat.sub].
    rewrite Qmult_1_l. reflexivity. }
  assert (R2 : rise_stat sqrt (at_ y) 1 4 2 == (32694 # 10000) / sqrt (Qnat 2)).
  { unfold rise_stat. assert (E : Qmax 0 (at_ y 4 - at_ y 2) == 32694 # 10000) by (vm_compute; reflexivity). rewrite E. cbn [Nat.sub].
    rewrite Qmult_1_l. reflexivity. }
  assert (B1 : (2355 # 1000) < rise_stat sqrt (at_ y) 1 4 1 /\ rise_stat sqrt (at_ y) 1 4 1 < 2356 # 1000).
  { rewrite R1. split; [apply Qlt_shift_div_l; lra|apply Qlt_shift_div_r; lra]. }
  assert (B2 : (2311 # 1000) < rise_stat sqrt (at_ y) 1 4 2 /\ rise_stat sqrt (at_ y) 1 4 2 < 2312 # 1000).
  { rewrite R2. split; [apply Qlt_shift_div_l; lra|apply Qlt_shift_div_r; lra]. }
  split.
  - assert (n = 1%nat). { destruct (Nat.eq_dec n 2) as [->|]; [|lia]. specialize (Hs 1%nat ltac:(lia)). lra. }
    subst n. unfold cusum_flag. apply Qltb_false. rewrite E2. lra.
  - exists 2%nat. split; [lia|]. lra.
Qed.
(** The bounds can be met. *)
Example C111_example :
  let sqrt := fun q => if Qeqb q (Qnat 2) then 1.41421 else if Qeqb q (Qnat 3) then 1.73205
                       else if Qeqb q (46 # 10) then 2.1447 else if Qeqb q (4.6 + 0.69) then 2.3007 else 2.3872 in
  let ln := fun q => if Qeqb q (Qnat 2) then 0.69 else if Qeqb q (Qnat 3) then 1.0986 else 0 in
  (14142 # 10000) < sqrt (Qnat 2) < (14143 # 10000) /\ (17320 # 10000) < sqrt (Qnat 3) < (17321 # 10000) /\
  (2300 # 1000) < crit_value sqrt ln 4 2 < (2301 # 1000) /\ (2387 # 1000) < crit_value sqrt ln 4 1 < (2388 # 1000) /\
  cusum_flag (Some 3) (Some (crit_value sqrt ln 4 2)) = true.
Proof. cbv zeta. repeat split; vm_compute; reflexivity. Qed.

(* ------------------------------------------------------------------ *)
(** ** C112: the rolling test looks at a window ending at the current bar *)
Lemma comp_ext sqrt ln y y' t sigma : (forall k, (k <= t)%nat -> qn y k = qn y' k) ->
  comp_max_s_nt sqrt ln y t sigma = comp_max_s_nt sqrt ln y' t sigma.
Proof.
  intro H. unfold comp_max_s_nt. destruct (_ || _)%bool; [reflexivity|]. apply fold_left_ext.
  intros s n Hn. apply in_seq in Hn. unfold cs_step. rewrite (H t), (H n) by lia. reflexivity.
Qed.
Lemma sigma_ext sqrt y y' t : (forall k, (k <= t)%nat -> qn y k = qn y' k) -> cs_sigma sqrt y t = cs_sigma sqrt y' t.
Proof.
  intro H. unfold cs_sigma, cum_sq_diff. f_equal. f_equal. f_equal. apply map_ext_in. intros k Hk. apply in_seq in Hk.
  rewrite (H k), (H (k - 1)%nat) by lia. reflexivity.
Qed.
(** Result of the test on the log prices a, ..., i. *)
Definition seg (ln : Q -> Q) (prices : list Q) (a i : nat) : list Q := map ln (firstn (i + 1 - a) (skipn a prices)).
Lemma seg_nth ln prices a i k : (i < length prices)%nat -> (a + k <= i)%nat -> qn (seg ln prices a i) k = ln (at_ prices (a + k)).
Proof.
  intros Hi Hk. unfold qn, seg, at_. assert (L : (k < length (firstn (i + 1 - a) (skipn a prices)))%nat).
  { rewrite firstn_length, skipn_length. lia. }
  rewrite (nth_indep _ 0 (ln 0)) by now rewrite map_length. rewrite map_nth. f_equal.
  rewrite nth_firstn by lia. now rewrite nth_skipn.
Qed.
Lemma dev_nth sqrt ln prices warm out i : cusum_developing sqrt ln prices warm = Ok out -> (i < length prices)%nat ->
  nth i out None = if (i <? warm)%nat then None
                   else Some (comp_max_s_nt sqrt ln (map ln prices) i (cs_sigma sqrt (map ln prices) i)).
Proof.
  intros E Hi. unfold cusum_developing in E. destruct (_ && _)%bool; [discriminate|]. injection E as <-.
  rewrite nth_map_seq by now rewrite map_length. reflexivity.
Qed.
Lemma rolling_value sqrt ln prices window warm :
  (forall p, In p prices -> 0 < p) -> (2 <= warm)%nat -> (warm + 2 <= length prices)%nat ->
  exists out, cusum_rolling sqrt ln prices window warm = Ok out /\ length out = length prices /\
  forall i, (i < length prices)%nat ->
    let w := Nat.max window (warm + 2) in
    let a := (i - w)%nat in
    nth i out None = if (i <? warm)%nat then None
      else Some (comp_max_s_nt sqrt ln (seg ln prices a i) (i - a) (cs_sigma sqrt (seg ln prices a i) (i - a))).
Proof.
  intros Hp Hw Hn. unfold cusum_rolling.
  assert (Ex : existsb (fun p => Qleb p 0) prices = false).
  { destruct (existsb _ _) eqn:E; [|reflexivity]. apply existsb_exists in E. destruct E as [p [Ip Lp]].
    apply Qleb_iff in Lp. specialize (Hp p Ip). lra. }
  rewrite Ex. cbv zeta. set (w := if (window <? warm + 2)%nat then (warm + 2)%nat else window).
  assert (Ew : w = Nat.max window (warm + 2)) by (unfold w; destruct (Nat.ltb_spec window (warm + 2)); lia).
  rewrite <- Ew. clearbody w. destruct (Nat.ltb_spec (length prices) (warm + 2)); [lia|].
  assert (DV : forall ps, exists o, cusum_developing sqrt ln ps warm = Ok o /\ length o = length ps).
  { intro ps. unfold cusum_developing. destruct (Nat.leb_spec warm 1); [lia|]. cbn [andb]. eexists. split; [reflexivity|].
    now rewrite map_length, seq_length, map_length. }
  assert (PRE : forall ps i, (i < length ps)%nat -> (i < length prices)%nat -> (forall k, (k <= i)%nat -> at_ ps k = at_ prices k) ->
     comp_max_s_nt sqrt ln (map ln ps) i (cs_sigma sqrt (map ln ps) i) =
     comp_max_s_nt sqrt ln (seg ln prices 0 i) (i - 0) (cs_sigma sqrt (seg ln prices 0 i) (i - 0))).
  { intros ps i Hi Hi2 Hk. rewrite Nat.sub_0_r.
    assert (EQ : forall k, (k <= i)%nat -> qn (map ln ps) k = qn (seg ln prices 0 i) k).
    { intros k K. rewrite seg_nth by lia. cbn [Nat.add]. rewrite <- Hk by auto. unfold qn, at_.
      rewrite (nth_indep _ 0 (ln 0)) by (rewrite map_length; lia). now rewrite map_nth. }
    rewrite (sigma_ext _ _ _ _ EQ). now apply comp_ext. }
  destruct (Nat.ltb_spec w (length prices)) as [K|K].
  - destruct (DV (price_window prices w w)) as [o [Eo Lo]]. rewrite Eo. eexists. split; [reflexivity|].
    rewrite map_length, seq_length. split; [auto|]. intros i Hi. rewrite nth_map_seq by auto.
    assert (Lp : length (price_window prices w w) = S w).
    { unfold price_window. rewrite firstn_length, skipn_length. lia. }
    destruct (Nat.leb_spec i w) as [K2|K2].
    + rewrite (dev_nth _ _ _ _ _ i Eo) by lia. replace (i - w)%nat with 0%nat by lia.
      destruct (Nat.ltb_spec i warm); [reflexivity|]. f_equal. apply PRE; [lia|auto|].
      intros k Hk. unfold at_, price_window. rewrite nth_firstn by lia. rewrite nth_skipn. f_equal. lia.
    + destruct (Nat.ltb_spec i warm); [lia|]. f_equal. unfold cusum_last, price_window, seg.
      replace (i + 1 - (i - w))%nat with (w + 1)%nat by lia. rewrite map_length, firstn_length, skipn_length.
      replace (Nat.min (w + 1) (length prices - (i - w)) - 1)%nat with (i - (i - w))%nat by lia. reflexivity.
  - destruct (DV prices) as [o [Eo Lo]]. exists o. split; [exact Eo|]. split; [auto|]. intros i Hi.
    rewrite (dev_nth _ _ _ _ _ i Eo) by auto. replace (i - w)%nat with 0%nat by lia.
    destruct (Nat.ltb_spec i warm); [reflexivity|]. f_equal. apply PRE; auto.
Qed.
Lemma seg_sigma sqrt ln prices a i : (i < length prices)%nat -> (a <= i)%nat ->
  cs_sigma sqrt (seg ln prices a i) (i - a) = step_sd sqrt (fun j => ln (at_ prices j)) a i.
Proof.
  intros Hi Ha. unfold cs_sigma, step_sd, cum_sq_diff. f_equal. f_equal. f_equal.
  assert (E : seq (S a) (i - a) = map (fun k => (a + k)%nat) (seq 1 (i - a))).
  { clear. generalize (i - a)%nat as m. intro m.
    assert (G : forall b, seq (a + b) m = map (fun k => (a + k)%nat) (seq b m)).
    { induction m as [|m IH]; intro b; [reflexivity|]. cbn [seq map]. f_equal. rewrite <- IH. f_equal. lia. }
    rewrite <- (G 1%nat). f_equal. lia. }
  rewrite E, map_map. apply map_ext_in. intros k Hk. apply in_seq in Hk. rewrite !seg_nth by lia.
  replace (a + k - 1)%nat with (a + (k - 1))%nat by lia. reflexivity.
Qed.
Lemma first_sup_shift f crit f' crit' lo hi a v c :
  (forall n, (lo <= n <= hi)%nat -> f n = f' (a + n)%nat) -> (forall n, (lo <= n <= hi)%nat -> crit n = crit' (a + n)%nat) ->
  first_sup f crit lo hi v c -> first_sup f' crit' (a + lo) (a + hi) v c.
Proof.
  intros Hf Hc [n [Hn [E1 [E2 [H1 H2]]]]]. exists (a + n)%nat. split; [lia|]. rewrite <- Hf, <- Hc by auto. split; [auto|]. split; [auto|].
  split; intros m Hm; replace m with (a + (m - a))%nat by lia; rewrite <- Hf by lia; [apply H1|apply H2]; lia.
Qed.
Theorem C112_rolling : forall sqrt ln prices window warm i,
  (forall p, In p prices -> 0 < p) -> (2 <= warm)%nat -> (warm + 2 <= length prices)%nat -> (i < length prices)%nat ->
  let w := Nat.max window (warm + 2) in
  let a := (i - w)%nat in
  let y := fun j => ln (at_ prices j) in
  let sd := step_sd sqrt y a i in
  exists out, cusum_rolling sqrt ln prices window warm = Ok out /\ length out = length prices /\
  (nth i out None = None <-> (i < warm)%nat) /\
  (forall s, nth i out None = Some s -> (a + 3 <= i)%nat -> 0 < sd ->
     (forall n, (a + 1 <= n <= i - 2)%nat -> (1 # 10000000000000000) < sd * sqrt (Qnat (i - n))) ->
     first_sup (rise_stat sqrt y sd i) (crit_value sqrt ln i) (a + 1) (i - 2) (c_up s) (c_cu s) /\
     first_sup (fall_stat sqrt y sd i) (crit_value sqrt ln i) (a + 1) (i - 2) (c_dn s) (c_cd s)).
Proof.
  intros sqrt ln prices window warm i Hp Hw Hn Hi w a y sd.
  destruct (rolling_value sqrt ln prices window warm Hp Hw Hn) as [out [E [L H]]]. exists out. split; [auto|]. split; [auto|].
  specialize (H i Hi). cbv zeta in H. fold w in H. fold a in H. rewrite H. destruct (Nat.ltb_spec i warm) as [K|K].
  - split; [split; auto|]. discriminate.
  - split; [split; [discriminate|lia]|]. intros s Es Ha Hs Hd. injection Es as <-.
    assert (Al : (a <= i)%nat) by lia. rewrite seg_sigma by auto. fold y. fold sd.
    destruct (C110_suprema sqrt ln (seg ln prices a i) (i - a) sd ltac:(lia) Hs) as [A [B _]].
    { intros n Hn2. replace (i - a - n)%nat with (i - (a + n))%nat by lia. apply Hd. lia. }
    set (s := comp_max_s_nt _ _ _ _ _) in *. clearbody s.
    assert (Y : forall n, (a + n <= i)%nat -> at_ (seg ln prices a i) n = y (a + n)%nat).
    { intros n Hn2. unfold y. exact (seg_nth ln prices a i n Hi Hn2). }
    replace (i - 2)%nat with (a + (i - a - 2))%nat by lia.
    split; [revert A|revert B]; apply first_sup_shift; intros n Hn2; unfold rise_stat, fall_stat, crit_value; rewrite ?Y by lia;
      replace (a + (i - a))%nat with i by lia; replace (i - (a + n))%nat with (i - a - n)%nat by lia; reflexivity.
Qed.
Theorem C112_raises : forall sqrt ln prices window warm, (2 <= warm)%nat ->
  ((exists e, cusum_rolling sqrt ln prices window warm = Raise e) <-> exists p, In p prices /\ p <= 0).
Proof.
  intros sqrt ln prices window warm Hw. unfold cusum_rolling. destruct (existsb _ _) eqn:E.
  - split; [|eauto]. intros _. apply existsb_exists in E. destruct E as [p [Ip Lp]]. apply Qleb_iff in Lp. eauto.
  - split.
    + intros [e F]. exfalso. cbv zeta in F. destruct (length prices <? warm + 2)%nat; [discriminate|]. unfold cusum_developing in F.
      destruct (Nat.leb_spec warm 1); [lia|]. cbn [andb] in F. destruct (_ <? length prices)%nat; discriminate.
    + intros [p [Ip Lp]]. exfalso. assert (T : existsb (fun p => Qleb p 0) prices = true).
      { apply existsb_exists. exists p. split; [auto|]. now apply Qleb_iff. } congruence.
Qed.
(** Not prefix-stable: with one more bar the value at bar warmup changes from NaN to a number. *)
Theorem C112_prefix_stable_refuted : exists sqrt ln prices p window warm o1 o2, (2 <= warm)%nat /\ 0 < p /\
  cusum_rolling sqrt ln prices window warm = Ok o1 /\ cusum_rolling sqrt ln (prices ++ [p]) window warm = Ok o2 /\
  nth warm o1 None = None /\ nth warm o2 None <> None /\ (warm < length prices)%nat.
Proof.
  exists (fun q => q), (fun q => q), [1; 2; 3; 5], 4, 10%nat, 3%nat. do 2 eexists.
  split; [lia|]. split; [reflexivity|]. split; [vm_compute; reflexivity|]. split; [vm_compute; reflexivity|].
  split; [reflexivity|]. split; [discriminate|]. cbn. lia.
Qed.
Example C112_example :
  match cusum_rolling (fun q => q) (fun q => q) [1; 2; 3; 5; 4; 6; 7; 5] 4 2 with
  | Ok o => map (option_map (fun s => (Qred (c_up s), Qred (c_dn s)))) o | _ => [] end =
  [None; None; Some (-(1 # 1000000), -(1 # 1000000)); Some (1 # 2, 0); Some (2 # 7, 0); Some (3 # 10, 0); Some (9 # 20, 0); Some (1 # 10, 3 # 20)].
Proof. vm_compute. reflexivity. Qed.

Print Assumptions C110_suprema.
Print Assumptions C110_no_start_point.
Print Assumptions C111_flag_sound_partial.
Print Assumptions C111_flag_complete_refuted.
Print Assumptions C112_rolling.
Print Assumptions C112_raises.
Print Assumptions C112_prefix_stable_refuted.
