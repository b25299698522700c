(** T_transforms3.v -- bar rate, daily gap, bi-power variation, durations, lags and
    returns (feature/transforms.py). *)
From Verif Require Import Base M_features S_features P_weights P_features M_transforms S_transforms T_transforms T_transforms2.
Open Scope Q_scope.

(* ------------------------------------------------------------------ *)
(** ** C113: bar rate *)
Lemma filter_suffix (f : nat -> bool) k n : (k <= n)%nat -> (forall j, (j < k)%nat -> f j = false) -> (forall j, (k <= j < n)%nat -> f j = true) ->
  length (filter f (seq 0 n)) = (n - k)%nat.
Proof.
  intros Hk H1 H2. replace n with (k + (n - k))%nat at 1 by lia. rewrite seq_app, filter_app, filter_none, filter_every.
  - cbn [app]. apply seq_length.
  - intros j Hj. apply in_seq in Hj. apply H2. lia.
  - intros j Hj. apply in_seq in Hj. apply H1. lia.
Qed.
Lemma rate_nth ts w i : (i < length ts)%nat -> nth i (bar_rate ts w) 0 = Qnat (rate_count ts w i) / (inject_Z w / 1000000000) * 3600.
Proof. intro H. unfold bar_rate. rewrite nth_map_seq by exact H. reflexivity. Qed.
(** With k the first bar not older than the window, the rate times the window length in
    hours is the number of bars k..i. *)
Theorem C113_count : forall ts w i k, (0 < w)%Z -> (k <= i < length ts)%nat ->
  (forall j, (k <= j <= i)%nat -> (nth i ts 0 - nth j ts 0 <= w)%Z) -> (forall j, (j < k)%nat -> (w < nth i ts 0 - nth j ts 0)%Z) ->
  nth i (bar_rate ts w) 0 * (inject_Z w / 3600000000000) == Qnat (i + 1 - k).
Proof.
  intros ts w i k Hw Hk H1 H2. rewrite rate_nth by lia.
  assert (E : rate_count ts w i = (i + 1 - k)%nat).
  { unfold rate_count. replace (i + 1 - k)%nat with (S i - k)%nat by lia. apply filter_suffix; [lia| |].
    - intros j Hj. apply Z.leb_gt. specialize (H2 j Hj). lia.
    - intros j Hj. apply Z.leb_le. specialize (H1 j ltac:(lia)). lia. }
  rewrite E. assert (~ inject_Z w == 0). { intro K. change 0 with (inject_Z 0) in K. rewrite inject_Z_injective in K. lia. }
  field. auto.
Qed.
(** For sorted time stamps such a k exists and is unique. *)
Theorem C113_window : forall ts w i, (0 < w)%Z -> ascZ ts -> (i < length ts)%nat ->
  exists k, (k <= i)%nat /\ (forall j, (k <= j <= i)%nat -> (nth i ts 0 - nth j ts 0 <= w)%Z) /\
    (forall j, (j < k)%nat -> (w < nth i ts 0 - nth j ts 0)%Z).
Proof.
  intros ts w i Hw Ha Hi.
  assert (G : forall n, (n <= i)%nat -> exists k, (i - n <= k <= i)%nat /\ (forall j, (k <= j <= i)%nat -> (nth i ts 0 - nth j ts 0 <= w)%Z) /\
    (forall j, (i - n <= j < k)%nat -> (w < nth i ts 0 - nth j ts 0)%Z)).
  { induction n as [|n IH]; intro Hn.
    - exists i. split; [lia|]. split; [|lia]. intros j Hj. replace j with i by lia. lia.
    - destruct (IH ltac:(lia)) as [k [K1 [K2 K3]]]. destruct (Z_le_gt_dec (nth i ts 0 - nth (i - S n) ts 0) w)%Z as [L|L].
      + destruct (Nat.eq_dec k (i - n)) as [->|N].
        * exists (i - S n)%nat. split; [lia|]. split; [|lia]. intros j Hj. destruct (Nat.eq_dec j (i - S n)) as [->|]; [exact L|]. apply K2. lia.
        * exfalso. specialize (K3 (i - n)%nat ltac:(lia)). pose proof (Ha (i - S n)%nat (i - n)%nat ltac:(lia)). lia.
      + exists k. split; [lia|]. split; [exact K2|]. intros j Hj. destruct (Nat.eq_dec j (i - S n)) as [->|]; [lia|]. apply K3. lia. }
  destruct (G i ltac:(lia)) as [k [K1 [K2 K3]]]. exists k. split; [lia|]. split; [exact K2|]. intros j Hj. apply K3. lia.
Qed.
(** On a regular grid of spacing s, with a window of m spacings, the full window holds m+1
    bars: the rate is (m+1)/m times the true number of bars per hour. *)
Theorem C113_regular : forall t0 s m n i, (0 < s)%Z -> (0 < m)%nat -> (m <= i < n)%nat ->
  nth i (bar_rate (map (fun k => t0 + Z.of_nat k * s)%Z (seq 0 n)) (Z.of_nat m * s)) 0 == (3600000000000 / inject_Z s) * (Qnat (m + 1) / Qnat m).
Proof.
  intros t0 s m n i Hs Hm Hi. set (ts := map _ _).
  assert (T : forall j, (j < n)%nat -> nth j ts 0%Z = (t0 + Z.of_nat j * s)%Z) by (intros j Hj; unfold ts; now rewrite nth_map_seq).
  assert (L : length ts = n) by (unfold ts; now rewrite map_length, seq_length).
  assert (P : (0 < Z.of_nat m * s)%Z) by nia.
  assert (C := C113_count ts (Z.of_nat m * s) i (i - m)%nat P ltac:(lia)).
  specialize (C ltac:(intros j Hj; rewrite !T by lia; nia) ltac:(intros j Hj; rewrite !T by lia; nia)).
  replace (i + 1 - (i - m))%nat with (m + 1)%nat in C by lia. rewrite inject_Z_mult in C. fold (Qnat m) in C.
  assert (0 < Qnat m) by now apply Qnat_pos. assert (0 < inject_Z s) by (change 0 with (inject_Z 0); now rewrite <- Zlt_Qlt).
  rewrite <- C. field. split; lra.
Qed.
(** One-minute bars and a six-minute window report 70 bars per hour. *)
Theorem C113_bars_per_hour_refuted : exists ts w i, (i < length ts)%nat /\ (0 < w)%Z /\
  (forall j, (S j < length ts)%nat -> (nth (S j) ts 0 - nth j ts 0 = 60000000000)%Z) /\
  nth i (bar_rate ts w) 0 == 70 /\ ~ nth i (bar_rate ts w) 0 == 60.
Proof.
  exists (map (fun k => 0 + Z.of_nat k * 60000000000)%Z (seq 0 10)), 360000000000%Z, 9%nat. split; [vm_compute; lia|]. split; [lia|]. split.
  - intros j Hj. rewrite map_length, seq_length in Hj. rewrite !nth_map_seq by lia. lia.
  - pose proof (C113_regular 0 60000000000 6 10 9 ltac:(lia) ltac:(lia) ltac:(lia)) as E.
    change (Z.of_nat 6 * 60000000000)%Z with 360000000000%Z in E. rewrite E. split; [reflexivity|]. intro K. discriminate K.
Qed.
Example C113_example : Forall2 Qeq (bar_rate [0; 60000000000; 90000000000; 300000000000; 300000000001]%Z 240000000000) [15; 30; 45; 45; 45].
Proof. repeat constructor. Qed.

(* ------------------------------------------------------------------ *)
(** ** C114: daily gap *)
Definition row0 : Z * option Q := (0%Z, None).
Lemma nth_combine ts (l : list (option Q)) k : length ts = length l -> nth k (combine ts l) row0 = (nth k ts 0%Z, nth k l None).
Proof. intro E. apply combine_nth. exact E. Qed.
Lemma of_day_block ts l i g : length ts = length l -> strictly_asc ts -> (i <= g)%nat -> day_start ts i i -> day_end ts i g ->
  of_day ts l (day_of (nth i ts 0%Z)) = firstn (g + 1 - i) (skipn i l).
Proof.
  intros El Hs Hg Hd [[He1 He2] [He3 He4]]. unfold of_day. set (p := fun x : Z * option Q => _).
  assert (Lc : length (combine ts l) = length ts) by (rewrite combine_length; lia).
  rewrite (split_block (combine ts l) i g) by lia. rewrite !filter_app, filter_none, filter_every, filter_none.
  - rewrite app_nil_r. cbn [app]. rewrite <- firstn_map, <- skipn_map. f_equal. f_equal.
    clear -El. revert l El. induction ts as [|t ts IH]; intros [|x l] El; try discriminate; [reflexivity|]. cbn. f_equal. apply IH. now injection El.
  - intros x Hx. apply (In_nth _ _ row0) in Hx. destruct Hx as [k [Hk <-]]. rewrite skipn_length in Hk. rewrite nth_skipn, nth_combine by auto.
    unfold p. cbn [fst]. apply Z.eqb_neq. change day_of with utc_day. destruct He4 as [He4|He4]; [lia|].
    pose proof (utc_mono ts i (S g) Hs ltac:(lia)). pose proof (utc_mono ts (S g) (g + 1 + k) Hs ltac:(lia)). lia.
  - intros x Hx. apply (In_nth _ _ row0) in Hx. destruct Hx as [k [Hk <-]]. rewrite firstn_length, skipn_length in Hk.
    rewrite nth_firstn, nth_skipn, nth_combine by (auto; lia). unfold p. cbn [fst]. apply Z.eqb_eq. change day_of with utc_day.
    pose proof (utc_mono ts i (i + k) Hs ltac:(lia)). pose proof (utc_mono ts (i + k) g Hs ltac:(lia)). lia.
  - intros x Hx. apply (In_nth _ _ row0) in Hx. destruct Hx as [k [Hk <-]]. rewrite firstn_length in Hk.
    rewrite nth_firstn, nth_combine by (auto; lia). unfold p. cbn [fst]. apply Z.eqb_neq. change day_of with utc_day.
    apply (day_before ts i i); auto; lia.
Qed.
Lemma midnight_start ts i : strictly_asc ts -> (i < length ts)%nat -> (nth i ts 0 mod 86400000000000 = 0)%Z -> day_start ts i i.
Proof.
  intros Hs Hi Hm. split; [lia|]. split; [reflexivity|]. destruct (Nat.eq_dec i 0) as [->|N]; [auto|]. right.
  specialize (Hs (i - 1)%nat i ltac:(lia)). unfold utc_day. intro E.
  pose proof (Z.div_mod (nth (i - 1) ts 0%Z) 86400000000000 ltac:(lia)). pose proof (Z.div_mod (nth i ts 0%Z) 86400000000000 ltac:(lia)).
  pose proof (Z.mod_pos_bound (nth (i - 1) ts 0%Z) 86400000000000 ltac:(lia)). lia.
Qed.
Lemma last_filter_end {A} (p : A -> bool) l d : (0 < length l)%nat -> p (nth (length l - 1) l d) = true -> last (filter p l) d = nth (length l - 1) l d.
Proof.
  intros H K. destruct l as [|x l] using rev_ind; [simpl in H; lia|]. clear IHl.
  rewrite app_length in *. cbn [length] in *. replace (length l + 1 - 1)%nat with (length l) in * by lia.
  rewrite nth_middle in *. rewrite filter_app. cbn [filter]. rewrite K. apply last_last.
Qed.
(** With all closes present and strictly increasing time stamps: a row at 00:00 whose day
    ends at row g >= 1 gets (close_i - close_{g-1}) / close_{g-1}; every other row NaN. *)
Theorem C114_value : forall ts c i g, length ts = length c -> strictly_asc ts -> (i < length ts)%nat ->
  (nth i ts 0 mod 86400000000000 = 0)%Z -> day_end ts i g -> (0 < g)%nat -> ~ nth (g - 1) c 0 == 0 ->
  exists q, nth i (daily_gap ts (map Some c)) NaN = Fin q /\ q * nth (g - 1) c 0 == nth i c 0 - nth (g - 1) c 0.
Proof.
  intros ts c i g El Hs Hi Hm He Hg Hz. unfold daily_gap.
  assert (Hd := midnight_start ts i Hs Hi Hm).
  rewrite (nth_indep _ NaN ((fun t => if (t mod DAY =? 0)%Z then daily_gap_of ts (map Some c) (day_of t) else NaN) 0%Z)) by now rewrite map_length.
  rewrite (map_nth (fun t => if (t mod DAY =? 0)%Z then daily_gap_of ts (map Some c) (day_of t) else NaN)). change DAY with 86400000000000%Z. rewrite Hm. cbn [Z.eqb].
  unfold daily_gap_of. assert (Hig : (i <= g)%nat) by (destruct He as [[? ?] _]; lia). assert (Hgl : (g < length ts)%nat) by (destruct He as [[? ?] _]; lia).
  assert (N : forall k, (k < length c)%nat -> nth k (map Some c) None = Some (nth k c 0)).
  { intros k Hk. rewrite (nth_indep _ None (Some 0)) by now rewrite map_length. apply (map_nth Some). }
  rewrite !(of_day_block ts _ i g) by (auto; unfold shift1; rewrite ?firstn_length; cbn [length]; rewrite ?map_length; lia).
  assert (F : first_valid_close (firstn (g + 1 - i) (skipn i (map Some c))) = Some (nth i c 0)).
  { replace (g + 1 - i)%nat with (S (g - i)) by lia. pose proof (nth_skipn None (map Some c) i 0) as E. rewrite Nat.add_0_r, N in E by lia.
    destruct (skipn i (map Some c)) as [|x r]; [cbn in E; discriminate|]. cbn in E. subst x. reflexivity. }
  rewrite F. set (M := firstn (g + 1 - i) (skipn i (shift1 (map Some c)))).
  assert (LM : length M = (g + 1 - i)%nat). { unfold M, shift1. rewrite firstn_length, skipn_length, firstn_length. cbn [length]. rewrite map_length. lia. }
  assert (EM : nth (length M - 1) M None = Some (nth (g - 1) c 0)).
  { rewrite LM. unfold M. rewrite nth_firstn, nth_skipn by lia. unfold shift1. rewrite nth_firstn by (rewrite map_length; lia).
    replace (i + (g + 1 - i - 1))%nat with (S (g - 1)) by lia. cbn [nth]. apply N. lia. }
  unfold last_valid_close. rewrite last_filter_end; [|lia|now rewrite EM]. rewrite EM.
  unfold ediv. destruct (Qeqb_spec (nth (g - 1) c 0) 0) as [K|K]; [contradiction|].
  eexists. split; [reflexivity|]. field. exact K.
Qed.
Theorem C114_elsewhere : forall ts close i, (i < length ts)%nat -> (nth i ts 0 mod 86400000000000 <> 0)%Z -> nth i (daily_gap ts close) NaN = NaN.
Proof.
  intros ts close i Hi Hm. unfold daily_gap.
  rewrite (nth_indep _ NaN ((fun t => if (t mod DAY =? 0)%Z then daily_gap_of ts close (day_of t) else NaN) 0%Z)) by now rewrite map_length.
  rewrite (map_nth (fun t => if (t mod DAY =? 0)%Z then daily_gap_of ts close (day_of t) else NaN)). change DAY with 86400000000000%Z.
  destruct (Z.eqb_spec (nth i ts 0 mod 86400000000000)%Z 0%Z); [contradiction|reflexivity].
Qed.
(** Only when the bar at 00:00 is the only bar of its day is this the documented gap to
    the last close before it. *)
Theorem C114_documented_partial : forall ts c i, length ts = length c -> strictly_asc ts -> (0 < i < length ts)%nat ->
  (nth i ts 0 mod 86400000000000 = 0)%Z -> (S i = length ts \/ utc_day (nth (S i) ts 0%Z) <> utc_day (nth i ts 0%Z)) -> ~ nth (i - 1) c 0 == 0 ->
  exists q, nth i (daily_gap ts (map Some c)) NaN = Fin q /\ q * nth (i - 1) c 0 == nth i c 0 - nth (i - 1) c 0.
Proof.
  intros ts c i El Hs Hi Hm He Hz. apply C114_value; auto; try lia. split; [lia|]. split; [reflexivity|exact He].
Qed.
(** The value at 00:00 depends on closes of later bars of the day, and is not the
    documented gap. *)
Theorem C114_lookahead_refuted : exists ts c c' i, strictly_asc ts /\ (i < length ts)%nat /\
  firstn (S i) c = firstn (S i) c' /\ length c = length c' /\
  nth i (daily_gap ts (map Some c)) NaN = Fin (-1 # 2) /\ nth i (daily_gap ts (map Some c')) NaN = Fin 0 /\
  nth i c 0 == nth (i - 1) c 0.
Proof.
  exists [86399000000000; 86400000000000; 86401000000000; 86402000000000]%Z, [1; 1; 2; 5], [1; 1; 1; 5], 1%nat.
  split; [intros i j H; cbn [length] in H; do 4 (destruct j as [|j]; [do 4 (destruct i as [|i]; [cbn; lia|]); lia|]); lia|].
  vm_compute. repeat split; try lia; try reflexivity.
Qed.
Example C114_example :
  let ts := [86398000000000; 86400000000000; 172800000000000]%Z in
  daily_gap ts [Some 4; Some 5; Some 6] = [NaN; Fin (1 # 4); Fin (1 # 5)].
Proof. reflexivity. Qed.

(* ------------------------------------------------------------------ *)
(** ** C115: bi-power variation *)
Lemma no_missing (c : list Q) a n : (a + n <= length c)%nat -> map (fun j => nth j (map Some c) None) (seq a n) = map (fun j => Some (nth j c 0)) (seq a n).
Proof.
  intro H. apply map_ext_in. intros j Hj. apply in_seq in Hj. rewrite (nth_indep _ None (Some 0)) by (rewrite map_length; lia). apply (map_nth Some).
Qed.
Lemma combine_tl_seq (h : nat -> Q) a n : map (fun p => fst p * snd p) (combine (tl (map h (seq a (n + 1)))) (map h (seq a (n + 1)))) = map (fun j => h (S j) * h j) (seq a n).
Proof.
  revert a. induction n as [|n IH]; intro a; [reflexivity|].
  replace (S n + 1)%nat with (S (S n)) by lia. cbn [seq map tl combine fst snd]. f_equal.
  specialize (IH (S a)). replace (n + 1)%nat with (S n) in IH by lia. cbn [seq map tl] in IH. exact IH.
Qed.
Theorem C115_value : forall f r window i, (window <= i < length r)%nat ->
  exists v, nth i (bipower f (map Some r) window) None = Some v /\
    v == f * qsum (map (fun j => Qabs (nth j r 0) * Qabs (nth (j - 1) r 0)) (seq (i + 1 - window) window)).
Proof.
  intros f r w i H. unfold bipower. rewrite map_length, nth_map_seq by lia.
  destruct (Nat.ltb_spec i w); [lia|]. cbv zeta. rewrite no_missing by lia.
  destruct (existsb _ _) eqn:E.
  - exfalso. apply existsb_exists in E. destruct E as [x [Hx Ex]]. apply in_map_iff in Hx. destruct Hx as [j [<- _]]. discriminate.
  - eexists. split; [reflexivity|]. rewrite map_map. rewrite (combine_tl_seq (fun j => Qabs (nth j r 0)) (i - w) w).
    assert (Es : seq (i + 1 - w) w = map S (seq (i - w) w)) by (rewrite seq_shift; f_equal; lia).
    rewrite Es, map_map. apply Qmult_comp; [reflexivity|]. apply qsum_map_ext. intros j _. replace (S j - 1)%nat with j by lia. reflexivity.
Qed.
Theorem C115_missing : forall f r window i, (i < length r)%nat ->
  (nth i (bipower f r window) None = None <-> (i < window)%nat \/ exists j, (i - window <= j <= i)%nat /\ nth j r None = None).
Proof.
  intros f r w i H. unfold bipower. rewrite nth_map_seq by lia. destruct (Nat.ltb_spec i w) as [L|L]; [split; auto|]. cbv zeta.
  destruct (existsb _ _) eqn:E; split; intro K; auto; try discriminate.
  - right. apply existsb_exists in E. destruct E as [x [Hx Ex]]. apply in_map_iff in Hx. destruct Hx as [j [<- Hj]]. apply in_seq in Hj.
    exists j. split; [lia|]. destruct (nth j r None); [discriminate|reflexivity].
  - exfalso. destruct K as [K|[j [Hj K]]]; [lia|]. assert (X : existsb (fun x : option Q => match x with Some _ => false | None => true end) (map (fun j => nth j r None) (seq (i - w) (w + 1))) = true).
    { apply existsb_exists. exists None. split; [|reflexivity]. apply in_map_iff. exists j. split; [exact K|]. apply in_seq. lia. }
    rewrite X in E. discriminate.
Qed.
(** Scaling all returns by k scales the value by k^2; single jumps enter linearly only, and
    an isolated jump between zero returns not at all. *)
Theorem C115_scale : forall f r window i k, (window <= i < length r)%nat ->
  exists v v', nth i (bipower f (map Some r) window) None = Some v /\
    nth i (bipower f (map Some (map (Qmult k) r)) window) None = Some v' /\ v' == k * k * v.
Proof.
  intros f r w i k H. destruct (C115_value f r w i H) as [v [E1 Ev]].
  destruct (C115_value f (map (Qmult k) r) w i ltac:(rewrite map_length; lia)) as [v' [E2 Ev']].
  exists v, v'. split; [auto|]. split; [auto|]. rewrite Ev, Ev'.
  rewrite (qsum_map_ext (fun j => Qabs (nth j (map (Qmult k) r) 0) * Qabs (nth (j - 1) (map (Qmult k) r) 0))
            (fun j => k * k * (Qabs (nth j r 0) * Qabs (nth (j - 1) r 0)))).
  - rewrite qsum_map_scal. ring.
  - intros j Hj. apply in_seq in Hj.
    assert (G : forall m, (m < length r)%nat -> nth m (map (Qmult k) r) 0 = k * nth m r 0).
    { intros m Hm. rewrite (nth_indep _ 0 (k * 0)) by now rewrite map_length. apply (map_nth (Qmult k)). }
    rewrite !G by lia. rewrite !Qabs_Qmult. assert (Kk : Qabs k * Qabs k == k * k). { rewrite <- Qabs_Qmult. apply Qabs_pos. destruct (Qlt_le_dec k 0); nra. }
    rewrite <- Kk. ring.
Qed.
Theorem C115_jump : forall f r window i m, (window <= i < length r)%nat ->
  (forall j, (i - window <= j <= i)%nat -> j <> m -> nth j r 0 == 0) ->
  exists v, nth i (bipower f (map Some r) window) None = Some v /\ v == 0.
Proof.
  intros f r w i m H Hz. destruct (C115_value f r w i H) as [v [E1 Ev]]. exists v. split; [auto|]. rewrite Ev.
  rewrite (qsum_map_ext _ (fun _ => 0)); [rewrite qsum_map_const; ring|]. intros j Hj. apply in_seq in Hj.
  destruct (Nat.eq_dec j m) as [->|N].
  - rewrite (Hz (m - 1)%nat) by lia. cbn. ring.
  - rewrite (Hz j) by lia. cbn. ring.
Qed.
(** The factor called mu1^-2 (= pi/2) is its square root: every value is too small. *)
Theorem C115_factor_too_small : forall sqrt pi, 3 <= pi -> sqrt (pi / 2) * sqrt (pi / 2) <= (pi / 2) * (11 # 10) ->
  bipower_factor sqrt pi < (9 # 10) * (pi / 2).
Proof.
  intros sqrt pi Hp Hs. unfold bipower_factor. set (s := sqrt (pi / 2)) in *. assert (Hq : 3 # 2 <= pi / 2) by (unfold Qdiv; change (/ 2) with (1 # 2); lra).
  set (q := pi / 2) in *. clearbody s q. destruct (Qlt_le_dec s ((9 # 10) * q)) as [L|L]; [exact L|]. exfalso. nra.
Qed.
Theorem C115_factor_refuted : exists sqrt pi, (31415 # 10000) < pi < (31416 # 10000) /\
  Qabs (sqrt (pi / 2) * sqrt (pi / 2) - pi / 2) < 1 # 10000 /\ 0 < sqrt (pi / 2) /\ ~ bipower_factor sqrt pi == pi / 2.
Proof.
  exists (fun _ => 12533 # 10000), (314159 # 100000). split; [split; reflexivity|]. split; [reflexivity|]. split; [reflexivity|]. intro K. discriminate K.
Qed.
Example C115_example : map (option_map Qred) (bipower 2 [Some 1; Some (-2); Some 3; Some (1 # 2); None] 2) = [None; None; Some 16; Some 15; None].
Proof. reflexivity. Qed.

(* ------------------------------------------------------------------ *)
(** ** C116: durations, lags and returns *)
Theorem C116_duration_sum : forall ts p i, (p <= i < length ts)%nat ->
  exists v, nth i (bar_duration ts p) None = Some v /\
    v == qsum (map (fun j => inject_Z (nth j ts 0%Z - nth (j - 1) ts 0%Z) / 1000000000) (seq (i + 1 - p) p)).
Proof.
  intros ts p i H. unfold bar_duration. rewrite nth_map_seq by lia. destruct (Nat.ltb_spec i p); [lia|]. eexists. split; [reflexivity|].
  induction p as [|p IH].
  - cbn. replace (i - 0)%nat with i by lia. rewrite Z.sub_diag. reflexivity.
  - replace (i + 1 - S p)%nat with (i - p)%nat by lia. cbn [seq map]. rewrite qsum_cons.
    replace (S (i - p)) with (i + 1 - p)%nat by lia. rewrite <- IH by lia. replace (i - p - 1)%nat with (i - S p)%nat by lia.
    unfold Qdiv. rewrite <- Qmult_plus_distr_l, <- inject_Z_plus. apply Qmult_comp; [|reflexivity]. rewrite inject_Z_injective. lia.
Qed.
Theorem C116_duration_positive : forall ts p i, strictly_asc ts -> (0 < p <= i)%nat -> (i < length ts)%nat ->
  exists v, nth i (bar_duration ts p) None = Some v /\ 0 < v.
Proof.
  intros ts p i Hs Hp Hi. unfold bar_duration. rewrite nth_map_seq by lia. destruct (Nat.ltb_spec i p); [lia|]. eexists. split; [reflexivity|].
  specialize (Hs (i - p)%nat i ltac:(lia)). assert (0 < inject_Z (nth i ts 0 - nth (i - p) ts 0)%Z) by (change 0 with (inject_Z 0); rewrite <- Zlt_Qlt; lia).
  apply Qlt_shift_div_l; lra.
Qed.
Lemma shift_nth l p i : (i < length l)%nat -> nth i (shift l p) None = if (Z.of_nat i - p <? 0)%Z then None else nth (Z.to_nat (Z.of_nat i - p)) l None.
Proof. intro H. unfold shift. rewrite nth_map_seq by exact H. reflexivity. Qed.
Lemma shift_length l p : length (shift l p) = length l.
Proof. unfold shift. now rewrite map_length, seq_length. Qed.
(** A lag only moves values: at row i stands the value of row i - periods, if any. *)
Theorem C116_lag : forall l p i, (i < length l)%nat -> (0 <= p)%Z ->
  nth i (shift l p) None = if (Z.of_nat i <? p)%Z then None else nth (i - Z.to_nat p) l None.
Proof.
  intros l p i H Hp. rewrite shift_nth by exact H. destruct (Z.ltb_spec (Z.of_nat i - p) 0), (Z.ltb_spec (Z.of_nat i) p); try lia; auto.
  f_equal. lia.
Qed.
Theorem C116_lag_compose : forall l p q, (0 <= p)%Z -> (0 <= q)%Z -> shift (shift l p) q = shift l (p + q).
Proof.
  intros l p q Hp Hq. apply (nth_ext _ _ None None); [now rewrite !shift_length|]. intros i Hi. rewrite !shift_length in Hi.
  rewrite (shift_nth (shift l p)) by now rewrite shift_length. rewrite (shift_nth l (p + q)) by exact Hi.
  destruct (Z.ltb_spec (Z.of_nat i - q) 0), (Z.ltb_spec (Z.of_nat i - (p + q)) 0); try lia; auto; rewrite shift_nth by lia;
    destruct (Z.ltb_spec (Z.of_nat (Z.to_nat (Z.of_nat i - q)) - p) 0); try lia; auto. f_equal. lia.
Qed.
(** A negative lag is accepted and looks ahead. *)
Theorem C116_negative_lag : forall l p i, (0 <= p)%Z -> (i < length l)%nat -> nth i (shift l (- p)) None = nth (i + Z.to_nat p) l None.
Proof.
  intros l p i Hp Hi. rewrite shift_nth by exact Hi. destruct (Z.ltb_spec (Z.of_nat i - - p) 0); [lia|]. f_equal. lia.
Qed.
(** Simple returns: previous value times (1 + return) is the current value. *)
Lemma simple_return_nth l p i : (i < length l)%nat -> nth i (simple_return l p) NaN =
  match nth i l None, nth i (shift l p) None with Some a, Some b => match ediv a b with Fin q => Fin (q - 1) | e => e end | _, _ => NaN end.
Proof.
  intro H. unfold simple_return. set (h := fun x : option Q * option Q => _).
  rewrite (nth_indep _ NaN (h (None, None))) by (rewrite map_length, combine_length, shift_length; lia).
  rewrite map_nth, combine_nth by now rewrite shift_length. reflexivity.
Qed.
Theorem C116_return : forall l p i a b, (0 <= p)%Z -> (Z.to_nat p <= i < length l)%nat ->
  nth i l None = Some a -> nth (i - Z.to_nat p) l None = Some b -> ~ b == 0 ->
  exists q, nth i (simple_return l p) NaN = Fin q /\ b * (1 + q) == a.
Proof.
  intros l p i a b Hp Hi Ea Eb Hb. rewrite simple_return_nth by lia. rewrite Ea, C116_lag by lia.
  destruct (Z.ltb_spec (Z.of_nat i) p); [lia|]. rewrite Eb. unfold ediv. destruct (Qeqb_spec b 0); [contradiction|].
  eexists. split; [reflexivity|]. field. auto.
Qed.
(** Returns compound. *)
Theorem C116_compound : forall l p q i a b c, (0 <= p)%Z -> (0 <= q)%Z -> (Z.to_nat p + Z.to_nat q <= i < length l)%nat ->
  nth i l None = Some a -> nth (i - Z.to_nat p) l None = Some b -> nth (i - Z.to_nat p - Z.to_nat q) l None = Some c -> ~ b == 0 -> ~ c == 0 ->
  exists r1 r2 r, nth i (simple_return l p) NaN = Fin r1 /\ nth (i - Z.to_nat p) (simple_return l q) NaN = Fin r2 /\
    nth i (simple_return l (p + q)) NaN = Fin r /\ 1 + r == (1 + r1) * (1 + r2).
Proof.
  intros l p q i a b c Hp Hq Hi Ea Eb Ec Hb Hc.
  destruct (C116_return l p i a b) as [r1 [E1 R1]]; auto; [lia|].
  destruct (C116_return l q (i - Z.to_nat p) b c) as [r2 [E2 R2]]; auto; [lia|].
  destruct (C116_return l (p + q) i a c) as [r [E3 R3]]; auto; [lia|lia| |].
  { rewrite <- Ec. f_equal. lia. }
  exists r1, r2, r. repeat split; auto. apply (Qmult_inj_l _ _ c); [auto|]. rewrite R3, <- R1, <- R2. ring.
Qed.
(** A missing value on either side gives a missing return. *)
Theorem C116_missing : forall l p i, (i < length l)%nat -> nth i l None = None \/ nth i (shift l p) None = None -> nth i (simple_return l p) NaN = NaN.
Proof.
  intros l p i Hi H. rewrite simple_return_nth by exact Hi. destruct H as [->| ->]; [reflexivity|]. now destruct (nth i l None).
Qed.
Example C116_example :
  shift [Some 1; None; Some 3; Some 4] 1 = [None; Some 1; None; Some 3] /\ shift [Some 1; None; Some 3; Some 4] (-1) = [None; Some 3; Some 4; None] /\
  map (fun e => match e with Fin q => Fin (Qred q) | e => e end) (simple_return [Some 1; Some 2; None; Some 3; Some 6; Some 0; Some 1] 1) = [NaN; Fin 1; NaN; NaN; Fin 1; Fin (-1); PInf].
Proof. repeat split; reflexivity. Qed.

Print Assumptions C113_count.
Print Assumptions C113_window.
Print Assumptions C113_regular.
Print Assumptions C113_bars_per_hour_refuted.
Print Assumptions C114_value.
Print Assumptions C114_elsewhere.
Print Assumptions C114_documented_partial.
Print Assumptions C114_lookahead_refuted.
Print Assumptions C115_value.
Print Assumptions C115_missing.
Print Assumptions C115_scale.
Print Assumptions C115_jump.
Print Assumptions C115_factor_too_small.
Print Assumptions C115_factor_refuted.
Print Assumptions C116_duration_sum.
Print Assumptions C116_duration_positive.
Print Assumptions C116_lag.
Print Assumptions C116_lag_compose.
Print Assumptions C116_negative_lag.
Print Assumptions C116_return.
Print Assumptions C116_compound.
Print Assumptions C116_missing.
