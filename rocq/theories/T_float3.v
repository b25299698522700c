(** T_float3.v -- properties C155-C160: moving averages, VWAP distance, VPIN, flow acceleration and
    z-score in float64.  [rnd p] is the rounding characterised in C137_rounding. *)
From Coq Require Import Qround Qpower Qfield.
From Verif Require Import Base M_logic M_bars M_footprint M_features M_volume M_float M_float2 S_logic S_features S_volume S_float.
From Verif Require Import P_weights P_features P_features2 P_logic P_volume3 P_float P_float2 P_float9 P_float10 P_float11 T_features T_features2 T_volume.
Open Scope Q_scope.

(** The float64 nearest to 0.1. *)
Definition f01 : Q := 3602879701896397 # 36028797018963968.
Lemma f01_fl : fl 53 f01.
Proof. exists 7205759403792794%Z, (-56)%Z. split; [reflexivity|vm_compute; reflexivity]. Qed.

(** * C155  Simple moving average *)
Theorem C155_rows : forall xs n i, (1 <= n)%nat -> (i < length xs)%nat ->
  length (sma_f xs n) = length xs /\ (nth i (sma_f xs n) None = None <-> (i + 1 < n)%nat).
Proof.
  intros xs n i Hn Hi. split; [unfold sma_f; now rewrite map_length, seq_length|]. rewrite sma_f_nth by auto.
  destruct (Nat.ltb_spec (i + 1) n); split; intro; try lia; auto; discriminate.
Qed.
Theorem C155_near : forall xs n i, (1 <= n <= i + 1)%nat -> (i < length xs)%nat ->
  exists a m M, nth i (sma_f xs n) None = Some a /\ is_mean m (window (at_ xs) i n) /\
    is_mean M (map Qabs (window (at_ xs) i n)) /\ near (n + 2) a m M.
Proof.
  intros xs n i Hn Hi. destruct (sma_f_near xs n i Hn Hi) as (a & E & N). pose proof (Qnat_pos n ltac:(lia)) as P.
  exists a, (1 / Qnat n * qsum (window (at_ xs) i n)), (1 / Qnat n * asum (window (at_ xs) i n)). split; [exact E|].
  unfold is_mean. rewrite map_length, window_length. split; [field; lra|]. split; [unfold asum; field; lra|exact N].
Qed.
Theorem C155_range : forall xs n i a lo hi M, (1 <= n <= i + 1)%nat -> (i < length xs)%nat -> nth i (sma_f xs n) None = Some a ->
  (forall x, In x (window (at_ xs) i n) -> lo <= x <= hi /\ Qabs x <= M) ->
  let e := (1 + u53) ^ Z.of_nat (n + 2) - 1 in lo - e * M <= a <= hi + e * M.
Proof.
  intros xs n i a lo hi M Hn Hi E H e. destruct (C155_near xs n i Hn Hi) as (a' & m & M' & E' & Hm & HM & [N1 N2]).
  rewrite E' in E. injection E as ->. fold e in N2. assert (E0 : 0 <= e) by apply (ee_nonneg (n + 2)).
  destruct (qsum_bounds (window (at_ xs) i n) lo hi ltac:(intros x Hx; apply H; auto)) as [B1 B2].
  destruct (qsum_bounds (map Qabs (window (at_ xs) i n)) 0 M) as [_ B3].
  { intros x Hx. apply in_map_iff in Hx. destruct Hx as (y & <- & Hy). split; [apply Qabs_nonneg|now apply H]. }
  unfold is_mean in *. rewrite map_length, window_length in *. pose proof (Qnat_pos n ltac:(lia)) as P.
  assert (lo <= m) by (apply (Qmult_le_r _ _ (Qnat n)); lra). assert (m <= hi) by (apply (Qmult_le_r _ _ (Qnat n)); lra).
  assert (M' <= M) by (apply (Qmult_le_r _ _ (Qnat n)); lra). apply Qabs_Qle_condition in N2.
  assert (e * M' <= e * M) by (rewrite !(Qmult_comm e); apply Qmult_le_compat_r; auto). lra.
Qed.
(** Exact for a window length that is a power of two and data on a binary grid. *)
Theorem C155_exact : forall xs n k g i, n = Nat.pow 2 k -> (n <= i + 1)%nat -> (i < length xs)%nat ->
  (forall x, In x (window (at_ xs) i n) -> grid g x) -> qsum (map Qabs (window (at_ xs) i n)) <= Qpower 2 (53 + g) ->
  exists a, nth i (sma_f xs n) None = Some a /\ is_mean a (window (at_ xs) i n).
Proof.
  intros xs n k g i En Hn Hi G B. destruct (sma_f_grid xs n (Z.of_nat k) g i) as (a & E & M); auto; [|lia|].
  - rewrite En, Nat2Z.inj_pow. reflexivity.
  - exists a. split; [exact E|]. unfold is_mean. rewrite window_length. exact M.
Qed.
(** The average of 49 ones is not 1, that of ten times 0.1 is below 0.1. *)
Theorem C155_constant_refuted : (exists xs n i a, (forall x, In x xs -> x = 1) /\ nth i (sma_f xs n) None = Some a /\ a < 1) /\
  exists xs n i a, (forall x, In x xs -> x = f01) /\ nth i (sma_f xs n) None = Some a /\ a < f01.
Proof.
  split.
  - exists (repeat 1 49), 49%nat, 48%nat. eexists. split; [intros x H; now apply repeat_spec in H|].
    split; [vm_compute; reflexivity|vm_compute; reflexivity].
  - exists (repeat f01 10), 10%nat, 9%nat. eexists. split; [intros x H; now apply repeat_spec in H|].
    split; [vm_compute; reflexivity|vm_compute; reflexivity].
Qed.
Example C155_example : let w := window (at_ [1; 3 # 4; -(2); 5]) 3 4 in
  (forall x, In x w -> grid (-2) x) /\ qsum (map Qabs w) <= Qpower 2 (53 + -2) /\
  sma_f [1; 3 # 4; -(2); 5] 4 = [None; None; None; Some (19 # 16)] /\ sma_f [f01; 3] 2 = [None; Some (0x1.8cccccccccccd%xQ)].
Proof.
  cbv zeta. split; [|split; [vm_compute; discriminate|split; vm_compute; reflexivity]].
  intros x Hx. vm_compute in Hx. destruct Hx as [<-|[<-|[<-|[<-|[]]]]]; [exists 4%Z|exists 3%Z|exists (-8)%Z|exists 20%Z]; reflexivity.
Qed.

(** * C156  Distance from the volume-weighted average price *)
(** The distance of price c from w/v, each operation rounded. *)
Definition rounded_distance (ln : Q -> Q) (is_log : bool) (c w v : Q) (o : ext) : Prop :=
  let p := rnd 53 (w / v) in let x := rnd 53 (c / p) in
  ~ p == 0 /\ (if is_log then (0 < x -> o = Fin (ln x)) else o = Fin (rnd 53 (x - 1))).
Lemma rounded_of ln lg c w v o : vwap_dist_f ln lg c w v = Ok o -> rounded_distance ln lg c w v o.
Proof.
  intro E. apply vwap_dist_f_inv in E. destruct E as [N E]. split; [exact N|]. destruct lg; [|exact E].
  intro P. rewrite E. unfold flog. fold r53 in *. change (rnd 53 (c / rnd 53 (w / v))) with (r53 (c / r53 (w / v))) in *.
  destruct (Qltb_spec 0 (r53 (c / r53 (w / v)))); [reflexivity|lra].
Qed.
(** The sums at row i carry i + 2 relative errors against everything that ever passed through the
    window. *)
Theorem C156_near : forall ln close volume n is_log out i, (1 <= n)%nat ->
  vwap_distance_f ln close volume n is_log = Ok out -> (i < length close)%nat ->
  let pv j := at_ close j * at_ volume j in
  let total f := qsum (map (fun j => Qabs (f j)) (seq 0 (i + 1))) in
  length out = length close /\
  ((i + 1 < n)%nat -> nth i out NaN = NaN) /\
  ((n <= i + 1)%nat -> exists w v,
     near (i + 2) w (qsum (window pv i n)) (2 * total pv) /\ near (i + 2) v (qsum (window (at_ volume) i n)) (2 * total (at_ volume)) /\
     (0 < v -> rounded_distance ln (is_log && (n <=? i)%nat) (at_ close i) w v (nth i out NaN)) /\
     (v <= 0 -> nth i out NaN = if (n <=? i)%nat then nth (i - 1) out NaN else NaN)).
Proof.
  intros ln close volume n lg out i Hn E Hi pv total. destruct (vwap_f_nth _ _ _ _ _ _ _ E Hi) as [L _]. split; [exact L|].
  destruct (vwap_f_out ln close volume n lg out i Hn E Hi) as [O1 [O2 O3]]. split; [exact O1|]. intro H.
  destruct (vwap_f_near ln close volume n lg Hn (i + 1 - n)) as [W V]. replace (n - 1 + (i + 1 - n))%nat with i in W, V by lia.
  set (st := vwap_state_f ln close volume n lg (i + 1 - n)) in *. exists (fst (fst st)), (snd (fst st)).
  assert (T : forall f, tot_abs f (n + (i + 1 - n)) + tot_abs f (i + 1 - n) <= 2 * total f).
  { intro f. replace (n + (i + 1 - n))%nat with (i + 1)%nat by lia. pose proof (tot_abs_mono f (i + 1 - n) (i + 1) ltac:(lia)).
    change (total f) with (tot_abs f (i + 1)). lra. }
  split; [eapply near_le; [|apply T|exact W]; lia|]. split; [eapply near_le; [|apply T|exact V]; lia|].
  destruct (Nat.leb_spec n i) as [K|K]; [specialize (O2 K)|specialize (O3 ltac:(lia))];
    destruct (Qltb_spec 0 (snd (fst st))) as [P|P]; split; intro C; try lra;
    rewrite ?Bool.andb_true_r, ?Bool.andb_false_r; auto; now apply rounded_of.
Qed.
(** Exact sums for prices and volumes on binary grids: the call succeeds, and the rounded distance
    is taken from the true window sums. *)
Theorem C156_exact : forall ln close volume n is_log g h, (1 <= n)%nat -> length volume = length close ->
  (forall j, (j < length close)%nat -> grid g (at_ close j) /\ 0 < at_ close j) ->
  (forall j, (j < length close)%nat -> grid h (at_ volume j) /\ 0 <= at_ volume j) ->
  let W i := qsum (window (fun j => at_ close j * at_ volume j) i n) in
  let V i := qsum (window (at_ volume) i n) in
  (forall i, (n <= i + 1)%nat -> (i < length close)%nat -> W i <= Qpower 2 (53 + (g + h)) /\ V i <= Qpower 2 (53 + h)) ->
  exists out, vwap_distance_f ln close volume n is_log = Ok out /\ forall i, (n <= i + 1)%nat -> (i < length close)%nat ->
    (0 < V i -> rounded_distance ln (is_log && (n <=? i)%nat) (at_ close i) (W i) (V i) (nth i out NaN)) /\
    (V i == 0 -> nth i out NaN = if (n <=? i)%nat then nth (i - 1) out NaN else NaN).
Proof.
  intros ln close volume n lg g h Hn Lv Hp Hv W V B.
  assert (S0 : forall i, (n <= i + 1)%nat -> (i < length close)%nat ->
     fst (fst (vwap_state_f ln close volume n lg (i + 1 - n))) == W i /\ snd (fst (vwap_state_f ln close volume n lg (i + 1 - n))) == V i).
  { intros i H Hi. destruct (vwap_f_grid ln close volume n lg Hn g h) with (k := (i + 1 - n)%nat) as [A C];
      [intros j Hj; destruct (Hp j Hj); split; [auto|lra]|exact Hv|intros; now apply B|intros; now apply B|lia|].
    replace (n - 1 + (i + 1 - n))%nat with i in A, C by lia. split; auto. }
  assert (WP : forall i, (n <= i + 1)%nat -> (i < length close)%nat -> 0 < V i -> 0 < W i).
  { intros i H Hi P. assert (N : forall y, In y (map (fun j => at_ close j * at_ volume j) (seq (i + 1 - n) n)) -> 0 <= y).
    { intros y Hy. apply in_map_iff in Hy. destruct Hy as (j & <- & Hj). apply in_seq in Hj. destruct (Hp j ltac:(lia)), (Hv j ltac:(lia)). nra. }
    destruct (Qlt_le_dec 0 (W i)) as [|C]; [auto|exfalso]. unfold W, window in C.
    assert (Z0 : V i == 0).
    { unfold V, window. rewrite (qsum_map_ext_seq (at_ volume) (fun _ => 0)); [rewrite qsum_map_const; ring|].
      intros j Hj. destruct (Hp j ltac:(lia)), (Hv j ltac:(lia)).
      assert (Z1 : at_ close j * at_ volume j == 0) by (apply (qsum_zero_all _ N C); apply in_map_iff; exists j; split; [auto|apply in_seq; lia]).
      destruct (Qmult_integral _ _ Z1); lra. }
    lra. }
  assert (D : forall lg' c w v i, (n <= i + 1)%nat -> (i < length close)%nat -> w == W i -> v == V i -> 0 < v -> exists a, vwap_dist_f ln lg' c w v = Ok a).
  { intros lg' c w v i H Hi Ew Ev P. unfold vwap_dist_f. cbv zeta. destruct (Qeqb_spec (r53 (w / v)) 0) as [Z0|]; [exfalso|destruct lg'; eauto].
    rewrite r53_zero in Z0. pose proof (WP i H Hi ltac:(lra)).
    assert (w == 0) by (setoid_replace w with (w / v * v) by (field; lra); rewrite Z0; ring). lra. }
  assert (T : exists out, vwap_distance_f ln close volume n lg = Ok out).
  { apply collect_exists. intros x Hx. apply in_map_iff in Hx. destruct Hx as (i & <- & Hi). apply in_seq in Hi.
    destruct (Nat.ltb_spec (i + 1) n) as [|K]; [eauto|].
    assert (G : forall k, (n + k <= length close)%nat -> exists a, snd (vwap_state_f ln close volume n lg k) = Ok a).
    { induction k as [|k IH]; intro Hk.
      - destruct (S0 (n - 1)%nat ltac:(lia) ltac:(lia)) as [A C]. replace (n - 1 + 1 - n)%nat with 0%nat in A, C by lia.
        cbn [vwap_state_f] in *. cbv zeta in *. cbn [fst snd] in *.
        destruct (Qltb_spec 0 (fold_left (fun s j => r53 (s + qn volume j)) (seq 0 n) 0)) as [P|]; [|eauto].
        apply (D _ _ _ _ (n - 1)%nat); auto; lia.
      - destruct (S0 (n + k)%nat ltac:(lia) ltac:(lia)) as [A C]. replace (n + k + 1 - n)%nat with (S k) in A, C by lia.
        cbn [vwap_state_f] in *. cbv zeta in *. cbn [fst snd] in *.
        destruct (Qltb_spec 0 (r53 (snd (fst (vwap_state_f ln close volume n lg k)) + r53 (qn volume (n + k) - qn volume (n + k - n))))) as [P|];
          [|apply IH; lia].
        apply (D _ _ _ _ (n + k)%nat); auto; lia. }
    apply G. lia. }
  destruct T as [out E]. exists out. split; [exact E|]. intros i H Hi. destruct (vwap_f_out ln close volume n lg out i Hn E Hi) as [_ [O2 O3]].
  destruct (S0 i H Hi) as [A C]. set (st := vwap_state_f ln close volume n lg (i + 1 - n)) in *.
  destruct (Nat.leb_spec n i) as [K|K]; [specialize (O2 K); clear O3; rename O2 into O|specialize (O3 ltac:(lia)); clear O2; rename O3 into O];
    (destruct (Qltb_spec 0 (snd (fst st))) as [P|P]; split; intro Q0; try lra; rewrite ?Bool.andb_true_r, ?Bool.andb_false_r; auto);
    apply rounded_of; rewrite <- O; symmetry; now apply vwap_dist_f_comp.
Qed.
(** A window without volume does not repeat the last value: with volumes 0.1, 0.2, 0.3 and then
    none, a residue of 2^-53 stays in the sum and the distance follows the price to 400%. *)
Theorem C156_empty_window_refuted : forall ln, exists close volume n out i, (forall x, In x close -> 0 < x) /\ Forall (fl 53) volume /\
  (forall x, In x volume -> 0 <= x) /\ vwap_distance_f ln close volume n false = Ok out /\ (n <= i < length close)%nat /\
  (forall x, In x (window (at_ volume) i n) -> x = 0) /\ nth (i - 1) out NaN = Fin 2 /\ nth i out NaN = Fin 4 /\
  exists ex, vwap_distance ln close volume n false = Ok ex /\ nth i ex NaN = nth (i - 1) ex NaN.
Proof.
  intro ln. exists [1; 1; 1; 1; 2; 3; 5], [f01; 3602879701896397 # 18014398509481984; 5404319552844595 # 18014398509481984; 0; 0; 0; 0], 3%nat.
  eexists. exists 6%nat.
  split; [intros x [<-|[<-|[<-|[<-|[<-|[<-|[<-|[]]]]]]]]; reflexivity|].
  split. { repeat constructor; try (apply fl_0; lia); [exact f01_fl| |].
    - exists 7205759403792794%Z, (-55)%Z. split; [reflexivity|vm_compute; reflexivity].
    - exists 5404319552844595%Z, (-54)%Z. split; [reflexivity|vm_compute; reflexivity]. }
  split; [intros x [<-|[<-|[<-|[<-|[<-|[<-|[<-|[]]]]]]]]; discriminate|].
  split; [vm_compute; reflexivity|]. split; [cbn [length]; lia|].
  split; [intros x Hx; vm_compute in Hx; destruct Hx as [<-|[<-|[<-|[]]]]; reflexivity|].
  split; [reflexivity|]. split; [reflexivity|]. eexists. split; [vm_compute; reflexivity|reflexivity].
Qed.
(** One large trade spoils all later rows: however long ago it left the window, with nothing but
    trades of size 1 at price 3 the VWAP is taken to be 7. *)
Theorem C156_recovers_refuted : forall ln m, exists close volume out, length close = (m + 3)%nat /\ length volume = (m + 3)%nat /\
  Forall (fl 53) volume /\ vwap_distance_f ln close volume 2 false = Ok out /\
  (forall j, (1 <= j < m + 3)%nat -> at_ close j = 3 /\ at_ volume j = 1) /\
  (forall i, (2 <= i < m + 3)%nat -> exists d, nth i out NaN = Fin d /\ d < - (1 # 2)) /\
  exists ex, vwap_distance ln close volume 2 false = Ok ex /\ forall i, (3 <= i < m + 3)%nat -> exists d, nth i ex NaN = Fin d /\ d == 0.
Proof.
  intros ln m. set (cl := big_close m). set (vo := big_volume m).
  assert (Lc : length cl = (m + 3)%nat) by (unfold cl, big_close; cbn [length]; rewrite repeat_length; lia).
  assert (Lv : length vo = (m + 3)%nat) by (unfold vo, big_volume; cbn [length]; rewrite repeat_length; lia).
  assert (C : forall j, (1 <= j < m + 3)%nat -> at_ cl j = 3 /\ at_ vo j = 1).
  { intros [|j] Hj; [lia|]. unfold at_, cl, vo, big_close, big_volume. split; cbn [nth]; apply nth_rep; lia. }
  assert (F0 : at_ cl 0 = 1 /\ at_ vo 0 = big) by (split; reflexivity).
  destruct (C52_total ln cl vo 2 false) as [ex Eex]; [lia|lia| |].
  { intros [|j] Hj; [destruct F0 as [-> ->]; split; [reflexivity|discriminate]|]. destruct (C (S j) ltac:(lia)) as [-> ->]. split; [reflexivity|discriminate]. }
  assert (T : forall k, (k <= m)%nat -> exists d, snd (vwap_state_f ln cl vo 2 false (S k)) = Ok (Fin d) /\ d < - (1 # 2)).
  { intros k Hk. pose proof (big_state ln m k Hk) as E. fold cl vo in E.
    assert (U : forall st, st = vwap_state_f ln cl vo 2 false (S k) -> snd st =
       if Qltb 0 (snd (fst st)) then vwap_dist_f ln false (at_ cl (2 + k)) (fst (fst st)) (snd (fst st)) else snd (vwap_state_f ln cl vo 2 false k))
      by (intros st ->; reflexivity).
    rewrite (U _ eq_refl), E. destruct (C (2 + k)%nat ltac:(lia)) as [-> _].
    eexists. split; [vm_compute; reflexivity|vm_compute; reflexivity]. }
  assert (E : exists out, vwap_distance_f ln cl vo 2 false = Ok out).
  { apply collect_exists. intros x Hx. apply in_map_iff in Hx. destruct Hx as (i & <- & Hi). apply in_seq in Hi.
    destruct (Nat.ltb_spec (i + 1) 2) as [|K]; [eauto|]. destruct i as [|[|i]]; [lia| |].
    - replace (1 + 1 - 2)%nat with 0%nat by lia. cbn [vwap_state_f]. cbv zeta. cbn [snd].
      change (seq 0 2) with [0; 1]%nat. cbn [fold_left]. change (qn cl) with (at_ cl). change (qn vo) with (at_ vo). change (2 - 1)%nat with 1%nat.
      destruct F0 as [-> ->]. destruct (C 1%nat ltac:(lia)) as [-> ->]. eexists. vm_compute. reflexivity.
    - replace (S (S i) + 1 - 2)%nat with (S i) by lia. destruct (T i ltac:(lia)) as (d & -> & _). eauto. }
  destruct E as [out E]. exists cl, vo, out. split; [auto|]. split; [auto|]. split.
  { unfold vo, big_volume. constructor; [exists 1%Z, 53%Z; split; reflexivity|]. apply Forall_forall. intros x Hx. apply repeat_spec in Hx. subst.
    exists 1%Z, 0%Z. split; reflexivity. }
  split; [exact E|]. split; [exact C|]. split.
  - intros i Hi. destruct (vwap_f_nth ln cl vo 2 false out i E ltac:(lia)) as [_ H]. replace (i + 1 <? 2)%nat with false in H by (symmetry; apply Nat.ltb_ge; lia).
    replace (i + 1 - 2)%nat with (S (i - 2)) in H by lia. destruct (T (i - 2)%nat ltac:(lia)) as (d & Ed & Hd). rewrite Ed in H. injection H as <-. eauto.
  - exists ex. split; [exact Eex|]. intros i Hi.
    destruct (C52_rolling_partial ln cl vo 2 false ex i ltac:(lia) Eex ltac:(lia)) as [_ [H _]].
    assert (S1 : forall f, qsum (window f i 2) == f (i - 1)%nat + f i).
    { intro f. unfold window. replace (i + 1 - 2)%nat with (i - 1)%nat by lia. cbn [seq map qsum fold_right].
      replace (S (i - 1)) with i by lia. ring. }
    destruct (C i ltac:(lia)) as [C1 C2], (C (i - 1)%nat ltac:(lia)) as [C3 C4].
    destruct (H ltac:(lia)) as (x & Hx & d & Ed & Hd). { rewrite S1, C2, C4. reflexivity. }
    exists d. split; [exact Ed|]. rewrite !S1, C1, C2, C3, C4 in Hx. lra.
Qed.
Example C156_example : let close := [1; 3; 2; 5] in let volume := [1; 1; 3; 0] in
  (forall j, (j < 4)%nat -> (grid 0 (at_ close j) /\ 0 < at_ close j) /\ grid 0 (at_ volume j) /\ 0 <= at_ volume j) /\
  (forall i, (2 <= i + 1)%nat -> (i < 4)%nat ->
     qsum (window (fun j => at_ close j * at_ volume j) i 2) <= Qpower 2 (53 + (0 + 0)) /\ qsum (window (at_ volume) i 2) <= Qpower 2 (53 + 0)) /\
  vwap_distance_f (fun x => x) close volume 2 false =
    Ok [NaN; Fin (1 # 2); Fin (-250199979298361 # 2251799813685248); Fin (3 # 2)].
Proof.
  cbv zeta. split; [|split; [|vm_compute; reflexivity]].
  - intros [|[|[|[|j]]]] Hj; [..|lia]; (split; [split|split]); try (vm_compute; congruence).
    all: first [now exists 0%Z|now exists 1%Z|now exists 2%Z|now exists 3%Z|now exists 5%Z].
  - intros [|[|[|[|i]]]] H Hi; try lia; vm_compute; split; discriminate.
Qed.

(** * C157  VPIN *)
Definition total_known (b s : list (option Q)) (i : nat) : Q := qsum (map (fun t => known b t + known s t) (seq 0 (i + 1))).
Lemma known_nonneg l : (forall x, In (Some x) l -> 0 <= x) -> forall t, 0 <= known l t.
Proof.
  intros H t. unfold known. destruct (nth t l None) eqn:E; [|lra]. apply H. rewrite <- E.
  destruct (Nat.lt_ge_cases t (length l)); [apply nth_In; auto|rewrite nth_overflow in E by auto; discriminate].
Qed.
Lemma total_val b s i : (forall x, In (Some x) b -> 0 <= x) -> (forall x, In (Some x) s -> 0 <= x) ->
  prefix (fun t => vp_val b s b t + vp_val b s s t) (i + 1) <= total_known b s i.
Proof.
  intros Hb Hs. rewrite prefix_ssum. unfold ssum, total_known. replace (i + 1 - 0)%nat with (i + 1)%nat by lia. apply qsum_le.
  intros t _. pose proof (known_nonneg b Hb t). pose proof (known_nonneg s Hs t). unfold vp_val. destruct (vp_nan b s t); [lra|].
  unfold known in *. lra.
Qed.
Theorem C157_near : forall b s n i a, (forall x, In (Some x) b -> 0 <= x) -> (forall x, In (Some x) s -> 0 <= x) ->
  (1 <= n)%nat -> (i < length b)%nat -> nth i (vpin_f b s n) None = Some a ->
  0 <= a /\ (n <= i + 1)%nat /\ (forall t, (i < t + n)%nat -> (t <= i)%nat -> nth t b None <> None /\ nth t s None <> None) /\
  exists imb tot, a = rnd 24 (rnd 53 (imb / tot)) /\ 0 < tot /\
    near (i + 3) imb (last_sum (fun t => Qabs (known b t - known s t)) i n) (2 * total_known b s i) /\
    near (i + 3) tot (last_sum (fun t => known b t + known s t) i n) (2 * total_known b s i).
Proof.
  intros b s n i a Hb Hs Hn Hi E. split; [exact (vpin_f_nonneg b s n i a Hb Hs Hi E)|].
  destruct (vpin_f_near b s n i a Hb Hs Hn Hi E) as (K & NN & imb & tot & Ea & Ht & N1 & N2).
  split; [exact K|]. split; [intros t T1 T2; apply vp_nan_iff; auto|]. exists imb, tot. split; [exact Ea|].
  assert (0 < r53 (1 # 1000000000)) by (apply r53_pos; reflexivity). split; [lra|]. pose proof (total_val b s i Hb Hs) as T.
  assert (V : forall t, (i < t + n)%nat -> (t <= i)%nat -> forall l, vp_val b s l t = known l t) by (intros t T1 T2 l; unfold vp_val; rewrite NN by auto; reflexivity).
  split.
  - apply (near_le (i + 3) (i + 3) _ _ (2 * prefix (fun t => vp_val b s b t + vp_val b s s t) (i + 1))); [lia|lra|].
    eapply near_comp; [reflexivity| |reflexivity|exact N1]. apply vpin_window; [auto|]. intros t T1 T2. unfold vp_abs. now rewrite !V by auto.
  - apply (near_le (i + 3) (i + 3) _ _ (2 * prefix (fun t => vp_val b s b t + vp_val b s s t) (i + 1))); [lia|lra|].
    eapply near_comp; [reflexivity| |reflexivity|exact N2]. apply vpin_window; [auto|]. intros t T1 T2. now rewrite !V by auto.
Qed.
(** Exact sums for volumes on a binary grid. *)
Theorem C157_exact : forall b s n i g, length s = length b -> (-29 <= g)%Z -> (1 <= n)%nat -> (i < length b)%nat ->
  (forall x, In (Some x) b -> 0 <= x /\ grid g x) -> (forall x, In (Some x) s -> 0 <= x /\ grid g x) ->
  total_known b s i <= Qpower 2 (53 + g) ->
  let full := (n <= i + 1)%nat /\ (forall t, (i < t + n)%nat -> (t <= i)%nat -> nth t b None <> None /\ nth t s None <> None) in
  let tot := last_sum (fun t => known b t + known s t) i n in
  (full -> 1 # 1000000000 < tot -> exists x, x * tot == last_sum (fun t => Qabs (known b t - known s t)) i n /\
     nth i (vpin_f b s n) None = Some (rnd 24 (rnd 53 x)) /\ 0 <= rnd 24 (rnd 53 x) <= 1) /\
  (~ full \/ tot <= 1 # 1000000000 -> nth i (vpin_f b s n) None = None).
Proof.
  intros b s n i g Ls Hg Hn Hi Hb Hs B full tot.
  assert (Hb0 : forall x, In (Some x) b -> 0 <= x) by (intros; now apply Hb). assert (Hs0 : forall x, In (Some x) s -> 0 <= x) by (intros; now apply Hs).
  pose proof (total_val b s i Hb0 Hs0) as T.
  pose proof (vpin_f_grid b s n i g Hg Hn Hi Hb Hs ltac:(unfold two; lra)) as M.
  destruct (C51_vpin b s n i Ls Hn Hi) as [_ [H1 H2]]. split.
  - intros F P. destruct (H1 F P) as (x & Ex & Hx). rewrite Ex in M. destruct (nth i (vpin_f b s n) None) as [a|]; [|contradiction]. subst a.
    exists x. split; [exact Hx|]. split; [reflexivity|].
    pose proof (C51_range b s n i x Ls Hn Hi Hb0 Hs0 Ex) as R.
    assert (F1 : forall p, (1 <= p)%Z -> fl p 1) by (intros p Hp; apply (fl_comp p (two 0)); [reflexivity|apply two_fl; lia]).
    assert (0 <= rnd 53 x <= 1) by (split; [apply r53_nonneg; lra|apply rnd_le; [lia|apply F1; lia|lra]]).
    split; [apply rnd_ge; [lia|apply fl_0; lia|lra]|apply rnd_le; [lia|apply F1; lia|lra]].
  - intro F. rewrite (H2 F) in M. destruct (nth i (vpin_f b s n) None); [contradiction|reflexivity].
Qed.
(** After a bar of 2^53 bought units a bar of three sold units has a VPIN of 4/3. *)
Theorem C157_range_refuted : exists b s n i a, (forall x, In (Some x) b -> 0 <= x /\ fl 53 x) /\ (forall x, In (Some x) s -> 0 <= x /\ fl 53 x) /\
  nth i (vpin_f b s n) None = Some a /\ 1 < a.
Proof.
  exists [Some 9007199254740992; Some 0], [Some 0; Some 3], 1%nat, 1%nat. eexists.
  assert (F : fl 53 0 /\ fl 53 3 /\ fl 53 9007199254740992).
  { split; [apply fl_0; lia|]. split; [exists 3%Z, 0%Z; split; reflexivity|exists 1%Z, 53%Z; split; reflexivity]. }
  split; [|split; [|split; [vm_compute; reflexivity|vm_compute; reflexivity]]]; intros x [E|[E|[]]]; injection E as <-; split; try tauto; discriminate.
Qed.
Example C157_example : (forall x, In (Some x) [Some 3; Some (1 # 2); None; Some 2] -> 0 <= x /\ grid (-1) x) /\
  total_known [Some 3; Some (1 # 2); None; Some 2] [Some 1; Some 1; Some 1; Some 4] 3 <= Qpower 2 (53 + -1) /\
  vpin_f [Some 3; Some (1 # 2); None; Some 2] [Some 1; Some 1; Some 1; Some 4] 1 = [Some (1 # 2); Some (11184811 # 33554432); None; Some (11184811 # 33554432)].
Proof.
  split; [|split; [vm_compute; discriminate|vm_compute; reflexivity]].
  intros x [E|[E|[E|[E|[]]]]]; try discriminate; injection E as <-; split; try discriminate; [exists 6%Z|exists 1%Z|exists 4%Z]; reflexivity.
Qed.

(** * C158  Flow acceleration *)
Definition eps12 : Q := rnd 53 (1 # 1000000000000).
(** The logarithm is always taken of a positive number. *)
Theorem C158_defined : forall ln v n r i, (forall x, In x v -> 0 <= x) -> (r < n)%nat -> (n <= i + 1)%nat -> (i < length v)%nat ->
  exists x, nth i (comp_flow_acceleration_f ln v n r) None = Some (ln x) /\ 0 < x.
Proof.
  intros ln v n r i H Hr Hn Hi. unfold comp_flow_acceleration_f. cbv zeta. destruct (Nat.ltb_spec (length v) n); [lia|].
  destruct (Nat.leb_spec n r); [lia|]. cbn [orb]. rewrite nth_map_seq by auto. destruct (Nat.ltb_spec i (n - 1)); [lia|].
  exists (flow_arg_f v n r i). split; [reflexivity|]. apply flow_arg_pos; [auto|lia].
Qed.
Theorem C158_near : forall ln v n r i, (forall x, In x v -> 0 <= x) -> (r < n)%nat -> (n <= i + 1)%nat -> (i < length v)%nat ->
  exists recent past, nth i (comp_flow_acceleration_f ln v n r) None =
      Some (ln (rnd 53 (rnd 53 (recent + eps12) / rnd 53 (past + eps12)))) /\ 0 <= recent /\ 0 <= past /\
    near (i + 2) recent (last_sum (at_ v) i r) (2 * qsum (map (at_ v) (seq 0 (i + 1)))) /\
    near (i + 2) past (last_sum (at_ v) (i - r) (n - r)) (2 * qsum (map (at_ v) (seq 0 (i + 1)))).
Proof.
  intros ln v n r i H Hr Hn Hi. unfold comp_flow_acceleration_f. cbv zeta. destruct (Nat.ltb_spec (length v) n); [lia|].
  destruct (Nat.leb_spec n r); [lia|]. cbn [orb]. rewrite nth_map_seq by auto. destruct (Nat.ltb_spec i (n - 1)); [lia|].
  assert (P : forall j, 0 <= at_ v j) by (intro; now apply nth_nonneg).
  set (f := prefix_f (at_ v)). exists (r53 (f (i + 1)%nat - f (i + 1 - r)%nat)), (r53 (f (i + 1 - r)%nat - f (i + 1 - n)%nat)).
  split; [reflexivity|].
  split; [apply r53_nonneg; pose proof (prefix_f_mono (at_ v) (i + 1 - r) (i + 1) P ltac:(lia)); unfold f; lra|].
  split; [apply r53_nonneg; pose proof (prefix_f_mono (at_ v) (i + 1 - n) (i + 1 - r) P ltac:(lia)); unfold f; lra|].
  assert (T : qsum (map (at_ v) (seq 0 (i + 1))) == prefix (at_ v) (i + 1)) by (rewrite prefix_ssum; unfold ssum; now replace (i + 1 - 0)%nat with (i + 1)%nat by lia).
  assert (X : forall t, near 0 (at_ v t) (at_ v t) (at_ v t)) by (intro t; apply near_exact; rewrite Qabs_pos; [lra|apply P]).
  pose proof (vp_diff_near 0 (at_ v) (at_ v) (at_ v) (i + 1) (i + 1 - r) ltac:(lia) P X) as D1.
  pose proof (vp_diff_near 0 (at_ v) (at_ v) (at_ v) (i + 1 - r) (i + 1 - n) ltac:(lia) P X) as D2.
  pose proof (prefix_mono (at_ v) (i + 1 - r) (i + 1) ltac:(intros; apply P) ltac:(lia)) as M.
  pose proof (prefix_window (at_ v) i r ltac:(lia)) as W1. pose proof (prefix_window (at_ v) (i - r) (n - r) ltac:(lia)) as W2.
  replace (i - r + 1)%nat with (i + 1 - r)%nat in W2 by lia. replace (i + 1 - r - (n - r))%nat with (i + 1 - n)%nat in W2 by lia.
  fold f in D1, D2. split.
  - eapply near_le; [| |eapply near_comp; [reflexivity|exact W1|reflexivity|exact D1]]; [lia|]. rewrite T. lra.
  - eapply near_le; [| |eapply near_comp; [reflexivity|exact W2|reflexivity|exact D2]]; [lia|]. rewrite T. lra.
Qed.
Theorem C158_exact : forall ln v n r i g, (r < n)%nat -> (n <= i + 1)%nat -> (i < length v)%nat ->
  (forall x, In x v -> 0 <= x /\ grid g x) -> qsum (map (at_ v) (seq 0 (i + 1))) <= Qpower 2 (53 + g) ->
  exists recent past, recent == last_sum (at_ v) i r /\ past == last_sum (at_ v) (i - r) (n - r) /\
    nth i (comp_flow_acceleration_f ln v n r) None = Some (ln (rnd 53 (rnd 53 (recent + eps12) / rnd 53 (past + eps12)))).
Proof.
  intros ln v n r i g Hr Hn Hi H B. unfold comp_flow_acceleration_f. cbv zeta. destruct (Nat.ltb_spec (length v) n); [lia|].
  destruct (Nat.leb_spec n r); [lia|]. cbn [orb]. rewrite nth_map_seq by auto. destruct (Nat.ltb_spec i (n - 1)); [lia|].
  set (f := prefix_f (at_ v)). exists (r53 (f (i + 1)%nat - f (i + 1 - r)%nat)), (r53 (f (i + 1 - r)%nat - f (i + 1 - n)%nat)).
  assert (P : forall j, grid g (at_ v j) /\ 0 <= at_ v j).
  { intro j. unfold at_. destruct (Nat.lt_ge_cases j (length v)) as [L|L].
    - destruct (H (nth j v 0) ltac:(now apply nth_In)); auto.
    - rewrite nth_overflow by auto. split; [exists 0%Z; ring|lra]. }
  assert (T : qsum (map (at_ v) (seq 0 (i + 1))) == prefix (at_ v) (i + 1)) by (rewrite prefix_ssum; unfold ssum; now replace (i + 1 - 0)%nat with (i + 1)%nat by lia).
  assert (M : forall j k, (j <= k)%nat -> prefix (at_ v) j <= prefix (at_ v) k) by (intros; apply prefix_mono; [intros; apply P|auto]).
  assert (E : forall k, (k <= i + 1)%nat -> f k == prefix (at_ v) k).
  { intros k Hk. apply (prefix_f_grid g). - intros j _. destruct (P j). repeat split; auto.
    - pose proof (M k (i + 1)%nat Hk). unfold two. lra. }
  assert (D : forall j k, (j <= k)%nat -> (k <= i + 1)%nat -> r53 (f k - f j) == prefix (at_ v) k - prefix (at_ v) j).
  { intros j k J K. rewrite (r53_eq _ (prefix (at_ v) k - prefix (at_ v) j)) by (rewrite !E by lia; reflexivity).
    apply (r53_grid g).
    - destruct (prefix_grid g (at_ v) k ltac:(intros; apply P)) as [a Ea], (prefix_grid g (at_ v) j ltac:(intros; apply P)) as [c Ec].
      exists (a - c)%Z. rewrite Ea, Ec, <- Z.add_opp_r, inject_Z_plus, inject_Z_opp. ring.
    - pose proof (M j k J). pose proof (M k (i + 1)%nat K). pose proof (M 0%nat j ltac:(lia)) as M0. cbn [prefix] in M0.
      rewrite Qabs_pos by lra. unfold two. lra. }
  pose proof (prefix_window (at_ v) i r ltac:(lia)) as W1. pose proof (prefix_window (at_ v) (i - r) (n - r) ltac:(lia)) as W2.
  replace (i - r + 1)%nat with (i + 1 - r)%nat in W2 by lia. replace (i + 1 - r - (n - r))%nat with (i + 1 - n)%nat in W2 by lia.
  split; [rewrite D by lia; exact W1|]. split; [rewrite D by lia; exact W2|reflexivity].
Qed.
(** After a bar of 2^53 units, any number of bars of one unit later, one recent bar against two
    past ones counts as equal flow: the logarithm is taken of 1 instead of about 1/2. *)
Theorem C158_recovers_refuted : forall ln m, exists v, length v = S m /\ Forall (fl 53) v /\
  forall i, (3 <= i <= m)%nat -> (forall j, (1 <= j <= i)%nat -> at_ v j = 1) /\
    nth i (comp_flow_acceleration_f ln v 3 1) None = Some (ln 1) /\
    exists y, nth i (comp_flow_acceleration ln v 3 1) None = Some (ln y) /\ y < 2 # 3.
Proof.
  intros ln m. exists (big :: repeat 1 m). split; [cbn [length]; now rewrite repeat_length|]. split.
  { constructor; [exists 1%Z, 53%Z; split; reflexivity|]. apply Forall_forall. intros x Hx. apply repeat_spec in Hx. subst. exists 1%Z, 0%Z. split; reflexivity. }
  intros i Hi. assert (A : forall j, (1 <= j <= i)%nat -> at_ (big :: repeat 1 m) j = 1).
  { intros [|j] Hj; [lia|]. unfold at_. cbn [nth]. apply nth_rep. lia. }
  assert (L : length (big :: repeat 1 m) = S m) by (cbn [length]; now rewrite repeat_length).
  split; [exact A|]. split.
  - unfold comp_flow_acceleration_f. cbv zeta. rewrite L. destruct (Nat.ltb_spec (S m) 3); [lia|]. cbn [orb Nat.leb].
    rewrite nth_map_seq by lia. destruct (Nat.ltb_spec i (3 - 1)); [lia|]. unfold flow_arg_f. cbv zeta. rewrite !prefix_big by lia.
    vm_compute. reflexivity.
  - destruct (C96_flow_acceleration ln (big :: repeat 1 m) 3 1 i ltac:(lia) ltac:(lia)) as [_ [_ [_ C]]]. cbv zeta in C.
    destruct (C ltac:(lia) ltac:(lia)) as (y & Ey & _ & Hy).
    { intros x [<-|Hx]; [discriminate|apply repeat_spec in Hx; subst; discriminate]. }
    exists y. split; [exact Ey|].
    assert (R1 : last_sum (at_ (big :: repeat 1 m)) i 1 == 1).
    { unfold last_sum, window. replace (i + 1 - 1)%nat with i by lia. cbn [seq map qsum fold_right]. rewrite A by lia. ring. }
    assert (R2 : last_sum (at_ (big :: repeat 1 m)) (i - 1) (3 - 1) == 2).
    { unfold last_sum, window. replace (i - 1 + 1 - (3 - 1))%nat with (i - 2)%nat by lia. change (3 - 1)%nat with 2%nat.
      cbn [seq map qsum fold_right]. rewrite !A by lia. ring. }
    rewrite R1, R2 in Hy. lra.
Qed.
Example C158_example : (forall x, In x [3; 1 # 2; 0; 4] -> 0 <= x /\ grid (-1) x) /\
  qsum (map (at_ [3; 1 # 2; 0; 4]) (seq 0 (3 + 1))) <= Qpower 2 (53 + -1) /\
  comp_flow_acceleration_f (fun x => x) [3; 1 # 2; 0; 4] 3 1 =
    [None; None; Some (2829577232651489 # 9903520314283042199192993792); Some (4503599627362615 # 562949953421312)].
Proof.
  split; [|split; [vm_compute; discriminate|]].
  - intros x [<-|[<-|[<-|[<-|[]]]]]; (split; [discriminate|]); [exists 6%Z|exists 1%Z|exists 0%Z|exists 8%Z]; reflexivity.
  - vm_compute. reflexivity.
Qed.

(** * C159  Rolling z-score *)
Lemma near_trans k j a x y B : near k a x (Qabs x) -> near j x y B -> near (k + j) a y B.
Proof.
  rewrite !near_ee. intros [_ H1] [H2 H3]. split; [exact H2|]. rewrite Nat.add_comm, ee_add. pose proof (ee_nonneg k) as Ek. pose proof (ee_nonneg j) as Ej.
  pose proof (Qabs_tri a x y). pose proof (Qabs_le_diff x y). pose proof (Qabs_nonneg y). pose proof (Qabs_nonneg x).
  assert (ee k * Qabs x <= ee k * (B + ee j * B)) by (rewrite !(Qmult_comm (ee k)); apply Qmult_le_compat_r; lra). lra.
Qed.
Lemma qsum_near m (f h : Q -> Q) l : (forall x, near m (f x) (h x) (h x)) -> (forall x, 0 <= f x) -> near m (qsum (map f l)) (qsum (map h l)) (qsum (map h l)).
Proof.
  intros H _. induction l as [|x l IH]; cbn [map qsum fold_right]; [apply near_exact; discriminate|]. now apply near_plus.
Qed.
Lemma sq_pos (d : Q) : 0 <= d * d.
Proof. destruct (Qlt_le_dec d 0); nra. Qed.
Lemma var_f_near l ddof : (ddof < Z.of_nat (length l))%Z ->
  let V := qsum (map (fun x => (x - mean_f l) * (x - mean_f l)) l) / inject_Z (Z.of_nat (length l) - ddof) in
  near (length l + 4) (var_f l ddof) V V.
Proof.
  intros Hd V. set (m := mean_f l) in *. set (f := fun x => let d := r53 (x - m) in r53 (d * d)). set (h := fun x => (x - m) * (x - m)) in *.
  assert (F0 : forall x, 0 <= f x) by (intro x; unfold f; cbv zeta; apply r53_nonneg, sq_pos).
  assert (Fh : forall x, near 3 (f x) (h x) (h x)).
  { intro x. unfold f, h. cbv zeta.
    assert (N : near 1 (r53 (x - m)) (x - m) (Qabs (x - m))) by (apply near_rnd; apply near_exact; lra).
    pose proof (near_rnd _ _ _ _ (near_mult _ _ _ _ _ _ _ _ N N)) as R. eapply near_comp; [reflexivity|reflexivity| |exact R].
    rewrite <- Qabs_Qmult. apply Qabs_pos, sq_pos. }
  pose proof (qsum_near 3 f h l Fh F0) as N1. pose proof (fsum_near (map f l)) as N2. rewrite map_length in N2.
  assert (A0 : asum (map f l) == Qabs (qsum (map f l))).
  { rewrite asum_pos; [|intros x Hx; apply in_map_iff in Hx; destruct Hx as (y & <- & _); apply F0]. symmetry. apply Qabs_pos.
    apply qsum_nonneg. intros x Hx. apply in_map_iff in Hx. destruct Hx as (y & <- & _). apply F0. }
  assert (N3 : near (length l) (fsum (map f l)) (qsum (map f l)) (Qabs (qsum (map f l)))) by (eapply near_comp; [reflexivity|reflexivity|exact A0|exact N2]).
  pose proof (near_trans _ _ _ _ _ _ N3 N1) as N4.
  assert (D : 0 < inject_Z (Z.of_nat (length l) - ddof)) by (change 0 with (inject_Z 0); rewrite <- Zlt_Qlt; lia).
  assert (D' : 0 < / inject_Z (Z.of_nat (length l) - ddof)) by now apply Qinv_lt_0_compat.
  assert (N5 : near 0 (/ inject_Z (Z.of_nat (length l) - ddof)) (/ inject_Z (Z.of_nat (length l) - ddof)) (/ inject_Z (Z.of_nat (length l) - ddof)))
    by (apply near_exact; rewrite Qabs_pos; lra).
  pose proof (near_rnd _ _ _ _ (near_mult _ _ _ _ _ _ _ _ N4 N5)) as N6. unfold var_f. cbv zeta. fold m. fold f.
  replace (length l + 4)%nat with (S (length l + 3 + 0)) by lia. exact N6.
Qed.
(** What an output is made of: a mean m with n + 1 relative errors, a variance v with n + 4
    relative errors against the squared distances from m; NaN exactly if all values equal m. *)
Theorem C159_near : forall sqrt xs n ddof i, (forall x, sqrt x == 0 <-> x == 0) -> (1 <= n)%nat -> (ddof < Z.of_nat n)%Z -> (i < length xs)%nat ->
  let w := window (at_ xs) i n in let out := nth i (comp_zscore_f sqrt xs n ddof) None in
  ((i + 1 < n)%nat -> out = None) /\
  ((n <= i + 1)%nat -> exists mu M m v V, is_mean mu w /\ is_mean M (map Qabs w) /\ near (n + 1) m mu M /\
     V * inject_Z (Z.of_nat n - ddof) == qsum (map (fun x => (x - m) * (x - m)) w) /\ near (n + 4) v V V /\
     (out = None <-> forall x, In x w -> x == m) /\
     (forall z, out = Some z -> z = rnd 53 (rnd 53 (at_ xs i - m) / sqrt v))).
Proof.
  intros sqrt xs n ddof i Hs Hn Hd Hi w out. unfold out. rewrite zscore_f_nth by auto. cbv zeta. fold w.
  assert (Lw : length w = n) by apply window_length. split; intro H.
  { destruct (Nat.ltb_spec (i + 1) n); [reflexivity|lia]. }
  destruct (Nat.ltb_spec (i + 1) n); [lia|]. pose proof (Qnat_pos n ltac:(lia)) as P.
  assert (D : 0 < inject_Z (Z.of_nat n - ddof)) by (change 0 with (inject_Z 0); rewrite <- Zlt_Qlt; lia).
  exists (qsum w / Qnat n), (asum w / Qnat n), (mean_f w), (var_f w ddof), (qsum (map (fun x => (x - mean_f w) * (x - mean_f w)) w) / inject_Z (Z.of_nat n - ddof)).
  unfold is_mean. rewrite map_length, Lw. split; [field; lra|]. split; [unfold asum; field; lra|].
  pose proof (mean_f_near w ltac:(lia)) as N1. pose proof (var_f_near w ddof ltac:(lia)) as N2. cbv zeta in N2. rewrite Lw in N1, N2.
  split; [exact N1|]. split; [field; lra|]. split; [exact N2|].
  pose proof (var_f_zero w ddof ltac:(lia)) as Z0. destruct (Qeqb_spec (sqrt (var_f w ddof)) 0) as [E|E].
  - split; [|intros; discriminate]. split; [intros _|reflexivity]. now apply Z0, Hs.
  - split; [split; [discriminate|intro C; exfalso; apply E, Hs, Z0, C]|]. intros z Hz. now injection Hz.
Qed.
(** A constant window gives NaN if the sum of its values is exact. *)
Theorem C159_constant : forall sqrt xs n ddof i g c, (forall x, sqrt x == 0 <-> x == 0) -> (1 <= n)%nat -> (ddof < Z.of_nat n)%Z -> (i < length xs)%nat ->
  (forall x, In x (window (at_ xs) i n) -> x == c) -> grid g c -> Qnat n * Qabs c <= Qpower 2 (53 + g) ->
  nth i (comp_zscore_f sqrt xs n ddof) None = None.
Proof.
  intros sqrt xs n ddof i g c Hs Hn Hd Hi H G B. rewrite zscore_f_nth by auto. cbv zeta.
  assert (Lw : length (window (at_ xs) i n) = n) by apply window_length.
  destruct (i + 1 <? n)%nat; [reflexivity|]. destruct (Qeqb_spec (sqrt (var_f (window (at_ xs) i n) ddof)) 0) as [E|E]; [reflexivity|exfalso].
  apply E, Hs, var_f_zero; [lia|]. intros x Hx. rewrite (H x Hx). symmetry. apply (mean_f_const g); auto; rewrite Lw; auto.
Qed.
(** Three times 0.1 is not recognised as constant: the score is a negative number. *)
Theorem C159_constant_refuted : forall sqrt, (forall x, sqrt x == 0 <-> x == 0) -> (forall x, 0 < x -> 0 < sqrt x) ->
  exists xs n i z, fl 53 f01 /\ (forall x, In x xs -> x = f01) /\ nth i (comp_zscore_f sqrt xs n 1) None = Some z /\ z < 0 /\
    nth i (comp_zscore sqrt xs n 1) None = None.
Proof.
  intros sqrt Hs Hp. exists (repeat f01 3), 3%nat, 2%nat. rewrite zscore_f_nth by (cbn; lia). cbv zeta.
  set (w := window (at_ (repeat f01 3)) 2 3). change (2 + 1 <? 3)%nat with false. cbv iota.
  assert (V : 0 < var_f w 1) by (vm_compute; reflexivity). assert (D : r53 (at_ (repeat f01 3) 2 - mean_f w) < 0) by (vm_compute; reflexivity).
  pose proof (Hp _ V) as SP. destruct (Qeqb_spec (sqrt (var_f w 1)) 0) as [E|E]; [lra|]. eexists.
  split; [exact f01_fl|]. split; [intros x Hx; now apply repeat_spec in Hx|]. split; [reflexivity|]. split.
  - set (a := r53 (at_ (repeat f01 3) 2 - mean_f w)) in *. set (d := sqrt (var_f w 1)) in *.
    assert (N : a / d < 0) by (apply Qlt_shift_div_r; lra).
    assert (R : r53 (a / d) <= 0) by (apply rnd_le; [lia|apply fl_0; lia|lra]).
    destruct (Qeqb_spec (r53 (a / d)) 0) as [Z0|Z0]; [rewrite r53_zero in Z0; lra|]. destruct (Qlt_le_dec (r53 (a / d)) 0); [auto|lra].
  - destruct (C89_zscore sqrt (repeat f01 3) 3 1 2) as [_ C]; [lia|lia|cbn; lia|].
    destruct (C ltac:(lia)) as (m & var & Hm & Hv & _ & C1 & _). apply C1, Hs. change (window (at_ (repeat f01 3)) 2 3) with [f01; f01; f01] in Hm, Hv.
    unfold is_mean in Hm. cbn [length] in Hm. cbn [map qsum fold_right] in Hm, Hv. change (Qnat 3) with 3 in Hm.
    change (inject_Z (Z.of_nat 3 - 1)) with 2 in Hv. clearbody w. assert (M : m == f01) by lra. rewrite M in Hv. lra.
Qed.
Example C159_example : (forall x, (fun x : Q => x) x == 0 <-> x == 0) /\
  (forall x, In x (window (at_ [1; 5; 5; 5]) 3 3) -> x == 5) /\ grid 0 5 /\ Qnat 3 * Qabs 5 <= Qpower 2 (53 + 0) /\
  comp_zscore_f (fun x => x) [1; 5; 5; 5] 3 1 = [None; None; Some (1 # 4); None] /\
  nth 2 (comp_zscore_f (fun x => x) (repeat f01 3) 3 1) None <> None.
Proof.
  split; [tauto|]. split; [intros x Hx; vm_compute in Hx; destruct Hx as [<-|[<-|[<-|[]]]]; reflexivity|]. split; [exists 5%Z; reflexivity|].
  split; [vm_compute; discriminate|]. split; [vm_compute; reflexivity|vm_compute; discriminate].
Qed.

(** * C160  Exponentially weighted moving average *)
Theorem C160_rejects : forall ys span, ewma_f ys span = Raise ValueError <-> (span < 1)%Z.
Proof.
  intros ys span. unfold ewma_f. destruct (Z.ltb_spec span 1); [split; auto|]. destruct ys; split; intro; try discriminate; lia.
Qed.
(** The output is the weighted mean for a decay r within 2^-52 of 1 - 2/(span+1), up to 4 i + 1
    relative errors. *)
Theorem C160_near : forall ys span out, ewma_f ys span = Ok out -> (forall x, In x ys -> 0 <= x) ->
  length out = length ys /\ exists r, 0 <= r <= 1 /\ ((span < 2 ^ 53)%Z -> Qabs (r - (1 - 2 / (inject_Z span + 1))) <= 2 * u53) /\
  forall i, (i < length ys)%nat -> exists m, is_ew_mean m (at_ ys) i r /\
    (1 - u53) ^ Z.of_nat (2 * i + 1) * m <= nth i out 0 * (1 + u53) ^ Z.of_nat (2 * i) /\
    nth i out 0 * (1 - u53) ^ Z.of_nat (2 * i) <= (1 + u53) ^ Z.of_nat (2 * i + 1) * m.
Proof.
  intros ys span out E Hp. assert (Hs : (1 <= span)%Z). { unfold ewma_f in E. destruct (Z.ltb_spec span 1); [discriminate|auto]. }
  split.
  { unfold ewma_f in E. destruct (Z.ltb_spec span 1); [discriminate|]. destruct ys as [|y t]; injection E as <-; [reflexivity|]. cbn [length]. f_equal.
    generalize (ewma_beta_f span) y 1. clear. induction t as [|z t IH]; intros b u v; cbn [ewma_loop_f length]; [reflexivity|]. cbv zeta. now rewrite IH. }
  exists (ewma_beta_f span). split; [now apply beta_f_bounds|]. split; [intro; apply beta_f_err; lia|]. intros i Hi.
  exists (geox (ewma_beta_f span) (at_ ys) i / geo (ewma_beta_f span) i). split; [apply geox_ew_mean; now apply beta_f_bounds|].
  exact (ewma_f_within ys span out i E Hp Hi).
Qed.
Theorem C160_constant : forall e n span out, ewma_f (repeat (Qpower 2 e) n) span = Ok out -> forall x, In x out -> x == Qpower 2 e.
Proof.
  intros e n span out E. assert (Hs : (1 <= span)%Z). { unfold ewma_f in E. destruct (Z.ltb_spec span 1); [discriminate|auto]. }
  unfold ewma_f in E. destruct (Z.ltb_spec span 1); [discriminate|]. destruct n as [|n]; cbn [repeat] in E; injection E as <-; intros x Hx; [contradiction|].
  destruct Hx as [<-|Hx]; [reflexivity|]. destruct (beta_f_bounds span Hs) as [B _].
  pose proof (ewma_two_loop (ewma_beta_f span) e n B (two e) 1 ltac:(lra) ltac:(ring)) as F. rewrite Forall_forall in F. apply F. exact Hx.
Qed.
(** A constant series of 0.1, or of 3, is not reproduced. *)
Theorem C160_constant_refuted : exists span out out', ewma_f (repeat f01 6) span = Ok out /\ ~ nth 2 out 0 == f01 /\
  ewma_f (repeat 3 6) span = Ok out' /\ ~ nth 2 out' 0 == 3 /\
  exists ex, ewma (repeat 3 6) span = Ok ex /\ nth 2 ex 0 == 3.
Proof.
  exists 5%Z. do 2 eexists. split; [vm_compute; reflexivity|]. split; [vm_compute; discriminate|]. split; [vm_compute; reflexivity|].
  split; [vm_compute; discriminate|]. eexists. split; [vm_compute; reflexivity|vm_compute; reflexivity].
Qed.
Example C160_example : ewma_f [1; 4; 10] 3 = Ok [1; 3; 7] /\ (forall x, In x [1; 4; 10] -> 0 <= x) /\ (3 < 2 ^ 53)%Z /\
  ewma_f [1; 4] 2 = Ok [1; 7318349394477055 # 2251799813685248] /\ ewma_f (repeat (Qpower 2 2) 3) 5 = Ok [4; 4; 4].
Proof.
  split; [vm_compute; reflexivity|]. split; [intros x [<-|[<-|[<-|[]]]]; discriminate|]. split; [reflexivity|]. split; vm_compute; reflexivity.
Qed.

Print Assumptions C155_rows.
Print Assumptions C155_near.
Print Assumptions C155_range.
Print Assumptions C155_exact.
Print Assumptions C155_constant_refuted.
Print Assumptions C156_near.
Print Assumptions C156_exact.
Print Assumptions C156_empty_window_refuted.
Print Assumptions C156_recovers_refuted.
Print Assumptions C157_near.
Print Assumptions C157_exact.
Print Assumptions C157_range_refuted.
Print Assumptions C158_defined.
Print Assumptions C158_near.
Print Assumptions C158_exact.
Print Assumptions C158_recovers_refuted.
Print Assumptions C159_near.
Print Assumptions C159_constant.
Print Assumptions C159_constant_refuted.
Print Assumptions C160_rejects.
Print Assumptions C160_near.
Print Assumptions C160_constant.
Print Assumptions C160_constant_refuted.
