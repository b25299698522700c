(** T_cstestf.v -- properties of the CUSUM test on levels in float64 (feature/core/structural_break/cusum.py). *)
From Coq Require Import Qround Qpower Qfield.
From Verif Require Import Base M_features M_cusumtest M_transforms S_transforms M_float M_float2 M_float9 S_features S_float S_cstestf.
From Verif Require Import P_weights P_features P_features2 P_float P_float2 P_float9 P_float11 P_float12 P_float13 P_sumf P_volatf P_ewmstf T_cusumtest P_cstestf.
Open Scope Q_scope.

(* ------------------------------------------------------------------ *)
(** ** C187: the CUSUM test on levels in float64 *)

(** The modelled square root returns float64 numbers and is right up to one rounding. *)
Theorem C187_sqrt : forall x, 0 <= x -> fl 53 (sqrt53 x) /\ 0 <= sqrt53 x /\
  (1 - u53) ^ 2 * x <= sqrt53 x * sqrt53 x <= (1 + u53) ^ 2 * x.
Proof. intros x Hx. split; [apply sqrt53_fl|]. exact (sqrt53_rounded x Hx). Qed.
Example C187_sqrt_example : sqrt53 2 == 6369051672525773 # 4503599627370496 /\ sqrt53 9 == 3 /\ sqrt53 (1 # 4) == 1 # 2 /\ sqrt53 0 == 0.
Proof. repeat split; vm_compute; reflexivity. Qed.

(** The square of each statistic is, up to 2t + 24 roundings, the largest of the squared statistics of the start points, and the
    critical value is that of a start point whose squared statistic is the largest one up to these roundings. *)
Theorem C187_statistic : forall sqrt ln y t, sqrt_rounded sqrt -> (3 <= t)%nat -> (Z.of_nat t <= 2 ^ 50)%Z ->
  Qnat (t - 1) / 10 ^ 32 <= sq_moves (at_ y) 0 t ->
  let s := comp_max_s_nt_f sqrt ln y t (cs_sigma_f sqrt y t) in
  let crit := fun n => sqrt (r53 (r53 (46 # 10) + ln (Qnat (t - n)))) in
  rounded_sup (2 * t + 24) (rise2 (at_ y) 0 t) crit 1 (t - 2) (c_up s) (c_cu s) /\
  rounded_sup (2 * t + 24) (fall2 (at_ y) 0 t) crit 1 (t - 2) (c_dn s) (c_cd s).
Proof. intros sqrt ln y t Hq Ht Hb Hs s crit. exact (comp_f_rounded sqrt ln y t Hq Ht Hb Hs). Qed.
Example C187_statistic_example :
  let y := [0; 1 # 2; 3 # 4; 1 # 4; 2] in
  let s := comp_max_s_nt_f sqrt53 (fun x => x - 1) y 4 (cs_sigma_f sqrt53 y 4) in
  Qnat (4 - 1) / 10 ^ 32 <= sq_moves (at_ y) 0 4 /\
  rise2 (at_ y) 0 4 1 == 18 # 29 /\ rise2 (at_ y) 0 4 2 == 75 # 116 /\ fall2 (at_ y) 0 4 1 == 0 /\ fall2 (at_ y) 0 4 2 == 0 /\
  Qabs (c_up s * c_up s - (75 # 116)) <= 10 * u53 /\ c_dn s == 0 /\
  c_cu s == sqrt53 (r53 (r53 (46 # 10) + 1)) /\ c_cd s == sqrt53 (r53 (r53 (46 # 10) + 2)).
Proof. cbv zeta. repeat split; vm_compute; try reflexivity; discriminate. Qed.

(** A flag is raised only if some start point's exact squared statistic exceeds its squared critical value but for the roundings. *)
Theorem C187_flag_sound : forall sqrt ln y t, sqrt_rounded sqrt -> (3 <= t)%nat -> (Z.of_nat t <= 2 ^ 50)%Z ->
  Qnat (t - 1) / 10 ^ 32 <= sq_moves (at_ y) 0 t -> (forall n, (1 <= n <= t - 2)%nat -> 0 <= ln (Qnat (t - n))) ->
  let s := comp_max_s_nt_f sqrt ln y t (cs_sigma_f sqrt y t) in
  let crit := fun n => sqrt (r53 (r53 (46 # 10) + ln (Qnat (t - n)))) in
  (cusum_flag (Some (c_up s)) (Some (c_cu s)) = true ->
     exists n, (1 <= n <= t - 2)%nat /\ crit n * crit n < (1 + u53) ^ Z.of_nat (2 * t + 24) * rise2 (at_ y) 0 t n) /\
  (cusum_flag (Some (c_dn s)) (Some (c_cd s)) = true ->
     exists n, (1 <= n <= t - 2)%nat /\ crit n * crit n < (1 + u53) ^ Z.of_nat (2 * t + 24) * fall2 (at_ y) 0 t n).
Proof.
  intros sqrt ln y t Hq Ht Hb Hs Hl s crit. destruct (C187_statistic sqrt ln y t Hq Ht Hb Hs) as [A B]. fold s in A, B. fold crit in A, B. cbv zeta in A, B.
  assert (Cp : forall n, (1 <= n <= t - 2)%nat -> 0 <= crit n).
  { intros n Hn. apply Hq. apply r53_nonneg. specialize (Hl n Hn). assert (0 <= r53 (46 # 10)) by (apply r53_nonneg; discriminate). lra. }
  assert (G : forall f v c, rounded_sup (2 * t + 24) f crit 1 (t - 2) v c -> cusum_flag (Some v) (Some c) = true ->
     exists n, (1 <= n <= t - 2)%nat /\ crit n * crit n < (1 + u53) ^ Z.of_nat (2 * t + 24) * f n).
  { intros f v c [P [n [Hn [[_ W] [E _]]]]] F. apply Base.Qltb_iff in F. exists n. split; [exact Hn|]. specialize (Cp n Hn). rewrite E in F.
    apply Qlt_le_trans with (v * v); [|exact W]. nra. }
  split; [exact (G _ _ _ A)|exact (G _ _ _ B)].
Qed.
Example C187_flag_example : (* a jump after a calm stretch *)
  let y := map inject_Z [0; 1; 0; 1; 0; 1; 0; 1; 0; 1; 0; 1; 0; 1; 0; 1; 30]%Z in
  let s := comp_max_s_nt_f sqrt53 (fun x => 0) y 16 (cs_sigma_f sqrt53 y 16) in
  Qnat (16 - 1) / 10 ^ 32 <= sq_moves (at_ y) 0 16 /\
  cusum_flag (Some (c_up s)) (Some (c_cu s)) = true /\ cusum_flag (Some (c_dn s)) (Some (c_cd s)) = false.
Proof. cbv zeta. repeat split; vm_compute; try reflexivity; discriminate. Qed.

(** Without a move there is no statistic and no flag, for every square root with sqrt 0 = 0. *)
Lemma fsum_all_zero l : (forall x, In x l -> x == 0) -> fsum l == 0.
Proof.
  induction l as [|x l IH] using rev_ind; intro H; [reflexivity|]. rewrite fsum_app. apply r53_zero.
  rewrite IH by (intros; apply H, in_or_app; now left). rewrite (H x) by (apply in_or_app; right; now left). reflexivity.
Qed.
Theorem C187_flat : forall sqrt ln y t, (forall x, x == 0 -> sqrt x == 0) -> (forall k, (1 <= k <= t)%nat -> at_ y k == at_ y (k - 1)) ->
  let s := comp_max_s_nt_f sqrt ln y t (cs_sigma_f sqrt y t) in
  c_up s == r53 (- (1 # 1000000)) /\ c_dn s == r53 (- (1 # 1000000)) /\
  cusum_flag (Some (c_up s)) (Some (c_cu s)) = false /\ cusum_flag (Some (c_dn s)) (Some (c_cd s)) = false.
Proof.
  intros sqrt ln y t Hq Hy s. assert (E : s = cs_init_f).
  { unfold s, comp_max_s_nt_f. destruct (Nat.ltb_spec t 1); [reflexivity|]. cbn [orb].
    assert (Z0 : cs_sigma_f sqrt y t == 0).
    { apply Hq, r53_zero. assert (C : cum_sq_diff_f y t == 0).
      { apply fsum_all_zero. intros x Hx. apply in_map_iff in Hx. destruct Hx as (k & <- & Hk). apply in_seq in Hk. apply r53_zero.
        assert (D : r53 (qn y k - qn y (k - 1)) == 0) by (apply r53_zero; specialize (Hy k ltac:(lia)); change (qn y) with (at_ y); lra). rewrite D. ring. }
      rewrite C. unfold Qdiv. ring. }
    destruct (Qleb_spec (cs_sigma_f sqrt y t) 0); [reflexivity|lra]. }
  rewrite E. split; [reflexivity|]. split; [reflexivity|]. split; vm_compute; reflexivity.
Qed.
Example C187_flat_example : (forall x, x == 0 -> sqrt53 x == 0) /\ forall k, (1 <= k <= 3)%nat -> at_ [5; 5; 5; 5] k == at_ [5; 5; 5; 5] (k - 1).
Proof.
  split.
  - intros x E. unfold sqrt53. destruct (Qleb_spec x 0); [reflexivity|lra].
  - intros k Hk. destruct k as [|[|[|[|k]]]]; try lia; reflexivity.
Qed.

(** The start point need not be the exact one: here 2 has the largest statistic, and the code reports the critical value of 1. *)
Definition c187_tie : list Q := [0; 0; 1033032412193881 # 2251799813685248; 1; 5 # 2].
Theorem C187_start_point_refuted : exists y t n m, n <> m /\ (1 <= n <= t - 2)%nat /\ (1 <= m <= t - 2)%nat /\
  rise2 (at_ y) 0 t m < rise2 (at_ y) 0 t n /\ (forall x, In x y -> fl 53 x) /\
  forall ln, c_cu (comp_max_s_nt_f sqrt53 ln y t (cs_sigma_f sqrt53 y t)) = sqrt53 (r53 (r53 (46 # 10) + ln (Qnat (t - m)))).
Proof.
  exists c187_tie, 4%nat, 2%nat, 1%nat. split; [lia|]. split; [lia|]. split; [lia|]. split; [vm_compute; reflexivity|]. split.
  { intros x Hx. cbn in Hx. destruct Hx as [<-|[<-|[<-|[<-|[<-|[]]]]]].
    - apply fl_0.
    - apply fl_0.
    - exists 1033032412193881%Z, (-51)%Z. split; [lia|vm_compute; reflexivity].
    - exact fl_1.
    - exists 5%Z, (-1)%Z. split; [lia|vm_compute; reflexivity]. }
  intro ln. unfold comp_max_s_nt_f. destruct (Nat.ltb_spec 4 1); [lia|].
  assert (Sp : 0 < cs_sigma_f sqrt53 c187_tie 4) by (vm_compute; reflexivity).
  destruct (Qleb_spec (cs_sigma_f sqrt53 c187_tie 4) 0); [lra|]. cbn [orb].
  destruct (cs_fold_f sqrt53 ln c187_tie 4 (cs_sigma_f sqrt53 c187_tie 4) 2 ltac:(lia)) as [[n [Hn [Ev [Ec [Hs Hf]]]]] _].
  - intros n Hn. destruct n as [|[|[|n]]]; try lia; vm_compute; reflexivity.
  - intros n Hn. destruct n as [|[|[|n]]]; try lia; split; vm_compute; discriminate.
  - change (4 - 2)%nat with 2%nat. set (s := fold_left _ _ _) in *. assert (n = 1%nat); [|subst n; exact Ec].
    destruct (Nat.eq_dec n 2) as [->|]; [exfalso|lia].
    assert (X : cs_up_f sqrt53 c187_tie 4 (cs_sigma_f sqrt53 c187_tie 4) 2 < cs_up_f sqrt53 c187_tie 4 (cs_sigma_f sqrt53 c187_tie 4) 1) by (vm_compute; reflexivity).
    specialize (Hs 1%nat ltac:(lia)). rewrite Ev in Hs. lra.
Qed.

(** *** Rolling window *)
Lemma comp_ext_f sqrt ln y y' t sigma : (forall k, (k <= t)%nat -> qn y k = qn y' k) ->
  comp_max_s_nt_f sqrt ln y t sigma = comp_max_s_nt_f sqrt ln y' t sigma.
Proof.
  intro H. unfold comp_max_s_nt_f. destruct (_ || _)%bool; [reflexivity|]. apply fold_left_ext.
  intros s n Hn. apply in_seq in Hn. unfold cs_step_f, cs_up_f, cs_dn_f. rewrite (H t), (H n) by lia. reflexivity.
Qed.
Lemma sigma_ext_f sqrt y y' t : (forall k, (k <= t)%nat -> qn y k = qn y' k) -> cs_sigma_f sqrt y t = cs_sigma_f sqrt y' t.
Proof.
  intro H. unfold cs_sigma_f, cum_sq_diff_f. f_equal. f_equal. f_equal. f_equal. apply map_ext_in. intros k Hk. apply in_seq in Hk.
  rewrite (H k), (H (k - 1)%nat) by lia. reflexivity.
Qed.
Lemma dev_nth_f sqrt ln prices warm out i : cusum_developing_f sqrt ln prices warm = Ok out -> (i < length prices)%nat ->
  nth i out None = if (i <? warm)%nat then None
                   else Some (comp_max_s_nt_f sqrt ln (map ln prices) i (cs_sigma_f sqrt (map ln prices) i)).
Proof.
  intros E Hi. unfold cusum_developing_f in E. destruct (_ && _)%bool; [discriminate|]. injection E as <-.
  rewrite nth_map_seq by now rewrite map_length. reflexivity.
Qed.
Lemma rolling_value_f sqrt ln prices window warm :
  (forall p, In p prices -> 0 < p) -> (2 <= warm)%nat -> (warm + 2 <= length prices)%nat ->
  exists out, cusum_rolling_f sqrt ln prices window warm = Ok out /\ length out = length prices /\
  forall i, (i < length prices)%nat ->
    let w := Nat.max window (warm + 2) in
    let a := (i - w)%nat in
    nth i out None = if (i <? warm)%nat then None
      else Some (comp_max_s_nt_f sqrt ln (seg ln prices a i) (i - a) (cs_sigma_f sqrt (seg ln prices a i) (i - a))).
Proof.
  intros Hp Hw Hn. unfold cusum_rolling_f.
  assert (Ex : existsb (fun p => Qleb p 0) prices = false).
  { destruct (existsb _ _) eqn:E; [|reflexivity]. apply existsb_exists in E. destruct E as [p [Ip Lp]].
    apply Qleb_iff in Lp. specialize (Hp p Ip). lra. }
  rewrite Ex. cbv zeta. set (w := if (window <? warm + 2)%nat then (warm + 2)%nat else window).
  assert (Ew : w = Nat.max window (warm + 2)) by (unfold w; destruct (Nat.ltb_spec window (warm + 2)); lia).
  rewrite <- Ew. clearbody w. destruct (Nat.ltb_spec (length prices) (warm + 2)); [lia|].
  assert (DV : forall ps, exists o, cusum_developing_f sqrt ln ps warm = Ok o /\ length o = length ps).
  { intro ps. unfold cusum_developing_f. destruct (Nat.leb_spec warm 1); [lia|]. cbn [andb]. eexists. split; [reflexivity|].
    now rewrite map_length, seq_length, map_length. }
  assert (PRE : forall ps i, (i < length ps)%nat -> (i < length prices)%nat -> (forall k, (k <= i)%nat -> at_ ps k = at_ prices k) ->
     comp_max_s_nt_f sqrt ln (map ln ps) i (cs_sigma_f sqrt (map ln ps) i) =
     comp_max_s_nt_f sqrt ln (seg ln prices 0 i) (i - 0) (cs_sigma_f sqrt (seg ln prices 0 i) (i - 0))).
  { intros ps i Hi Hi2 Hk. rewrite Nat.sub_0_r.
    assert (EQ : forall k, (k <= i)%nat -> qn (map ln ps) k = qn (seg ln prices 0 i) k).
    { intros k K. rewrite seg_nth by lia. cbn [Nat.add]. rewrite <- Hk by auto. unfold qn, at_.
      rewrite (nth_indep _ 0 (ln 0)) by (rewrite map_length; lia). now rewrite map_nth. }
    rewrite (sigma_ext_f _ _ _ _ EQ). now apply comp_ext_f. }
  destruct (Nat.ltb_spec w (length prices)) as [K|K].
  - destruct (DV (price_window prices w w)) as [o [Eo Lo]]. rewrite Eo. eexists. split; [reflexivity|].
    rewrite map_length, seq_length. split; [auto|]. intros i Hi. rewrite nth_map_seq by auto.
    assert (Lp : length (price_window prices w w) = S w).
    { unfold price_window. rewrite firstn_length, skipn_length. lia. }
    destruct (Nat.leb_spec i w) as [K2|K2].
    + rewrite (dev_nth_f _ _ _ _ _ i Eo) by lia. replace (i - w)%nat with 0%nat by lia.
      destruct (Nat.ltb_spec i warm); [reflexivity|]. f_equal. apply PRE; [lia|auto|].
      intros k Hk. unfold at_, price_window. rewrite nth_firstn by lia. rewrite nth_skipn. f_equal. lia.
    + destruct (Nat.ltb_spec i warm); [lia|]. f_equal. unfold cusum_last_f, price_window, seg.
      replace (i + 1 - (i - w))%nat with (w + 1)%nat by lia. rewrite map_length, firstn_length, skipn_length.
      replace (Nat.min (w + 1) (length prices - (i - w)) - 1)%nat with (i - (i - w))%nat by lia. reflexivity.
  - destruct (DV prices) as [o [Eo Lo]]. exists o. split; [exact Eo|]. split; [auto|]. intros i Hi.
    rewrite (dev_nth_f _ _ _ _ _ i Eo) by auto. replace (i - w)%nat with 0%nat by lia.
    destruct (Nat.ltb_spec i warm); [reflexivity|]. f_equal. apply PRE; auto.
Qed.
Lemma seg_moves ln prices a i : (i < length prices)%nat -> (a <= i)%nat ->
  sq_moves (at_ (seg ln prices a i)) 0 (i - a) = sq_moves (fun j => ln (at_ prices j)) a i.
Proof.
  intros Hi Ha. unfold sq_moves. rewrite Nat.sub_0_r. f_equal.
  assert (E : seq (S a) (i - a) = map (fun k => (a + k)%nat) (seq 1 (i - a))).
  { clear. generalize (i - a)%nat as m. intro m.
    assert (G : forall b, seq (a + b) m = map (fun k => (a + k)%nat) (seq b m)).
    { induction m as [|m IH]; intro b; [reflexivity|]. cbn [seq map]. f_equal. rewrite <- IH. f_equal. lia. }
    rewrite <- (G 1%nat). f_equal. lia. }
  rewrite E, map_map. apply map_ext_in. intros k Hk. apply in_seq in Hk. change (at_ (seg ln prices a i)) with (qn (seg ln prices a i)). rewrite !seg_nth by lia.
  replace (a + k - 1)%nat with (a + (k - 1))%nat by lia. reflexivity.
Qed.
Lemma rounded_sup_shift k f crit f' crit' lo hi a v c :
  (forall n, (lo <= n <= hi)%nat -> f n = f' (a + n)%nat) -> (forall n, (lo <= n <= hi)%nat -> crit n = crit' (a + n)%nat) ->
  rounded_sup k f crit lo hi v c -> rounded_sup k f' crit' (a + lo) (a + hi) v c.
Proof.
  intros Hf Hc [P [n [Hn [E1 [E2 H1]]]]]. split; [exact P|]. exists (a + n)%nat. split; [lia|]. rewrite <- Hf, <- Hc by auto. split; [auto|]. split; [auto|].
  intros m Hm. replace m with (a + (m - a))%nat by lia. rewrite <- Hf by lia. apply H1. lia.
Qed.
(** The rolling test: bar i looks at the window from a to i and is wrong by the roundings of that window only. *)
Theorem C187_rolling : forall sqrt ln prices window warm i, sqrt_rounded sqrt ->
  (forall p, In p prices -> 0 < p) -> (2 <= warm)%nat -> (warm + 2 <= length prices)%nat -> (i < length prices)%nat ->
  let w := Nat.max window (warm + 2) in
  let a := (i - w)%nat in
  let y := fun j => ln (at_ prices j) in
  let crit := fun n => sqrt (r53 (r53 (46 # 10) + ln (Qnat (i - n)))) in
  exists out, cusum_rolling_f sqrt ln prices window warm = Ok out /\ length out = length prices /\
  (nth i out None = None <-> (i < warm)%nat) /\
  (forall s, nth i out None = Some s -> (a + 3 <= i)%nat -> (Z.of_nat (i - a) <= 2 ^ 50)%Z -> Qnat (i - a - 1) / 10 ^ 32 <= sq_moves y a i ->
     rounded_sup (2 * (i - a) + 24) (rise2 y a i) crit (a + 1) (i - 2) (c_up s) (c_cu s) /\
     rounded_sup (2 * (i - a) + 24) (fall2 y a i) crit (a + 1) (i - 2) (c_dn s) (c_cd s)).
Proof.
  intros sqrt ln prices window warm i Hq Hp Hw Hn Hi w a y crit.
  destruct (rolling_value_f sqrt ln prices window warm Hp Hw Hn) as [out [E [L H]]]. exists out. split; [auto|]. split; [auto|].
  specialize (H i Hi). cbv zeta in H. fold w in H. fold a in H. rewrite H. destruct (Nat.ltb_spec i warm) as [K|K].
  - split; [split; auto|]. discriminate.
  - split; [split; [discriminate|lia]|]. intros s Es Ha Hb Hs. injection Es as <-.
    assert (Al : (a <= i)%nat) by lia. assert (SM : sq_moves (at_ (seg ln prices a i)) 0 (i - a) = sq_moves y a i) by now apply seg_moves.
    destruct (comp_f_rounded sqrt ln (seg ln prices a i) (i - a) Hq ltac:(lia) Hb ltac:(rewrite SM; exact Hs)) as [A B].
    set (s := comp_max_s_nt_f _ _ _ _ _) in *. clearbody s.
    assert (Y : forall n, (a + n <= i)%nat -> at_ (seg ln prices a i) n = y (a + n)%nat).
    { intros n Hn2. unfold y. exact (seg_nth ln prices a i n Hi Hn2). }
    replace (i - 2)%nat with (a + (i - a - 2))%nat by lia.
    split; [revert A|revert B]; apply rounded_sup_shift; intros n Hn2; unfold rise2, fall2, cs_crit_f, crit; rewrite ?SM; rewrite ?Y by lia;
      replace (a + (i - a))%nat with i by lia; replace (i - (a + n))%nat with (i - a - n)%nat by lia; rewrite ?Nat.sub_0_r; reflexivity.
Qed.
Example C187_rolling_example :
  match cusum_rolling_f sqrt53 (fun x => x) [1; 2; 3; 5; 4; 6; 7; 5] 4 2 with
  | Ok o => map (fun x => match x with Some s => Qfloor (1000 * c_up s) | None => (-9)%Z end) o | _ => [] end =
  [(-9); (-9); (-1); 1224; 755; 948; 1161; 316]%Z.
Proof. vm_compute. reflexivity. Qed.

Print Assumptions C187_sqrt.
Print Assumptions C187_statistic.
Print Assumptions C187_flag_sound.
Print Assumptions C187_flat.
Print Assumptions C187_start_point_refuted.
Print Assumptions C187_rolling.
