(** P_volume3.v -- proofs about volume profiles: aggregation of footprints, rolling
    and developing profiles, flow acceleration and VPIN. *)
From Verif Require Import Base M_logic M_bars M_footprint M_features M_volume.
From Verif Require Import S_footprint S_features S_volume P_footprint P_weights P_features P_volume P_volume2.
Open Scope Q_scope.

(** ** Aggregation *)
Lemma find_some_in {A} (f : A -> bool) l x : find f l = Some x -> In x l /\ f x = true.
Proof. intro H. apply find_some in H. exact H. Qed.
Lemma vol_at_hit l lv vols j : NoDup lv -> (j < length lv)%nat -> nth j lv 0%Z = l ->
  vol_at l lv vols == nth j vols 0.
Proof.
  intros Hd Hj E. unfold vol_at, vol_where.
  replace (length lv) with (j + (1 + (length lv - S j)))%nat by lia.
  rewrite seq_app, map_app, qsum_app, seq_app, map_app, qsum_app. cbn [Nat.add seq map].
  assert (Z0 : forall a c, (forall i, (a <= i < a + c)%nat -> (i < length lv)%nat /\ i <> j) ->
    qsum (map (fun i => if (l =? nth i lv 0)%Z then nth i vols 0 else 0) (seq a c)) == 0).
  { intros a c H. rewrite (qsum_map_ext_seq _ (fun _ => 0)).
    - rewrite qsum_map_const. ring.
    - intros i Hi. destruct (H i Hi) as [H1 H2]. destruct (Z.eqb_spec l (nth i lv 0%Z)) as [K|K]; [|reflexivity].
      exfalso. apply H2. apply (proj1 (NoDup_nth lv 0%Z) Hd); auto. congruence. }
  rewrite (Z0 0%nat j) by (intros; lia). rewrite Z0 by (intros; lia).
  rewrite (proj2 (Z.eqb_eq l (nth j lv 0%Z))) by auto. cbn. ring.
Qed.
Lemma vol_at_miss l lv vols : ~ In l lv -> vol_at l lv vols == 0.
Proof.
  intro H. unfold vol_at, vol_where. rewrite (qsum_map_ext_seq _ (fun _ => 0)).
  - rewrite qsum_map_const. ring.
  - intros i Hi. destruct (Z.eqb_spec l (nth i lv 0%Z)) as [K|K]; [|reflexivity].
    exfalso. apply H. rewrite K. apply nth_In. lia.
Qed.

Definition bar_ok (L H : Z) (lv : list Z) : Prop := NoDup lv /\ forall l, In l lv -> (L <= l <= H)%Z.

Lemma zrange_nth L H k : (Z.of_nat k < H - L)%Z -> nth k (zrange L H) 0%Z = (L + Z.of_nat k)%Z.
Proof. intro K. unfold zrange. rewrite nth_map_seq by lia. reflexivity. Qed.
Lemma zrange_asc L H : ascZ (zrange L H).
Proof. intros i j Hij. rewrite zrange_length in Hij. rewrite !zrange_nth by lia. lia. Qed.
Lemma zrange_incr L H : incr (zrange L H).
Proof. intros i j Hij. rewrite zrange_length in Hij. rewrite !zrange_nth by lia. lia. Qed.
Lemma ss_left_zrange L H l : (L <= l < H)%Z -> ss_left (zrange L H) l = Z.to_nat (l - L).
Proof.
  intro K. apply ss_left_unique.
  - rewrite zrange_length. lia.
  - apply zrange_asc.
  - intros i Hi. rewrite zrange_nth by lia. lia.
  - intros i Hi. rewrite zrange_length in Hi. rewrite zrange_nth by lia. lia.
Qed.

Lemma fancy_add_spec L H a lv v : bar_ok L H lv -> length a = Z.to_nat (H + 1 - L) ->
  exists a', fancy_add a (map (ss_left (zrange L (H + 1))) lv) v = Ok a' /\ length a' = length a /\
    forall k, (k < length a)%nat -> nth k a' 0 == nth k a 0 + vol_at (L + Z.of_nat k) lv v.
Proof.
  intros [Hd Hb] Hlen. unfold fancy_add.
  set (idx := map (ss_left (zrange L (H + 1))) lv).
  assert (Hn : forall j, (j < length lv)%nat -> nth j idx 0%nat = Z.to_nat (nth j lv 0%Z - L)).
  { intros j Hj. unfold idx. rewrite (nth_indep _ 0%nat (ss_left (zrange L (H + 1)) 0%Z)) by (rewrite map_length; auto).
    rewrite map_nth. apply ss_left_zrange. specialize (Hb (nth j lv 0%Z) ltac:(apply nth_In; auto)). lia. }
  rewrite (proj2 (forallb_forall _ idx)).
  2:{ intros k Hk. apply (In_nth _ _ 0%nat) in Hk. destruct Hk as [j [Hj E]]. unfold idx in Hj. rewrite map_length in Hj.
      rewrite Hn in E by auto. specialize (Hb (nth j lv 0%Z) ltac:(apply nth_In; auto)). apply Nat.ltb_lt. lia. }
  eexists. split; [reflexivity|]. rewrite map_length, seq_length. split; [reflexivity|].
  intros k Hk. rewrite nth_map_seq by auto.
  destruct (last_occ idx k) as [j|] eqn:E.
  - apply find_some_in in E. destruct E as [E1 E2]. apply in_rev, in_seq in E1. apply Nat.eqb_eq in E2.
    unfold idx in E1. rewrite map_length in E1. rewrite Hn in E2 by lia.
    specialize (Hb (nth j lv 0%Z) ltac:(apply nth_In; lia)).
    rewrite (vol_at_hit _ lv v j); auto; [reflexivity|lia|lia].
  - rewrite vol_at_miss; [ring|]. intro K. apply (In_nth _ _ 0%Z) in K. destruct K as [j [Hj Ej]].
    pose proof (find_none _ _ E j) as F. cbv beta in F. rewrite Hn in F by auto.
    assert (Hin : In j (rev (seq 0 (length idx)))) by (apply -> in_rev; apply in_seq; unfold idx; rewrite map_length; lia).
    specialize (F Hin). apply Nat.eqb_neq in F. lia.
Qed.

Lemma agg_step_spec L H plv pbv psv a b t : bar_ok L H (nth t plv []) ->
  length a = Z.to_nat (H + 1 - L) -> length b = Z.to_nat (H + 1 - L) ->
  exists a' b', agg_step (zrange L (H + 1)) plv pbv psv (Ok (a, b)) t = Ok (a', b') /\
    length a' = length a /\ length b' = length b /\
    (forall k, (k < length a)%nat -> nth k a' 0 == nth k a 0 + vol_at (L + Z.of_nat k) (nth t plv []) (nth t pbv [])) /\
    (forall k, (k < length b)%nat -> nth k b' 0 == nth k b 0 + vol_at (L + Z.of_nat k) (nth t plv []) (nth t psv [])).
Proof.
  intros Hb Ha Hb'. unfold agg_step. cbv zeta.
  destruct (fancy_add_spec L H a (nth t plv []) (nth t pbv []) Hb Ha) as [a' [-> [A1 A2]]].
  destruct (fancy_add_spec L H b (nth t plv []) (nth t psv []) Hb Hb') as [b' [-> [B1 B2]]].
  exists a', b'. auto.
Qed.
Lemma agg_fold L H plv pbv psv : forall bars a b, (forall t, In t bars -> bar_ok L H (nth t plv [])) ->
  length a = Z.to_nat (H + 1 - L) -> length b = Z.to_nat (H + 1 - L) ->
  exists a' b', fold_left (agg_step (zrange L (H + 1)) plv pbv psv) bars (Ok (a, b)) = Ok (a', b') /\
    length a' = length a /\ length b' = length b /\
    (forall k, (k < length a)%nat -> nth k a' 0 == nth k a 0 + lev_sum plv pbv bars (L + Z.of_nat k)) /\
    (forall k, (k < length b)%nat -> nth k b' 0 == nth k b 0 + lev_sum plv psv bars (L + Z.of_nat k)).
Proof.
  induction bars as [|t bars IH]; intros a b Hok Ha Hb.
  - exists a, b. cbn. split; [reflexivity|]. split; [auto|]. split; [auto|]. split; intros; ring.
  - cbn [fold_left]. destruct (agg_step_spec L H plv pbv psv a b t) as [a1 [b1 [E [A1 [B1 [A2 B2]]]]]]; auto.
    { apply Hok. left. auto. }
    rewrite E. destruct (IH a1 b1) as [a2 [b2 [E2 [A3 [B3 [A4 B4]]]]]]; try congruence.
    { intros. apply Hok. right. auto. }
    exists a2, b2. split; [exact E2|]. split; [congruence|]. split; [congruence|]. split.
    + intros k Hk. rewrite A4 by lia. rewrite A2 by lia. unfold lev_sum. cbn [map]. rewrite qsum_cons. ring.
    + intros k Hk. rewrite B4 by lia. rewrite B2 by lia. unfold lev_sum. cbn [map]. rewrite qsum_cons. ring.
Qed.

Lemma filter_none {A} (p : A -> bool) l : (forall x, In x l -> p x = false) -> filter p l = [].
Proof.
  induction l as [|y l IH]; intro H; [reflexivity|]. cbn [filter]. rewrite H by (left; auto). apply IH. intros. apply H. right; auto.
Qed.
Lemma filter_all {A} (p : A -> bool) l : (forall x, In x l -> p x = true) -> filter p l = l.
Proof.
  induction l as [|y l IH]; intro H; [reflexivity|]. cbn [filter]. rewrite H by (left; auto). f_equal. apply IH. intros. apply H. right; auto.
Qed.
Lemma bars_in_seq ts a b : ascZ ts -> (a <= b + 1)%Z ->
  bars_in ts a b = seq (ss_left ts a) (ss_right ts b - ss_left ts a).
Proof.
  intros Ha Hab. set (s := ss_left ts a). set (e := ss_right ts b).
  assert (Hs : (s <= length ts)%nat) by apply ss_left_le. assert (He : (e <= length ts)%nat) by apply ss_right_le.
  assert (Hse : (s <= e)%nat).
  { destruct (Nat.le_gt_cases s e) as [|K]; auto. exfalso.
    pose proof (ss_left_lt ts a e K) as K1. pose proof (ss_right_ge ts b e Ha ltac:(lia)) as K2. lia. }
  unfold bars_in. replace (length ts) with (s + ((e - s) + (length ts - e)))%nat by lia.
  rewrite seq_app, filter_app, seq_app, filter_app. cbn [Nat.add].
  rewrite (filter_none _ (seq 0 s)).
  2:{ intros x Hx. apply in_seq in Hx. pose proof (ss_left_lt ts a x ltac:(fold s; lia)).
      rewrite (proj2 (Z.leb_gt _ _)) by lia. reflexivity. }
  rewrite (filter_none _ (seq (0 + s + (e - s)) _)).
  2:{ intros x Hx. apply in_seq in Hx. pose proof (ss_right_ge ts b x Ha ltac:(fold e; lia)).
      rewrite (proj2 (Z.leb_gt (nth x ts 0%Z) b)) by lia. apply andb_false_r. }
  rewrite filter_all.
  - cbn [app]. rewrite app_nil_r. reflexivity.
  - intros x Hx. apply in_seq in Hx.
    pose proof (ss_left_ge ts a x Ha ltac:(fold s; lia)). pose proof (ss_right_lt ts b x ltac:(fold e; lia)).
    rewrite (proj2 (Z.leb_le _ _)) by lia. rewrite (proj2 (Z.leb_le _ _)) by lia. reflexivity.
Qed.

Lemma firstn_skipn_nth {A} (l : list A) s n d x : In x (firstn n (skipn s l)) ->
  exists t, (s <= t < s + n)%nat /\ (t < length l)%nat /\ nth t l d = x.
Proof.
  intro H. apply (In_nth _ _ d) in H. destruct H as [k [Hk E]]. rewrite firstn_length, skipn_length in Hk.
  exists (s + k)%nat. split; [lia|]. split; [lia|]. rewrite nth_firstn in E by lia. rewrite nth_skipn in E. exact E.
Qed.
Lemma in_firstn_skipn {A} (l : list A) s n d t : (s <= t < s + n)%nat -> (t < length l)%nat -> In (nth t l d) (firstn n (skipn s l)).
Proof.
  intros H1 H2. replace (nth t l d) with (nth (t - s) (firstn n (skipn s l)) d).
  - apply nth_In. rewrite firstn_length, skipn_length. lia.
  - rewrite nth_firstn by lia. rewrite nth_skipn. f_equal. lia.
Qed.

(** The levels of a non-empty window of bars. *)
Lemma window_levels_spec highs lows tick s e : 0 < tick -> (s < e)%nat -> (e <= length lows)%nat -> length highs = length lows ->
  (forall t, (s <= t < e)%nat -> (- 2 ^ 31 <= rhe (nth t lows 0%Q / tick))%Z /\ (rhe (nth t highs 0%Q / tick) < 2 ^ 31)%Z) ->
  exists L H, window_levels highs lows tick s e = Ok (zrange L (H + 1)) /\
    (exists t, (s <= t < e)%nat /\ L = rhe (nth t lows 0%Q / tick)) /\
    (exists t, (s <= t < e)%nat /\ H = rhe (nth t highs 0%Q / tick)) /\
    (forall t, (s <= t < e)%nat -> (L <= rhe (nth t lows 0%Q / tick))%Z /\ (rhe (nth t highs 0%Q / tick) <= H)%Z).
Proof.
  intros Ht Hse He Hl Hr. unfold window_levels.
  set (lo := firstn (e - s) (skipn s lows)). set (hi := firstn (e - s) (skipn s highs)).
  assert (Hlo : lo <> []).
  { intro K. assert (length lo = 0)%nat by (rewrite K; reflexivity). unfold lo in H. rewrite firstn_length, skipn_length in H. lia. }
  assert (Hhi : hi <> []).
  { intro K. assert (length hi = 0)%nat by (rewrite K; reflexivity). unfold hi in H. rewrite firstn_length, skipn_length in H. lia. }
  destruct (lmin_spec lo Hlo) as [M1 M2]. destruct (lmax_spec hi Hhi) as [X1 X2].
  exists (rhe (lmin lo / tick)), (rhe (lmax hi / tick)).
  destruct (firstn_skipn_nth _ _ _ 0 _ M1) as [t1 [T1 [T2 T3]]].
  destruct (firstn_skipn_nth _ _ _ 0 _ X1) as [t2 [U1 [U2 U3]]].
  split.
  - destruct lo as [|x lo'] eqn:E1; [congruence|]. destruct hi as [|y hi'] eqn:E2; [congruence|].
    destruct (Qeqb_spec tick 0) as [K|K]; [lra|]. f_equal. rewrite <- E1 in *. rewrite <- E2 in *.
    erewrite map_ext_in; [apply map_id|]. intros z Hz. cbv beta. apply in_zrange in Hz.
    apply wraps_id; [lia|]. rewrite <- T3, <- U3 in Hz.
    destruct (Hr t1 ltac:(lia)). destruct (Hr t2 ltac:(lia)). change (32 - 1)%Z with 31%Z. lia.
  - split; [exists t1; rewrite T3; split; [lia|reflexivity]|]. split; [exists t2; rewrite U3; split; [lia|reflexivity]|].
    intros t Htt. split.
    + apply rhe_mono. apply Qmult_le_compat_r; [|apply Qlt_le_weak, Qinv_lt_0_compat; auto].
      apply M2. apply in_firstn_skipn; lia.
    + apply rhe_mono. apply Qmult_le_compat_r; [|apply Qlt_le_weak, Qinv_lt_0_compat; auto].
      apply X2. apply in_firstn_skipn; lia.
Qed.

(** A footprint consistent with its bar: distinct levels between the rounded low and
    the rounded high (what comp_bar_footprints produces). *)
Definition fp_ok (highs lows : list Q) (plv : list (list Z)) (tick : Q) (t : nat) : Prop :=
  bar_ok (rhe (nth t lows 0%Q / tick)) (rhe (nth t highs 0%Q / tick)) (nth t plv []) /\
  (- 2 ^ 31 <= rhe (nth t lows 0%Q / tick))%Z /\ (rhe (nth t highs 0%Q / tick) < 2 ^ 31)%Z.

Lemma aggregate_spec ts highs lows plv pbv psv start_ts end_ts tick :
  ascZ ts -> 0 < tick -> length highs = length ts -> length lows = length ts ->
  (start_ts <= end_ts)%Z -> bars_in ts start_ts end_ts <> [] ->
  (forall t, In t (bars_in ts start_ts end_ts) -> fp_ok highs lows plv tick t) ->
  exists L H bv sv, aggregate_footprint ts highs lows plv pbv psv start_ts end_ts tick = Ok (zrange L (H + 1), bv, sv) /\
    (exists t, In t (bars_in ts start_ts end_ts) /\ L = rhe (nth t lows 0%Q / tick)) /\
    (exists t, In t (bars_in ts start_ts end_ts) /\ H = rhe (nth t highs 0%Q / tick)) /\
    (forall t, In t (bars_in ts start_ts end_ts) -> (L <= rhe (nth t lows 0%Q / tick))%Z /\ (rhe (nth t highs 0%Q / tick) <= H)%Z) /\
    length bv = length (zrange L (H + 1)) /\ length sv = length (zrange L (H + 1)) /\
    (forall k, (k < length bv)%nat ->
       nth k bv 0 == lev_sum plv pbv (bars_in ts start_ts end_ts) (L + Z.of_nat k) /\
       nth k sv 0 == lev_sum plv psv (bars_in ts start_ts end_ts) (L + Z.of_nat k)).
Proof.
  intros Hasc Ht Hh Hl Hse Hne Hok.
  rewrite (bars_in_seq ts start_ts end_ts Hasc ltac:(lia)) in *.
  unfold aggregate_footprint, agg_range.
  set (s := ss_left ts start_ts) in *. set (e := ss_right ts end_ts) in *.
  assert (Hlt : (s < e)%nat).
  { destruct (Nat.lt_ge_cases s e) as [|K]; auto. exfalso. apply Hne. replace (e - s)%nat with 0%nat by lia. reflexivity. }
  assert (He : (e <= length ts)%nat) by apply ss_right_le.
  rewrite (proj2 (Nat.eqb_neq s e)) by lia.
  assert (Hin : forall t, (s <= t < e)%nat -> In t (seq s (e - s))) by (intros; apply in_seq; lia).
  destruct (window_levels_spec highs lows tick s e) as [L [H [E [[tl [TL1 TL2]] [[th [TH1 TH2]] Hb]]]]]; try lia; auto.
  { intros t Htt. destruct (Hok t (Hin t Htt)) as [_ K]. exact K. }
  rewrite E. rewrite zrange_length.
  destruct (agg_fold L H plv pbv psv (seq s (e - s)) (repeat 0 (Z.to_nat (H + 1 - L))) (repeat 0 (Z.to_nat (H + 1 - L))))
    as [a [b [E2 [A1 [B1 [A2 B2]]]]]]; try apply repeat_length.
  { intros t Htt. apply in_seq in Htt. destruct (Hok t ltac:(apply Hin; lia)) as [[K1 K2] _].
    destruct (Hb t ltac:(lia)). split; auto. intros l Hl'. specialize (K2 l Hl'). lia. }
  rewrite E2. exists L, H, a, b. split; [reflexivity|]. rewrite repeat_length in *.
  split; [exists tl; auto|]. split; [exists th; auto|].
  split; [intros t Htt; apply in_seq in Htt; apply Hb; lia|].
  rewrite zrange_length. split; [auto|]. split; [auto|].
  intros k Hk. rewrite A2, B2 by lia. rewrite !nth_repeat. split; ring.
Qed.

Lemma fp_ok_of highs lows plv tick t : footprint_ok highs lows plv tick t -> fp_ok highs lows plv tick t.
Proof.
  intros [_ [Hd [a [b [Ra [Rb [Ha [Hb Hl]]]]]]]].
  rewrite <- (rounds_unique _ _ _ (rhe_spec _) Ra) in *. rewrite <- (rounds_unique _ _ _ (rhe_spec _) Rb) in *.
  split; [split; auto|auto].
Qed.
Lemma range_of highs lows tick bars L H :
  (exists t, In t bars /\ L = rhe (nth t lows 0%Q / tick)) ->
  (exists t, In t bars /\ H = rhe (nth t highs 0%Q / tick)) ->
  (forall t, In t bars -> (L <= rhe (nth t lows 0%Q / tick))%Z /\ (rhe (nth t highs 0%Q / tick) <= H)%Z) ->
  level_range highs lows tick bars L H.
Proof.
  intros [t1 [T1 ->]] [t2 [T2 ->]] Hb. split; [exists t1; split; [auto|apply rhe_spec]|].
  split; [exists t2; split; [auto|apply rhe_spec]|]. split.
  - intros t a Ht Ra. rewrite <- (rounds_unique _ _ _ (rhe_spec _) Ra). apply Hb. auto.
  - intros t b Ht Rb. rewrite <- (rounds_unique _ _ _ (rhe_spec _) Rb). apply Hb. auto.
Qed.

Lemma vol_at_nonneg l lv vols : (forall x, In x vols -> 0 <= x) -> 0 <= vol_at l lv vols.
Proof.
  intro H. unfold vol_at, vol_where. apply qsum_nonneg. intros x Hx. apply in_map_iff in Hx. destruct Hx as [i [<- Hi]].
  destruct (l =? nth i lv 0)%Z; [|lra]. destruct (Nat.lt_ge_cases i (length vols)).
  - apply H. apply nth_In. auto.
  - rewrite nth_overflow by auto. lra.
Qed.
Lemma lev_sum_nonneg plv pv bars l : vols_ok pv -> 0 <= lev_sum plv pv bars l.
Proof.
  intro H. apply qsum_nonneg. intros x Hx. apply in_map_iff in Hx. destruct Hx as [t [<- Ht]].
  apply vol_at_nonneg. apply H.
Qed.
Lemma span_ssum f L a b : (a <= b)%nat ->
  span_sum f (L + Z.of_nat a) (L + Z.of_nat b) = ssum (fun k => f (L + Z.of_nat k)%Z) a (S b).
Proof.
  intro H. unfold span_sum, ssum, zrange. f_equal. rewrite map_map.
  replace (Z.to_nat (L + Z.of_nat b + 1 - (L + Z.of_nat a))) with (S b - a)%nat by lia.
  clear H. generalize (S b - a)%nat. intro m.
  replace (seq a m) with (map (fun i => (a + i)%nat) (seq 0 m)).
  - rewrite map_map. apply map_ext. intro k. f_equal. lia.
  - clear. revert a. induction m as [|m IH]; intro a; [reflexivity|]. cbn [seq map]. f_equal; [lia|].
    rewrite <- (IH (S a)), <- seq_shift, map_map. apply map_ext. intro; lia.
Qed.

(** From positions to price levels. *)
Lemma profile_of L H tv f pct : (L <= H)%Z -> length tv = Z.to_nat (H + 1 - L) ->
  (forall k, (k < length tv)%nat -> nth k tv 0 == f (L + Z.of_nat k)%Z) ->
  (forall l, (L <= l <= H)%Z -> 0 <= f l) -> 0 <= pct <= 100 ->
  exists poc hva lva, comp_poc_hva_lva (zrange L (H + 1)) tv pct = Ok (Some (poc, hva, lva)) /\
    is_profile f L H pct poc hva lva.
Proof.
  intros HLH Hlen Hf Hnn Hp.
  assert (Hne : tv <> []) by (intro K; rewrite K in Hlen; cbn in Hlen; lia).
  assert (Hk : forall k, (k < length tv)%nat -> (L <= L + Z.of_nat k <= H)%Z) by (intros; lia).
  destruct (poc_area (zrange L (H + 1)) tv pct) as [p [a [b [E [[P1 [P2 P3]] [V [Hab Hb]]]]]]]; auto.
  { rewrite zrange_length. lia. }
  { intros i Hi. rewrite Hf by auto. apply Hnn. auto. }
  rewrite !zrange_nth in E by lia.
  exists (L + Z.of_nat p)%Z, (L + Z.of_nat b)%Z, (L + Z.of_nat a)%Z. split; [exact E|].
  assert (Eall : span_sum f L H == qsum tv).
  { pose proof (span_ssum f L 0 (length tv - 1) ltac:(lia)) as S1.
    replace (L + Z.of_nat 0)%Z with L in S1 by lia. replace (L + Z.of_nat (length tv - 1))%Z with H in S1 by lia.
    rewrite S1. rewrite qsum_ssum. replace (S (length tv - 1)) with (length tv) by lia.
    apply ssum_ext. intros i Hi. symmetry. apply Hf. lia. }
  assert (Esub : forall x y, (x <= y < length tv)%nat -> span_sum f (L + Z.of_nat x) (L + Z.of_nat y) == ssum (at_ tv) x (S y)).
  { intros x y Hxy. rewrite span_ssum by lia. apply ssum_ext. intros i Hi. symmetry. apply Hf. lia. }
  unfold at_ in P2, P3. split; [lia|]. split; [lia|]. split; [|split; [|split]].
  - intros l Hl. specialize (P2 (Z.to_nat (l - L)) ltac:(lia)). rewrite !Hf in P2 by lia.
    replace (L + Z.of_nat (Z.to_nat (l - L)))%Z with l in P2 by lia. exact P2.
  - intros l Hl. specialize (P3 (Z.to_nat (l - L)) ltac:(lia)). rewrite !Hf in P3 by lia.
    replace (L + Z.of_nat (Z.to_nat (l - L)))%Z with l in P3 by lia. exact P3.
  - rewrite Esub by lia. rewrite Eall, Qmult_comm. eapply value_area_share. exact V.
  - rewrite Eall. pose proof (value_area_stop _ _ _ _ _ _ _ V ltac:(lia)) as S1.
    rewrite ssum_one in S1. unfold at_ in S1. rewrite Hf in S1 by lia.
    rewrite Qmult_comm in S1. rewrite <- S1. lia.
Qed.

(** ** Share above the POC *)
Lemma above_fold lv vols poc : forall is acc,
  fold_left (fun acc i => if (poc <? nth i lv 0)%Z then acc + nth i vols 0 else acc) is acc ==
  acc + qsum (map (fun i => if (poc <? nth i lv 0)%Z then nth i vols 0 else 0) is).
Proof.
  induction is as [|i is IH]; intro acc; cbn [fold_left map].
  - cbn. ring.
  - rewrite IH, qsum_cons. destruct (poc <? nth i lv 0)%Z; ring.
Qed.
Lemma pct_above_value lv vols poc : (forall x, In x vols -> 0 <= x) -> length vols = length lv ->
  (0 < qsum vols -> pct_above_poc lv vols poc == vol_where (fun l => (poc <? l)%Z) lv vols / qsum vols) /\
  (qsum vols <= 0 -> pct_above_poc lv vols poc = 0).
Proof.
  intros Hnn Hlen. unfold pct_above_poc. cbv zeta.
  set (ab := fold_left _ _ _).
  assert (Eab : ab == vol_where (fun l => (poc <? l)%Z) lv vols).
  { unfold ab. rewrite above_fold. unfold vol_where. ring. }
  assert (0 <= vol_where (fun l => (poc <? l)%Z) lv vols).
  { unfold vol_where. apply qsum_nonneg. intros x Hx. apply in_map_iff in Hx. destruct Hx as [i [<- Hi]]. apply in_seq in Hi.
    destruct (poc <? nth i lv 0)%Z; [|lra]. apply Hnn. apply nth_In. lia. }
  clearbody ab. split; intro H0.
  - destruct (Qleb_spec (qsum vols) 0) as [K|K]; [lra|].
    destruct (Qleb_spec ab 0) as [K2|K2].
    + assert (Z0 : vol_where (fun l => (poc <? l)%Z) lv vols == 0) by lra. rewrite Z0. field. lra.
    + rewrite Eab. reflexivity.
  - destruct (Qleb_spec (qsum vols) 0) as [K|K]; [reflexivity|lra].
Qed.

(** ** Window sums through prefix sums *)
Lemma prefix_ssum f k : prefix f k == ssum f 0 k.
Proof.
  induction k as [|k IH]; cbn [prefix]; [rewrite ssum_nil by lia; reflexivity|].
  rewrite IH, ssum_snoc by lia. reflexivity.
Qed.
Lemma prefix_window f i n : (n <= i + 1)%nat -> prefix f (i + 1) - prefix f (i + 1 - n) == last_sum f i n.
Proof.
  intro H. rewrite !prefix_ssum. rewrite (ssum_split f 0 (i + 1 - n) (i + 1)) by lia.
  unfold last_sum, window, ssum. replace (i + 1 - (i + 1 - n))%nat with n by lia. ring.
Qed.
Lemma nan_count_mono b s k j : (k <= j)%nat -> (nan_count b s k <= nan_count b s j)%Z.
Proof.
  intro H. induction H as [|j H IH]; [lia|]. cbn [nan_count]. destruct (vp_nan b s j); lia.
Qed.
Lemma nan_count_zero b s k j : (k <= j)%nat ->
  (nan_count b s j - nan_count b s k = 0)%Z <-> forall t, (k <= t < j)%nat -> vp_nan b s t = false.
Proof.
  intro H. induction H as [|j H IH].
  - split; [intros; lia|lia].
  - cbn [nan_count]. pose proof (nan_count_mono b s k j H). split.
    + intros E t Ht. destruct (vp_nan b s j) eqn:Ej; [lia|].
      destruct (Nat.eq_dec t j) as [->|]; auto. apply IH; lia.
    + intro A. rewrite (A j) by lia. assert (nan_count b s j - nan_count b s k = 0)%Z by (apply IH; intros; apply A; lia). lia.
Qed.

(** ** Rolling profile *)
Lemma vol_where_levels p L H tv f : (L <= H)%Z -> length tv = Z.to_nat (H + 1 - L) ->
  (forall k, (k < length tv)%nat -> nth k tv 0 == f (L + Z.of_nat k)%Z) ->
  vol_where p (zrange L (H + 1)) tv == qsum (map (fun l => if p l then f l else 0) (zrange L (H + 1))).
Proof.
  intros HLH Hlen Hf. unfold vol_where. rewrite zrange_length, <- Hlen.
  unfold zrange at 2. rewrite <- Hlen, map_map. apply qsum_map_ext_seq. intros i Hi.
  rewrite zrange_nth by lia. destruct (p (L + Z.of_nat i)%Z); [|reflexivity]. apply Hf. lia.
Qed.
Lemma above_levels L H f poc : (L <= poc <= H)%Z ->
  qsum (map (fun l => if (poc <? l)%Z then f l else 0) (zrange L (H + 1))) == span_sum f (poc + 1) H.
Proof.
  intro Hp. rewrite (zrange_app L (poc + 1) (H + 1)) by lia. rewrite map_app, qsum_app.
  rewrite (qsum_map_ext _ (fun _ => 0) (zrange L (poc + 1))).
  2:{ intros l Hl. apply in_zrange in Hl. rewrite (proj2 (Z.ltb_ge poc l)) by lia. reflexivity. }
  rewrite qsum_map_const. unfold span_sum. rewrite (qsum_map_ext _ f (zrange (poc + 1) (H + 1))).
  2:{ intros l Hl. apply in_zrange in Hl. rewrite (proj2 (Z.ltb_lt poc l)) by lia. reflexivity. }
  ring.
Qed.
Lemma span_qsum L H tv f : (L <= H)%Z -> length tv = Z.to_nat (H + 1 - L) ->
  (forall k, (k < length tv)%nat -> nth k tv 0 == f (L + Z.of_nat k)%Z) -> span_sum f L H == qsum tv.
Proof.
  intros HLH Hlen Hf. rewrite <- (vol_where_all (fun _ => true) (zrange L (H + 1)) tv); [|auto|rewrite zrange_length; lia].
  symmetry. exact (vol_where_levels (fun _ => true) L H tv f HLH Hlen Hf).
Qed.

Definition row_ok (f : Z -> Q) (L H : Z) (pct : Q) (r : Z * Z * Z * Q) : Prop :=
  let '(poc, hva, lva, share) := r in
  is_profile f L H pct poc hva lva /\
  (0 < span_sum f L H -> share * span_sum f L H == span_sum f (poc + 1) H) /\
  (span_sum f L H <= 0 -> share == 0).

Lemma total_levels L H bv sv plv pbv psv bars :
  length bv = length (zrange L (H + 1)) ->
  (forall k, (k < length bv)%nat -> nth k bv 0 == lev_sum plv pbv bars (L + Z.of_nat k) /\
                                    nth k sv 0 == lev_sum plv psv bars (L + Z.of_nat k)) ->
  let tv := map (fun k => nth k bv 0 + nth k sv 0) (seq 0 (length bv)) in
  length tv = Z.to_nat (H + 1 - L) /\
  forall k, (k < length tv)%nat -> nth k tv 0 == level_total plv pbv psv bars (L + Z.of_nat k).
Proof.
  intros Hl Hk tv. unfold tv. rewrite map_length, seq_length. split; [rewrite Hl, zrange_length; reflexivity|].
  intros k Hk'. rewrite nth_map_seq by auto. destruct (Hk k Hk') as [-> ->]. reflexivity.
Qed.

Lemma level_total_nonneg plv pbv psv bars l : vols_ok pbv -> vols_ok psv -> 0 <= level_total plv pbv psv bars l.
Proof.
  intros H1 H2. unfold level_total. pose proof (lev_sum_nonneg plv pbv bars l H1). pose proof (lev_sum_nonneg plv psv bars l H2). lra.
Qed.

Lemma range_le highs lows tick bars L H plv : 0 < tick -> (forall t, In t bars -> footprint_ok highs lows plv tick t) ->
  level_range highs lows tick bars L H -> (L <= H)%Z.
Proof.
  intros Ht Hok [[t [Hin HL]] [_ [_ Hhi]]]. destruct (Hok t Hin) as [Hle _].
  apply Z.le_trans with (rhe (nth t highs 0%Q / tick)); [|apply (Hhi t); auto; apply rhe_spec].
  rewrite <- (rounds_unique _ _ _ (rhe_spec _) HL). apply rhe_mono.
  apply Qmult_le_compat_r; [auto|apply Qlt_le_weak, Qinv_lt_0_compat; auto].
Qed.

Lemma profile_at_spec ts highs lows plv pbv psv W tick pct i :
  ascZ ts -> 0 < tick -> length highs = length ts -> length lows = length ts -> (0 <= W)%Z ->
  vols_ok pbv -> vols_ok psv -> 0 <= pct <= 100 -> (i < length ts)%nat ->
  let bars := bars_in ts (nth i ts 0 - W)%Z (nth i ts 0%Z) in
  (forall t, In t bars -> footprint_ok highs lows plv tick t) ->
  exists L H r, profile_at ts highs lows plv pbv psv W None tick pct i = Ok (Some r) /\
    level_range highs lows tick bars L H /\ row_ok (level_total plv pbv psv bars) L H pct r.
Proof.
  intros Hasc Ht Hh Hl HW Hvb Hvs Hp Hi bars Hok.
  assert (Hin : In i bars).
  { unfold bars, bars_in. apply filter_In. split; [apply in_seq; lia|].
    rewrite (proj2 (Z.leb_le _ _)) by lia. rewrite (proj2 (Z.leb_le _ _)) by lia. reflexivity. }
  destruct (aggregate_spec ts highs lows plv pbv psv (nth i ts 0 - W)%Z (nth i ts 0%Z) tick)
    as [L [H [bv [sv [E [HL [HH [Hb [Hlb [Hls Hk]]]]]]]]]]; auto; try lia.
  { fold bars. intro K. rewrite K in Hin. inversion Hin. }
  { intros t Htt. apply fp_ok_of. apply Hok. auto. }
  fold bars in HL, HH, Hb, Hk.
  pose proof (range_of highs lows tick bars L H HL HH Hb) as Hr.
  pose proof (range_le highs lows tick bars L H plv Ht Hok Hr) as HLH.
  destruct (total_levels L H bv sv plv pbv psv bars Hlb Hk) as [T1 T2].
  unfold profile_at. cbv zeta. rewrite E.
  set (tv := map (fun k => nth k bv 0 + nth k sv 0) (seq 0 (length bv))) in *.
  set (f := level_total plv pbv psv bars) in *.
  destruct (profile_of L H tv f pct HLH T1 T2) as [poc [hva [lva [E2 P]]]]; auto.
  { intros. apply level_total_nonneg; auto. }
  rewrite E2. exists L, H, (poc, hva, lva, pct_above_poc (zrange L (H + 1)) tv poc).
  split; [reflexivity|]. split; [exact Hr|].
  unfold row_ok. split; [exact P|].
  assert (Hnn : forall x, In x tv -> 0 <= x).
  { intros x Hx. apply (In_nth _ _ 0) in Hx. destruct Hx as [k [Hkk <-]]. rewrite T2 by auto. apply level_total_nonneg; auto. }
  destruct (pct_above_value (zrange L (H + 1)) tv poc Hnn) as [A1 A2]; [rewrite zrange_length; lia|].
  rewrite (span_qsum L H tv f HLH T1 T2). split; intro K.
  - rewrite A1 by auto. rewrite (vol_where_levels _ L H tv f HLH T1 T2).
    destruct P as [P1 [P2 _]]. rewrite above_levels by lia. field. lra.
  - rewrite A2 by auto. reflexivity.
Qed.

Lemma rolling_spec ts highs lows plv pbv psv W tick pct :
  ascZ ts -> 0 < tick -> length highs = length ts -> length lows = length ts -> length plv = length ts -> (0 <= W)%Z ->
  vols_ok pbv -> vols_ok psv -> 0 <= pct <= 100 ->
  (forall t, (t < length ts)%nat -> footprint_ok highs lows plv tick t) ->
  exists rows, volume_profile_rolling ts highs lows plv pbv psv W None tick pct = Ok rows /\ length rows = length ts /\
    forall i, (i < length ts)%nat ->
      ((nth i ts 0 < nth 0 ts 0 + W)%Z -> nth i rows None = Some (0%Z, 0%Z, 0%Z, 0)) /\
      ((nth 0 ts 0 + W <= nth i ts 0)%Z ->
         let bars := bars_in ts (nth i ts 0 - W)%Z (nth i ts 0%Z) in
         exists L H r, nth i rows None = Some r /\ level_range highs lows tick bars L H /\
           row_ok (level_total plv pbv psv bars) L H pct r).
Proof.
  intros Hasc Ht Hh Hl Hp HW Hvb Hvs Hpct Hok.
  assert (Hin : forall a b t, In t (bars_in ts a b) -> (t < length ts)%nat).
  { intros a b t Htt. apply filter_In in Htt. destruct Htt as [Htt _]. apply in_seq in Htt. lia. }
  set (F := fun i => if (i <? ss_left ts (nth 0 ts 0 + W)%Z)%nat then Ok (Some (0%Z, 0%Z, 0%Z, 0))
                    else profile_at ts highs lows plv pbv psv W None tick pct i).
  assert (HF : forall i, (i < length ts)%nat -> exists a, F i = Ok a).
  { intros i Hi. unfold F. destruct (i <? _)%nat; [eauto|].
    destruct (profile_at_spec ts highs lows plv pbv psv W tick pct i) as [L [H [r [E _]]]]; auto.
    - intros t Htt. apply Hok. eapply Hin. exact Htt.
    - eauto. }
  destruct (run_all_ok F (seq 0 (length plv))) as [rows Er].
  { intros k Hk. apply in_seq in Hk. apply HF. lia. }
  exists rows. split; [exact Er|]. destruct (run_all_nth F _ _ Er) as [Hlen Hn]. rewrite seq_length in Hlen.
  split; [lia|]. intros i Hi.
  assert (Ei : F i = Ok (nth i rows None)).
  { pose proof (Hn i (nth i rows None)) as K. rewrite seq_nth in K by lia. cbn [Nat.add] in K.
    apply K. apply nth_error_nth'. lia. }
  unfold F in Ei. split.
  - intro Hlt. rewrite (proj2 (Nat.ltb_lt i _)) in Ei.
    + now injection Ei.
    + destruct (Nat.lt_ge_cases i (ss_left ts (nth 0 ts 0 + W)%Z)) as [|K]; auto.
      pose proof (ss_left_ge ts (nth 0 ts 0 + W)%Z i Hasc ltac:(lia)). lia.
  - intros Hge bars. rewrite (proj2 (Nat.ltb_ge i _)) in Ei.
    + destruct (profile_at_spec ts highs lows plv pbv psv W tick pct i) as [L [H [r [E [R1 R2]]]]]; auto.
      { intros t Htt. apply Hok. eapply Hin. exact Htt. }
      exists L, H, r. rewrite E in Ei. injection Ei as <-. auto.
    + destruct (Nat.lt_ge_cases i (ss_left ts (nth 0 ts 0 + W)%Z)) as [K|]; auto.
      pose proof (ss_left_lt ts (nth 0 ts 0 + W)%Z i K). lia.
Qed.

(** Total volume of the levels. *)
Lemma span_vol_at L H lv vols : (forall l, In l lv -> (L <= l <= H)%Z) -> length vols = length lv ->
  span_sum (fun l => vol_at l lv vols) L H == qsum vols.
Proof.
  intros Hb Hlen. unfold span_sum, vol_at, vol_where. rewrite qsum_exchange.
  rewrite (qsum_map_ext_seq _ (fun i => at_ vols i)).
  - rewrite (qsum_ssum vols). unfold ssum. rewrite Nat.sub_0_r, Hlen. reflexivity.
  - intros i Hi. specialize (Hb (nth i lv 0%Z) ltac:(apply nth_In; lia)). set (l0 := nth i lv 0%Z) in *.
    rewrite (zrange_app L l0 (H + 1)) by lia. rewrite (zrange_cons l0) by lia.
    rewrite map_app, qsum_app. cbn [map]. rewrite qsum_cons, Z.eqb_refl.
    rewrite (qsum_map_ext _ (fun _ => 0) (zrange L l0)).
    2:{ intros l Hl. apply in_zrange in Hl. rewrite (proj2 (Z.eqb_neq l l0)) by lia. reflexivity. }
    rewrite (qsum_map_ext _ (fun _ => 0) (zrange (l0 + 1) (H + 1))).
    2:{ intros l Hl. apply in_zrange in Hl. rewrite (proj2 (Z.eqb_neq l l0)) by lia. reflexivity. }
    rewrite !qsum_map_const. unfold at_. ring.
Qed.
Lemma span_lev_sum L H plv pv bars : (forall t l, In t bars -> In l (nth t plv []) -> (L <= l <= H)%Z) ->
  (forall t, In t bars -> length (nth t pv []) = length (nth t plv [])) ->
  span_sum (lev_sum plv pv bars) L H == qsum (map (fun t => qsum (nth t pv [])) bars).
Proof.
  intros Hb Hlen. unfold span_sum, lev_sum. rewrite qsum_exchange. apply qsum_map_ext. intros t Ht.
  apply (span_vol_at L H); auto. intros l Hl. apply (Hb t); auto.
Qed.

(** ** Developing profile *)
Lemma dev_raise lv plv pbv psv nb pct l x : fold_left (dev_step lv plv pbv psv nb pct) l (Raise x) = Raise x.
Proof. induction l; auto. Qed.
Lemma dev_out_length lv plv pbv psv nb pct : forall l acc r, fold_left (dev_step lv plv pbv psv nb pct) l (Ok acc) = Ok r ->
  length (snd r) = length (snd acc).
Proof.
  induction l as [|t l IH]; intros [[a b] out] r H; cbn [fold_left] in H.
  - injection H as <-. reflexivity.
  - cbn [dev_step] in H. destruct (agg_step lv plv pbv psv (Ok (a, b)) t) as [[a' b']|x]; [|rewrite dev_raise in H; discriminate].
    destruct (developing_at lv a' b' nb pct) as [v|x]; [|rewrite dev_raise in H; discriminate].
    destruct (t <? length out)%nat; [|rewrite dev_raise in H; discriminate].
    apply IH in H. cbn [snd] in *. rewrite map_length, seq_length in H. exact H.
Qed.
Lemma developing_late ts highs lows plv pbv psv a b nb tick pct out :
  volume_profile_developing ts highs lows plv pbv psv a b nb tick pct = Ok out -> ss_left ts a = 0%nat.
Proof.
  unfold volume_profile_developing. cbv zeta. set (s := ss_left ts a). set (e := ss_right ts b).
  destruct (Nat.ltb_spec e s) as [K|K]; [discriminate|].
  destruct (window_levels highs lows tick s e) as [lv|x] eqn:Ew; [|discriminate].
  destruct (Nat.eq_dec s e) as [He|He].
  { exfalso. unfold window_levels in Ew. replace (e - s)%nat with 0%nat in Ew by lia. cbn in Ew. discriminate. }
  replace (e - s)%nat with (S (e - s - 1)) at 1 by lia. rewrite seq_S, fold_left_app. cbn [fold_left].
  destruct (fold_left _ (seq s (e - s - 1)) _) as [[[x y] o]|x] eqn:Ef; [|discriminate].
  intro H. destruct (Nat.eq_dec s 0) as [|Hs]; auto. exfalso.
  apply dev_out_length in Ef. cbn [snd] in Ef. rewrite repeat_length in Ef.
  cbn [dev_step] in H. destruct (agg_step lv plv pbv psv (Ok (x, y)) (s + (e - s - 1))) as [[a' b']|z]; [|discriminate].
  destruct (developing_at lv a' b' nb pct) as [v|z]; [|discriminate].
  rewrite (proj2 (Nat.ltb_ge (s + (e - s - 1)) (length o))) in H by lia. discriminate.
Qed.

Lemma lev_sum_snoc plv pv m l : lev_sum plv pv (seq 0 (S m)) l == lev_sum plv pv (seq 0 m) l + vol_at l (nth m plv []) (nth m pv []).
Proof. unfold lev_sum. rewrite seq_S, map_app, qsum_app. cbn [map Nat.add]. rewrite qsum_cons. cbn. ring. Qed.

Lemma dev_fold L H plv pbv psv pct e : (L <= H)%Z -> vols_ok pbv -> vols_ok psv -> 0 <= pct <= 100 ->
  (forall t, (t < e)%nat -> bar_ok L H (nth t plv [])) ->
  forall m, (m <= e)%nat ->
  let z := repeat 0 (Z.to_nat (H + 1 - L)) in
  exists a b out, fold_left (dev_step (zrange L (H + 1)) plv pbv psv None pct) (seq 0 m)
      (Ok (z, z, repeat (Some (0, 0, 0)%Z) e)) = Ok (a, b, out) /\
    length a = Z.to_nat (H + 1 - L) /\ length b = Z.to_nat (H + 1 - L) /\ length out = e /\
    (forall k, (k < length a)%nat -> nth k a 0 == lev_sum plv pbv (seq 0 m) (L + Z.of_nat k) /\
                                     nth k b 0 == lev_sum plv psv (seq 0 m) (L + Z.of_nat k)) /\
    forall t, (t < m)%nat -> exists poc hva lva, nth t out None = Some (poc, hva, lva) /\
      is_profile (level_total plv pbv psv (seq 0 (S t))) L H pct poc hva lva.
Proof.
  intros HLH Hvb Hvs Hp Hok. induction m as [|m IH]; intros Hm z.
  - exists z, z, (repeat (Some (0, 0, 0)%Z) e). cbn [seq fold_left]. unfold z. rewrite !repeat_length.
    split; [reflexivity|]. split; [auto|]. split; [auto|]. split; [auto|]. split; [|intros; lia].
    intros k Hk. rewrite nth_repeat. unfold lev_sum. cbn. split; reflexivity.
  - destruct (IH ltac:(lia)) as [a [b [out [E [La [Lb [Lo [Hk Ht]]]]]]]].
    rewrite seq_S, fold_left_app. fold z in E. rewrite E. cbn [fold_left Nat.add dev_step].
    destruct (agg_step_spec L H plv pbv psv a b m) as [a' [b' [E2 [La' [Lb' [Ha Hb]]]]]]; auto; try (apply Hok; lia).
    rewrite E2.
    assert (Hk' : forall k, (k < length a')%nat -> nth k a' 0 == lev_sum plv pbv (seq 0 (S m)) (L + Z.of_nat k) /\
                                     nth k b' 0 == lev_sum plv psv (seq 0 (S m)) (L + Z.of_nat k)).
    { intros k Hkk. rewrite Ha, Hb by lia. destruct (Hk k ltac:(lia)) as [-> ->]. rewrite !lev_sum_snoc. split; reflexivity. }
    destruct (total_levels L H a' b' plv pbv psv (seq 0 (S m))) as [T1 T2]; [rewrite zrange_length; lia|auto|].
    destruct (profile_of L H (map (fun k => nth k a' 0 + nth k b' 0) (seq 0 (length a'))) (level_total plv pbv psv (seq 0 (S m))) pct HLH T1 T2)
      as [poc [hva [lva [E3 P]]]]; auto.
    { intros. apply level_total_nonneg; auto. }
    unfold developing_at. cbv zeta. rewrite E3. rewrite (proj2 (Nat.ltb_lt m (length out))) by lia.
    eexists a', b', _. split; [reflexivity|]. split; [lia|]. split; [lia|].
    rewrite map_length, seq_length. split; [lia|]. change m with (0 + m)%nat at 1 3. rewrite <- seq_S. split; [exact Hk'|].
    intros t Htt. rewrite nth_map_seq by lia. destruct (Nat.eqb_spec t m) as [->|Hne].
    + exists poc, hva, lva. auto.
    + apply Ht. lia.
Qed.

Lemma developing_spec ts highs lows plv pbv psv a b tick pct :
  ascZ ts -> 0 < tick -> length highs = length ts -> length lows = length ts ->
  vols_ok pbv -> vols_ok psv -> 0 <= pct <= 100 -> ts <> [] ->
  (a <= nth 0 ts 0)%Z -> (nth 0 ts 0 <= b)%Z ->
  (forall t, In t (bars_in ts a b) -> footprint_ok highs lows plv tick t) ->
  exists L H out, volume_profile_developing ts highs lows plv pbv psv a b None tick pct = Ok out /\
    length out = length (bars_in ts a b) /\ level_range highs lows tick (bars_in ts a b) L H /\
    forall t, (t < length out)%nat -> exists poc hva lva, nth t out None = Some (poc, hva, lva) /\
      is_profile (level_total plv pbv psv (seq 0 (S t))) L H pct poc hva lva.
Proof.
  intros Hasc Ht Hh Hl Hvb Hvs Hp Hne Ha Hb Hok.
  assert (Hpos : (0 < length ts)%nat) by (apply nonnil_pos; auto).
  assert (Es : ss_left ts a = 0%nat).
  { destruct (ss_left ts a) as [|k] eqn:E; auto. pose proof (ss_left_lt ts a 0 ltac:(lia)). lia. }
  assert (Ee : (0 < ss_right ts b)%nat).
  { destruct (ss_right ts b) as [|k] eqn:E; [|lia]. pose proof (ss_right_ge ts b 0 Hasc ltac:(lia)). lia. }
  rewrite bars_in_seq in * by (auto; lia). rewrite Es in *. rewrite Nat.sub_0_r in *.
  set (e := ss_right ts b) in *. assert (He : (e <= length ts)%nat) by apply ss_right_le.
  assert (Hok' : forall t, (t < e)%nat -> footprint_ok highs lows plv tick t) by (intros; apply Hok; apply in_seq; lia).
  destruct (window_levels_spec highs lows tick 0 e) as [L [H [E [[tl [TL1 TL2]] [[th [TH1 TH2]] Hbd]]]]]; try lia; auto.
  { intros t Htt. destruct (fp_ok_of _ _ _ _ _ (Hok' t ltac:(lia))) as [_ K]. exact K. }
  assert (Hr : level_range highs lows tick (seq 0 e) L H).
  { apply range_of.
    - exists tl. split; [apply in_seq; lia|auto].
    - exists th. split; [apply in_seq; lia|auto].
    - intros t Htt. apply in_seq in Htt. apply Hbd. lia. }
  pose proof (range_le highs lows tick (seq 0 e) L H plv Ht Hok Hr) as HLH.
  destruct (dev_fold L H plv pbv psv pct e HLH Hvb Hvs Hp) with (m := e) as [x [y [out [E2 [_ [_ [Lo [_ Hout]]]]]]]]; auto.
  { intros t Htt. destruct (fp_ok_of _ _ _ _ _ (Hok' t Htt)) as [[K1 K2] _]. destruct (Hbd t ltac:(lia)).
    split; auto. intros l Hl'. specialize (K2 l Hl'). lia. }
  exists L, H, out. split.
  - unfold volume_profile_developing. cbv zeta. rewrite Es. fold e. rewrite (proj2 (Nat.ltb_ge e 0)) by lia.
    rewrite E, zrange_length, Nat.sub_0_r, E2. reflexivity.
  - rewrite seq_length. split; [auto|]. split; [auto|]. intros t Htt. apply Hout. lia.
Qed.
