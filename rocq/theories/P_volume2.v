(** P_volume2.v -- proofs about volume profiles: buckets, aggregation, rolling and
    developing profiles. *)
From Verif Require Import Base M_logic M_bars M_footprint M_features M_volume.
From Verif Require Import S_footprint S_features S_volume P_footprint P_weights P_features P_volume.
Open Scope Q_scope.

(** ** Volume by level *)
Lemma vol_where_ext p q lv vols : (forall l, In l lv -> p l = q l) -> vol_where p lv vols == vol_where q lv vols.
Proof.
  intro H. unfold vol_where. apply qsum_map_ext. intros i Hi. apply in_seq in Hi.
  rewrite (H (nth i lv 0%Z)) by (apply nth_In; lia). reflexivity.
Qed.
Lemma vol_where_all p lv vols : (forall l, In l lv -> p l = true) -> length lv = length vols ->
  vol_where p lv vols == qsum vols.
Proof.
  intros H E. rewrite qsum_ssum. unfold vol_where, ssum. rewrite Nat.sub_0_r, <- E.
  apply qsum_map_ext. intros i Hi. apply in_seq in Hi.
  rewrite (H (nth i lv 0%Z)) by (apply nth_In; lia). reflexivity.
Qed.
Lemma incr_le lv i j : incr lv -> (i <= j < length lv)%nat -> (nth i lv 0 <= nth j lv 0)%Z.
Proof. intros H Hi. destruct (Nat.eq_dec i j) as [->|]; [lia|]. specialize (H i j ltac:(lia)). lia. Qed.
Lemma incr_asc lv : incr lv -> ascZ lv.
Proof. intros H i j Hi. apply incr_le; auto. Qed.
Lemma incr_lt_iff lv i j : incr lv -> (i < length lv)%nat -> (j < length lv)%nat ->
  (nth i lv 0 <= nth j lv 0)%Z <-> (i <= j)%nat.
Proof.
  intros H Hi Hj. split; intro K; [|apply incr_le; auto].
  destruct (Nat.le_gt_cases i j); auto. specialize (H j i ltac:(lia)). lia.
Qed.

Lemma vol_between lv vols a b : incr lv -> length lv = length vols -> (a <= b < length lv)%nat ->
  vol_where (fun l => (nth a lv 0 <=? l) && (l <=? nth b lv 0))%Z%bool lv vols == ssum (at_ vols) a (S b).
Proof.
  intros Hi He Hab. unfold vol_where.
  replace (length lv) with (a + ((S b - a) + (length lv - S b)))%nat at 1 by lia.
  rewrite seq_app, map_app, qsum_app, seq_app, map_app, qsum_app. cbn [Nat.add].
  assert (E1 : forall k c, (forall i, (k <= i < k + c)%nat -> (i < length lv)%nat /\ ~ (a <= i <= b)%nat) ->
    qsum (map (fun i => if ((nth a lv 0 <=? nth i lv 0) && (nth i lv 0 <=? nth b lv 0))%Z then nth i vols 0 else 0) (seq k c)) == 0).
  { intros k c Hk. rewrite (qsum_map_ext_seq _ (fun _ => 0)).
    - rewrite qsum_map_const. ring.
    - intros i Hi'. destruct (Hk i Hi') as [K1 K2].
      destruct (Z.leb_spec (nth a lv 0%Z) (nth i lv 0%Z)) as [L1|L1]; [|reflexivity].
      destruct (Z.leb_spec (nth i lv 0%Z) (nth b lv 0%Z)) as [L2|L2]; [|reflexivity]. exfalso. apply K2.
      apply incr_lt_iff in L1; auto; [|lia]. apply incr_lt_iff in L2; auto; lia. }
  rewrite (E1 0%nat a) by (intros; lia). rewrite (E1 (0 + a + (S b - a))%nat) by (intros; lia).
  unfold ssum. rewrite Qplus_0_l, Qplus_0_r. apply qsum_map_ext_seq.
  intros i Hi'. cbn [Nat.add] in Hi'.
  rewrite (proj2 (Z.leb_le _ _)) by (apply incr_le; auto; lia).
  rewrite (proj2 (Z.leb_le _ _)) by (apply incr_le; auto; lia). reflexivity.
Qed.

(** ** Buckets *)
Lemma fold_zmin_spec : forall l x, In (fold_left Z.min l x) (x :: l) /\ forall y, In y (x :: l) -> (fold_left Z.min l x <= y)%Z.
Proof.
  induction l as [|z l IH]; intro x; cbn [fold_left].
  - split; [left; auto|]. intros y [<-|[]]; lia.
  - destruct (IH (Z.min x z)) as [H1 H2]. split.
    + destruct H1 as [H1|H1]; [|right; right; auto].
      destruct (Z.min_spec x z) as [[_ E]|[_ E]]; rewrite E in *; [left|right; left]; auto.
    + intros y [<-|[<-|Hy]]; [|..].
      * specialize (H2 (Z.min x z) ltac:(left; auto)). lia.
      * specialize (H2 (Z.min x z) ltac:(left; auto)). lia.
      * apply H2. right. auto.
Qed.
Lemma fold_zmax_spec : forall l x, In (fold_left Z.max l x) (x :: l) /\ forall y, In y (x :: l) -> (y <= fold_left Z.max l x)%Z.
Proof.
  induction l as [|z l IH]; intro x; cbn [fold_left].
  - split; [left; auto|]. intros y [<-|[]]; lia.
  - destruct (IH (Z.max x z)) as [H1 H2]. split.
    + destruct H1 as [H1|H1]; [|right; right; auto].
      destruct (Z.max_spec x z) as [[_ E]|[_ E]]; rewrite E in *; [right; left|left]; auto.
    + intros y [<-|[<-|Hy]]; [|..].
      * specialize (H2 (Z.max x z) ltac:(left; auto)). lia.
      * specialize (H2 (Z.max x z) ltac:(left; auto)). lia.
      * apply H2. right. auto.
Qed.
Lemma zlmin_incr lv : lv <> [] -> incr lv -> zlmin lv = nth 0 lv 0%Z.
Proof.
  destruct lv as [|x l]; [congruence|]. intros _ Hi. unfold zlmin. cbn [nth].
  destruct (fold_zmin_spec l x) as [H1 H2]. apply (In_nth _ _ 0%Z) in H1. destruct H1 as [k [Hk E]].
  assert (nth 0 (x :: l) 0 <= nth k (x :: l) 0)%Z by (apply incr_le; auto; lia).
  rewrite E in H. cbn [nth] in H. specialize (H2 x ltac:(left; auto)). lia.
Qed.
Lemma last_nth {A} (l : list A) d : last l d = nth (length l - 1) l d.
Proof.
  induction l as [|x l IH]; [reflexivity|]. destruct l as [|y l]; [reflexivity|].
  change (last (x :: y :: l) d) with (last (y :: l) d). rewrite IH.
  cbn [length]. replace (S (S (length l)) - 1)%nat with (S (S (length l) - 1)) by lia. reflexivity.
Qed.
Lemma zlmax_incr lv : lv <> [] -> incr lv -> zlmax lv = last lv 0%Z.
Proof.
  destruct lv as [|x l]; [congruence|]. intros _ Hi. rewrite last_nth. unfold zlmax.
  destruct (fold_zmax_spec l x) as [H1 H2]. apply (In_nth _ _ 0%Z) in H1. destruct H1 as [k [Hk E]].
  assert (nth k (x :: l) 0 <= nth (length (x :: l) - 1) (x :: l) 0)%Z by (apply incr_le; auto; lia).
  rewrite E in H. specialize (H2 (nth (length (x :: l) - 1) (x :: l) 0%Z)).
  assert (In (nth (length (x :: l) - 1) (x :: l) 0%Z) (x :: l)) by (apply nth_In; simpl; lia).
  specialize (H2 H0). lia.
Qed.

Lemma bin_width_odd r nb : let w := Z.max 1 (r / nb) in
  Z.odd (bin_width r nb) = true /\ (w <= bin_width r nb <= w + 1)%Z.
Proof.
  cbv zeta. unfold bin_width. set (w := Z.max 1 (r / nb)).
  destruct (Z.eqb_spec (w mod 2) 0) as [E|E].
  - split; [|lia]. rewrite Z.odd_add. rewrite (Zmod_odd w) in E. destruct (Z.odd w); [discriminate|reflexivity].
  - split; [|lia]. rewrite (Zmod_odd w) in E. destruct (Z.odd w); [reflexivity|congruence].
Qed.

Lemma ss_right_unique l v k : (k <= length l)%nat -> ascZ l ->
  (forall i, (i < k)%nat -> (nth i l 0 <= v)%Z) -> (forall i, (k <= i < length l)%nat -> (v < nth i l 0)%Z) -> ss_right l v = k.
Proof.
  intros Hk Ha H1 H2. pose proof (ss_right_le l v) as H.
  destruct (Nat.lt_trichotomy (ss_right l v) k) as [K|[K|K]]; auto.
  - specialize (H1 _ K). pose proof (ss_right_ge l v (ss_right l v) Ha ltac:(lia)). lia.
  - pose proof (ss_right_lt l v k K). specialize (H2 k ltac:(lia)). lia.
Qed.
Lemma ss_left_unique l v k : (k <= length l)%nat -> ascZ l ->
  (forall i, (i < k)%nat -> (nth i l 0 < v)%Z) -> (forall i, (k <= i < length l)%nat -> (v <= nth i l 0)%Z) -> ss_left l v = k.
Proof.
  intros Hk Ha H1 H2. pose proof (ss_left_le l v) as H.
  destruct (Nat.lt_trichotomy (ss_left l v) k) as [K|[K|K]]; auto.
  - specialize (H1 _ K). pose proof (ss_left_ge l v (ss_left l v) Ha ltac:(lia)). lia.
  - pose proof (ss_left_lt l v k K). specialize (H2 k ltac:(lia)). lia.
Qed.

Lemma ceil_bounds r bw : (0 <= r -> 0 < bw -> let c := (r + bw - 1) / bw in
  r <= c * bw /\ (c - 1) * bw < r /\ 0 <= c)%Z.
Proof.
  intros Hr Hb. cbv zeta. pose proof (Z.div_mod (r + bw - 1) bw ltac:(lia)) as E.
  pose proof (Z.mod_pos_bound (r + bw - 1) bw Hb) as M.
  assert (0 <= (r + bw - 1) / bw)%Z by (apply Z.div_pos; lia). nia.
Qed.

Lemma fold_bins idx vols nb : forall is acc, (forall i, In i is -> (0 <= nth i idx 0 <= Z.of_nat nb)%Z /\ (Z.to_nat (nth i idx 0%Z) < length acc)%nat) ->
  length (fold_left (bin_step idx vols nb) is acc) = length acc /\
  forall k, (k < length acc)%nat -> nth k (fold_left (bin_step idx vols nb) is acc) 0 ==
    nth k acc 0 + qsum (map (fun i => if (nth i idx 0 =? Z.of_nat k)%Z then nth i vols 0 else 0) is).
Proof.
  induction is as [|i is IH]; intros acc H; cbn [fold_left map qsum].
  - split; [reflexivity|]. intros. cbn. ring.
  - destruct (H i (or_introl eq_refl)) as [Hr Hl].
    assert (E : bin_step idx vols nb acc i = qadd_at acc (Z.to_nat (nth i idx 0%Z)) (nth i vols 0)).
    { unfold bin_step. cbv zeta. rewrite (proj2 (Z.leb_le _ _)) by lia. cbn [andb].
      destruct (Z.ltb_spec (nth i idx 0%Z) (Z.of_nat nb)) as [K|K]; [reflexivity|].
      rewrite (proj2 (Z.eqb_eq _ _)) by lia. f_equal. lia. }
    rewrite E. destruct (IH (qadd_at acc (Z.to_nat (nth i idx 0%Z)) (nth i vols 0))) as [H1 H2].
    { intros j Hj. rewrite qadd_at_length. apply H. right. auto. }
    rewrite qadd_at_length in *. split; [exact H1|]. intros k Hk. rewrite H2 by auto.
    rewrite qadd_at_nth by auto. rewrite qsum_cons.
    destruct (Nat.eqb_spec k (Z.to_nat (nth i idx 0%Z))) as [K|K];
    destruct (Z.eqb_spec (nth i idx 0%Z) (Z.of_nat k)) as [K'|K']; try lia; ring.
Qed.

Lemma bucket_ne lv vols nbins : lv <> [] -> nbins <> 0%Z -> bucket_price_levels lv vols nbins =
  let mn := zlmin lv in
  let mx := zlmax lv in
  let bw := bin_width (mx - mn) nbins in
  let edges0 := arange_step mn (mx + bw) bw in
  let nb := (length edges0 - 1)%nat in
  let edges := if (length edges0 <? 2)%nat then [wraps 32 mn; wraps 32 (mx + 1)] else edges0 in
  let idx := map (fun x => (Z.of_nat (ss_right edges x) - 1)%Z) lv in
  let left := (last idx 0 =? Z.of_nat nb)%Z in
  let mids := map (fun k => wraps 32 ((nth k edges 0 + nth (S k) edges 0 - 1) / 2))%Z (seq 0 nb) in
  let prices := if left then mids ++ [mx] else mids in
  let z := repeat 0 (if left then S nb else nb) in
  Ok (prices, fold_left (bin_step idx vols nb) (seq 0 (length lv)) z).
Proof.
  intros H1 H2. unfold bucket_price_levels. rewrite (proj2 (Z.eqb_neq _ _) H2).
  destruct lv as [|x l]; [congruence|reflexivity].
Qed.
Lemma nonnil_pos {A} (l : list A) : l <> [] -> (0 < length l)%nat.
Proof. destruct l; [congruence|simpl; lia]. Qed.

Section Bucket.
  Variables (lv : list Z) (vols : list Q) (nbins : Z).
  Hypothesis Hne : lv <> [].
  Hypothesis Hinc : incr lv.
  Hypothesis Hlen : length vols = length lv.
  Hypothesis Hrange : forall l, In l lv -> (- 2 ^ 29 <= l < 2 ^ 29)%Z.
  Hypothesis Hnb : nbins <> 0%Z.
  Let mn := nth 0 lv 0%Z.
  Let mx := last lv 0%Z.
  Let bw := bin_width (mx - mn) nbins.
  Let c := ((mx - mn + bw - 1) / bw)%Z.

  Lemma lv_bounds l : In l lv -> (mn <= l <= mx)%Z.
  Proof.
    intro H. apply (In_nth _ _ 0%Z) in H. destruct H as [k [Hk <-]]. unfold mn, mx. rewrite last_nth.
    split; apply incr_le; auto; lia.
  Qed.
  Lemma mn_in : In mn lv.
  Proof. unfold mn. apply nth_In. destruct lv; [congruence|simpl; lia]. Qed.
  Lemma mx_in : In mx lv.
  Proof. unfold mx. rewrite last_nth. apply nth_In. destruct lv; [congruence|simpl; lia]. Qed.
  Lemma bw_pos : (1 <= bw)%Z.
  Proof. destruct (bin_width_odd (mx - mn) nbins) as [_ H]. fold bw in H. lia. Qed.
  Lemma bw_small : (bw <= mx - mn + 2)%Z.
  Proof.
    destruct (bin_width_odd (mx - mn) nbins) as [_ H]. fold bw in H.
    pose proof (lv_bounds mn mn_in).
    assert ((mx - mn) / nbins <= mx - mn)%Z.
    { destruct (Z.lt_trichotomy nbins 0) as [K|[K|K]]; [|congruence|].
      - pose proof (Z.div_opp_opp (mx - mn) nbins ltac:(lia)) as E. rewrite <- E.
        apply Z.div_le_upper_bound; nia.
      - apply Z.div_le_upper_bound; nia. }
    lia.
  Qed.
  Lemma c_facts : (mx - mn <= c * bw /\ (c - 1) * bw < mx - mn /\ 0 <= c)%Z.
  Proof. apply ceil_bounds; [pose proof (lv_bounds mn mn_in); lia|pose proof bw_pos; lia]. Qed.

  Definition edge (k : nat) : Z := (mn + Z.of_nat k * bw)%Z.
  Lemma edge_small k : (Z.of_nat k <= c)%Z -> (- 2 ^ 31 <= edge k < 2 ^ 31)%Z.
  Proof.
    intro H. unfold edge. destruct c_facts as [C1 [C2 C3]]. pose proof bw_pos. pose proof bw_small.
    pose proof (Hrange _ mn_in). pose proof (Hrange _ mx_in).
    change (2 ^ 31)%Z with (4 * 2 ^ 29)%Z. nia.
  Qed.
  Lemma edges0_eq : arange_step mn (mx + bw) bw = map edge (seq 0 (S (Z.to_nat c))).
  Proof.
    unfold arange_step. destruct c_facts as [C1 [C2 C3]]. pose proof bw_pos.
    replace (Z.to_nat ((mx + bw - mn + bw - 1) / bw)) with (S (Z.to_nat c)).
    - apply map_ext_in. intros k Hk. apply in_seq in Hk. apply wraps_id; [lia|]. apply edge_small. lia.
    - replace (mx + bw - mn + bw - 1)%Z with (mx - mn + bw - 1 + 1 * bw)%Z by ring.
      rewrite Z.div_add by lia. fold c. lia.
  Qed.
  Lemma edge_mono i j : (i < j)%nat -> (edge i < edge j)%Z.
  Proof. pose proof bw_pos. unfold edge. nia. Qed.
  Lemma asc_edges m : ascZ (map edge (seq 0 m)).
  Proof.
    intros i j Hij. rewrite map_length, seq_length in Hij. rewrite !nth_map_seq by lia.
    destruct (Nat.eq_dec i j) as [->|]; [lia|]. pose proof (edge_mono i j ltac:(lia)). lia.
  Qed.

  (** Bucket number of a level. *)
  Let bk (l : Z) : Z := ((l - mn) / bw)%Z.
  Lemma bk_range l : In l lv -> (0 <= bk l <= c)%Z.
  Proof.
    intro H. pose proof (lv_bounds l H). pose proof bw_pos. destruct c_facts as [C1 [C2 C3]]. unfold bk. split.
    - apply Z.div_pos; lia.
    - apply Z.div_le_upper_bound; nia.
  Qed.
  Lemma bk_edges l : In l lv -> (edge (Z.to_nat (bk l)) <= l < edge (S (Z.to_nat (bk l))))%Z.
  Proof.
    intro H. pose proof (bk_range l H) as B. pose proof bw_pos.
    pose proof (Z.div_mod (l - mn) bw ltac:(lia)). pose proof (Z.mod_pos_bound (l - mn) bw ltac:(lia)).
    unfold edge. fold (bk l) in *. nia.
  Qed.
  Let edges := let e0 := arange_step mn (mx + bw) bw in
    if (length e0 <? 2)%nat then [wraps 32 mn; wraps 32 (mx + 1)]%Z else e0.
  Lemma idx_bk l : In l lv -> (Z.of_nat (ss_right edges l) - 1 = bk l)%Z.
  Proof.
    intro H. pose proof (bk_range l H) as B. pose proof (bk_edges l H) as E.
    destruct c_facts as [C1 [C2 C3]]. pose proof bw_pos. unfold edges. cbv zeta. rewrite edges0_eq.
    rewrite map_length, seq_length.
    destruct (Nat.ltb_spec (S (Z.to_nat c)) 2) as [K|K].
    - assert (c = 0)%Z by lia. assert (mx = mn)%Z.
      { pose proof (lv_bounds mn mn_in). nia. }
      pose proof (lv_bounds l H). assert (l = mn) by lia. subst l.
      pose proof (Hrange _ mn_in).
      rewrite !wraps_id by (try lia; change (2 ^ (32 - 1))%Z with (4 * 2 ^ 29)%Z; lia).
      cbn [ss_right]. rewrite (proj2 (Z.leb_le _ _)) by lia. rewrite (proj2 (Z.leb_gt _ _)) by lia. lia.
    - enough (ss_right (map edge (seq 0 (S (Z.to_nat c)))) l = S (Z.to_nat (bk l))) as -> by lia.
      apply ss_right_unique.
      + rewrite map_length, seq_length. lia.
      + apply asc_edges.
      + intros i Hi. rewrite nth_map_seq by lia.
        destruct (Nat.eq_dec i (Z.to_nat (bk l))) as [->|]; [lia|]. pose proof (edge_mono i (Z.to_nat (bk l)) ltac:(lia)). lia.
      + rewrite map_length, seq_length. intros i Hi. rewrite nth_map_seq by lia.
        destruct (Nat.eq_dec i (S (Z.to_nat (bk l)))) as [->|]; [lia|]. pose proof (edge_mono (S (Z.to_nat (bk l))) i ltac:(lia)). lia.
  Qed.

  Let left_ : bool := (bk mx =? c)%Z.
  Lemma bk_mono l : In l lv -> (bk l <= bk mx)%Z.
  Proof. intro H. pose proof (lv_bounds l H). pose proof bw_pos. unfold bk. apply Z.div_le_mono; lia. Qed.

  Definition midpoint (k : nat) : Z := (edge k + (bw - 1) / 2)%Z.
  Lemma mid_eq k : (Z.of_nat k < c)%Z -> wraps 32 ((edge k + edge (S k) - 1) / 2)%Z = midpoint k.
  Proof.
    intro H. destruct (bin_width_odd (mx - mn) nbins) as [Ho _]. fold bw in Ho.
    apply Z.odd_spec in Ho. destruct Ho as [h Hh].
    assert (E : ((edge k + edge (S k) - 1) / 2 = midpoint k)%Z).
    { unfold midpoint. replace ((bw - 1) / 2)%Z with h by (apply Z.div_unique_exact; lia).
      unfold edge. symmetry. apply Z.div_unique_exact; lia. }
    rewrite E. apply wraps_id; [lia|].
    pose proof (edge_small k ltac:(lia)). pose proof (edge_small (S k) ltac:(lia)).
    pose proof bw_pos. unfold midpoint. replace ((bw - 1) / 2)%Z with h by (apply Z.div_unique_exact; lia).
    assert (edge (S k) = edge k + bw)%Z by (unfold edge; lia).
    change (32 - 1)%Z with 31%Z. lia.
  Qed.

  Lemma bucket_eq : exists bv,
    bucket_price_levels lv vols nbins =
      Ok ((if left_ then map midpoint (seq 0 (Z.to_nat c)) ++ [mx] else map midpoint (seq 0 (Z.to_nat c))), bv) /\
    length bv = (if left_ then S (Z.to_nat c) else Z.to_nat c) /\
    (forall k, (k < length bv)%nat -> nth k bv 0 == vol_where (fun l => (bk l =? Z.of_nat k)%Z) lv vols) /\
    (forall l, In l lv -> (Z.to_nat (bk l) < length bv)%nat).
  Proof.
    rewrite bucket_ne by auto. cbv zeta. pose proof (nonnil_pos lv Hne) as Hpos.
    rewrite zlmin_incr by auto. rewrite zlmax_incr by auto. fold mn mx. fold bw.
    pose proof edges0_eq as EE.
    assert (Enb : (length (arange_step mn (mx + bw) bw) - 1 = Z.to_nat c)%nat).
    { rewrite EE, map_length, seq_length. lia. }
    rewrite Enb.
    change (if (length (arange_step mn (mx + bw) bw) <? 2)%nat then [wraps 32 mn; wraps 32 (mx + 1)] else arange_step mn (mx + bw) bw) with edges.
    assert (Eidx : map (fun x => (Z.of_nat (ss_right edges x) - 1)%Z) lv = map bk lv).
    { apply map_ext_in. intros l Hl. apply idx_bk. auto. }
    rewrite Eidx.
    assert (El : last (map bk lv) 0%Z = bk mx).
    { rewrite last_nth, map_length. unfold mx. rewrite last_nth.
      rewrite (nth_indep _ 0%Z (bk 0%Z)) by (rewrite map_length; lia). apply map_nth. }
    destruct c_facts as [C1 [C2 C3]].
    rewrite El. replace (bk mx =? Z.of_nat (Z.to_nat c))%Z with left_ by (unfold left_; rewrite Z2Nat.id by lia; reflexivity).
    assert (Emid : map (fun k => wraps 32 ((nth k edges 0 + nth (S k) edges 0 - 1) / 2))%Z (seq 0 (Z.to_nat c)) = map midpoint (seq 0 (Z.to_nat c))).
    { apply map_ext_in. intros k Hk. apply in_seq in Hk.
      assert (E2 : edges = map edge (seq 0 (S (Z.to_nat c)))).
      { unfold edges. cbv zeta. rewrite EE, map_length, seq_length.
        destruct (Nat.ltb_spec (S (Z.to_nat c)) 2); [lia|reflexivity]. }
      rewrite E2, !nth_map_seq by lia. apply mid_eq. lia. }
    rewrite Emid.
    set (m := if left_ then S (Z.to_nat c) else Z.to_nat c).
    assert (Hin : forall l, In l lv -> (Z.to_nat (bk l) < m)%nat).
    { intros l Hl. pose proof (bk_range l Hl). pose proof (bk_mono l Hl). pose proof (bk_range mx mx_in).
      unfold m, left_. destruct (Z.eqb_spec (bk mx) c); lia. }
    destruct (fold_bins (map bk lv) vols (Z.to_nat c) (seq 0 (length lv)) (repeat 0 m)) as [F1 F2].
    { intros i Hi. apply in_seq in Hi. rewrite repeat_length.
      assert (Hn : nth i (map bk lv) 0%Z = bk (nth i lv 0%Z)).
      { rewrite (nth_indep _ 0%Z (bk 0%Z)) by (rewrite map_length; lia). apply map_nth. }
      rewrite Hn. assert (In (nth i lv 0%Z) lv) by (apply nth_In; lia).
      pose proof (bk_range _ H). split; [lia|]. apply Hin. auto. }
    eexists. split; [reflexivity|]. rewrite F1, repeat_length. split; [reflexivity|]. split.
    - intros k Hk. rewrite F2 by (rewrite repeat_length; auto).
      rewrite nth_repeat, Qplus_0_l. unfold vol_where. apply qsum_map_ext_seq. intros i Hi.
      rewrite (nth_indep (map bk lv) 0%Z (bk 0%Z)) by (rewrite map_length; lia). rewrite map_nth. reflexivity.
    - exact Hin.
  Qed.

  Lemma left_exact : left_ = true -> mx = edge (Z.to_nat c).
  Proof.
    unfold left_. intro H. apply Z.eqb_eq in H. pose proof (bk_edges mx mx_in) as E. rewrite H in E.
    destruct c_facts as [C1 [C2 C3]]. unfold edge in *. nia.
  Qed.
End Bucket.
