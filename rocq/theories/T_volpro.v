(** T_volpro.v -- volume profile of a date range against the profile of all bars (C146). *)
From Coq Require Import Sorted.
From Verif Require Import Base M_features M_footprint M_volume M_fpdata M_volpro S_fpdata P_footprint P_volume2 T_fpdata.
Open Scope Q_scope.

(* ------------------------------------------------------------------ *)
Definition cut {A} (a m : nat) (l : list A) : list A := firstn m (skipn a l).
Lemma cut_len {A} a m (l : list A) : (a + m <= length l)%nat -> length (cut a m l) = m.
Proof. intro H. unfold cut. rewrite firstn_length, skipn_length. lia. Qed.
Lemma nth_cut {A} (d : A) a m l t : (t < m)%nat -> nth t (cut a m l) d = nth (a + t) l d.
Proof.
  intro H. unfold cut. revert m l t H.
  induction a as [|a IH]; intros m l t H.
  - cbn [skipn Nat.add]. revert l t H. induction m as [|m IHm]; intros l t H; [lia|]. destruct l as [|x l]; [now destruct t|]. destruct t as [|t]; [reflexivity|]. cbn [firstn nth]. apply IHm. lia.
  - destruct l as [|x l]; [cbn [skipn]; rewrite firstn_nil; cbn; now destruct t|]. cbn [skipn]. rewrite IH by auto. reflexivity.
Qed.
Lemma pick_cut {A} (d : A) a m l : (a + m <= length l)%nat -> pick d (seq a m) l = cut a m l.
Proof.
  intro H. apply (nth_ext _ _ d d); [unfold pick; rewrite map_length, seq_length, cut_len; auto|]. unfold pick. rewrite map_length, seq_length. intros k Hk.
  rewrite nth_cut by auto. rewrite (nth_indep _ d (nth 0 l d)) by (rewrite map_length, seq_length; auto).
  rewrite (map_nth (fun p => nth p l d) (seq a m) 0%nat k). now rewrite seq_nth by auto.
Qed.
Lemma skipn_add {A} i j (l : list A) : skipn i (skipn j l) = skipn (j + i) l.
Proof. revert l. induction j as [|j IH]; intro l; [reflexivity|]. destruct l as [|x l]; [now rewrite !skipn_nil|]. cbn [skipn Nat.add]. apply IH. Qed.
Lemma cut_cut {A} a m s n (l : list A) : (a <= s)%nat -> (s + n <= a + m)%nat -> firstn n (skipn (s - a) (cut a m l)) = firstn n (skipn s l).
Proof.
  intros H1 H2. unfold cut. rewrite skipn_firstn_comm, firstn_firstn, skipn_add. replace (Nat.min n (m - (s - a))) with n by lia. do 2 f_equal. lia.
Qed.
Definition strictZ (l : list Z) : Prop := forall i j, (i < j < length l)%nat -> (nth i l 0 < nth j l 0)%Z.
Lemma strict_asc l : strictZ l -> ascZ l.
Proof. intros H i j Hij. destruct (Nat.eq_dec i j) as [->|N]; [lia|]. specialize (H i j ltac:(lia)). lia. Qed.

Section Slice.
  Variables (ts : list Z) (highs lows : list Q) (plv : list (list Z)) (pbv psv : list (list Q)) (a m : nat).
  Hypothesis Hs : strictZ ts.
  Hypothesis Hm : (a + m <= length ts)%nat.
  Lemma strict_cut : strictZ (cut a m ts).
  Proof. intros i j Hij. rewrite cut_len in Hij by auto. rewrite !nth_cut by lia. apply Hs. lia. Qed.
  Lemma ss_left_cut v i : (a <= i < a + m)%nat -> (nth a ts 0 <= v <= nth i ts 0)%Z -> ss_left (cut a m ts) v = (ss_left ts v - a)%nat /\ (a <= ss_left ts v <= i)%nat.
  Proof.
    intros Hi Hv. pose proof (strict_asc ts Hs) as A.
    assert (B : (a <= ss_left ts v <= i)%nat).
    { split.
      - destruct (Nat.le_gt_cases a (ss_left ts v)) as [K|K]; [exact K|]. pose proof (ss_left_ge ts v (ss_left ts v) A ltac:(lia)). specialize (Hs (ss_left ts v) a ltac:(lia)). lia.
      - destruct (Nat.le_gt_cases (ss_left ts v) i) as [K|K]; [exact K|]. pose proof (ss_left_lt ts v i K). lia. }
    split; [|exact B]. apply ss_left_unique; [rewrite cut_len by auto; lia|apply strict_asc, strict_cut| |].
    - intros k Hk. rewrite nth_cut by lia. apply ss_left_lt. lia.
    - rewrite cut_len by auto. intros k Hk. rewrite nth_cut by lia. apply ss_left_ge; [exact A|lia].
  Qed.
  Lemma ss_right_self i : (i < length ts)%nat -> ss_right ts (nth i ts 0%Z) = S i.
  Proof.
    clear Hm. intro Hi. pose proof (strict_asc ts Hs) as A. apply ss_right_unique; [lia|exact A| |].
    - intros k Hk. apply A. lia.
    - intros k Hk. apply Hs. lia.
  Qed.
End Slice.
Lemma fold_shift {A} (f g : A -> nat -> A) a s n acc : (forall t x, (s <= t < s + n)%nat -> f x t = g x (a + t)%nat) ->
  fold_left f (seq s n) acc = fold_left g (seq (a + s) n) acc.
Proof.
  revert s acc. induction n as [|n IH]; intros s acc H; [reflexivity|]. cbn [seq fold_left]. rewrite (H s acc) by lia. rewrite <- Nat.add_succ_r. apply IH. intros t x Ht. apply H. lia.
Qed.
Lemma aggregate_cut ts highs lows plv pbv psv a m v i tick : strictZ ts -> (a + m <= length ts)%nat -> (a <= i < a + m)%nat -> (nth a ts 0 <= v <= nth i ts 0)%Z ->
  aggregate_footprint (cut a m ts) (cut a m highs) (cut a m lows) (cut a m plv) (cut a m pbv) (cut a m psv) v (nth i ts 0%Z) tick =
  aggregate_footprint ts highs lows plv pbv psv v (nth i ts 0%Z) tick.
Proof.
  intros Hs Hm Hi Hv. unfold aggregate_footprint, agg_range.
  destruct (ss_left_cut ts a m Hs Hm v i Hi Hv) as [-> B]. rewrite (ss_right_self ts Hs i) by lia.
  assert (R : ss_right (cut a m ts) (nth i ts 0%Z) = (S i - a)%nat).
  { replace (nth i ts 0%Z) with (nth (i - a) (cut a m ts) 0%Z) by (rewrite nth_cut by lia; f_equal; lia).
    rewrite (ss_right_self (cut a m ts) (strict_cut ts a m Hs Hm)) by (rewrite cut_len by auto; lia). lia. }
  rewrite R. set (s := ss_left ts v) in *. clearbody s.
  destruct (Nat.eqb_spec s (S i)); [lia|]. destruct (Nat.eqb_spec (s - a) (S i - a)); [lia|].
  replace (S i - a - (s - a))%nat with (S i - s)%nat by lia.
  unfold window_levels. replace (S i - a - (s - a))%nat with (S i - s)%nat by lia. rewrite !cut_cut by lia.
  destruct (match firstn (S i - s) (skipn s lows) with [] => _ | _ => _ end) as [lv|x]; [|reflexivity].
  rewrite (fold_shift _ (agg_step lv plv pbv psv) a).
  - now replace (a + (s - a))%nat with s by lia.
  - intros t x Ht. unfold agg_step. destruct x as [[ab asl]|]; [|reflexivity]. now rewrite !nth_cut by lia.
Qed.
Lemma profile_cut ts highs lows plv pbv psv a m W nb tick pct k : strictZ ts -> (a + m <= length ts)%nat -> (k < m)%nat -> (0 <= W)%Z ->
  (nth a ts 0 + W <= nth (a + k) ts 0)%Z ->
  profile_at (cut a m ts) (cut a m highs) (cut a m lows) (cut a m plv) (cut a m pbv) (cut a m psv) W nb tick pct k =
  profile_at ts highs lows plv pbv psv W nb tick pct (a + k).
Proof.
  intros Hs Hm Hk HW Hv. unfold profile_at. rewrite nth_cut by auto. rewrite aggregate_cut; auto; lia.
Qed.
Lemma date_positions ts s e : ascZ ts ->
  filter (fun i => ((s <=? nth i ts 0) && (nth i ts 0 <=? e))%Z%bool) (seq 0 (length ts)) = seq (ss_left ts s) (ss_right ts e - ss_left ts s).
Proof.
  intro H. set (a := ss_left ts s). set (b := ss_right ts e). pose proof (ss_right_le ts e). replace (b - a)%nat with (Nat.min b (length ts) - a)%nat by (unfold b; lia).
  rewrite <- filter_between. apply filter_ext_in. intros i Hi. apply in_seq in Hi.
  destruct (Nat.leb_spec a i) as [H1|H1]; destruct (Nat.ltb_spec i b) as [H2|H2]; cbn [andb].
  - pose proof (ss_left_ge _ s i H ltac:(unfold a in *; lia)). pose proof (ss_right_lt _ e i H2). lia.
  - pose proof (ss_right_ge _ e i H ltac:(unfold b in *; lia)). lia.
  - pose proof (ss_left_lt _ s i H1). lia.
  - pose proof (ss_left_lt _ s i H1). lia.
Qed.
Lemma find_bar bars i : strictZ (map b_ts bars) -> (i < length bars)%nat ->
  find (fun r => (b_ts r =? nth i (map b_ts bars) 0)%Z) bars = Some (nth i bars (mkBar 0 0 0)).
Proof.
  revert i. induction bars as [|r bars IH]; intros i Hs Hi; [cbn in Hi; lia|]. destruct i as [|i].
  - cbn [map nth find]. now rewrite Z.eqb_refl.
  - cbn [map nth find]. pose proof (Hs 0%nat (S i) ltac:(cbn [length map] in *; rewrite map_length; lia)) as K. cbn [map nth] in K.
    destruct (Z.eqb_spec (b_ts r) (nth i (map b_ts bars) 0%Z)); [lia|]. apply IH; [|cbn in Hi; lia].
    intros p q Hpq. apply (Hs (S p) (S q)). cbn [length map]. lia.
Qed.
Lemma loc_cut bars ts a m : map b_ts bars = ts -> strictZ ts -> (a + m <= length ts)%nat -> loc bars (cut a m ts) = Ok (cut a m bars).
Proof.
  intros Hb Hs Hm. subst ts. rewrite map_length in Hm. unfold loc. rewrite <- (pick_cut 0%Z) by (rewrite map_length; auto). rewrite <- (pick_cut (mkBar 0 0 0)) by auto. unfold pick.
  assert (G : forall l, (forall i, In i l -> (i < length bars)%nat) ->
    collect (map (fun t => match find (fun r => (b_ts r =? t)%Z) bars with Some r => Ok r | None => Raise KeyError end) (map (fun p => nth p (map b_ts bars) 0%Z) l)) = Ok (map (fun p => nth p bars (mkBar 0 0 0)) l)).
  { induction l as [|i l IH]; intro H; [reflexivity|]. cbn [map collect]. rewrite find_bar by (auto; apply H; now left). rewrite IH; [reflexivity|]. intros; apply H; now right. }
  apply G. intros i Hi. apply in_seq in Hi. lia.
Qed.
Lemma map_cut {A B} (f : A -> B) a m l : map f (cut a m l) = cut a m (map f l).
Proof. unfold cut. now rewrite skipn_map, firstn_map. Qed.
(** The profile of a date range has one row per bar from one window before its start up to
    its end; with [t0] the first of these bars, rows from [t0] plus the window on are the
    rows of the profile of all bars, and the rows before are missing (share zero). *)
Theorem C146_range : forall W nb pct bars fd n start end_ rows,
  aligned fd n -> strictZ (fd_ts fd) -> map b_ts bars = fd_ts fd -> (0 <= W)%Z -> vp_compute W nb pct bars fd = Ok rows ->
  let ix := filter (fun i => ((start - W <=? nth i (fd_ts fd) 0) && (nth i (fd_ts fd) 0 <=? end_))%Z%bool) (seq 0 n) in
  ix <> [] ->
  exists rows', vp_range W nb pct bars fd start end_ = Ok (map (fun i => nth i (fd_ts fd) 0%Z) ix, rows') /\ length rows' = length ix /\
    let t0 := nth (hd 0%nat ix) (fd_ts fd) 0%Z in
    forall k, (k < length ix)%nat -> let i := nth k ix 0%nat in
      ((t0 + W <= nth i (fd_ts fd) 0)%Z -> nth k rows' None = nth i rows None) /\
      ((nth i (fd_ts fd) 0 < t0 + W)%Z -> nth k rows' None = Some (None, None, None, 0)).
Proof.
  intros W nb pct bars fd n start end_ rows A Hs Hb HW Hc ix Hne.
  pose proof (strict_asc _ Hs) as Ha. pose proof (al_ts _ _ A) as Ln. pose proof (al_lv _ _ A) as Llv. pose proof (al_bv _ _ A) as Lbv. pose proof (al_sv _ _ A) as Lsv.
  assert (Lb : length bars = n) by (rewrite <- (map_length b_ts), Hb; auto).
  set (ts := fd_ts fd) in *. set (a := ss_left ts (start - W)). set (m := (ss_right ts end_ - a)%nat).
  assert (Eix : ix = seq a m) by (unfold ix; rewrite <- Ln; apply date_positions; auto).
  assert (Hm0 : (0 < m)%nat) by (destruct m; [rewrite Eix in Hne; cbn in Hne; congruence|lia]).
  assert (Hm : (a + m <= length ts)%nat) by (pose proof (ss_right_le ts end_); unfold m in *; lia).
  destruct (C123_dates fd n (start - W) end_ None A Ha) as [sub [Eg Sel]]. fold ts in Sel. fold ix in Sel. rewrite Eix in Sel.
  destruct Sel as [S1 S2 S3 S4 S5 _ _ _ _ _ _ _ _ _ _]. fold ts in S2.
  rewrite pick_cut in S2 by auto. rewrite pick_cut in S3 by lia. rewrite pick_cut in S4 by lia. rewrite pick_cut in S5 by lia.
  (* the full profile *)
  unfold vp_compute in Hc. fold ts in Hc. rewrite Llv, Lbv, Lsv, Ln, Lb, Nat.eqb_refl in Hc. cbn [negb andb] in Hc.
  replace (0 <? n)%nat with true in Hc by (symmetry; apply Nat.ltb_lt; lia). cbn [negb] in Hc.
  destruct (volume_profile_rolling ts (map b_high bars) (map b_low bars) (fd_lv fd) (fd_bv fd) (fd_sv fd) W nb (fd_tick fd) pct) as [rows0|] eqn:E0; [|discriminate].
  injection Hc as <-. unfold volume_profile_rolling in E0. rewrite Llv in E0. destruct (run_all_nth _ _ _ E0) as [L0 N0]. rewrite seq_length in L0.
  assert (F0 : forall i, (i < n)%nat -> (if (i <? ss_left ts (nth 0 ts 0 + W)%Z)%nat then Ok (Some (0%Z, 0%Z, 0%Z, 0))
      else profile_at ts (map b_high bars) (map b_low bars) (fd_lv fd) (fd_bv fd) (fd_sv fd) W nb (fd_tick fd) pct i) = Ok (nth i rows0 None)).
  { intros i Hi. specialize (N0 i (nth i rows0 None) ltac:(apply nth_error_nth'; lia)). now rewrite seq_nth in N0 by lia. }
  assert (First : forall i, (i < n)%nat -> (nth a ts 0 + W <= nth i ts 0)%Z ->
      profile_at ts (map b_high bars) (map b_low bars) (fd_lv fd) (fd_bv fd) (fd_sv fd) W nb (fd_tick fd) pct i = Ok (nth i rows0 None)).
  { intros i Hi Hv. rewrite <- F0 by auto. destruct (Nat.ltb_spec i (ss_left ts (nth 0 ts 0 + W)%Z)) as [K|K]; [|reflexivity].
    pose proof (ss_left_lt ts _ i K). specialize (Ha 0%nat a ltac:(lia)). lia. }
  (* the slice *)
  unfold vp_range. fold ts. rewrite Ln, Lb, Nat.eqb_refl. cbn [negb]. rewrite Eg, S2, (loc_cut bars ts a m Hb Hs Hm).
  unfold vp_compute. rewrite S1, S2, S3, S4, S5. rewrite (cut_len a m bars) by lia. rewrite !cut_len by lia. rewrite Nat.eqb_refl. cbn [negb andb].
  replace (0 <? m)%nat with true by (symmetry; apply Nat.ltb_lt; lia). cbn [negb]. rewrite !map_cut.
  unfold volume_profile_rolling. rewrite cut_len by lia. rewrite (nth_cut 0%Z a m ts 0) by lia. rewrite Nat.add_0_r.
  set (first := ss_left (cut a m ts) (nth a ts 0 + W)%Z).
  assert (Hfirst : forall k, (k < m)%nat -> (k < first)%nat <-> (nth (a + k) ts 0 < nth a ts 0 + W)%Z).
  { intros k Hk. split; intro H.
    - pose proof (ss_left_lt (cut a m ts) _ k H) as K. now rewrite nth_cut in K by auto.
    - destruct (Nat.lt_ge_cases k first) as [K|K]; [exact K|]. pose proof (ss_left_ge (cut a m ts) (nth a ts 0 + W)%Z k) as G. rewrite nth_cut in G by auto.
      specialize (G (strict_asc _ (strict_cut ts a m Hs Hm))). rewrite cut_len in G by auto. unfold first in K. specialize (G ltac:(lia)). lia. }
  set (f := fun i => if (i <? first)%nat then Ok (Some (0%Z, 0%Z, 0%Z, 0))
    else profile_at (cut a m ts) (cut a m (map b_high bars)) (cut a m (map b_low bars)) (cut a m (fd_lv fd)) (cut a m (fd_bv fd)) (cut a m (fd_sv fd)) W nb (fd_tick fd) pct i).
  assert (Ff : forall k, (k < m)%nat -> f k = Ok (if (k <? first)%nat then Some (0%Z, 0%Z, 0%Z, 0) else nth (a + k) rows0 None)).
  { intros k Hk. unfold f. destruct (Nat.ltb_spec k first) as [K|K]; [reflexivity|].
    assert (V : (nth a ts 0 + W <= nth (a + k) ts 0)%Z). { destruct (Z.le_gt_cases (nth a ts 0%Z + W) (nth (a + k) ts 0%Z)) as [V|V]; [exact V|]. apply Hfirst in V; auto. lia. }
    rewrite profile_cut by auto. apply First; [lia|exact V]. }
  destruct (run_all_ok f (seq 0 m)) as [l El]. { intros k Hk. apply in_seq in Hk. rewrite Ff by lia. eauto. }
  rewrite El. destruct (run_all_nth _ _ _ El) as [Ll Nl]. rewrite seq_length in Ll.
  eexists. split; [f_equal; f_equal|].
  { rewrite Eix. rewrite <- (pick_cut 0%Z) by auto. reflexivity. }
  split; [rewrite map_length, Eix, seq_length; exact Ll|]. cbv zeta. rewrite Eix, seq_length. intros k Hk.
  assert (Eh : hd 0%nat (seq a m) = a) by (destruct m; [lia|reflexivity]). rewrite Eh, (seq_nth _ _ Hk).
  assert (Nk : nth k l None = if (k <? first)%nat then Some (0%Z, 0%Z, 0%Z, 0) else nth (a + k) rows0 None).
  { specialize (Nl k (nth k l None) ltac:(apply nth_error_nth'; lia)). rewrite seq_nth in Nl by auto. cbn [Nat.add] in Nl. rewrite Ff in Nl by auto. injection Nl as <-. reflexivity. }
  assert (MN : forall (q : list (option (Z * Z * Z * Q))) i, nth i (map (option_map (vp_prices (fd_tick fd))) q) None = option_map (vp_prices (fd_tick fd)) (nth i q None)).
  { intros q i. exact (map_nth (option_map (vp_prices (fd_tick fd))) q None i). }
  rewrite !MN, Nk. split; intro H.
  - destruct (Nat.ltb_spec k first) as [K|K]; [apply Hfirst in K; auto; lia|reflexivity].
  - destruct (Nat.ltb_spec k first) as [K|K]; [|apply Hfirst in H; auto; lia].
    cbn [option_map vp_prices]. assert (Z0 : level_price (fd_tick fd) 0 = None). { unfold level_price. destruct (Qeqb_spec (inject_Z 0 * fd_tick fd) 0) as [_|N]; [reflexivity|]. exfalso. apply N. ring. }
    now rewrite Z0.
Qed.
(** If a bar stands exactly one window before the start, every bar from the start on has
    its row of the full profile. *)
Theorem C146_exact_start : forall W nb pct bars fd n start end_ rows p,
  aligned fd n -> strictZ (fd_ts fd) -> map b_ts bars = fd_ts fd -> (0 <= W)%Z -> vp_compute W nb pct bars fd = Ok rows ->
  (p < n)%nat -> (nth p (fd_ts fd) 0 = start - W)%Z -> (start - W <= end_)%Z ->
  exists ts' rows', vp_range W nb pct bars fd start end_ = Ok (ts', rows') /\
    forall i, (i < n)%nat -> (start <= nth i (fd_ts fd) 0 <= end_)%Z ->
      exists k, (k < length rows')%nat /\ nth k ts' 0%Z = nth i (fd_ts fd) 0%Z /\ nth k rows' None = nth i rows None.
Proof.
  intros W nb pct bars fd n start end_ rows p A Hs Hb HW Hc Hp Ep He.
  pose proof (C146_range W nb pct bars fd n start end_ rows A Hs Hb HW Hc) as H. cbv zeta in H.
  set (P := fun i => ((start - W <=? nth i (fd_ts fd) 0) && (nth i (fd_ts fd) 0 <=? end_))%Z%bool) in *. set (ix := filter P (seq 0 n)) in *.
  assert (Ip : In p ix). { apply filter_In. split; [apply in_seq; lia|]. unfold P. rewrite Ep. lia. }
  destruct H as [rows' [Er [Lr Hk]]]; [intro K; rewrite K in Ip; destruct Ip|].
  assert (T0 : (nth (hd 0%nat ix) (fd_ts fd) 0 = start - W)%Z).
  { assert (Hd : In (hd 0%nat ix) ix) by (destruct ix; [destruct Ip|now left]). apply filter_In in Hd. destruct Hd as [Hd1 Hd2]. unfold P in Hd2. apply andb_true_iff in Hd2. destruct Hd2 as [Hd2 _]. apply Z.leb_le in Hd2.
    assert (hd 0%nat ix <= p)%nat.
    { unfold ix in *. pose proof (date_positions (fd_ts fd) (start - W) end_ (strict_asc _ Hs)) as D. rewrite (al_ts _ _ A) in D. change (filter P (seq 0 n) = seq (ss_left (fd_ts fd) (start - W)) (ss_right (fd_ts fd) end_ - ss_left (fd_ts fd) (start - W))) in D.
      rewrite D in *. apply in_seq in Ip. destruct (ss_right (fd_ts fd) end_ - ss_left (fd_ts fd) (start - W))%nat; cbn [seq hd]; lia. }
    destruct (Nat.eq_dec (hd 0%nat ix) p) as [->|N]; [exact Ep|]. apply in_seq in Hd1. pose proof (al_ts _ _ A). specialize (Hs (hd 0%nat ix) p ltac:(lia)). lia. }
  exists (map (fun i => nth i (fd_ts fd) 0%Z) ix), rows'. split; [exact Er|]. intros i Hi Hr.
  assert (Ii : In i ix). { apply filter_In. split; [apply in_seq; lia|]. unfold P. lia. }
  destruct (In_nth ix i 0%nat Ii) as [k [Lk Ek]]. exists k. split; [lia|]. split.
  - rewrite (nth_indep _ 0%Z (nth 0%nat (fd_ts fd) 0%Z)) by (rewrite map_length; auto). rewrite (map_nth (fun i => nth i (fd_ts fd) 0%Z) ix 0%nat k). now rewrite Ek.
  - destruct (Hk k Lk) as [Hk1 _]. rewrite Ek in Hk1. apply Hk1. rewrite T0. lia.
Qed.
(** Six bars with irregular distances; the levels are 1, 2 and 3. *)
Definition ex_ts : list Z := [0; 10; 20; 30; 34; 45]%Z.
Definition ex_bars : list barrow := map (fun t => mkBar t 3 1) ex_ts.
Definition ex_fd : fpdata :=
  mkFd ex_ts 1 (map (fun _ => [1; 2; 3]%Z) ex_ts)
       [[1; 5; 2]; [0; 7; 1]; [3; 1; 1]; [1; 1; 9]; [4; 2; 0]; [0; 2; 8]] (map (fun _ => [1; 1; 1]) ex_ts)
       (map (fun _ => [1; 1; 1]%Z) ex_ts) (map (fun _ => [1; 1; 1]%Z) ex_ts) (map (fun _ => [false; false; false]) ex_ts) (map (fun _ => [false; false; false]) ex_ts)
       None None None None None None.
Lemma ex_strict : strictZ ex_ts.
Proof. intros i j H. cbn [length ex_ts] in H. do 6 (destruct j as [|j]; [do 6 (destruct i as [|i]; [cbn; lia|]); lia|]). lia. Qed.
Lemma ex_aligned : aligned ex_fd 6.
Proof. constructor; vm_compute; auto. Qed.
(** The range from 20 to 34 with a window of 10: the bar at 10 is there, and the rows of
    20, 30 and 34 agree with the full profile. *)
Example C146_example : aligned ex_fd 6 /\ strictZ (fd_ts ex_fd) /\ map b_ts ex_bars = fd_ts ex_fd /\
  (exists rows rows', vp_compute 10 None 68 ex_bars ex_fd = Ok rows /\ vp_range 10 None 68 ex_bars ex_fd 20 34 = Ok ([10; 20; 30; 34]%Z, rows') /\
    nth 1 (fd_ts ex_fd) 0%Z = (20 - 10)%Z /\ skipn 1 rows' = firstn 3 (skipn 2 rows) /\ nth 0 rows' None = Some (None, None, None, 0) /\
    exists p h l, nth 3 rows None = Some (Some p, Some h, Some l, 0) /\ p == 3 /\ h == 3 /\ l == 1).
Proof.
  split; [exact ex_aligned|]. split; [exact ex_strict|]. split; [reflexivity|].
  eexists. eexists. split; [vm_compute; reflexivity|]. split; [vm_compute; reflexivity|]. split; [reflexivity|]. split; [vm_compute; reflexivity|]. split; [vm_compute; reflexivity|].
  eexists. eexists. eexists. split; [vm_compute; reflexivity|]. repeat split; vm_compute; reflexivity.
Qed.
(** Without a bar exactly one window before the start, bars of the requested range itself
    have no profile although the profile of all bars has one. *)
Theorem C146_all_rows_refuted : exists W nb pct bars fd n start end_ rows rows' ts' k,
  aligned fd n /\ strictZ (fd_ts fd) /\ map b_ts bars = fd_ts fd /\ (0 < W)%Z /\ (nth 0 (fd_ts fd) 0 + W <= start <= end_)%Z /\
  vp_compute W nb pct bars fd = Ok rows /\ vp_range W nb pct bars fd start end_ = Ok (ts', rows') /\
  (start <= nth k ts' 0)%Z /\ nth k rows' None = Some (None, None, None, 0) /\
  exists i p h l s, nth i (fd_ts fd) 0%Z = nth k ts' 0%Z /\ nth i rows None = Some (Some p, Some h, Some l, s).
Proof.
  exists 10%Z, None, 68, ex_bars, ex_fd, 6%nat, 32%Z, 45%Z. eexists. eexists. eexists. exists 1%nat.
  split; [exact ex_aligned|]. split; [exact ex_strict|]. split; [reflexivity|]. split; [lia|]. split; [cbn; lia|].
  split; [vm_compute; reflexivity|]. split; [vm_compute; reflexivity|]. split; [cbn; lia|]. split; [vm_compute; reflexivity|].
  exists 4%nat. eexists. eexists. eexists. eexists. split; vm_compute; reflexivity.
Qed.

(** The columns of the result: every row of the rolling profile (levels of POC, upper and
    lower end of the value area, share) in prices, in this order; a price of zero is missing. *)
Theorem C146_prices : forall W nb pct bars fd rows, vp_compute W nb pct bars fd = Ok rows ->
  exists lv, volume_profile_rolling (fd_ts fd) (map b_high bars) (map b_low bars) (fd_lv fd) (fd_bv fd) (fd_sv fd) W nb (fd_tick fd) pct = Ok lv /\
    Forall2 (fun a r => match a with
                        | None => r = None
                        | Some (poc, hva, lva, share) => exists p h l, r = Some (p, h, l, share) /\
                            Forall2 (fun level price => (inject_Z level * fd_tick fd == 0 /\ price = None) \/
                                       (~ inject_Z level * fd_tick fd == 0 /\ exists x, price = Some x /\ x == inject_Z level * fd_tick fd)) [poc; hva; lva] [p; h; l]
                        end) lv rows.
Proof.
  intros W nb pct bars fd rows E. unfold vp_compute in E. destruct (negb (length bars =? length (fd_ts fd))%nat); [discriminate|].
  match type of E with (if ?c then _ else _) = _ => destruct c; [discriminate|] end.
  destruct (volume_profile_rolling (fd_ts fd) (map b_high bars) (map b_low bars) (fd_lv fd) (fd_bv fd) (fd_sv fd) W nb (fd_tick fd) pct) as [lv|]; [|discriminate].
  injection E as <-. exists lv. split; [reflexivity|].
  assert (P : forall z, (inject_Z z * fd_tick fd == 0 /\ level_price (fd_tick fd) z = None) \/ (~ inject_Z z * fd_tick fd == 0 /\ exists x, level_price (fd_tick fd) z = Some x /\ x == inject_Z z * fd_tick fd)).
  { intro z. unfold level_price. destruct (Qeqb_spec (inject_Z z * fd_tick fd) 0) as [K|K]; [left; auto|right]. split; [exact K|]. eexists. split; [reflexivity|reflexivity]. }
  induction lv as [|[[[[poc hva] lva] share]|] lv IH]; cbn [map]; constructor; auto. cbn [option_map vp_prices]. do 3 eexists. split; [reflexivity|]. constructor; [apply P|]. constructor; [apply P|]. constructor; [apply P|constructor].
Qed.

Print Assumptions C146_range.
Print Assumptions C146_exact_start.
Print Assumptions C146_all_rows_refuted.
Print Assumptions C146_prices.
