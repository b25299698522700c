(** T_transforms2.v -- transforms that depend on calendar days and time stamps
    (feature/transforms.py). *)
From Verif Require Import Base M_features S_features P_weights P_features M_transforms S_transforms T_transforms.
Open Scope Q_scope.

(* ------------------------------------------------------------------ *)
(** ** Days of a sorted frame *)
Lemma day_of_utc t : day_of t = utc_day t.
Proof. reflexivity. Qed.
Lemma utc_mono ts i j : strictly_asc ts -> (i <= j < length ts)%nat -> (utc_day (nth i ts 0) <= utc_day (nth j ts 0))%Z.
Proof.
  intros H Hij. unfold utc_day. apply Z.div_le_mono; [lia|]. destruct (Nat.eq_dec i j) as [->|]; [lia|].
  specialize (H i j ltac:(lia)). lia.
Qed.
Lemma day_before ts f i j : strictly_asc ts -> (i < length ts)%nat -> day_start ts f i -> (j < f)%nat ->
  utc_day (nth j ts 0%Z) <> utc_day (nth i ts 0%Z).
Proof.
  intros Hs Hi [H1 [H2 H3]] Hj. destruct H3 as [H3|H3]; [lia|].
  pose proof (utc_mono ts j (f - 1) Hs ltac:(lia)). pose proof (utc_mono ts (f - 1) i Hs ltac:(lia)). lia.
Qed.
Lemma day_inside ts f i j : strictly_asc ts -> (i < length ts)%nat -> day_start ts f i -> (f <= j <= i)%nat ->
  utc_day (nth j ts 0%Z) = utc_day (nth i ts 0%Z).
Proof.
  intros Hs Hi [H1 [H2 H3]] Hj.
  pose proof (utc_mono ts f j Hs ltac:(lia)). pose proof (utc_mono ts j i Hs ltac:(lia)). lia.
Qed.
Lemma ts_inj ts i j : strictly_asc ts -> (i < length ts)%nat -> (j < length ts)%nat -> nth i ts 0%Z = nth j ts 0%Z -> i = j.
Proof.
  intros Hs Hi Hj E. destruct (Nat.lt_trichotomy i j) as [H|[H|H]]; [|auto|].
  - specialize (Hs i j ltac:(lia)). lia.
  - specialize (Hs j i ltac:(lia)). lia.
Qed.
Lemma skipn_add {A} a b (l : list A) : skipn a (skipn b l) = skipn (a + b) l.
Proof.
  revert l. induction b as [|b IH]; intro l; [now rewrite Nat.add_0_r|]. destruct l as [|x l]; [now rewrite !skipn_nil|].
  rewrite Nat.add_succ_r. cbn [skipn]. apply IH.
Qed.
Lemma split_block {A} (l : list A) f i : (f <= i < length l)%nat ->
  l = firstn f l ++ firstn (i + 1 - f) (skipn f l) ++ skipn (i + 1) l.
Proof.
  intro H. rewrite <- (firstn_skipn f l) at 1. f_equal. rewrite <- (firstn_skipn (i + 1 - f) (skipn f l)) at 1. f_equal.
  rewrite skipn_add. f_equal. lia.
Qed.

(* ------------------------------------------------------------------ *)
(** ** C62: opening range breakout *)
Definition d0 : obar := mkOBar 0 None None None.
Lemma ts_nth rows i : nth i (map b_ts rows) 0%Z = b_ts (nth i rows d0).
Proof. change 0%Z with (b_ts d0). apply map_nth. Qed.
Lemma col_nth (c : obar -> option Q) rows i : c d0 = None -> nth i (map c rows) None = c (nth i rows d0).
Proof. intro E. rewrite <- E. apply map_nth. Qed.

Lemma day_data_block rows f i : strictly_asc (map b_ts rows) -> (i < length rows)%nat -> day_start (map b_ts rows) f i ->
  exists R, day_data rows (day_of (b_ts (nth i rows d0))) = firstn (i + 1 - f) (skipn f rows) ++ R /\
    forall b, In b R -> (b_ts (nth i rows d0) < b_ts b)%Z.
Proof.
  intros Hs Hi Hd. set (d := day_of _). set (p := fun b => (day_of (b_ts b) =? d)%Z).
  assert (Li : (i < length (map b_ts rows))%nat) by now rewrite map_length.
  exists (filter p (skipn (i + 1) rows)). split.
  - unfold day_data. fold p. rewrite (split_block rows f i) at 1 by (destruct Hd; lia). rewrite !filter_app.
    rewrite filter_none, filter_every; [reflexivity| |].
    + intros b Hb. apply (In_nth _ _ d0) in Hb. destruct Hb as [k [Hk <-]]. rewrite firstn_length, skipn_length in Hk.
      rewrite nth_firstn by lia. rewrite nth_skipn. unfold p, d. apply Z.eqb_eq. rewrite <- !ts_nth.
      apply (day_inside _ f i); auto. lia.
    + intros b Hb. apply (In_nth _ _ d0) in Hb. destruct Hb as [k [Hk <-]]. rewrite firstn_length in Hk.
      rewrite nth_firstn by lia. unfold p, d. apply Z.eqb_neq. rewrite <- !ts_nth. apply (day_before _ f i); auto. lia.
  - intros b Hb. apply filter_In in Hb. destruct Hb as [Hb _]. apply (In_nth _ _ d0) in Hb. destruct Hb as [k [Hk <-]].
    rewrite skipn_length in Hk. rewrite nth_skipn. rewrite <- !ts_nth. apply Hs. rewrite map_length. lia.
Qed.
Lemma row_of_ts rows b i : strictly_asc (map b_ts rows) -> (i < length rows)%nat -> In b rows -> b_ts b = b_ts (nth i rows d0) -> b = nth i rows d0.
Proof.
  intros Hs Hi Hb E. apply (In_nth _ _ d0) in Hb. destruct Hb as [k [Hk <-]]. f_equal.
  apply (ts_inj (map b_ts rows)); rewrite ?map_length; auto. now rewrite !ts_nth.
Qed.
(** Both flags have the form: after the fourth bar of a good day, a test on the bar and
    the opening range. *)
Lemma orb_flag_iff (hits : list obar -> list Z) (test : obar -> list obar -> bool) rows f i :
  (forall dd, hits dd = if orb_day_ok dd then map b_ts (filter (fun b => test b (firstn 4 dd)) (skipn 4 dd)) else []) ->
  strictly_asc (map b_ts rows) -> (i < length rows)%nat -> day_start (map b_ts rows) f i ->
  (nth i (orb_flags hits rows) false = true <->
   (f + 4 <= i)%nat /\ (b_ts (nth f rows d0) mod DAY < 60000000000)%Z /\
   test (nth i rows d0) (firstn 4 (skipn f rows)) = true).
Proof.
  intros Hh Hs Hi Hd. set (b := nth i rows d0). set (D := day_data rows (day_of (b_ts b))).
  assert (IB : In b rows) by (apply nth_In; auto).
  assert (E1 : nth i (orb_flags hits rows) false = true <-> In (b_ts b) (hits D)).
  { unfold orb_flags. cbv zeta. rewrite (nth_indep _ false (existsb (Z.eqb (b_ts d0)) (flat_map (fun d => hits (day_data rows d)) (nodup Z.eq_dec (map (fun b => day_of (b_ts b)) rows)))))
      by now rewrite map_length.
    rewrite (map_nth (fun b => existsb (Z.eqb (b_ts b)) _)). fold b. rewrite existsb_exists. split.
    - intros [t [Ht Et]]. apply Z.eqb_eq in Et. subst t. apply in_flat_map in Ht. destruct Ht as [d [_ Ht]].
      assert (Ed : d = day_of (b_ts b)).
      { rewrite Hh in Ht. destruct (orb_day_ok _); [|destruct Ht]. apply in_map_iff in Ht. destruct Ht as [b' [Eb Hb]].
        apply filter_In in Hb. destruct Hb as [Hb _]. assert (In b' (day_data rows d)).
        { rewrite <- (firstn_skipn 4 (day_data rows d)). apply in_or_app. now right. }
        unfold day_data in H. apply filter_In in H. destruct H as [_ H]. apply Z.eqb_eq in H. congruence. }
      subst d. exact Ht.
    - intro Ht. exists (b_ts b). split; [|apply Z.eqb_refl]. apply in_flat_map. exists (day_of (b_ts b)). split; [|exact Ht].
      apply nodup_In. apply in_map_iff. exists b. auto. }
  rewrite E1, Hh. destruct (day_data_block rows f i Hs Hi Hd) as [R [ED HR]]. fold b in ED, HR. fold D in ED.
  set (B := firstn (i + 1 - f) (skipn f rows)) in *.
  assert (LB : length B = (i + 1 - f)%nat). { unfold B. rewrite firstn_length, skipn_length. destruct Hd. lia. }
  assert (NB : forall k, (k < length B)%nat -> nth k B d0 = nth (f + k) rows d0).
  { intros k Hk. unfold B. rewrite nth_firstn by lia. apply nth_skipn. }
  assert (Hf : (f <= i)%nat) by now destruct Hd.
  assert (OK : orb_day_ok D = ((b_ts (nth f rows d0) mod DAY <? 60000000000)%Z && (4 <=? length D)%nat)%bool).
  { assert (HD : hd d0 D = nth f rows d0). { rewrite ED. specialize (NB 0%nat ltac:(lia)). rewrite Nat.add_0_r in NB. destruct B; [simpl in LB; lia|exact NB]. }
    destruct D as [|x D']; [rewrite ED in *; destruct B; [simpl in LB; lia|discriminate]|]. cbn in HD. subst x. reflexivity. }
  rewrite OK. split.
  - destruct (Z.ltb_spec (b_ts (nth f rows d0) mod DAY) 60000000000) as [K|K]; [|cbn; intros []].
    destruct (Nat.leb_spec 4 (length D)) as [K2|K2]; [|cbn; intros []]. cbn [andb].
    intro H. apply in_map_iff in H. destruct H as [b' [Eb Hb]]. apply filter_In in Hb. destruct Hb as [Hb Ht].
    assert (L5 : (f + 4 <= i)%nat).
    { destruct (Nat.le_gt_cases (f + 4) i) as [L|L]; [auto|]. exfalso. rewrite ED, skipn_app in Hb.
      rewrite (skipn_all2 B) in Hb by lia. cbn [app] in Hb. assert (In b' R) by (rewrite <- (firstn_skipn (4 - length B) R); apply in_or_app; now right).
      specialize (HR b' H). lia. }
    split; [auto|]. split; [auto|].
    assert (b' = b).
    { apply row_of_ts; auto. assert (In b' D) by (rewrite <- (firstn_skipn 4 D); apply in_or_app; now right). unfold D, day_data in H.
      now apply filter_In in H. }
    subst b'. rewrite ED, firstn_app in Ht. replace (4 - length B)%nat with 0%nat in Ht by lia. rewrite app_nil_r in Ht.
    unfold B in Ht. rewrite firstn_firstn in Ht. replace (Nat.min 4 (i + 1 - f)) with 4%nat in Ht by lia. exact Ht.
  - intros [L5 [K Ht]]. destruct (Z.ltb_spec (b_ts (nth f rows d0) mod DAY) 60000000000); [|lia].
    destruct (Nat.leb_spec 4 (length D)) as [K2|K2]; [|rewrite ED, app_length in K2; lia]. cbn [andb].
    apply in_map_iff. exists b. split; [auto|]. apply filter_In. split.
    + rewrite ED, skipn_app. apply in_or_app. left. assert (Eb : b = nth (i - f - 4) (skipn 4 B) d0).
      { rewrite nth_skipn, NB by lia. unfold b. f_equal. lia. }
      rewrite Eb. apply nth_In. rewrite skipn_length. lia.
    + rewrite ED, firstn_app. replace (4 - length B)%nat with 0%nat by lia. rewrite app_nil_r.
      unfold B. rewrite firstn_firstn. replace (Nat.min 4 (i + 1 - f)) with 4%nat by lia. exact Ht.
Qed.
Lemma nanmax_spec l : match nanmax l with
  | None => forall h, ~ In (Some h) l
  | Some m => In (Some m) l /\ forall h, In (Some h) l -> h <= m end.
Proof.
  induction l as [|x l IH] using rev_ind; [cbn; auto|]. unfold nanmax in *. rewrite fold_left_app. cbn [fold_left].
  destruct (fold_left _ l None) as [m|].
  - destruct IH as [I1 I2]. destruct x as [x|].
    + split.
      * destruct (pmax_case m x) as [->| ->]; apply in_or_app; [auto|right; now left].
      * intros h Hh. apply in_app_or in Hh. destruct Hh as [Hh|[Hh|[]]].
        -- specialize (I2 h Hh). pose proof (pmax_l m x). lra.
        -- injection Hh as <-. apply pmax_r.
    + split; [apply in_or_app; auto|]. intros h Hh. apply in_app_or in Hh. destruct Hh as [Hh|[Hh|[]]]; [auto|discriminate].
  - destruct x as [x|].
    + split; [apply in_or_app; right; now left|]. intros h Hh. apply in_app_or in Hh. destruct Hh as [Hh|[Hh|[]]]; [exfalso; eapply IH; eauto|].
      injection Hh as <-. lra.
    + intros h Hh. apply in_app_or in Hh. destruct Hh as [Hh|[Hh|[]]]; [eapply IH; eauto|discriminate].
Qed.
Lemma nanmin_spec l : match nanmin l with
  | None => forall h, ~ In (Some h) l
  | Some m => In (Some m) l /\ forall h, In (Some h) l -> m <= h end.
Proof.
  induction l as [|x l IH] using rev_ind; [cbn; auto|]. unfold nanmin in *. rewrite fold_left_app. cbn [fold_left].
  destruct (fold_left _ l None) as [m|].
  - destruct IH as [I1 I2]. destruct x as [x|].
    + split.
      * destruct (pmin_case m x) as [->| ->]; apply in_or_app; [auto|right; now left].
      * intros h Hh. apply in_app_or in Hh. destruct Hh as [Hh|[Hh|[]]].
        -- specialize (I2 h Hh). pose proof (pmin_l m x). lra.
        -- injection Hh as <-. apply pmin_r.
    + split; [apply in_or_app; auto|]. intros h Hh. apply in_app_or in Hh. destruct Hh as [Hh|[Hh|[]]]; [auto|discriminate].
  - destruct x as [x|].
    + split; [apply in_or_app; right; now left|]. intros h Hh. apply in_app_or in Hh. destruct Hh as [Hh|[Hh|[]]]; [exfalso; eapply IH; eauto|].
      injection Hh as <-. lra.
    + intros h Hh. apply in_app_or in Hh. destruct Hh as [Hh|[Hh|[]]]; [eapply IH; eauto|discriminate].
Qed.
Lemma in_range (c : obar -> option Q) rows f h : c d0 = None -> (f + 4 <= length rows)%nat ->
  (In (Some h) (map c (firstn 4 (skipn f rows))) <-> exists j, (f <= j < f + 4)%nat /\ nth j (map c rows) None = Some h).
Proof.
  intros Ec L. rewrite in_map_iff. split.
  - intros [b [E H]]. apply (In_nth _ _ d0) in H. destruct H as [k [Hk <-]]. rewrite firstn_length, skipn_length in Hk.
    rewrite nth_firstn, nth_skipn in E by lia. exists (f + k)%nat. split; [lia|]. rewrite col_nth by auto. exact E.
  - intros [j [Hj E]]. rewrite col_nth in E by auto. exists (nth j rows d0). split; [auto|].
    assert (E2 : nth j rows d0 = nth (j - f) (firstn 4 (skipn f rows)) d0).
    { rewrite nth_firstn, nth_skipn by lia. f_equal. lia. }
    rewrite E2. apply nth_In. rewrite firstn_length, skipn_length. lia.
Qed.
Theorem C62_long : forall rows f i, strictly_asc (map b_ts rows) -> (i < length rows)%nat -> day_start (map b_ts rows) f i ->
  (nth i (orb_long rows) false = true <->
   breakout (map b_ts rows) (map b_high rows) (map b_close rows) (fun c h => h < c) f i).
Proof.
  intros rows f i Hs Hi Hd. unfold orb_long.
  rewrite (orb_flag_iff long_hits (fun b r => ogt (b_close b) (nanmax (map b_high r))) rows f i) by (auto; intro; reflexivity).
  unfold breakout. rewrite ts_nth. change DAY with 86400000000000%Z. rewrite col_nth by reflexivity.
  split; intros [L [K H]]; (split; [auto|]; split; [auto|]).
  - unfold ogt in H. destruct (b_close (nth i rows d0)) as [c|]; [|discriminate]. exists c. split; [auto|].
    pose proof (nanmax_spec (map b_high (firstn 4 (skipn f rows)))) as M. destruct (nanmax _) as [m|]; [|discriminate].
    apply Qltb_iff in H. destruct M as [M1 M2]. split.
    + apply (in_range b_high rows f m) in M1; [|reflexivity|lia]. destruct M1 as [j [Hj E]]. eauto.
    + intros j h Hj E. assert (In (Some h) (map b_high (firstn 4 (skipn f rows)))) by (apply in_range; [reflexivity|lia|eauto]).
      specialize (M2 h H0). lra.
  - destruct H as [c [-> [[j [h [Hj E]]] Hall]]]. unfold ogt.
    pose proof (nanmax_spec (map b_high (firstn 4 (skipn f rows)))) as M. destruct (nanmax _) as [m|].
    + apply Qltb_iff. destruct M as [M1 _]. apply (in_range b_high rows f m) in M1; [|reflexivity|lia]. destruct M1 as [j' [Hj' E']]. eauto.
    + exfalso. apply (M h). apply in_range; [reflexivity|lia|eauto].
Qed.
Theorem C62_short : forall rows f i, strictly_asc (map b_ts rows) -> (i < length rows)%nat -> day_start (map b_ts rows) f i ->
  (nth i (orb_short rows) false = true <->
   breakout (map b_ts rows) (map b_low rows) (map b_close rows) (fun c l => c < l) f i).
Proof.
  intros rows f i Hs Hi Hd. unfold orb_short.
  rewrite (orb_flag_iff short_hits (fun b r => ogt (nanmin (map b_low r)) (b_close b)) rows f i) by (auto; intro; reflexivity).
  unfold breakout. rewrite ts_nth. change DAY with 86400000000000%Z. rewrite col_nth by reflexivity.
  split; intros [L [K H]]; (split; [auto|]; split; [auto|]).
  - pose proof (nanmin_spec (map b_low (firstn 4 (skipn f rows)))) as M. destruct (nanmin _) as [m|]; [|discriminate].
    unfold ogt in H. destruct (b_close (nth i rows d0)) as [c|]; [|discriminate]. exists c. split; [auto|].
    apply Qltb_iff in H. destruct M as [M1 M2]. split.
    + apply (in_range b_low rows f m) in M1; [|reflexivity|lia]. destruct M1 as [j [Hj E]]. eauto.
    + intros j h Hj E. assert (In (Some h) (map b_low (firstn 4 (skipn f rows)))) by (apply in_range; [reflexivity|lia|eauto]).
      specialize (M2 h H0). lra.
  - destruct H as [c [-> [[j [h [Hj E]]] Hall]]]. unfold ogt.
    pose proof (nanmin_spec (map b_low (firstn 4 (skipn f rows)))) as M. destruct (nanmin _) as [m|].
    + apply Qltb_iff. destruct M as [M1 _]. apply (in_range b_low rows f m) in M1; [|reflexivity|lia]. destruct M1 as [j' [Hj' E']]. eauto.
    + exfalso. apply (M h). apply in_range; [reflexivity|lia|eauto].
Qed.
Lemma day_start_exists ts i : strictly_asc ts -> (i < length ts)%nat -> exists f, day_start ts f i.
Proof.
  intro Hs. induction i as [|i IH]; intro Hi; [exists 0%nat; repeat split; auto|].
  destruct (Z.eq_dec (utc_day (nth i ts 0%Z)) (utc_day (nth (S i) ts 0%Z))) as [E|E].
  - destruct (IH ltac:(lia)) as [f [H1 [H2 H3]]]. exists f. unfold day_start. rewrite <- E. repeat split; auto.
  - exists (S i). repeat split; auto. right. replace (S i - 1)%nat with i by lia. exact E.
Qed.
(** Not both flags, if one bar of the opening range has low <= high. *)
Theorem C62_exclusive : forall rows f i, strictly_asc (map b_ts rows) -> (i < length rows)%nat -> day_start (map b_ts rows) f i ->
  (exists j h l, (f <= j < f + 4)%nat /\ nth j (map b_high rows) None = Some h /\ nth j (map b_low rows) None = Some l /\ l <= h) ->
  ~ (nth i (orb_long rows) false = true /\ nth i (orb_short rows) false = true).
Proof.
  intros rows f i Hs Hi Hd [j [h [l [Hj [Eh [El Hl]]]]]] [A B].
  apply (C62_long rows f i) in A; auto. apply (C62_short rows f i) in B; auto.
  destruct A as [_ [_ [c [Ec [_ A]]]]]. destruct B as [_ [_ [c' [Ec' [_ B]]]]]. rewrite Ec in Ec'. injection Ec' as <-.
  specialize (A j h Hj Eh). specialize (B j l Hj El). lra.
Qed.
(** The flags of a bar do not depend on later bars. *)
Theorem C62_causal : forall rows rows' i, strictly_asc (map b_ts rows) -> strictly_asc (map b_ts rows') ->
  (i < length rows)%nat -> (i < length rows')%nat -> firstn (S i) rows = firstn (S i) rows' ->
  nth i (orb_long rows) false = nth i (orb_long rows') false /\ nth i (orb_short rows) false = nth i (orb_short rows') false.
Proof.
  assert (G : forall {A} (l l' : list A) n k d, firstn n l = firstn n l' -> (k < n)%nat -> nth k l d = nth k l' d).
  { intros A l l' n k d E H. rewrite <- (nth_firstn d l n k H), E. now apply nth_firstn. }
  assert (T : forall rows rows' i, strictly_asc (map b_ts rows) -> strictly_asc (map b_ts rows') ->
    (i < length rows)%nat -> (i < length rows')%nat -> firstn (S i) rows = firstn (S i) rows' ->
    (nth i (orb_long rows) false = true -> nth i (orb_long rows') false = true) /\
    (nth i (orb_short rows) false = true -> nth i (orb_short rows') false = true)).
  { intros rows rows' i Hs Hs' Hi Hi' E. destruct (day_start_exists (map b_ts rows) i Hs) as [f Hd]; [now rewrite map_length|].
    assert (C : forall {B} (c : obar -> B) k d, (k <= i)%nat -> nth k (map c rows) d = nth k (map c rows') d).
    { intros B c k d Hk. apply (G B _ _ (S i)); [|lia]. rewrite !firstn_map. now rewrite E. }
    assert (Hd' : day_start (map b_ts rows') f i).
    { destruct Hd as [H1 [H2 H3]]. rewrite !C in H2 by lia. split; [auto|]. split; [auto|]. destruct H3 as [H3|H3]; [auto|]. right. now rewrite !C in H3 by lia. }
    split; intro H; [apply (C62_long rows f i) in H; auto; apply (C62_long rows' f i); auto|
                     apply (C62_short rows f i) in H; auto; apply (C62_short rows' f i); auto];
      destruct H as [L [K [c [Ec [[j [h [Hj Eh]]] Hall]]]]];
      (split; [auto|]; split; [now rewrite <- C by lia|]; exists c; split; [now rewrite <- C by lia|]; split;
       [exists j, h; split; [auto|]; now rewrite <- C by lia|]; intros j' h' Hj' Eh'; apply (Hall j' h' Hj'); now rewrite C by lia). }
  intros rows rows' i Hs Hs' Hi Hi' E. destruct (T rows rows' i) as [A B]; auto. destruct (T rows' rows i) as [A' B']; auto.
  split; apply Bool.eq_iff_eq_true; split; auto.
Qed.
(** Repeated time stamps break all of this: a flag is written to an earlier bar of the
    opening range, using a later close. *)
Theorem C62_duplicates_refuted : exists rows i, (i < 4)%nat /\ (i < length rows)%nat /\ nth i (orb_long rows) false = true /\ nth i (orb_short rows) false = true.
Proof.
  exists [mkOBar 0 (Some 5) (Some 4) (Some 4); mkOBar 1 (Some 5) (Some 4) (Some 4); mkOBar 2 (Some 5) (Some 4) (Some 4);
          mkOBar 3 (Some 5) (Some 4) (Some 4); mkOBar 3 (Some 7) (Some 6) (Some 7); mkOBar 3 (Some 3) (Some 1) (Some 2)], 3%nat.
  vm_compute. repeat split; lia.
Qed.
Example C62_example :
  let q := 900000000000%Z in
  let rows := map (fun k => mkOBar (Z.of_nat k * q) (Some 5) (Some 3) (Some 4)) (seq 0 5) ++
              [mkOBar (5 * q) (Some 7) (Some 4) (Some 6); mkOBar (6 * q) (Some 4) None (Some 2); mkOBar (96 * q) (Some 9) (Some 8) (Some 9)] in
  orb_long rows = [false; false; false; false; false; true; false; false] /\
  orb_short rows = [false; false; false; false; false; false; true; false].
Proof. vm_compute. auto. Qed.

Print Assumptions C62_long.
Print Assumptions C62_short.
Print Assumptions C62_exclusive.
Print Assumptions C62_causal.
Print Assumptions C62_duplicates_refuted.
