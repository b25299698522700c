(** P_float8.v -- whole-bar footprints in float32 cells. *)
From Verif Require Import Base M_bars S_bars P_sort P_bars P_weights M_footprint S_footprint P_footprint M_trades
  M_float S_float P_features P_float P_float2 P_float3 P_float5 P_float6.
Open Scope Q_scope.

(** 0.1 as a float64. *)
Definition d01' : Q := 3602879701896397 # 36028797018963968.

Section Levels.
  Variables prices amounts : list Q.
  Variable sides : list Z.
  Variables tick lo hi : Q.
  Variables s e : Z.
  Hypothesis Hse : (-1 <= s <= e)%Z.
  Notation lev := (fun j => level_f tick (at_ prices j)).

  Lemma levels_f_inv st : 0 < tick -> (forall x, In x amounts -> 0 <= x) ->
    bar_levels_f prices amounts sides tick lo hi s e = Ok st ->
    (0 <= level_f tick hi - level_f tick lo + 1)%Z /\
    (forall j, (s < j <= e)%Z -> (level_f tick lo <= lev j <= level_f tick hi)%Z) /\
    fpf_inv prices amounts sides tick (level_f tick lo) (level_f tick hi - level_f tick lo + 1) s e st.
  Proof.
    intros Ht Hq E. unfold bar_levels_f in E. destruct (Qeqb_spec tick 0); [discriminate E|].
    destruct (Z.ltb_spec (level_f tick hi - level_f tick lo + 1) 0) as [|N]; [discriminate E|].
    pose proof (fpf_loop_inv prices amounts sides tick (level_f tick lo) (level_f tick hi - level_f tick lo + 1) s e st Hse E) as R.
    split; [exact N|]. split; [intros j Hj; specialize (R j Hj); unfold levf in R; lia|].
    destruct (fpf_loop prices amounts sides tick (level_f tick lo) (level_f tick hi - level_f tick lo + 1) Hq s e Hse R) as [st' [E' Inv]].
    unfold fpf_run in E'. cbv zeta in E. rewrite E in E'. injection E' as <-. exact Inv.
  Qed.
  Lemma levels_f_spec st : 0 < tick -> (forall x, In x amounts -> 0 <= x) ->
    bar_levels_f prices amounts sides tick lo hi s e = Ok st ->
    let n := Z.to_nat (level_f tick hi - level_f tick lo + 1) in
    length (lv_bv st) = n /\ length (lv_sv st) = n /\ length (lv_bt st) = n /\ length (lv_st st) = n /\
    (forall j, (s < j <= e)%Z -> (level_f tick lo <= lev j <= level_f tick hi)%Z) /\
    forall i, (i < n)%nat ->
      let l := (level_f tick lo + Z.of_nat i)%Z in
      nth i (lv_bt st) 0%Z = Z.of_nat (level_count sides lev 1 l s e) /\
      nth i (lv_st st) 0%Z = Z.of_nat (level_count sides lev (-1) l s e) /\
      within ucell (level_count sides lev 1 l s e) (nth i (lv_bv st) 0) (level_sum sides lev 1 l (at_ amounts) s e) /\
      within ucell (level_count sides lev (-1) l s e) (nth i (lv_sv st) 0) (level_sum sides lev (-1) l (at_ amounts) s e).
  Proof.
    intros Ht Hq E. destruct (levels_f_inv st Ht Hq E) as [_ [R [L1 [L2 [L3 [L4 H]]]]]].
    cbv zeta. do 4 (split; [assumption|]). split; [exact R|]. intros i Hi. destruct (H i Hi) as [[W1 W2] [C1 [C2 _]]]. auto.
  Qed.
  Lemma levels_f_grid st g : 0 < tick -> (forall x, In x amounts -> 0 <= x /\ grid g x) ->
    bar_levels_f prices amounts sides tick lo hi s e = Ok st ->
    forall i, (i < Z.to_nat (level_f tick hi - level_f tick lo + 1))%nat ->
      let l := (level_f tick lo + Z.of_nat i)%Z in
      (level_sum sides lev 1 l (at_ amounts) s e <= two (24 + g) ->
         nth i (lv_bv st) 0 == level_sum sides lev 1 l (at_ amounts) s e) /\
      (level_sum sides lev (-1) l (at_ amounts) s e <= two (24 + g) ->
         nth i (lv_sv st) 0 == level_sum sides lev (-1) l (at_ amounts) s e).
  Proof.
    intros Ht Hq E i Hi. destruct (levels_f_inv st Ht (fun x H => proj1 (Hq x H)) E) as [_ [_ [_ [_ [_ [_ H]]]]]].
    destruct (H i Hi) as [_ [_ [_ G]]]. exact (G g (fun x Hx => proj2 (Hq x Hx))).
  Qed.
End Levels.

(** Whether the run succeeds does not depend on the amounts. *)
Lemma levels_f_ok prices amounts sides tick lo hi s e : 0 < tick -> (-1 <= s <= e)%Z -> lo <= hi ->
  (forall j, (s < j <= e)%Z -> lo <= at_ prices j <= hi) ->
  exists st, bar_levels_f prices amounts sides tick lo hi s e = Ok st.
Proof.
  intros Ht Hs Hl Hp. unfold bar_levels_f. destruct (Qeqb_spec tick 0); [exfalso; lra|].
  pose proof (level_f_mono tick lo hi Ht Hl). destruct (Z.ltb_spec (level_f tick hi - level_f tick lo + 1) 0); [lia|]. cbv zeta.
  set (st0 := mkLv _ _ _ _). clearbody st0.
  assert (R : forall j, (s < j <= e)%Z -> (level_f tick lo <= level_f tick (at_ prices j) <= level_f tick hi)%Z).
  { intros j Hj. destruct (Hp j Hj) as [A B]. split; now apply level_f_mono. }
  clear Hp. destruct Hs as [Hs He]. revert e He R.
  apply (bar_ind (fun e => (forall j, (s < j <= e)%Z -> (level_f tick lo <= level_f tick (at_ prices j) <= level_f tick hi)%Z) ->
    exists st, fold_left (fp_step_f prices amounts sides tick (level_f tick lo) (level_f tick hi - level_f tick lo + 1))
      (zrange (s + 1) (e + 1)) (Ok st0) = Ok st)).
  - intros _. rewrite zrange_nil by lia. now exists st0.
  - intros e He IH R. destruct IH as [st E]; [intros; apply R; lia|]. rewrite fold_bar by lia. rewrite E.
    specialize (R (e + 1)%Z ltac:(lia)). unfold fp_step_f. rewrite !zget_nonneg by lia. fold (at_ prices (e + 1)).
    destruct (Z.leb_spec 0 (level_f tick (at_ prices (e + 1)) - level_f tick lo)); [|lia].
    destruct (Z.ltb_spec (level_f tick (at_ prices (e + 1)) - level_f tick lo) (level_f tick hi - level_f tick lo + 1)); [|lia].
    cbn [andb]. destruct (_ =? 1)%Z; [eexists; reflexivity|]. destruct (_ =? -1)%Z; eexists; reflexivity.
Qed.
Lemma levels_f_errors prices amounts sides tick lo hi s e x :
  bar_levels_f prices amounts sides tick lo hi s e = Raise x ->
  (x = ZeroDivisionError /\ tick == 0) \/ (x = ValueError /\ ~ tick == 0).
Proof.
  unfold bar_levels_f. destruct (Qeqb_spec tick 0) as [T|T]; [intro E; injection E as <-; now left|].
  cbv zeta. destruct (_ <? 0)%Z; [intro E; injection E as <-; now right|].
  set (low := level_f tick lo). set (n := (level_f tick hi - low + 1)%Z). intro E. right. split; [|exact T].
  assert (G : forall js acc, (forall y, acc = Raise y -> y = ValueError) ->
    forall y, fold_left (fp_step_f prices amounts sides tick low n) js acc = Raise y -> y = ValueError).
  { induction js as [|j js IH]; intros acc Ha y Hy; [now apply Ha|]. cbn [fold_left] in Hy. apply (IH _) in Hy; [exact Hy|].
    intros z Hz. unfold fp_step_f in Hz. destruct acc as [st|w]; [|injection Hz as <-; now apply Ha].
    destruct (_ && _)%bool; [|injection Hz as <-; reflexivity].
    destruct (_ =? 1)%Z; [discriminate|]. destruct (_ =? -1)%Z; discriminate. }
  eapply (G _ _); [|exact E]. intros y H. discriminate H.
Qed.

(** Unit volumes on top of 2^24. *)
Lemma levels_f_stuck n : exists prices amounts sides st,
  (forall x, In x amounts -> exists k, (0 < k)%Z /\ x = inject_Z k) /\
  bar_levels_f prices amounts sides 1 1 1 (-1) (Z.of_nat n) = Ok st /\
  qsum (lv_bv st) == 16777216 /\ level_sum sides (fun j => level_f 1 (at_ prices j)) 1 1 (at_ amounts) (-1) (Z.of_nat n) == 16777216 + Qnat n.
Proof.
  set (px := repeat (1:Q) (S n)). set (am := 16777216 :: repeat (1:Q) n). set (sd := repeat 1%Z (S n)).
  assert (P : forall j, (0 <= j <= Z.of_nat n)%Z -> at_ px j = 1).
  { intros j Hj. unfold at_, px. rewrite (nth_indep _ 0 1) by (rewrite repeat_length; lia). apply nth_repeat. }
  assert (S1 : forall j, (0 <= j <= Z.of_nat n)%Z -> zat sd j = 1%Z).
  { intros j Hj. unfold zat, sd. rewrite (nth_indep _ 0%Z 1%Z) by (rewrite repeat_length; lia). apply nth_repeat. }
  assert (A0 : at_ am 0 = 16777216) by reflexivity.
  assert (A : forall j, (0 < j <= Z.of_nat n)%Z -> at_ am j = 1).
  { intros j Hj. unfold at_, am. replace (Z.to_nat j) with (S (Z.to_nat (j - 1))) by lia. cbn [nth].
    rewrite (nth_indep _ 0 1) by (rewrite repeat_length; lia). apply nth_repeat. }
  assert (L1 : level_f 1 1 = 1%Z) by (vm_compute; reflexivity).
  assert (G : forall k, (k <= n)%nat ->
    (exists bt, fold_left (fp_step_f px am sd 1 1 1) (zrange (-1 + 1) (Z.of_nat k + 1)) (Ok (mkLv [0] [0] [0%Z] [0%Z])) =
      Ok (mkLv [16777216] [0] [bt] [0%Z])) /\
    level_sum sd (fun j => level_f 1 (at_ px j)) 1 1 (at_ am) (-1) (Z.of_nat k) == 16777216 + Qnat k).
  { induction k as [|k IH]; intro Hk.
    - split.
      + exists 1%Z. change (zrange (-1 + 1) (Z.of_nat 0 + 1)) with [0%Z]. cbn [fold_left]. unfold fp_step_f. rewrite !zget_nonneg by lia.
        fold (at_ px 0) (at_ am 0) (zat sd 0). rewrite P, S1, A0, L1 by lia. vm_compute. reflexivity.
      + change (Z.of_nat 0) with (-1 + 1)%Z. rewrite level_sum_snoc by lia. rewrite level_sum_nil. cbn [Z.add]. change (-1 + 1)%Z with 0%Z.
        rewrite P, S1, A0, L1 by lia. vm_compute. reflexivity.
    - destruct IH as [[bt E] LS]; [lia|]. replace (Z.of_nat (S k)) with (Z.of_nat k + 1)%Z by lia. split.
      + exists (bt + 1)%Z. rewrite fold_bar by lia. rewrite E. unfold fp_step_f. rewrite !zget_nonneg by lia.
        fold (at_ px (Z.of_nat k + 1)) (at_ am (Z.of_nat k + 1)) (zat sd (Z.of_nat k + 1)). rewrite P, S1, A, L1 by lia.
        change ((0 <=? 1 - 1) && (1 - 1 <? 1))%Z%bool with true. cbn [Z.eqb Pos.eqb lv_bv lv_sv lv_bt lv_st].
        change (Z.to_nat (1 - 1)) with 0%nat. unfold cell_add_at, zadd_at. cbn [length seq map Nat.eqb nth]. rewrite cell_stuck. reflexivity.
      + rewrite level_sum_snoc by lia. rewrite LS, P, S1, A, L1, Qnat_S by lia. cbn [Z.eqb Pos.eqb andb]. ring. }
  destruct (G n (le_n n)) as [[bt E] LS].
  exists px, am, sd, (mkLv [16777216] [0] [bt] [0%Z]). split; [|split; [|split]].
  - intros x [<-|Hx]; [exists 16777216%Z; split; [lia|reflexivity]|]. apply repeat_spec in Hx. subst. exists 1%Z. split; [lia|reflexivity].
  - unfold bar_levels_f. change (Qeqb 1 0) with false. cbv iota. rewrite L1. cbv zeta. change (1 - 1 + 1 <? 0)%Z with false. cbv iota.
    change (1 - 1 + 1)%Z with 1%Z. change (Z.to_nat 1) with 1%nat. cbn [repeat]. exact E.
  - reflexivity.
  - exact LS.
Qed.
