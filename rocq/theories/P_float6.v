(** P_float6.v -- proofs about merged trades and whole-bar footprints in floating point. *)
From Verif Require Import Base M_bars S_bars P_sort P_bars P_weights M_footprint S_footprint P_footprint M_trades P_trades
  M_float S_float P_features P_float P_float2 P_float3 P_float5.
Open Scope Q_scope.

Lemma r53_abs x : Qabs (r53 x) == r53 (Qabs x).
Proof.
  destruct (Qlt_le_dec x 0) as [N|P].
  - rewrite (Qabs_neg x) by lra. rewrite <- Qabs_opp. unfold r53. rewrite <- rnd_opp. apply Qabs_pos. apply rnd_pos; [lia|lra].
  - rewrite (Qabs_pos x) by auto. apply Qabs_pos. now apply r53_nonneg.
Qed.

(** The price test of the merge gives the same answer in float64 when distinct prices are at least 2e-8 apart. *)
Lemma px_test x : (x == 0 \/ 1 # 50000000 <= Qabs x) ->
  Qltb (Qabs (r53 x)) (r53 (1 # 100000000)) = Qltb (Qabs x) (1 # 100000000).
Proof.
  intros [E|H].
  - assert (A : Qabs x == 0) by (apply (Qabs_wd x 0 E)).
    assert (R : Qabs (r53 x) == 0) by (rewrite r53_abs, A; reflexivity).
    destruct (Qltb_spec (Qabs (r53 x)) (r53 (1 # 100000000))) as [_|N].
    + destruct (Qltb_spec (Qabs x) (1 # 100000000)) as [_|N]; [reflexivity|]. exfalso. rewrite A in N. revert N. vm_compute. intro N; now apply N.
    + exfalso. rewrite R in N. revert N. vm_compute. intro N; now apply N.
  - assert (R : r53 (1 # 50000000) <= Qabs (r53 x)) by (rewrite r53_abs; now apply r53_mono).
    assert (C : r53 (1 # 100000000) < r53 (1 # 50000000)) by (vm_compute; reflexivity).
    destruct (Qltb_spec (Qabs (r53 x)) (r53 (1 # 100000000))) as [L|_]; [exfalso; lra|].
    destruct (Qltb_spec (Qabs x) (1 # 100000000)) as [L|_]; [exfalso; lra|reflexivity].
Qed.

Lemma Forall2_impl' {A B} (P P' : A -> B -> Prop) l l' : (forall a b, P a b -> P' a b) -> Forall2 P l l' -> Forall2 P' l l'.
Proof. intros H F. induction F; constructor; auto. Qed.

(** Same keys, amount [n] cell roundings away. *)
Definition mrel (n : nat) (a b : mrow) : Prop :=
  m_ts b = m_ts a /\ m_px b = m_px a /\ m_side b = m_side a /\ 0 <= m_am a /\ within ucell n (m_am b) (m_am a) /\ fl 24 (m_am b).
Definition mgrid (g : Z) (a b : mrow) : Prop := grid g (m_am a) /\ (m_am a <= two (24 + g) -> m_am b == m_am a).

Lemma mrel_le n m a b : (n <= m)%nat -> mrel n a b -> mrel m a b.
Proof.
  intros L [A [B [C [D [E F]]]]]. repeat (split; [assumption|]). split; [|exact F].
  now apply (within_le ucell ucell_bounds n m).
Qed.
Lemma mrel_start r : 0 <= m_am r -> mrel 1 r (mkM (m_ts r) (m_px r) (r24 (m_am r)) (m_side r)).
Proof.
  intro H. repeat (split; [reflexivity || assumption|]). cbn [m_am]. split; [|apply rnd_fl; lia].
  apply (within_rnd ucell ucell_bounds 0 (m_am r) (m_am r)); [apply within_self; [exact ucell_bounds|auto]|auto|].
  eapply Qle_trans; [apply r24_err|]. rewrite !(Qmult_comm (Qabs (m_am r))). apply Qmult_le_compat_r; [|apply Qabs_nonneg].
  vm_compute. discriminate.
Qed.
Lemma mgrid_start g r : 0 <= m_am r -> grid g (m_am r) -> mgrid g r (mkM (m_ts r) (m_px r) (r24 (m_am r)) (m_side r)).
Proof. intros H G. split; [exact G|]. intro B. cbn [m_am]. apply (grid_rnd 24 g); [lia|exact G|lra]. Qed.

Definition apart (rows : list mrow) : Prop := forall r r', In r rows -> In r' rows ->
  m_px r == m_px r' \/ 1 # 50000000 <= Qabs (m_px r - m_px r').

Lemma merge_sim all rs : apart all -> (forall r, In r rs -> In r all /\ 0 <= m_am r) ->
  forall n done cur done' cur' r0, In r0 all -> m_px cur = m_px r0 ->
    Forall2 (mrel n) done done' -> mrel n cur cur' ->
    let '(d, c) := fold_left merge_step rs (done, cur) in
    let '(d', c') := fold_left merge_step_f rs (done', cur') in
    Forall2 (mrel (n + length rs)) (d ++ [c]) (d' ++ [c']) /\
    (forall g, (forall r, In r rs -> grid g (m_am r)) -> Forall2 (mgrid g) done done' -> mgrid g cur cur' ->
       Forall2 (mgrid g) (d ++ [c]) (d' ++ [c'])).
Proof.
  intro Ap. induction rs as [|r rs IH]; intros Hr n done cur done' cur' r0 H0 E0 F M.
  - cbn. rewrite Nat.add_0_r. split.
    + apply Forall2_app; [exact F|]. constructor; [exact M|constructor].
    + intros g _ Fg Mg. apply Forall2_app; [exact Fg|]. constructor; [exact Mg|constructor].
  - destruct (Hr r (or_introl eq_refl)) as [Ra R0]. pose proof M as [K1 [K2 [K3 [P0 [W FL]]]]].
    assert (T : Qltb (Qabs (r53 (m_px r - m_px cur'))) (r53 (1 # 100000000)) = Qltb (Qabs (m_px r - m_px cur)) (1 # 100000000)).
    { rewrite K2, E0. apply px_test. destruct (Ap r r0 Ra H0) as [E|E]; [left; rewrite E; ring|right; exact E]. }
    cbn [fold_left]. unfold merge_step at 2, merge_step_f at 2. unfold same_trade.
    rewrite T, K1, K3.
    assert (Hr' : forall x, In x rs -> In x all /\ 0 <= m_am x) by (intros; apply Hr; now right).
    destruct (_ && _)%bool.
    + specialize (IH Hr' (S n) done (mkM (m_ts cur) (m_px cur) (m_am cur + m_am r) (m_side cur)) done'
        (mkM (m_ts cur) (m_px cur') (cell_add (m_am cur') (m_am r)) (m_side cur)) r0 H0 E0).
      assert (M1 : mrel (S n) (mkM (m_ts cur) (m_px cur) (m_am cur + m_am r) (m_side cur))
        (mkM (m_ts cur) (m_px cur') (cell_add (m_am cur') (m_am r)) (m_side cur))).
      { repeat (split; [reflexivity || assumption|]). cbn [m_am]. split; [lra|]. split; [now apply within_cell|apply rnd_fl; lia]. }
      specialize (IH (Forall2_impl' _ _ _ _ (fun a b => mrel_le n (S n) a b (Nat.le_succ_diag_r n)) F) M1).
      destruct (fold_left merge_step rs _) as [d c], (fold_left merge_step_f rs _) as [d' c'].
      destruct IH as [I1 I2]. split.
      * cbn [length]. rewrite <- plus_n_Sm. exact I1.
      * intros g Hg Fg [G1 G2]. apply I2; [intros; apply Hg; now right|exact Fg|].
        assert (Gr : grid g (m_am r)) by (apply Hg; now left).
        split; cbn [m_am]; [now apply grid_plus|]. intro B. rewrite (cell_comp _ _ _ _ (G2 ltac:(lra)) (Qeq_refl _)).
        apply (cell_grid g); auto. lra.
    + specialize (IH Hr' (S n) (done ++ [cur]) r (done' ++ [cur']) (mkM (m_ts r) (m_px r) (r24 (m_am r)) (m_side r)) r Ra eq_refl).
      assert (F1 : Forall2 (mrel (S n)) (done ++ [cur]) (done' ++ [cur'])).
      { apply Forall2_app; [|constructor; [|constructor]].
        - exact (Forall2_impl' _ _ _ _ (fun a b => mrel_le n (S n) a b (Nat.le_succ_diag_r n)) F).
        - exact (mrel_le n (S n) _ _ (Nat.le_succ_diag_r n) M). }
      specialize (IH F1 (mrel_le 1 (S n) _ _ ltac:(lia) (mrel_start r R0))).
      destruct (fold_left merge_step rs _) as [d c], (fold_left merge_step_f rs _) as [d' c'].
      destruct IH as [I1 I2]. split.
      * cbn [length]. rewrite <- plus_n_Sm. exact I1.
      * intros g Hg Fg Mg. apply I2; [intros; apply Hg; now right| |].
        -- apply Forall2_app; [exact Fg|constructor; [exact Mg|constructor]].
        -- apply mgrid_start; [exact R0|apply Hg; now left].
Qed.

Lemma merge_f_spec rows : apart rows -> (forall r, In r rows -> 0 <= m_am r) ->
  Forall2 (mrel (length rows)) (merge_rows rows) (merge_rows_f rows) /\
  (forall g, (forall r, In r rows -> grid g (m_am r)) -> Forall2 (mgrid g) (merge_rows rows) (merge_rows_f rows)).
Proof.
  intros Ap Hn. destruct rows as [|r0 rs].
  - split; [constructor|]. intros; constructor.
  - pose proof (merge_sim (r0 :: rs) rs Ap (fun r H => conj (or_intror H) (Hn r (or_intror H))) 1 [] r0 []
      (mkM (m_ts r0) (m_px r0) (r24 (m_am r0)) (m_side r0)) r0 (or_introl eq_refl) eq_refl (Forall2_nil _)
      (mrel_start r0 (Hn r0 (or_introl eq_refl)))) as H.
    unfold merge_rows, merge_rows_f. destruct (fold_left merge_step rs _) as [d c], (fold_left merge_step_f rs _) as [d' c'].
    destruct H as [A B]. split; [exact A|]. intros g Hg. apply B; [intros; apply Hg; now right|constructor|].
    apply mgrid_start; [apply Hn; now left|apply Hg; now left].
Qed.

Lemma within_qsum n l l' : Forall2 (fun a b => within ucell n b a) l l' -> within ucell n (qsum l') (qsum l).
Proof.
  induction 1 as [|a b l l' W F IH]; [apply within_self; [exact ucell_bounds|apply Qle_refl]|].
  eapply within_comp; [symmetry; apply qsum_cons|symmetry; apply qsum_cons|]. now apply within_plus.
Qed.
Lemma merge_f_total rows : apart rows -> (forall r, In r rows -> 0 <= m_am r) ->
  within ucell (length rows) (qsum (map m_am (merge_rows_f rows))) (qsum (map m_am rows)).
Proof.
  intros Ap Hn. eapply within_comp; [reflexivity|apply merge_total|]. apply within_qsum.
  destruct (merge_f_spec rows Ap Hn) as [F _]. induction F as [|a b l l' [_ [_ [_ [_ [W _]]]]] F IH]; cbn; constructor; auto.
Qed.
Lemma merge_f_exact rows g : apart rows -> (forall r, In r rows -> 0 <= m_am r /\ grid g (m_am r)) ->
  qsum (map m_am rows) <= two (24 + g) ->
  Forall2 (fun a b => m_ts b = m_ts a /\ m_px b = m_px a /\ m_side b = m_side a /\ m_am b == m_am a) (merge_rows rows) (merge_rows_f rows).
Proof.
  intros Ap Hn B. destruct (merge_f_spec rows Ap (fun r H => proj1 (Hn r H))) as [F G].
  specialize (G g (fun r H => proj2 (Hn r H))).
  assert (T : qsum (map m_am (merge_rows rows)) <= two (24 + g)) by (rewrite merge_total; exact B). clear B.
  induction F as [|a b l l' [A1 [A2 [A3 [A4 _]]]] F IH]; [constructor|].
  inversion G as [|? ? ? ? [G1 G2] G']; subst. cbn [map] in T. rewrite qsum_cons in T.
  assert (N : 0 <= qsum (map m_am l)).
  { clear - F. induction F as [|a b l l' [_ [_ [_ [P _]]]] F IH]; cbn [map]; [apply Qle_refl|]. rewrite qsum_cons. lra. }
  constructor; [|apply IH; auto; lra]. repeat (split; [assumption|]). apply G2. lra.
Qed.

(* ------------------------------------------------ footprint of a bar *)
Lemma bar_levels_ok prices amounts sides tick lo hi s e : 0 < tick -> (-1 <= s <= e)%Z ->
  (forall x, In x amounts -> 0 <= x) -> lo <= hi ->
  (forall j, (s < j <= e)%Z -> lo <= at_ prices j <= hi) ->
  exists st, bar_levels_f prices amounts sides tick lo hi s e = Ok st /\
    fpf_inv prices amounts sides tick (level_f tick lo) (level_f tick hi - level_f tick lo + 1) s e st.
Proof.
  intros Ht Hs Hq Hl Hp. unfold bar_levels_f. destruct (Qeqb_spec tick 0); [exfalso; lra|].
  pose proof (level_f_mono tick lo hi Ht Hl). destruct (Z.ltb_spec (level_f tick hi - level_f tick lo + 1) 0); [lia|].
  apply fpf_loop; auto; try lia.
  intros j Hj. destruct (Hp j Hj) as [A B]. unfold levf.
  pose proof (level_f_mono tick _ _ Ht A). pose proof (level_f_mono tick _ _ Ht B). lia.
Qed.

(** Unit volumes on top of 2^24 vanish. *)
Lemma cell_stuck : cell_add 16777216 1 = 16777216.
Proof. vm_compute. reflexivity. Qed.
