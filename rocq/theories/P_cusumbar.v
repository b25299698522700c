(** P_cusumbar.v -- proofs about sigma filling and the CUSUM bar indexer. *)
From Verif Require Import Base M_logic S_logic P_cusum P_logic.
Open Scope Q_scope.

Lemma first_some_known {A} (l : list (option A)) f : first_some l = Some f ->
  (f < length l)%nat /\ (exists x, nth f l None = Some x) /\
  (forall j, (j < f)%nat -> nth j l None = None).
Proof.
  revert f. induction l as [|[a|] l IH]; simpl; intros f H; try discriminate.
  - inversion H; subst. simpl. split; [lia|]. split; [eauto|intros; lia].
  - destruct (first_some l) as [g|]; simpl in H; [|discriminate]. inversion H; subst.
    destruct (IH g eq_refl) as [H1 [H2 H3]]. split; [lia|]. split; [exact H2|].
    intros [|j] Hj; [reflexivity|]. apply H3. lia.
Qed.
Lemma first_some_none {A} (l : list (option A)) : first_some l = None -> forall j, nth j l None = None.
Proof.
  induction l as [|[a|] l IH]; simpl; intros H j; try discriminate.
  - destruct j; reflexivity.
  - destruct (first_some l); [discriminate|]. destruct j; [reflexivity|]. auto.
Qed.
Lemma first_known_some sigma f : first_known sigma f -> first_some sigma = Some f.
Proof.
  intros [[s Hs] Hb]. destruct (first_some sigma) as [g|] eqn:E.
  - apply first_some_known in E. destruct E as [_ [[x Hx] Hg]].
    destruct (Nat.lt_trichotomy f g) as [C|[C|C]]; [|congruence|].
    + rewrite (Hg f C) in Hs. discriminate.
    + rewrite (Hb g C) in Hx. discriminate.
  - rewrite (first_some_none _ E f) in Hs. discriminate.
Qed.

Lemma ffill_length {A} (prev : option A) l : length (ffill prev l) = length l.
Proof. revert prev. induction l as [|[a|] l IH]; simpl; intro prev; auto. Qed.

Lemma ffill_nth {A} (l : list (option A)) : forall prev i, (i < length l)%nat ->
  (exists k, (k <= i)%nat /\ nth k l None <> None /\ nth i (ffill prev l) None = nth k l None /\
             forall j, (k < j <= i)%nat -> nth j l None = None) \/
  ((forall j, (j <= i)%nat -> nth j l None = None) /\ nth i (ffill prev l) None = prev).
Proof.
  induction l as [|[a|] l IH]; simpl; intros prev i Hi; [lia| |].
  - left. destruct i as [|i].
    + exists 0%nat. repeat split; auto; try congruence. intros; lia.
    + destruct (IH (Some a) i ltac:(lia)) as [[k [H1 [H2 [H3 H4]]]]|[H1 H2]].
      * exists (S k). repeat split; auto; try lia. intros [|j] Hj; [lia|]. apply H4. lia.
      * exists 0%nat. repeat split; auto; try lia; try congruence.
        intros [|j] Hj; [lia|]. apply H1. lia.
  - destruct i as [|i].
    + right. split; [|reflexivity]. intros [|j] Hj; [reflexivity|lia].
    + destruct (IH prev i ltac:(lia)) as [[k [H1 [H2 [H3 H4]]]]|[H1 H2]].
      * left. exists (S k). repeat split; auto; try lia. intros [|j] Hj; [lia|]. apply H4. lia.
      * right. split; [|assumption]. intros [|j] Hj; [reflexivity|]. apply H1. lia.
Qed.

Lemma last_known_unique sigma i s s' : last_known sigma i s -> last_known sigma i s' -> s = s'.
Proof.
  intros [k [H1 [H2 H3]]] [k' [H1' [H2' H3']]].
  destruct (Nat.lt_trichotomy k k') as [C|[->|C]].
  - rewrite (H3 k') in H2' by lia. discriminate.
  - congruence.
  - rewrite (H3' k) in H2 by lia. discriminate.
Qed.

Lemma fill_sigma_length sigma : length (fill_sigma sigma) = length sigma.
Proof.
  unfold fill_sigma. rewrite app_length, ffill_length, <- app_length, firstn_skipn. reflexivity.
Qed.

Lemma fill_sigma_before sigma f i : first_known sigma f -> (i < f)%nat ->
  nth i (fill_sigma sigma) None = None.
Proof.
  intros Hf Hi. pose proof (first_known_some _ _ Hf) as E.
  destruct (first_some_known _ _ E) as [Hlen _].
  unfold fill_sigma, first_non_nan. rewrite E. rewrite app_nth1 by (rewrite firstn_length; lia).
  rewrite nth_firstn by lia. now apply Hf.
Qed.

Lemma fill_sigma_known sigma f i : first_known sigma f -> (f <= i < length sigma)%nat ->
  exists s, nth i (fill_sigma sigma) None = Some s /\ last_known sigma i s.
Proof.
  intros Hf Hi. pose proof (first_known_some _ _ Hf) as E.
  destruct (first_some_known _ _ E) as [Hlen [[x Hx] Hb]].
  unfold fill_sigma, first_non_nan. rewrite E.
  rewrite app_nth2 by (rewrite firstn_length; lia). rewrite firstn_length.
  replace (Nat.min f (length sigma)) with f by lia.
  set (prev := match f with O => _ | S _ => _ end).
  destruct (ffill_nth (skipn f sigma) prev (i - f)) as [[k [H1 [H2 [H3 H4]]]]|[H1 H2]].
  - rewrite skipn_length. lia.
  - rewrite H3. rewrite nth_skipn in *. destruct (nth (f + k) sigma None) as [s|] eqn:Es; [|congruence].
    exists s. split; [reflexivity|]. exists (f + k)%nat. split; [lia|]. split; [assumption|].
    intros j Hj. specialize (H4 (j - f)%nat ltac:(lia)). rewrite nth_skipn in H4.
    replace (f + (j - f))%nat with j in H4 by lia. exact H4.
  - specialize (H1 0%nat ltac:(lia)). rewrite nth_skipn, Nat.add_0_r in H1. congruence.
Qed.

Section Bar.
  Variable ln : Q -> Q.
  Variables (ts : list Z) (prices : list Q) (sg : list (option Q)) (flr mult : Q).

  Definition bar_dec (i : nat) (p q : Q) : option bool :=
    if ((i + 1 <? length prices)%nat && (nth i ts 0 =? nth (i + 1) ts 0)%Z)%bool then None
    else match cusum_lam sg flr mult i with
         | None => None
         | Some lam => if Qleb lam p then Some true else if Qleb q (- lam) then Some false else None
         end.
  Definition g2c (g : gst) : cusum_state := mkCS (g_idx g) (g_pos g) (g_neg g).

  Lemma bar_step_g g i :
    cusum_bar_step ln ts prices sg flr mult (g2c g) i = g2c (gstep (log_ret ln prices) bar_dec g i).
  Proof.
    unfold cusum_bar_step, gstep, bar_dec, g2c. simpl.
    destruct ((i + 1 <? length prices)%nat && (nth i ts 0 =? nth (i + 1) ts 0)%Z)%bool; [reflexivity|].
    destruct (cusum_lam sg flr mult i) as [lam|]; [|reflexivity].
    destruct (Qleb lam _); [reflexivity|]. destruct (Qleb _ (- lam)); reflexivity.
  Qed.
  Lemma bar_fold_g l g :
    fold_left (cusum_bar_step ln ts prices sg flr mult) l (g2c g) =
    g2c (fold_left (gstep (log_ret ln prices) bar_dec) l g).
  Proof. revert g. induction l as [|x l IH]; simpl; intro g; [reflexivity|]. now rewrite bar_step_g, IH. Qed.
End Bar.

Lemma pmax_Qmax a b : pmax a b == Qmax a b.
Proof.
  unfold pmax. destruct (Qltb_spec a b) as [H|H].
  - symmetry. apply Q.max_r. lra.
  - symmetry. apply Q.max_l. lra.
Qed.

Lemma run_ending_ext r u i (P P' : Q -> Prop) : (forall x, P x <-> P' x) ->
  (run_ending r u i P <-> run_ending r u i P').
Proof. intro HP. unfold run_ending. split; intros [j [Hj H]]; exists j; split; auto; now apply HP. Qed.

Lemma minrun_le' r u i s lam : 0 < lam -> is_minrun r u (S i) s ->
  (s <= - lam <-> run_ending r u i (fun x => x <= - lam)).
Proof. intros. apply minrun_le; auto; lra. Qed.

Lemma bar_dec_spec ts prices sg flr mult i p q s :
  length prices = length ts -> nth i sg None = Some s ->
  let lam := pmax (mult * s) flr in
  (bar_dec ts prices sg flr mult i p q = Some true <-> ~ block_goes_on ts i /\ lam <= p) /\
  (bar_dec ts prices sg flr mult i p q = Some false <-> ~ block_goes_on ts i /\ ~ lam <= p /\ q <= - lam).
Proof.
  intros Hl Hs lam. unfold bar_dec, cusum_lam. rewrite Hs. fold lam.
  destruct ((i + 1 <? length prices)%nat && (nth i ts 0 =? nth (i + 1) ts 0)%Z)%bool eqn:E.
  - apply andb_true_iff in E. destruct E as [E1 E2].
    apply Nat.ltb_lt in E1. apply Z.eqb_eq in E2.
    assert (block_goes_on ts i) by (split; [lia|assumption]).
    split; split; try discriminate; tauto.
  - assert (~ block_goes_on ts i).
    { intros [B1 B2]. apply andb_false_iff in E. destruct E as [E|E].
      - apply Nat.ltb_ge in E. lia. - apply Z.eqb_neq in E. auto. }
    destruct (Qleb_spec lam p); [split; split; try discriminate; tauto|].
    destruct (Qleb_spec q (- lam)).
    + split; split; try discriminate; try (intros; lra).
      * intros _. repeat split; auto; lra.
      * reflexivity.
    + split; split; try discriminate; intros; lra.
Qed.

Lemma cusum_bar_events ln ts prices sigma flr mult f :
  length prices = length ts -> length sigma = length ts ->
  0 < flr -> first_known sigma f ->
  exists evs, cusum_bar_indexer ln ts prices sigma flr mult = f :: evs /\
    cusum_events (fun i => ln (nth i prices 0 / nth (i - 1) prices 0)) f (length prices)
      (fun i => ~ block_goes_on ts i)
      (fun i x => exists s, last_known sigma i s /\ Qmax (mult * s) flr <= x)
      (fun i x => exists s, last_known sigma i s /\ x <= - Qmax (mult * s) flr) evs.
Proof.
  intros Hlp Hls Hfl Hf. pose proof (first_known_some _ _ Hf) as E.
  destruct (first_some_known _ _ E) as [Hlen _].
  unfold cusum_bar_indexer. unfold first_non_nan at 1 2 3. rewrite E.
  set (sg := fill_sigma sigma). set (n := length prices) in *.
  change (mkCS [f] 0 0) with (g2c (mkG [f] 0 0)).
  rewrite bar_fold_g. unfold g2c. simpl cs_idx.
  replace (f + 1)%nat with (S f) by lia.
  destruct (grun_inv (log_ret ln prices) (bar_dec ts prices sg flr mult) [f] f (n - S f)) as [ups [dns G]].
  unfold grun in G. replace (S f + (n - S f))%nat with n in G by lia.
  destruct G as [Hu Hd _ _ Hdec [evs [Eidx [Hsort Hevs]]]].
  exists evs. split; [exact Eidx|]. exists ups, dns.
  split; [exact Hsort|]. split; [exact Hevs|]. split.
  { intros i H. apply Hevs in H. destruct H as [H|H]; [apply Hu in H|apply Hd in H]; lia. }
  intros i Hi. change (fun i => ln (nth i prices 0 / nth (i - 1) prices 0)) with (log_ret ln prices).
  destruct (Hdec i Hi) as [p [q [Hp [Hq [U D]]]]].
  destruct (fill_sigma_known sigma f i Hf ltac:(lia)) as [s [Es Hk]].
  destruct (bar_dec_spec ts prices sg flr mult i p q s Hlp Es) as [U' D'].
  set (lam := pmax (mult * s) flr) in *.
  assert (Hlam : 0 < lam) by (pose proof (pmax_r (mult * s) flr); unfold lam; lra).
  assert (Hhi : run_ending (log_ret ln prices) (last_before ups f i) i
             (fun x => exists s, last_known sigma i s /\ Qmax (mult * s) flr <= x) <-> lam <= p).
  { rewrite (maxrun_ge _ _ _ _ _ Hlam Hp). apply run_ending_ext. intro x. unfold lam. rewrite pmax_Qmax. split.
    - intros [s' [Hk' H]]. rewrite (last_known_unique _ _ _ _ Hk Hk'). exact H.
    - intro H. eauto. }
  assert (Hlo : run_ending (log_ret ln prices) (last_before dns f i) i
             (fun x => exists s, last_known sigma i s /\ x <= - Qmax (mult * s) flr) <-> q <= - lam).
  { rewrite (minrun_le' _ _ _ _ _ Hlam Hq). apply run_ending_ext. intro x. unfold lam. rewrite pmax_Qmax. split.
    - intros [s' [Hk' H]]. rewrite (last_known_unique _ _ _ _ Hk Hk'). exact H.
    - intro H. eauto. }
  rewrite Hhi, Hlo, U, D. split; assumption.
Qed.

(** Nothing known: only the seed close 0. *)
Lemma cusum_bar_unknown ln ts prices sigma flr mult :
  length prices = length ts -> length sigma = length ts ->
  (forall j, nth j sigma None = None) ->
  cusum_bar_indexer ln ts prices sigma flr mult = [0%nat].
Proof.
  intros Hlp Hls Hn.
  assert (E : first_some sigma = None).
  { destruct (first_some sigma) as [f|] eqn:E; [|reflexivity].
    apply first_some_known in E. destruct E as [_ [[x Hx] _]]. rewrite Hn in Hx. discriminate. }
  assert (Hf : forall i, nth i (fill_sigma sigma) None = None).
  { intro i. unfold fill_sigma, first_non_nan. rewrite E. simpl.
    assert (El : last sigma None = None).
    { clear -Hn. induction sigma as [|a l IH]; [reflexivity|].
      destruct l as [|b l]; [exact (Hn 0%nat)|]. apply IH. intro j. exact (Hn (S j)). }
    rewrite El. clear -Hn. revert i Hn. induction sigma as [|a l IH]; intros i Hn; [destruct i; reflexivity|].
    pose proof (Hn 0%nat) as H0. simpl in H0. subst a. simpl. destruct i; [reflexivity|].
    apply IH. intro j. exact (Hn (S j)). }
  unfold cusum_bar_indexer. unfold first_non_nan at 1 2 3. rewrite E.
  assert (G : forall l s, cs_idx s = [0%nat] ->
     cs_idx (fold_left (cusum_bar_step ln ts prices (fill_sigma sigma) flr mult) l s) = [0%nat]).
  { induction l as [|x l IH]; simpl; intros s Hs; [assumption|]. apply IH.
    unfold cusum_bar_step, cusum_lam. rewrite Hf. destruct (_ && _)%bool; simpl; assumption. }
  apply G. reflexivity.
Qed.

(* ------------------------------------------------------------------ *)
(** ** Causality of the CUSUM bars *)

Lemma cusum_bar_app ln ts prices sg flr mult s i :
  cs_idx (cusum_bar_step ln ts prices sg flr mult s i) = cs_idx s \/
  cs_idx (cusum_bar_step ln ts prices sg flr mult s i) = cs_idx s ++ [i].
Proof.
  unfold cusum_bar_step.
  destruct (_ && _)%bool; simpl; auto. destruct (cusum_lam sg flr mult i); simpl; auto.
  destruct (Qleb _ _); simpl; auto. destruct (Qleb _ _); simpl; auto.
Qed.

Lemma first_known_firstn sigma f m : first_known sigma f -> (f < m)%nat ->
  first_known (firstn m sigma) f.
Proof.
  intros [[s Hs] Hb] Hm. split.
  - exists s. rewrite nth_firstn by lia. exact Hs.
  - intros j Hj. rewrite nth_firstn by lia. auto.
Qed.

Lemma last_known_firstn sigma m i s : (i < m)%nat ->
  (last_known (firstn m sigma) i s <-> last_known sigma i s).
Proof.
  intro Hm. split; intros [k [H1 [H2 H3]]]; exists k.
  - rewrite nth_firstn in H2 by lia. repeat split; auto.
    intros j Hj. specialize (H3 j Hj). rewrite nth_firstn in H3 by lia. exact H3.
  - rewrite nth_firstn by lia. repeat split; auto.
    intros j Hj. rewrite nth_firstn by lia. auto.
Qed.

Lemma fill_sigma_firstn sigma f m i : first_known sigma f -> (f < m <= length sigma)%nat ->
  (i < m)%nat -> nth i (fill_sigma (firstn m sigma)) None = nth i (fill_sigma sigma) None.
Proof.
  intros Hf Hm Hi. pose proof (first_known_firstn _ _ m Hf ltac:(lia)) as Hf'.
  destruct (Nat.lt_ge_cases i f) as [Hlt|Hge].
  - rewrite !(fill_sigma_before _ f) by assumption. reflexivity.
  - destruct (fill_sigma_known sigma f i Hf ltac:(lia)) as [s [-> H1]].
    destruct (fill_sigma_known (firstn m sigma) f i Hf') as [s' [-> H2]].
    { rewrite firstn_length. lia. }
    apply last_known_firstn in H2; [|lia]. f_equal. eapply last_known_unique; eauto.
Qed.

Lemma cusum_bar_prefix ln ts prices sigma flr mult f m :
  length prices = length ts -> length sigma = length ts ->
  first_known sigma f -> (f < m <= length ts)%nat ->
  ~ block_goes_on ts (m - 1) ->
  filter (fun i => i <? m)%nat (cusum_bar_indexer ln ts prices sigma flr mult)
  = cusum_bar_indexer ln (firstn m ts) (firstn m prices) (firstn m sigma) flr mult.
Proof.
  intros Hlp Hls Hf Hm Hblk.
  pose proof (first_known_some _ _ Hf) as E.
  pose proof (first_known_some _ _ (first_known_firstn _ _ m Hf ltac:(lia))) as E'.
  unfold cusum_bar_indexer, first_non_nan. rewrite E, E'.
  rewrite firstn_length. replace (Nat.min m (length prices)) with m by lia.
  apply (prefix_law (cusum_bar_step ln ts prices (fill_sigma sigma) flr mult) cs_idx
     (cusum_bar_step ln (firstn m ts) (firstn m prices) (fill_sigma (firstn m sigma)) flr mult) cs_idx
     eq_refl (f + 1) (length prices - (f + 1)) m); try lia.
  - intros. apply cusum_bar_app.
  - simpl. intros i [<-|[]]. lia.
  - f_equal. apply fold_left_ext. intros s i Hi. apply in_seq in Hi.
    unfold cusum_bar_step, log_ret, cusum_lam.
    rewrite (fill_sigma_firstn sigma f m i) by (auto; lia).
    rewrite (nth_firstn 0 prices m i), (nth_firstn 0 prices m (i - 1)) by lia. rewrite firstn_length.
    replace (Nat.min m (length prices)) with m by lia.
    assert (Eb : ((i + 1 <? length prices)%nat && (nth i ts 0 =? nth (i + 1) ts 0)%Z)%bool =
                 ((i + 1 <? m)%nat && (nth i (firstn m ts) 0 =? nth (i + 1) (firstn m ts) 0)%Z)%bool).
    { destruct (Nat.ltb_spec (i + 1) m) as [Hlt|Hge].
      - destruct (Nat.ltb_spec (i + 1) (length prices)); [|lia]. cbn [andb].
        rewrite !nth_firstn by lia. reflexivity.
      - cbn [andb]. destruct (Nat.ltb_spec (i + 1) (length prices)) as [H1|]; [|reflexivity].
        cbn [andb]. apply Z.eqb_neq. intro H2. apply Hblk. replace (m - 1)%nat with i by lia.
        split; [lia|exact H2]. }
    rewrite Eb. reflexivity.
Qed.
