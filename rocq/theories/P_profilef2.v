(** P_profilef2.v -- proofs about volume profiles in float arithmetic: what the value area covers. *)
From Verif Require Import Base M_logic M_bars M_footprint M_features M_volume M_float M_float11.
From Verif Require Import S_footprint S_features S_volume S_float S_profilef P_footprint P_weights P_features P_volume P_volume2 P_volume3.
From Verif Require Import P_float P_float5 P_float12 P_profilef.
Open Scope Q_scope.

Section Cover.
  Variables (v : nat -> Q) (n : nat) (thr : Q).
  Hypothesis Hnn : forall i, (i < n)%nat -> 0 <= v i.

  Lemma span_nonneg a b : (b <= n)%nat -> 0 <= ssum v a b.
  Proof. intro H. apply ssum_nonneg. intros i Hi. apply Hnn. lia. Qed.
  Lemma up_cases hi : (S hi < n)%nat ->
    (S (S hi) < n)%nat /\ next_up_f v n hi = r53 (v (S hi) + v (S (S hi))) /\ next_up v n hi == v (S hi) + v (S (S hi)) \/
    (S (S hi) = n)%nat /\ next_up_f v n hi = v (S hi) /\ next_up v n hi == v (S hi).
  Proof.
    intro H. unfold next_up_f, next_up. destruct (Nat.ltb_spec (S (S hi)) n) as [K|K].
    - left. split; [auto|]. split; [reflexivity|]. replace (Nat.min (hi + 3) n) with (S hi + 2)%nat by lia. apply ssum_two.
    - right. split; [lia|]. split; [reflexivity|]. replace (Nat.min (hi + 3) n) with (S (S hi)) by lia. apply ssum_one.
  Qed.
  Lemma dn_cases lo : (0 < lo)%nat ->
    (1 < lo)%nat /\ next_dn_f v lo = r53 (v (lo - 1)%nat + v (lo - 2)%nat) /\ next_dn v lo == v (lo - 1)%nat + v (lo - 2)%nat \/
    lo = 1%nat /\ next_dn_f v lo = v (lo - 1)%nat /\ next_dn v lo == v (lo - 1)%nat.
  Proof.
    intro H. unfold next_dn_f, next_dn. destruct (Nat.ltb_spec 1 lo) as [K|K].
    - left. split; [auto|]. split; [reflexivity|]. pose proof (ssum_two v (lo - 2)) as E. replace (lo - 2 + 2)%nat with lo in E by lia.
      rewrite E. replace (S (lo - 2)) with (lo - 1)%nat by lia. ring.
    - right. split; [lia|]. split; [reflexivity|]. assert (lo = 1%nat) by lia. subst lo. apply ssum_one.
  Qed.
  Lemma up_within hi : (S hi < n)%nat -> 0 <= next_up v n hi /\ within u53 1 (next_up_f v n hi) (next_up v n hi).
  Proof.
    intro H. pose proof (Hnn _ H). destruct (up_cases hi H) as [[K [-> E]]|[K [-> E]]].
    - pose proof (Hnn _ K). split; [rewrite E; lra|]. eapply (within_comp u53); [reflexivity|symmetry; exact E|].
      apply within_r53; [lra|]. now apply within_self; [exact u53_bounds|lra].
    - split; [rewrite E; lra|]. eapply (within_comp u53); [reflexivity|symmetry; exact E|]. now apply within_self; [exact u53_bounds|].
  Qed.
  Lemma dn_within lo : (0 < lo <= n)%nat -> 0 <= next_dn v lo /\ within u53 1 (next_dn_f v lo) (next_dn v lo).
  Proof.
    intro H. pose proof (Hnn (lo - 1)%nat ltac:(lia)). destruct (dn_cases lo ltac:(lia)) as [[K [-> E]]|[K [-> E]]].
    - pose proof (Hnn (lo - 2)%nat ltac:(lia)). split; [rewrite E; lra|]. eapply (within_comp u53); [reflexivity|symmetry; exact E|].
      apply within_r53; [lra|]. now apply within_self; [exact u53_bounds|lra].
    - split; [rewrite E; lra|]. eapply (within_comp u53); [reflexivity|symmetry; exact E|]. now apply within_self; [exact u53_bounds|].
  Qed.
  Lemma cum_up' lo hi : (lo <= hi)%nat -> (hi < n)%nat ->
    ssum v lo (S hi) + next_up v n hi == ssum v lo (S (Nat.min (hi + 2) (n - 1))).
  Proof.
    intros H1 H2. unfold next_up. replace (S (Nat.min (hi + 2) (n - 1))) with (Nat.min (hi + 3) n) by lia.
    symmetry. apply ssum_split. lia.
  Qed.
  Lemma cum_dn' lo hi : (lo <= hi)%nat -> ssum v lo (S hi) + next_dn v lo == ssum v (lo - 2) (S hi).
  Proof. intro H. unfold next_dn. rewrite Qplus_comm. symmetry. apply ssum_split. lia. Qed.

  Lemma step_up c lo hi : (lo <= hi)%nat -> (S hi < n)%nat -> within u53 (hi - lo + 2) c (ssum v lo (S hi)) ->
    let hi' := Nat.min (hi + 2) (n - 1) in within u53 (hi' - lo + 2) (r53 (c + next_up_f v n hi)) (ssum v lo (S hi')).
  Proof.
    intros H1 H2 W hi'. destruct (up_within hi H2) as [N1 W1]. pose proof (span_nonneg lo (S hi) ltac:(lia)) as N0.
    pose proof (cum_up' lo hi H1 ltac:(lia)) as CU. fold hi' in CU. pose proof (span_nonneg lo (S hi') ltac:(subst hi'; lia)) as N2.
    apply (within_le u53 u53_bounds (S (hi - lo + 2))); [subst hi'; lia|exact N2|].
    eapply (within_comp u53); [reflexivity|exact CU|]. apply within_add with (m := 1%nat); auto. lia.
  Qed.
  Lemma step_dn c lo hi : (lo <= hi)%nat -> (hi < n)%nat -> (0 < lo)%nat -> within u53 (hi - lo + 2) c (ssum v lo (S hi)) ->
    within u53 (hi - (lo - 2) + 2) (r53 (c + next_dn_f v lo)) (ssum v (lo - 2) (S hi)).
  Proof.
    intros H1 H2 H3 W. destruct (dn_within lo ltac:(lia)) as [N1 W1]. pose proof (span_nonneg lo (S hi) ltac:(lia)) as N0.
    pose proof (cum_dn' lo hi H1) as CD. pose proof (span_nonneg (lo - 2) (S hi) ltac:(lia)) as N2.
    apply (within_le u53 u53_bounds (S (hi - lo + 2))); [lia|exact N2|].
    eapply (within_comp u53); [reflexivity|exact CD|]. apply within_add with (m := 1%nat); auto. lia.
  Qed.
  Lemma step_both c lo hi : (lo <= hi)%nat -> (S hi < n)%nat -> (0 < lo)%nat -> within u53 (hi - lo + 2) c (ssum v lo (S hi)) ->
    let hi' := Nat.min (hi + 2) (n - 1) in
    within u53 (hi' - (lo - 2) + 2) (r53 (c + r53 (next_up_f v n hi + next_dn_f v lo))) (ssum v (lo - 2) (S hi')).
  Proof.
    intros H1 H2 H3 W hi'. destruct (up_within hi H2) as [N1 W1]. destruct (dn_within lo ltac:(lia)) as [N3 W3].
    pose proof (span_nonneg lo (S hi) ltac:(lia)) as N0.
    pose proof (cum_up' lo hi H1 ltac:(lia)) as CU. fold hi' in CU. pose proof (cum_dn' lo hi' ltac:(subst hi'; lia)) as CD.
    pose proof (span_nonneg (lo - 2) (S hi') ltac:(subst hi'; lia)) as N2.
    apply (within_le u53 u53_bounds (S (hi - lo + 2))); [subst hi'; lia|exact N2|].
    apply (within_comp u53 _ (r53 (c + r53 (next_up_f v n hi + next_dn_f v lo))) (ssum v lo (S hi) + (next_up v n hi + next_dn v lo))).
    - reflexivity.
    - rewrite <- CD, <- CU. ring.
    - apply (within_add (hi - lo + 2) 2); [exact N0|lra|lia|exact W|]. apply (within_add 1 1); auto.
  Qed.

  (** The final interval covers the threshold up to the rounding of the running volume; before its last growth it did not. *)
  Lemma vaf_cover c lo hi a b : value_area_f v n thr c lo hi a b -> (lo <= hi < n)%nat ->
    within u53 (hi - lo + 2) c (ssum v lo (S hi)) ->
    ((a = 0%nat /\ S b = n) \/ thr <= (1 + u53) ^ Z.of_nat (b - a + 2) * ssum v a (S b)) /\
    ((a = lo /\ b = hi) \/
     exists a' b', (a <= a' <= lo)%nat /\ (hi <= b' <= b)%nat /\ (a' <= a + 2)%nat /\ (b <= b' + 2)%nat /\
       (1 - u53) ^ Z.of_nat (b' - a' + 2) * ssum v a' (S b') < thr).
  Proof.
    intro V. induction V as [c lo hi Hd|c hi Hn|c c' lo hi a b Hlt Hn Hs Ec V IH|c c' lo hi a b Hlt Hn Hs Ec V IH|c c' lo hi a b Hlt Hn1 Hn2 Hs Ec V IH];
      intros HL W.
    - split; [right; destruct W as [_ W2]; lra|left; auto].
    - split; [left; auto|left; auto].
    - pose proof (step_up c lo hi ltac:(lia) Hn W) as W'. cbv zeta in W'. set (hi' := Nat.min (hi + 2) (n - 1)) in *.
      apply (within_comp u53 _ _ _ c' (ssum v lo (S hi'))) in W'; [|symmetry; exact Ec|reflexivity].
      destruct (IH ltac:(subst hi'; lia) W') as [I1 I2]. split; [exact I1|]. right.
      assert (B : (1 - u53) ^ Z.of_nat (hi - lo + 2) * ssum v lo (S hi) < thr) by (destruct W as [W1 _]; lra).
      destruct I2 as [[-> ->]|[a' [b' I2]]].
      + exists lo, hi. repeat split; try (subst hi'; lia). exact B.
      + exists a', b'. destruct I2 as [J1 [J2 [J3 [J4 J5]]]]. repeat split; try (subst hi'; lia). exact J5.
    - pose proof (step_dn c lo hi ltac:(lia) ltac:(lia) Hn W) as W'.
      apply (within_comp u53 _ _ _ c' (ssum v (lo - 2) (S hi))) in W'; [|symmetry; exact Ec|reflexivity].
      destruct (IH ltac:(lia) W') as [I1 I2]. split; [exact I1|]. right.
      assert (B : (1 - u53) ^ Z.of_nat (hi - lo + 2) * ssum v lo (S hi) < thr) by (destruct W as [W1 _]; lra).
      destruct I2 as [[-> ->]|[a' [b' I2]]].
      + exists lo, hi. repeat split; try lia. exact B.
      + exists a', b'. destruct I2 as [J1 [J2 [J3 [J4 J5]]]]. repeat split; try lia. exact J5.
    - pose proof (step_both c lo hi ltac:(lia) ltac:(lia) ltac:(lia) W) as W'. cbv zeta in W'. set (hi' := Nat.min (hi + 2) (n - 1)) in *.
      apply (within_comp u53 _ _ _ c' (ssum v (lo - 2) (S hi'))) in W'; [|symmetry; exact Ec|reflexivity].
      destruct (IH ltac:(subst hi'; lia) W') as [I1 I2]. split; [exact I1|]. right.
      assert (B : (1 - u53) ^ Z.of_nat (hi - lo + 2) * ssum v lo (S hi) < thr) by (destruct W as [W1 _]; lra).
      destruct I2 as [[-> ->]|[a' [b' I2]]].
      + exists lo, hi. repeat split; try (subst hi'; lia). exact B.
      + exists a', b'. destruct I2 as [J1 [J2 [J3 [J4 J5]]]]. repeat split; try (subst hi'; lia). exact J5.
  Qed.

  (** Volumes in lots of 2^g with a total below 2^53 lots: no sum of the search is rounded. *)
  Variable g : Z.
  Hypothesis Hg : forall i, (i < n)%nat -> grid g (v i).
  Hypothesis Htot : ssum v 0 n <= two (53 + g).
  Lemma span_grid a b : (b <= n)%nat -> grid g (ssum v a b).
  Proof.
    intro H. destruct (Nat.le_gt_cases a b) as [K|K].
    - revert H. replace b with (a + (b - a))%nat by lia. generalize (b - a)%nat as m. clear K. induction m as [|m IH]; intro H.
      + eapply grid_comp; [|apply grid_0]. rewrite ssum_nil by lia. reflexivity.
      + eapply grid_comp; [symmetry; apply (ssum_split v a (a + m) (a + S m)); lia|]. apply grid_plus; [apply IH; lia|].
        replace (a + S m)%nat with (S (a + m)) by lia. eapply grid_comp; [symmetry; apply ssum_one|]. apply Hg. lia.
    - eapply grid_comp; [|apply grid_0]. rewrite ssum_nil by lia. reflexivity.
  Qed.
  Lemma span_le_total a b : (a <= b <= n)%nat -> ssum v a b <= two (53 + g).
  Proof.
    intro H. eapply Qle_trans; [|exact Htot]. rewrite (ssum_split v 0 a n) by lia. rewrite (ssum_split v a b n) by lia.
    pose proof (span_nonneg 0 a ltac:(lia)). pose proof (span_nonneg b n ltac:(lia)). lra.
  Qed.
  Lemma span_r53 a b x : (a <= b <= n)%nat -> x == ssum v a b -> r53 x == x.
  Proof.
    intros H E. unfold r53. rewrite (rnd_comp 53 _ _ E). rewrite E. apply (grid_rnd 53 g); [lia|apply span_grid; lia|].
    split; [apply span_nonneg; lia|now apply span_le_total].
  Qed.
  Lemma up_exact hi : (S hi < n)%nat -> next_up_f v n hi == next_up v n hi.
  Proof.
    intro H. destruct (up_cases hi H) as [[K [-> E]]|[K [-> E]]]; rewrite E; [|reflexivity].
    apply (span_r53 (S hi) (S hi + 2)); [lia|]. symmetry. apply ssum_two.
  Qed.
  Lemma dn_exact lo : (0 < lo <= n)%nat -> next_dn_f v lo == next_dn v lo.
  Proof.
    intro H. destruct (dn_cases lo ltac:(lia)) as [[K [-> E]]|[K [-> E]]]; rewrite E; [|reflexivity].
    apply (span_r53 (lo - 2) lo); [lia|]. rewrite <- E. reflexivity.
  Qed.
  Lemma vaf_exact c lo hi a b : value_area_f v n thr c lo hi a b -> (lo <= hi < n)%nat -> thr <= ssum v 0 n ->
    c == ssum v lo (S hi) -> value_area v n thr lo hi a b.
  Proof.
    intro V. induction V as [c lo hi Hd|c hi Hn|c c' lo hi a b Hlt Hn Hs Ec V IH|c c' lo hi a b Hlt Hn Hs Ec V IH|c c' lo hi a b Hlt Hn1 Hn2 Hs Ec V IH];
      intros HL Ht C.
    - apply va_done. rewrite <- C. exact Hd.
    - apply va_done. rewrite Hn. exact Ht.
    - pose proof (cum_up' lo hi ltac:(lia) ltac:(lia)) as CU. pose proof (up_exact hi Hn) as EU. set (hi' := Nat.min (hi + 2) (n - 1)) in *.
      apply va_grow_up; auto; [rewrite <- C; exact Hlt| |].
      + destruct Hs as [Hs|Hs]; [auto|]. destruct (Nat.eq_dec lo 0) as [K|K]; [auto|]. right.
        rewrite <- EU, <- (dn_exact lo) by lia. exact Hs.
      + apply IH; [subst hi'; lia|auto|]. rewrite Ec. assert (E : c + next_up_f v n hi == ssum v lo (S hi')) by (rewrite C, EU; exact CU).
        rewrite (span_r53 lo (S hi') _ ltac:(subst hi'; lia) E). exact E.
    - pose proof (cum_dn' lo hi ltac:(lia)) as CD. pose proof (dn_exact lo ltac:(lia)) as ED.
      apply va_grow_dn; auto; [rewrite <- C; exact Hlt| |].
      + destruct Hs as [Hs|Hs]; [auto|]. destruct (Nat.eq_dec (S hi) n) as [K|K]; [auto|]. right.
        rewrite <- ED, <- (up_exact hi) by lia. exact Hs.
      + apply IH; [lia|auto|]. rewrite Ec. assert (E : c + next_dn_f v lo == ssum v (lo - 2) (S hi)) by (rewrite C, ED; exact CD).
        rewrite (span_r53 (lo - 2) (S hi) _ ltac:(lia) E). exact E.
    - pose proof (cum_up' lo hi ltac:(lia) ltac:(lia)) as CU. pose proof (up_exact hi Hn2) as EU. set (hi' := Nat.min (hi + 2) (n - 1)) in *.
      pose proof (cum_dn' lo hi' ltac:(subst hi'; lia)) as CD. pose proof (dn_exact lo ltac:(lia)) as ED.
      apply va_grow_both; auto; [rewrite <- C; exact Hlt|rewrite <- EU, <- ED; exact Hs|].
      apply IH; [subst hi'; lia|auto|]. rewrite Ec.
      assert (G : r53 (next_up_f v n hi + next_dn_f v lo) == next_up v n hi + next_dn v lo).
      { unfold r53. rewrite (rnd_comp 53 _ (next_up v n hi + next_dn v lo)) by (rewrite EU, ED; reflexivity).
        apply (grid_rnd 53 g); [lia| |].
        - apply grid_plus; apply span_grid; lia.
        - destruct (up_within hi Hn2) as [N1 _]. destruct (dn_within lo ltac:(lia)) as [N2 _]. split; [lra|].
          pose proof (span_le_total (lo - 2) (S hi') ltac:(subst hi'; lia)) as T. rewrite <- CD, <- CU in T.
          pose proof (span_nonneg lo (S hi) ltac:(lia)). lra. }
      assert (E : c + r53 (next_up_f v n hi + next_dn_f v lo) == ssum v (lo - 2) (S hi')) by (rewrite C, G, <- CD, <- CU; ring).
      rewrite (span_r53 (lo - 2) (S hi') _ ltac:(subst hi'; lia) E). exact E.
  Qed.
End Cover.
