(** P_profilef.v -- proofs about volume profiles in float arithmetic. *)
From Verif Require Import Base M_logic M_bars M_footprint M_features M_volume M_float M_float11.
From Verif Require Import S_footprint S_features S_volume S_float S_profilef P_footprint P_weights P_features P_volume P_volume2 P_volume3.
From Verif Require Import P_float P_float5.
Open Scope Q_scope.

Section VAF.
  Variables (lv : list Z) (vols : list Q) (thr : Q).
  Let v := at_ vols.
  Let n := length vols.
  Hypothesis Hlen : length lv = n.
  Hypothesis Hnn : forall i, (i < n)%nat -> 0 <= v i.

  Lemma pair_up_f_next up none hi : Z.of_nat (S hi) = up -> (S hi < n)%nat -> pair_up_f vols up none = next_up_f v n hi.
  Proof.
    intros <- H. unfold pair_up_f, next_up_f. fold n. rewrite (proj2 (Z.ltb_lt _ _)) by lia.
    destruct (Z.ltb_spec (Z.of_nat (S hi) + 1) (Z.of_nat n)) as [K|K], (Nat.ltb_spec (S (S hi)) n) as [K2|K2]; try lia.
    - rewrite !zget_nonneg by lia. rewrite Nat2Z.id. replace (Z.to_nat (Z.of_nat (S hi) + 1)) with (S (S hi)) by lia. reflexivity.
    - rewrite !zget_nonneg by lia. rewrite Nat2Z.id. reflexivity.
  Qed.
  Lemma pair_dn_f_next dn none lo : (Z.of_nat lo - 1 = dn)%Z -> (0 < lo)%nat -> pair_dn_f vols dn none = next_dn_f v lo.
  Proof.
    intros <- H. unfold pair_dn_f, next_dn_f. rewrite (proj2 (Z.leb_le _ _)) by lia.
    destruct (Z.leb_spec 0 (Z.of_nat lo - 1 - 1)) as [K|K], (Nat.ltb_spec 1 lo) as [K2|K2]; try lia.
    - rewrite !zget_nonneg by lia. replace (Z.to_nat (Z.of_nat lo - 1)) with (lo - 1)%nat by lia.
      replace (Z.to_nat (Z.of_nat lo - 1 - 1)) with (lo - 2)%nat by lia. reflexivity.
    - rewrite !zget_nonneg by lia. replace (Z.to_nat (Z.of_nat lo - 1)) with (lo - 1)%nat by lia. reflexivity.
  Qed.
  Lemma next_up_f_nonneg hi : (S hi < n)%nat -> 0 <= next_up_f v n hi.
  Proof.
    intro H. unfold next_up_f. pose proof (Hnn (S hi) H). destruct (Nat.ltb_spec (S (S hi)) n) as [K|K]; [|auto].
    pose proof (Hnn (S (S hi)) K). apply r53_nonneg. lra.
  Qed.
  Lemma next_dn_f_nonneg lo : (0 < lo <= n)%nat -> 0 <= next_dn_f v lo.
  Proof.
    intro H. unfold next_dn_f. pose proof (Hnn (lo - 1)%nat ltac:(lia)). destruct (Nat.ltb_spec 1 lo) as [K|K]; [|auto].
    pose proof (Hnn (lo - 2)%nat ltac:(lia)). apply r53_nonneg. lra.
  Qed.

  Definition upF (s : va_state) (hi : nat) : Prop :=
    (hi < n)%nat /\ va_hva s = nth hi lv 0%Z /\
    ((va_up s = Z.of_nat (S hi) /\ (S hi < n)%nat /\ va_cu s = next_up_f v n hi) \/
     ((Z.of_nat n <= va_up s)%Z /\ S hi = n /\ (va_cu s = 0 \/ va_cu s = -(1)))).
  Definition dnF (s : va_state) (lo : nat) : Prop :=
    va_lva s = nth lo lv 0%Z /\
    ((va_dn s = Z.of_nat lo - 1 /\ (0 < lo)%nat /\ va_cd s = next_dn_f v lo)%Z \/
     ((va_dn s < 0)%Z /\ lo = 0%nat /\ (va_cd s = 0 \/ va_cd s = -(1)))).
  Definition RF (s : va_state) (lo hi : nat) : Prop := (lo <= hi)%nat /\ upF s hi /\ dnF s lo.
  (** Idle iterations that may still come once a side is used up. *)
  Definition idle (s : va_state) : nat := ((if Qeqb (va_cu s) (-(1)) then 0 else 1) + (if Qeqb (va_cd s) (-(1)) then 0 else 1))%nat.

  Lemma up_step_f s hi : upF s hi -> let hi' := Nat.min (hi + 2) (n - 1) in
    (hi' < n)%nat /\ zget 0%Z lv (Z.min (va_up s + 1) (Z.of_nat (length lv) - 1)) = nth hi' lv 0%Z /\
    ((va_up s + 2 = Z.of_nat (S hi') /\ (S hi' < n)%nat /\ pair_up_f vols (va_up s + 2) (-(1)) = next_up_f v n hi')%Z \/
     ((Z.of_nat n <= va_up s + 2)%Z /\ S hi' = n /\ pair_up_f vols (va_up s + 2) (-(1)) = -(1))).
  Proof.
    intros [Hh [Hv [[Hu [Hlt Hc]]|[Hu [Hlt Hc]]]]]; cbv zeta.
    - split; [lia|]. split.
      + rewrite zget_nonneg by lia. f_equal. rewrite Hlen. lia.
      + destruct (Nat.lt_ge_cases (hi + 3) n) as [K|K].
        * left. split; [lia|]. split; [lia|]. apply pair_up_f_next; lia.
        * right. split; [lia|]. split; [lia|]. unfold pair_up_f. fold n. rewrite (proj2 (Z.ltb_ge _ _)) by lia. reflexivity.
    - split; [lia|]. split.
      + rewrite zget_nonneg by lia. f_equal. rewrite Hlen. lia.
      + right. split; [lia|]. split; [lia|]. unfold pair_up_f. fold n. rewrite (proj2 (Z.ltb_ge _ _)) by lia. reflexivity.
  Qed.
  Lemma dn_step_f s lo : dnF s lo -> (lo < n)%nat -> let lo' := (lo - 2)%nat in
    zget 0%Z lv (Z.max (va_dn s - 1) 0) = nth lo' lv 0%Z /\
    ((va_dn s - 2 = Z.of_nat lo' - 1 /\ (0 < lo')%nat /\ pair_dn_f vols (va_dn s - 2) (-(1)) = next_dn_f v lo')%Z \/
     ((va_dn s - 2 < 0)%Z /\ lo' = 0%nat /\ pair_dn_f vols (va_dn s - 2) (-(1)) = -(1))).
  Proof.
    intros [Hv [[Hu [Hlt Hc]]|[Hu [Hlt Hc]]]] Hn; cbv zeta.
    - split.
      + rewrite zget_nonneg by lia. f_equal. lia.
      + destruct (Nat.lt_ge_cases 2 lo) as [K|K].
        * left. split; [lia|]. split; [lia|]. apply pair_dn_f_next; lia.
        * right. split; [lia|]. split; [lia|]. unfold pair_dn_f. rewrite (proj2 (Z.leb_gt _ _)) by lia. reflexivity.
    - split.
      + rewrite zget_nonneg by lia. f_equal. lia.
      + right. split; [lia|]. split; [lia|]. unfold pair_dn_f. rewrite (proj2 (Z.leb_gt _ _)) by lia. reflexivity.
  Qed.
  (** The three successor states satisfy the invariant again. *)
  Lemma succ_up s lo hi c : RF s lo hi ->
    RF (mkVA c (zget 0%Z lv (Z.min (va_up s + 1) (Z.of_nat (length lv) - 1))) (va_lva s) (va_up s + 2) (va_dn s)
          (pair_up_f vols (va_up s + 2) (-(1))) (va_cd s)) lo (Nat.min (hi + 2) (n - 1)).
  Proof.
    intros [Hle [HU HD]]. pose proof (up_step_f s hi HU) as US. cbv zeta in US. destruct US as [U1 [U2 U3]].
    assert (hi < n)%nat by apply HU.
    split; [lia|]. split; [|exact HD]. split; [lia|]. split; [exact U2|]. cbn.
    destruct U3 as [U3|[U3 [U4 U5]]]; [left; exact U3|right; auto].
  Qed.
  Lemma succ_dn s lo hi c : RF s lo hi ->
    RF (mkVA c (va_hva s) (zget 0%Z lv (Z.max (va_dn s - 1) 0)) (va_up s) (va_dn s - 2) (va_cu s)
          (pair_dn_f vols (va_dn s - 2) (-(1)))) (lo - 2) hi.
  Proof.
    intros [Hle [HU HD]]. assert (hi < n)%nat by apply HU. pose proof (dn_step_f s lo HD ltac:(lia)) as DS. cbv zeta in DS.
    destruct DS as [U2 U3]. split; [lia|]. split; [exact HU|]. split; [exact U2|]. cbn.
    destruct U3 as [U3|[U3 [U4 U5]]]; [left; exact U3|right; auto].
  Qed.
  Lemma succ_both s lo hi c : RF s lo hi ->
    RF (mkVA c (zget 0%Z lv (Z.min (va_up s + 1) (Z.of_nat (length lv) - 1))) (zget 0%Z lv (Z.max (va_dn s - 1) 0))
          (va_up s + 2) (va_dn s - 2) (pair_up_f vols (va_up s + 2) (-(1))) (pair_dn_f vols (va_dn s - 2) (-(1))))
       (lo - 2) (Nat.min (hi + 2) (n - 1)).
  Proof.
    intros [Hle [HU HD]]. assert (hi < n)%nat by apply HU. pose proof (up_step_f s hi HU) as US. cbv zeta in US.
    destruct US as [U1 [U2 U3]]. pose proof (dn_step_f s lo HD ltac:(lia)) as DS. cbv zeta in DS. destruct DS as [D2 D3].
    split; [lia|]. split.
    - split; [lia|]. split; [exact U2|]. cbn. destruct U3 as [U3|[U3 [U4 U5]]]; [left; exact U3|right; auto].
    - split; [exact D2|]. cbn. destruct D3 as [U4|[U4 [U5 U6]]]; [left; exact U4|right; auto].
  Qed.

  Definition goal (s : va_state) (lo hi fuel : nat) : Prop :=
    exists s' a b, va_loop_f lv vols thr fuel s = Some s' /\ value_area_f v n thr (va_cum s) lo hi a b /\
      va_hva s' = nth b lv 0%Z /\ va_lva s' = nth a lv 0%Z /\ (a <= lo)%nat /\ (hi <= b < n)%nat.

  (** Nothing left: the remaining idle iterations leave the interval as it is. *)
  Lemma va_loop_idle : forall fuel s hi, RF s 0 hi -> S hi = n -> (idle s < fuel)%nat ->
    exists s', va_loop_f lv vols thr fuel s = Some s' /\ va_hva s' = nth hi lv 0%Z /\ va_lva s' = nth 0 lv 0%Z.
  Proof.
    induction fuel as [|f IH]; intros s hi HR Hn Hf; [lia|].
    assert (Hm : Nat.min (hi + 2) (n - 1) = hi) by lia.
    pose proof (fun c => succ_up s 0 hi c HR) as SU. pose proof (fun c => succ_dn s 0 hi c HR) as SD.
    pose proof (fun c => succ_both s 0 hi c HR) as SB. rewrite Hm in SU, SB. change (0 - 2)%nat with 0%nat in SD, SB.
    destruct HR as [Hle [HU HD]]. destruct HU as [_ [Hh [[Hu [Hun Hc]]|[Hu [Hun Hc]]]]]; [lia|].
    destruct HD as [Hl [[Hd [Hdn Hc']]|[Hd [Hdn Hc']]]]; [lia|].
    assert (PU : pair_up_f vols (va_up s + 2) (-(1)) = -(1)).
    { unfold pair_up_f. fold n. rewrite (proj2 (Z.ltb_ge _ _)) by lia. reflexivity. }
    assert (PD : pair_dn_f vols (va_dn s - 2) (-(1)) = -(1)).
    { unfold pair_dn_f. rewrite (proj2 (Z.leb_gt _ _)) by lia. reflexivity. }
    unfold idle in Hf. cbn [va_loop_f]. destruct (Qltb (va_cum s) thr).
    2:{ exists s. auto. }
    assert (I0 : forall x, x = 0 -> Qeqb x (-(1)) = false) by (intros x ->; reflexivity).
    assert (I1 : forall x, x = -(1) -> Qeqb x (-(1)) = true) by (intros x ->; reflexivity).
    destruct Hc as [Hc|Hc], Hc' as [Hc'|Hc'];
      [rewrite (I0 _ Hc), (I0 _ Hc') in Hf|rewrite (I0 _ Hc), (I1 _ Hc') in Hf|rewrite (I1 _ Hc), (I0 _ Hc') in Hf|].
    - replace (Qltb (va_cd s) (va_cu s)) with false by (rewrite Hc, Hc'; reflexivity).
      replace (Qltb (va_cu s) (va_cd s)) with false by (rewrite Hc, Hc'; reflexivity). rewrite (I0 _ Hc'). cbn [negb].
      apply IH; [apply SB|auto|]. unfold idle. cbn [va_cu va_cd]. rewrite PU, PD. change (Qeqb (-(1)) (-(1))) with true. cbv iota in Hf |- *. lia.
    - replace (Qltb (va_cd s) (va_cu s)) with true by (rewrite Hc, Hc'; reflexivity).
      apply IH; [apply SU|auto|]. unfold idle. cbn [va_cu va_cd]. rewrite PU, (I1 _ Hc'). change (Qeqb (-(1)) (-(1))) with true. cbv iota in Hf |- *. lia.
    - replace (Qltb (va_cd s) (va_cu s)) with false by (rewrite Hc, Hc'; reflexivity).
      replace (Qltb (va_cu s) (va_cd s)) with true by (rewrite Hc, Hc'; reflexivity).
      apply IH; [apply SD|auto|]. unfold idle. cbn [va_cu va_cd]. rewrite PD, (I1 _ Hc). change (Qeqb (-(1)) (-(1))) with true. cbv iota in Hf |- *. lia.
    - replace (Qltb (va_cd s) (va_cu s)) with false by (rewrite Hc, Hc'; reflexivity).
      replace (Qltb (va_cu s) (va_cd s)) with false by (rewrite Hc, Hc'; reflexivity).
      rewrite (I1 _ Hc'). cbn [negb]. exists s. auto.
  Qed.
  Lemma idle_le s : (idle s <= 2)%nat.
  Proof. unfold idle. destruct (Qeqb _ _), (Qeqb _ _); lia. Qed.

  Lemma va_loop_f_spec : forall fuel s lo hi, RF s lo hi -> (n - (hi + 1 - lo) + 2 < fuel)%nat -> goal s lo hi fuel.
  Proof.
    induction fuel as [|f IH]; intros s lo hi HR Hf; [lia|].
    assert (Hhn : (hi < n)%nat) by apply HR.
    destruct (Nat.eq_dec (hi + 1 - lo) n) as [Full|NFull].
    { assert (lo = 0%nat) by lia. subst lo. pose proof (idle_le s).
      destruct (va_loop_idle (S f) s hi HR ltac:(lia) ltac:(lia)) as [s' [E [E1 E2]]].
      exists s', 0%nat, hi. split; [exact E|]. split; [apply vf_all; lia|]. repeat split; auto; lia. }
    pose proof (fun c => succ_up s lo hi c HR) as SU. pose proof (fun c => succ_dn s lo hi c HR) as SD.
    pose proof (fun c => succ_both s lo hi c HR) as SB.
    destruct HR as [Hle [HU HD]].
    set (hi' := Nat.min (hi + 2) (n - 1)) in *.
    unfold goal. cbn [va_loop_f].
    destruct (Base.Qltb_spec (va_cum s) thr) as [Hlt|Hge].
    2:{ exists s, lo, hi. split; [reflexivity|]. split; [now apply vf_done|].
        destruct HU as [_ [HU _]], HD as [HD _]. repeat split; auto; lia. }
    destruct HU as [_ [Hh [[Hu [Hun Hc]]|[Hu [Hun Hc]]]]];
    destruct HD as [Hl [[Hd [Hdn Hc']]|[Hd [Hdn Hc']]]].
    - pose proof (next_up_f_nonneg hi Hun) as NU. pose proof (next_dn_f_nonneg lo ltac:(lia)) as ND.
      destruct (Base.Qltb_spec (va_cd s) (va_cu s)) as [C1|C1]; [|destruct (Base.Qltb_spec (va_cu s) (va_cd s)) as [C2|C2]].
      + destruct (IH _ _ _ (SU (r53 (va_cum s + va_cu s))) ltac:(subst hi'; lia)) as [s' [a [b [E [V [P1 [P2 [P3 P4]]]]]]]].
        exists s', a, b. split; [exact E|]. split.
        { eapply vf_up; eauto; [right; rewrite <- Hc, <- Hc'; exact C1|]. cbn [va_cum]. rewrite Hc. reflexivity. }
        subst hi'. repeat split; auto; lia.
      + destruct (IH _ _ _ (SD (r53 (va_cum s + va_cd s))) ltac:(lia)) as [s' [a [b [E [V [P1 [P2 [P3 P4]]]]]]]].
        exists s', a, b. split; [exact E|]. split.
        { eapply vf_dn; eauto; [right; rewrite <- Hc, <- Hc'; exact C2|]. cbn [va_cum]. rewrite Hc'. reflexivity. }
        repeat split; auto; lia.
      + destruct (Qeqb_spec (va_cd s) (-(1))) as [C3|C3]; [rewrite Hc' in C3; lra|]. cbn [negb].
        destruct (IH _ _ _ (SB (r53 (va_cum s + r53 (va_cu s + va_cd s)))) ltac:(subst hi'; lia)) as [s' [a [b [E [V [P1 [P2 [P3 P4]]]]]]]].
        exists s', a, b. split; [exact E|]. split.
        { eapply vf_both; eauto; [rewrite <- Hc, <- Hc'; lra|]. cbn [va_cum]. rewrite Hc, Hc'. reflexivity. }
        subst hi'. repeat split; auto; lia.
    - pose proof (next_up_f_nonneg hi Hun) as NU.
      destruct (Base.Qltb_spec (va_cd s) (va_cu s)) as [C2|C2].
      + destruct (IH _ _ _ (SU (r53 (va_cum s + va_cu s))) ltac:(subst hi'; lia)) as [s' [a [b [E [V [P1 [P2 [P3 P4]]]]]]]].
        exists s', a, b. split; [exact E|]. split.
        { eapply vf_up; eauto. cbn [va_cum]. rewrite Hc. reflexivity. }
        subst hi'. repeat split; auto; lia.
      + assert (C3 : va_cd s == 0 /\ va_cu s == 0) by (destruct Hc' as [Hc'|Hc']; rewrite Hc, Hc' in *; lra).
        destruct C3 as [C3 C4].
        destruct (Base.Qltb_spec (va_cu s) (va_cd s)) as [C5|C5]; [lra|].
        destruct (Qeqb_spec (va_cd s) (-(1))) as [C6|C6]; [lra|]. cbn [negb].
        destruct (IH _ _ _ (SB (r53 (va_cum s + r53 (va_cu s + va_cd s)))) ltac:(subst hi'; lia)) as [s' [a [b [E [V [P1 [P2 [P3 P4]]]]]]]].
        exists s', a, b. split; [exact E|]. split.
        { replace (lo - 2)%nat with lo in V by lia. eapply vf_up; [exact Hlt|exact Hun|auto| |exact V]. cbn [va_cum].
          rewrite <- Hc. unfold r53. rewrite (rnd_0 53 (va_cu s + va_cd s)) by lra.
          rewrite (rnd_comp 53 (va_cum s + 0) (va_cum s + va_cu s)) by lra. reflexivity. }
        subst hi'. repeat split; auto; lia.
    - pose proof (next_dn_f_nonneg lo ltac:(lia)) as ND.
      destruct (Base.Qltb_spec (va_cd s) (va_cu s)) as [C2|C2]; [exfalso; destruct Hc as [Hc|Hc]; rewrite Hc, Hc' in *; lra|].
      destruct (Base.Qltb_spec (va_cu s) (va_cd s)) as [C4|C4].
      + destruct (IH _ _ _ (SD (r53 (va_cum s + va_cd s))) ltac:(lia)) as [s' [a [b [E [V [P1 [P2 [P3 P4]]]]]]]].
        exists s', a, b. split; [exact E|]. split.
        { eapply vf_dn; eauto. cbn [va_cum]. rewrite Hc'. reflexivity. }
        repeat split; auto; lia.
      + assert (C3 : va_cd s == 0 /\ va_cu s == 0) by (destruct Hc as [Hc|Hc]; rewrite Hc, Hc' in *; lra).
        destruct C3 as [C3 C5].
        destruct (Qeqb_spec (va_cd s) (-(1))) as [C6|C6]; [lra|]. cbn [negb].
        destruct (IH _ _ _ (SB (r53 (va_cum s + r53 (va_cu s + va_cd s)))) ltac:(subst hi'; lia)) as [s' [a [b [E [V [P1 [P2 [P3 P4]]]]]]]].
        exists s', a, b. split; [exact E|]. split.
        { replace hi' with hi in V by (subst hi'; lia). eapply vf_dn; [exact Hlt|exact Hdn|auto| |exact V]. cbn [va_cum].
          rewrite <- Hc'. unfold r53. rewrite (rnd_0 53 (va_cu s + va_cd s)) by lra.
          rewrite (rnd_comp 53 (va_cum s + 0) (va_cum s + va_cd s)) by lra. reflexivity. }
        subst hi'. repeat split; auto; lia.
    - lia.
  Qed.

  Lemma va_init_RF : vols <> [] -> RF (va_init_f lv vols) (argmax vols) (argmax vols).
  Proof.
    intro Hne. destruct (argmax_spec vols Hne) as [Ha _]. fold n in Ha. set (p := argmax vols) in *.
    unfold RF, va_init_f. cbv zeta. fold p. split; [lia|]. split.
    - unfold upF. cbn. split; [lia|]. split; [reflexivity|].
      destruct (Nat.lt_ge_cases (S p) n) as [K|K].
      + left. split; [lia|]. split; [lia|]. apply pair_up_f_next; lia.
      + right. split; [lia|]. split; [lia|]. left. unfold pair_up_f. fold n. rewrite (proj2 (Z.ltb_ge _ _)) by lia. reflexivity.
    - unfold dnF. cbn. split; [reflexivity|].
      destruct (Nat.lt_ge_cases 0 p) as [K|K].
      + left. split; [lia|]. split; [lia|]. apply pair_dn_f_next; lia.
      + right. split; [lia|]. split; [lia|]. left. unfold pair_dn_f. rewrite (proj2 (Z.leb_gt _ _)) by lia. reflexivity.
  Qed.
End VAF.

Lemma poc_area_f lv vols pct : vols <> [] -> length lv = length vols ->
  (forall i, (i < length vols)%nat -> 0 <= nth i vols 0) ->
  exists p a b, comp_poc_hva_lva_f lv vols pct = Ok (Some (nth p lv 0%Z, nth b lv 0%Z, nth a lv 0%Z)) /\
    first_max (at_ vols) (length vols) p /\
    value_area_f (at_ vols) (length vols) (va_thr_f vols pct) (nth p vols 0) p p a b /\
    (a <= p <= b)%nat /\ (b < length vols)%nat.
Proof.
  intros Hne Hlen Hnn. destruct (argmax_spec vols Hne) as [Ha [Hmax Hfirst]].
  destruct (va_loop_f_spec lv vols (va_thr_f vols pct) Hlen Hnn (length vols + 3) (va_init_f lv vols) (argmax vols) (argmax vols))
    as [s [a [b [E [V [H1 [H2 [H3 H4]]]]]]]].
  { apply va_init_RF; auto. }
  { lia. }
  exists (argmax vols), a, b. split.
  - unfold comp_poc_hva_lva_f. destruct vols as [|x l]; [congruence|]. rewrite E, H1, H2. reflexivity.
  - split; [split; auto|]. split; [exact V|]. lia.
Qed.
