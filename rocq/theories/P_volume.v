(** P_volume.v -- proofs about volume profiles: value area and buckets. *)
From Verif Require Import Base M_logic M_bars M_footprint M_features M_volume.
From Verif Require Import S_footprint S_features S_volume P_footprint P_weights P_features.
Open Scope Q_scope.

(** ** Value area *)
Lemma ssum_two f a : ssum f a (a + 2) == f a + f (S a).
Proof.
  replace (a + 2)%nat with (S (S a)) by lia.
  rewrite ssum_cons by lia. rewrite ssum_cons by lia. rewrite ssum_nil by lia. ring.
Qed.
Lemma ssum_one f a : ssum f a (S a) == f a.
Proof. rewrite ssum_cons by lia. rewrite ssum_nil by lia. ring. Qed.

Section VA.
  Variables (lv : list Z) (vols : list Q) (thr : Q).
  Let v := at_ vols.
  Let n := length vols.
  Hypothesis Hlen : length lv = n.
  Hypothesis Hnn : forall i, (i < n)%nat -> 0 <= v i.
  Hypothesis Hthr : thr <= ssum v 0 n.

  Lemma pair_up_next up none hi : Z.of_nat (S hi) = up -> (S hi < n)%nat ->
    pair_up vols up none == next_up v n hi.
  Proof.
    intros <- H. unfold pair_up, next_up. fold n.
    rewrite (proj2 (Z.ltb_lt _ _)) by lia.
    destruct (Z.ltb_spec (Z.of_nat (S hi) + 1) (Z.of_nat n)) as [K|K].
    - rewrite !zget_nonneg by lia. replace (Nat.min (hi + 3) n) with (S hi + 2)%nat by lia.
      rewrite ssum_two. rewrite Nat2Z.id.
      replace (Z.to_nat (Z.of_nat (S hi) + 1)) with (S (S hi)) by lia. reflexivity.
    - rewrite !zget_nonneg by lia. replace (Nat.min (hi + 3) n) with (S (S hi)) by lia.
      rewrite ssum_one. rewrite Nat2Z.id. reflexivity.
  Qed.
  Lemma pair_dn_next dn none lo : (Z.of_nat lo - 1 = dn)%Z -> (0 < lo)%nat ->
    pair_dn vols dn none == next_dn v lo.
  Proof.
    intros <- H. unfold pair_dn, next_dn.
    rewrite (proj2 (Z.leb_le _ _)) by lia.
    destruct (Z.leb_spec 0 (Z.of_nat lo - 1 - 1)) as [K|K].
    - rewrite !zget_nonneg by lia.
      replace (Z.to_nat (Z.of_nat lo - 1)) with (S (lo - 2)) by lia.
      replace (Z.to_nat (Z.of_nat lo - 1 - 1)) with (lo - 2)%nat by lia.
      pose proof (ssum_two v (lo - 2)) as E. replace (lo - 2 + 2)%nat with lo in E by lia.
      rewrite E. unfold v, at_. ring.
    - rewrite !zget_nonneg by lia.
      replace (Z.to_nat (Z.of_nat lo - 1)) with (lo - 2)%nat by lia.
      pose proof (ssum_one v (lo - 2)) as E. replace (S (lo - 2)) with lo in E by lia.
      rewrite E. reflexivity.
  Qed.
  Lemma next_up_nonneg hi : 0 <= next_up v n hi.
  Proof. apply ssum_nonneg. intros i Hi. apply Hnn. lia. Qed.
  Lemma next_dn_nonneg lo : (lo <= n)%nat -> 0 <= next_dn v lo.
  Proof. intro. apply ssum_nonneg. intros i Hi. apply Hnn. lia. Qed.

  Definition upR (s : va_state) (hi : nat) : Prop :=
    (hi < n)%nat /\ va_hva s = nth hi lv 0%Z /\
    ((va_up s = Z.of_nat (S hi) /\ (S hi < n)%nat /\ va_cu s == next_up v n hi) \/
     ((Z.of_nat n <= va_up s)%Z /\ S hi = n /\ (va_cu s == 0 \/ va_cu s == -(1)))).
  Definition dnR (s : va_state) (lo : nat) : Prop :=
    va_lva s = nth lo lv 0%Z /\
    ((va_dn s = Z.of_nat lo - 1 /\ (0 < lo)%nat /\ va_cd s == next_dn v lo)%Z \/
     ((va_dn s < 0)%Z /\ lo = 0%nat /\ (va_cd s == 0 \/ va_cd s == -(1)))).
  Definition R (s : va_state) (lo hi : nat) : Prop :=
    (lo <= hi)%nat /\ upR s hi /\ dnR s lo /\ va_cum s == ssum v lo (S hi).

  (** State of the upper side after a step that consumed it. *)
  Lemma up_step s hi : upR s hi -> let hi' := Nat.min (hi + 2) (n - 1) in
    (hi' < n)%nat /\ zget 0%Z lv (Z.min (va_up s + 1) (Z.of_nat (length lv) - 1)) = nth hi' lv 0%Z /\
    ((va_up s + 2 = Z.of_nat (S hi') /\ (S hi' < n)%nat /\
      pair_up vols (va_up s + 2) (-(1)) == next_up v n hi')%Z \/
     ((Z.of_nat n <= va_up s + 2)%Z /\ S hi' = n /\ pair_up vols (va_up s + 2) (-(1)) == -(1))).
  Proof.
    intros [Hh [Hv [[Hu [Hlt Hc]]|[Hu [Hlt Hc]]]]]; cbv zeta.
    - split; [lia|]. split.
      + rewrite zget_nonneg by lia. f_equal. rewrite Hlen. lia.
      + destruct (Nat.lt_ge_cases (hi + 3) n) as [K|K].
        * left. split; [lia|]. split; [lia|]. apply pair_up_next; lia.
        * right. split; [lia|]. split; [lia|]. unfold pair_up. fold n. rewrite (proj2 (Z.ltb_ge _ _)) by lia. reflexivity.
    - split; [lia|]. split.
      + rewrite zget_nonneg by lia. f_equal. rewrite Hlen. lia.
      + right. split; [lia|]. split; [lia|]. unfold pair_up. fold n. rewrite (proj2 (Z.ltb_ge _ _)) by lia. reflexivity.
  Qed.
  Lemma dn_step s lo : dnR s lo -> (lo < n)%nat -> let lo' := (lo - 2)%nat in
    zget 0%Z lv (Z.max (va_dn s - 1) 0) = nth lo' lv 0%Z /\
    ((va_dn s - 2 = Z.of_nat lo' - 1 /\ (0 < lo')%nat /\
      pair_dn vols (va_dn s - 2) (-(1)) == next_dn v lo')%Z \/
     ((va_dn s - 2 < 0)%Z /\ lo' = 0%nat /\ pair_dn vols (va_dn s - 2) (-(1)) == -(1))).
  Proof.
    intros [Hv [[Hu [Hlt Hc]]|[Hu [Hlt Hc]]]] Hn; cbv zeta.
    - split.
      + rewrite zget_nonneg by lia. f_equal. lia.
      + destruct (Nat.lt_ge_cases 2 lo) as [K|K].
        * left. split; [lia|]. split; [lia|]. apply pair_dn_next; lia.
        * right. split; [lia|]. split; [lia|]. unfold pair_dn. rewrite (proj2 (Z.leb_gt _ _)) by lia. reflexivity.
    - split.
      + rewrite zget_nonneg by lia. f_equal. lia.
      + right. split; [lia|]. split; [lia|]. unfold pair_dn. rewrite (proj2 (Z.leb_gt _ _)) by lia. reflexivity.
  Qed.

  Lemma cum_up lo hi : (lo <= hi)%nat -> (hi < n)%nat ->
    ssum v lo (S hi) + next_up v n hi == ssum v lo (S (Nat.min (hi + 2) (n - 1))).
  Proof.
    intros H1 H2. unfold next_up.
    replace (S (Nat.min (hi + 2) (n - 1))) with (Nat.min (hi + 3) n) by lia.
    symmetry. apply ssum_split. lia.
  Qed.
  Lemma cum_dn lo hi : (lo <= hi)%nat ->
    ssum v lo (S hi) + next_dn v lo == ssum v (lo - 2) (S hi).
  Proof. intro H. unfold next_dn. rewrite Qplus_comm. symmetry. apply ssum_split. lia. Qed.

  Lemma va_loop_spec : forall fuel s lo hi, R s lo hi -> (n - (hi + 1 - lo) < fuel)%nat ->
    exists s' a b, va_loop lv vols thr fuel s = Some s' /\ value_area v n thr lo hi a b /\
      va_hva s' = nth b lv 0%Z /\ va_lva s' = nth a lv 0%Z /\ (a <= lo)%nat /\ (hi <= b < n)%nat.
  Proof.
    induction fuel as [|f IH]; intros s lo hi HR Hf; [lia|].
    destruct HR as [Hle [HU [HD Hcum]]].
    pose proof (up_step s hi HU) as US. cbv zeta in US.
    assert (Hhn : (hi < n)%nat) by (destruct HU; auto).
    pose proof (dn_step s lo HD ltac:(lia)) as DS. cbv zeta in DS.
    pose proof (next_up_nonneg hi) as NU. pose proof (next_dn_nonneg lo ltac:(lia)) as ND.
    pose proof (cum_up lo hi Hle Hhn) as CU. pose proof (cum_dn lo hi Hle) as CD.
    pose proof (cum_dn lo (Nat.min (hi + 2) (n - 1)) ltac:(lia)) as CUD.
    set (hi' := Nat.min (hi + 2) (n - 1)) in *.
    cbn [va_loop].
    destruct (Qltb_spec (va_cum s) thr) as [Hlt|Hge].
    2:{ exists s, lo, hi. split; [reflexivity|]. split; [apply va_done; lra|].
        destruct HU as [_ [HU _]], HD as [HD _]. repeat split; auto; lia. }
    assert (Hfull : ~ (lo = 0%nat /\ S hi = n)).
    { intros [E1 E2]. subst lo. rewrite E2 in Hcum. lra. }
    destruct HU as [_ [Hh [[Hu [Hun Hc]]|[Hu [Hun Hc]]]]];
    destruct HD as [Hl [[Hd [Hdn Hc']]|[Hd [Hdn Hc']]]].
    - (* both sides available *)
      destruct (Qltb_spec (va_cd s) (va_cu s)) as [C1|C1]; [|destruct (Qltb_spec (va_cu s) (va_cd s)) as [C2|C2]].
      + destruct (IH (mkVA (va_cum s + va_cu s) (zget 0%Z lv (Z.min (va_up s + 1) (Z.of_nat (length lv) - 1)))
           (va_lva s) (va_up s + 2) (va_dn s) (pair_up vols (va_up s + 2) (-(1))) (va_cd s)) lo hi') as [s' [a [b [E [V [P1 [P2 [P3 P4]]]]]]]].
        * destruct US as [U1 [U2 U3]]. split; [lia|]. split.
          { split; [lia|]. split; [exact U2|]. cbn. destruct U3 as [U3|[U3 [U4 U5]]]; [left; exact U3|right; auto]. }
          split; [split; [exact Hl|left; auto]|]. cbn. rewrite Hcum, Hc. exact CU.
        * subst hi'. lia.
        * exists s', a, b. split; [exact E|]. split.
          { apply va_grow_up; auto. lra. right. lra. }
          subst hi'. repeat split; auto; lia.
      + destruct (IH (mkVA (va_cum s + va_cd s) (va_hva s) (zget 0%Z lv (Z.max (va_dn s - 1) 0))
           (va_up s) (va_dn s - 2) (va_cu s) (pair_dn vols (va_dn s - 2) (-(1)))) (lo - 2)%nat hi) as [s' [a [b [E [V [P1 [P2 [P3 P4]]]]]]]].
        * destruct DS as [U2 U3]. split; [lia|]. split; [split; [lia|split; [exact Hh|left; auto]]|]. split.
          { split; [exact U2|]. cbn. destruct U3 as [U3|[U3 [U4 U5]]]; [left; exact U3|right; auto]. }
          cbn. rewrite Hcum, Hc'. exact CD.
        * lia.
        * exists s', a, b. split; [exact E|]. split.
          { apply va_grow_dn; auto. lra. right. lra. }
          repeat split; auto; lia.
      + destruct (Qeqb_spec (va_cd s) (-(1))) as [C3|C3]; [lra|]. cbn [negb].
        destruct (IH (mkVA (va_cum s + (va_cu s + va_cd s)) (zget 0%Z lv (Z.min (va_up s + 1) (Z.of_nat (length lv) - 1)))
           (zget 0%Z lv (Z.max (va_dn s - 1) 0)) (va_up s + 2) (va_dn s - 2) (pair_up vols (va_up s + 2) (-(1)))
           (pair_dn vols (va_dn s - 2) (-(1)))) (lo - 2)%nat hi') as [s' [a [b [E [V [P1 [P2 [P3 P4]]]]]]]].
        * destruct US as [U1 [U2 U3]]. destruct DS as [D2 D3]. split; [lia|]. split.
          { split; [lia|]. split; [exact U2|]. cbn. destruct U3 as [U3|[U3 [U4 U5]]]; [left; exact U3|right; auto]. }
          split.
          { split; [exact D2|]. cbn. destruct D3 as [U4|[U4 [U5 U6]]]; [left; exact U4|right; auto]. }
          cbn [va_cum]. lra.
        * subst hi'. lia.
        * exists s', a, b. split; [exact E|]. split.
          { apply va_grow_both; auto; lra. }
          subst hi'. repeat split; auto; lia.
    - (* lower side used up *)
      assert (C1 : va_cd s < va_cu s \/ va_cd s == va_cu s /\ va_cd s == 0) by (destruct Hc'; lra).
      destruct (Qltb_spec (va_cd s) (va_cu s)) as [C2|C2].
      + destruct (IH (mkVA (va_cum s + va_cu s) (zget 0%Z lv (Z.min (va_up s + 1) (Z.of_nat (length lv) - 1)))
           (va_lva s) (va_up s + 2) (va_dn s) (pair_up vols (va_up s + 2) (-(1))) (va_cd s)) lo hi') as [s' [a [b [E [V [P1 [P2 [P3 P4]]]]]]]].
        * destruct US as [U1 [U2 U3]]. split; [lia|]. split.
          { split; [lia|]. split; [exact U2|]. cbn. destruct U3 as [U3|[U3 [U4 U5]]]; [left; exact U3|right; auto]. }
          split; [split; [exact Hl|right; auto]|]. cbn. rewrite Hcum, Hc. exact CU.
        * subst hi'. lia.
        * exists s', a, b. split; [exact E|]. split.
          { apply va_grow_up; auto. lra. }
          subst hi'. repeat split; auto; lia.
      + destruct C1 as [C1|[C1 C3]]; [lra|].
        destruct (Qltb_spec (va_cu s) (va_cd s)) as [C4|C4]; [lra|].
        destruct (Qeqb_spec (va_cd s) (-(1))) as [C5|C5]; [lra|]. cbn [negb].
        destruct (IH (mkVA (va_cum s + (va_cu s + va_cd s)) (zget 0%Z lv (Z.min (va_up s + 1) (Z.of_nat (length lv) - 1)))
           (zget 0%Z lv (Z.max (va_dn s - 1) 0)) (va_up s + 2) (va_dn s - 2) (pair_up vols (va_up s + 2) (-(1)))
           (pair_dn vols (va_dn s - 2) (-(1)))) lo hi') as [s' [a [b [E [V [P1 [P2 [P3 P4]]]]]]]].
        * destruct US as [U1 [U2 U3]]. destruct DS as [D2 D3]. replace (lo - 2)%nat with lo in * by lia.
          split; [lia|]. split.
          { split; [lia|]. split; [exact U2|]. cbn. destruct U3 as [U3|[U3 [U4 U5]]]; [left; exact U3|right; auto]. }
          split.
          { split; [exact D2|]. cbn. destruct D3 as [U4|[U4 [U5 U6]]]; [left; exact U4|right; auto]. }
          cbn [va_cum]. lra.
        * subst hi'. lia.
        * exists s', a, b. split; [exact E|]. split.
          { apply va_grow_up; auto; lra. }
          subst hi'. repeat split; auto; lia.
    - (* upper side used up *)
      assert (C1 : va_cu s < va_cd s \/ va_cd s == va_cu s /\ va_cd s == 0) by (destruct Hc; lra).
      destruct (Qltb_spec (va_cd s) (va_cu s)) as [C2|C2]; [lra|].
      destruct (Qltb_spec (va_cu s) (va_cd s)) as [C4|C4].
      + destruct (IH (mkVA (va_cum s + va_cd s) (va_hva s) (zget 0%Z lv (Z.max (va_dn s - 1) 0))
           (va_up s) (va_dn s - 2) (va_cu s) (pair_dn vols (va_dn s - 2) (-(1)))) (lo - 2)%nat hi) as [s' [a [b [E [V [P1 [P2 [P3 P4]]]]]]]].
        * destruct DS as [U2 U3]. split; [lia|]. split; [split; [lia|split; [exact Hh|right; auto]]|]. split.
          { split; [exact U2|]. cbn. destruct U3 as [U3|[U3 [U4 U5]]]; [left; exact U3|right; auto]. }
          cbn. rewrite Hcum, Hc'. exact CD.
        * lia.
        * exists s', a, b. split; [exact E|]. split.
          { apply va_grow_dn; auto. lra. }
          repeat split; auto; lia.
      + destruct C1 as [C1|[C1 C3]]; [lra|].
        destruct (Qeqb_spec (va_cd s) (-(1))) as [C5|C5]; [lra|]. cbn [negb].
        destruct (IH (mkVA (va_cum s + (va_cu s + va_cd s)) (zget 0%Z lv (Z.min (va_up s + 1) (Z.of_nat (length lv) - 1)))
           (zget 0%Z lv (Z.max (va_dn s - 1) 0)) (va_up s + 2) (va_dn s - 2) (pair_up vols (va_up s + 2) (-(1)))
           (pair_dn vols (va_dn s - 2) (-(1)))) (lo - 2)%nat hi) as [s' [a [b [E [V [P1 [P2 [P3 P4]]]]]]]].
        * destruct US as [U1 [U2 U3]]. destruct DS as [D2 D3].
          replace hi' with hi in * by (subst hi'; lia).
          split; [lia|]. split.
          { split; [lia|]. split; [exact U2|]. cbn. destruct U3 as [U3|[U3 [U4 U5]]]; [left; exact U3|right; auto]. }
          split.
          { split; [exact D2|]. cbn. destruct D3 as [U4|[U4 [U5 U6]]]; [left; exact U4|right; auto]. }
          cbn [va_cum]. lra.
        * lia.
        * exists s', a, b. split; [exact E|]. split.
          { apply va_grow_dn; auto; lra. }
          repeat split; auto; lia.
    - exfalso. apply Hfull. auto.
  Qed.

  Lemma va_init_R : vols <> [] -> R (va_init lv vols) (argmax vols) (argmax vols).
  Proof.
    intro Hne. destruct (argmax_spec vols Hne) as [Ha _]. fold n in Ha. set (p := argmax vols) in *.
    unfold R, va_init. cbv zeta. fold p. split; [lia|]. split; [|split].
    - unfold upR. cbn. split; [lia|]. split; [reflexivity|].
      destruct (Nat.lt_ge_cases (S p) n) as [K|K].
      + left. split; [lia|]. split; [lia|]. apply pair_up_next; lia.
      + right. split; [lia|]. split; [lia|]. left. unfold pair_up. fold n. rewrite (proj2 (Z.ltb_ge _ _)) by lia. reflexivity.
    - unfold dnR. cbn. split; [reflexivity|].
      destruct (Nat.lt_ge_cases 0 p) as [K|K].
      + left. split; [lia|]. split; [lia|]. apply pair_dn_next; lia.
      + right. split; [lia|]. split; [lia|]. left. unfold pair_dn. rewrite (proj2 (Z.leb_gt _ _)) by lia. reflexivity.
    - cbn. symmetry. apply ssum_one.
  Qed.
End VA.

Lemma qsum_ssum l : qsum l == ssum (at_ l) 0 (length l).
Proof.
  unfold ssum. rewrite Nat.sub_0_r. unfold at_. apply eq_subrelation; [typeclasses eauto|].
  f_equal. induction l as [|x l IH]; [reflexivity|]. cbn [length seq map nth]. f_equal.
  rewrite <- seq_shift, map_map. exact IH.
Qed.
Lemma value_area_share v n thr lo hi a b : value_area v n thr lo hi a b -> thr <= ssum v a (S b).
Proof. intro H. induction H; auto. Qed.
Lemma value_area_stop v n thr lo hi a b : value_area v n thr lo hi a b -> (lo <= hi < n)%nat ->
  (a = lo /\ b = hi) <-> thr <= ssum v lo (S hi).
Proof.
  intros H Hl. split.
  - intros [-> ->]. eapply value_area_share; eauto.
  - intro K. inversion H; subst; auto; lra.
Qed.

Lemma poc_area lv vols pct : vols <> [] -> length lv = length vols ->
  (forall i, (i < length vols)%nat -> 0 <= nth i vols 0) -> 0 <= pct <= 100 ->
  exists p a b, comp_poc_hva_lva lv vols pct = Ok (Some (nth p lv 0%Z, nth b lv 0%Z, nth a lv 0%Z)) /\
    first_max (at_ vols) (length vols) p /\
    value_area (at_ vols) (length vols) (qsum vols * (pct / 100)) p p a b /\
    (a <= p <= b)%nat /\ (b < length vols)%nat.
Proof.
  intros Hne Hlen Hnn Hp.
  destruct (argmax_spec vols Hne) as [Ha [Hmax Hfirst]].
  assert (Hthr : qsum vols * (pct / 100) <= ssum (at_ vols) 0 (length vols)).
  { rewrite <- qsum_ssum.
    assert (0 <= qsum vols).
    { apply qsum_nonneg. intros x Hx. apply (In_nth _ _ 0) in Hx. destruct Hx as [i [Hi <-]]. auto. }
    setoid_replace (qsum vols) with (qsum vols * 1) at 2 by ring.
    rewrite !(Qmult_comm (qsum vols)). apply Qmult_le_compat_r; [|auto].
    apply Qle_shift_div_r; lra. }
  destruct (va_loop_spec lv vols (qsum vols * (pct / 100)) Hlen Hnn Hthr (S (length vols))
              (va_init lv vols) (argmax vols) (argmax vols)) as [s [a [b [E [V [H1 [H2 [H3 H4]]]]]]]].
  { apply va_init_R; auto. }
  { lia. }
  exists (argmax vols), a, b. split.
  - unfold comp_poc_hva_lva. destruct vols as [|x l]; [congruence|]. rewrite E, H1, H2. reflexivity.
  - split; [split; auto|]. split; [exact V|]. lia.
Qed.
