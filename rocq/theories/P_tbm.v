(** P_tbm.v -- proofs about the triple barrier model. *)
From Verif Require Import Base M_logic M_tbm S_tbm P_time.
Open Scope Q_scope.

Section Tbm.
  Variable ln : Q -> Q.
  Variable rnd : Z -> Z.

  Section Scan.
    Variables (ts : list Z) (close : list Q) (e : nat) (side : Q) (mc : Z) (upper lower : ext).
    Let sr := signed_ret ln close e side.
    Let el := eligible rnd ts e mc.
    Definition hits (r : Q) : Prop := q_ge_ext r upper = true \/ q_le_ext r lower = true.
    Let scan := tbm_scan ln rnd ts close (nth e ts 0%Z) (ln (nth e close 0)) side mc upper lower.
    Definition up_at (j : nat) : Prop := el j /\ 0 < sr j /\ barrier_valid upper = true.
    Definition dn_at (j : nat) : Prop := el j /\ sr j < 0 /\ barrier_valid lower = true.
    Definition ratio (b : ext) (r : Q) : Q := match b with Fin q => r / q | _ => 0 end.

    Lemma ratio_max_spec m r b : barrier_valid b = true ->
      m <= ratio_max m r b /\ ratio b r <= ratio_max m r b /\
      (ratio_max m r b = m \/ ratio_max m r b = ratio b r).
    Proof.
      destruct b as [q| | |]; simpl; try discriminate. intros _.
      split; [apply pmax_l|]. split; [apply pmax_r|apply pmax_case].
    Qed.

    Record scan_ok (a n : nat) (ret mu ml : Q) (out : option nat * Q * Q * Q) : Prop := {
      so_end : match fst (fst (fst out)) with
        | Some k => (a <= k < a + n)%nat /\ el k /\ hits (sr k) /\ snd (fst (fst out)) = sr k /\
                    (forall j, (a <= j < k)%nat -> ~ (el j /\ hits (sr j)))
        | None => (forall j, (a <= j < a + n)%nat -> ~ (el j /\ hits (sr j))) /\
            ((exists k, (a <= k < a + n)%nat /\ el k /\ snd (fst (fst out)) = sr k /\
                 (forall j, (k < j < a + n)%nat -> ~ el j)) \/
             ((forall j, (a <= j < a + n)%nat -> ~ el j) /\ snd (fst (fst out)) = ret))
        end;
      so_up : let last := match fst (fst (fst out)) with Some k => k | None => (a + n - 1)%nat end in
        let m := snd (fst out) in
        mu <= m /\ (forall j, (a <= j <= last)%nat -> (j < a + n)%nat -> up_at j -> ratio upper (sr j) <= m) /\
        (m = mu \/ exists j, (a <= j <= last)%nat /\ (j < a + n)%nat /\ up_at j /\ m = ratio upper (sr j));
      so_dn : let last := match fst (fst (fst out)) with Some k => k | None => (a + n - 1)%nat end in
        let m := snd out in
        ml <= m /\ (forall j, (a <= j <= last)%nat -> (j < a + n)%nat -> dn_at j -> ratio lower (sr j) <= m) /\
        (m = ml \/ exists j, (a <= j <= last)%nat /\ (j < a + n)%nat /\ dn_at j /\ m = ratio lower (sr j))
    }.

    Lemma scan_spec n : forall a ret mu ml, scan_ok a n ret mu ml (scan (seq a n) ret mu ml).
    Proof.
      induction n as [|n IH]; intros a ret mu ml.
      - constructor; simpl; [split; [intros; lia|]; right; split; [intros; lia|reflexivity]| |].
        + split; [lra|]. split; [intros; lia|now left].
        + split; [lra|]. split; [intros; lia|now left].
      - assert (Esc : scan (seq a (S n)) ret mu ml =
          if (rnd (nth a ts 0%Z - nth e ts 0%Z) <? mc)%Z then scan (seq (S a) n) ret mu ml
          else
            let '(mu, ml) :=
              if (Qltb 0 (sr a) && barrier_valid upper)%bool then (ratio_max mu (sr a) upper, ml)
              else if (Qltb (sr a) 0 && barrier_valid lower)%bool then (mu, ratio_max ml (sr a) lower)
              else (mu, ml) in
            if q_ge_ext (sr a) upper then (Some a, sr a, mu, ml)
            else if q_le_ext (sr a) lower then (Some a, sr a, mu, ml)
            else scan (seq (S a) n) (sr a) mu ml) by reflexivity.
        rewrite Esc. clear Esc.
        destruct (Z.ltb_spec (rnd (nth a ts 0%Z - nth e ts 0%Z)) mc) as [Hlt|Hge].
        + (* not eligible *)
          assert (Hne : ~ el a) by (unfold el, eligible; lia).
          destruct (IH (S a) ret mu ml) as [H1 H2 H3].
          destruct (scan (seq (S a) n) ret mu ml) as [[[t r] m1] m2]. simpl in *.
          constructor; simpl.
          * destruct t as [k|].
            -- destruct H1 as [B [B1 [B2 [B3 B4]]]]. repeat split; auto; try lia.
               intros j Hj. destruct (Nat.eq_dec j a) as [->|]; [tauto|]. apply B4. lia.
            -- destruct H1 as [B1 B2]. split.
               ++ intros j Hj. destruct (Nat.eq_dec j a) as [->|]; [tauto|]. apply B1. lia.
               ++ destruct B2 as [[k [C1 [C2 [C3 C4]]]]|[C1 C2]].
                  ** left. exists k. repeat split; auto; try lia. intros j Hj. apply C4. lia.
                  ** right. split; [|assumption]. intros j Hj.
                     destruct (Nat.eq_dec j a) as [->|]; [assumption|]. apply C1. lia.
          * destruct H2 as [B1 [B2 B3]]. split; [assumption|]. split.
            -- intros j Hj Hj2 Hu. destruct (Nat.eq_dec j a) as [->|]; [destruct Hu; tauto|].
               apply B2; auto; destruct t; lia.
            -- destruct B3 as [->|[j [C1 [C2 [C3 C4]]]]]; [now left|right]. exists j.
               repeat split; auto; try lia; try apply C3. destruct t; lia.
          * destruct H3 as [B1 [B2 B3]]. split; [assumption|]. split.
            -- intros j Hj Hj2 Hu. destruct (Nat.eq_dec j a) as [->|]; [destruct Hu; tauto|].
               apply B2; auto; destruct t; lia.
            -- destruct B3 as [->|[j [C1 [C2 [C3 C4]]]]]; [now left|right]. exists j.
               repeat split; auto; try lia; try apply C3. destruct t; lia.
        + assert (Hel : el a) by (unfold el, eligible; lia).
          set (pr := if (Qltb 0 (sr a) && barrier_valid upper)%bool then (ratio_max mu (sr a) upper, ml)
              else if (Qltb (sr a) 0 && barrier_valid lower)%bool then (mu, ratio_max ml (sr a) lower)
              else (mu, ml)).
          assert (Hu : mu <= fst pr /\ (up_at a -> ratio upper (sr a) <= fst pr) /\
                       (fst pr = mu \/ (up_at a /\ fst pr = ratio upper (sr a)))).
          { unfold pr. destruct (Qltb_spec 0 (sr a)) as [Hp|Hp].
            - destruct (barrier_valid upper) eqn:Ev; cbn [andb].
              + destruct (ratio_max_spec mu (sr a) upper Ev) as [C1 [C2 C3]]. cbn [fst].
                split; [assumption|]. split; [auto|]. destruct C3 as [->| ->]; [now left|right].
                split; [|reflexivity]. split; [assumption|auto].
              + destruct (Qltb_spec (sr a) 0); cbn [andb].
                * destruct (barrier_valid lower); cbn [fst]; (split; [lra|]); (split; [|now left]);
                    intros [_ [_ Hx]]; congruence.
                * cbn [fst]; (split; [lra|]); (split; [|now left]);
                    intros [_ [_ Hx]]; congruence.
            - cbn [andb]. destruct (Qltb (sr a) 0 && barrier_valid lower)%bool; cbn [fst]; (split; [lra|]); (split; [|now left]);
                intros [_ [Hx _]]; lra. }
          assert (Hd : ml <= snd pr /\ (dn_at a -> ratio lower (sr a) <= snd pr) /\
                       (snd pr = ml \/ (dn_at a /\ snd pr = ratio lower (sr a)))).
          { unfold pr. destruct (Qltb_spec 0 (sr a)) as [Hp|Hp].
            - destruct (barrier_valid upper); cbn [andb].
              + cbn [snd]. split; [lra|]. split; [|now left]. intros [_ [Hx _]]. lra.
              + destruct (Qltb_spec (sr a) 0); [lra|]. cbn [andb]. cbn [snd].
                split; [lra|]. split; [|now left]. intros [_ [Hx _]]. lra.
            - cbn [andb]. destruct (Qltb_spec (sr a) 0) as [Hn|Hn].
              + destruct (barrier_valid lower) eqn:Ev; cbn [andb].
                * destruct (ratio_max_spec ml (sr a) lower Ev) as [C1 [C2 C3]]. cbn [snd].
                  split; [assumption|]. split; [auto|]. destruct C3 as [->| ->]; [now left|right].
                  split; [|reflexivity]. split; [assumption|auto].
                * cbn [snd]; (split; [lra|]); (split; [|now left]); intros [_ [_ Hx]]; congruence.
              + cbn [andb]. cbn [snd]. split; [lra|]. split; [|now left]. intros [_ [Hx _]]. lra. }
          replace (let '(mu0, ml0) := pr in
              if q_ge_ext (sr a) upper then (Some a, sr a, mu0, ml0)
              else if q_le_ext (sr a) lower then (Some a, sr a, mu0, ml0)
              else scan (seq (S a) n) (sr a) mu0 ml0)
            with (if (q_ge_ext (sr a) upper || q_le_ext (sr a) lower)%bool then (Some a, sr a, fst pr, snd pr)
              else scan (seq (S a) n) (sr a) (fst pr) (snd pr)).
          2:{ destruct pr as [m1 m2]. simpl. destruct (q_ge_ext (sr a) upper); [reflexivity|].
              destruct (q_le_ext (sr a) lower); reflexivity. }
          clearbody pr. destruct pr as [m1 m2]. cbn [fst snd] in *.
          destruct (q_ge_ext (sr a) upper || q_le_ext (sr a) lower)%bool eqn:Eh.
          * assert (Hh : hits (sr a)) by (unfold hits; apply orb_true_iff in Eh; tauto).
            constructor; simpl.
            -- repeat split; auto; try lia.
            -- destruct Hu as [U1 [U2 U3]]. split; [assumption|]. split.
               ++ intros j Hj _ Hx. assert (j = a) by lia. subst. auto.
               ++ destruct U3 as [->|[U3 ->]]; [now left|right]. exists a. repeat split; auto; try lia; apply U3.
            -- destruct Hd as [U1 [U2 U3]]. split; [assumption|]. split.
               ++ intros j Hj _ Hx. assert (j = a) by lia. subst. auto.
               ++ destruct U3 as [->|[U3 ->]]; [now left|right]. exists a. repeat split; auto; try lia; apply U3.
          * assert (Hh : ~ hits (sr a)) by (unfold hits; apply orb_false_iff in Eh; destruct Eh; intros [?|?]; congruence).
            destruct (IH (S a) (sr a) m1 m2) as [H1 H2 H3].
            destruct (scan (seq (S a) n) (sr a) m1 m2) as [[[t r] m1'] m2']. simpl in *.
            constructor; simpl.
            -- destruct t as [k|].
               ++ destruct H1 as [B [B1 [B2 [B3 B4]]]]. repeat split; auto; try lia.
                  intros j Hj. destruct (Nat.eq_dec j a) as [->|]; [tauto|]. apply B4. lia.
               ++ destruct H1 as [B1 B2]. split.
                  ** intros j Hj. destruct (Nat.eq_dec j a) as [->|]; [tauto|]. apply B1. lia.
                  ** destruct B2 as [[k [C1 [C2 [C3 C4]]]]|[C1 C2]].
                     --- left. exists k. repeat split; auto; try lia. intros j Hj. apply C4. lia.
                     --- left. exists a. repeat split; auto; try lia. intros j Hj. apply C1. lia.
            -- destruct H2 as [B1 [B2 B3]], Hu as [U1 [U2 U3]]. split; [lra|]. split.
               ++ intros j Hj Hj2 Hx. destruct (Nat.eq_dec j a) as [->|].
                  ** specialize (U2 Hx). lra.
                  ** apply B2; auto; destruct t; lia.
               ++ destruct B3 as [->|[j [C1 [C2 [C3 C4]]]]].
                  ** destruct U3 as [->|[U3 ->]]; [now left|right]. exists a. repeat split; try apply U3; try lia.
                     destruct t; [destruct H1|]; lia.
                  ** right. exists j. repeat split; auto; try lia; try apply C3. destruct t; lia.
            -- destruct H3 as [B1 [B2 B3]], Hd as [U1 [U2 U3]]. split; [lra|]. split.
               ++ intros j Hj Hj2 Hx. destruct (Nat.eq_dec j a) as [->|].
                  ** specialize (U2 Hx). lra.
                  ** apply B2; auto; destruct t; lia.
               ++ destruct B3 as [->|[j [C1 [C2 [C3 C4]]]]].
                  ** destruct U3 as [->|[U3 ->]]; [now left|right]. exists a. repeat split; try apply U3; try lia.
                     destruct t; [destruct H1|]; lia.
                  ** right. exists j. repeat split; auto; try lia; try apply C3. destruct t; lia.
    Qed.
  End Scan.
End Tbm.

(** ** The float64 conversion is monotone *)
Lemma rne_mono x y d : (0 < d)%Z -> (x <= y)%Z -> (rne_div x d <= rne_div y d)%Z.
Proof.
  intros Hd Hxy. unfold rne_div.
  pose proof (Z.div_mod x d ltac:(lia)) as Ex. pose proof (Z.mod_pos_bound x d Hd) as Bx.
  pose proof (Z.div_mod y d ltac:(lia)) as Ey. pose proof (Z.mod_pos_bound y d Hd) as By.
  pose proof (Z.div_le_mono x y d Hd Hxy) as Hq.
  destruct (Z.eq_dec (x / d) (y / d)) as [E|Hne].
  - rewrite <- E in *. assert (x mod d <= y mod d)%Z by lia.
    destruct (Z.ltb_spec (2 * (x mod d)) d), (Z.ltb_spec (2 * (y mod d)) d);
    destruct (Z.ltb_spec d (2 * (x mod d))), (Z.ltb_spec d (2 * (y mod d)));
    destruct (Z.even (x / d)); lia.
  - destruct (Z.ltb_spec (2 * (x mod d)) d), (Z.ltb_spec (2 * (y mod d)) d);
    destruct (Z.ltb_spec d (2 * (x mod d))), (Z.ltb_spec d (2 * (y mod d)));
    destruct (Z.even (x / d)), (Z.even (y / d)); lia.
Qed.

Lemma f64_mono x y : (x <= y)%Z -> (M_logic.f64 x <= M_logic.f64 y)%Z.
Proof.
  intro H. destruct (Z.eq_dec x y) as [->|Hne]; [lia|].
  assert (Hn : forall z, (z <= 0)%Z -> M_logic.f64 z = z).
  { intros z Hz. unfold M_logic.f64. rewrite Z.log2_nonpos by lia. reflexivity. }
  assert (Hp : forall z, (0 < z)%Z -> (2 ^ Z.log2 z <= M_logic.f64 z <= 2 ^ (Z.log2 z + 1))%Z).
  { intros z Hz. unfold M_logic.f64. pose proof (Z.log2_spec z Hz) as [L1 L2].
    pose proof (Z.log2_nonneg z). rewrite <- Z.add_1_r in L2.
    destruct (Z.leb_spec (Z.log2 z - 52) 0); [lia|].
    set (e := (Z.log2 z - 52)%Z) in *. assert (0 < 2 ^ e)%Z by (apply Z.pow_pos_nonneg; lia).
    assert (E1 : (2 ^ Z.log2 z = 2 ^ 52 * 2 ^ e)%Z) by (rewrite <- Z.pow_add_r by lia; f_equal; lia).
    assert (E2 : (2 ^ (Z.log2 z + 1) = 2 ^ 53 * 2 ^ e)%Z) by (rewrite <- Z.pow_add_r by lia; f_equal; lia).
    rewrite E1, E2 in *. split.
    - apply Z.mul_le_mono_nonneg_r; [lia|]. apply rne_ge; lia.
    - apply Z.mul_le_mono_nonneg_r; [lia|]. apply rne_le; lia. }
  destruct (Z.le_gt_cases x 0) as [Hx|Hx].
  - rewrite (Hn x) by assumption. destruct (Z.le_gt_cases y 0) as [Hy|Hy].
    + rewrite Hn; lia.
    + pose proof (Hp y ltac:(lia)) as [P1 _]. pose proof (Z.pow_nonneg 2 (Z.log2 y) ltac:(lia)). lia.
  - pose proof (Z.log2_le_mono x y ltac:(lia)) as Hl.
    destruct (Z.eq_dec (Z.log2 x) (Z.log2 y)) as [El|Hl'].
    + unfold M_logic.f64. rewrite El. destruct (_ <=? _)%Z eqn:Eb; [lia|].
      apply Z.leb_gt in Eb. apply Z.mul_le_mono_nonneg_r; [apply Z.pow_nonneg; lia|].
      apply rne_mono; [apply Z.pow_pos_nonneg; lia|lia].
    + pose proof (Hp x ltac:(lia)) as [_ P1]. pose proof (Hp y ltac:(lia)) as [P2 _].
      assert (2 ^ (Z.log2 x + 1) <= 2 ^ Z.log2 y)%Z by (apply Z.pow_le_mono_r; lia). lia.
Qed.

(** ** One event *)
Section Event.
  Variable ln : Q -> Q.
  Variable rnd : Z -> Z.
  Hypothesis rnd_mono : forall x y, (x <= y)%Z -> (rnd x <= rnd y)%Z.

  Lemma asc_map_rnd ts : ascZ ts -> ascZ (map rnd ts).
  Proof.
    intros H i j Hij. rewrite map_length in Hij.
    rewrite !(nth_indep _ 0%Z (rnd 0%Z)) by (rewrite map_length; lia). rewrite !map_nth.
    apply rnd_mono, H. exact Hij.
  Qed.

  Lemma nth_map_rnd ts j : (j < length ts)%nat -> nth j (map rnd ts) 0%Z = rnd (nth j ts 0%Z).
  Proof.
    intro H. rewrite (nth_indep _ 0%Z (rnd 0%Z)) by (rewrite map_length; lia). apply map_nth.
  Qed.

  Lemma t1_idx_window ts e vert b : ascZ ts -> (e < length ts)%nat ->
    (window_end rnd ts e vert b <-> tbm_t1_idx rnd ts e vert = Z.of_nat b /\ (e < b)%nat).
  Proof.
    intros Ha He. pose proof (asc_map_rnd ts Ha) as Ha'. unfold window_end, tbm_t1_idx.
    destruct vert as [v|]; [|lia].
    set (t1 := rnd (rnd (nth e ts 0%Z) + v)).
    pose proof (ss_right_le (map rnd ts) t1) as Hle. rewrite map_length in Hle.
    split.
    - intros [Hb [H1 H2]]. split; [|lia].
      assert (C : (b < ss_right (map rnd ts) t1)%nat).
      { pose proof (proj2 (ss_right_iff (map rnd ts) t1 b Ha' ltac:(rewrite map_length; lia))) as W.
        rewrite nth_map_rnd in W by lia. specialize (W H1). lia. }
      destruct (Nat.eq_dec (S b) (ss_right (map rnd ts) t1)) as [E|Hne]; [lia|exfalso].
      assert (C' : (S b < ss_right (map rnd ts) t1)%nat) by lia.
      pose proof (ss_right_lt _ _ _ C') as D. rewrite nth_map_rnd in D by lia.
      specialize (H2 (S b) ltac:(lia)). fold t1 in H2. lia.
    - intros [E Hb]. split; [lia|]. split.
      + pose proof (ss_right_lt (map rnd ts) t1 b ltac:(lia)) as D. rewrite nth_map_rnd in D by lia. exact D.
      + intros j Hj. pose proof (ss_right_ge (map rnd ts) t1 j Ha' ltac:(rewrite map_length; lia)) as D.
        rewrite nth_map_rnd in D by lia. exact D.
  Qed.

  Section Fixed.
    Variables (ts : list Z) (close : list Q) (e : nat) (tgt : Q) (bottom top : ext)
      (vert : option Z) (mc : Z) (is_meta : bool) (side min_ret : Q).
    Let ev := tbm_event ln rnd ts close e tgt bottom top vert mc is_meta side min_ret.
    Let sr := signed_ret ln close e side.
    Let el := eligible rnd ts e mc.
    Let upper := emulq tgt top.
    Let lower := emulq (- tgt) bottom.
    Let scan b := tbm_scan ln rnd ts close (nth e ts 0%Z) (ln (nth e close 0)) side mc upper lower
          (seq (S e) (b - e)) 0 0 0.

    Lemma event_window b : ascZ ts -> (e < length ts)%nat -> window_end rnd ts e vert b ->
      let '(touch, ret, mu, ml) := scan b in
      let k := match touch with Some j => j | None => b end in
      ev = mkTbm (tbm_label is_meta min_ret ret) (Some k) (Some ret)
                 (tbm_weight (k =? b)%nat ret mu ml upper lower).
    Proof.
      intros Ha He Hw. apply (t1_idx_window ts e vert b Ha He) in Hw. destruct Hw as [E Hb].
      unfold ev, tbm_event. rewrite E. destruct (Z.leb_spec (Z.of_nat b) (Z.of_nat e)); [lia|].
      rewrite Nat2Z.id. fold upper lower. fold (scan b).
      destruct (scan b) as [[[touch ret] mu] ml]. reflexivity.
    Qed.

    Lemma event_skip : ascZ ts -> (e < length ts)%nat -> (forall b, ~ window_end rnd ts e vert b) ->
      ev = mkTbm 0 None None None.
    Proof.
      intros Ha He Hw. unfold ev, tbm_event.
      destruct (Z.leb_spec (tbm_t1_idx rnd ts e vert) (Z.of_nat e)) as [|C]; [reflexivity|exfalso].
      apply (Hw (Z.to_nat (tbm_t1_idx rnd ts e vert))). apply t1_idx_window; auto. lia.
    Qed.

    Definition touches (j : nat) : Prop := el j /\ hits upper lower (sr j).

    Lemma el_up : ascZ ts -> forall i j, (i <= j < length ts)%nat -> el i -> el j.
    Proof.
      intros Ha i j Hij H. unfold el, eligible in *.
      pose proof (rnd_mono (nth i ts 0 - nth e ts 0) (nth j ts 0 - nth e ts 0)
                   ltac:(pose proof (Ha i j Hij); lia))%Z. lia.
    Qed.

    Lemma event_main b : ascZ ts -> (e < length ts)%nat -> window_end rnd ts e vert b ->
      exists k r, tb_touch ev = Some k /\ tb_ret ev = Some r /\
        (first_such touches e b k \/ ((forall j, (e < j <= b)%nat -> ~ touches j) /\ k = b)) /\
        (el k -> r = sr k) /\ (~ el k -> r = 0) /\
        tb_label ev = tbm_label is_meta min_ret r /\
        exists mu ml,
          tb_weight ev = tbm_weight (k =? b)%nat r mu ml upper lower /\
          running_max (fun j => ratio upper (sr j)) (fun j => el j /\ 0 < sr j /\ barrier_valid upper = true) e k mu /\
          running_max (fun j => ratio lower (sr j)) (fun j => el j /\ sr j < 0 /\ barrier_valid lower = true) e k ml.
    Proof.
      intros Ha He Hw. pose proof (event_window b Ha He Hw) as E.
      assert (Hb : (e < b < length ts)%nat) by apply Hw.
      pose proof (scan_spec ln rnd ts close e side mc upper lower (b - e) (S e) 0 0 0) as [S1 S2 S3].
      fold (scan b) in S1, S2, S3.
      destruct (scan b) as [[[touch ret] mu] ml]. cbn [fst snd] in *.
      replace (S e + (b - e))%nat with (S b) in * by lia.
      set (k := match touch with Some j => j | None => b end) in *.
      assert (Hlast : match touch with Some j => j | None => (S b - 1)%nat end = k).
      { destruct touch; unfold k; lia. }
      rewrite Hlast in S2, S3.
      exists k, ret. rewrite E. cbn [tb_touch tb_ret tb_label tb_weight].
      split; [reflexivity|]. split; [reflexivity|].
      assert (Hk : (e < k <= b)%nat).
      { unfold k. destruct touch; [destruct S1|]; lia. }
      split.
      { unfold k. destruct touch as [j|].
        - left. destruct S1 as [B1 [B2 [B3 [B4 B5]]]]. split; [lia|]. split; [split; assumption|].
          intros i Hi. apply B5. lia.
        - right. split; [|reflexivity]. intros j Hj. apply S1. lia. }
      split.
      { intro Hel. destruct touch as [j|].
        - unfold k in *. tauto.
        - destruct S1 as [_ [[k0 [C1 [C2 [C3 C4]]]]|[C1 C2]]].
          + destruct (Nat.eq_dec k0 b) as [E0|]; [rewrite E0 in C3; exact C3|].
            exfalso. apply (C4 b); [lia|exact Hel].
          + exfalso. apply (C1 b); [lia|exact Hel]. }
      split.
      { intro Hel. destruct touch as [j|].
        - exfalso. unfold k in *. apply Hel. apply S1.
        - destruct S1 as [_ [[k0 [C1 [C2 [C3 C4]]]]|[C1 C2]]]; [|exact C2].
          exfalso. apply Hel. apply (el_up Ha k0 k); [unfold k; lia|exact C2]. }
      split; [reflexivity|].
      exists mu, ml. split; [reflexivity|]. split.
      - destruct S2 as [B1 [B2 B3]]. split; [assumption|]. split.
        + intros j Hj Hx. apply B2; auto; lia.
        + destruct B3 as [->|[j [C1 [C2 [C3 C4]]]]]; [left; reflexivity|right].
          exists j. split; [lia|]. split; [exact C3|rewrite C4; reflexivity].
      - destruct S3 as [B1 [B2 B3]]. split; [assumption|]. split.
        + intros j Hj Hx. apply B2; auto; lia.
        + destruct B3 as [->|[j [C1 [C2 [C3 C4]]]]]; [left; reflexivity|right].
          exists j. split; [lia|]. split; [exact C3|rewrite C4; reflexivity].
    Qed.
  End Fixed.

  Lemma touches_spec ts close e tgt bottom top mc side j :
    0 < tgt -> (bottom = PInf \/ exists m, bottom = Fin m) -> (top = PInf \/ exists m, top = Fin m) ->
    (touches ts close e tgt bottom top mc side j <->
     eligible rnd ts e mc j /\
     (reaches_top tgt top (signed_ret ln close e side j) \/
      reaches_bottom tgt bottom (signed_ret ln close e side j))).
  Proof.
    intros Ht Hb Htop. unfold touches, hits.
    assert (A : q_ge_ext (signed_ret ln close e side j) (emulq tgt top) = true <->
                reaches_top tgt top (signed_ret ln close e side j)).
    { destruct Htop as [->|[m ->]]; simpl.
      - apply qsign_pos in Ht. destruct (Z.eqb_spec (qsign tgt) 0); [lia|].
        destruct (Z.ltb_spec 0 (qsign tgt)); [|lia]. simpl. split; [discriminate|tauto].
      - apply Qleb_iff. }
    assert (B : q_le_ext (signed_ret ln close e side j) (emulq (- tgt) bottom) = true <->
                reaches_bottom tgt bottom (signed_ret ln close e side j)).
    { destruct Hb as [->|[m ->]]; simpl.
      - assert (Hn : - tgt < 0) by lra. apply qsign_neg in Hn. destruct (Z.eqb_spec (qsign (- tgt)) 0); [lia|].
        destruct (Z.ltb_spec 0 (qsign (- tgt))); [lia|]. simpl. split; [discriminate|tauto].
      - apply Qleb_iff. }
    rewrite A, B. reflexivity.
  Qed.

  (** Causality *)
  Lemma scan_agree ts ts' close close' t0 base side mc upper lower js : forall ret mu ml,
    (forall j, In j js -> nth j ts 0%Z = nth j ts' 0%Z /\ nth j close 0 = nth j close' 0) ->
    tbm_scan ln rnd ts close t0 base side mc upper lower js ret mu ml =
    tbm_scan ln rnd ts' close' t0 base side mc upper lower js ret mu ml.
  Proof.
    induction js as [|j js IH]; intros ret mu ml H; [reflexivity|].
    destruct (H j (or_introl eq_refl)) as [E1 E2]. cbn [tbm_scan]. rewrite E1, E2.
    assert (H' : forall i, In i js -> nth i ts 0%Z = nth i ts' 0%Z /\ nth i close 0 = nth i close' 0)
      by (intros; apply H; now right).
    destruct (_ <? mc)%Z; [now apply IH|].
    set (pr := if (Qltb 0 _ && _)%bool then _ else _). destruct pr as [m1 m2].
    destruct (q_ge_ext _ upper); [reflexivity|]. destruct (q_le_ext _ lower); [reflexivity|]. now apply IH.
  Qed.

  Lemma nth_firstn_eq {A} (d : A) l l' m j : firstn m l = firstn m l' -> (j < m)%nat ->
    nth j l d = nth j l' d.
  Proof. intros H Hj. rewrite <- (nth_firstn d l m j Hj), H. apply nth_firstn. exact Hj. Qed.

  Lemma window_agree ts ts' e v m b :
    (e < m)%nat -> (m <= length ts)%nat -> (m <= length ts')%nat -> firstn m ts = firstn m ts' ->
    (forall j, (m <= j < length ts)%nat -> (rnd (rnd (nth e ts 0) + v) < rnd (nth j ts 0))%Z) ->
    (forall j, (m <= j < length ts')%nat -> (rnd (rnd (nth e ts 0) + v) < rnd (nth j ts' 0))%Z) ->
    window_end rnd ts e (Some v) b -> window_end rnd ts' e (Some v) b /\ (b < m)%nat.
  Proof.
    intros He Hm Hm' Hf H1 H2 [Hb [W1 W2]].
    assert (Hbm : (b < m)%nat).
    { destruct (Nat.lt_ge_cases b m) as [|C]; [assumption|]. specialize (H1 b ltac:(lia)). lia. }
    split; [|assumption]. rewrite (nth_firstn_eq 0%Z ts ts' m e Hf He) in *.
    split; [lia|]. split.
    - rewrite <- (nth_firstn_eq 0%Z ts ts' m b Hf Hbm). exact W1.
    - intros j Hj. destruct (Nat.lt_ge_cases j m) as [C|C].
      + rewrite <- (nth_firstn_eq 0%Z ts ts' m j Hf C). apply W2. lia.
      + apply H2. lia.
  Qed.

  Lemma event_causal ts ts' close close' e tgt bottom top v mc is_meta side min_ret m :
    ascZ ts -> ascZ ts' -> (e < m)%nat -> (m <= length ts)%nat -> (m <= length ts')%nat ->
    firstn m ts = firstn m ts' -> firstn m close = firstn m close' ->
    (forall j, (m <= j < length ts)%nat -> (rnd (rnd (nth e ts 0) + v) < rnd (nth j ts 0))%Z) ->
    (forall j, (m <= j < length ts')%nat -> (rnd (rnd (nth e ts 0) + v) < rnd (nth j ts' 0))%Z) ->
    tbm_event ln rnd ts close e tgt bottom top (Some v) mc is_meta side min_ret =
    tbm_event ln rnd ts' close' e tgt bottom top (Some v) mc is_meta side min_ret.
  Proof.
    intros Ha Ha' He Hm Hm' Hf Hc H1 H2.
    assert (Ee : nth e ts 0%Z = nth e ts' 0%Z) by (apply (nth_firstn_eq _ _ _ m); auto).
    destruct (Z.leb_spec (tbm_t1_idx rnd ts e (Some v)) (Z.of_nat e)) as [C|C].
    - assert (N : forall b, ~ window_end rnd ts e (Some v) b).
      { intros b Hb. apply t1_idx_window in Hb; auto; lia. }
      rewrite event_skip by (auto; lia). rewrite event_skip; auto; try lia.
      intros b Hb. apply (N b). apply (window_agree ts' ts e v m b); auto.
      + rewrite <- Ee. exact H2. + rewrite <- Ee. exact H1.
    - set (b := Z.to_nat (tbm_t1_idx rnd ts e (Some v))).
      assert (Hw : window_end rnd ts e (Some v) b) by (apply t1_idx_window; auto; unfold b; lia).
      destruct (window_agree ts ts' e v m b He Hm Hm' Hf H1 H2 Hw) as [Hw' Hbm].
      pose proof (event_window ts close e tgt bottom top (Some v) mc is_meta side min_ret b Ha ltac:(lia) Hw) as E.
      pose proof (event_window ts' close' e tgt bottom top (Some v) mc is_meta side min_ret b Ha' ltac:(lia) Hw') as E'.
      cbv beta zeta in E, E'.
      rewrite <- Ee, <- (nth_firstn_eq 0 close close' m e Hc He) in E'.
      rewrite <- (scan_agree ts ts' close close') in E'.
      2:{ intros j Hj. apply in_seq in Hj. split; apply (nth_firstn_eq _ _ _ m); auto; lia. }
      match type of E with context [tbm_scan ?a1 ?a2 ?a3 ?a4 ?a5 ?a6 ?a7 ?a8 ?a9 ?a10 ?a11 ?a12 ?a13 ?a14] =>
        set (sc := tbm_scan a1 a2 a3 a4 a5 a6 a7 a8 a9 a10 a11 a12 a13 a14) in * end.
      clearbody sc. destruct sc as [[[t r] mu] ml]. cbv zeta in E, E'.
      rewrite E, E'. reflexivity.
  Qed.

  (** weights *)
  Lemma weight_range at_t1 r mu ml upper lower w : 0 <= mu -> 0 <= ml ->
    tbm_weight at_t1 r mu ml upper lower = Some w -> 0 <= w <= 1.
  Proof.
    intros Hu Hl. unfold tbm_weight.
    assert (G : forall a b, 0 <= a -> 0 <= b -> 0 <= pmin (a / (1 + b)) 1 <= 1).
    { intros a b Ha Hb. split; [|apply pmin_r]. apply pmin_glb; [|lra].
      apply Qle_shift_div_l; lra. }
    destruct at_t1.
    - destruct (Qltb 0 r).
      + destruct (barrier_valid upper); intro E; inversion E; subst. apply G; assumption.
      + destruct (barrier_valid lower); intro E; inversion E; subst. apply G; assumption.
    - intro E. inversion E; subst. lra.
  Qed.
End Event.

(** ** The whole call *)
Lemma nth_map_seq0 {A} (f : nat -> A) n k d : (k < n)%nat -> nth k (map f (seq 0 n)) d = f k.
Proof. apply nth_seq_map. Qed.

Section Call.
  Variables (ln : Q -> Q) (rnd : Z -> Z) (ts : list Z) (close : list Q) (events : list nat)
    (targets : list Q) (bottom top : ext) (vert : option Z) (mc : Z) (sides : option (list Z)) (min_ret : Q).

  Definition tb_raises : Prop :=
    (exists v, vert = Some v /\ (v <= 0)%Z) \/ min_ret < 0 \/ length ts <> length close \/
    length events <> length targets \/ events = [] \/ (exists l, sides = Some l /\ length l <> length events).

  Lemma tb_raise_iff :
    (triple_barrier ln rnd ts close events targets bottom top vert mc sides min_ret = Raise ValueError
     <-> tb_raises).
  Proof.
    unfold triple_barrier, tb_raises.
    destruct (match vert with Some v => (v <=? 0)%Z | None => false end) eqn:E1.
    { split; [|reflexivity]. intros _. left. destruct vert as [v|]; [|discriminate].
      exists v. split; [reflexivity|]. lia. }
    destruct (Qltb_spec min_ret 0) as [E2|E2]; [split; [tauto|reflexivity]|].
    destruct (Nat.eqb_spec (length ts) (length close)) as [E3|E3]; cbn [negb]; cbv iota;
      [|split; [tauto|reflexivity]].
    destruct (Nat.eqb_spec (length events) (length targets)) as [E4|E4]; cbn [negb]; cbv iota;
      [|split; [tauto|reflexivity]].
    destruct (Nat.eqb_spec (length events) 0) as [E5|E5].
    { split; [|reflexivity]. intros _. do 4 right. left. destruct events; [reflexivity|discriminate]. }
    destruct (match sides with Some l => negb (length events =? length l)%nat | None => false end) eqn:E6.
    { split; [|reflexivity]. intros _. do 5 right. destruct sides as [l|]; [|discriminate].
      exists l. split; [reflexivity|]. apply negb_true_iff, Nat.eqb_neq in E6. auto. }
    split; [discriminate|]. intros [[v [-> Hv]]|[H|[H|[H|[H|[l [-> H]]]]]]]; exfalso.
    - lia. - lra. - auto. - auto. - subst. simpl in E5. lia.
    - apply negb_false_iff, Nat.eqb_eq in E6. auto.
  Qed.

  Lemma tb_only_value_error e :
    triple_barrier ln rnd ts close events targets bottom top vert mc sides min_ret = Raise e -> e = ValueError.
  Proof.
    unfold triple_barrier.
    repeat match goal with |- (if ?b then _ else _) = _ -> _ => destruct b; [intro H; inversion H; reflexivity|] end.
    discriminate.
  Qed.

  Definition side_of (k : nat) : Q := match sides with Some l => inject_Z (nth k l 0%Z) | None => 1 end.
  Definition meta : bool := match sides with Some _ => true | None => false end.

  Lemma tb_nth outs k d :
    triple_barrier ln rnd ts close events targets bottom top vert mc sides min_ret = Ok outs ->
    length outs = length events /\
    ((k < length events)%nat -> nth k outs d =
     tbm_event ln rnd ts close (nth k events 0%nat) (nth k targets 0) bottom top vert mc meta (side_of k) min_ret).
  Proof.
    unfold triple_barrier.
    repeat match goal with |- (if ?b then _ else _) = _ -> _ => destruct b; [discriminate|] end.
    intro H. inversion H as [E]. clear H. split; [rewrite map_length, seq_length; reflexivity|].
    intro Hk. rewrite nth_map_seq0 by assumption. reflexivity.
  Qed.
End Call.

Definition dflt : tbm_out := mkTbm 0 None None None.

Section Props.
  Variables (ln : Q -> Q) (rnd : Z -> Z).
  Hypothesis Hr : monotone rnd.
  Variables (ts : list Z) (close : list Q) (events : list nat)
    (targets : list Q) (bottom top : ext) (vert : option Z) (mc : Z) (sides : option (list Z)) (min_ret : Q)
    (outs : list tbm_out) (k : nat).
  Hypothesis Hts : ascZ ts.
  Hypothesis Hok : triple_barrier ln rnd ts close events targets bottom top vert mc sides min_ret = Ok outs.
  Hypothesis Hk : (k < length events)%nat.
  Let e := nth k events 0%nat.
  Let tgt := nth k targets 0.
  Hypothesis He : (e < length ts)%nat.
  Hypothesis Htgt : 0 < tgt.
  Hypothesis Hbot : number_or_inf bottom.
  Hypothesis Htop : number_or_inf top.
  Let side := side_of sides k.
  Let out := nth k outs dflt.

  Lemma out_eq : out = tbm_event ln rnd ts close e tgt bottom top vert mc (meta sides) side min_ret.
  Proof. unfold out, e, tgt, side. apply (tb_nth ln rnd ts close events targets bottom top vert mc sides min_ret outs k dflt Hok). exact Hk. Qed.

  Lemma touch_iff j : touches ln rnd ts close e tgt bottom top mc side j <->
    barrier_touch ln rnd ts close e tgt bottom top mc side j.
  Proof. apply (touches_spec ln rnd); assumption. Qed.

  Lemma first_touch b : window_end rnd ts e vert b ->
    exists i r, tb_touch out = Some i /\ tb_ret out = Some r /\
      (first_such (barrier_touch ln rnd ts close e tgt bottom top mc side) e b i \/
       ((forall j, (e < j <= b)%nat -> ~ barrier_touch ln rnd ts close e tgt bottom top mc side j) /\ i = b)) /\
      (eligible rnd ts e mc i -> r = signed_ret ln close e side i) /\
      (~ eligible rnd ts e mc i -> r = 0).
  Proof.
    intro Hw. rewrite out_eq.
    destruct (event_main ln rnd Hr ts close e tgt bottom top vert mc (meta sides) side min_ret b Hts He Hw)
      as [i [r [H1 [H2 [H3 [H4 [H5 _]]]]]]].
    exists i, r. split; [exact H1|]. split; [exact H2|]. split; [|split; [exact H4|exact H5]].
    destruct H3 as [[A1 [A2 A3]]|[A1 A2]].
    - left. split; [exact A1|]. split; [now apply touch_iff|]. intros j Hj C. apply (A3 j Hj). now apply touch_iff.
    - right. split; [|exact A2]. intros j Hj C. apply (A1 j Hj). now apply touch_iff.
  Qed.

  Lemma skipped : (forall b, ~ window_end rnd ts e vert b) -> out = mkTbm 0 None None None.
  Proof. intro H. rewrite out_eq. apply (event_skip ln rnd Hr); assumption. Qed.

  Lemma label_weight b : window_end rnd ts e vert b ->
    exists i r, tb_touch out = Some i /\ tb_ret out = Some r /\
      (sides = None -> (r < 0 -> tb_label out = (-1)%Z) /\ (0 <= r -> tb_label out = 1%Z)) /\
      (sides <> None -> (min_ret <= r -> tb_label out = 1%Z) /\ (r < min_ret -> tb_label out = 0%Z)) /\
      ((i < b)%nat -> tb_weight out = Some 1) /\
      (forall w, tb_weight out = Some w -> 0 <= w <= 1).
  Proof.
    intro Hw. rewrite out_eq.
    destruct (event_main ln rnd Hr ts close e tgt bottom top vert mc (meta sides) side min_ret b Hts He Hw)
      as [i [r [H1 [H2 [H3 [H4 [H5 [H6 [mu [ml [H7 [[U _] [L _]]]]]]]]]]]]].
    exists i, r. split; [exact H1|]. split; [exact H2|]. rewrite H6, H7.
    split; [|split; [|split]].
    - intros Es. unfold meta. rewrite Es. unfold tbm_label. pose proof (qsign_neg r) as Sn. pose proof (qsign_pos r) as Sp.
      assert (Ssgn : qsign r = (-1)%Z \/ qsign r = 0%Z \/ qsign r = 1%Z).
      { unfold qsign. destruct (Qnum r); simpl; auto. }
      split; intro C.
      + apply Sn in C. destruct (Z.eqb_spec (qsign r) 0); lia.
      + destruct (Z.eqb_spec (qsign r) 0); [reflexivity|].
        destruct Ssgn as [S|[S|S]]; [|lia|assumption]. exfalso. assert (r < 0) by (apply Sn; lia). lra.
    - intro Hs. unfold meta. destruct sides as [l|]; [|congruence]. unfold tbm_label.
      split; intro C; destruct (Qleb_spec min_ret r); try reflexivity; lra.
    - intro Hib. destruct (Nat.eqb_spec i b); [lia|]. reflexivity.
    - intros w Hwt. eapply weight_range; [exact U|exact L|exact Hwt].
  Qed.

  (** exact value of the weight at the vertical barrier *)
  Lemma weight_formula b : window_end rnd ts e vert b -> tb_touch out = Some b ->
    exists r, tb_ret out = Some r /\
    (forall m, top = Fin m -> ~ tgt * m == 0 -> 0 < r ->
       forall m', bottom = Fin m' -> ~ tgt * m' == 0 ->
       exists U L w, tb_weight out = Some w /\ w == Qmin (U / (1 + L)) 1 /\
         running_max (fun j => signed_ret ln close e side j / (tgt * m))
           (fun j => eligible rnd ts e mc j /\ 0 < signed_ret ln close e side j) e b U /\
         running_max (fun j => signed_ret ln close e side j / (- tgt * m'))
           (fun j => eligible rnd ts e mc j /\ signed_ret ln close e side j < 0) e b L) /\
    (forall m, top = Fin m -> ~ tgt * m == 0 -> r <= 0 ->
       forall m', bottom = Fin m' -> ~ tgt * m' == 0 ->
       exists U L w, tb_weight out = Some w /\ w == Qmin (L / (1 + U)) 1 /\
         running_max (fun j => signed_ret ln close e side j / (tgt * m))
           (fun j => eligible rnd ts e mc j /\ 0 < signed_ret ln close e side j) e b U /\
         running_max (fun j => signed_ret ln close e side j / (- tgt * m'))
           (fun j => eligible rnd ts e mc j /\ signed_ret ln close e side j < 0) e b L) /\
    (0 < r -> top = PInf -> tb_weight out = None) /\
    (r <= 0 -> bottom = PInf -> tb_weight out = None).
  Proof.
    intros Hw Ht. rewrite out_eq in *.
    destruct (event_main ln rnd Hr ts close e tgt bottom top vert mc (meta sides) side min_ret b Hts He Hw)
      as [i [r [H1 [H2 [H3 [H4 [H5 [H6 [mu [ml [H7 [U L]]]]]]]]]]]].
    assert (i = b) by congruence. subst i. rewrite Nat.eqb_refl in H7.
    exists r. split; [exact H2|]. rewrite H7.
    assert (Emin : forall a c, pmin a c == Qmin a c).
    { intros a c. unfold pmin. destruct (Qltb_spec c a).
      - symmetry. apply Q.min_r. lra. - symmetry. apply Q.min_l. lra. }
    assert (Hvt : forall m, top = Fin m -> ~ tgt * m == 0 -> barrier_valid (emulq tgt top) = true).
    { intros m -> Hm. simpl. destruct (Qeqb_spec (tgt * m) 0); [contradiction|reflexivity]. }
    assert (Hvb : forall m, bottom = Fin m -> ~ tgt * m == 0 -> barrier_valid (emulq (- tgt) bottom) = true).
    { intros m -> Hm. simpl. destruct (Qeqb_spec (- tgt * m) 0); [|reflexivity]. exfalso. apply Hm. lra. }
    assert (HU : forall m, top = Fin m -> ~ tgt * m == 0 ->
      running_max (fun j => signed_ret ln close e side j / (tgt * m))
           (fun j => eligible rnd ts e mc j /\ 0 < signed_ret ln close e side j) e b mu).
    { intros m Em Hm. pose proof (Hvt m Em Hm) as V. destruct U as [U1 [U2 U3]]. rewrite Em in *. simpl ratio in *.
      split; [exact U1|]. split.
      - intros j Hj [P1 P2]. apply U2; auto.
      - destruct U3 as [|[j [C1 [[C2 [C3 _]] C4]]]]; [now left|right]. exists j. auto. }
    assert (HL : forall m, bottom = Fin m -> ~ tgt * m == 0 ->
      running_max (fun j => signed_ret ln close e side j / (- tgt * m))
           (fun j => eligible rnd ts e mc j /\ signed_ret ln close e side j < 0) e b ml).
    { intros m Em Hm. pose proof (Hvb m Em Hm) as V. destruct L as [U1 [U2 U3]]. rewrite Em in *. simpl ratio in *.
      split; [exact U1|]. split.
      - intros j Hj [P1 P2]. apply U2; auto.
      - destruct U3 as [|[j [C1 [[C2 [C3 _]] C4]]]]; [now left|right]. exists j. auto. }
    unfold tbm_weight. split; [|split; [|split]].
    - intros m Em Hm Hr0 m' Em' Hm'. destruct (Qltb_spec 0 r); [|lra]. rewrite (Hvt m Em Hm).
      exists mu, ml, (pmin (mu / (1 + ml)) 1). split; [reflexivity|]. split; [apply Emin|]. auto.
    - intros m Em Hm Hr0 m' Em' Hm'. destruct (Qltb_spec 0 r); [lra|]. rewrite (Hvb m' Em' Hm').
      exists mu, ml, (pmin (ml / (1 + mu)) 1). split; [reflexivity|]. split; [apply Emin|]. auto.
    - intros Hr0 ->. destruct (Qltb_spec 0 r); [|lra]. simpl.
      destruct (_ =? 0)%Z; [reflexivity|]. destruct (0 <? _)%Z; reflexivity.
    - intros Hr0 ->. destruct (Qltb_spec 0 r); [lra|]. simpl.
      destruct (_ =? 0)%Z; [reflexivity|]. destruct (0 <? _)%Z; reflexivity.
  Qed.
End Props.

(** A -inf multiplier: every eligible position touches. *)
Lemma neg_inf_touch ln rnd (Hr : monotone rnd) ts close e tgt bottom top vert mc is_meta side min_ret b :
  ascZ ts -> (e < length ts)%nat -> 0 < tgt -> (bottom = NInf \/ top = NInf) ->
  window_end rnd ts e vert b -> (exists j, (e < j <= b)%nat /\ eligible rnd ts e mc j) ->
  exists i, tb_touch (tbm_event ln rnd ts close e tgt bottom top vert mc is_meta side min_ret) = Some i /\
            first_such (eligible rnd ts e mc) e b i.
Proof.
  intros Ha He Ht Hinf Hw [j0 [Hj0 Hel0]].
  destruct (event_main ln rnd Hr ts close e tgt bottom top vert mc is_meta side min_ret b Ha He Hw)
      as [i [r [H1 [H2 [H3 _]]]]].
  exists i. split; [exact H1|].
  assert (Hh : forall x, hits (emulq tgt top) (emulq (- tgt) bottom) x).
  { intro x. unfold hits. destruct Hinf as [->| ->].
    - right. simpl. assert (Hn : - tgt < 0) by lra. apply qsign_neg in Hn.
      destruct (Z.eqb_spec (qsign (- tgt)) 0); [lia|]. destruct (Z.ltb_spec 0 (qsign (- tgt))); [lia|]. reflexivity.
    - left. simpl. apply qsign_pos in Ht.
      destruct (Z.eqb_spec (qsign tgt) 0); [lia|]. destruct (Z.ltb_spec 0 (qsign tgt)); [|lia]. reflexivity. }
  destruct H3 as [[A1 [[A2 _] A3]]|[A1 A2]].
  - split; [exact A1|]. split; [exact A2|]. intros j Hj C. apply (A3 j Hj). split; [exact C|apply Hh].
  - exfalso. apply (A1 j0 Hj0). split; [exact Hel0|apply Hh].
Qed.
