(** P_mirror2.v -- proofs about exchanging buyers and sellers and turning prices upside down
    (C172 assembled, C173). *)
From Coq Require Import Qround.
From Verif Require Import Base M_bars M_footprint S_footprint P_footprint P_weights M_logic S_logic P_cusumbar
  M_sampling M_trades M_volume S_units S_mirror P_mirror.
Open Scope Q_scope.

Lemma run_all_both {A} (R : A -> A -> Prop) f g l : (forall k, In k l -> both R (f k) (g k)) ->
  both (Forall2 R) (run_all f l) (run_all g l).
Proof.
  induction l as [|k l IH]; intro H; cbn [run_all]; [constructor|].
  pose proof (H k (or_introl eq_refl)) as H0. specialize (IH (fun k Hk => H k (or_intror Hk))).
  unfold both in *. destruct (f k), (g k); try tauto.
  destruct (run_all f l), (run_all g l); try tauto. now constructor.
Qed.

Lemma footprints_flip p am cl s tick lows highs mult :
  both (Forall2 fp_swapped) (comp_bar_footprints p am cl s tick lows highs mult)
       (comp_bar_footprints p am cl (flipped s) tick lows highs mult).
Proof. unfold comp_bar_footprints. apply run_all_both. intros k _. apply bar_footprint_flip. Qed.

Lemma repeat_rev {A} (x : A) n : rev (repeat x n) = repeat x n.
Proof.
  induction n as [|n IH]; [reflexivity|]. cbn [repeat rev]. rewrite IH. clear IH.
  induction n as [|n IH]; [reflexivity|]. cbn [repeat app]. now rewrite IH.
Qed.

Lemma in_zrange a b j : In j (zrange a b) -> (a <= j < b)%Z.
Proof. unfold zrange. intro H. apply in_map_iff in H. destruct H as [k [E Hk]]. apply in_seq in Hk. lia. Qed.

Lemma wrap_run bi si m : (Z.of_nat m < 32768)%Z -> wraps 16 (max_run bi si m) = max_run bi si m.
Proof.
  intro Hm. assert (Bd : (Z.abs (max_run bi si m) <= Z.of_nat m)%Z).
  { destruct (max_run_spec bi si m) as [_ [K _]].
    destruct (Z.eq_dec (max_run bi si m) 0) as [->|Hz]; [lia|]. destruct (K Hz) as [a0 [(Q1 & Q2 & _) _]]. lia. }
  apply wraps_id; [lia|]. change (2 ^ (16 - 1))%Z with 32768%Z. lia.
Qed.

Section Turn.
  Variables (p p' am : list Q) (s s' : list Z) (tick mult : Q) (c : Z).
  Hypothesis Hc : Z.even c = true.

  Lemma bar_footprint_turn lo hi lo' hi' a e :
    (forall j, (a < j <= e)%Z -> zget 0 p' j == inject_Z c * tick - zget 0 p j /\ zget 0%Z s' j = (- zget 0%Z s j)%Z) ->
    lo' == inject_Z c * tick - hi -> hi' == inject_Z c * tick - lo ->
    (- 2 ^ 31 <= rhe (lo / tick)%Q)%Z -> (rhe (hi / tick)%Q < 2 ^ 31)%Z ->
    (- 2 ^ 31 <= c - rhe (hi / tick)%Q)%Z -> (c - rhe (lo / tick)%Q < 2 ^ 31)%Z ->
    both (fp_turned c) (bar_footprint p am s tick lo hi mult a e) (bar_footprint p' am s' tick lo' hi' mult a e).
  Proof.
    intros H Hlo Hhi W1 W2 W3 W4. unfold bar_footprint. destruct (Qeqb_spec tick 0) as [|Ht]; [reflexivity|]. cbv zeta.
    assert (E1 : rhe (lo' / tick) = (c - rhe (hi / tick)%Q)%Z).
    { apply rhe_mirror; [exact Hc|]. rewrite Hlo. field. exact Ht. }
    assert (E2 : rhe (hi' / tick) = (c - rhe (lo / tick)%Q)%Z).
    { apply rhe_mirror; [exact Hc|]. rewrite Hhi. field. exact Ht. }
    rewrite E1, E2. set (low := rhe (lo / tick)) in *. set (high := rhe (hi / tick)) in *.
    replace (c - low - (c - high) + 1)%Z with (high - low + 1)%Z by lia.
    destruct (Z.ltb_spec (high - low + 1) 0) as [|Hn]; [reflexivity|].
    rewrite (zrange_mirror c low high). set (m := Z.to_nat (high - low + 1)).
    set (z := mkLv (repeat 0 m) (repeat 0 m) (repeat 0%Z m) (repeat 0%Z m)).
    assert (Lz : lv_len m z) by (unfold lv_len, z; cbn; now rewrite !repeat_length).
    assert (Mz : z = lv_mirror z) by (unfold lv_mirror, z; cbn [lv_bv lv_sv lv_bt lv_st]; now rewrite !repeat_rev).
    assert (Hr : forall j, In j (zrange (a + 1) (e + 1)) ->
              zget 0 p' j == inject_Z c * tick - zget 0 p j /\ zget 0%Z s' j = (- zget 0%Z s j)%Z).
    { intros j Hj. apply in_zrange in Hj. apply H. lia. }
    destruct (fp_fold_mirror p p' am s s' tick c low high Hc Ht _ Hr (Ok z) Lz) as [F L].
    rewrite <- Mz in F. rewrite F. clear F Mz Lz.
    destruct (fold_left (fp_step p am s tick low (high - low + 1)) (zrange (a + 1) (e + 1)) (Ok z)) as [st|x]; [|reflexivity].
    cbn [lv_mirror lv_bv lv_sv lv_bt lv_st]. destruct L as (L1 & L2 & L3 & L4). fold m in L1, L2, L3, L4.
    assert (Wl : map (wraps 32) (zrange low (high + 1)) = zrange low (high + 1)).
    { rewrite <- (map_id (zrange low (high + 1))) at 2. apply map_ext_in. intros j Hj. apply in_zrange in Hj.
      apply wraps_id; [lia|]. change (32 - 1)%Z with 31%Z. lia. }
    assert (Wr : map (wraps 32) (map (fun l => (c - l)%Z) (rev (zrange low (high + 1)))) =
                 map (fun l => (c - l)%Z) (rev (zrange low (high + 1)))).
    { rewrite <- (map_id (map (fun l => (c - l)%Z) _)) at 2. apply map_ext_in. intros j Hj.
      apply in_map_iff in Hj. destruct Hj as [l [El Hl]]. apply in_rev in Hl. apply in_zrange in Hl.
      apply wraps_id; [lia|]. change (32 - 1)%Z with 31%Z. lia. }
    rewrite Wl, Wr. set (lv := zrange low (high + 1)).
    assert (Ll : length lv = m) by (unfold lv, zrange, m; rewrite map_length, seq_length; f_equal; lia).
    pose proof (feat_mirror lv (map (fun l => (c - l)%Z) (rev lv)) (lv_bv st) (lv_sv st) mult) as G.
    rewrite map_length, rev_length in G. specialize (G eq_refl ltac:(lia) ltac:(lia)).
    pose proof (fun f g => feat_cot_mirror c lv (lv_bv st) (lv_sv st) mult f g ltac:(lia) ltac:(lia)) as C.
    assert (Rn : forall f, comp_footprint_features lv (lv_bv st) (lv_sv st) mult = Ok f ->
      ff_run f = max_run (ff_bi f) (ff_si f) m /\ length (ff_bi f) = m /\ length (ff_si f) = m).
    { intros f Ef. unfold comp_footprint_features in Ef. destruct (length lv =? 0)%nat; [discriminate|]. cbv zeta in Ef.
      injection Ef as <-. cbn [ff_run ff_bi ff_si]. rewrite Ll. split; [reflexivity|]. now rewrite !map_length, seq_length. }
    assert (Rn' : forall g, comp_footprint_features (map (fun l => (c - l)%Z) (rev lv)) (rev (lv_sv st)) (rev (lv_bv st)) mult = Ok g ->
      ff_run g = max_run (ff_bi g) (ff_si g) m).
    { intros g Eg. unfold comp_footprint_features in Eg. rewrite map_length, rev_length, Ll in Eg.
      destruct (m =? 0)%nat; [discriminate|]. cbv zeta in Eg. now injection Eg as <-. }
    destruct (comp_footprint_features lv (lv_bv st) (lv_sv st) mult) as [f|x] eqn:Ef;
      destruct (comp_footprint_features _ (rev (lv_sv st)) (rev (lv_bv st)) mult) as [g|x'] eqn:Eg; try tauto.
    destruct G as (G1 & G2 & G3). cbn [both]. split; [|split; [|apply -> and_comm; split]].
    - unfold fp_mirrored. cbn [fp_levels fp_bv fp_sv fp_bt fp_st fp_bi fp_si fp_bi_sum fp_si_sum fp_gini].
      rewrite G1, G2, !count_rev. repeat split. exact G3.
    - unfold one_peak. cbn [fp_levels fp_bv fp_sv fp_cot]. intro U. now apply C.
    - unfold one_sided, one_way, longest_run. cbn [fp_levels fp_bi fp_si fp_run]. intros U One Hl.
      destruct (Rn f eq_refl) as (R1 & R2 & R3). rewrite (Rn' g eq_refl), R1, G1, G2.
      assert (Hm : (Z.of_nat m < 32768)%Z) by (rewrite <- Ll; exact Hl).
      rewrite (wrap_run (ff_bi f)), wrap_run by exact Hm.
      apply (run_mirror _ _ m R2 R3 U). intros x y len sg sg' X Y Z. rewrite Ll in One.
      apply (One x y len len sg sg'); (split; [assumption|exact Z]).
    - unfold one_sided. cbn [fp_levels fp_bi fp_si fp_run]. intros U Hl.
      destruct (Rn f eq_refl) as (R1 & R2 & R3). rewrite (Rn' g eq_refl), R1, G1, G2.
      assert (Hm : (Z.of_nat m < 32768)%Z) by (rewrite <- Ll; exact Hl).
      rewrite (wrap_run (ff_bi f)), wrap_run by exact Hm.
      now apply run_mirror.
  Qed.
End Turn.

Lemma zget_turn tick c p j : (0 <= j < Z.of_nat (length p))%Z ->
  zget 0 (upside_down tick c p) j = inject_Z c * tick - zget 0 p j.
Proof.
  intro H. unfold zget, upside_down. destruct (Z.ltb_spec j 0); [lia|].
  rewrite (nth_indep _ 0 (inject_Z c * tick - 0)) by (rewrite map_length; lia).
  now rewrite (map_nth (fun x => inject_Z c * tick - x)).
Qed.
Lemma nth_turn tick c p k : (k < length p)%nat -> nth k (upside_down tick c p) 0 = inject_Z c * tick - nth k p 0.
Proof.
  intro H. unfold upside_down. rewrite (nth_indep _ 0 (inject_Z c * tick - 0)) by (rewrite map_length; lia).
  now rewrite (map_nth (fun x => inject_Z c * tick - x)).
Qed.

Lemma footprints_turn p am cl s tick lows highs mult c :
  Z.even c = true ->
  (forall j, In j cl -> (-1 <= j < Z.of_nat (length p))%Z) ->
  length lows = (length cl - 1)%nat -> length highs = (length cl - 1)%nat ->
  (forall x, In x lows \/ In x highs ->
     (- 2 ^ 31 <= rhe (x / tick)%Q < 2 ^ 31)%Z /\ (- 2 ^ 31 <= c - rhe (x / tick)%Q < 2 ^ 31)%Z) ->
  both (Forall2 (fp_turned c)) (comp_bar_footprints p am cl s tick lows highs mult)
    (comp_bar_footprints (upside_down tick c p) am cl (flipped s) tick (upside_down tick c highs) (upside_down tick c lows) mult).
Proof.
  intros Hc Hcl Ll Lh Hw. unfold comp_bar_footprints. apply run_all_both. intros k Hk. apply in_seq in Hk.
  assert (I1 : In (nth k cl 0%Z) cl) by (apply nth_In; lia).
  assert (I2 : In (nth (S k) cl 0%Z) cl) by (apply nth_In; lia).
  apply Hcl in I1. apply Hcl in I2.
  destruct (Hw (nth k lows 0)) as [A1 A2]; [left; apply nth_In; lia|].
  destruct (Hw (nth k highs 0)) as [B1 B2]; [right; apply nth_In; lia|].
  apply bar_footprint_turn; try lia; try exact Hc.
  - intros j Hj. split; [rewrite zget_turn by lia; reflexivity|apply zget_opp].
  - rewrite nth_turn by lia. reflexivity.
  - rewrite nth_turn by lia. reflexivity.
Qed.

(* ------------------------------------------------------------------ *)
(** ** CUSUM sampling *)

Definition cs_mirror (a b : cusum_state) : Prop := cs_idx b = cs_idx a /\ cs_pos b == - cs_neg a /\ cs_neg b == - cs_pos a.

Section Cusum.
  Variables (ln : Q -> Q) (xs xs' : list Q).
  Hypothesis Hopp : opposite_returns ln xs xs'.

  Section Filter.
    Variables (thr : list (option Q)) (t : nat -> Q).
    Hypothesis Ht : forall i, (1 <= i < length xs)%nat -> nth i thr None = Some (t i) /\ 0 <= t i.
    Hypothesis Hs : steady (length xs) t.

    Definition f_inv (k : nat) (a : cusum_state) : Prop :=
      0 <= cs_pos a /\ cs_neg a <= 0 /\
      (cs_pos a - cs_neg a <= 0 \/ exists j, (1 <= j < k)%nat /\ cs_pos a - cs_neg a <= t j).

    Lemma f_step k a b : (1 <= k < length xs)%nat -> f_inv k a -> cs_mirror a b ->
      f_inv (S k) (cusum_filter_step ln xs thr a k) /\
      cs_mirror (cusum_filter_step ln xs thr a k) (cusum_filter_step ln xs' thr b k).
    Proof.
      intros Hk (I1 & I2 & I3) (M1 & M2 & M3). destruct Hopp as [_ HR]. specialize (HR k Hk).
      destruct (Ht k Hk) as [Ek Pk]. unfold cusum_filter_step. rewrite Ek.
      unfold log_ret. cbv zeta. set (r := ln (nth k xs 0 / nth (k - 1) xs 0)) in *.
      set (r' := ln (nth k xs' 0 / nth (k - 1) xs' 0)) in *. clearbody r r'.
      assert (P : pmax 0 (cs_pos b + r') == - pmin 0 (cs_neg a + r)) by (apply pmax_opp; lra).
      assert (N : pmin 0 (cs_neg b + r') == - pmax 0 (cs_pos a + r)) by (apply pmin_opp; lra).
      assert (Q1 : 0 <= pmax 0 (cs_pos a + r) /\ (pmax 0 (cs_pos a + r) == 0 \/ pmax 0 (cs_pos a + r) == cs_pos a + r)).
      { unfold pmax. destruct (Qltb_spec 0 (cs_pos a + r)); split; lra. }
      assert (Q2 : pmin 0 (cs_neg a + r) <= 0 /\ (pmin 0 (cs_neg a + r) == 0 \/ pmin 0 (cs_neg a + r) == cs_neg a + r)).
      { unfold pmin. destruct (Qltb_spec (cs_neg a + r) 0); split; lra. }
      set (x := pmax 0 (cs_pos a + r)) in *. set (y := pmin 0 (cs_neg a + r)) in *.
      set (x' := pmax 0 (cs_pos b + r')) in *. set (y' := pmin 0 (cs_neg b + r')) in *. clearbody x y x' y'.
      assert (NB : ~ (y < - t k /\ t k < x)).
      { intros [F1 F2]. destruct Q1 as [_ [Q1|Q1]]; [lra|]. destruct Q2 as [_ [Q2|Q2]]; [lra|].
        destruct I3 as [I3|[j [Hj I3]]]; [lra|]. pose proof (Hs j k ltac:(lia) ltac:(lia)). lra. }
      assert (INV : forall u w, 0 <= u -> w <= 0 -> u - w <= t k -> f_inv (S k) (mkCS (cs_idx a) u w) /\ f_inv (S k) (mkCS (cs_idx a ++ [k]) u w)).
      { intros u w U W D. split; (split; [exact U|split; [exact W|right; exists k; split; [lia|exact D]]]). }
      destruct (Qltb_spec y (- t k)) as [F1|F1]; destruct (Qltb_spec y' (- t k)) as [F3|F3];
        destruct (Qltb_spec (t k) x) as [F2|F2]; destruct (Qltb_spec (t k) x') as [F4|F4]; try (exfalso; lra).
      - split; [apply INV; lra|]. unfold cs_mirror. cbn [cs_idx cs_pos cs_neg]. rewrite M1. repeat split; lra.
      - split; [apply INV; lra|]. unfold cs_mirror. cbn [cs_idx cs_pos cs_neg]. rewrite M1. repeat split; lra.
      - split; [|unfold cs_mirror; cbn [cs_idx cs_pos cs_neg]; rewrite M1; repeat split; lra].
        split; [cbn; lra|split; [cbn; lra|]]. cbn [cs_pos cs_neg].
        destruct Q1 as [_ [Q1|Q1]]; [right; exists k; split; [lia|lra]|].
        destruct Q2 as [_ [Q2|Q2]]; [right; exists k; split; [lia|lra]|].
        destruct I3 as [I3|[j [Hj I3]]]; [left; lra|right; exists j; split; [lia|lra]].
    Qed.
    Lemma f_fold m : forall k a b, (1 <= k)%nat -> (k + m <= length xs)%nat -> f_inv k a -> cs_mirror a b ->
      cs_mirror (fold_left (cusum_filter_step ln xs thr) (seq k m) a) (fold_left (cusum_filter_step ln xs' thr) (seq k m) b).
    Proof.
      induction m as [|m IH]; intros k a b H1 H2 Ia Mab; cbn [seq fold_left]; [exact Mab|].
      destruct (f_step k a b ltac:(lia) Ia Mab) as [Ia' Mab']. apply IH; try lia; assumption.
    Qed.
  End Filter.

  Lemma cusum_filter_mirror thr t :
    (forall i, (1 <= i < length xs)%nat -> nth i (expand_threshold (length xs) thr) None = Some (t i) /\ 0 <= t i) ->
    steady (length xs) t -> cusum_filter ln xs' thr = cusum_filter ln xs thr.
  Proof.
    intros Ht Hs. unfold cusum_filter. rewrite (proj1 Hopp). destruct (length xs <=? 1)%nat; [reflexivity|].
    destruct (_ && _)%bool; [reflexivity|]. cbv zeta. f_equal. destruct xs as [|x0 xs0] eqn:Ex; [reflexivity|]. rewrite <- Ex in *.
    apply (f_fold (expand_threshold (length xs) thr) t Ht Hs); try lia.
    - rewrite Ex. cbn [length]. lia.
    - unfold f_inv. cbn. split; [lra|split; [lra|left; lra]].
    - unfold cs_mirror. cbn. repeat split; reflexivity.
  Qed.

  Section Bars.
    Variables (ts : list Z) (sg : list (option Q)) (flr mult : Q) (f : nat) (lam : nat -> Q).
    Hypothesis Hts : forall i, (f < i)%nat -> (i + 1 < length xs)%nat -> nth i ts 0%Z <> nth (i + 1) ts 0%Z.
    Hypothesis Hl : forall i, (f < i < length xs)%nat -> cusum_lam sg flr mult i = Some (lam i) /\ 0 < lam i.
    Hypothesis Hs : forall i j, (f < i < j)%nat -> (j < length xs)%nat -> lam i <= 2 * lam j.

    Definition b_inv (k : nat) (a : cusum_state) : Prop :=
      0 <= cs_pos a /\ cs_neg a <= 0 /\
      (cs_pos a - cs_neg a <= 0 \/ exists j, (f < j < k)%nat /\ cs_pos a - cs_neg a < lam j).

    Lemma b_step k a b : (f < k < length xs)%nat -> b_inv k a -> cs_mirror a b ->
      b_inv (S k) (cusum_bar_step ln ts xs sg flr mult a k) /\
      cs_mirror (cusum_bar_step ln ts xs sg flr mult a k) (cusum_bar_step ln ts xs' sg flr mult b k).
    Proof.
      intros Hk (I1 & I2 & I3) (M1 & M2 & M3). destruct Hopp as [HL HR]. specialize (HR k ltac:(lia)).
      destruct (Hl k Hk) as [Ek Pk]. unfold cusum_bar_step. rewrite Ek, HL.
      replace ((k + 1 <? length xs)%nat && (nth k ts 0 =? nth (k + 1) ts 0)%Z)%bool with false.
      2:{ symmetry. apply Bool.andb_false_iff. destruct (Nat.ltb_spec (k + 1) (length xs)); [right|now left].
          apply Z.eqb_neq. apply Hts; lia. }
      unfold log_ret. cbv zeta. set (r := ln (nth k xs 0 / nth (k - 1) xs 0)) in *.
      set (r' := ln (nth k xs' 0 / nth (k - 1) xs' 0)) in *. clearbody r r'.
      assert (P : pmax 0 (cs_pos b + r') == - pmin 0 (cs_neg a + r)) by (apply pmax_opp; lra).
      assert (N : pmin 0 (cs_neg b + r') == - pmax 0 (cs_pos a + r)) by (apply pmin_opp; lra).
      assert (Q1 : 0 <= pmax 0 (cs_pos a + r) /\ (pmax 0 (cs_pos a + r) == 0 \/ pmax 0 (cs_pos a + r) == cs_pos a + r)).
      { unfold pmax. destruct (Qltb_spec 0 (cs_pos a + r)); split; lra. }
      assert (Q2 : pmin 0 (cs_neg a + r) <= 0 /\ (pmin 0 (cs_neg a + r) == 0 \/ pmin 0 (cs_neg a + r) == cs_neg a + r)).
      { unfold pmin. destruct (Qltb_spec (cs_neg a + r) 0); split; lra. }
      set (x := pmax 0 (cs_pos a + r)) in *. set (y := pmin 0 (cs_neg a + r)) in *.
      set (x' := pmax 0 (cs_pos b + r')) in *. set (y' := pmin 0 (cs_neg b + r')) in *. clearbody x y x' y'.
      assert (NB : ~ (y <= - lam k /\ lam k <= x)).
      { intros [F1 F2]. destruct Q1 as [_ [Q1|Q1]]; [lra|]. destruct Q2 as [_ [Q2|Q2]]; [lra|].
        destruct I3 as [I3|[j [Hj I3]]]; [lra|]. pose proof (Hs j k ltac:(lia) ltac:(lia)). lra. }
      assert (INV : forall u w, 0 <= u -> w <= 0 -> u - w < lam k -> b_inv (S k) (mkCS (cs_idx a) u w) /\ b_inv (S k) (mkCS (cs_idx a ++ [k]) u w)).
      { intros u w U W D. split; (split; [exact U|split; [exact W|right; exists k; split; [lia|exact D]]]). }
      destruct (Qleb_spec (lam k) x) as [F2|F2]; destruct (Qleb_spec (lam k) x') as [F4|F4];
        destruct (Qleb_spec y (- lam k)) as [F1|F1]; destruct (Qleb_spec y' (- lam k)) as [F3|F3]; try (exfalso; lra).
      - split; [apply INV; lra|]. unfold cs_mirror. cbn [cs_idx cs_pos cs_neg]. rewrite M1. repeat split; lra.
      - split; [apply INV; lra|]. unfold cs_mirror. cbn [cs_idx cs_pos cs_neg]. rewrite M1. repeat split; lra.
      - split; [|unfold cs_mirror; cbn [cs_idx cs_pos cs_neg]; rewrite M1; repeat split; lra].
        split; [cbn; lra|split; [cbn; lra|]]. cbn [cs_pos cs_neg].
        destruct Q1 as [_ [Q1|Q1]]; [right; exists k; split; [lia|lra]|].
        destruct Q2 as [_ [Q2|Q2]]; [right; exists k; split; [lia|lra]|].
        destruct I3 as [I3|[j [Hj I3]]]; [left; lra|right; exists j; split; [lia|lra]].
    Qed.
    Lemma b_fold m : forall k a b, (f < k)%nat -> (k + m <= length xs)%nat -> b_inv k a -> cs_mirror a b ->
      cs_mirror (fold_left (cusum_bar_step ln ts xs sg flr mult) (seq k m) a) (fold_left (cusum_bar_step ln ts xs' sg flr mult) (seq k m) b).
    Proof.
      induction m as [|m IH]; intros k a b H1 H2 Ia Mab; cbn [seq fold_left]; [exact Mab|].
      destruct (b_step k a b ltac:(lia) Ia Mab) as [Ia' Mab']. apply IH; try lia; assumption.
    Qed.
  End Bars.

  Lemma cusum_bars_mirror ts sigma flr mult f :
    first_known sigma f -> length sigma = length xs -> 0 < flr ->
    (forall i, (f < i)%nat -> (i + 1 < length xs)%nat -> nth i ts 0%Z <> nth (i + 1) ts 0%Z) ->
    (forall i j a b, (i <= j)%nat -> nth i sigma None = Some a -> nth j sigma None = Some b ->
       Qmax (mult * a) flr <= 2 * Qmax (mult * b) flr) ->
    cusum_bar_indexer ln ts xs' sigma flr mult = cusum_bar_indexer ln ts xs sigma flr mult.
  Proof.
    intros Hf Hlen Hp Hts Hs. unfold cusum_bar_indexer. cbv zeta.
    pose proof (first_known_some _ _ Hf) as E. unfold first_non_nan. rewrite E, (proj1 Hopp).
    destruct (first_some_known _ _ E) as [Hfl _].
    set (lam := fun i => match nth i (fill_sigma sigma) None with Some s => pmax (mult * s) flr | None => flr end).
    assert (PM : forall x, pmax x flr == Qmax x flr).
    { intro x. unfold pmax. destruct (Qltb_spec x flr) as [C|C].
      - symmetry. apply Q.max_r. lra.
      - symmetry. apply Q.max_l. lra. }
    apply (b_fold ts (fill_sigma sigma) flr mult f lam Hts); try lia.
    - intros i Hi. destruct (fill_sigma_known sigma f i Hf ltac:(lia)) as [s [Es _]].
      unfold cusum_lam, lam. rewrite Es. split; [reflexivity|]. rewrite PM.
      pose proof (Q.le_max_r (mult * s) flr). lra.
    - intros i j Hij Hj. unfold lam.
      destruct (fill_sigma_known sigma f i Hf ltac:(lia)) as [a [Ea [ka [Ka1 [Ka2 Ka3]]]]].
      destruct (fill_sigma_known sigma f j Hf ltac:(lia)) as [b [Eb [kb [Kb1 [Kb2 Kb3]]]]].
      rewrite Ea, Eb, !PM. apply (Hs ka kb a b); auto.
      destruct (Nat.le_gt_cases ka kb) as [|C]; [assumption|]. rewrite (Kb3 ka) in Ka2 by lia. discriminate.
    - unfold b_inv. cbn. split; [lra|split; [lra|left; lra]].
    - unfold cs_mirror. cbn. repeat split; reflexivity.
  Qed.
End Cusum.

(* ------------------------------------------------------------------ *)
(** ** Tick rule and VPIN *)

Lemma qsign_val q : qsign q = 1%Z \/ qsign q = 0%Z \/ qsign q = (-1)%Z.
Proof. unfold qsign. destruct (Qnum q); cbn; auto. Qed.
Lemma qsign_opp x y : y == - x -> qsign y = (- qsign x)%Z.
Proof.
  intro E. destruct (Q_dec x 0) as [[C|C]|C].
  - assert (A : (qsign x < 0)%Z) by now apply qsign_neg. assert (B : (0 < qsign y)%Z) by (apply qsign_pos; lra).
    destruct (qsign_val x) as [?|[?|?]], (qsign_val y) as [?|[?|?]]; lia.
  - assert (A : (0 < qsign x)%Z) by now apply qsign_pos. assert (B : (qsign y < 0)%Z) by (apply qsign_neg; lra).
    destruct (qsign_val x) as [?|[?|?]], (qsign_val y) as [?|[?|?]]; lia.
  - rewrite (proj2 (qsign_zero x) C). apply qsign_zero. lra.
Qed.
Lemma side_mirror (p p' : list Q) c m : forall k sd pt pp pp', pp' == c - pp ->
  (forall i, (k <= i < k + m)%nat -> nth i p' 0 == c - nth i p 0) ->
  fst (fst (fold_left (side_step p') (seq k m) (map Z.opp sd, (- pt)%Z, pp'))) =
  map Z.opp (fst (fst (fold_left (side_step p) (seq k m) (sd, pt, pp)))).
Proof.
  induction m as [|m IH]; intros k sd pt pp pp' Hpp H; cbn [seq fold_left]; [reflexivity|].
  unfold side_step at 2 4. cbv beta iota zeta.
  assert (E : comp_trade_side (nth k p' 0) pp' (- pt) = (- comp_trade_side (nth k p 0%Q) pp pt)%Z).
  { unfold comp_trade_side. cbv zeta. pose proof (H k ltac:(lia)) as Hk.
    set (d := nth k p 0 - pp). set (d' := nth k p' 0 - pp').
    assert (D : d' == - d) by (unfold d, d'; lra). clearbody d d'.
    assert (A : Qabs d' == Qabs d) by (rewrite D; apply Qabs_opp).
    replace (Qltb eps12 (Qabs d')) with (Qltb eps12 (Qabs d)) by (apply Qltb_proper; [reflexivity|now symmetry]).
    destruct (Qltb eps12 (Qabs d)); [|reflexivity].
    now apply qsign_opp. }
  rewrite E. replace (map Z.opp sd ++ [(- comp_trade_side (nth k p 0%Q) pp pt)%Z]) with (map Z.opp (sd ++ [comp_trade_side (nth k p 0) pp pt])) by now rewrite map_app.
  apply IH; [apply H; lia|]. intros i Hi. apply H. lia.
Qed.
Lemma trade_sides_mirror p p' c : length p' = length p -> (forall i, (i < length p)%nat -> nth i p' 0 == c - nth i p 0) ->
  comp_trade_side_vector p' = map Z.opp (comp_trade_side_vector p).
Proof.
  intros L H. unfold comp_trade_side_vector. cbv zeta. rewrite L. destruct p as [|x p0] eqn:Ep; [reflexivity|]. rewrite <- Ep in *.
  replace (firstn (length p) [0%Z]) with (map Z.opp (firstn (length p) [0%Z])) at 1 by (destruct (length p); cbn; [reflexivity|now rewrite firstn_nil]).
  change 0%Z with (- 0)%Z at 2. apply (side_mirror p p' c).
  - apply H. rewrite Ep. cbn. lia.
  - intros i Hi. apply H. rewrite Ep in *. cbn [length] in *. lia.
Qed.

Lemma prefix_eq f g k : (forall i, (i < k)%nat -> f i == g i) -> prefix f k == prefix g k.
Proof. induction k as [|k IH]; intro H; cbn [prefix]; [reflexivity|]. rewrite IH by (intros; apply H; lia). now rewrite H by lia. Qed.

Lemma vpin_mirror b s w : length s = length b -> Forall2 oq_same (vpin b s w) (vpin s b w).
Proof.
  intro L. unfold vpin. rewrite L.
  assert (VN : forall i, vp_nan s b i = vp_nan b s i) by (intro i; unfold vp_nan; destruct (nth i b None), (nth i s None); reflexivity).
  assert (NC : forall k, nan_count s b k = nan_count b s k) by (induction k as [|k IH]; cbn [nan_count]; [reflexivity|]; now rewrite IH, VN).
  assert (VV : forall l i, vp_val s b l i = vp_val b s l i) by (intros l i; unfold vp_val; now rewrite VN).
  assert (P1 : forall k, prefix (vp_val s b s) k == prefix (vp_val b s s) k) by (intro k; apply prefix_eq; intros; now rewrite VV).
  assert (P2 : forall k, prefix (vp_val s b b) k == prefix (vp_val b s b) k) by (intro k; apply prefix_eq; intros; now rewrite VV).
  assert (P3 : forall k, prefix (vp_abs s b) k == prefix (vp_abs b s) k).
  { intro k. apply prefix_eq. intros i _. unfold vp_abs. rewrite !VV. rewrite <- Qabs_opp. apply Qabs_wd. lra. }
  generalize (seq 0 (length b)). induction l as [|i l IH]; cbn [map]; [constructor|]. constructor; [|exact IH].
  rewrite !NC. destruct (_ && _)%bool; [|exact Logic.I].
  set (T := prefix (vp_val b s b) _ - _ + _). set (T' := prefix (vp_val s b s) _ - _ + _).
  assert (ET : T' == T) by (unfold T, T'; rewrite !P1, !P2; lra).
  replace (Qltb (1 # 1000000000) T') with (Qltb (1 # 1000000000) T) by (apply Qltb_proper; [reflexivity|now symmetry]).
  destruct (Qltb _ T); [|exact Logic.I]. cbn [oq_same]. now rewrite ET, !P3.
Qed.
