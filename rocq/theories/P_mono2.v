(** P_mono2.v -- larger barriers, value areas, imbalance multipliers and gap limits. *)
From Verif Require Import Base M_tbm M_volume M_footprint M_tbio S_features S_volume S_tbm S_mono P_volume M_float P_float P_mono.
Open Scope Q_scope.

(** ** Triple barrier *)
Definition hit (ln : Q -> Q) (rnd : Z -> Z) (ts : list Z) (close : list Q) (t0 : Z) (base side : Q) (mc : Z) (up lo : ext) (j : nat) : bool :=
  (negb (rnd (nth j ts 0%Z - t0)%Z <? mc)%Z &&
   (q_ge_ext ((ln (nth j close 0) - base) * side) up || q_le_ext ((ln (nth j close 0) - base) * side) lo))%bool.
Lemma scan_find ln rnd ts close t0 base side mc up lo js : forall r mu ml,
  fst (fst (fst (tbm_scan ln rnd ts close t0 base side mc up lo js r mu ml))) = find (hit ln rnd ts close t0 base side mc up lo) js.
Proof.
  induction js as [|j js IH]; intros r mu ml; cbn [tbm_scan find]; [reflexivity|]. unfold hit at 1.
  destruct (_ <? mc)%Z; cbn [negb andb]; [apply IH|]. set (x := (ln (nth j close 0) - base) * side).
  match goal with |- context [let '(_, _) := ?z in _] => destruct z as [mu1 ml1] end.
  destruct (q_ge_ext x up); cbn [orb]; [reflexivity|]. destruct (q_le_ext x lo); [reflexivity|]. apply IH.
Qed.
Lemma hit_mono ln rnd ts close t0 base side mc mc' tgt bo bo' top top' j :
  0 <= tgt -> wider bo bo' -> wider top top' -> (mc <= mc')%Z ->
  hit ln rnd ts close t0 base side mc' (emulq tgt top') (emulq (- tgt) bo') j = true ->
  hit ln rnd ts close t0 base side mc (emulq tgt top) (emulq (- tgt) bo) j = true.
Proof.
  intros Ht Hb Hp Hm. unfold hit. set (x := (ln (nth j close 0) - base) * side). clearbody x.
  rewrite !andb_true_iff, !negb_true_iff, !Z.ltb_ge, !orb_true_iff. intros [H1 H2]. split; [lia|].
  destruct H2 as [H2|H2]; [left|right].
  - destruct top as [a| | |], top' as [b| | |]; cbn [wider] in Hp; try contradiction; cbn [emulq] in *.
    + cbn [q_ge_ext] in *. destruct (Qleb_spec (tgt * b) x) as [F|F]; [|discriminate]. destruct (Qleb_spec (tgt * a) x) as [G|G]; [reflexivity|].
      assert (a * tgt <= b * tgt) by (apply Qmult_le_compat_r; assumption). exfalso; lra.
    + destruct (Z.eqb_spec (qsign tgt) 0) as [E|E]; [discriminate|]. destruct (Z.ltb_spec 0 (qsign tgt)) as [F|F]; [discriminate|].
      assert (G : (qsign tgt < 0)%Z) by lia. apply qsign_neg in G. exfalso; lra.
    + exact H2.
  - destruct bo as [a| | |], bo' as [b| | |]; cbn [wider] in Hb; try contradiction; cbn [emulq] in *.
    + cbn [q_le_ext] in *. destruct (Qleb_spec x (- tgt * b)) as [F|F]; [|discriminate]. destruct (Qleb_spec x (- tgt * a)) as [G|G]; [reflexivity|].
      assert (a * tgt <= b * tgt) by (apply Qmult_le_compat_r; assumption). exfalso; lra.
    + destruct (Z.eqb_spec (qsign (- tgt)) 0) as [E|E]; [discriminate|]. destruct (Z.ltb_spec 0 (qsign (- tgt))) as [F|F]; [|discriminate].
      apply qsign_pos in F. exfalso; lra.
    + exact H2.
Qed.
Lemma find_seq_in p a n j : find p (seq a n) = Some j -> (a <= j < a + n)%nat /\ p j = true /\ forall i, (a <= i < j)%nat -> p i = false.
Proof.
  revert a. induction n as [|n IH]; intros a H; cbn [seq find] in H; [discriminate|].
  destruct (p a) eqn:E.
  - injection H as <-. split; [lia|]. split; [exact E|]. intros. lia.
  - destruct (IH (S a) H) as (A & B & C). split; [lia|]. split; [exact B|]. intros i Hi. destruct (Nat.eq_dec i a) as [->|]; [exact E|apply C; lia].
Qed.
Lemma find_seq_none p a n : find p (seq a n) = None -> forall i, (a <= i < a + n)%nat -> p i = false.
Proof. intros H i Hi. apply (find_none p (seq a n) H). apply in_seq. lia. Qed.
Lemma ss_right_mono l v v' : (v <= v')%Z -> (ss_right l v <= ss_right l v')%nat.
Proof.
  intro H. induction l as [|x l IH]; cbn [ss_right]; [lia|]. destruct (Z.leb_spec x v), (Z.leb_spec x v'); lia.
Qed.
Lemma t1_mono rnd ts e vert vert' : monotone rnd -> longer vert vert' -> (tbm_t1_idx rnd ts e vert <= tbm_t1_idx rnd ts e vert')%Z.
Proof.
  intros Hr. destruct vert as [v|], vert' as [v'|]; cbn [longer tbm_t1_idx]; intro H; try contradiction; try lia.
  - assert (L := ss_right_mono (map rnd ts) (rnd (rnd (nth e ts 0) + v)%Z) (rnd (rnd (nth e ts 0) + v')%Z) ltac:(apply Hr; lia)). lia.
  - pose proof (ss_right_le (map rnd ts) (rnd (rnd (nth e ts 0) + v)%Z)) as L. rewrite map_length in L. lia.
Qed.
Lemma event_touch ln rnd ts close e tgt bo top vert mc meta side mr :
  let t1 := tbm_t1_idx rnd ts e vert in
  tb_touch (tbm_event ln rnd ts close e tgt bo top vert mc meta side mr) =
  if (t1 <=? Z.of_nat e)%Z then None
  else Some (match find (hit ln rnd ts close (nth e ts 0%Z) (ln (nth e close 0)) side mc (emulq tgt top) (emulq (- tgt) bo))
                    (seq (S e) (Z.to_nat t1 - e)) with Some j => j | None => Z.to_nat t1 end).
Proof.
  intro t1. unfold tbm_event. cbv zeta. fold t1. destruct (t1 <=? Z.of_nat e)%Z; [reflexivity|].
  rewrite <- (scan_find ln rnd ts close (nth e ts 0%Z) (ln (nth e close 0)) side mc (emulq tgt top) (emulq (- tgt) bo) _ 0 0 0).
  destruct (tbm_scan _ _ _ _ _ _ _ _ _ _ _ _ _ _) as [[[t r] mu] ml]. reflexivity.
Qed.
Lemma event_later ln rnd ts close e tgt bo bo' top top' vert vert' mc mc' meta side mr mr' :
  monotone rnd -> 0 <= tgt -> wider bo bo' -> wider top top' -> longer vert vert' -> (mc <= mc')%Z ->
  touches_later (tbm_event ln rnd ts close e tgt bo top vert mc meta side mr) (tbm_event ln rnd ts close e tgt bo' top' vert' mc' meta side mr').
Proof.
  intros Hr Ht Hb Hp Hv Hm. unfold touches_later. rewrite !event_touch. cbv zeta.
  pose proof (t1_mono rnd ts e vert vert' Hr Hv) as T. set (t1 := tbm_t1_idx rnd ts e vert) in *. set (t1' := tbm_t1_idx rnd ts e vert') in *.
  destruct (Z.leb_spec t1 (Z.of_nat e)) as [A|A]; [exact I|]. destruct (Z.leb_spec t1' (Z.of_nat e)) as [B|B]; [lia|].
  set (h := hit _ _ _ _ _ _ _ mc _ _). set (h' := hit _ _ _ _ _ _ _ mc' _ _).
  assert (HM : forall j, h' j = true -> h j = true) by (intros j; apply hit_mono; assumption).
  destruct (find h (seq (S e) _)) as [j|] eqn:F; destruct (find h' (seq (S e) _)) as [j'|] eqn:F'.
  - destruct (find_seq_in _ _ _ _ F) as (J1 & J2 & J3). destruct (find_seq_in _ _ _ _ F') as (K1 & K2 & K3).
    destruct (Nat.le_gt_cases j j') as [|C]; [assumption|]. specialize (HM j' K2). rewrite (J3 j') in HM by lia. discriminate.
  - destruct (find_seq_in _ _ _ _ F) as (J1 & J2 & J3). lia.
  - destruct (find_seq_in _ _ _ _ F') as (K1 & K2 & K3). destruct (Nat.le_gt_cases (Z.to_nat t1) j') as [|C]; [assumption|].
    specialize (HM j' K2). rewrite (find_seq_none _ _ _ F j') in HM by lia. discriminate.
  - lia.
Qed.

(** A longer horizon changes nothing for an event that is closed by a horizontal barrier. *)
Lemma scan_app ln rnd ts close t0 base side mc up lo js ks : forall r mu ml j r' mu' ml',
  tbm_scan ln rnd ts close t0 base side mc up lo js r mu ml = (Some j, r', mu', ml') ->
  tbm_scan ln rnd ts close t0 base side mc up lo (js ++ ks) r mu ml = (Some j, r', mu', ml').
Proof.
  induction js as [|i js IH]; intros r mu ml j r' mu' ml'; cbn [tbm_scan app]; [discriminate|].
  destruct (_ <? mc)%Z; [apply IH|]. set (x := (ln (nth i close 0) - base) * side).
  match goal with |- context [let '(_, _) := ?z in _] => destruct z as [mu1 ml1] end.
  destruct (q_ge_ext x up); [auto|]. destruct (q_le_ext x lo); [auto|]. apply IH.
Qed.
Lemma event_horizon ln rnd ts close e tgt bo top vert vert' mc meta side mr b i :
  monotone rnd -> ascZ ts -> longer vert vert' -> window_end rnd ts e vert b ->
  tb_touch (tbm_event ln rnd ts close e tgt bo top vert mc meta side mr) = Some i -> (i < b)%nat ->
  tbm_event ln rnd ts close e tgt bo top vert' mc meta side mr = tbm_event ln rnd ts close e tgt bo top vert mc meta side mr.
Proof.
  intros Hr Ha Hv Hw E Hi. pose proof (t1_mono rnd ts e vert vert' Hr Hv) as T.
  assert (Am : ascZ (map rnd ts)).
  { intros a c Hac. rewrite map_length in Hac. rewrite (nth_indep _ 0%Z (rnd 0%Z)), (nth_indep (map rnd ts) 0%Z (rnd 0%Z)) by (rewrite map_length; lia).
    rewrite !map_nth. apply Hr. apply Ha. lia. }
  assert (W : tbm_t1_idx rnd ts e vert = Z.of_nat b).
  { destruct Hw as [Hb Hw]. destruct vert as [v|]; cbn [tbm_t1_idx]; [|lia]. destruct Hw as [W1 W2].
    set (u := rnd (rnd (nth e ts 0) + v)%Z) in *.
    assert (G : forall j, (j < length ts)%nat -> nth j (map rnd ts) 0%Z = rnd (nth j ts 0%Z)).
    { intros j Hj. rewrite (nth_indep _ 0%Z (rnd 0%Z)) by (rewrite map_length; lia). apply map_nth. }
    destruct (Nat.lt_trichotomy (ss_right (map rnd ts) u) (S b)) as [C|[C|C]]; [| |].
    - pose proof (ss_right_ge (map rnd ts) u b Am ltac:(rewrite map_length; lia)) as K. rewrite G in K by lia. lia.
    - lia.
    - pose proof (ss_right_le (map rnd ts) u) as L. rewrite map_length in L.
      pose proof (ss_right_lt (map rnd ts) u (S b) C) as K. rewrite G in K by lia. specialize (W2 (S b) ltac:(lia)). lia. }
  revert E. unfold tbm_event. cbv zeta. rewrite W in *. destruct (Z.leb_spec (Z.of_nat b) (Z.of_nat e)) as [C|C]; [discriminate|].
  destruct (Z.leb_spec (tbm_t1_idx rnd ts e vert') (Z.of_nat e)) as [D|D]; [lia|]. rewrite Nat2Z.id.
  set (b' := Z.to_nat (tbm_t1_idx rnd ts e vert')). assert (Hb' : (b <= b')%nat) by (unfold b'; lia). clearbody b'.
  replace (b' - e)%nat with ((b - e) + (b' - b))%nat by lia. rewrite seq_app.
  destruct (tbm_scan ln rnd ts close (nth e ts 0%Z) (ln (nth e close 0)) side mc (emulq tgt top) (emulq (- tgt) bo) (seq (S e) (b - e)) 0 0 0) as [[[t r] mu] ml] eqn:S1.
  cbn [tb_touch]. destruct t as [j|]; intros [= ->]; [|lia].
  rewrite (scan_app _ _ _ _ _ _ _ _ _ _ _ _ _ _ _ _ _ _ _ S1).
  replace (i =? b)%nat with false by (symmetry; apply Nat.eqb_neq; lia). replace (i =? b')%nat with false by (symmetry; apply Nat.eqb_neq; lia). reflexivity.
Qed.

(** ** Value area *)
Lemma va_grows v n thr lo hi a b : value_area v n thr lo hi a b -> (hi < n)%nat -> (a <= lo)%nat /\ (hi <= b)%nat.
Proof. induction 1; intro; try (assert (Nat.min (hi + 2) (n - 1) < n)%nat by lia); lia. Qed.
Lemma va_mono v n thr thr' lo hi a b : value_area v n thr lo hi a b -> thr <= thr' -> (hi < n)%nat ->
  forall a' b', value_area v n thr' lo hi a' b' -> (a' <= a)%nat /\ (b <= b')%nat.
Proof.
  induction 1 as [lo hi H|lo hi a b H H1 H2 V IH|lo hi a b H H1 H2 V IH|lo hi a b H H1 H2 H3 V IH]; intros Ht Hn a' b' V'.
  - apply (va_grows _ _ _ _ _ _ _ V' Hn).
  - inversion V'; subst; first [exfalso; lra|apply IH; [assumption|lia|assumption]|exfalso; destruct H2 as [H2|H2]; [lia|]].
    + match goal with X : _ \/ next_up _ _ _ < _ |- _ => destruct X as [X|X]; [lia|lra] end.
    + lra.
  - inversion V'; subst; first [exfalso; lra|apply IH; [assumption|lia|assumption]|exfalso; destruct H2 as [H2|H2]; [lia|]].
    + match goal with X : _ \/ next_dn _ _ < _ |- _ => destruct X as [X|X]; [lia|lra] end.
    + lra.
  - inversion V'; subst; first [exfalso; lra|apply IH; [assumption|lia|assumption]|exfalso].
    + match goal with X : _ \/ next_dn _ _ < _ |- _ => destruct X as [X|X]; [lia|lra] end.
    + match goal with X : _ \/ next_up _ _ _ < _ |- _ => destruct X as [X|X]; [lia|lra] end.
Qed.
Lemma first_max_unique v n p q : first_max v n p -> first_max v n q -> p = q.
Proof.
  intros (P1 & P2 & P3) (Q1 & Q2 & Q3). destruct (Nat.lt_trichotomy p q) as [C|[C|C]]; [|exact C|].
  - specialize (Q3 p C). specialize (P2 q Q1). lra.
  - specialize (P3 q C). specialize (Q2 p P1). lra.
Qed.
Lemma area_mono lv vols pct pct' : vols <> [] -> length lv = length vols -> incr lv ->
  (forall i, (i < length vols)%nat -> 0 <= nth i vols 0) -> 0 <= pct -> pct <= pct' -> pct' <= 100 ->
  exists p h l h' l', comp_poc_hva_lva lv vols pct = Ok (Some (p, h, l)) /\ comp_poc_hva_lva lv vols pct' = Ok (Some (p, h', l')) /\
    (l' <= l)%Z /\ (h <= h')%Z.
Proof.
  intros Hne Hl Hi Hn P1 P2 P3.
  destruct (poc_area lv vols pct Hne Hl Hn ltac:(lra)) as (p & a & b & E & M & V & B1 & B2).
  destruct (poc_area lv vols pct' Hne Hl Hn ltac:(lra)) as (q & a' & b' & E' & M' & V' & B1' & B2').
  assert (q = p) by (eapply first_max_unique; eassumption). subst q.
  assert (S0 : 0 <= qsum vols).
  { apply qsum_nonneg. intros x Hx. apply (In_nth _ _ 0) in Hx. destruct Hx as [i [Hi2 <-]]. auto. }
  assert (T : qsum vols * (pct / 100) <= qsum vols * (pct' / 100)).
  { rewrite !(Qmult_comm (qsum vols)). apply Qmult_le_compat_r; [|assumption]. apply Qle_shift_div_l; [lra|].
    setoid_replace (pct / 100 * 100) with pct by (field; discriminate). exact P2. }
  destruct (va_mono _ _ _ _ _ _ _ _ V T ltac:(lia) _ _ V') as [X Y].
  assert (MI : forall i j, (i <= j < length vols)%nat -> (nth i lv 0 <= nth j lv 0)%Z).
  { intros i j Hij. destruct (Nat.eq_dec i j) as [->|]; [lia|]. specialize (Hi i j ltac:(lia)). lia. }
  exists (nth p lv 0%Z), (nth b lv 0%Z), (nth a lv 0%Z), (nth b' lv 0%Z), (nth a' lv 0%Z).
  split; [exact E|]. split; [exact E'|]. split; apply MI; lia.
Qed.

(** ** Imbalance flags *)
Lemma flags_mono lv bv sv m m' x y : (forall i, 0 <= nth i bv 0) -> (forall i, 0 <= nth i sv 0) -> m <= m' ->
  comp_footprint_features lv bv sv m = Ok x -> comp_footprint_features lv bv sv m' = Ok y ->
  fewer_flags (ff_bi x) (ff_bi y) /\ fewer_flags (ff_si x) (ff_si y).
Proof.
  intros Hb Hs Hm. unfold comp_footprint_features. cbv zeta. destruct (length lv =? 0)%nat; [discriminate|].
  intros [= <-] [= <-]. cbn [ff_bi ff_si].
  assert (G : forall f g : nat -> bool, (forall i, (i < length lv)%nat -> g i = true -> f i = true) -> fewer_flags (map f (seq 0 (length lv))) (map g (seq 0 (length lv)))).
  { intros f g H. split; [now rewrite !map_length|]. intros i. destruct (Nat.lt_ge_cases i (length lv)) as [L|L].
    - rewrite (nth_indep _ false (g 0%nat)), (nth_indep (map f _) false (f 0%nat)) by (rewrite map_length, seq_length; lia).
      rewrite !map_nth, seq_nth by lia. apply H. exact L.
    - rewrite (nth_overflow (map g _)) by (rewrite map_length, seq_length; lia). discriminate. }
  split; apply G; intros i _.
  - unfold buy_imb. rewrite !andb_true_iff. intros [A B]. split; [exact A|].
    destruct (Qltb_spec (nth (i - 1) sv 0 * m') (nth i bv 0)) as [F|F]; [|discriminate]. destruct (Qltb_spec (nth (i - 1) sv 0 * m) (nth i bv 0)) as [K|K]; [reflexivity|].
    assert (m * nth (i - 1) sv 0 <= m' * nth (i - 1) sv 0) by (apply Qmult_le_compat_r; auto). exfalso; lra.
  - unfold sell_imb. rewrite !andb_true_iff. intros [A B]. split; [exact A|].
    destruct (Qltb_spec (nth (S i) bv 0 * m') (nth i sv 0)) as [F|F]; [|discriminate]. destruct (Qltb_spec (nth (S i) bv 0 * m) (nth i sv 0)) as [K|K]; [reflexivity|].
    assert (m * nth (S i) bv 0 <= m' * nth (S i) bv 0) by (apply Qmult_le_compat_r; auto). exfalso; lra.
Qed.

(** ** Volume bars in float64 *)
Lemma volume_f_mono v t t' : (forall i, 0 <= nth i v 0) -> t <= t' ->
  not_earlier (volume_bar_indexer_f v t) (volume_bar_indexer_f v t').
Proof.
  intros Hv Ht. unfold volume_bar_indexer_f.
  apply (couple v_rel _ _ 1 (1 + (length v - 1))); [|lia|lia|].
  - intros k [ia ca] [ib cb] Hk (N & U & Ca & Cb & D). cbn [fst snd] in *. unfold volume_step_f.
    specialize (Hv k). apply (upto_le _ _ k) in U; [|lia].
    assert (Ra : 0 <= r53 (ca + nth k v 0)) by (apply rnd_pos; [lia|lra]).
    assert (Rb : 0 <= r53 (cb + nth k v 0)) by (apply rnd_pos; [lia|lra]).
    assert (Rm : cb <= ca -> r53 (cb + nth k v 0) <= r53 (ca + nth k v 0)) by (intro; apply r53_mono; lra).
    set (xa := r53 (ca + nth k v 0)) in *. set (xb := r53 (cb + nth k v 0)) in *. clearbody xa xb.
    destruct (Qleb_spec t xa) as [F|F], (Qleb_spec t' xb) as [F'|F']; unfold v_rel; cbn [fst snd];
      rewrite ?app_length; cbn [length]; replace (S k - 1)%nat with k by lia.
    + split; [now apply ne_both|]. split; [now apply upto_app|]. split; [lra|]. split; [lra|].
      destruct D as [D|[D _]]; [left; lia|right; split; [lia|lra]].
    + split; [now apply ne_a|]. split; [now apply upto_app|]. split; [lra|]. split; [lra|].
      left. destruct D as [D|[D _]]; lia.
    + assert (L : (length ib < length ia)%nat) by (destruct D as [D|[_ D]]; [lia|specialize (Rm D); exfalso; lra]).
      split; [now apply ne_b|]. split; [exact U|]. split; [lra|]. split; [lra|].
      destruct (Nat.eq_dec (length ib + 1) (length ia)) as [E|E]; [right; split; [lia|lra]|left; lia].
    + split; [exact N|]. split; [exact U|]. split; [lra|]. split; [lra|].
      destruct D as [D|[D D2]]; [left; lia|right; split; [lia|exact (Rm D2)]].
  - specialize (Hv 0%nat). unfold v_rel. cbn [fst snd]. split; [apply ne_refl|]. split; [intros [|k] Hk; cbn in *; lia|].
    split; [exact Hv|]. split; [exact Hv|]. right. split; [reflexivity|lra].
Qed.
