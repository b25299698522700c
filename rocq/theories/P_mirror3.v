(** P_mirror3.v -- proofs about triple-barrier labels of the market upside down (C173). *)
From Verif Require Import Base M_tbm S_units S_mirror P_mirror P_mirror2.
Open Scope Q_scope.

(** Barriers with the opposite sign. *)
Definition ext_opp (a b : ext) : Prop :=
  match a, b with Fin x, Fin y => y == - x | PInf, NInf | NInf, PInf | NaN, NaN => True | _, _ => False end.
Lemma emulq_opp t b : ext_opp (emulq t b) (emulq (- t) b).
Proof.
  assert (E : qsign (- t) = (- qsign t)%Z) by (apply qsign_opp; reflexivity).
  destruct b; cbn [emulq ext_opp]; rewrite ?E; [lra| | |exact Logic.I];
    destruct (qsign_val t) as [-> | [-> | ->]]; cbn; exact Logic.I.
Qed.
Lemma ext_opp_sym a b : ext_opp a b -> ext_opp b a.
Proof. destruct a, b; cbn; auto. lra. Qed.
Lemma valid_opp a b : ext_opp a b -> barrier_valid b = barrier_valid a.
Proof.
  destruct a, b; cbn [ext_opp barrier_valid]; try tauto. intro H. f_equal.
  destruct (Qeqb_spec q0 0), (Qeqb_spec q 0); auto; exfalso; lra.
Qed.
Lemma ratio_opp m m' r r' a b : m' == m -> r' == - r -> ext_opp a b -> barrier_valid a = true -> ratio_max m' r' b == ratio_max m r a.
Proof.
  destruct a as [x| | |], b as [y| | |]; cbn [ext_opp barrier_valid ratio_max]; try tauto; try discriminate.
  intros Hm Hr Hx V. assert (N : ~ x == 0) by (destruct (Qeqb_spec x 0); [discriminate|assumption]).
  assert (E : r' / y == r / x) by (rewrite Hr, Hx; field; lra).
  unfold pmax. destruct (Qltb_spec m' (r' / y)), (Qltb_spec m (r / x)); lra.
Qed.
Lemma ge_opp r r' a b : r' == - r -> ext_opp a b -> q_le_ext r' b = q_ge_ext r a.
Proof.
  destruct a as [x| | |], b as [y| | |]; cbn [ext_opp q_ge_ext q_le_ext]; try tauto.
  intros Hr Hx. destruct (Qleb_spec r' y), (Qleb_spec x r); auto; exfalso; lra.
Qed.

Section Tbm.
  Variables (ln : Q -> Q) (rnd : Z -> Z) (ts : list Z) (cl cl' : list Q).

  Lemma scan_reversed t0 base base' mc up lo up' lo' js :
    ext_opp lo up' -> ext_opp up lo' ->
    (forall j, In j js -> ln (nth j cl' 0) - base' == - (ln (nth j cl 0) - base)) ->
    forall r r' mu mu' ml ml', r' == - r -> mu' == ml -> ml' == mu ->
    let x := tbm_scan ln rnd ts cl t0 base 1 mc up lo js r mu ml in
    let y := tbm_scan ln rnd ts cl' t0 base' 1 mc up' lo' js r' mu' ml' in
    fst (fst (fst y)) = fst (fst (fst x)) /\ snd (fst (fst y)) == - snd (fst (fst x)) /\
    snd (fst y) == snd x /\ snd y == snd (fst x).
  Proof.
    intros O1 O2. induction js as [|j js IH]; intros H r r' mu mu' ml ml' Hr Hu Hl; cbv zeta; cbn [tbm_scan].
    { cbn [fst snd]. auto. }
    cbv zeta. destruct (_ <? mc)%Z. { apply IH; auto. intros k Hk. apply H. now right. }
    assert (R : (ln (nth j cl' 0) - base') * 1 == - ((ln (nth j cl 0) - base) * 1)) by (rewrite (H j (or_introl eq_refl)); lra).
    set (q := (ln (nth j cl 0) - base) * 1) in *. set (q' := (ln (nth j cl' 0) - base') * 1) in *. clearbody q q'.
    rewrite (ge_opp q q' up lo' R O2). rewrite <- (ge_opp q' q up' lo ltac:(lra) (ext_opp_sym _ _ O1)).
    rewrite (valid_opp lo up' O1), (valid_opp up lo' O2).
    assert (IH' := fun r r' mu mu' ml ml' => IH (fun k Hk => H k (or_intror Hk)) r r' mu mu' ml ml').
    cbv zeta in IH'.
    assert (B1 : Qltb q 0 = true -> barrier_valid lo = true -> ratio_max mu' q' up' == ratio_max ml q lo).
    { intros _ V. now apply ratio_opp. }
    assert (B2 : Qltb 0 q = true -> barrier_valid up = true -> ratio_max ml' q' lo' == ratio_max mu q up).
    { intros _ V. now apply ratio_opp. }
    destruct (Qltb_spec 0 q) as [C1|C1]; destruct (Qltb_spec q 0) as [C2|C2];
      destruct (Qltb_spec 0 q') as [C3|C3]; destruct (Qltb_spec q' 0) as [C4|C4]; try (exfalso; lra); cbn [andb].
    - destruct (barrier_valid up) eqn:V; destruct (q_ge_ext q up); destruct (q_le_ext q lo); cbn [fst snd]; auto; apply IH'; auto.
    - destruct (barrier_valid lo) eqn:V; destruct (q_ge_ext q up); destruct (q_le_ext q lo); cbn [fst snd]; auto; apply IH'; auto.
    - destruct (q_ge_ext q up); destruct (q_le_ext q lo); cbn [fst snd]; auto; apply IH'; auto.
  Qed.

  Lemma scan_same t0 base base' side side' mc up lo js :
    (forall j, In j js -> (ln (nth j cl' 0) - base') * side' == (ln (nth j cl 0) - base) * side) ->
    forall r r' mu mu' ml ml', r' == r -> mu' == mu -> ml' == ml ->
    let x := tbm_scan ln rnd ts cl t0 base side mc up lo js r mu ml in
    let y := tbm_scan ln rnd ts cl' t0 base' side' mc up lo js r' mu' ml' in
    fst (fst (fst y)) = fst (fst (fst x)) /\ snd (fst (fst y)) == snd (fst (fst x)) /\
    snd (fst y) == snd (fst x) /\ snd y == snd x.
  Proof.
    induction js as [|j js IH]; intros H r r' mu mu' ml ml' Hr Hu Hl; cbv zeta; cbn [tbm_scan].
    { cbn [fst snd]. auto. }
    cbv zeta. destruct (_ <? mc)%Z. { apply IH; auto. intros k Hk. apply H. now right. }
    pose proof (H j (or_introl eq_refl)) as R.
    set (q := (ln (nth j cl 0) - base) * side) in *. set (q' := (ln (nth j cl' 0) - base') * side') in *. clearbody q q'.
    assert (IH' := fun r r' mu mu' ml ml' => IH (fun k Hk => H k (or_intror Hk)) r r' mu mu' ml ml').
    cbv zeta in IH'.
    assert (G : q_ge_ext q' up = q_ge_ext q up).
    { destruct up as [u| | |]; cbn; auto. destruct (Qleb_spec u q'), (Qleb_spec u q); auto; exfalso; lra. }
    assert (L : q_le_ext q' lo = q_le_ext q lo).
    { destruct lo as [u| | |]; cbn; auto. destruct (Qleb_spec q' u), (Qleb_spec q u); auto; exfalso; lra. }
    assert (RM : forall m m' b, m' == m -> ratio_max m' q' b == ratio_max m q b).
    { intros m m' b Hm. destruct b as [u| | |]; cbn [ratio_max]; auto. assert (E : q' / u == q / u) by now rewrite R.
      unfold pmax. destruct (Qltb_spec m' (q' / u)), (Qltb_spec m (q / u)); lra. }
    rewrite G, L.
    destruct (Qltb_spec 0 q) as [C1|C1]; destruct (Qltb_spec q 0) as [C2|C2];
      destruct (Qltb_spec 0 q') as [C3|C3]; destruct (Qltb_spec q' 0) as [C4|C4]; try (exfalso; lra); cbn [andb].
    - destruct (barrier_valid up); destruct (q_ge_ext q up); destruct (q_le_ext q lo); cbn [fst snd]; auto; apply IH'; auto.
    - destruct (barrier_valid lo); destruct (q_ge_ext q up); destruct (q_le_ext q lo); cbn [fst snd]; auto; apply IH'; auto.
    - destruct (q_ge_ext q up); destruct (q_le_ext q lo); cbn [fst snd]; auto; apply IH'; auto.
  Qed.

  Hypothesis Hopp : opposite_logs ln cl cl'.

  Lemma t1_bound e vert : length ts = length cl -> (tbm_t1_idx rnd ts e vert <= Z.of_nat (length cl) - 1)%Z.
  Proof.
    intro Hn. unfold tbm_t1_idx. destruct vert as [v|]; [|lia].
    pose proof (ss_right_le (map rnd ts) (rnd (rnd (nth e ts 0%Z) + v)%Z)) as L. rewrite map_length in L. lia.
  Qed.

  Lemma frac_same a b a' b' : a' == a -> b' == b -> oq_same (Some (pmin (a / (1 + b)) 1)) (Some (pmin (a' / (1 + b')) 1)).
  Proof.
    intros Ha Hb. cbn [oq_same]. assert (E : a' / (1 + b') == a / (1 + b)) by now rewrite Ha, Hb.
    unfold pmin. destruct (Qltb_spec 1 (a / (1 + b))), (Qltb_spec 1 (a' / (1 + b'))); lra.
  Qed.

  Lemma event_reversed e tgt bo top vert mc mr : length ts = length cl ->
    label_reversed (tbm_event ln rnd ts cl e tgt bo top vert mc false 1 mr)
                   (tbm_event ln rnd ts cl' e tgt top bo vert mc false 1 mr).
  Proof.
    intro Hn. unfold tbm_event. cbv zeta. destruct (Z.leb_spec (tbm_t1_idx rnd ts e vert) (Z.of_nat e)) as [T|T].
    { unfold label_reversed. cbn. auto. }
    pose proof (t1_bound e vert Hn) as B. set (t1 := Z.to_nat (tbm_t1_idx rnd ts e vert)) in *.
    assert (B2 : (t1 < length cl)%nat /\ (e < t1)%nat) by lia. clearbody t1.
    destruct Hopp as [HL [k Hk]].
    pose proof (scan_reversed (nth e ts 0%Z) (ln (nth e cl 0)) (ln (nth e cl' 0)) mc (emulq tgt top) (emulq (- tgt) bo) (emulq tgt bo) (emulq (- tgt) top)
      (seq (S e) (t1 - e)) (ext_opp_sym _ _ (emulq_opp tgt bo)) (emulq_opp tgt top)) as S0.
    specialize (S0 ltac:(intros j Hj; apply in_seq in Hj; rewrite !Hk by lia; lra) 0 0 0 0 0 0 ltac:(lra) ltac:(lra) ltac:(lra)).
    cbv zeta in S0.
    destruct (tbm_scan ln rnd ts cl _ _ _ _ _ _ _ _ _ _) as [[[t r] mu] ml], (tbm_scan ln rnd ts cl' _ _ _ _ _ _ _ _ _ _) as [[[t' r'] mu'] ml'].
    cbn [fst snd] in S0. destruct S0 as (-> & S2 & S3 & S4).
    unfold label_reversed. cbn [tb_label tb_touch tb_ret tb_weight]. split; [reflexivity|]. split; [exact S2|].
    pose proof (qsign_opp _ _ S2) as Sg. unfold tbm_label. rewrite Sg. split.
    - intro Z0. apply qsign_zero in Z0. now rewrite Z0.
    - intro NZ. assert (Sn : (qsign r =? 0)%Z = false) by (apply Z.eqb_neq; intro C; apply qsign_zero in C; contradiction).
      rewrite Sn. replace (- qsign r =? 0)%Z with false by (symmetry; apply Z.eqb_neq; apply Z.eqb_neq in Sn; lia).
      split; [reflexivity|]. unfold tbm_weight. destruct (_ =? t1)%nat; [|cbn; lra].
      rewrite (valid_opp (emulq (- tgt) bo) (emulq tgt bo) (ext_opp_sym _ _ (emulq_opp tgt bo))).
      rewrite (valid_opp (emulq tgt top) (emulq (- tgt) top) (emulq_opp tgt top)).
      destruct (Qltb_spec 0 r) as [C1|C1]; destruct (Qltb_spec 0 r') as [C2|C2]; try (exfalso; lra).
      + destruct (barrier_valid (emulq tgt top)); [now apply frac_same|exact Logic.I].
      + destruct (barrier_valid (emulq (- tgt) bo)); [now apply frac_same|exact Logic.I].
  Qed.

  Lemma event_same e tgt bo top vert mc meta side side' mr : length ts = length cl -> side' == - side ->
    label_same (tbm_event ln rnd ts cl e tgt bo top vert mc meta side mr)
               (tbm_event ln rnd ts cl' e tgt bo top vert mc meta side' mr).
  Proof.
    intros Hn Hs. unfold tbm_event. cbv zeta. destruct (Z.leb_spec (tbm_t1_idx rnd ts e vert) (Z.of_nat e)) as [T|T].
    { unfold label_same. cbn. auto. }
    pose proof (t1_bound e vert Hn) as B. set (t1 := Z.to_nat (tbm_t1_idx rnd ts e vert)) in *.
    assert (B2 : (t1 < length cl)%nat /\ (e < t1)%nat) by lia. clearbody t1.
    destruct Hopp as [HL [k Hk]].
    pose proof (scan_same (nth e ts 0%Z) (ln (nth e cl 0)) (ln (nth e cl' 0)) side side' mc (emulq tgt top) (emulq (- tgt) bo) (seq (S e) (t1 - e))) as S0.
    specialize (S0 ltac:(intros j Hj; apply in_seq in Hj; rewrite !Hk by lia; rewrite Hs; ring) 0 0 0 0 0 0 ltac:(lra) ltac:(lra) ltac:(lra)).
    cbv zeta in S0.
    destruct (tbm_scan ln rnd ts cl _ _ _ _ _ _ _ _ _ _) as [[[t r] mu] ml], (tbm_scan ln rnd ts cl' _ _ _ _ _ _ _ _ _ _) as [[[t' r'] mu'] ml'].
    cbn [fst snd] in S0. destruct S0 as (-> & S2 & S3 & S4).
    unfold label_same. cbn [tb_label tb_touch tb_ret tb_weight].
    assert (Sg : qsign r' = qsign r) by (rewrite (qsign_opp (- r) r') by lra; rewrite (qsign_opp r (- r)) by lra; lia).
    split; [|split; [reflexivity|split; [cbn; lra|]]].
    - unfold tbm_label. rewrite Sg. destruct meta; [|reflexivity]. destruct (Qleb_spec mr r), (Qleb_spec mr r'); auto; exfalso; lra.
    - unfold tbm_weight. destruct (_ =? t1)%nat; [|cbn; lra].
      destruct (Qltb_spec 0 r) as [C1|C1]; destruct (Qltb_spec 0 r') as [C2|C2]; try (exfalso; lra).
      + destruct (barrier_valid (emulq tgt top)); [now apply frac_same|exact Logic.I].
      + destruct (barrier_valid (emulq (- tgt) bo)); [now apply frac_same|exact Logic.I].
  Qed.

  Lemma F2_map2 {A B} (R : B -> B -> Prop) (f g : A -> B) l : (forall k, In k l -> R (f k) (g k)) -> Forall2 R (map f l) (map g l).
  Proof. induction l as [|k l IH]; intro H; cbn [map]; constructor; [apply H; now left|]. apply IH. intros j Hj. apply H. now right. Qed.

  Lemma labels_reversed ev tg bo top vert mc mr :
    both (Forall2 label_reversed) (triple_barrier ln rnd ts cl ev tg bo top vert mc None mr)
         (triple_barrier ln rnd ts cl' ev tg top bo vert mc None mr).
  Proof.
    unfold triple_barrier. rewrite (proj1 Hopp).
    repeat match goal with |- both _ (if ?b then Raise _ else _) _ => destruct b eqn:?; [reflexivity|] end.
    cbn [both]. apply F2_map2. intros k _. apply event_reversed.
    match goal with E : negb (length ts =? length cl)%nat = false |- _ => apply Bool.negb_false_iff, Nat.eqb_eq in E; exact E end.
  Qed.
  Lemma meta_labels_same ev tg bo top vert mc sides mr :
    both (Forall2 label_same) (triple_barrier ln rnd ts cl ev tg bo top vert mc (Some sides) mr)
         (triple_barrier ln rnd ts cl' ev tg bo top vert mc (Some (flipped sides)) mr).
  Proof.
    unfold triple_barrier. rewrite (proj1 Hopp). unfold flipped. rewrite map_length.
    repeat match goal with |- both _ (if ?b then Raise _ else _) _ => destruct b eqn:?; [reflexivity|] end.
    cbn [both]. apply F2_map2. intros k _. apply event_same.
    - match goal with E : negb (length ts =? length cl)%nat = false |- _ => apply Bool.negb_false_iff, Nat.eqb_eq in E; exact E end.
    - rewrite (map_nth Z.opp sides 0%Z k : nth k (map Z.opp sides) 0%Z = _). now rewrite inject_Z_opp.
  Qed.
End Tbm.
