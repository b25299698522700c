(** P_footprint.v -- proofs about footprints. *)
From Coq Require Import Qround.
From Verif Require Import Base M_bars S_bars P_sort P_bars P_weights P_weights2 M_footprint S_footprint.
Open Scope Q_scope.

(* ---------------------------------------------------------------- rounding *)
Lemma floor_bounds x : inject_Z (Qfloor x) <= x /\ x < inject_Z (Qfloor x) + 1.
Proof.
  split; [apply Qfloor_le|]. pose proof (Qlt_floor x) as H. rewrite inject_Z_plus in H. exact H.
Qed.
Lemma rhe_spec x : rounds_to x (rhe x).
Proof.
  unfold rounds_to, rhe. destruct (floor_bounds x) as [H1 H2]. set (f := Qfloor x) in *.
  assert (A : Qabs (x - inject_Z f) == x - inject_Z f) by (apply Qabs_pos; lra).
  assert (B : Qabs (x - inject_Z (f + 1)) == inject_Z f + 1 - x).
  { rewrite inject_Z_plus. change (inject_Z 1) with 1. rewrite Qabs_neg by lra. lra. }
  destruct (Qltb_spec (x - inject_Z f) (1 # 2)).
  - rewrite A. split; [lra|]. intro E. exfalso. lra.
  - destruct (Qltb_spec (1 # 2) (x - inject_Z f)).
    + rewrite B. split; [lra|]. intro E. exfalso. lra.
    + destruct (Z.even f) eqn:Ev.
      * rewrite A. split; [lra|auto].
      * rewrite B. split; [lra|]. intros _. rewrite Z.even_add, Ev. reflexivity.
Qed.
Lemma even_succ_false z : Z.even z = true -> Z.even (z + 1) = true -> False.
Proof. intros H1 H2. rewrite Z.even_add, H1 in H2. discriminate. Qed.
Lemma rounds_mono x y a b : x <= y -> rounds_to x a -> rounds_to y b -> (a <= b)%Z.
Proof.
  intros Hxy [A1 A2] [B1 B2]. apply Z.nlt_ge. intro Hlt.
  apply Qabs_Qle_condition in A1. apply Qabs_Qle_condition in B1.
  assert (Hab : inject_Z b + 1 <= inject_Z a).
  { change 1 with (inject_Z 1). rewrite <- inject_Z_plus, <- Zle_Qle. lia. }
  assert (E1 : x - inject_Z a == - (1 # 2)) by lra.
  assert (E2 : y - inject_Z b == 1 # 2) by lra.
  assert (E3 : inject_Z a == inject_Z (b + 1)) by (rewrite inject_Z_plus; change (inject_Z 1) with 1; lra).
  apply (proj1 (inject_Z_injective _ _)) in E3.
  assert (Ea : Z.even a = true) by (apply A2; rewrite E1; reflexivity).
  assert (Eb : Z.even b = true) by (apply B2; rewrite E2; reflexivity).
  subst a. now apply (even_succ_false b).
Qed.
Lemma rounds_unique x a b : rounds_to x a -> rounds_to x b -> a = b.
Proof.
  intros Ha Hb. apply Z.le_antisymm; eapply rounds_mono; eauto; lra.
Qed.
Lemma rhe_mono x y : x <= y -> (rhe x <= rhe y)%Z.
Proof. intro H. eapply rounds_mono; eauto using rhe_spec. Qed.

(* ---------------------------------------------------------------- level accumulation *)
Lemma qadd_at_length l i x : length (qadd_at l i x) = length l.
Proof. exact (add_at_length l i x). Qed.
Lemma qadd_at_nth l i x k : (k < length l)%nat -> nth k (qadd_at l i x) 0 = if (k =? i)%nat then nth k l 0 + x else nth k l 0.
Proof. exact (add_at_nth l i x k). Qed.
Lemma qadd_at_sum l i x : (i < length l)%nat -> qsum (qadd_at l i x) == qsum l + x.
Proof. exact (add_at_sum l i x). Qed.
Lemma zadd_at_length l i x : length (zadd_at l i x) = length l.
Proof. unfold zadd_at. now rewrite map_length, seq_length. Qed.
Lemma zadd_at_nth l i x k : (k < length l)%nat -> nth k (zadd_at l i x) 0%Z = if (k =? i)%nat then (nth k l 0 + x)%Z else nth k l 0%Z.
Proof. intro H. unfold zadd_at. now rewrite nth_map_seq. Qed.
Definition zsum (l : list Z) : Z := fold_right Z.add 0%Z l.
Lemma zsum_app l l' : zsum (l ++ l') = (zsum l + zsum l')%Z.
Proof. unfold zsum. induction l; simpl; [reflexivity|]. rewrite IHl. lia. Qed.
Lemma zadd_at_sum l i x : (i < length l)%nat -> zsum (zadd_at l i x) = (zsum l + x)%Z.
Proof.
  intro H. unfold zadd_at.
  assert (G : forall n, (n <= length l)%nat ->
    zsum (map (fun k => if (k =? i)%nat then (nth k l 0 + x)%Z else nth k l 0%Z) (seq 0 n)) =
    (zsum (firstn n l) + if (i <? n)%nat then x else 0)%Z).
  { induction n as [|n IH]; intro Hn; [reflexivity|].
    rewrite seq_S, map_app, zsum_app, IH by lia. rewrite Nat.add_0_l.
    replace (S n) with (n + 1)%nat at 1 by lia. rewrite firstn_add, zsum_app.
    assert (F1 : firstn 1 (skipn n l) = [nth n l 0%Z]).
    { rewrite <- (nth_skipn l n 0%Z 0) at 1 || idtac.
      destruct (skipn n l) as [|y ys] eqn:E.
      - exfalso. assert (length (skipn n l) = 0%nat) by (now rewrite E). rewrite skipn_length in H0. lia.
      - simpl. f_equal. replace n with (n + 0)%nat by lia. rewrite <- nth_skipn, E. reflexivity. }
    rewrite F1. unfold zsum at 2 4. cbn [map fold_right].
    destruct (Nat.eqb_spec n i), (Nat.ltb_spec i n), (Nat.ltb_spec i (S n)); try lia. }
  rewrite G by lia. rewrite firstn_all. destruct (Nat.ltb_spec i (length l)); lia.
Qed.

Lemma level_sum_snoc sides lev sg l f a b : (a <= b)%Z ->
  level_sum sides lev sg l f a (b + 1) ==
  level_sum sides lev sg l f a b + if ((zat sides (b + 1) =? sg) && (lev (b + 1) =? l))%Z%bool then f (b + 1)%Z else 0.
Proof. intro H. unfold level_sum. now rewrite bsum_snoc by lia. Qed.
Lemma level_count_snoc sides lev sg l a b : (a <= b)%Z ->
  level_count sides lev sg l a (b + 1) =
  (level_count sides lev sg l a b + if ((zat sides (b + 1) =? sg) && (lev (b + 1)%Z =? l))%Z%bool then 1 else 0)%nat.
Proof.
  intro H. unfold level_count. rewrite zrange_snoc by lia. rewrite filter_app, app_length. f_equal.
  cbn [filter]. destruct ((zat sides (b + 1) =? sg) && (lev (b + 1) =? l))%Z%bool; reflexivity.
Qed.
Lemma level_sum_nil sides lev sg l f a : level_sum sides lev sg l f a a == 0.
Proof. unfold level_sum. now rewrite bsum_nil by lia. Qed.
Lemma level_count_nil sides lev sg l a : level_count sides lev sg l a a = 0%nat.
Proof. unfold level_count. now rewrite zrange_nil by lia. Qed.

Section Fp.
  Variables prices amounts : list Q.
  Variable sides : list Z.
  Variable tick : Q.
  Variables low n : Z.
  Hypothesis Hn : (0 <= n)%Z.
  Notation p := (at_ prices).
  Notation q := (at_ amounts).
  Definition lev (j : Z) : Z := rhe (at_ prices j / tick).

  Definition fp_inv (s e : Z) (st : levels) : Prop :=
    let zn := Z.to_nat n in
    length (lv_bv st) = zn /\ length (lv_sv st) = zn /\ length (lv_bt st) = zn /\ length (lv_st st) = zn /\
    (forall i, (i < zn)%nat ->
       nth i (lv_bv st) 0 == level_sum sides lev 1 (low + Z.of_nat i) q s e /\
       nth i (lv_sv st) 0 == level_sum sides lev (-1) (low + Z.of_nat i) q s e /\
       nth i (lv_bt st) 0%Z = Z.of_nat (level_count sides lev 1 (low + Z.of_nat i) s e) /\
       nth i (lv_st st) 0%Z = Z.of_nat (level_count sides lev (-1) (low + Z.of_nat i) s e)) /\
    qsum (lv_bv st) == side_sum sides 1 q s e /\ qsum (lv_sv st) == side_sum sides (-1) q s e /\
    zsum (lv_bt st) = Z.of_nat (bcount sides 1 s e) /\ zsum (lv_st st) = Z.of_nat (bcount sides (-1) s e).

  Definition fp_run_to (s e : Z) : result levels :=
    fold_left (fp_step prices amounts sides tick low n) (zrange (s + 1) (e + 1))
      (Ok (mkLv (repeat 0 (Z.to_nat n)) (repeat 0 (Z.to_nat n)) (repeat 0%Z (Z.to_nat n)) (repeat 0%Z (Z.to_nat n)))).

  Lemma qsum_repeat0 k : qsum (repeat 0 k) == 0.
  Proof. induction k; simpl; [reflexivity|]. rewrite IHk. ring. Qed.
  Lemma zsum_repeat0 k : zsum (repeat 0%Z k) = 0%Z.
  Proof. unfold zsum. induction k; simpl; auto. Qed.

  Lemma fp_loop s e : (-1 <= s <= e)%Z ->
    (forall j, (s < j <= e)%Z -> (low <= lev j < low + n)%Z) ->
    exists st, fp_run_to s e = Ok st /\ fp_inv s e st.
  Proof.
    intros [Hs He]. revert e He. apply (bar_ind (fun e => (forall j, (s < j <= e)%Z -> (low <= lev j < low + n)%Z) ->
      exists st, fp_run_to s e = Ok st /\ fp_inv s e st)).
    - intros _. unfold fp_run_to. rewrite zrange_nil by lia. eexists. split; [reflexivity|].
      unfold fp_inv. cbn [lv_bv lv_sv lv_bt lv_st]. rewrite !repeat_length.
      repeat (split; [reflexivity|]). split; [|].
      + intros i Hi. rewrite !nth_repeat. rewrite !level_sum_nil, !level_count_nil. repeat split; reflexivity.
      + rewrite !qsum_repeat0, !zsum_repeat0. unfold side_sum. rewrite !bsum_nil, !bcount_nil by lia. repeat split; reflexivity.
    - intros e He IH Hr. destruct IH as [st [E Inv]]; [intros j Hj; apply Hr; lia|].
      unfold fp_run_to in *. rewrite fold_bar by lia. rewrite E.
      specialize (Hr (e + 1)%Z ltac:(lia)). unfold fp_step.
      rewrite !zget_nonneg by lia. fold (p (e + 1)) (q (e + 1)) (zat sides (e + 1)). fold (lev (e + 1)).
      destruct (Z.leb_spec 0 (lev (e + 1) - low)); [|lia]. destruct (Z.ltb_spec (lev (e + 1) - low) n); [|lia].
      cbn [andb]. set (ix := Z.to_nat (lev (e + 1) - low)).
      destruct Inv as [L1 [L2 [L3 [L4 [Hi [Q1 [Q2 [Z1 Z2]]]]]]]].
      assert (Hix : (ix < Z.to_nat n)%nat) by (unfold ix; lia).
      assert (Hsel : forall i, (i < Z.to_nat n)%nat -> (i =? ix)%nat = (lev (e + 1) =? low + Z.of_nat i)%Z).
      { intros i Hi'. unfold ix. destruct (Nat.eqb_spec i (Z.to_nat (lev (e + 1) - low))), (Z.eqb_spec (lev (e + 1)) (low + Z.of_nat i)); auto; lia. }
      assert (Sb : side_sum sides 1 q s (e + 1) == side_sum sides 1 q s e + if (zat sides (e + 1) =? 1)%Z then q (e + 1)%Z else 0) by (apply side_snoc; lia).
      assert (Ss : side_sum sides (-1) q s (e + 1) == side_sum sides (-1) q s e + if (zat sides (e + 1) =? -1)%Z then q (e + 1)%Z else 0) by (apply side_snoc; lia).
      assert (Cb := bcount_snoc sides 1 s e He). assert (Cs := bcount_snoc sides (-1) s e He).
      set (sg := zat sides (e + 1)) in *.
      destruct (Z.eqb_spec sg 1) as [E1|E1]; [|destruct (Z.eqb_spec sg (-1)) as [E2|E2]]; (eexists; split; [reflexivity|]);
        unfold fp_inv; cbn [lv_bv lv_sv lv_bt lv_st]; rewrite ?qadd_at_length, ?zadd_at_length;
        (do 4 (split; [assumption|])); split.
      + intros i Hi'. specialize (Hi i Hi'). destruct Hi as [I1 [I2 [I3 I4]]].
        rewrite qadd_at_nth, zadd_at_nth by lia. rewrite (Hsel i Hi').
        rewrite !level_sum_snoc, !level_count_snoc by lia. fold sg. rewrite E1. cbn [Z.eqb Pos.eqb andb].
        destruct (lev (e + 1) =? low + Z.of_nat i)%Z; repeat split; try lra; try lia.
      + rewrite qadd_at_sum, zadd_at_sum by lia. rewrite E1 in Ss, Cs. cbn [Z.eqb Pos.eqb] in Ss, Cs. repeat split; try lra; try lia.
      + intros i Hi'. specialize (Hi i Hi'). destruct Hi as [I1 [I2 [I3 I4]]].
        rewrite qadd_at_nth, zadd_at_nth by lia. rewrite (Hsel i Hi').
        rewrite !level_sum_snoc, !level_count_snoc by lia. fold sg. rewrite E2. cbn [Z.eqb Pos.eqb andb].
        destruct (lev (e + 1) =? low + Z.of_nat i)%Z; repeat split; try lra; try lia.
      + rewrite qadd_at_sum, zadd_at_sum by lia. repeat split; try lra; try lia.
      + intros i Hi'. specialize (Hi i Hi'). destruct Hi as [I1 [I2 [I3 I4]]].
        rewrite !level_sum_snoc, !level_count_snoc by lia. fold sg.
        apply Z.eqb_neq in E1. apply Z.eqb_neq in E2. rewrite E1, E2. cbn [andb]. repeat split; try lra; try lia.
      + repeat split; try lra; try lia.
  Qed.

  Lemma fp_fold_raise js x : fold_left (fp_step prices amounts sides tick low n) js (Raise x) = Raise x.
  Proof. induction js; simpl; auto. Qed.

  Lemma fp_loop_inv s e st : (-1 <= s <= e)%Z -> fp_run_to s e = Ok st ->
    (forall j, (s < j <= e)%Z -> (low <= lev j < low + n)%Z).
  Proof.
    intros [Hs He]. revert e He st. apply (bar_ind (fun e => forall st, fp_run_to s e = Ok st ->
      forall j, (s < j <= e)%Z -> (low <= lev j < low + n)%Z)).
    - intros; lia.
    - intros e He IH st E j Hj. unfold fp_run_to in *. rewrite fold_bar in E by lia.
      destruct (fold_left _ _ _) as [st0|x] eqn:E0; [|discriminate E].
      destruct (Z.eq_dec j (e + 1)) as [->|]; [|apply (IH st0 eq_refl); lia].
      unfold fp_step in E. rewrite !zget_nonneg in E by lia. fold (p (e + 1)) in E. fold (lev (e + 1)) in E.
      destruct (Z.leb_spec 0 (lev (e + 1) - low)); [|discriminate E].
      destruct (Z.ltb_spec (lev (e + 1) - low) n); [|discriminate E]. lia.
  Qed.
  Lemma fp_loop_error s e x : fp_run_to s e = Raise x -> x = ValueError.
  Proof.
    unfold fp_run_to. set (st := mkLv _ _ _ _). clearbody st. revert st.
    induction (zrange (s + 1) (e + 1)) as [|j js IH]; intros st H; simpl in H; [discriminate|].
    match type of H with fold_left _ _ ?r = _ => destruct r as [st'|y] eqn:E end; [eauto|].
    rewrite fp_fold_raise in H. injection H as <-. clear -E.
    destruct ((0 <=? _) && _)%Z%bool; [|congruence]. destruct (_ =? 1)%Z; [discriminate|]. destruct (_ =? -1)%Z; discriminate.
  Qed.
End Fp.

(* ---------------------------------------------------------------- features *)
Lemma bi_true bv sv mult n i : buy_imb bv sv mult n i = true <-> ((1 < n)%nat /\ (1 <= i)%nat /\ mult * nth (i - 1) sv 0 < nth i bv 0).
Proof.
  unfold buy_imb. rewrite !Bool.andb_true_iff, Nat.ltb_lt, Nat.leb_le, Qltb_iff.
  rewrite (Qmult_comm mult). tauto.
Qed.
Lemma si_true bv sv mult n i : sell_imb bv sv mult n i = true <-> ((1 < n)%nat /\ (S i < n)%nat /\ mult * nth (S i) bv 0 < nth i sv 0).
Proof.
  unfold sell_imb. rewrite !Bool.andb_true_iff, !Nat.ltb_lt, Qltb_iff.
  rewrite (Qmult_comm mult). split; intros; intuition lia.
Qed.

(* longest run *)
Section Run.
  Variables bi si : list bool.
  Notation sgn := (imb_sign bi si).

  (** [r] levels ending just before position m have sign rs, and r is maximal. *)
  Definition run_inv (m : nat) (st : Z * Z * Z * Z) : Prop :=
    let '(mr, ms, r, rs) := st in
    (0 <= r <= mr)%Z /\
    ((r = 0%Z /\ rs = 0%Z) \/ is_run sgn m (m - Z.to_nat r) (Z.to_nat r) rs) /\
    (forall a len sg, is_run sgn m a len sg -> (a + len = m)%nat -> (Z.of_nat len <= r)%Z /\ sg = rs) /\
    ((mr = 0%Z /\ ms = 0%Z) \/ exists a, is_run sgn m a (Z.to_nat mr) ms /\
        forall b sg, is_run sgn m b (Z.to_nat mr) sg -> (a <= b)%nat) /\
    (forall a len sg, is_run sgn m a len sg -> (Z.of_nat len <= mr)%Z).

  Lemma is_run_weaken n n' a len sg : (n <= n')%nat -> is_run sgn n a len sg -> is_run sgn n' a len sg.
  Proof. unfold is_run. intros H [H1 [H2 H3]]. repeat split; try tauto; lia. Qed.
  Lemma is_run_cut m a len sg : is_run sgn (S m) a len sg -> (a + len <= m)%nat -> is_run sgn m a len sg.
  Proof. unfold is_run. intros [H1 [H2 H3]] H. repeat split; try tauto; lia. Qed.

  Lemma run_step_inv m st : run_inv m st -> run_inv (S m) (run_step bi si st m).
  Proof.
    destruct st as [[[mr ms] r] rs]. unfold run_inv. intros [Hr [Hc [Hcm [Hm Hmm]]]].
    unfold run_step. fold (sgn m). set (sg := sgn m).
    (* new current run *)
    assert (G : forall r' rs', (r', rs') = (if (negb (sg =? 0)%Z && (sg =? rs)%Z)%bool then ((r + 1)%Z, rs)
        else if negb (sg =? 0)%Z then (1%Z, sg) else (0%Z, 0%Z)) ->
      (0 <= r' <= r + 1)%Z /\
      ((r' = 0%Z /\ rs' = 0%Z) \/ is_run sgn (S m) (S m - Z.to_nat r') (Z.to_nat r') rs') /\
      (forall a len s2, is_run sgn (S m) a len s2 -> (a + len = S m)%nat -> (Z.of_nat len <= r')%Z /\ s2 = rs')).
    { intros r' rs' E. destruct (Z.eqb_spec sg 0) as [S0|S0]; cbn [negb andb] in E.
      - injection E as -> ->. split; [lia|]. split; [auto|]. intros a len s2 [H1 [H2 [H3 H4]]] Hend. exfalso.
        apply H3. rewrite <- (H4 m) by lia. exact S0.
      - destruct (Z.eqb_spec sg rs) as [S1|S1]; injection E as -> ->.
        + split; [lia|]. split.
          * right. destruct Hc as [[-> ->]|[C1 [C2 [C3 C4]]]]; [contradiction|].
            unfold is_run. split; [lia|]. split; [lia|]. split; [auto|]. intros i Hi.
            destruct (Nat.eq_dec i m) as [->|]; [now rewrite <- S1|]. apply C4. lia.
          * intros a len s2 Hrun Hend. destruct (Hrun) as [H1 [H2 [H3 H4]]].
            assert (Es : s2 = rs) by (rewrite <- (H4 m) by lia; auto). split; [|auto].
            destruct len as [|[|len]]; [lia|lia|].
            assert (is_run sgn m a (S len) s2) by (unfold is_run; repeat split; auto; try lia; intros; apply H4; lia).
            destruct (Hcm a (S len) s2 H) as [B _]; lia.
        + split; [lia|]. split.
          * right. unfold is_run. change (Z.to_nat 1) with 1%nat. split; [lia|]. split; [lia|]. split; [auto|]. intros i Hi.
            replace i with m by lia. reflexivity.
          * intros a len s2 Hrun Hend. destruct (Hrun) as [H1 [H2 [H3 H4]]].
            assert (Es : s2 = sg) by (symmetry; apply (H4 m); lia). split; [|auto].
            destruct len as [|[|len]]; [lia|lia|]. exfalso.
            assert (is_run sgn m a (S len) s2) by (unfold is_run; repeat split; auto; try lia; intros; apply H4; lia).
            destruct (Hcm a (S len) s2 H) as [_ B]; [lia|]. congruence. }
    destruct (if (negb (sg =? 0)%Z && (sg =? rs)%Z)%bool then _ else _) as [r' rs'].
    destruct (G r' rs' eq_refl) as [G1 [G2 G3]]. clear G.
    destruct (Z.ltb_spec mr r') as [Hlt|Hge].
    - split; [lia|]. split; [exact G2|]. split; [exact G3|]. split.
      + right. destruct G2 as [[-> _]|G2]; [lia|]. exists (S m - Z.to_nat r')%nat. split; [exact G2|].
        intros b s2 Hb. destruct (Nat.eq_dec (b + Z.to_nat r') (S m)) as [|Hne]; [lia|].
        exfalso. assert (is_run sgn m b (Z.to_nat r') s2) by (apply is_run_cut; [auto|destruct Hb as [_ [? _]]; lia]).
        apply Hmm in H. lia.
      + intros a len s2 Ha. destruct (Nat.eq_dec (a + len) (S m)) as [E|Hne]; [now apply (G3 a len s2)|].
        assert (is_run sgn m a len s2) by (apply is_run_cut; [auto|destruct Ha as [_ [? _]]; lia]).
        apply Hmm in H. lia.
    - split; [lia|]. split; [exact G2|]. split; [exact G3|]. split.
      + destruct Hm as [Hm|[a [Ha Hfirst]]]; [auto|]. right. exists a. split; [apply (is_run_weaken m); [lia|auto]|].
        intros b s2 Hb. destruct (Nat.eq_dec (b + Z.to_nat mr) (S m)) as [E|Hne].
        * destruct Ha as [_ [? _]]. lia.
        * apply (Hfirst b s2). apply is_run_cut; [auto|destruct Hb as [_ [? _]]; lia].
      + intros a len s2 Ha. destruct (Nat.eq_dec (a + len) (S m)) as [E|Hne]; [destruct (G3 a len s2 Ha E); lia|].
        apply (Hmm a len s2). apply is_run_cut; [auto|destruct Ha as [_ [? _]]; lia].
  Qed.
  Lemma run_loop m : run_inv m (fold_left (run_step bi si) (seq 0 m) (0, 0, 0, 0)%Z).
  Proof.
    induction m as [|m IH].
    - simpl. split; [lia|]. split; [auto|]. split; [intros a len sg [H1 [H2 _]]; lia|]. split; [auto|].
      intros a len sg [H1 [H2 _]]; lia.
    - rewrite seq_S, fold_left_app. cbn [fold_left]. rewrite Nat.add_0_l. now apply run_step_inv.
  Qed.
  Lemma sgn_range i : sgn i = 1%Z \/ sgn i = (-1)%Z \/ sgn i = 0%Z.
  Proof. unfold imb_sign. destruct (nth i bi false); [auto|]. destruct (nth i si false); auto. Qed.

  Lemma max_run_spec n :
    let R := max_run bi si n in
    (forall a len sg, is_run sgn n a len sg -> (Z.of_nat len <= Z.abs R)%Z) /\
    (R <> 0%Z -> exists a, is_run sgn n a (Z.to_nat (Z.abs R)) (Z.sgn R) /\
       forall b sg, is_run sgn n b (Z.to_nat (Z.abs R)) sg -> (a <= b)%nat) /\
    (R = 0%Z <-> forall i, (i < n)%nat -> sgn i = 0%Z).
  Proof.
    intros R. unfold R, max_run. pose proof (run_loop n) as H.
    destruct (fold_left _ _ _) as [[[mr ms] r] rs]. destruct H as [Hr [_ [_ [Hm Hmm]]]].
    assert (Hcase : (mr = 0 /\ ms = 0)%Z \/ ((0 < mr)%Z /\ (ms = 1 \/ ms = -1)%Z)).
    { destruct Hm as [Hm|[a [[H1 [H2 [H3 H4]]] _]]]; [auto|]. right. split; [lia|].
      pose proof (H4 a ltac:(lia)) as E. destruct (sgn_range a) as [K|[K|K]]; rewrite K in E; auto; congruence. }
    assert (Habs : Z.abs (mr * ms) = mr) by (destruct Hcase as [[-> ->]|[Hp [-> | ->]]]; lia).
    assert (Hsgn : Z.sgn (mr * ms) = ms) by (destruct Hcase as [[-> ->]|[Hp [-> | ->]]]; lia).
    rewrite Habs, Hsgn. split; [exact Hmm|]. split.
    - intro Hne. destruct Hm as [[-> ->]|Hm]; [lia|exact Hm].
    - split.
      + intros E i Hi. destruct (Z.eq_dec (sgn i) 0) as [|Hne]; [auto|]. exfalso.
        assert (is_run sgn n i 1 (sgn i)) by (unfold is_run; repeat split; auto; try lia; intros k Hk; f_equal; lia).
        apply Hmm in H. destruct Hcase as [[-> ->]|[Hp [-> | ->]]]; lia.
      + intro Hz. destruct Hm as [[-> ->]|[a [[H1 [H2 [H3 H4]]] _]]]; [lia|]. exfalso. apply H3.
        rewrite <- (H4 a) by lia. apply Hz. lia.
  Qed.
End Run.

(* argmax *)
Lemma argmax_from_spec l i best bv :
  let r := argmax_from l i best bv in
  (r = best /\ (forall k, (k < length l)%nat -> nth k l 0 <= bv)) \/
  (exists k, (k < length l)%nat /\ r = (i + k)%nat /\ bv < nth k l 0 /\
     (forall k', (k' < length l)%nat -> nth k' l 0 <= nth k l 0) /\
     (forall k', (k' < k)%nat -> nth k' l 0 < nth k l 0)).
Proof.
  revert i best bv. induction l as [|x l IH]; intros i best bv; cbn [argmax_from].
  - left. split; [reflexivity|]. simpl. lia.
  - cbv zeta in *. destruct (Qltb_spec bv x) as [H|H].
    + right. destruct (IH (S i) i x) as [[-> Hall]|[k [Hk [-> [Hgt [Hall Hfirst]]]]]].
      * exists 0%nat. split; [simpl; lia|]. split; [lia|]. split; [exact H|]. split; [|lia].
        intros [|k'] Hk'; simpl; [lra|]. apply Hall. simpl in Hk'. lia.
      * exists (S k). split; [simpl; lia|]. split; [lia|]. split; [simpl; lra|]. split.
        -- intros [|k'] Hk'; simpl; [lra|]. apply Hall. simpl in Hk'. lia.
        -- intros [|k'] Hk'; simpl; [lra|]. apply Hfirst. lia.
    + destruct (IH (S i) best bv) as [[-> Hall]|[k [Hk [-> [Hgt [Hall Hfirst]]]]]].
      * left. split; [reflexivity|]. intros [|k'] Hk'; simpl; [lra|]. apply Hall. simpl in Hk'. lia.
      * right. exists (S k). split; [simpl; lia|]. split; [lia|]. split; [simpl; lra|]. split.
        -- intros [|k'] Hk'; simpl; [lra|]. apply Hall. simpl in Hk'. lia.
        -- intros [|k'] Hk'; simpl; [lra|]. apply Hfirst. lia.
Qed.
Lemma argmax_spec l : l <> [] ->
  (argmax l < length l)%nat /\ (forall k, (k < length l)%nat -> nth k l 0 <= nth (argmax l) l 0) /\
  (forall k, (k < argmax l)%nat -> nth k l 0 < nth (argmax l) l 0).
Proof.
  destruct l as [|x l]; [congruence|]. intros _. unfold argmax.
  destruct (argmax_from_spec l 1 0 x) as [[-> Hall]|[k [Hk [-> [Hgt [Hall Hfirst]]]]]].
  - split; [simpl; lia|]. split; [|lia]. intros [|k'] Hk'; simpl; [lra|]. apply Hall. simpl in Hk'. lia.
  - split; [simpl; lia|]. cbn [Nat.add nth]. split.
    + intros [|k'] Hk'; simpl; [lra|]. apply Hall. simpl in Hk'. lia.
    + intros [|k'] Hk'; simpl; [lra|]. apply Hfirst. lia.
Qed.

Section Feat.
  Variable lv : list Z.
  Variables bv sv : list Q.
  Variable mult : Q.
  Notation n := (length lv).
  Hypothesis Hne : (0 < n)%nat.

  Lemma feat_ok : exists f, comp_footprint_features lv bv sv mult = Ok f /\
    ff_bi f = map (buy_imb bv sv mult n) (seq 0 n) /\ ff_si f = map (sell_imb bv sv mult n) (seq 0 n) /\
    ff_run f = max_run (ff_bi f) (ff_si f) n /\
    (exists c, (c < n)%nat /\ ff_cot f = nth c lv 0%Z /\
       (forall i, (i < n)%nat -> nth i bv 0 + nth i sv 0 <= nth c bv 0 + nth c sv 0) /\
       (forall i, (i < c)%nat -> nth i bv 0 + nth i sv 0 < nth c bv 0 + nth c sv 0)) /\
    ff_skew f == 0 /\
    (let V := qsum (map (fun i => nth i bv 0 + nth i sv 0) (seq 0 n)) in
     (V <= 0 -> ff_gini f = 0) /\
     (0 < V -> (1 - ff_gini f) * V * V == qsum (map (fun i => (nth i bv 0 + nth i sv 0) * (nth i bv 0 + nth i sv 0)) (seq 0 n)))) /\
    ((forall i, (i < n)%nat -> 0 <= nth i bv 0 + nth i sv 0) -> 0 <= ff_gini f < 1).
  Proof.
    unfold comp_footprint_features. destruct (Nat.eqb_spec n 0) as [E0|_]; [lia|]. cbv zeta.
    set (tot := map (fun i => nth i bv 0 + nth i sv 0) (seq 0 n)). set (S := qsum tot).
    assert (Lt : length tot = n) by (unfold tot; now rewrite map_length, seq_length).
    assert (Nt : forall i, (i < n)%nat -> nth i tot 0 = nth i bv 0 + nth i sv 0).
    { intros i Hi. unfold tot. now rewrite nth_map_seq. }
    eexists. split; [reflexivity|]. cbn [ff_bi ff_si ff_run ff_cot ff_skew ff_gini].
    split; [reflexivity|]. split; [reflexivity|]. split; [reflexivity|]. split; [|split; [|split; [split|]]].
    - destruct (argmax_spec tot) as [A1 [A2 A3]]; [intro E; rewrite E in Lt; simpl in Lt; lia|].
      rewrite Lt in A1. exists (argmax tot). split; [auto|]. split; [reflexivity|].
      rewrite <- (Nt (argmax tot) A1). split; intros i Hi; rewrite <- Nt by lia; [apply A2; lia|apply A3; lia].
    - destruct (Qltb_spec 0 S) as [HS|HS]; cbn [andb]; [|reflexivity].
      destruct (Nat.ltb_spec 0 n); [|reflexivity].
      set (vw := qsum (map (fun i => inject_Z (nth i lv 0%Z) * nth i tot 0) (seq 0 n)) / S).
      assert (E : qsum (map (fun i => (inject_Z (nth i lv 0%Z) - vw) * nth i tot 0) (seq 0 n)) ==
                  qsum (map (fun i => inject_Z (nth i lv 0%Z) * nth i tot 0) (seq 0 n)) - vw * S).
      { rewrite (qsum_map_ext _ (fun i => inject_Z (nth i lv 0%Z) * nth i tot 0 + (- vw) * nth i tot 0)) by (intros; ring).
        rewrite qsum_map_plus, qsum_map_scal.
        assert (E1 : qsum (map (fun i => nth i tot 0) (seq 0 n)) == S) by (unfold S; rewrite <- Lt, nth_map_eq; reflexivity).
        rewrite E1. ring. }
      rewrite E. unfold vw. field. lra.
    - intro HS. destruct (Qltb_spec 0 S); [lra|reflexivity].
    - intro HS. destruct (Qltb_spec 0 S); [|lra]. destruct (Nat.ltb_spec 0 n); [|lia]. cbn [andb].
      assert (E : qsum (map (fun x => x / S * (x / S)) tot) * S * S == qsum (map (fun x => x * x) tot)).
      { clear -HS. generalize tot. intro l. induction l as [|x l IH]; simpl; [ring|]. rewrite <- IH. field. lra. }
      assert (E2 : qsum (map (fun x => x * x) tot) == qsum (map (fun i => (nth i bv 0 + nth i sv 0) * (nth i bv 0 + nth i sv 0)) (seq 0 n))).
      { unfold tot. rewrite map_map. reflexivity. }
      rewrite <- E2, <- E. ring.
    - intro Hnn. destruct (Qltb_spec 0 S) as [HS|HS]; cbn [andb]; [|lra].
      destruct (Nat.ltb_spec 0 n); [|lra].
      assert (Hx : forall x, In x tot -> 0 <= x).
      { intros x Hx. unfold tot in Hx. apply in_map_iff in Hx. destruct Hx as [i [<- Hi]]. apply in_seq in Hi. apply Hnn. lia. }
      assert (Bd : forall x, In x tot -> 0 <= x <= S) by (intros x Hxx; split; [auto|now apply qsum_elem_le]).
      pose proof (qsum_sq_le tot S HS Bd) as U. fold S in U.
      assert (U' : S / S == 1) by (field; lra). rewrite U' in U.
      pose proof (qsum_sq_pos tot S HS ltac:(unfold S; lra) Hx) as L. lra.
  Qed.
End Feat.

(* ---------------------------------------------------------------- bars *)
Lemma run_all_nth {A} (f : nat -> result A) ks l : run_all f ks = Ok l ->
  length l = length ks /\ forall k a, nth_error l k = Some a -> f (nth k ks 0%nat) = Ok a.
Proof.
  revert l. induction ks as [|k0 ks IH]; intros l H; simpl in H.
  - injection H as <-. split; [reflexivity|]. intros [|k] a Ha; discriminate.
  - destruct (f k0) as [a0|x] eqn:E; [|discriminate]. destruct (run_all f ks) as [l0|x]; [|discriminate].
    injection H as <-. destruct (IH l0 eq_refl) as [L N]. split; [simpl; lia|].
    intros [|k] a Ha; simpl in Ha; [injection Ha as <-; exact E|]. now apply N.
Qed.
Lemma run_all_ok {A} (f : nat -> result A) ks : (forall k, In k ks -> exists a, f k = Ok a) -> exists l, run_all f ks = Ok l.
Proof.
  induction ks as [|k ks IH]; intro H; simpl; [eauto|].
  destruct (H k (or_introl eq_refl)) as [a ->]. destruct IH as [l ->]; [intros; apply H; now right|]. eauto.
Qed.
Lemma run_all_raise {A} (f : nat -> result A) ks x : run_all f ks = Raise x -> exists k, In k ks /\ f k = Raise x.
Proof.
  induction ks as [|k ks IH]; simpl; [discriminate|]. destruct (f k) as [a|y] eqn:E.
  - destruct (run_all f ks) as [l|y]; [discriminate|]. intro H. injection H as ->.
    destruct (IH eq_refl) as [k' [Hk Hf]]. eauto.
  - intro H. injection H as ->. eauto.
Qed.

Lemma fps_nth prices amounts closes sides tick lows highs mult fps k fp :
  comp_bar_footprints prices amounts closes sides tick lows highs mult = Ok fps -> nth_error fps k = Some fp ->
  bar_footprint prices amounts sides tick (nth k lows 0) (nth k highs 0) mult (nth k closes 0%Z) (nth (S k) closes 0%Z) = Ok fp.
Proof.
  intros H Hk. apply run_all_nth in H. destruct H as [L N]. pose proof (N k fp Hk) as E.
  assert (Hlt : (k < length fps)%nat) by (apply nth_error_Some; congruence).
  rewrite L, seq_length in Hlt. now rewrite seq_nth in E by auto.
Qed.

Section Bar.
  Variables prices amounts : list Q.
  Variable sides : list Z.
  Variables tick lo hi mult : Q.
  Variables s e : Z.
  Hypothesis Hse : (-1 <= s <= e)%Z.

  Lemma bar_fp fp : bar_footprint prices amounts sides tick lo hi mult s e = Ok fp ->
    ~ tick == 0 /\ (rhe (lo / tick) <= rhe (hi / tick))%Z /\
    (forall j, (s < j <= e)%Z -> (rhe (lo / tick) <= rhe (at_ prices j / tick) <= rhe (hi / tick))%Z) /\
    fp_levels fp = map (wraps 32) (zrange (rhe (lo / tick)) (rhe (hi / tick) + 1)) /\
    (exists st f, fp_inv prices amounts sides tick (rhe (lo / tick)) (rhe (hi / tick) - rhe (lo / tick) + 1) s e st /\
       fp_bv fp = lv_bv st /\ fp_sv fp = lv_sv st /\ fp_bt fp = lv_bt st /\ fp_st fp = lv_st st /\
       comp_footprint_features (fp_levels fp) (fp_bv fp) (fp_sv fp) mult = Ok f /\
       fp_bi fp = ff_bi f /\ fp_si fp = ff_si f /\ fp_bi_sum fp = count_true (ff_bi f) /\ fp_si_sum fp = count_true (ff_si f) /\
       fp_cot fp = ff_cot f /\ fp_run fp = wraps 16 (ff_run f) /\ fp_skew fp = ff_skew f /\ fp_gini fp = ff_gini f).
  Proof.
    unfold bar_footprint. destruct (Qeqb_spec tick 0) as [|Ht]; [discriminate|].
    set (low := rhe (lo / tick)). set (high := rhe (hi / tick)). cbv zeta.
    destruct (Z.ltb_spec (high - low + 1) 0) as [|Hn]; [discriminate|].
    fold (fp_run_to prices amounts sides tick low (high - low + 1) s e).
    destruct (fp_run_to _ _ _ _ _ _ _ _) as [st|x] eqn:E; [|discriminate].
    destruct (comp_footprint_features _ _ _ _) as [f|x] eqn:F; [|discriminate].
    intro H. injection H as <-. cbn [fp_levels fp_bv fp_sv fp_bt fp_st fp_bi fp_si fp_bi_sum fp_si_sum fp_cot fp_run fp_skew fp_gini].
    assert (Hlen : (0 < length (map (wraps 32) (zrange low (high + 1))))%nat).
    { unfold comp_footprint_features in F. destruct (Nat.eqb_spec (length (map (wraps 32) (zrange low (high + 1)))) 0); [discriminate|lia]. }
    rewrite map_length, zrange_length in Hlen.
    pose proof (fp_loop_inv _ _ _ _ _ _ s e st Hse E) as R.
    destruct (fp_loop prices amounts sides tick low (high - low + 1) s e Hse R) as [st' [E' Inv]].
    assert (st' = st) by congruence. subst st'.
    split; [auto|]. split; [lia|]. split; [intros j Hj; specialize (R j Hj); unfold lev in R; lia|].
    split; [reflexivity|]. exists st, f. split; [exact Inv|]. repeat split; auto.
  Qed.

  Lemma bar_fp_ok : 0 < tick -> lo <= hi -> (forall j, (s < j <= e)%Z -> lo <= at_ prices j <= hi) ->
    exists fp, bar_footprint prices amounts sides tick lo hi mult s e = Ok fp.
  Proof.
    intros Ht Hlh Hb. unfold bar_footprint. destruct (Qeqb_spec tick 0) as [|_]; [lra|].
    assert (Hdiv : forall x y, x <= y -> x / tick <= y / tick).
    { intros x y Hxy. unfold Qdiv. apply Qmult_le_compat_r; [auto|]. apply Qlt_le_weak. now apply Qinv_lt_0_compat. }
    set (low := rhe (lo / tick)). set (high := rhe (hi / tick)). cbv zeta.
    assert (Hlo : (low <= high)%Z) by (apply rhe_mono; auto).
    destruct (Z.ltb_spec (high - low + 1) 0) as [|Hn]; [lia|].
    fold (fp_run_to prices amounts sides tick low (high - low + 1) s e).
    destruct (fp_loop prices amounts sides tick low (high - low + 1) s e Hse) as [st [E _]].
    { intros j Hj. specialize (Hb j Hj). unfold lev.
      assert (low <= rhe (at_ prices j / tick))%Z by (apply rhe_mono, Hdiv; tauto).
      assert (rhe (at_ prices j / tick) <= high)%Z by (apply rhe_mono, Hdiv; tauto). lia. }
    rewrite E.
    destruct (feat_ok (map (wraps 32) (zrange low (high + 1))) (lv_bv st) (lv_sv st) mult) as [f [F _]].
    { rewrite map_length, zrange_length. lia. }
    rewrite F. eauto.
  Qed.
End Bar.

Lemma fps_builder prices amounts closes sides tick mult bars :
  comp_bar_ohlcv prices amounts closes = Ok bars -> 0 < tick -> ascZ closes -> (-1 <= hd 0 closes)%Z ->
  exists fps, comp_bar_footprints prices amounts closes sides tick (map b_low bars) (map b_high bars) mult = Ok fps.
Proof.
  intros H Ht Ha H0. apply comp_ohlcv_ok in H. destruct H as [_ [_ ->]]. apply run_all_ok. intros k Hk. apply in_seq in Hk.
  set (f := fun k => bar_ohlcv prices amounts (nth k closes 0%Z) (nth (S k) closes 0%Z)).
  rewrite !map_map. fold f.
  rewrite (nth_map_seq 0 (fun k => b_low (f k))), (nth_map_seq 0 (fun k => b_high (f k))) by lia.
  assert (A : (-1 <= nth k closes 0 <= nth (S k) closes 0)%Z).
  { split; [|apply (Ha k (S k)); lia]. pose proof (Ha 0%nat k ltac:(lia)) as H1. destruct closes; simpl in *; lia. }
  unfold f. destruct (Z.eq_dec (nth k closes 0%Z) (nth (S k) closes 0%Z)) as [E|Hne].
  - apply bar_fp_ok; [exact A|exact Ht| |].
    + unfold bar_ohlcv. rewrite <- E, Z.eqb_refl. simpl. lra.
    + intros j Hj. lia.
  - pose proof (bar_ohlcv_spec prices amounts (nth k closes 0%Z) (nth (S k) closes 0%Z) ltac:(lia)) as K. cbv zeta in K.
    destruct K as [_ [_ [[_ Hh] [[_ Hl] _]]]]. apply bar_fp_ok; [exact A|exact Ht| |].
    + pose proof (Hh (nth (S k) closes 0%Z) ltac:(lia) I). pose proof (Hl (nth (S k) closes 0%Z) ltac:(lia) I). lra.
    + intros j Hj. pose proof (Hh j Hj I). pose proof (Hl j Hj I). lra.
Qed.

Lemma count_filter_map (f : nat -> bool) n : length (filter (fun b => b) (map f (seq 0 n))) = length (filter f (seq 0 n)).
Proof. induction (seq 0 n) as [|i l IH]; simpl; [reflexivity|]. destruct (f i); simpl; congruence. Qed.

Lemma api_levels prices amounts closes sides tick lows highs mult fps k fp :
  comp_bar_footprints prices amounts closes sides tick lows highs mult = Ok fps -> nth_error fps k = Some fp ->
  let s := nth k closes 0%Z in let e := nth (S k) closes 0%Z in
  (-1 <= s <= e)%Z ->
  exists low high lev,
    rounds_to (nth k lows 0 / tick) low /\ rounds_to (nth k highs 0 / tick) high /\ (low <= high)%Z /\
    (forall j, (s < j <= e)%Z -> rounds_to (at_ prices j / tick) (lev j) /\ (low <= lev j <= high)%Z) /\
    ((- 2 ^ 31 <= low)%Z -> (high < 2 ^ 31)%Z -> fp_levels fp = zrange low (high + 1)) /\
    (let n := Z.to_nat (high - low + 1) in
     length (fp_levels fp) = n /\ length (fp_bv fp) = n /\ length (fp_sv fp) = n /\ length (fp_bt fp) = n /\ length (fp_st fp) = n /\
     forall i, (i < n)%nat ->
       nth i (fp_bv fp) 0 == level_sum sides lev 1 (low + Z.of_nat i) (at_ amounts) s e /\
       nth i (fp_sv fp) 0 == level_sum sides lev (-1) (low + Z.of_nat i) (at_ amounts) s e /\
       nth i (fp_bt fp) 0%Z = Z.of_nat (level_count sides lev 1 (low + Z.of_nat i) s e) /\
       nth i (fp_st fp) 0%Z = Z.of_nat (level_count sides lev (-1) (low + Z.of_nat i) s e)).
Proof.
  intros H Hk s e Hse. pose proof (fps_nth _ _ _ _ _ _ _ _ _ _ _ H Hk) as E. fold s e in E.
  destruct (bar_fp _ _ _ _ _ _ _ _ _ Hse _ E) as [Ht [Hlh [Hr [Hlv [st [f [Inv [E1 [E2 [E3 [E4 _]]]]]]]]]]].
  exists (rhe (nth k lows 0 / tick)), (rhe (nth k highs 0 / tick)), (fun j => rhe (at_ prices j / tick)).
  split; [apply rhe_spec|]. split; [apply rhe_spec|]. split; [auto|].
  split; [intros j Hj; split; [apply rhe_spec|now apply Hr]|].
  split.
  - intros B1 B2. rewrite Hlv. rewrite <- (map_id (zrange _ _)) at 2. apply map_ext_in. intros z Hz.
    apply in_zrange in Hz. apply wraps_id; [lia|]. change (32 - 1)%Z with 31%Z. lia.
  - cbv zeta. destruct Inv as [L1 [L2 [L3 [L4 [Hi _]]]]].
    split; [rewrite Hlv, map_length, zrange_length; f_equal; lia|].
    rewrite E1, E2, E3, E4. repeat (split; [assumption|]). exact Hi.
Qed.

Lemma api_fp_totals prices amounts closes sides tick lows highs mult fps k fp :
  comp_bar_footprints prices amounts closes sides tick lows highs mult = Ok fps -> nth_error fps k = Some fp ->
  let s := nth k closes 0%Z in let e := nth (S k) closes 0%Z in
  (-1 <= s <= e)%Z ->
  let d := bar_directional prices amounts sides s e in
  qsum (fp_bv fp) == f_vol_buy d /\ qsum (fp_sv fp) == f_vol_sell d /\
  fold_right Z.add 0%Z (fp_bt fp) = f_ticks_buy d /\ fold_right Z.add 0%Z (fp_st fp) = f_ticks_sell d.
Proof.
  intros H Hk s e Hse d. pose proof (fps_nth _ _ _ _ _ _ _ _ _ _ _ H Hk) as E. fold s e in E.
  destruct (bar_fp _ _ _ _ _ _ _ _ _ Hse _ E) as [Ht [Hlh [Hr [Hlv [st [f [Inv [E1 [E2 [E3 [E4 _]]]]]]]]]]].
  pose proof (dir_parts prices amounts sides s e Hse) as K. cbv zeta in K. fold d in K. destruct K as [K1 [K2 [K3 [K4 _]]]].
  destruct Inv as [L1 [L2 [L3 [L4 [Hi [Q1 [Q2 [Z1 Z2]]]]]]]].
  rewrite E1, E2, E3, E4, K1, K2, K3, K4. auto.
Qed.

Lemma api_flags prices amounts closes sides tick lows highs mult fps k fp :
  comp_bar_footprints prices amounts closes sides tick lows highs mult = Ok fps -> nth_error fps k = Some fp ->
  let s := nth k closes 0%Z in let e := nth (S k) closes 0%Z in
  (-1 <= s <= e)%Z ->
  let n := length (fp_levels fp) in
  length (fp_bi fp) = n /\ length (fp_si fp) = n /\
  (forall i, (i < n)%nat -> nth i (fp_bi fp) false = true <-> (1 <= i)%nat /\ mult * nth (i - 1) (fp_sv fp) 0 < nth i (fp_bv fp) 0) /\
  (forall i, (i < n)%nat -> nth i (fp_si fp) false = true <-> (S i < n)%nat /\ mult * nth (S i) (fp_bv fp) 0 < nth i (fp_sv fp) 0) /\
  ((Z.of_nat n < 65536)%Z ->
   fp_bi_sum fp = Z.of_nat (length (filter (fun b => b) (fp_bi fp))) /\
   fp_si_sum fp = Z.of_nat (length (filter (fun b => b) (fp_si fp)))).
Proof.
  intros H Hk s e Hse n. pose proof (fps_nth _ _ _ _ _ _ _ _ _ _ _ H Hk) as E. fold s e in E.
  destruct (bar_fp _ _ _ _ _ _ _ _ _ Hse _ E) as [Ht [Hlh [Hr [Hlv [st [f [Inv [_ [_ [_ [_ [F [B1 [B2 [B3 [B4 _]]]]]]]]]]]]]]]].
  assert (Hn : (0 < length (fp_levels fp))%nat) by (rewrite Hlv, map_length, zrange_length; lia).
  destruct (feat_ok _ (fp_bv fp) (fp_sv fp) mult Hn) as [f' [F' [G1 [G2 _]]]].
  assert (f' = f) by congruence. subst f'. fold n in G1, G2, Hn.
  rewrite B1, B2, B3, B4. rewrite G1, G2, !map_length, seq_length.
  split; [reflexivity|]. split; [reflexivity|]. split; [|split].
  - intros i Hi. rewrite nth_map_seq by auto. rewrite bi_true. split; [tauto|]. intros [K1 K2]. repeat split; auto; lia.
  - intros i Hi. rewrite nth_map_seq by auto. rewrite si_true. split; [tauto|]. intros [K1 K2]. repeat split; auto; lia.
  - intro Hb.
    assert (G : forall g, count_true (map g (seq 0 n)) = Z.of_nat (length (filter (fun b => b) (map g (seq 0 n))))).
    { intro g. unfold count_true. apply wrapu_id. rewrite count_filter_map.
      assert (length (filter g (seq 0 n)) <= n)%nat.
      { rewrite <- (seq_length n 0) at 2. clear. induction (seq 0 n); simpl; [lia|]. destruct (g a); simpl; lia. }
      change (2 ^ 16)%Z with 65536%Z. lia. }
    now rewrite !G.
Qed.

Lemma api_run prices amounts closes sides tick lows highs mult fps k fp :
  comp_bar_footprints prices amounts closes sides tick lows highs mult = Ok fps -> nth_error fps k = Some fp ->
  (-1 <= nth k closes 0 <= nth (S k) closes 0)%Z ->
  let n := length (fp_levels fp) in
  (Z.of_nat n < 32768)%Z ->
  let sgn := imb_sign (fp_bi fp) (fp_si fp) in
  (forall a len sg, is_run sgn n a len sg -> (Z.of_nat len <= Z.abs (fp_run fp))%Z) /\
  (fp_run fp <> 0%Z -> exists a, is_run sgn n a (Z.to_nat (Z.abs (fp_run fp))) (Z.sgn (fp_run fp)) /\
     forall b sg, is_run sgn n b (Z.to_nat (Z.abs (fp_run fp))) sg -> (a <= b)%nat) /\
  (fp_run fp = 0%Z <-> forall i, (i < n)%nat -> nth i (fp_bi fp) false = false /\ nth i (fp_si fp) false = false).
Proof.
  intros H Hk Hse n Hb sgn. pose proof (fps_nth _ _ _ _ _ _ _ _ _ _ _ H Hk) as E.
  destruct (bar_fp _ _ _ _ _ _ _ _ _ Hse _ E) as [Ht [Hlh [Hr [Hlv [st [f [Inv [_ [_ [_ [_ [F [B1 [B2 [_ [_ [_ [B7 _]]]]]]]]]]]]]]]]]].
  assert (Hn : (0 < length (fp_levels fp))%nat) by (rewrite Hlv, map_length, zrange_length; lia).
  destruct (feat_ok _ (fp_bv fp) (fp_sv fp) mult Hn) as [f' [F' [_ [_ [G3 _]]]]].
  assert (f' = f) by congruence. subst f'. rewrite <- B1, <- B2 in G3. fold n in G3.
  pose proof (max_run_spec (fp_bi fp) (fp_si fp) n) as K. cbv zeta in K. rewrite <- G3 in K. fold sgn in K.
  assert (Bd : (Z.abs (ff_run f) <= Z.of_nat n)%Z).
  { destruct (Z.eq_dec (ff_run f) 0) as [->|Hz]; [lia|]. destruct K as [_ [K2 _]].
    destruct (K2 Hz) as [a [[_ [R2 _]] _]]. lia. }
  assert (W : fp_run fp = ff_run f).
  { rewrite B7. apply wraps_id; [lia|]. change (2 ^ (16 - 1))%Z with 32768%Z. lia. }
  rewrite W. destruct K as [K1 [K2 K3]]. split; [exact K1|]. split; [exact K2|].
  rewrite K3. split; intros Hi i Hin; specialize (Hi i Hin); unfold sgn, imb_sign in *.
  - destruct (nth i (fp_bi fp) false); [discriminate|]. destruct (nth i (fp_si fp) false); [discriminate|auto].
  - destruct Hi as [-> ->]. reflexivity.
Qed.

Lemma api_profile prices amounts closes sides tick lows highs mult fps k fp :
  comp_bar_footprints prices amounts closes sides tick lows highs mult = Ok fps -> nth_error fps k = Some fp ->
  (-1 <= nth k closes 0 <= nth (S k) closes 0)%Z ->
  let n := length (fp_levels fp) in
  let tot i := nth i (fp_bv fp) 0 + nth i (fp_sv fp) 0 in
  (exists c, (c < n)%nat /\ fp_cot fp = nth c (fp_levels fp) 0%Z /\
     (forall i, (i < n)%nat -> tot i <= tot c) /\ (forall i, (i < c)%nat -> tot i < tot c)) /\
  fp_skew fp == 0 /\
  (let V := qsum (map tot (seq 0 n)) in
   (V <= 0 -> fp_gini fp = 0) /\ (0 < V -> (1 - fp_gini fp) * V * V == qsum (map (fun i => tot i * tot i) (seq 0 n)))) /\
  ((forall x, In x amounts -> 0 <= x) -> 0 <= fp_gini fp < 1).
Proof.
  intros H Hk Hse n tot. pose proof (fps_nth _ _ _ _ _ _ _ _ _ _ _ H Hk) as E.
  destruct (bar_fp _ _ _ _ _ _ _ _ _ Hse _ E) as [Ht [Hlh [Hr [Hlv [st [f [Inv [E1 [E2 [_ [_ [F [_ [_ [_ [_ [B6 [_ [B8 B9]]]]]]]]]]]]]]]]]]].
  assert (Hn : (0 < length (fp_levels fp))%nat) by (rewrite Hlv, map_length, zrange_length; lia).
  destruct (feat_ok _ (fp_bv fp) (fp_sv fp) mult Hn) as [f' [F' [_ [_ [_ [G4 [G5 [G6 G7]]]]]]]].
  assert (f' = f) by congruence. subst f'. rewrite B6, B8, B9. split; [exact G4|]. split; [exact G5|]. split; [exact G6|].
  intro Ha. apply G7. intros i Hi.
  assert (Nn : forall j, 0 <= at_ amounts j).
  { intro j. unfold at_. destruct (nth_in_or_default (Z.to_nat j) amounts 0) as [Hin|Hd]; [auto|rewrite Hd; lra]. }
  destruct Inv as [L1 [L2 [_ [_ [Hi' _]]]]].
  assert (Hil : (i < Z.to_nat (rhe (nth k highs 0%Q / tick) - rhe (nth k lows 0%Q / tick) + 1))%nat).
  { rewrite Hlv, map_length, zrange_length in Hi. lia. }
  specialize (Hi' i Hil). rewrite E1, E2. destruct Hi' as [I1 [I2 _]]. rewrite I1, I2.
  assert (P : forall sg l, 0 <= level_sum sides (lev prices tick) sg l (at_ amounts) (nth k closes 0%Z) (nth (S k) closes 0%Z)).
  { intros sg l. apply bsum_nonneg. intros j _. destruct (_ && _)%bool; [auto|lra]. }
  pose proof (P 1%Z (rhe (nth k lows 0%Q / tick) + Z.of_nat i)%Z). pose proof (P (-1)%Z (rhe (nth k lows 0%Q / tick) + Z.of_nat i)%Z). lra.
Qed.

Lemma bar_fp_raise prices amounts sides tick lo hi mult s e x : ~ tick == 0 ->
  bar_footprint prices amounts sides tick lo hi mult s e = Raise x -> x = ValueError.
Proof.
  intros Ht. unfold bar_footprint. destruct (Qeqb_spec tick 0) as [|_]; [contradiction|]. cbv zeta.
  destruct (_ <? 0)%Z; [congruence|].
  fold (fp_run_to prices amounts sides tick (rhe (lo / tick)) (rhe (hi / tick) - rhe (lo / tick) + 1) s e).
  destruct (fp_run_to _ _ _ _ _ _ _ _) as [st|y] eqn:E.
  - unfold comp_footprint_features. destruct (_ =? 0)%nat; [congruence|discriminate].
  - intro H. injection H as <-. eapply fp_loop_error; eauto.
Qed.
