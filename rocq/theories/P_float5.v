(** P_float5.v -- proofs about footprint volumes and merged trades with float32 cells. *)
From Verif Require Import Base M_bars S_bars P_sort P_bars P_weights M_footprint S_footprint P_footprint M_trades
  M_float S_float P_features P_float P_float2 P_float3.
Open Scope Q_scope.

Lemma ucell_bounds : 0 <= ucell <= 1.
Proof. split; vm_compute; discriminate. Qed.

Lemma cell_err c x : 0 <= c + x -> Qabs (cell_add c x - (c + x)) <= Qabs (c + x) * ucell.
Proof.
  intro H. unfold cell_add. set (y := c + x) in *. rewrite (Qabs_pos y) by auto.
  pose proof (r53_err y) as R1. rewrite (Qabs_pos y) in R1 by auto. apply Qabs_Qle_condition in R1.
  pose proof (r53_nonneg y H) as N. pose proof (r24_err (r53 y)) as R2. rewrite (Qabs_pos (r53 y)) in R2 by auto.
  apply Qabs_Qle_condition in R2. set (a := r53 y) in *. set (b := r24 a) in *. clearbody a b.
  pose proof u53_bounds. pose proof u24_bounds. apply Qabs_Qle_condition. unfold ucell.
  assert (a * u24 <= (y + y * u53) * u24) by nra. assert (0 <= y * u53) by nra. split; nra.
Qed.
Lemma within_cell n a x q : within ucell n a x -> 0 <= x -> 0 <= q -> within ucell (S n) (cell_add a q) (x + q).
Proof.
  intros W Hx Hq. pose proof (within_nonneg ucell ucell_bounds n a x W Hx).
  apply (within_rnd ucell ucell_bounds n (a + q) (x + q)); [|lra|apply cell_err; lra].
  apply within_plus; [exact W|]. apply within_self; [exact ucell_bounds|auto].
Qed.
Lemma fl_weaken p m x : (0 <= p <= m)%Z -> fl p x -> fl m x.
Proof.
  intros H [a [e [A B]]]. exists a, e. split; [|exact B]. eapply Z.lt_le_trans; [exact A|]. apply Z.pow_le_mono_r; lia.
Qed.
Lemma cell_mono c x : fl 24 c -> 0 <= x -> c <= cell_add c x.
Proof.
  intros F Hx. unfold cell_add. apply rnd_ge; [lia|exact F|]. apply rnd_ge; [lia|apply (fl_weaken 24); [lia|exact F]|lra].
Qed.
Lemma cell_grid g c x : grid g c -> grid g x -> 0 <= c + x <= two (24 + g) -> cell_add c x == c + x.
Proof.
  intros G1 G2 B. assert (G : grid g (c + x)) by (now apply grid_plus). unfold cell_add.
  pose proof (two_le (24 + g) (53 + g) ltac:(lia)).
  assert (E : r53 (c + x) == c + x) by (apply (grid_rnd 53 g); [lia|exact G|lra]).
  rewrite E. apply (grid_rnd 24 g); [lia|exact G|lra].
Qed.
Lemma cell_comp c c' x x' : c == c' -> x == x' -> cell_add c x = cell_add c' x'.
Proof.
  intros E F. unfold cell_add, r24, r53. rewrite (rnd_comp 53 (c + x) (c' + x')); [reflexivity|]. rewrite E, F. reflexivity.
Qed.

(* ---------------------------------------------------------------- levels *)
Lemma cell_add_at_length l i x : length (cell_add_at l i x) = length l.
Proof. unfold cell_add_at. now rewrite map_length, seq_length. Qed.
Lemma cell_add_at_nth l i x k : (k < length l)%nat -> nth k (cell_add_at l i x) 0 = if (k =? i)%nat then cell_add (nth k l 0) x else nth k l 0.
Proof. intro H. unfold cell_add_at. now rewrite nth_map_seq. Qed.

(** The level of a price close to a multiple of the tick. *)
Lemma level_f_near tick price k : 0 < tick -> (Z.abs k <= 2 ^ 50)%Z -> Qabs (price - inject_Z k * tick) <= (1 # 4) * tick ->
  level_f tick price = k.
Proof.
  intros Ht Hk Hp. unfold level_f. apply (rounds_unique (r53 (price / tick))); [apply rhe_spec|].
  assert (D : Qabs (price / tick - inject_Z k) <= 1 # 4).
  { assert (E : price / tick - inject_Z k == (price - inject_Z k * tick) * / tick) by (field; lra).
    rewrite E, Qabs_scale by (now apply Qinv_lt_0_compat). apply Qle_shift_div_r; auto. }
  pose proof (r53_err (price / tick)) as R. set (y := price / tick) in *. set (r := r53 y) in *. clearbody y r.
  assert (Qk : Qabs (inject_Z k) <= inject_Z (2 ^ 50)).
  { change (Qabs (inject_Z k)) with (inject_Z (Z.abs k)). rewrite <- Zle_Qle. exact Hk. }
  assert (Y : Qabs y <= inject_Z (2 ^ 50) + 1).
  { assert (E : y == inject_Z k + (y - inject_Z k)) by ring. rewrite E. eapply Qle_trans; [apply Qabs_triangle|]. lra. }
  assert (R' : Qabs (r - y) <= 3 # 16).
  { eapply Qle_trans; [exact R|]. apply Qle_trans with ((inject_Z (2 ^ 50) + 1) * u53).
    - apply Qmult_le_compat_r; [exact Y|apply u53_bounds].
    - vm_compute. discriminate. }
  assert (T : Qabs (r - inject_Z k) <= 7 # 16).
  { assert (E : r - inject_Z k == (r - y) + (y - inject_Z k)) by ring. rewrite E. eapply Qle_trans; [apply Qabs_triangle|]. lra. }
  split; [lra|]. intro C. exfalso. lra.
Qed.
Lemma level_f_mono tick x y : 0 < tick -> x <= y -> (level_f tick x <= level_f tick y)%Z.
Proof.
  intros Ht H. unfold level_f. apply rhe_mono, r53_mono. unfold Qdiv. apply Qmult_le_compat_r; [auto|].
  apply Qlt_le_weak. now apply Qinv_lt_0_compat.
Qed.

Section Fp.
  Variables prices amounts : list Q.
  Variable sides : list Z.
  Variable tick : Q.
  Variables low n : Z.
  Hypothesis Hn : (0 <= n)%Z.
  Hypothesis Hq : forall x, In x amounts -> 0 <= x.
  Notation p := (at_ prices).
  Notation q := (at_ amounts).
  Definition levf (j : Z) : Z := level_f tick (at_ prices j).

  Definition fpf_inv (s e : Z) (st : levels) : Prop :=
    let zn := Z.to_nat n in
    length (lv_bv st) = zn /\ length (lv_sv st) = zn /\ length (lv_bt st) = zn /\ length (lv_st st) = zn /\
    (forall i, (i < zn)%nat ->
       let l := (low + Z.of_nat i)%Z in
       (within ucell (level_count sides levf 1 l s e) (nth i (lv_bv st) 0) (level_sum sides levf 1 l q s e) /\
        within ucell (level_count sides levf (-1) l s e) (nth i (lv_sv st) 0) (level_sum sides levf (-1) l q s e)) /\
       nth i (lv_bt st) 0%Z = Z.of_nat (level_count sides levf 1 l s e) /\
       nth i (lv_st st) 0%Z = Z.of_nat (level_count sides levf (-1) l s e) /\
       (forall g, (forall x, In x amounts -> grid g x) ->
          (level_sum sides levf 1 l q s e <= two (24 + g) -> nth i (lv_bv st) 0 == level_sum sides levf 1 l q s e) /\
          (level_sum sides levf (-1) l q s e <= two (24 + g) -> nth i (lv_sv st) 0 == level_sum sides levf (-1) l q s e))).

  Definition fpf_run (s e : Z) : result levels :=
    fold_left (fp_step_f prices amounts sides tick low n) (zrange (s + 1) (e + 1))
      (Ok (mkLv (repeat 0 (Z.to_nat n)) (repeat 0 (Z.to_nat n)) (repeat 0%Z (Z.to_nat n)) (repeat 0%Z (Z.to_nat n)))).

  Lemma level_nonneg sg l s e : 0 <= level_sum sides levf sg l q s e.
  Proof. apply bsum_nonneg. intros j _. destruct (_ && _)%bool; [apply at_nonneg, Hq|lra]. Qed.
  Lemma at_grid g : (forall x, In x amounts -> grid g x) -> forall j, grid g (q j).
  Proof.
    intros G j. unfold at_. destruct (Nat.lt_ge_cases (Z.to_nat j) (length amounts)).
    - apply G. now apply nth_In.
    - rewrite nth_overflow by auto. apply grid_0.
  Qed.
  Lemma level_grid g sg l s e : (s <= e)%Z -> (forall x, In x amounts -> grid g x) -> grid g (level_sum sides levf sg l q s e).
  Proof.
    intros He G. revert e He. apply bar_ind.
    - eapply grid_comp; [symmetry; apply level_sum_nil|apply grid_0].
    - intros e He IH. eapply grid_comp; [symmetry; apply level_sum_snoc; lia|]. apply grid_plus; [exact IH|].
      destruct (_ && _)%bool; [now apply at_grid|apply grid_0].
  Qed.

  Lemma fpf_loop s e : (-1 <= s <= e)%Z ->
    (forall j, (s < j <= e)%Z -> (low <= levf j < low + n)%Z) ->
    exists st, fpf_run s e = Ok st /\ fpf_inv s e st.
  Proof.
    intros [Hs He]. revert e He. apply (bar_ind (fun e => (forall j, (s < j <= e)%Z -> (low <= levf j < low + n)%Z) ->
      exists st, fpf_run s e = Ok st /\ fpf_inv s e st)).
    - intros _. unfold fpf_run. rewrite zrange_nil by lia. eexists. split; [reflexivity|].
      unfold fpf_inv. cbn [lv_bv lv_sv lv_bt lv_st]. rewrite !repeat_length.
      repeat (split; [reflexivity|]).
      intros i Hi. cbv zeta. rewrite !nth_repeat. rewrite !level_count_nil.
      split; [split; (eapply within_comp; [reflexivity|symmetry; apply level_sum_nil|apply within_0])|].
      split; [reflexivity|]. split; [reflexivity|]. intros g _. rewrite !level_sum_nil. split; reflexivity.
    - intros e He IH Hr. destruct IH as [st [E Inv]]; [intros j Hj; apply Hr; lia|].
      unfold fpf_run in *. rewrite fold_bar by lia. rewrite E.
      specialize (Hr (e + 1)%Z ltac:(lia)). unfold fp_step_f.
      rewrite !zget_nonneg by lia. fold (p (e + 1)) (q (e + 1)) (zat sides (e + 1)). fold (levf (e + 1)).
      destruct (Z.leb_spec 0 (levf (e + 1) - low)); [|lia]. destruct (Z.ltb_spec (levf (e + 1) - low) n); [|lia].
      cbn [andb]. set (ix := Z.to_nat (levf (e + 1) - low)).
      destruct Inv as [L1 [L2 [L3 [L4 Hi]]]].
      assert (Hix : (ix < Z.to_nat n)%nat) by (unfold ix; lia).
      assert (Hsel : forall i, (i < Z.to_nat n)%nat -> (i =? ix)%nat = (levf (e + 1) =? low + Z.of_nat i)%Z).
      { intros i Hi'. unfold ix. destruct (Nat.eqb_spec i (Z.to_nat (levf (e + 1) - low))), (Z.eqb_spec (levf (e + 1)) (low + Z.of_nat i)); auto; lia. }
      pose proof (at_nonneg _ Hq (e + 1)) as Q0.
      set (sg := zat sides (e + 1)) in *.
      (* one side of one level *)
      assert (Step : forall z (i : nat) c, let l := (low + Z.of_nat i)%Z in
        within ucell (level_count sides levf z l s e) c (level_sum sides levf z l q s e) ->
        (forall g, (forall x, In x amounts -> grid g x) -> level_sum sides levf z l q s e <= two (24 + g) -> c == level_sum sides levf z l q s e) ->
        let c' := if ((sg =? z) && (levf (e + 1) =? l))%Z%bool then cell_add c (q (e + 1)) else c in
        within ucell (level_count sides levf z l s (e + 1)) c' (level_sum sides levf z l q s (e + 1)) /\
        (forall g, (forall x, In x amounts -> grid g x) -> level_sum sides levf z l q s (e + 1) <= two (24 + g) -> c' == level_sum sides levf z l q s (e + 1))).
      { intros z i c l W G c'. unfold c'.
        pose proof (level_sum_snoc sides levf z l q s e ltac:(lia)) as LS. pose proof (level_count_snoc sides levf z l s e ltac:(lia)) as LC.
        fold sg in LS, LC. pose proof (level_nonneg z l s e) as L0.
        destruct ((sg =? z) && (levf (e + 1) =? l))%Z%bool.
        - split.
          + rewrite LC, Nat.add_1_r. eapply within_comp; [reflexivity|symmetry; exact LS|]. now apply within_cell.
          + intros g Hg B. rewrite LS in B. rewrite LS. specialize (G g Hg ltac:(lra)).
            rewrite (cell_comp _ _ _ _ G (Qeq_refl _)). apply (cell_grid g); [apply level_grid; [lia|auto]|now apply at_grid|lra].
        - rewrite LC, Nat.add_0_r. split.
          + eapply within_comp; [reflexivity| |exact W]. lra.
          + intros g Hg B. rewrite LS in B. rewrite LS, Qplus_0_r. apply (G g Hg). lra. }
      assert (Fin : forall bv sv bt st', length bv = Z.to_nat n -> length sv = Z.to_nat n -> length bt = Z.to_nat n -> length st' = Z.to_nat n ->
        (forall i, (i < Z.to_nat n)%nat ->
           nth i bv 0 = (if ((sg =? 1) && (levf (e + 1) =? low + Z.of_nat i))%Z%bool then cell_add (nth i (lv_bv st) 0) (q (e + 1)) else nth i (lv_bv st) 0) /\
           nth i sv 0 = (if ((sg =? -1) && (levf (e + 1) =? low + Z.of_nat i))%Z%bool then cell_add (nth i (lv_sv st) 0) (q (e + 1)) else nth i (lv_sv st) 0) /\
           nth i bt 0%Z = (nth i (lv_bt st) 0 + if ((sg =? 1) && (levf (e + 1) =? low + Z.of_nat i))%Z%bool then 1 else 0)%Z /\
           nth i st' 0%Z = (nth i (lv_st st) 0 + if ((sg =? -1) && (levf (e + 1) =? low + Z.of_nat i))%Z%bool then 1 else 0)%Z) ->
        fpf_inv s (e + 1) (mkLv bv sv bt st')).
      { intros bv sv bt st' A1 A2 A3 A4 HA. unfold fpf_inv. cbn [lv_bv lv_sv lv_bt lv_st].
        do 4 (split; [assumption|]). intros i Hi'. cbv zeta. destruct (HA i Hi') as [B1 [B2 [B3 B4]]].
        destruct (Hi i Hi') as [[W1 W2] [C1 [C2 G]]].
        destruct (Step 1%Z i (nth i (lv_bv st) 0) W1 (fun g Hg => proj1 (G g Hg))) as [S1 T1].
        destruct (Step (-1)%Z i (nth i (lv_sv st) 0) W2 (fun g Hg => proj2 (G g Hg))) as [S2 T2].
        rewrite B1, B2. split; [split; [exact S1|exact S2]|].
        split. { rewrite B3, C1, (level_count_snoc sides levf 1) by lia. fold sg. destruct ((sg =? 1) && (levf (e + 1) =? low + Z.of_nat i))%Z%bool; lia. }
        split. { rewrite B4, C2, (level_count_snoc sides levf (-1)) by lia. fold sg. destruct ((sg =? -1) && (levf (e + 1) =? low + Z.of_nat i))%Z%bool; lia. }
        intros g Hg. split; [exact (T1 g Hg)|exact (T2 g Hg)]. }
      destruct (Z.eqb_spec sg 1) as [E1|E1]; [|destruct (Z.eqb_spec sg (-1)) as [E2|E2]].
      + eexists; split; [reflexivity|]. apply Fin; rewrite ?cell_add_at_length, ?zadd_at_length; try assumption.
        intros i Hi'. rewrite cell_add_at_nth, zadd_at_nth by lia. rewrite (Hsel i Hi'), E1. cbn [Z.eqb Pos.eqb andb].
        destruct (levf (e + 1) =? low + Z.of_nat i)%Z; repeat split; lia.
      + eexists; split; [reflexivity|]. apply Fin; rewrite ?cell_add_at_length, ?zadd_at_length; try assumption.
        intros i Hi'. rewrite cell_add_at_nth, zadd_at_nth by lia. rewrite (Hsel i Hi'). cbn [Z.eqb Pos.eqb andb].
        destruct (levf (e + 1) =? low + Z.of_nat i)%Z; repeat split; lia.
      + exists st. split; [reflexivity|]. destruct st as [bv sv bt st']. apply Fin; try assumption.
        intros i Hi'. cbn [lv_bv lv_sv lv_bt lv_st andb]. repeat split; lia.
  Qed.
  Lemma fpf_loop_inv s e st : (-1 <= s <= e)%Z -> fpf_run s e = Ok st ->
    (forall j, (s < j <= e)%Z -> (low <= levf j < low + n)%Z).
  Proof.
    intros [Hs He]. revert e He st. apply (bar_ind (fun e => forall st, fpf_run s e = Ok st ->
      forall j, (s < j <= e)%Z -> (low <= levf j < low + n)%Z)).
    - intros; lia.
    - intros e He IH st E j Hj. unfold fpf_run in *. rewrite fold_bar in E by lia.
      destruct (fold_left _ _ _) as [st0|x] eqn:E0; [|discriminate E].
      destruct (Z.eq_dec j (e + 1)) as [->|]; [|apply (IH st0 eq_refl); lia].
      unfold fp_step_f in E. rewrite !zget_nonneg in E by lia. fold (p (e + 1)) in E. fold (levf (e + 1)) in E.
      destruct (Z.leb_spec 0 (levf (e + 1) - low)); [|discriminate E].
      destruct (Z.ltb_spec (levf (e + 1) - low) n); [|discriminate E]. lia.
  Qed.
End Fp.
