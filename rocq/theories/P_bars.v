(** P_bars.v -- proofs about OHLCV, directional and trade-size features. *)
From Coq Require Import Qround.
From Verif Require Import Base M_bars S_bars P_sort.
Open Scope Q_scope.

(* ---------------------------------------------------------------- sums *)
Lemma bsum_nil f a b : (b <= a)%Z -> bsum f a b == 0.
Proof. intro H. unfold bsum. rewrite zrange_nil by lia. reflexivity. Qed.
Lemma bsum_snoc f a b : (a <= b)%Z -> bsum f a (b + 1) == bsum f a b + f (b + 1)%Z.
Proof.
  intro H. unfold bsum. rewrite zrange_snoc by lia. rewrite map_app, qsum_app. simpl. ring.
Qed.
Lemma bsum_split f a b c : (a <= b <= c)%Z -> bsum f a c == bsum f a b + bsum f b c.
Proof.
  intro H. unfold bsum. rewrite (zrange_app (a + 1) (b + 1) (c + 1)) by lia. now rewrite map_app, qsum_app.
Qed.
Lemma bsum_ext f g a b : (forall j, (a < j <= b)%Z -> f j == g j) -> bsum f a b == bsum g a b.
Proof. intro H. apply qsum_map_ext. intros x Hx. apply in_zrange in Hx. apply H. lia. Qed.
Lemma bsum_le f g a b : (forall j, (a < j <= b)%Z -> f j <= g j) -> bsum f a b <= bsum g a b.
Proof. intro H. apply qsum_le. intros x Hx. apply in_zrange in Hx. apply H. lia. Qed.
Lemma bsum_nonneg f a b : (forall j, (a < j <= b)%Z -> 0 <= f j) -> 0 <= bsum f a b.
Proof.
  intro H. apply qsum_nonneg. intros x Hx. apply in_map_iff in Hx. destruct Hx as [j [<- Hj]].
  apply in_zrange in Hj. apply H. lia.
Qed.
Lemma bsum_scal c f a b : bsum (fun j => c * f j) a b == c * bsum f a b.
Proof. apply qsum_map_scal. Qed.
Lemma bsum_plus f g a b : bsum (fun j => f j + g j) a b == bsum f a b + bsum g a b.
Proof. apply qsum_map_plus. Qed.
Lemma bsum_zero f a b : (forall j, (a < j <= b)%Z -> 0 <= f j) -> bsum f a b == 0 ->
  forall j, (a < j <= b)%Z -> f j == 0.
Proof.
  intros H Hs j Hj. apply Qle_antisym; [|auto].
  rewrite <- Hs. apply qsum_elem_le.
  - intros y Hy. apply in_map_iff in Hy. destruct Hy as [i [<- Hi]]. apply in_zrange in Hi. apply H. lia.
  - apply in_map. apply in_zrange. lia.
Qed.

Lemma bar_ind (P : Z -> Prop) s : P s -> (forall e, (s <= e)%Z -> P e -> P (e + 1)%Z) -> forall e, (s <= e)%Z -> P e.
Proof.
  intros H0 HS e He. replace e with (s + Z.of_nat (Z.to_nat (e - s)))%Z by lia.
  induction (Z.to_nat (e - s)) as [|m IH].
  - replace (s + Z.of_nat 0)%Z with s by lia. exact H0.
  - replace (s + Z.of_nat (S m))%Z with (s + Z.of_nat m + 1)%Z by lia. apply HS; [lia|exact IH].
Qed.

Lemma fold_left_ext_in {A B} (f g : A -> B -> A) l a :
  (forall a b, In b l -> f a b = g a b) -> fold_left f l a = fold_left g l a.
Proof.
  revert a. induction l as [|x l IH]; simpl; intros a H; [reflexivity|].
  rewrite (H a x) by auto. apply IH. auto.
Qed.

Lemma fold_bar {A} (f : A -> Z -> A) s e a : (s <= e)%Z ->
  fold_left f (zrange (s + 1) (e + 1 + 1)) a = f (fold_left f (zrange (s + 1) (e + 1)) a) (e + 1)%Z.
Proof. intro H. rewrite (zrange_snoc (s + 1) (e + 1)) by lia. now rewrite fold_left_app. Qed.

(* ---------------------------------------------------------------- OHLCV *)
Section Ohlcv.
  Variables prices vols : list Q.
  Notation p := (at_ prices).
  Notation q := (at_ vols).

  Definition ohlc_inv (s e : Z) (st : Q * Q * Q * Q) : Prop :=
    let '(h, l, v, d) := st in
    (h = p (s + 1) \/ exists j, (s < j <= e)%Z /\ h = p j) /\
    (l = p (s + 1) \/ exists j, (s < j <= e)%Z /\ l = p j) /\
    (forall j, (s < j <= e)%Z -> l <= p j <= h) /\
    v == bsum q s e /\ d == bsum (fun j => p j * q j) s e.

  Lemma ohlc_loop s e : (-1 <= s <= e)%Z ->
    ohlc_inv s e (fold_left (ohlcv_step prices vols) (zrange (s + 1) (e + 1)) (zget 0 prices (s + 1), zget 0 prices (s + 1), 0, 0)).
  Proof.
    intros [Hs He]. revert e He. apply bar_ind.
    - rewrite zrange_nil by lia. simpl. rewrite zget_nonneg by lia. fold (p (s + 1)).
      repeat split; auto; try (rewrite bsum_nil by lia; reflexivity); lia.
    - intros e He IH. rewrite fold_bar by lia.
      destruct (fold_left _ _ _) as [[[h l] v] d]. unfold ohlc_inv in *. destruct IH as [Hh [Hl [Hb [Hv Hd]]]].
      cbn [ohlcv_step]. rewrite !zget_nonneg by lia. fold (p (e + 1)) (q (e + 1)).
      split; [|split; [|split; [|split]]].
      + destruct (Qltb h (p (e + 1))).
        * right. exists (e + 1)%Z. split; [lia|reflexivity].
        * destruct Hh as [Hh|[j [Hj Hh]]]; [auto|]. right. exists j. split; [lia|auto].
      + destruct (Qltb (p (e + 1)) l).
        * right. exists (e + 1)%Z. split; [lia|reflexivity].
        * destruct Hl as [Hl|[j [Hj Hl]]]; [auto|]. right. exists j. split; [lia|auto].
      + intros j Hj. destruct (Z.eq_dec j (e + 1)) as [->|Hne].
        * destruct (Qltb_spec h (p (e + 1))), (Qltb_spec (p (e + 1)) l); lra.
        * specialize (Hb j ltac:(lia)). destruct (Qltb_spec h (p (e + 1))), (Qltb_spec (p (e + 1)) l); lra.
      + rewrite bsum_snoc by lia. now rewrite Hv.
      + rewrite bsum_snoc by lia. now rewrite Hd.
  Qed.

  Lemma bar_ohlcv_spec s e : (-1 <= s < e)%Z ->
    let b := bar_ohlcv prices vols s e in
    b_open b = p (s + 1) /\ b_close b = p e /\
    is_max p (fun _ => True) s e (b_high b) /\ is_min p (fun _ => True) s e (b_low b) /\
    b_trades b = (e - s)%Z /\ b_volume b == bsum q s e /\
    (0 < b_volume b -> b_vwap b * b_volume b == bsum (fun j => p j * q j) s e) /\
    (b_volume b <= 0 -> b_vwap b == 0).
  Proof.
    intros H b. unfold b, bar_ohlcv. destruct (Z.eqb_spec s e); [lia|].
    pose proof (ohlc_loop s e ltac:(lia)) as HL.
    destruct (fold_left _ _ _) as [[[h l] v] d]. cbn [b_open b_close b_high b_low b_trades b_volume b_vwap].
    unfold ohlc_inv in HL. destruct HL as [Hh [Hl [Hb [Hv Hd]]]].
    rewrite !zget_nonneg by lia. fold (p (s + 1)) (p e).
    repeat split.
    - destruct Hh as [->|[j [Hj ->]]]; [exists (s + 1)%Z|exists j]; split; try lia; split; auto; reflexivity.
    - intros j Hj _. now apply Hb.
    - destruct Hl as [->|[j [Hj ->]]]; [exists (s + 1)%Z|exists j]; split; try lia; split; auto; reflexivity.
    - intros j Hj _. now apply Hb.
    - lia.
    - exact Hv.
    - intro Hp. destruct (Qltb_spec 0 v); [|lra]. rewrite <- Hd. field. lra.
    - intro Hp. destruct (Qltb_spec 0 v); [lra|reflexivity].
  Qed.

  Lemma bar_ohlcv_order s e : (-1 <= s < e)%Z ->
    let b := bar_ohlcv prices vols s e in
    b_low b <= b_open b <= b_high b /\ b_low b <= b_close b <= b_high b.
  Proof.
    intros H b. pose proof (bar_ohlcv_spec s e H) as K. cbv zeta in K. fold b in K. destruct K as [Ho [Hc [[_ Hh] [[_ Hl] _]]]].
    rewrite Ho, Hc. pose proof (Hh (s + 1)%Z ltac:(lia) I). pose proof (Hh e ltac:(lia) I).
    pose proof (Hl (s + 1)%Z ltac:(lia) I). pose proof (Hl e ltac:(lia) I). lra.
  Qed.

  Lemma bar_ohlcv_vwap s e : (-1 <= s < e)%Z -> (forall j, (s < j <= e)%Z -> 0 <= q j) ->
    let b := bar_ohlcv prices vols s e in
    0 < b_volume b -> b_low b <= b_vwap b <= b_high b.
  Proof.
    intros H Hq b Hp. pose proof (bar_ohlcv_spec s e H) as K. cbv zeta in K. fold b in K. destruct K as [_ [_ [[_ Hh] [[_ Hl] [_ [Hv [Hw _]]]]]]].
    specialize (Hw Hp).
    assert (L : b_low b * b_volume b <= b_vwap b * b_volume b).
    { rewrite Hw, Hv, <- bsum_scal. apply bsum_le. intros j Hj.
      pose proof (Hl j Hj I). apply Qmult_le_compat_r; auto. }
    assert (U : b_vwap b * b_volume b <= b_high b * b_volume b).
    { rewrite Hw, Hv, <- bsum_scal. apply bsum_le. intros j Hj.
      pose proof (Hh j Hj I). apply Qmult_le_compat_r; auto. }
    split; eapply Qmult_lt_0_le_reg_r; eauto.
  Qed.

  Lemma bar_ohlcv_empty s : (0 <= s)%Z ->
    bar_ohlcv prices vols s s = mkOhlcv (p s) (p s) (p s) (p s) 0 0 0 0.
  Proof. intro H. unfold bar_ohlcv. rewrite Z.eqb_refl. now rewrite zget_nonneg by lia. Qed.

  (** Dollar value of any bar with non-negative amounts. *)
  Lemma bar_dollar s e : (-1 <= s <= e)%Z -> (forall j, (s < j <= e)%Z -> 0 <= q j) ->
    let b := bar_ohlcv prices vols s e in
    b_vwap b * b_volume b == bsum (fun j => p j * q j) s e.
  Proof.
    intros H Hq b. destruct (Z.eq_dec s e) as [->|Hne].
    - unfold b, bar_ohlcv. rewrite Z.eqb_refl. simpl. rewrite bsum_nil by lia. ring.
    - pose proof (bar_ohlcv_spec s e ltac:(lia)) as K. cbv zeta in K. fold b in K. destruct K as [_ [_ [_ [_ [_ [Hv [Hw _]]]]]]].
      destruct (Qlt_le_dec 0 (b_volume b)) as [Hp|Hn]; [auto|].
      assert (Hz : bsum q s e == 0).
      { apply Qle_antisym; [now rewrite <- Hv|now apply bsum_nonneg]. }
      rewrite Hv, Hz. rewrite Qmult_0_r. symmetry.
      rewrite (bsum_ext _ (fun _ => 0 * 0)); [rewrite bsum_scal; ring|].
      intros j Hj. rewrite (bsum_zero q s e Hq Hz j Hj). ring.
  Qed.
  Lemma bar_volume s e : (-1 <= s <= e)%Z -> b_volume (bar_ohlcv prices vols s e) == bsum q s e.
  Proof.
    intro H. destruct (Z.eq_dec s e) as [->|Hne].
    - unfold bar_ohlcv. rewrite Z.eqb_refl. simpl. now rewrite bsum_nil by lia.
    - apply (bar_ohlcv_spec s e). lia.
  Qed.
  Lemma bar_trades s e : (-1 <= s <= e)%Z -> b_trades (bar_ohlcv prices vols s e) = (e - s)%Z.
  Proof.
    intro H. destruct (Z.eq_dec s e) as [->|Hne].
    - unfold bar_ohlcv. rewrite Z.eqb_refl. simpl. lia.
    - apply (bar_ohlcv_spec s e). lia.
  Qed.
  Lemma bar_median s e : (-1 <= s < e)%Z -> (e < Z.of_nat (length vols))%Z ->
    b_median (bar_ohlcv prices vols s e) = median (slice vols (s + 1) (e + 1)).
  Proof.
    intros H He. unfold bar_ohlcv. destruct (Z.eqb_spec s e); [lia|].
    destruct (fold_left _ _ _) as [[[h l] v] d]. cbn [b_median].
    destruct (Z.ltb_spec 0 (e - (s + 1) + 1)); [|lia].
    now rewrite map_zget_zrange by lia.
  Qed.
End Ohlcv.

Lemma comp_ohlcv_ok prices vols closes bars : comp_bar_ohlcv prices vols closes = Ok bars ->
  length prices = length vols /\ (2 <= length closes)%nat /\
  bars = map (fun k => bar_ohlcv prices vols (nth k closes 0%Z) (nth (S k) closes 0%Z)) (seq 0 (length closes - 1)).
Proof.
  unfold comp_bar_ohlcv. destruct (Nat.eqb_spec (length prices) (length vols)); [|discriminate].
  cbn [negb]. destruct (Nat.ltb_spec (length closes) 2); [discriminate|]. intro E. injection E as <-. auto.
Qed.
Lemma nth_error_map_seq {A} (f : nat -> A) n k b : nth_error (map f (seq 0 n)) k = Some b -> (k < n)%nat /\ b = f k.
Proof.
  intro H. assert (Hk : (k < n)%nat).
  { assert (nth_error (map f (seq 0 n)) k <> None) by congruence. apply nth_error_Some in H0.
    now rewrite map_length, seq_length in H0. }
  split; [auto|]. rewrite nth_error_map, (nth_error_nth' _ O) in H by (now rewrite seq_length).
  rewrite seq_nth in H by auto. cbn in H. congruence.
Qed.

Lemma bars_total (f : Z -> Q) (g : Z -> Z -> Q) closes m :
  (forall i, (S i <= m)%nat -> (nth i closes 0 <= nth (S i) closes 0)%Z) ->
  (forall i, (S i <= m)%nat -> g (nth i closes 0%Z) (nth (S i) closes 0%Z) == bsum f (nth i closes 0%Z) (nth (S i) closes 0%Z)) ->
  (nth 0 closes 0 <= nth m closes 0)%Z /\
  qsum (map (fun k => g (nth k closes 0%Z) (nth (S k) closes 0%Z)) (seq 0 m)) == bsum f (nth 0 closes 0%Z) (nth m closes 0%Z).
Proof.
  induction m as [|m IH]; intros Ha Hg.
  - split; [lia|]. simpl seq. simpl map. rewrite bsum_nil by lia. reflexivity.
  - destruct IH as [I1 I2]; [intros; apply Ha; lia|intros; apply Hg; lia|].
    pose proof (Ha m ltac:(lia)) as A. split; [lia|].
    rewrite seq_S, map_app, qsum_app, I2, (Nat.add_0_l m). simpl map. simpl qsum. rewrite (Hg m ltac:(lia)).
    rewrite (bsum_split f (nth 0 closes 0%Z) (nth m closes 0%Z) (nth (S m) closes 0%Z)) by lia. ring.
Qed.

(* ---------------------------------------------------------------- directional *)
Lemma bcount_nil sides sg a b : (b <= a)%Z -> bcount sides sg a b = 0%nat.
Proof. intro H. unfold bcount. now rewrite zrange_nil by lia. Qed.
Lemma bcount_snoc sides sg a b : (a <= b)%Z ->
  bcount sides sg a (b + 1) = (bcount sides sg a b + if (zat sides (b + 1) =? sg)%Z then 1 else 0)%nat.
Proof.
  intro H. unfold bcount. rewrite zrange_snoc by lia. rewrite filter_app, app_length. f_equal.
  simpl. destruct (zat sides (b + 1) =? sg)%Z; reflexivity.
Qed.
Lemma side_snoc sides sg f a b : (a <= b)%Z ->
  side_sum sides sg f a (b + 1) == side_sum sides sg f a b + if (zat sides (b + 1) =? sg)%Z then f (b + 1)%Z else 0.
Proof. intro H. unfold side_sum. now rewrite bsum_snoc by lia. Qed.

Definition ext_inv (S_ : Z -> Prop) (g : Z -> Q) (s e : Z) (mn mx : Q) : Prop :=
  (forall j, (s < j <= e)%Z -> S_ j -> mn <= g j <= mx) /\
  (mn = inject_Z big \/ exists j, (s < j <= e)%Z /\ S_ j /\ mn == g j) /\
  (mx = inject_Z (- big) \/ exists j, (s < j <= e)%Z /\ S_ j /\ mx == g j) /\
  ((forall j, (s < j <= e)%Z -> ~ S_ j) -> mn = inject_Z big /\ mx = inject_Z (- big)).

Lemma ext_inv_skip S_ g s e mn mx : ext_inv S_ g s e mn mx -> ~ S_ (e + 1)%Z -> ext_inv S_ g s (e + 1) mn mx.
Proof.
  intros [H1 [H2 [H3 H4]]] Hn. split; [|split; [|split]].
  - intros j Hj Sj. destruct (Z.eq_dec j (e + 1)) as [->|]; [tauto|]. apply H1; [lia|auto].
  - destruct H2 as [H2|[j [Hj K]]]; [auto|]. right. exists j. split; [lia|auto].
  - destruct H3 as [H3|[j [Hj K]]]; [auto|]. right. exists j. split; [lia|auto].
  - intro K. apply H4. intros j Hj. apply K. lia.
Qed.
Lemma ext_inv_step S_ g s e mn mx c : (s <= e)%Z -> ext_inv S_ g s e mn mx -> S_ (e + 1)%Z -> c == g (e + 1)%Z ->
  ext_inv S_ g s (e + 1) (pmin mn c) (pmax mx c).
Proof.
  intros Hse [H1 [H2 [H3 H4]]] Sy Hc. unfold pmin, pmax. split; [|split; [|split]].
  - intros j Hj Sj. destruct (Z.eq_dec j (e + 1)) as [->|].
    + rewrite <- Hc. destruct (Qltb_spec c mn), (Qltb_spec mx c); lra.
    + specialize (H1 j ltac:(lia) Sj). destruct (Qltb_spec c mn), (Qltb_spec mx c); lra.
  - destruct (Qltb c mn).
    + right. exists (e + 1)%Z. split; [lia|auto].
    + destruct H2 as [H2|[j [Hj K]]]; [auto|]. right. exists j. split; [lia|auto].
  - destruct (Qltb mx c).
    + right. exists (e + 1)%Z. split; [lia|auto].
    + destruct H3 as [H3|[j [Hj K]]]; [auto|]. right. exists j. split; [lia|auto].
  - intro K. exfalso. apply (K (e + 1)%Z); [lia|auto].
Qed.
Lemma ext_inv_final S_ g s e mn mx : ext_inv S_ g s e mn mx ->
  (exists j, (s < j <= e)%Z /\ S_ j) ->
  (forall j, (s < j <= e)%Z -> S_ j -> inject_Z (- big) <= g j <= inject_Z big) ->
  is_min g S_ s e mn /\ is_max g S_ s e mx.
Proof.
  intros [H1 [H2 [H3 _]]] [j0 [Hj0 S0]] Hb. split; split.
  - destruct H2 as [->|H2]; [|auto]. exists j0. split; [auto|]. split; [auto|].
    specialize (H1 j0 Hj0 S0). specialize (Hb j0 Hj0 S0). lra.
  - intros j Hj Sj. now apply H1.
  - destruct H3 as [->|H3]; [|auto]. exists j0. split; [auto|]. split; [auto|].
    specialize (H1 j0 Hj0 S0). specialize (Hb j0 Hj0 S0). lra.
  - intros j Hj Sj. now apply H1.
Qed.

Lemma pmin_Z a b : pmin (inject_Z a) (inject_Z b) = inject_Z (Z.min a b).
Proof.
  unfold pmin. destruct (Qltb_spec (inject_Z b) (inject_Z a)) as [H|H].
  - rewrite <- Zlt_Qlt in H. f_equal. lia.
  - rewrite <- Zle_Qle in H. f_equal. lia.
Qed.
Lemma pmax_Z a b : pmax (inject_Z a) (inject_Z b) = inject_Z (Z.max a b).
Proof.
  unfold pmax. destruct (Qltb_spec (inject_Z a) (inject_Z b)) as [H|H].
  - rewrite <- Zlt_Qlt in H. f_equal. lia.
  - rewrite <- Zle_Qle in H. f_equal. lia.
Qed.

Section Dir.
  Variables prices vols : list Q.
  Variable sides : list Z.
  Notation p := (at_ prices).
  Notation q := (at_ vols).
  Notation dol := (fun j => p j * q j).

  (** Sum of side counts, as a rational running imbalance. *)
  Definition net_ticks (s j : Z) : Z := (Z.of_nat (bcount sides 1 s j) - Z.of_nat (bcount sides (-1) s j))%Z.

  Definition d_inv (s e : Z) (st : dstate) : Prop :=
    d_tb st = Z.of_nat (bcount sides 1 s e) /\ d_ts st = Z.of_nat (bcount sides (-1) s e) /\
    d_vb st == side_sum sides 1 q s e /\ d_vs st == side_sum sides (-1) q s e /\
    d_db st == side_sum sides 1 dol s e /\ d_ds st == side_sum sides (-1) dol s e /\
    d_ct st = net_ticks s e /\ d_cv st == net sides q s e /\ d_cd st == net sides dol s e /\
    ext_inv (sided sides) (fun j => inject_Z (net_ticks s j)) s e (inject_Z (d_tmin st)) (inject_Z (d_tmax st)) /\
    ext_inv (sided sides) (net sides q s) s e (d_vmin st) (d_vmax st) /\
    ext_inv (sided sides) (net sides dol s) s e (d_dmin st) (d_dmax st).

  Lemma d_loop s e prev : (-1 <= s <= e)%Z ->
    d_inv s e (fold_left (d_step prices vols sides) (zrange (s + 1) (e + 1)) (d_init prev)).
  Proof.
    intros [Hs He]. revert e He. apply bar_ind.
    - rewrite zrange_nil by lia. cbn [fold_left]. unfold d_inv, d_init. cbn [d_tb d_ts d_vb d_vs d_db d_ds d_ct d_cv d_cd d_tmin d_tmax d_vmin d_vmax d_dmin d_dmax].
      unfold net_ticks, net, side_sum. rewrite !bcount_nil by lia. rewrite !bsum_nil by lia.
      repeat split; try reflexivity; auto; try lia.
    - intros e He IH. rewrite fold_bar by lia. set (st := fold_left _ _ _) in *. clearbody st.
      destruct IH as [I1 [I2 [I3 [I4 [I5 [I6 [I7 [I8 [I9 [X1 [X2 X3]]]]]]]]]]].
      unfold d_step. rewrite !(zget_nonneg _ _ (e + 1)) by lia. fold (zat sides (e + 1)) (p (e + 1)) (q (e + 1)).
      destruct (if negb (zat sides (e + 1) =? d_prev st)%Z then _ else _) as [mx cs].
      set (sg := zat sides (e + 1)) in *.
      assert (Cb : bcount sides 1 s (e + 1) = (bcount sides 1 s e + if (sg =? 1)%Z then 1 else 0)%nat) by (now apply bcount_snoc).
      assert (Cs : bcount sides (-1) s (e + 1) = (bcount sides (-1) s e + if (sg =? -1)%Z then 1 else 0)%nat) by (now apply bcount_snoc).
      assert (Vb : side_sum sides 1 q s (e + 1) == side_sum sides 1 q s e + if (sg =? 1)%Z then q (e + 1)%Z else 0) by (now apply side_snoc).
      assert (Vs : side_sum sides (-1) q s (e + 1) == side_sum sides (-1) q s e + if (sg =? -1)%Z then q (e + 1)%Z else 0) by (now apply side_snoc).
      assert (Db : side_sum sides 1 dol s (e + 1) == side_sum sides 1 dol s e + if (sg =? 1)%Z then p (e + 1)%Z * q (e + 1)%Z else 0) by (now apply (side_snoc sides 1 dol)).
      assert (Ds : side_sum sides (-1) dol s (e + 1) == side_sum sides (-1) dol s e + if (sg =? -1)%Z then p (e + 1)%Z * q (e + 1)%Z else 0) by (now apply (side_snoc sides (-1) dol)).
      assert (Nv : net sides q s (e + 1) == side_sum sides 1 q s (e + 1) - side_sum sides (-1) q s (e + 1)) by reflexivity.
      assert (Nd : net sides dol s (e + 1) == side_sum sides 1 dol s (e + 1) - side_sum sides (-1) dol s (e + 1)) by reflexivity.
      assert (Nv0 : net sides q s e == side_sum sides 1 q s e - side_sum sides (-1) q s e) by reflexivity.
      assert (Nd0 : net sides dol s e == side_sum sides 1 dol s e - side_sum sides (-1) dol s e) by reflexivity.
      assert (Nt : net_ticks s (e + 1) = (Z.of_nat (bcount sides 1 s (e + 1)) - Z.of_nat (bcount sides (-1) s (e + 1)))%Z) by reflexivity.
      assert (Nt0 : net_ticks s e = (Z.of_nat (bcount sides 1 s e) - Z.of_nat (bcount sides (-1) s e))%Z) by reflexivity.
      destruct (Z.eqb_spec sg 1) as [E1|E1].
      + assert (E2 : (sg =? -1)%Z = false) by (apply Z.eqb_neq; lia). rewrite E2 in *.
        assert (Sd : sided sides (e + 1)) by (left; exact E1).
        unfold d_inv. cbn [d_tb d_ts d_vb d_vs d_db d_ds d_ct d_cv d_cd d_tmin d_tmax d_vmin d_vmax d_dmin d_dmax].
        split; [lia|]. split; [lia|]. split; [lra|]. split; [lra|]. split; [lra|]. split; [lra|].
        split; [lia|]. split; [lra|]. split; [lra|]. split; [|split].
        * rewrite <- pmin_Z, <- pmax_Z. apply ext_inv_step; auto. apply inject_Z_injective. lia.
        * apply ext_inv_step; auto. lra.
        * apply ext_inv_step; auto. lra.
      + destruct (Z.eqb_spec sg (-1)) as [E2|E2].
        * assert (Sd : sided sides (e + 1)) by (right; exact E2).
          unfold d_inv. cbn [d_tb d_ts d_vb d_vs d_db d_ds d_ct d_cv d_cd d_tmin d_tmax d_vmin d_vmax d_dmin d_dmax].
          split; [lia|]. split; [lia|]. split; [lra|]. split; [lra|]. split; [lra|]. split; [lra|].
          split; [lia|]. split; [lra|]. split; [lra|]. split; [|split].
          -- rewrite <- pmin_Z, <- pmax_Z. apply ext_inv_step; auto. apply inject_Z_injective. lia.
          -- apply ext_inv_step; auto. lra.
          -- apply ext_inv_step; auto. lra.
        * assert (Sd : ~ sided sides (e + 1)) by (intros [H|H]; contradiction).
          unfold d_inv. cbn [d_tb d_ts d_vb d_vs d_db d_ds d_ct d_cv d_cd d_tmin d_tmax d_vmin d_vmax d_dmin d_dmax].
          split; [lia|]. split; [lia|]. split; [lra|]. split; [lra|]. split; [lra|]. split; [lra|].
          split; [lia|]. split; [lra|]. split; [lra|]. split; [|split]; apply ext_inv_skip; auto.
  Qed.

  (** Trades whose side differs from the previous one; the first one of the bar is compared with [prev]. *)
  Definition spread_at (s prev j : Z) : Q :=
    if (zat sides j =? (if j =? s + 1 then prev else zat sides (j - 1)))%Z then 0 else Qabs (p j - p (j - 1)).

  Lemma spread_loop s e prev : (0 <= s <= e)%Z ->
    let st := fold_left (d_step prices vols sides) (zrange (s + 1) (e + 1)) (d_init prev) in
    d_prev st = (if (e =? s)%Z then prev else zat sides e) /\
    d_cs st == bsum (spread_at s prev) s e /\
    (forall j, (s < j <= e)%Z -> spread_at s prev j <= d_mx st) /\ 0 <= d_mx st /\
    (d_mx st = 0 \/ exists j, (s < j <= e)%Z /\ d_mx st = spread_at s prev j).
  Proof.
    intros [Hs He]. revert e He. apply bar_ind.
    - rewrite zrange_nil by lia. cbn [fold_left]. unfold d_init. cbn [d_prev d_cs d_mx].
      rewrite Z.eqb_refl. rewrite bsum_nil by lia. repeat split; auto; try lra; lia.
    - intros e He IH. cbv zeta in *. rewrite fold_bar by lia. set (st := fold_left _ _ _) in *. clearbody st.
      destruct IH as [I1 [I2 [I3 [I4 I5]]]].
      assert (Sp : spread_at s prev (e + 1) = if (zat sides (e + 1) =? d_prev st)%Z then 0 else Qabs (p (e + 1) - p e)).
      { unfold spread_at. replace (e + 1 - 1)%Z with e by lia. rewrite I1.
        destruct (Z.eqb_spec (e + 1) (s + 1)), (Z.eqb_spec e s); try lia; reflexivity. }
      unfold d_step. replace (e + 1 - 1)%Z with e by lia.
      rewrite !zget_nonneg by lia. fold (zat sides (e + 1)) (p (e + 1)) (q (e + 1)) (p e).
      assert (Ee : (e + 1 =? s)%Z = false) by (apply Z.eqb_neq; lia). rewrite Ee.
      pose proof (Qabs_nonneg (p (e + 1) - p e)) as Hab. set (ab := Qabs (p (e + 1) - p e)) in *. clearbody ab.
      assert (G : forall mx cs,
        (mx, cs) = (if negb (zat sides (e + 1) =? d_prev st)%Z
          then (if Qltb (d_mx st) ab then ab else d_mx st, d_cs st + ab)
          else (d_mx st, d_cs st)) ->
        cs == bsum (spread_at s prev) s (e + 1) /\
        (forall j, (s < j <= e + 1)%Z -> spread_at s prev j <= mx) /\ 0 <= mx /\
        (mx = 0 \/ exists j, (s < j <= e + 1)%Z /\ mx = spread_at s prev j)).
      { intros mx cs E. rewrite bsum_snoc by lia. rewrite Sp.
        destruct (Z.eqb_spec (zat sides (e + 1)) (d_prev st)) as [Z1|Z1]; cbn [negb] in E; injection E as -> ->.
        - split; [rewrite I2; ring|]. split; [|split; [auto|]].
          + intros j Hj. destruct (Z.eq_dec j (e + 1)) as [->|]; [rewrite Sp; lra|apply I3; lia].
          + destruct I5 as [I5|[j [Hj I5]]]; [auto|]. right. exists j. split; [lia|auto].
        - split; [now rewrite I2|].
          split; [|split].
          + intros j Hj. destruct (Z.eq_dec j (e + 1)) as [->|].
            * rewrite Sp. destruct (Qltb_spec (d_mx st) ab); lra.
            * specialize (I3 j ltac:(lia)). destruct (Qltb_spec (d_mx st) ab); lra.
          + destruct (Qltb_spec (d_mx st) ab); lra.
          + destruct (Qltb (d_mx st) ab).
            * right. exists (e + 1)%Z. split; [lia|]. now rewrite Sp.
            * destruct I5 as [I5|[j [Hj I5]]]; [auto|]. right. exists j. split; [lia|auto]. }
      destruct (if negb (zat sides (e + 1) =? d_prev st)%Z then _ else _) as [mx cs].
      specialize (G mx cs eq_refl).
      destruct (zat sides (e + 1) =? 1)%Z; [|destruct (zat sides (e + 1) =? -1)%Z];
        cbn [d_prev d_cs d_mx]; (split; [reflexivity|exact G]).
  Qed.
End Dir.

Lemma bar_directional_local prices vols sides prices' vols' sides' s e : (0 <= s)%Z ->
  (forall j, (s <= j <= e)%Z -> at_ prices j = at_ prices' j /\ at_ vols j = at_ vols' j /\ zat sides j = zat sides' j) ->
  bar_directional prices vols sides s e = bar_directional prices' vols' sides' s e.
Proof.
  intros Hs H. unfold bar_directional.
  assert (E0 : (if (s + 1 <? e)%Z then zget 0%Z sides (s + 1 - 1) else 0%Z) = if (s + 1 <? e)%Z then zget 0%Z sides' (s + 1 - 1) else 0%Z).
  { destruct (Z.ltb_spec (s + 1) e); [|reflexivity]. rewrite !zget_nonneg by lia.
    replace (s + 1 - 1)%Z with s by lia. apply (H s). lia. }
  rewrite E0. set (prev := if (s + 1 <? e)%Z then _ else _). clearbody prev.
  rewrite (fold_left_ext_in (d_step prices vols sides) (d_step prices' vols' sides')); [reflexivity|].
  intros st j Hj. apply in_zrange in Hj. unfold d_step. rewrite !zget_nonneg by lia.
  destruct (H j ltac:(lia)) as [H1 [H2 H3]]. destruct (H (j - 1)%Z ltac:(lia)) as [H4 _].
  unfold at_, zat in H1, H2, H3, H4. rewrite H1, H2, H3, H4. reflexivity.
Qed.

Lemma bsum_side_total sides f s e : (forall j, (s < j <= e)%Z -> sided sides j) ->
  side_sum sides 1 f s e + side_sum sides (-1) f s e == bsum f s e.
Proof.
  intro H. unfold side_sum. rewrite <- bsum_plus. apply bsum_ext. intros j Hj.
  destruct (H j Hj) as [->| ->]; cbn; ring.
Qed.
Lemma bcount_total sides s e : (s <= e)%Z -> (forall j, (s < j <= e)%Z -> sided sides j) ->
  (Z.of_nat (bcount sides 1 s e) + Z.of_nat (bcount sides (-1) s e) = e - s)%Z.
Proof.
  intros He. revert e He. apply (bar_ind (fun e => (forall j, (s < j <= e)%Z -> sided sides j) ->
    (Z.of_nat (bcount sides 1 s e) + Z.of_nat (bcount sides (-1) s e) = e - s)%Z)).
  - intros _. rewrite !bcount_nil by lia. lia.
  - intros e He IH H. rewrite !bcount_snoc by lia. specialize (IH ltac:(intros; apply H; lia)).
    destruct (H (e + 1)%Z ltac:(lia)) as [E|E]; rewrite E;
    [change (1 =? 1)%Z with true; change (1 =? -1)%Z with false|change (-1 =? 1)%Z with false; change (-1 =? -1)%Z with true]; cbv iota; lia.
Qed.

(* ---------------------------------------------------------------- trade sizes *)
Lemma fold_block thr xs a : fold_left (fun acc x => if Qltb thr x then acc + x else acc) xs a == a + qsum (filter (Qltb thr) xs).
Proof.
  revert a. induction xs as [|x xs IH]; intro a; simpl; [ring|]. rewrite IH.
  destruct (Qltb thr x); simpl; ring.
Qed.
Lemma qsum_filter_le f xs : (forall x, In x xs -> 0 <= x) -> 0 <= qsum (filter f xs) <= qsum xs.
Proof.
  induction xs as [|x xs IH]; simpl; intro H; [lra|].
  specialize (IH ltac:(auto)). pose proof (H x (or_introl eq_refl)). destruct (f x); simpl; lra.
Qed.
Lemma qsum_sq_le xs t : 0 < t -> (forall x, In x xs -> 0 <= x <= t) ->
  qsum (map (fun x => (x / t) * (x / t)) xs) <= qsum xs / t.
Proof.
  intros Ht H. induction xs as [|x xs IH]; simpl.
  - unfold Qdiv. lra.
  - specialize (IH ltac:(intros; apply H; simpl; auto)). pose proof (H x (or_introl eq_refl)) as [H0 H1].
    assert (A : 0 <= x / t) by (apply Qle_shift_div_l; lra).
    assert (B : x / t <= 1) by (apply Qle_shift_div_r; lra).
    assert (C : x / t * (x / t) <= x / t).
    { assert (0 <= x / t * (1 - x / t)) by (apply Qmult_le_0_compat; lra). lra. }
    assert (D : (x + qsum xs) / t == x / t + qsum xs / t) by (field; lra).
    rewrite D. lra.
Qed.
Lemma qsum_sq_pos xs t : 0 < t -> t <= qsum xs -> (forall x, In x xs -> 0 <= x) -> 0 < qsum (map (fun x => (x / t) * (x / t)) xs).
Proof.
  intros Ht. assert (G : forall ys, (forall x, In x ys -> 0 <= x) -> 0 < qsum ys -> 0 < qsum (map (fun x => (x / t) * (x / t)) ys)).
  { induction ys as [|x ys IH]; simpl; intros H Hp; [lra|].
    pose proof (H x (or_introl eq_refl)) as H0.
    assert (N : 0 <= qsum (map (fun x => (x / t) * (x / t)) ys)).
    { apply qsum_nonneg. intros y Hy. apply in_map_iff in Hy. destruct Hy as [z [<- Hz]].
      assert (0 <= z / t) by (apply Qle_shift_div_l; [lra|]; rewrite Qmult_0_l; auto). now apply Qmult_le_0_compat. }
    destruct (Qlt_le_dec 0 x) as [Px|Zx].
    - assert (0 < x / t) by (apply Qlt_shift_div_l; lra).
      assert (0 < x / t * (x / t)) by (now apply Qmult_lt_0_compat). lra.
    - assert (0 < qsum ys) by lra. specialize (IH ltac:(auto) ltac:(auto)).
      assert (0 <= x / t) by (apply Qle_shift_div_l; lra).
      assert (0 <= x / t * (x / t)) by (now apply Qmult_le_0_compat). lra. }
  intros H1 H2. apply G; auto. lra.
Qed.

(* ---------------------------------------------------------------- API level *)
Lemma api_length prices vols closes :
  (forall bars, comp_bar_ohlcv prices vols closes = Ok bars -> S (length bars) = length closes) /\
  (comp_bar_ohlcv prices vols closes = Raise ValueError <-> (length prices <> length vols \/ (length closes < 2)%nat)) /\
  (forall x, comp_bar_ohlcv prices vols closes = Raise x -> x = ValueError).
Proof.
  split; [|].
  - intros bars H. apply comp_ohlcv_ok in H. destruct H as [_ [H ->]]. rewrite map_length, seq_length. lia.
  - unfold comp_bar_ohlcv. destruct (Nat.eqb_spec (length prices) (length vols)); cbn [negb].
    + destruct (Nat.ltb_spec (length closes) 2).
      * split; [split; auto|intros x H0; congruence].
      * split; [split; [discriminate|lia]|discriminate].
    + split; [split; auto|intros x H0; congruence].
Qed.

Lemma api_ohlc prices vols closes bars k b :
  comp_bar_ohlcv prices vols closes = Ok bars -> nth_error bars k = Some b ->
  let s := nth k closes 0%Z in let e := nth (S k) closes 0%Z in
  (-1 <= s < e)%Z ->
  b_open b = at_ prices (s + 1) /\ b_close b = at_ prices e /\
  is_max (at_ prices) (fun _ => True) s e (b_high b) /\ is_min (at_ prices) (fun _ => True) s e (b_low b) /\
  b_trades b = (e - s)%Z /\ b_volume b == bsum (at_ vols) s e /\
  (0 < b_volume b -> b_vwap b * b_volume b == bsum (fun j => at_ prices j * at_ vols j) s e) /\
  (b_volume b <= 0 -> b_vwap b == 0).
Proof.
  intros H Hk s e Hse. apply comp_ohlcv_ok in H. destruct H as [_ [_ ->]].
  apply nth_error_map_seq in Hk. destruct Hk as [_ ->]. fold s e. now apply bar_ohlcv_spec.
Qed.

Lemma api_ohlc_order prices vols closes bars k b :
  comp_bar_ohlcv prices vols closes = Ok bars -> nth_error bars k = Some b ->
  let s := nth k closes 0%Z in let e := nth (S k) closes 0%Z in
  (-1 <= s < e)%Z ->
  b_low b <= b_open b <= b_high b /\ b_low b <= b_close b <= b_high b /\
  ((forall x, In x vols -> 0 <= x) -> 0 < b_volume b -> b_low b <= b_vwap b <= b_high b).
Proof.
  intros H Hk s e Hse. apply comp_ohlcv_ok in H. destruct H as [_ [_ ->]].
  apply nth_error_map_seq in Hk. destruct Hk as [_ ->]. fold s e.
  pose proof (bar_ohlcv_order prices vols s e Hse) as K. cbv zeta in K. destruct K. split; [auto|]. split; [auto|].
  intros Hq. apply bar_ohlcv_vwap; auto. intros j Hj. unfold at_.
  destruct (nth_in_or_default (Z.to_nat j) vols 0) as [Hin|Hd]; [auto|rewrite Hd; lra].
Qed.

Lemma api_empty prices vols closes bars k b :
  comp_bar_ohlcv prices vols closes = Ok bars -> nth_error bars k = Some b ->
  let s := nth k closes 0%Z in let e := nth (S k) closes 0%Z in
  (0 <= s)%Z -> s = e ->
  b = mkOhlcv (at_ prices s) (at_ prices s) (at_ prices s) (at_ prices s) 0 0 0 0.
Proof.
  intros H Hk s e Hs He. apply comp_ohlcv_ok in H. destruct H as [_ [_ ->]].
  apply nth_error_map_seq in Hk. destruct Hk as [_ ->]. fold s e. rewrite <- He. now apply bar_ohlcv_empty.
Qed.

Lemma last_nth (closes : list Z) : nth (length closes - 1) closes 0%Z = last closes 0%Z.
Proof.
  destruct closes as [|c cs] using rev_ind; [reflexivity|]. rewrite app_length. simpl.
  rewrite last_last, app_nth2 by lia. replace (length cs + 1 - 1 - length cs)%nat with 0%nat by lia. reflexivity.
Qed.

Lemma zsum_total closes m : (forall i, (S i <= m)%nat -> True) ->
  fold_right Z.add 0%Z (map (fun k => (nth (S k) closes 0 - nth k closes 0)%Z) (seq 0 m)) = (nth m closes 0 - nth 0 closes 0)%Z.
Proof.
  intros _. induction m as [|m IH]; [simpl; lia|]. rewrite seq_S, map_app, fold_right_app. cbn [map fold_right].
  assert (G : forall l a, fold_right Z.add a l = (fold_right Z.add 0 l + a)%Z).
  { induction l as [|x l IHl]; intro a; simpl; [lia|]. rewrite IHl. lia. }
  rewrite G, IH. simpl (0 + m)%nat. lia.
Qed.

Lemma api_totals prices vols closes bars :
  comp_bar_ohlcv prices vols closes = Ok bars ->
  ascZ closes -> (-1 <= hd 0 closes)%Z ->
  let c0 := hd 0%Z closes in let cl := last closes 0%Z in
  fold_right Z.add 0%Z (map b_trades bars) = (cl - c0)%Z /\
  qsum (map b_volume bars) == bsum (at_ vols) c0 cl /\
  ((forall x, In x vols -> 0 <= x) ->
   qsum (map (fun b => b_vwap b * b_volume b) bars) == bsum (fun j => at_ prices j * at_ vols j) c0 cl).
Proof.
  intros H Ha H0 c0 cl. apply comp_ohlcv_ok in H. destruct H as [_ [Hl ->]].
  assert (C0 : c0 = nth 0 closes 0%Z) by (unfold c0; destruct closes; reflexivity).
  assert (CL : cl = nth (length closes - 1) closes 0%Z) by (unfold cl; now rewrite last_nth).
  fold c0 in H0. rewrite C0, CL in *. clear c0 cl C0 CL.
  assert (A : forall i, (S i <= length closes - 1)%nat -> (nth i closes 0 <= nth (S i) closes 0)%Z).
  { intros i Hi. apply (Ha i (S i)). lia. }
  assert (B : forall i, (i < length closes)%nat -> (-1 <= nth i closes 0)%Z).
  { intros i Hi. pose proof (Ha 0%nat i ltac:(lia)). lia. }
  rewrite !map_map. split; [|split].
  - rewrite <- (zsum_total closes (length closes - 1)) by auto. f_equal. apply map_ext_in.
    intros k Hk. apply in_seq in Hk. apply bar_trades. split; [apply B; lia|apply A; lia].
  - apply (bars_total (at_ vols) (fun s e => b_volume (bar_ohlcv prices vols s e)) closes (length closes - 1) A).
    intros i Hi. apply bar_volume. split; [apply B; lia|apply A; lia].
  - intro Hq.
    apply (bars_total (fun j => at_ prices j * at_ vols j) (fun s e => b_vwap (bar_ohlcv prices vols s e) * b_volume (bar_ohlcv prices vols s e)) closes (length closes - 1) A).
    intros i Hi. apply bar_dollar; [split; [apply B; lia|apply A; lia]|].
    intros j _. unfold at_. destruct (nth_in_or_default (Z.to_nat j) vols 0) as [Hin|Hd]; [auto|rewrite Hd; lra].
Qed.

Lemma api_median prices vols closes bars k b :
  comp_bar_ohlcv prices vols closes = Ok bars -> nth_error bars k = Some b ->
  let s := nth k closes 0%Z in let e := nth (S k) closes 0%Z in
  (-1 <= s < e)%Z -> (e < Z.of_nat (length vols))%Z ->
  let xs := slice vols (s + 1) (e + 1) in
  (length xs <= 2 * count (fun x => Qleb x (b_median b)) xs)%nat /\
  (length xs <= 2 * count (fun x => Qleb (b_median b) x) xs)%nat /\
  (forall lo hi, (forall x, In x xs -> lo <= x <= hi) -> lo <= b_median b <= hi) /\
  (forall srt, Permutation xs srt -> ascQ srt ->
     b_median b == (nth ((length xs - 1) / 2) srt 0 + nth (length xs / 2) srt 0) / 2).
Proof.
  intros H Hk s e Hse He xs. apply comp_ohlcv_ok in H. destruct H as [_ [_ ->]].
  apply nth_error_map_seq in Hk. destruct Hk as [_ ->]. fold s e. rewrite bar_median by lia. fold xs.
  assert (Hx : xs <> []). { unfold xs. rewrite (slice_cons 0) by lia. discriminate. }
  destruct (median_counts xs Hx). split; [auto|]. split; [auto|]. split.
  - intros lo hi Hb. now apply median_between.
  - intros srt Hp Ha. now apply median_mid.
Qed.

Lemma api_dir prices vols sides closes k d :
  nth_error (comp_bar_directional prices vols sides closes) k = Some d ->
  d = bar_directional prices vols sides (nth k closes 0%Z) (nth (S k) closes 0%Z).
Proof. intro H. apply nth_error_map_seq in H. tauto. Qed.

Lemma dir_parts prices vols sides s e : (-1 <= s <= e)%Z ->
  let d := bar_directional prices vols sides s e in
  f_ticks_buy d = Z.of_nat (bcount sides 1 s e) /\ f_ticks_sell d = Z.of_nat (bcount sides (-1) s e) /\
  f_vol_buy d == side_sum sides 1 (at_ vols) s e /\ f_vol_sell d == side_sum sides (-1) (at_ vols) s e /\
  f_dol_buy d == side_sum sides 1 (fun j => at_ prices j * at_ vols j) s e /\
  f_dol_sell d == side_sum sides (-1) (fun j => at_ prices j * at_ vols j) s e.
Proof.
  intros H d. unfold d, bar_directional. set (prev := if (_ <? _)%Z then _ else _).
  destruct (d_loop prices vols sides s e prev H) as [I1 [I2 [I3 [I4 [I5 [I6 _]]]]]].
  cbn [f_ticks_buy f_ticks_sell f_vol_buy f_vol_sell f_dol_buy f_dol_sell]. repeat (split; [assumption|]). assumption.
Qed.

Lemma dir_parts_total prices vols sides s e : (-1 <= s <= e)%Z -> (forall j, (s < j <= e)%Z -> sided sides j) ->
  (forall x, In x vols -> 0 <= x) ->
  let d := bar_directional prices vols sides s e in let b := bar_ohlcv prices vols s e in
  (f_ticks_buy d + f_ticks_sell d = b_trades b)%Z /\
  f_vol_buy d + f_vol_sell d == b_volume b /\
  f_dol_buy d + f_dol_sell d == b_vwap b * b_volume b.
Proof.
  intros H Hs Hq d b. pose proof (dir_parts prices vols sides s e H) as K. cbv zeta in K. fold d in K.
  destruct K as [I1 [I2 [I3 [I4 [I5 I6]]]]]. unfold b. rewrite bar_trades, bar_volume by auto.
  split; [|split].
  - rewrite I1, I2. apply bcount_total; [lia|auto].
  - rewrite I3, I4. now apply bsum_side_total.
  - pose proof (bar_dollar prices vols s e H) as K. cbv zeta in K. rewrite bar_volume in K by auto. rewrite K, I5, I6.
    + now apply bsum_side_total.
    + intros j _. unfold at_. destruct (nth_in_or_default (Z.to_nat j) vols 0) as [Hin|Hd]; [auto|rewrite Hd; lra].
Qed.

Lemma dir_extremes prices vols sides s e : (-1 <= s <= e)%Z ->
  let d := bar_directional prices vols sides s e in
  let B := 1000000000 in
  let ticks j := inject_Z (Z.of_nat (bcount sides 1 s j) - Z.of_nat (bcount sides (-1) s j)) in
  let dol := net sides (fun j => at_ prices j * at_ vols j) s in
  ((exists j, (s < j <= e)%Z /\ sided sides j) ->
   ((forall j, (s < j <= e)%Z -> sided sides j -> - B <= ticks j <= B) ->
      is_min ticks (sided sides) s e (inject_Z (f_ct_min d)) /\ is_max ticks (sided sides) s e (inject_Z (f_ct_max d))) /\
   ((forall j, (s < j <= e)%Z -> sided sides j -> - B <= net sides (at_ vols) s j <= B) ->
      is_min (net sides (at_ vols) s) (sided sides) s e (f_cv_min d) /\ is_max (net sides (at_ vols) s) (sided sides) s e (f_cv_max d)) /\
   ((forall j, (s < j <= e)%Z -> sided sides j -> - B <= dol j <= B) ->
      is_min dol (sided sides) s e (f_cd_min d) /\ is_max dol (sided sides) s e (f_cd_max d))) /\
  ((forall j, (s < j <= e)%Z -> ~ sided sides j) ->
   f_ct_min d = 1000000000%Z /\ f_ct_max d = (-1000000000)%Z /\ f_cv_min d = B /\ f_cv_max d = - B /\ f_cd_min d = B /\ f_cd_max d = - B).
Proof.
  intros H d B ticks dol. unfold d, bar_directional. set (prev := if (_ <? _)%Z then _ else _).
  destruct (d_loop prices vols sides s e prev H) as [_ [_ [_ [_ [_ [_ [_ [_ [_ [X1 [X2 X3]]]]]]]]]]].
  cbn [f_ct_min f_ct_max f_cv_min f_cv_max f_cd_min f_cd_max]. split.
  - intro He. split; [|split]; intro Hb.
    + apply (ext_inv_final _ _ _ _ _ _ X1 He). exact Hb.
    + apply (ext_inv_final _ _ _ _ _ _ X2 He). exact Hb.
    + apply (ext_inv_final _ _ _ _ _ _ X3 He). exact Hb.
  - intro Hn. destruct X1 as [_ [_ [_ X1]]], X2 as [_ [_ [_ X2]]], X3 as [_ [_ [_ X3]]].
    destruct (X1 Hn) as [A1 A2], (X2 Hn) as [A3 A4], (X3 Hn) as [A5 A6].
    rewrite A3, A4, A5, A6. injection A1 as A1. injection A2 as A2. rewrite A1, A2. repeat split; reflexivity.
Qed.

Lemma dir_spread prices vols sides s e : (0 <= s)%Z -> (s + 1 < e)%Z ->
  let d := bar_directional prices vols sides s e in
  let flip j := if (zat sides j =? zat sides (j - 1))%Z then 0 else Qabs (at_ prices j - at_ prices (j - 1)) in
  let n := (Z.of_nat (bcount sides 1 s e) + Z.of_nat (bcount sides (-1) s e))%Z in
  ((0 < n)%Z -> exists m, f_mean_spread d = Fin m /\ m * inject_Z n == bsum flip s e) /\
  (forall j, (s < j <= e)%Z -> flip j <= f_max_spread d) /\
  (f_max_spread d = 0 \/ exists j, (s < j <= e)%Z /\ zat sides j <> zat sides (j - 1) /\
     f_max_spread d = Qabs (at_ prices j - at_ prices (j - 1))).
Proof.
  intros Hs He d flip n. unfold d, bar_directional. destruct (Z.ltb_spec (s + 1) e) as [_|]; [|lia].
  replace (s + 1 - 1)%Z with s by lia. rewrite zget_nonneg by lia. fold (zat sides s).
  pose proof (spread_loop prices vols sides s e (zat sides s) ltac:(lia)) as K. cbv zeta in K.
  destruct (d_loop prices vols sides s e (zat sides s) ltac:(lia)) as [I1 [I2 _]].
  set (st := fold_left _ _ _) in *. clearbody st. destruct K as [_ [K2 [K3 [_ K5]]]].
  assert (F : forall j, spread_at prices sides s (zat sides s) j = flip j).
  { intro j. unfold spread_at, flip. destruct (Z.eqb_spec j (s + 1)) as [->|]; [|reflexivity].
    now replace (s + 1 - 1)%Z with s by lia. }
  cbn [f_mean_spread f_max_spread]. split; [|split].
  - intro Hn. rewrite I1, I2. fold n. unfold div_count. destruct (Z.eqb_spec n 0); [lia|].
    eexists. split; [reflexivity|].
    assert (~ inject_Z n == 0). { intro E. change 0 with (inject_Z 0) in E. apply (proj1 (inject_Z_injective _ _)) in E. lia. }
    rewrite K2. rewrite (bsum_ext flip (spread_at prices sides s (zat sides s))) by (intros; now rewrite F).
    now field.
  - intros j Hj. rewrite <- F. now apply K3.
  - destruct K5 as [K5|[j [Hj K5]]]; [auto|]. rewrite F in K5. unfold flip in K5.
    destruct (Z.eqb_spec (zat sides j) (zat sides (j - 1))); [auto|]. right. exists j. auto.
Qed.

Section SizeApi.
  Variable log1p : Q -> Q.
  Lemma size_api amounts theta mult s e : 0 < theta -> 0 < mult -> (forall x, In x amounts -> 0 <= x) ->
    (-1 <= s < e)%Z -> (e < Z.of_nat (length amounts))%Z ->
    let z := bar_size log1p amounts theta mult s e in
    let V := bsum (at_ amounts) s e in
    z_mean z <> None /\ z_p95 z <> None /\
    (V == 0 -> z_block z = None /\ z_gini z = None) /\
    (0 < V ->
      (exists b, z_block z = Some b /\ 0 <= b <= 1 /\
         b * V == bsum (fun j => if Qltb (theta * mult) (at_ amounts j) then at_ amounts j else 0) s e) /\
      (exists g, z_gini z = Some g /\ 0 <= g < 1 /\ ((e = s + 1)%Z -> g == 0) /\
         (1 - g) * V * V == bsum (fun j => at_ amounts j * at_ amounts j) s e)).
  Proof.
    intros Ht Hm Hn Hse He z V. unfold z, bar_size. destruct (Z.ltb_spec e (s + 1)); [lia|].
    destruct (Qeqb_spec theta 0) as [E|_]; [lra|]. cbv zeta.
    set (xs := slice amounts (s + 1) (e + 1)).
    assert (Xs : xs = map (at_ amounts) (zrange (s + 1) (e + 1))).
    { unfold xs. rewrite <- (map_zget_zrange 0) by lia. apply map_ext_in. intros j Hj. apply in_zrange in Hj.
      now rewrite zget_nonneg by lia. }
    assert (Sum : qsum xs == V) by (rewrite Xs; reflexivity).
    assert (Hx : forall x, In x xs -> 0 <= x).
    { intros x Hx. apply Hn. revert Hx. unfold xs. rewrite (in_slice 0) by lia. intros [i [Hi ->]]. apply nth_In. lia. }
    assert (Len : length xs = Z.to_nat (e - s)).
    { rewrite Xs, map_length, zrange_length. lia. }
    destruct (Qeqb_spec (qsum xs) 0) as [Z0|Z0]; cbn [z_mean z_p95 z_block z_gini].
    - split; [discriminate|]. split; [discriminate|]. split; [auto|]. intro P. rewrite Sum in Z0. lra.
    - split; [discriminate|]. split; [discriminate|]. split; [intro P; rewrite Sum in Z0; contradiction|].
      intro P. assert (Pq : 0 < qsum xs) by (now rewrite Sum). split.
      + eexists. split; [reflexivity|]. pose proof (qsum_filter_le (Qltb (theta * mult)) xs Hx).
        assert (Fb := fold_block (theta * mult) xs 0). split; [split|].
        * rewrite Fb. apply Qle_shift_div_l; lra.
        * rewrite Fb. apply Qle_shift_div_r; lra.
        * rewrite Fb, <- Sum. unfold bsum.
          assert (G : qsum (filter (Qltb (theta * mult)) xs) == qsum (map (fun j => if Qltb (theta * mult) (at_ amounts j) then at_ amounts j else 0) (zrange (s + 1) (e + 1)))).
          { rewrite Xs. clear. induction (zrange (s + 1) (e + 1)) as [|j l IH]; simpl; [reflexivity|].
            destruct (Qltb (theta * mult) (at_ amounts j)); simpl; rewrite IH; ring. }
          rewrite <- G. field. lra.
      + eexists. split; [reflexivity|].
        assert (Bd : forall x, In x xs -> 0 <= x <= qsum xs).
        { intros x Hxx. split; [auto|]. now apply qsum_elem_le. }
        pose proof (qsum_sq_le xs (qsum xs) Pq Bd) as U.
        assert (U' : qsum xs / qsum xs == 1) by (field; lra). rewrite U' in U.
        pose proof (qsum_sq_pos xs (qsum xs) Pq ltac:(lra) Hx) as L.
        assert (Sq : qsum (map (fun x => x / qsum xs * (x / qsum xs)) xs) * qsum xs * qsum xs == bsum (fun j => at_ amounts j * at_ amounts j) s e).
        { unfold bsum. set (t := qsum xs) in *. clearbody t. rewrite Xs, map_map. clear - Pq.
          induction (zrange (s + 1) (e + 1)) as [|j l IH]; simpl; [ring|]. rewrite <- IH. field. lra. }
        destruct (Nat.eqb_spec (length xs) 1) as [E1|E1].
        * destruct xs as [|x [|y ys]]; try discriminate E1. split; [lra|]. split; [reflexivity|].
          simpl in Sq, Sum, Pq. rewrite <- Sq, <- Sum. field. lra.
        * split; [lra|]. split; [intros ->; exfalso; apply E1; rewrite Len; lia|]. rewrite <- Sq, <- Sum. ring.
  Qed.
  Lemma size_nan amounts theta mult s e : ((e <= s)%Z \/ theta == 0) ->
    bar_size log1p amounts theta mult s e = mkSize None None None None.
  Proof.
    intro H. unfold bar_size. destruct (Z.ltb_spec e (s + 1)); [reflexivity|].
    destruct (Qeqb_spec theta 0); [reflexivity|]. destruct H; [lia|contradiction].
  Qed.
  Lemma size_mean amounts theta mult s e : ~ theta == 0 -> (-1 <= s < e)%Z -> (e < Z.of_nat (length amounts))%Z ->
    (forall x y, x == y -> log1p x == log1p y) ->
    exists m q95, z_mean (bar_size log1p amounts theta mult s e) = Some m /\ z_p95 (bar_size log1p amounts theta mult s e) = Some q95 /\
      m == log1p (bsum (at_ amounts) s e / inject_Z (e - s) / (theta * mult)) /\
      exists v, q95 == log1p (v / (theta * mult)) /\
        let xs := slice amounts (s + 1) (e + 1) in
        forall srt, Permutation xs srt -> ascQ srt -> exists k, (k < length xs)%nat /\
          Qnat k <= Qnat (length xs - 1) * 95 / 100 < Qnat k + 1 /\
          nth k srt 0 <= v <= nth (Nat.min (S k) (length xs - 1)) srt 0 /\
          v == nth k srt 0 + (Qnat (length xs - 1) * 95 / 100 - Qnat k) *
                 (nth (Nat.min (S k) (length xs - 1)) srt 0 - nth k srt 0).
  Proof.
    intros Ht Hse He Hl. unfold bar_size. destruct (Z.ltb_spec e (s + 1)); [lia|].
    destruct (Qeqb_spec theta 0) as [E|_]; [contradiction|]. cbv zeta.
    set (xs := slice amounts (s + 1) (e + 1)).
    assert (Xs : xs = map (at_ amounts) (zrange (s + 1) (e + 1))).
    { unfold xs. rewrite <- (map_zget_zrange 0) by lia. apply map_ext_in. intros j Hj. apply in_zrange in Hj.
      now rewrite zget_nonneg by lia. }
    assert (Len : length xs = Z.to_nat (e - s)).
    { rewrite Xs, map_length, zrange_length. lia. }
    assert (Hx : xs <> []) by (intro E; rewrite E in Len; simpl in Len; lia).
    exists (log1p (qsum xs / Qnat (length xs) / (theta * mult))), (log1p (percentile xs 95 / (theta * mult))).
    split; [destruct (Qeqb (qsum xs) 0); reflexivity|]. split; [destruct (Qeqb (qsum xs) 0); reflexivity|].
    split.
    - apply Hl. rewrite Xs at 1. unfold bsum, Qnat. rewrite Len, Z2Nat.id by lia. reflexivity.
    - exists (percentile xs 95). split; [reflexivity|]. intros srt Hp Ha.
      destruct (percentile_between xs 95 Hx ltac:(lra)) as [k [Hk [Hr [H1 [H2 [H3 H4]]]]]].
      assert (U : forall k, (k < length xs)%nat -> nth k (qsort xs) 0 == nth k srt 0).
      { intros i Hi. apply sorted_unique; auto; [apply qsort_asc| |now rewrite qsort_length].
        rewrite <- qsort_perm. exact Hp. }
      exists k. split; [auto|]. split; [auto|].
      split; [|rewrite <- !U by lia; exact H4]. split; [rewrite <- U by auto; auto|].
      destruct (Nat.eq_dec (S k) (length xs)) as [E|E].
      + rewrite (H3 E). replace (Nat.min (S k) (length xs - 1)) with k by lia. rewrite U by auto. lra.
      + replace (Nat.min (S k) (length xs - 1)) with (S k) by lia. rewrite <- U by lia. apply H2. lia.
  Qed.
End SizeApi.
