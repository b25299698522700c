(** P_tickf.v -- the tick size estimate in float64. *)
From Coq Require Import Qpower Qfield.
From Verif Require Import Base M_weights M_footprint M_trades M_float M_tickf S_footprint S_float S_tickf P_footprint P_float P_float5 P_weights P_weights2 P_trades2.
Open Scope Q_scope.

Lemma p10_pos e : 0 < p10 e.
Proof. unfold p10. apply Qpower_0_lt. reflexivity. Qed.
Lemma p10_plus a b : p10 (a + b) == p10 a * p10 b.
Proof. unfold p10. apply Qpower_plus. discriminate. Qed.
Lemma p10_Z n : (0 <= n)%Z -> p10 n == inject_Z (10 ^ n).
Proof. intro H. unfold p10. rewrite Zpower_Qpower by auto. reflexivity. Qed.
Lemma p10_ge1 n : (0 <= n)%Z -> 1 <= p10 n.
Proof. intro H. rewrite p10_Z by auto. change 1 with (inject_Z 1). rewrite <- Zle_Qle. pose proof (Z.pow_pos_nonneg 10 n). lia. Qed.
Lemma p10_le a b : (a <= b)%Z -> p10 a <= p10 b.
Proof. intro H. replace b with (a + (b - a))%Z by lia. rewrite p10_plus. pose proof (p10_pos a). pose proof (p10_ge1 (b - a) ltac:(lia)). nra. Qed.
Lemma p10_opp k : (0 <= k)%Z -> p10 (- k) == / inject_Z (10 ^ k).
Proof. intro H. unfold p10. rewrite Qpower_opp. fold (p10 k). now rewrite p10_Z. Qed.

Lemma rhe_near x z : Qabs (x - inject_Z z) < 1 # 2 -> rhe x = z.
Proof.
  intro H. destruct (rhe_spec x) as [R _]. set (r := rhe x) in *. clearbody r.
  apply Qabs_Qle_condition in R. apply Qabs_Qlt_condition in H. assert (A : (-1 < z - r < 1)%Z).
  { split; rewrite Zlt_Qlt, inj_minus; [change (inject_Z (-1)) with (- (1)); lra|change (inject_Z 1) with 1; lra]. }
  lia.
Qed.
Lemma u53_val : u53 == 1 # 9007199254740992.
Proof. reflexivity. Qed.
Lemma r53_err' x c : Qabs x <= c -> Qabs (r53 x - x) <= c * (1 # 9007199254740992).
Proof. intro H. pose proof (r53_err x) as E. rewrite u53_val in E. lra. Qed.
Lemma Qabs_to x c : Qabs x <= c <-> - c <= x <= c.
Proof. apply Qabs_Qle_condition. Qed.

Section Grid.
  Variable k : Z.
  Hypothesis Hk : (0 <= k <= 12)%Z.
  Let K := inject_Z (10 ^ k).
  Let F (a : Z) : Q := round12_f (grid_price k a).
  Definition small (a : Z) : Prop := (Z.abs a <= 2 ^ 45)%Z.
  Lemma K_pos : 1 <= K.
  Proof. unfold K. rewrite <- p10_Z by lia. apply p10_ge1. lia. Qed.
  (** The rounded price in units of the grid. *)
  Lemma F_err a c : Qabs (inject_Z a) <= c -> Qabs (F a * K - inject_Z a) <= c * (6 # 9007199254740992).
  Proof.
    intro Hc. unfold F, round12_f, grid_price. fold K. pose proof K_pos as KP.
    assert (T : inject_Z (10 ^ 12) == K * inject_Z (10 ^ (12 - k))).
    { unfold K. rewrite <- inject_Z_mult, <- Z.pow_add_r by lia. now replace (k + (12 - k))%Z with 12%Z by lia. }
    set (M := inject_Z (10 ^ (12 - k))) in *. assert (MP : 1 <= M) by (unfold M; rewrite <- p10_Z by lia; apply p10_ge1; lia).
    set (TT := inject_Z (10 ^ 12)) in *. assert (TP : 0 < TT) by (rewrite T; nra).
    set (A := inject_Z a) in *.
    (* first rounding *)
    assert (E1 : Qabs (r53 (A / K) * K - A) <= c * (1 # 9007199254740992)).
    { pose proof (r53_err' (A / K) (c / K)) as E. assert (Qabs (A / K) <= c / K).
      { unfold Qdiv. rewrite Qabs_Qmult, (Qabs_pos (/ K)) by (apply Qlt_le_weak, Qinv_lt_0_compat; lra). apply Qmult_le_compat_r; [exact Hc|]. apply Qlt_le_weak, Qinv_lt_0_compat. lra. }
      specialize (E H). setoid_replace (r53 (A / K) * K - A) with ((r53 (A / K) - A / K) * K) by (field; lra).
      rewrite Qabs_scale by lra. setoid_replace (c * (1 # 9007199254740992)) with (c / K * (1 # 9007199254740992) * K) by (field; lra). apply Qmult_le_compat_r; [exact E|lra]. }
    set (x := r53 (A / K)) in *. clearbody x.
    (* in units of 10^-12 *)
    assert (C0 : 0 <= c) by (pose proof (Qabs_nonneg A); lra).
    set (C := c * M). assert (CP : 0 <= C) by (unfold C; nra).
    assert (EX : Qabs (x * TT - A * M) <= C * (1 # 9007199254740992)).
    { setoid_replace (x * TT - A * M) with ((x * K - A) * M) by (rewrite T; ring). rewrite Qabs_scale by lra.
      unfold C. setoid_replace (c * M * (1 # 9007199254740992)) with (c * (1 # 9007199254740992) * M) by ring. apply Qmult_le_compat_r; [exact E1|lra]. }
    assert (AM : Qabs (A * M) <= C) by (rewrite Qabs_scale by lra; unfold C; apply Qmult_le_compat_r; [exact Hc|lra]).
    set (X := x * TT) in *. clearbody X.
    assert (AX : Qabs X <= C * (9007199254740993 # 9007199254740992)) by (apply Qabs_to; apply Qabs_to in EX; apply Qabs_to in AM; lra).
    pose proof (r53_err' X _ AX) as EY. set (y := r53 X) in *. clearbody y.
    assert (EYA : Qabs (y - A * M) <= C * (21 # 90071992547409920)) by (apply Qabs_to; apply Qabs_to in EX; apply Qabs_to in EY; lra).
    assert (EAM : A * M == inject_Z (a * 10 ^ (12 - k))) by (unfold A, M; now rewrite inject_Z_mult).
    pose proof (rounds_best y (rhe y) (a * 10 ^ (12 - k)) (rhe_spec y)) as RB. rewrite <- EAM in RB.
    set (n := inject_Z (rhe y)) in *. clearbody n.
    assert (EN : Qabs (n - A * M) <= C * (42 # 90071992547409920)).
    { assert (RB2 : Qabs (y - n) <= C * (21 # 90071992547409920)) by lra. apply Qabs_to; apply Qabs_to in RB2; apply Qabs_to in EYA; lra. }
    (* back *)
    assert (AN : Qabs (n / TT) <= C * (90071992547409962 # 90071992547409920) / TT).
    { unfold Qdiv. rewrite Qabs_Qmult, (Qabs_pos (/ TT)) by (apply Qlt_le_weak, Qinv_lt_0_compat; lra).
      apply Qmult_le_compat_r; [|apply Qlt_le_weak, Qinv_lt_0_compat; lra]. apply Qabs_to; apply Qabs_to in EN; apply Qabs_to in AM; lra. }
    pose proof (r53_err' (n / TT) _ AN) as EZ. set (z := r53 (n / TT)) in *. clearbody z.
    assert (EZ2 : Qabs (z * TT - n) <= C * (90071992547409962 # 90071992547409920) * (1 # 9007199254740992)).
    { setoid_replace (z * TT - n) with ((z - n / TT) * TT) by (field; lra). rewrite Qabs_scale by lra.
      setoid_replace (C * (90071992547409962 # 90071992547409920) * (1 # 9007199254740992)) with (C * (90071992547409962 # 90071992547409920) / TT * (1 # 9007199254740992) * TT) by (field; lra).
      apply Qmult_le_compat_r; [exact EZ|lra]. }
    assert (EF : Qabs (z * TT - A * M) <= C * (6 # 9007199254740992)) by (apply Qabs_to; apply Qabs_to in EZ2; apply Qabs_to in EN; lra).
    setoid_replace (z * K - A) with ((z * TT - A * M) / M) by (rewrite T; field; lra).
    setoid_replace (c * (6 # 9007199254740992)) with (C * (6 # 9007199254740992) / M) by (unfold C; field; lra).
    unfold Qdiv. rewrite Qabs_Qmult, (Qabs_pos (/ M)) by (apply Qlt_le_weak, Qinv_lt_0_compat; lra).
    apply Qmult_le_compat_r; [exact EF|]. apply Qlt_le_weak, Qinv_lt_0_compat; lra.
  Qed.
  Lemma small_abs a : small a -> Qabs (inject_Z a) <= 35184372088832.
  Proof.
    intro H. unfold small in H. change (2 ^ 45)%Z with 35184372088832%Z in H. change 35184372088832 with (inject_Z 35184372088832).
    apply Qabs_to. rewrite <- inject_Z_opp, <- !Zle_Qle. lia.
  Qed.
  Lemma F_near a : small a -> Qabs (F a * K - inject_Z a) <= 24 # 1000.
  Proof. intro H. pose proof (F_err a _ (small_abs a H)) as E. lra. Qed.
  Lemma F_gap a b : small a -> small b -> Qabs ((F b - F a) * K - inject_Z (b - a)) <= 48 # 1000.
  Proof.
    intros Ha Hb. pose proof (F_near a Ha) as A. pose proof (F_near b Hb) as B. rewrite inj_minus. apply Qabs_to. apply Qabs_to in A, B. lra.
  Qed.
  Lemma F_lt a b : small a -> small b -> (a < b)%Z -> F a < F b.
  Proof.
    intros Ha Hb H. pose proof (F_gap a b Ha Hb) as G. apply Qabs_to in G. pose proof K_pos as KP.
    assert (1 <= inject_Z (b - a)) by (change 1 with (inject_Z 1); rewrite <- Zle_Qle; lia). apply Qnot_le_lt. intro L.
    assert ((F b - F a) * K <= 0) by nra. lra.
  Qed.
  (** Distinct grid prices stay distinct and in order. *)
  Lemma unique_F l : (forall a, In a l -> small a) -> qunique (map F l) = map F (zunique l).
  Proof.
    intro H. induction l as [|x l IH]; [reflexivity|]. cbn [map]. unfold qunique, zunique in *. cbn [fold_right]. rewrite IH by (intros; apply H; now right).
    fold (zunique l). assert (Hx : small x) by (apply H; now left). assert (Hl : forall a, In a (zunique l) -> small a) by (intros a Ha; apply H; right; now apply zunique_in).
    clear IH H. induction (zunique l) as [|y t IH]; [reflexivity|]. cbn [map qinsert uinsert]. assert (Hy : small y) by (apply Hl; now left).
    destruct (Z.ltb_spec x y) as [L|L].
    - pose proof (F_lt x y Hx Hy L). destruct (Qltb_spec (F x) (F y)); [reflexivity|lra].
    - destruct (Z.eqb_spec x y) as [E|N].
      + subst y. destruct (Qltb_spec (F x) (F x)); [lra|]. destruct (Qeqb_spec (F x) (F x)) as [|NE]; [reflexivity|exfalso; apply NE; reflexivity].
      + pose proof (F_lt y x Hy Hx ltac:(lia)). destruct (Qltb_spec (F x) (F y)); [lra|]. destruct (Qeqb_spec (F x) (F y)); [lra|]. cbn [map]. f_equal.
        apply IH. intros; apply Hl; now right.
  Qed.
  (** The least difference. *)
  Lemma qmin_spec l : l <> [] -> (forall d, In d l -> 0 < d) -> In (qmin_pos l) l /\ forall d, In d l -> qmin_pos l <= d.
  Proof.
    induction l as [|x l IH]; [congruence|]. intros _ Hl. pose proof (Hl x (or_introl eq_refl)) as Hx.
    unfold qmin_pos in *. cbn [fold_right]. destruct (Qltb_spec 0 x); [|lra]. set (m := fold_right _ 0 l) in *.
    destruct l as [|y l].
    - cbn [fold_right] in m. subst m. destruct (Qeqb_spec 0 0) as [|C]; [|exfalso; apply C; reflexivity]. split; [now left|]. intros d [<-|[]]. apply Qle_refl.
    - destruct IH as [I1 I2]; [discriminate|intros; apply Hl; now right|]. assert (0 < m) by (apply Hl; now right).
      destruct (Qeqb_spec m 0); [lra|]. assert (P : (pmin x m = x /\ x <= m) \/ (pmin x m = m /\ m <= x)) by (unfold pmin; destruct (Qltb_spec m x); [right|left]; split; auto; lra).
      destruct P as [[-> P]|[-> P]]; split; auto; [now left| |now right|]; intros d [<-|Hd]; try lra; specialize (I2 d Hd); lra.
  Qed.
  Lemma r53_gap x c : c * (1 # 100) <= x -> 0 < c -> x <= c * 10 -> x * (99 # 100) <= r53 x <= x * (101 # 100).
  Proof. intros H1 H2 H3. pose proof (r53_err' x x ltac:(rewrite Qabs_pos by lra; lra)) as E. apply Qabs_to in E. lra. Qed.
  Lemma min_bounds b : (2 <= length b)%nat -> (forall a, In a b -> small a) -> StronglySorted Z.lt b ->
    (exists i, (S i < length b)%nat /\ (nth (S i) b 0 - nth i b 0 < 10)%Z) ->
    (9 # 10) <= qmin_pos (qdiff_f (map F b)) * K <= 92 # 10.
  Proof.
    intros Lb Hs So (i0 & Hi0 & Hd0). pose proof K_pos as KP.
    assert (Dn : forall i, (S i < length b)%nat -> nth i (qdiff_f (map F b)) 0 = r53 (F (nth (S i) b 0%Z) - F (nth i b 0%Z))).
    { intros i Hi. unfold qdiff_f. rewrite map_length. rewrite nth_map_seq by lia.
      assert (N : forall n, (n < length b)%nat -> nth n (map F b) 0 = F (nth n b 0%Z)).
      { intros n Hn. rewrite (nth_indep (map F b) 0 (F 0%Z)) by (rewrite map_length; lia). exact (map_nth F b 0%Z n). }
      now rewrite !N by lia. }
    assert (Dl : length (qdiff_f (map F b)) = (length b - 1)%nat) by (unfold qdiff_f; now rewrite map_length, seq_length, map_length).
    assert (Db : forall i, (S i < length b)%nat ->
      let z := inject_Z (nth (S i) b 0 - nth i b 0)%Z in
      (z - (49 # 1000)) * (9999 # 10000) <= nth i (qdiff_f (map F b)) 0 * K <= (z + (49 # 1000)) * (10001 # 10000)).
    { intros i Hi z. rewrite Dn by exact Hi. pose proof (F_gap (nth i b 0%Z) (nth (S i) b 0%Z) ltac:(apply Hs, nth_In; lia) ltac:(apply Hs, nth_In; lia)) as G. fold z in G.
      pose proof (ssorted_nth b i (S i) So ltac:(lia)) as L. assert (1 <= z) by (unfold z; change 1 with (inject_Z 1); rewrite <- Zle_Qle; lia).
      set (x := F (nth (S i) b 0%Z) - F (nth i b 0%Z)) in *. clearbody x. apply Qabs_to in G.
      assert (0 <= x) by (apply Qnot_lt_le; intro; assert (x * K <= 0) by nra; lra).
      pose proof (r53_err' x x ltac:(rewrite Qabs_pos by lra; lra)) as E. apply Qabs_to in E. set (r := r53 x) in *. clearbody r.
      assert (r * K <= x * K * (10001 # 10000)) by nra. assert (x * K * (9999 # 10000) <= r * K) by nra. split; lra. }
    assert (Dp : forall d, In d (qdiff_f (map F b)) -> 0 < d).
    { intros d Hd. apply (In_nth _ _ 0) in Hd. destruct Hd as (i & Hi & <-). rewrite Dl in Hi. pose proof (Db i ltac:(lia)) as B. cbv zeta in B.
      pose proof (ssorted_nth b i (S i) So ltac:(lia)) as L. assert (1 <= inject_Z (nth (S i) b 0 - nth i b 0)%Z) by (change 1 with (inject_Z 1); rewrite <- Zle_Qle; lia).
      apply Qnot_le_lt. intro. assert (nth i (qdiff_f (map F b)) 0 * K <= 0) by nra. lra. }
    destruct (qmin_spec (qdiff_f (map F b))) as [M1 M2]; [intro E; apply (f_equal (@length Q)) in E; rewrite Dl in E; cbn in E; lia|exact Dp|].
    split.
    - apply (In_nth _ _ 0) in M1. destruct M1 as (i & Hi & E). rewrite <- E. rewrite Dl in Hi. pose proof (Db i ltac:(lia)) as B. cbv zeta in B.
      pose proof (ssorted_nth b i (S i) So ltac:(lia)) as L. assert (1 <= inject_Z (nth (S i) b 0 - nth i b 0)%Z) by (change 1 with (inject_Z 1); rewrite <- Zle_Qle; lia). lra.
    - pose proof (M2 (nth i0 (qdiff_f (map F b)) 0) ltac:(apply nth_In; rewrite Dl; lia)) as M. pose proof (Db i0 Hi0) as B. cbv zeta in B.
      assert (inject_Z (nth (S i0) b 0 - nth i0 b 0)%Z <= 9) by (change 9 with (inject_Z 9); rewrite <- Zle_Qle; lia).
      assert (qmin_pos (qdiff_f (map F b)) * K <= nth i0 (qdiff_f (map F b)) 0 * K) by (apply Qmult_le_compat_r; lra). lra.
  Qed.
  Lemma log_bounds f d : floor_log10_like f -> (9 # 10) <= d * K <= 92 # 10 -> f d = (- k)%Z \/ f d = (- k - 1)%Z.
  Proof.
    intros Hf B. pose proof K_pos as KP. assert (0 < d) by (apply Qnot_le_lt; intro; assert (d * K <= 0) by nra; lra).
    destruct (Hf d H) as [H1 H2]. fold (p10 (f d)) in H1. fold (p10 (f d + 1)) in H2. assert (PK : p10 (- k) * K == 1) by (rewrite p10_opp by lia; fold K; field; lra).
    assert (f d < 1 - k)%Z.
    { apply Z.nle_gt. intro C. pose proof (p10_le _ _ C) as L. replace (1 - k)%Z with (1 + - k)%Z in L by lia. rewrite p10_plus in L. change (p10 1) with 10 in L.
      assert (10 <= p10 (f d) * K) by nra. assert (p10 (f d) * (1 - (1 # 1099511627776)) * K <= d * K) by (apply Qmult_le_compat_r; lra). lra. }
    assert (- k - 1 < f d + 1)%Z.
    { apply Z.nle_gt. intro C. pose proof (p10_le _ _ C) as L. replace (- k - 1)%Z with (-1 + - k)%Z in L by lia. rewrite (p10_plus (-1) (- k)) in L. change (p10 (-1)) with (1 # 10) in L.
      assert (p10 (f d + 1) * K <= (1 # 10) * p10 (- k) * K) by (apply Qmult_le_compat_r; [exact L|lra]). assert (d * K <= p10 (f d + 1) * (1 + (1 # 1099511627776)) * K) by (apply Qmult_le_compat_r; lra). lra. }
    lia.
  Qed.
  Lemma fl_int z : (Z.abs z <= 2 ^ 53)%Z -> r53 (inject_Z z) == inject_Z z.
  Proof.
    intro H. apply rnd_exact; [lia|]. apply (fl_comp 53 (inject_Z z * two 0)); [change (two 0) with 1; ring|]. apply fl_le; [lia|exact H].
  Qed.
  Lemma scale_exact j : (0 <= j <= 13)%Z -> r53 (p10 j) == inject_Z (10 ^ j).
  Proof.
    intro H. unfold r53. rewrite (rnd_comp 53 _ (inject_Z (10 ^ j))) by (apply p10_Z; lia). apply fl_int. rewrite Z.abs_eq by (apply Z.pow_nonneg; lia).
    apply Z.le_trans with (10 ^ 13)%Z; [apply Z.pow_le_mono_r; lia|]. vm_compute. discriminate.
  Qed.
  Lemma int_exact a m sc : small a -> m = 1%Z \/ m = 10%Z -> sc == K * inject_Z m -> rhe (r53 (F a * sc)) = (m * a)%Z.
  Proof.
    intros Ha Hm Hsc. apply rhe_near. pose proof (F_near a Ha) as N. pose proof (small_abs a Ha) as S.
    rewrite inject_Z_mult. set (x := F a) in *. clearbody x. unfold r53. rewrite (rnd_comp 53 (x * sc) (x * K * inject_Z m)) by (rewrite Hsc; ring). fold (r53 (x * K * inject_Z m)).
    set (A := inject_Z a) in *. clearbody A. set (y := x * K) in *. clearbody y. apply Qabs_to in N, S.
    assert (MM : inject_Z m == 1 \/ inject_Z m == 10) by (destruct Hm as [->| ->]; [left|right]; reflexivity).
    assert (YM : Qabs (y * inject_Z m) <= 351843720888340) by (apply Qabs_to; destruct MM as [-> | ->]; lra).
    pose proof (r53_err' _ _ YM) as E. apply Qabs_to in E. apply Qabs_Qlt_condition. destruct MM as [M|M]; rewrite M in *; lra.
  Qed.

  Lemma round12_comp x y : x == y -> round12_f x = round12_f y.
  Proof. intro E. unfold round12_f. assert (R : r53 (x * inject_Z (10 ^ 12)) = r53 (y * inject_Z (10 ^ 12))) by (apply rnd_comp; now rewrite E). now rewrite R. Qed.
  Lemma r53_eq x y : x == y -> r53 x = r53 y.
  Proof. apply rnd_comp. Qed.

  (** The estimate is the float64 number nearest to the exact greatest common divisor. *)
  Lemma tick_f f prices l :
    floor_log10_like f -> Forall2 (fun p a => p == grid_price k a) (firstn (Z.to_nat 10000) prices) l ->
    (forall a, In a l -> small a) -> (exists a b, In a l /\ In b l /\ (0 < a - b < 10)%Z) ->
    exists g, (0 < g)%Z /\ gcd_of_differences l g /\ comp_price_tick_size_f f prices = Ok (r53 (inject_Z g / K)).
  Proof.
    intros Hf Hp Hs Hpair. pose proof K_pos as KP.
    assert (Hne : prices <> []) by (intros ->; rewrite firstn_nil in Hp; inversion Hp; subst l; destruct Hpair as (a & _ & [] & _)).
    unfold comp_price_tick_size_f. destruct prices as [|p0 pt]; [congruence|]. set (pr := p0 :: pt) in *. clearbody pr.
    assert (Hsm : firstn (Nat.min (Z.to_nat 10000) (length pr)) pr = firstn (Z.to_nat 10000) pr).
    { destruct (Nat.le_ge_cases (Z.to_nat 10000) (length pr)) as [L|L]; [now rewrite Nat.min_l by auto|].
      rewrite Nat.min_r by auto. now rewrite !firstn_all2 by lia. }
    rewrite Hsm. assert (EM : map round12_f (firstn (Z.to_nat 10000) pr) = map F l).
    { clear -Hp. induction Hp as [|x a q t H1 H2 IH]; [reflexivity|]. cbn [map]. rewrite IH. f_equal. unfold F. now apply round12_comp. }
    rewrite EM, (unique_F l Hs). set (b := zunique l).
    assert (Bin : forall z, In z b <-> In z l) by (intro; apply zunique_in). assert (So : StronglySorted Z.lt b) by apply zunique_sorted.
    assert (Hb : forall a, In a b -> small a) by (intros; apply Hs; now apply Bin). clearbody b.
    destruct Hpair as (a1 & a2 & I1 & I2 & I12). apply Bin in I1, I2. apply (In_nth _ _ 0%Z) in I1, I2. destruct I1 as (j & Hj & Ej), I2 as (i & Hi & Ei).
    assert (Hij : (i < j)%nat).
    { destruct (Nat.lt_trichotomy i j) as [|[E|E]]; [auto|subst i; lia|]. pose proof (ssorted_nth b j i So ltac:(lia)). lia. }
    assert (Hgap : (nth (S i) b 0 - nth i b 0 < 10)%Z).
    { destruct (Nat.eq_dec (S i) j) as [->|]; [lia|]. pose proof (ssorted_nth b (S i) j So ltac:(lia)). lia. }
    cbv zeta. rewrite map_length. destruct (Nat.leb_spec (length b) 1); [lia|].
    assert (Hex : exists i, (S i < length b)%nat /\ (nth (S i) b 0 - nth i b 0 < 10)%Z) by (exists i; split; [lia|exact Hgap]).
    pose proof (min_bounds b ltac:(lia) Hb So Hex) as MB.
    destruct (log_bounds f _ Hf MB) as [EL|EL]; rewrite EL.
    all: assert (Dp : forall d, In d (zdiff b) -> (0 < d)%Z) by (intros d Hd; apply in_zdiff in Hd; destruct Hd as (i' & Hi' & ->); pose proof (ssorted_nth b i' (S i') So ltac:(lia)); lia).
    all: assert (Dn : zdiff b <> []) by (intro E; apply (f_equal (@length Z)) in E; rewrite zdiff_length in E; cbn in E; lia).
    all: assert (G : exists m, (m = 1 \/ m = 10)%Z /\ r53 (p10 (- f (qmin_pos (qdiff_f (map F b))))) == K * inject_Z m).
    1: { exists 1%Z. split; [now left|]. rewrite EL, Z.opp_involutive, scale_exact by lia. unfold K. ring. }
    2: { exists 10%Z. split; [now right|]. rewrite EL. replace (- (- k - 1))%Z with (k + 1)%Z by lia. rewrite scale_exact by lia. unfold K.
         rewrite Z.pow_add_r, inject_Z_mult by lia. reflexivity. }
    all: rewrite EL in G; destruct G as (m & Hm & Esc); set (scale := r53 _) in *; clearbody scale.
    all: rewrite map_map; rewrite (map_ext_in _ (Z.mul m)) by (intros a Ha; apply int_exact; auto).
    all: rewrite zdiff_scale; set (G := gcd_loop (map (Z.mul m) (zdiff b)) 0).
    all: assert (Mp : (0 < m)%Z) by (destruct Hm; lia).
    all: assert (Dpm : forall d, In d (map (Z.mul m) (zdiff b)) -> (0 < d)%Z) by (intros d Hd; apply in_map_iff in Hd; destruct Hd as (d' & <- & Hd); specialize (Dp d' Hd); nia).
    all: assert (Gp : (0 < G)%Z) by (apply gcd_loop_pos; [lia|auto|right; intro E; apply map_eq_nil in E; contradiction]).
    all: destruct (gcd_loop_div (map (Z.mul m) (zdiff b)) 0 ltac:(lia) Dpm) as [_ GD]; fold G in GD.
    all: assert (Gm : (m | G)%Z) by (apply (gcd_loop_comb (fun z => (m | z)%Z)); [intros; apply Z.divide_add_r; now apply Z.divide_mul_r|lia|auto|apply Z.divide_0_r|
      intros d Hd; apply in_map_iff in Hd; destruct Hd as (d' & <- & _); apply Z.divide_factor_l]).
    all: destruct Gm as [g Eg]; exists g.
    all: assert (g0 : (0 < g)%Z) by nia.
    all: assert (GDb : forall d, In d (zdiff b) -> (g | d)%Z) by (intros d Hd; pose proof (GD _ (in_map (Z.mul m) _ _ Hd)) as DV; rewrite Eg, (Z.mul_comm g m) in DV; apply Z.mul_divide_cancel_l in DV; [exact DV|lia]).
    all: split; [exact g0|split; [split|]].
    all: try (intros x y Hx Hy; apply Bin in Hx, Hy; pose proof (divides_tele g b GDb) as T; apply (In_nth _ _ 0%Z) in Hx, Hy; destruct Hx as (jx & Hjx & <-), Hy as (jy & Hjy & <-);
      destruct (Nat.le_ge_cases jy jx); [apply T; lia|]; apply Z.divide_opp_r; rewrite Z.opp_sub_distr, Z.add_comm; replace (nth jy b 0 + - nth jx b 0)%Z with (nth jy b 0 - nth jx b 0)%Z by lia; apply T; lia).
    all: try (intros s Hsd; assert (SG : (m * s | G)%Z) by (apply (gcd_loop_comb (fun z => (m * s | z)%Z)); [intros; apply Z.divide_add_r; now apply Z.divide_mul_r|lia|auto|apply Z.divide_0_r|
      intros d Hd; apply in_map_iff in Hd; destruct Hd as (d' & <- & Hd); apply Z.mul_divide_mono_l; apply in_zdiff in Hd; destruct Hd as (i' & Hi' & ->); apply Hsd; apply Bin, nth_In; lia]);
      rewrite Eg, (Z.mul_comm g m) in SG; apply Z.mul_divide_cancel_l in SG; [exact SG|lia]).
    all: f_equal; apply r53_eq; rewrite Esc.
    all: assert (GB : r53 (inject_Z G) == inject_Z G).
    all: try (apply fl_int; assert (DV : (g | nth (S i) b 0 - nth i b 0)%Z) by (apply GDb, in_zdiff; exists i; split; [lia|reflexivity]); apply Z.divide_pos_le in DV; [|pose proof (ssorted_nth b i (S i) So ltac:(lia)); lia]; rewrite Eg; destruct Hm; subst m; lia).
    all: rewrite GB, Eg, inject_Z_mult; field; split; [lra|].
    all: assert (0 < inject_Z m) by (change 0 with (inject_Z 0); now rewrite <- Zlt_Qlt); lra.
  Qed.
End Grid.
