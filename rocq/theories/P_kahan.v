(** P_kahan.v -- the compensated sum. *)
From Coq Require Import Qround Qpower Qfield Lqa.
From Verif Require Import Base M_tbio M_float M_float16 S_float P_float.
Open Scope Q_scope.

Definition u_of (p : Z) : Q := Qpower 2 (- p).
Lemma rnd_err' p x : Qabs (rnd p x - x) <= u_of p * Qabs x.
Proof. rewrite Qmult_comm. apply rnd_err. Qed.
Lemma u_small p : (10 <= p)%Z -> 0 < u_of p <= 1 # 1024.
Proof.
  intro H. split; [apply (two_pos (- p))|]. change (1 # 1024) with (two (-10)). apply (two_le (- p) (-10)). lia.
Qed.
Lemma tri a b c : Qabs (a - c) <= Qabs (a - b) + Qabs (b - c).
Proof. setoid_replace (a - c) with ((a - b) + (b - c)) by ring. apply Qabs_triangle. Qed.

(** One step: the running sum less its compensation grows by x up to five roundings of x - c. *)
Lemma kahan_one p s c x s' c' : (10 <= p)%Z -> fl p s -> kahan_step p (s, c) x = (s', c') ->
  fl p s' /\ Qabs ((s' - c') - (s - c + x)) <= 5 * u_of p * Qabs (x - c) /\
  Qabs c' <= u_of p * (Qabs s + (1 + u_of p) * Qabs (x - c)) + (3 + 2 * u_of p) * u_of p * ((1 + u_of p) * Qabs (x - c)).
Proof.
  intros Hp Fs E. pose proof (u_small p Hp) as U. unfold kahan_step in E. set (y := rnd p (x - c)) in *. set (t := rnd p (s + y)) in *. injection E as <- <-.
  split; [apply rnd_fl; lia|]. set (u := u_of p) in *.
  pose proof (rnd_err' p (x - c)) as E1. fold y u in E1. pose proof (rnd_err' p (s + y)) as E2. fold t u in E2.
  pose proof (rnd_best p (s + y) s ltac:(lia) Fs) as E3. fold t in E3.
  pose proof (rnd_err' p (t - s)) as E4. fold u in E4. set (d := rnd p (t - s)) in *. pose proof (rnd_err' p (d - y)) as E5. fold u in E5. set (c' := rnd p (d - y)) in *.
  clearbody y t d c' u. set (m := Qabs (x - c)) in *.
  assert (M0 : 0 <= m) by apply Qabs_nonneg. assert (E3' : Qabs (t - (s + y)) <= Qabs y). { eapply Qle_trans; [exact E3|]. setoid_replace (s - (s + y)) with (- y) by ring. rewrite Qabs_opp. apply Qle_refl. }
  assert (Y : Qabs y <= (1 + u) * m). { pose proof (Qabs_triangle (y - (x - c)) (x - c)) as T. setoid_replace (y - (x - c) + (x - c)) with y in T by ring. fold m in T. lra. }
  assert (Y0 : 0 <= Qabs y) by apply Qabs_nonneg.
  assert (TS : Qabs (t - s) <= 2 * Qabs y). { pose proof (Qabs_triangle (t - (s + y)) y) as T. setoid_replace (t - (s + y) + y) with (t - s) in T by ring. lra. }
  assert (D1 : Qabs (d - (t - s)) <= 2 * u * Qabs y) by nra.
  assert (DY : Qabs (d - y) <= (1 + 2 * u) * Qabs y). { pose proof (Qabs_triangle (d - (t - s)) (t - (s + y))) as T. setoid_replace (d - (t - s) + (t - (s + y))) with (d - y) in T by ring. lra. }
  assert (CE : Qabs (c' - (t - (s + y))) <= (3 + 2 * u) * u * Qabs y).
  { pose proof (Qabs_triangle (c' - (d - y)) (d - (t - s))) as T. setoid_replace (c' - (d - y) + (d - (t - s))) with (c' - (t - (s + y))) in T by ring.
    assert (u * Qabs (d - y) <= u * ((1 + 2 * u) * Qabs y)) by nra. lra. }
  assert (CE2 : (3 + 2 * u) * u * Qabs y <= (3 + 2 * u) * u * ((1 + u) * m)). { rewrite !(Qmult_comm ((3 + 2 * u) * u)). apply Qmult_le_compat_r; [exact Y|]. nra. }
  split.
  - pose proof (Qabs_triangle (y - (x - c)) (- (c' - (t - (s + y))))) as T. rewrite Qabs_opp in T.
    setoid_replace (y - (x - c) + - (c' - (t - (s + y)))) with (t - c' - (s - c + x)) in T by ring.
    assert ((3 + 2 * u) * u * ((1 + u) * m) <= 4 * u * m). { setoid_replace ((3 + 2 * u) * u * ((1 + u) * m)) with ((3 + 2 * u) * (1 + u) * (u * m)) by ring. setoid_replace (4 * u * m) with (4 * (u * m)) by ring. apply Qmult_le_compat_r; nra. }
    lra.
  - pose proof (Qabs_triangle (c' - (t - (s + y))) (t - (s + y))) as T. setoid_replace (c' - (t - (s + y)) + (t - (s + y))) with c' in T by ring.
    assert (Qabs (s + y) <= Qabs s + (1 + u) * m) by (pose proof (Qabs_triangle s y); lra).
    assert (u * Qabs (s + y) <= u * (Qabs s + (1 + u) * m)) by nra. lra.
Qed.

Definition qabs_sum (l : list Q) : Q := qsum (map Qabs l).
Lemma qabs_sum_nonneg l : 0 <= qabs_sum l.
Proof. unfold qabs_sum. induction l as [|x l IH]; [apply Qle_refl|]. cbn [map qsum fold_right]. pose proof (Qabs_nonneg x). unfold qsum in IH. lra. Qed.
(** All steps: [A] bounds the sum of the magnitudes of all values. *)
Lemma kahan_run p A : (10 <= p)%Z -> forall l s c S B n, fl p s ->
  0 <= B -> B + qabs_sum l <= A -> Qabs S <= B -> Qabs c <= 6 * u_of p * A ->
  Qabs ((s - c) - S) <= 5 * u_of p * B + 30 * Qnat n * (u_of p * u_of p) * A ->
  Qnat (n + length l) * (u_of p * u_of p) <= 1 # 4096 ->
  let r := fold_left (kahan_step p) l (s, c) in
  Qabs (snd r) <= 6 * u_of p * A /\
  Qabs ((fst r - snd r) - (S + qsum l)) <= 5 * u_of p * (B + qabs_sum l) + 30 * Qnat (n + length l) * (u_of p * u_of p) * A.
Proof.
  intros Hp. pose proof (u_small p Hp) as U. set (u := u_of p) in *.
  induction l as [|x l IH]; intros s c S B n Fs B0 BA SB C0 T0 HN.
  - cbn [fold_left fst snd length qsum fold_right]. cbn [qabs_sum map qsum fold_right] in *. unfold qabs_sum. cbn [map qsum fold_right]. rewrite Nat.add_0_r. cbv zeta. split; [exact C0|].
    setoid_replace (s - c - (S + 0)) with (s - c - S) by ring. setoid_replace (B + 0) with B by ring. exact T0.
  - cbn [fold_left]. destruct (kahan_step p (s, c) x) as [s' c'] eqn:E. destruct (kahan_one p s c x s' c' Hp Fs E) as (Fs' & K1 & K2). fold u in K1, K2.
    assert (QS : qabs_sum (x :: l) == Qabs x + qabs_sum l) by (unfold qabs_sum; cbn [map qsum fold_right]; reflexivity).
    pose proof (qabs_sum_nonneg l) as L0. pose proof (Qabs_nonneg x) as X0. set (W := u * u) in *.
    assert (HN' : Qnat (Datatypes.S n + length l) * W <= 1 # 4096) by (replace (Datatypes.S n + length l)%nat with (n + length (x :: l))%nat by (cbn [length]; lia); exact HN).
    assert (N1 : Qnat (Datatypes.S n) == Qnat n + 1) by (unfold Qnat; rewrite Nat2Z.inj_succ; unfold Z.succ; rewrite inject_Z_plus; reflexivity).
    pose proof (Qnat_nonneg n) as N0. pose proof (Qnat_nonneg (length l)) as NL.
    assert (NW : Qnat n * W <= 1 # 4096). { eapply Qle_trans; [|exact HN]. apply Qmult_le_compat_r; [|unfold W; nra]. unfold Qnat. rewrite <- Zle_Qle. lia. }
    assert (A0 : 0 <= A) by lra. assert (XC : Qabs (x - c) <= Qabs x + 6 * u * A) by (pose proof (Qabs_triangle x (- c)) as T; rewrite Qabs_opp in T; unfold Qminus; lra).
    assert (UA : u * A <= (1 # 1024) * A) by (apply Qmult_le_compat_r; lra). assert (UA0 : 0 <= u * A) by (apply Qmult_le_0_compat; lra).
    assert (NWA : Qnat n * W * A <= (1 # 4096) * A) by (apply Qmult_le_compat_r; assumption).
    assert (XA : Qabs (x - c) <= (1006 # 1000) * A) by lra.
    assert (UB : u * B <= u * A) by (rewrite !(Qmult_comm u); apply Qmult_le_compat_r; lra).
    assert (TA : Qabs s <= (1019 # 1000) * A).
    { pose proof (Qabs_triangle (s - c - S) (S + c)) as T. setoid_replace (s - c - S + (S + c)) with s in T by ring. pose proof (Qabs_triangle S c) as T2. lra. }
    pose proof (Qabs_nonneg (x - c)) as XC0.
    assert (C1 : Qabs c' <= 6 * u * A).
    { eapply Qle_trans; [exact K2|]. set (m := Qabs (x - c)) in *. clearbody m.
      assert (I1 : Qabs s + (1 + u) * m <= (203 # 100) * A) by nra. assert (I2 : (3 + 2 * u) * ((1 + u) * m) <= (31 # 10) * A) by nra.
      assert (I3 : u * (Qabs s + (1 + u) * m) <= u * ((203 # 100) * A)) by (rewrite !(Qmult_comm u); apply Qmult_le_compat_r; lra).
      assert (I4 : u * ((3 + 2 * u) * ((1 + u) * m)) <= u * ((31 # 10) * A)) by (rewrite !(Qmult_comm u); apply Qmult_le_compat_r; lra).
      setoid_replace ((3 + 2 * u) * u * ((1 + u) * m)) with (u * ((3 + 2 * u) * ((1 + u) * m))) by ring. lra. }
    assert (T1 : Qabs (s' - c' - (S + x)) <= 5 * u * (B + Qabs x) + 30 * Qnat (Datatypes.S n) * W * A).
    { pose proof (Qabs_triangle (s' - c' - (s - c + x)) (s - c - S)) as T. setoid_replace (s' - c' - (s - c + x) + (s - c - S)) with (s' - c' - (S + x)) in T by ring.
      assert (I : 5 * u * Qabs (x - c) <= 5 * u * (Qabs x + 6 * u * A)) by (rewrite !(Qmult_comm (5 * u)); apply Qmult_le_compat_r; lra).
      setoid_replace (5 * u * (Qabs x + 6 * u * A)) with (5 * u * Qabs x + 30 * W * A) in I by (unfold W; ring). rewrite N1. lra. }
    destruct (IH s' c' (S + x) (B + Qabs x) (Datatypes.S n) Fs' ltac:(lra) ltac:(rewrite QS in BA; lra) ltac:(pose proof (Qabs_triangle S x); lra) C1 T1 HN') as [R1 R2].
    cbv zeta in *. split; [exact R1|]. replace (n + length (x :: l))%nat with (Datatypes.S n + length l)%nat by (cbn [length]; lia).
    rewrite QS. setoid_replace (S + qsum (x :: l)) with (S + x + qsum l) by (cbn [qsum fold_right]; unfold qsum; ring). setoid_replace (B + (Qabs x + qabs_sum l)) with (B + Qabs x + qabs_sum l) by ring. exact R2.
Qed.
Lemma kahan_err p l : (10 <= p)%Z -> Qnat (length l) * (u_of p * u_of p) <= 1 # 4096 ->
  Qabs (kahan p l - qsum l) <= (11 * u_of p + 30 * Qnat (length l) * (u_of p * u_of p)) * qabs_sum l.
Proof.
  intros Hp HN. unfold kahan. pose proof (qabs_sum_nonneg l) as L0. pose proof (u_small p Hp) as U.
  destruct (kahan_run p (qabs_sum l) Hp l 0 0 0 0 0%nat) as [R1 R2]; [apply fl_0; lia|lra|lra|change (Qabs 0) with 0; lra|change (Qabs 0) with 0; nra| |exact HN|].
  { change (Qnat 0) with 0. setoid_replace (0 - 0 - 0) with 0 by ring. change (Qabs 0) with 0. lra. }
  cbv zeta in *. cbn [Nat.add] in R2. set (r := fold_left (kahan_step p) l (0, 0)) in *. clearbody r. set (A := qabs_sum l) in *.
  pose proof (Qabs_triangle (fst r - snd r - (0 + qsum l)) (snd r)) as T. setoid_replace (fst r - snd r - (0 + qsum l) + snd r) with (fst r - qsum l) in T by ring. lra.
Qed.
(** No rounding at all on a grid. *)
Lemma rnd_grid p g x : (1 <= p)%Z -> grid g x -> Qabs x <= two (p + g) -> rnd p x == x.
Proof. intros Hp G H. apply rnd_exact; [exact Hp|]. now apply (grid_fl p g). Qed.
Lemma kahan_grid_run p g : (1 <= p)%Z -> forall l s c S, s == S -> c == 0 -> grid g S -> (forall x, In x l -> grid g x) -> Qabs S + qabs_sum l <= two (p + g) ->
  fst (fold_left (kahan_step p) l (s, c)) == S + qsum l.
Proof.
  intro Hp. induction l as [|x l IH]; intros s c S Es Ec GS GX H.
  - cbn [fold_left fst qsum fold_right]. rewrite Es. ring.
  - cbn [fold_left]. assert (QS : qabs_sum (x :: l) == Qabs x + qabs_sum l) by (unfold qabs_sum; cbn [map qsum fold_right]; reflexivity). rewrite QS in H.
    pose proof (qabs_sum_nonneg l) as L0. pose proof (Qabs_nonneg x) as X0. pose proof (Qabs_nonneg S) as S0. assert (Gx : grid g x) by (apply GX; now left).
    unfold kahan_step at 2. assert (Y : rnd p (x - c) == x) by (rewrite (rnd_comp p (x - c) x) by (rewrite Ec; ring); apply (rnd_grid p g); [exact Hp|exact Gx|lra]).
    set (y := rnd p (x - c)) in *. clearbody y. assert (T : rnd p (s + y) == S + x).
    { rewrite (rnd_comp p (s + y) (S + x)) by (rewrite Es, Y; ring). apply (rnd_grid p g); [exact Hp|now apply grid_plus|]. pose proof (Qabs_triangle S x). lra. }
    set (t := rnd p (s + y)) in *. clearbody t. assert (D : rnd p (t - s) == x) by (rewrite (rnd_comp p (t - s) x) by (rewrite T, Es; ring); apply (rnd_grid p g); [exact Hp|exact Gx|lra]).
    set (d := rnd p (t - s)) in *. clearbody d. rewrite (rnd_0 p (d - y)) by (rewrite D, Y; ring).
    rewrite (IH t 0 (S + x)); [cbn [qsum fold_right]; unfold qsum; ring|exact T|reflexivity|now apply grid_plus|intros z Hz; apply GX; now right|].
    pose proof (Qabs_triangle S x). lra.
Qed.
Lemma kahan_grid p g l : (1 <= p)%Z -> (forall x, In x l -> grid g x) -> qabs_sum l <= two (p + g) -> kahan p l == qsum l.
Proof. intros Hp G H. unfold kahan. rewrite (kahan_grid_run p g Hp l 0 0 0); [ring|reflexivity|reflexivity|apply grid_0|exact G|]. change (Qabs 0) with 0. lra. Qed.

Lemma qabs_sum_pos l : (forall x, In x l -> 0 <= x) -> qabs_sum l == qsum l.
Proof.
  unfold qabs_sum. induction l as [|x l IH]; intro H; [reflexivity|]. cbn [map qsum fold_right]. rewrite (Qabs_pos x) by (apply H; now left). unfold qsum in IH. rewrite IH by (intros; apply H; now right). reflexivity.
Qed.
(** Relative errors of quotients and roundings. *)
Lemma rel_rnd p k a x : 0 <= x -> 0 <= k -> Qabs (a - x) <= k * x -> Qabs (rnd p a - x) <= (k + u_of p * (1 + k)) * x.
Proof.
  intros X K H. pose proof (rnd_err' p a) as R. pose proof (Qabs_triangle (rnd p a - a) (a - x)) as T. setoid_replace (rnd p a - a + (a - x)) with (rnd p a - x) in T by ring.
  pose proof (Qabs_triangle (a - x) x) as T2. setoid_replace (a - x + x) with a in T2 by ring. rewrite (Qabs_pos x) in T2 by exact X.
  assert (0 <= u_of p) by (apply Qlt_le_weak, (two_pos (- p))). assert (u_of p * Qabs a <= u_of p * ((1 + k) * x)) by (rewrite !(Qmult_comm (u_of p)); apply Qmult_le_compat_r; lra). lra.
Qed.
Lemma rel_quot a b D D0 V V0 : 0 <= D0 -> 0 < V0 -> 0 <= a -> 0 <= b <= 1 # 2 -> Qabs (D - D0) <= a * D0 -> Qabs (V - V0) <= b * V0 ->
  0 < V /\ Qabs (D / V - D0 / V0) <= (a + b) * (1 + 2 * b) * (D0 / V0).
Proof.
  intros D0p V0p A0 B0 HD HV. apply Qabs_Qle_condition in HV. assert (VP : 0 < V) by nra. split; [exact VP|].
  assert (E : D / V - D0 / V0 == ((D - D0) * V0 - D0 * (V - V0)) / (V * V0)) by (field; lra). rewrite E. unfold Qdiv at 1. rewrite Qabs_Qmult.
  assert (PP : 0 < V * V0) by (apply Qmult_lt_0_compat; assumption). assert (IP : 0 < / (V * V0)) by now apply Qinv_lt_0_compat. rewrite (Qabs_pos (/ (V * V0))) by lra.
  assert (N : Qabs ((D - D0) * V0 - D0 * (V - V0)) <= (a + b) * (D0 * V0)).
  { pose proof (Qabs_triangle ((D - D0) * V0) (- (D0 * (V - V0)))) as T. rewrite Qabs_opp, !Qabs_Qmult, (Qabs_pos V0), (Qabs_pos D0) in T by lra. unfold Qminus at 1. eapply Qle_trans; [exact T|].
    assert (HV' : Qabs (V - V0) <= b * V0) by (apply Qabs_Qle_condition; exact HV).
    assert (Qabs (D - D0) * V0 <= a * D0 * V0) by (apply Qmult_le_compat_r; lra). assert (Qabs (V - V0) * D0 <= b * V0 * D0) by (apply Qmult_le_compat_r; lra). lra. }
  eapply Qle_trans; [apply Qmult_le_compat_r; [exact N|lra]|]. assert (E2 : (a + b) * (D0 * V0) * / (V * V0) == (a + b) * D0 / V) by (field; lra). rewrite E2.
  apply Qle_shift_div_r; [exact VP|]. assert (Q0 : 0 <= D0 / V0) by (apply Qle_shift_div_l; lra). assert (E3 : D0 == D0 / V0 * V0) by (field; lra).
  set (q := D0 / V0) in *. clearbody q. assert (V1 : V0 <= (1 + 2 * b) * V) by nra. rewrite E3. assert (0 <= (a + b) * q) by (apply Qmult_le_0_compat; lra).
  setoid_replace ((a + b) * (q * V0)) with ((a + b) * q * V0) by ring. setoid_replace ((a + b) * (1 + 2 * b) * q * V) with ((a + b) * q * ((1 + 2 * b) * V)) by ring.
  rewrite !(Qmult_comm ((a + b) * q)). apply Qmult_le_compat_r; assumption.
Qed.

(** ** Resampled bars *)
Lemma traded_sums g : (forall b v, In b g -> b_vwap b = Some v -> 0 <= v) -> (forall b, In b g -> 0 <= b_vol b) ->
  0 <= qsum (map traded g) /\ Qabs (qsum (traded_f g) - qsum (map traded g)) <= u_of 53 * qsum (map traded g) /\ (forall x, In x (traded_f g) -> 0 <= x) /\ (length (traded_f g) <= length g)%nat.
Proof.
  intros HW HV. assert (U53 : 0 < u_of 53) by apply (two_pos (-53)). induction g as [|b g IH].
  - cbn. split; [apply Qle_refl|]. split; [vm_compute; discriminate|]. split; [contradiction|lia].
  - destruct IH as (I1 & I2 & I3 & I4); [intros c v Hc; apply HW; now right|intros c Hc; apply HV; now right|]. specialize (HV b (or_introl eq_refl)). specialize (HW b).
    unfold traded_f in *. cbn [map flat_map]. unfold traded at 1 3 5. destruct (b_vwap b) as [v|] eqn:Ev.
    + specialize (HW v (or_introl eq_refl) eq_refl). assert (P : 0 <= v * b_vol b) by now apply Qmult_le_0_compat.
      cbn [app qsum fold_right length]. fold (qsum (map traded g)). set (fl_ := flat_map _ g) in *. fold (qsum fl_). split; [lra|]. split; [|split; [intros x [<- | Hx]; [now apply r53_nonneg|now apply I3]|lia]].
      pose proof (rnd_err' 53 (v * b_vol b)) as R. fold (r53 (v * b_vol b)) in R. rewrite (Qabs_pos (v * b_vol b)) in R by exact P.
      pose proof (Qabs_triangle (r53 (v * b_vol b) - v * b_vol b) (qsum fl_ - qsum (map traded g))) as T. setoid_replace (r53 (v * b_vol b) - v * b_vol b + (qsum fl_ - qsum (map traded g))) with (r53 (v * b_vol b) + qsum fl_ - (v * b_vol b + qsum (map traded g))) in T by ring. lra.
    + cbn [app qsum fold_right length]. fold (qsum (map traded g)). set (fl_ := flat_map _ g) in *. split; [lra|]. split; [|split; [exact I3|lia]]. setoid_replace (0 + qsum (map traded g)) with (qsum (map traded g)) by ring. exact I2.
Qed.
Lemma vol_sum_close g : (forall b, In b g -> 0 <= b_vol b) -> Qnat (length g) * (u_of 24 * u_of 24) <= 1 # 4096 ->
  0 <= qsum (map b_vol g) /\ Qabs (vol_sum_f g - qsum (map b_vol g)) <= (11 * u_of 24 + 30 * Qnat (length g) * (u_of 24 * u_of 24)) * qsum (map b_vol g).
Proof.
  intros HV HN. assert (P : forall x, In x (map b_vol g) -> 0 <= x) by (intros x Hx; apply in_map_iff in Hx; destruct Hx as (b & <- & Hb); now apply HV).
  pose proof (qabs_sum_nonneg (map b_vol g)) as N. rewrite (qabs_sum_pos _ P) in N. split; [exact N|]. unfold vol_sum_f.
  pose proof (kahan_err 24 (map b_vol g) ltac:(lia)) as K. rewrite map_length in K. specialize (K HN). rewrite (qabs_sum_pos _ P) in K. exact K.
Qed.
Lemma vwap_close g : (forall b v, In b g -> b_vwap b = Some v -> 0 <= v) -> (forall b, In b g -> 0 <= b_vol b) -> Qnat (length g) * (u_of 24 * u_of 24) <= 1 # 4096 ->
  match vwap_of_f g, vwap_of g with
  | Some a, Some x => 0 <= x /\ Qabs (a - x) <= (16 * u_of 24 + 40 * Qnat (length g) * (u_of 24 * u_of 24)) * x
  | None, None => True
  | _, _ => False
  end.
Proof.
  intros HW HV HN. destruct (vol_sum_close g HV HN) as [V0 KV]. destruct (traded_sums g HW HV) as (D0 & KT & PT & LT).
  pose proof (kahan_err 53 (traded_f g) ltac:(lia)) as KD. rewrite (qabs_sum_pos _ PT) in KD.
  assert (NN : Qnat (length (traded_f g)) <= Qnat (length g)) by (unfold Qnat; rewrite <- Zle_Qle; lia). pose proof (Qnat_nonneg (length (traded_f g))) as NF0.
  change (u_of 24) with (1 # 16777216) in *. change (u_of 53) with (1 # 9007199254740992) in *.
  unfold vwap_of_f, vwap_of. cbv zeta. set (V := vol_sum_f g) in *. set (Vx := qsum (map b_vol g)) in *. set (D := kahan 53 (traded_f g)) in *. set (Dr := qsum (traded_f g)) in *. set (Dx := qsum (map traded g)) in *.
  set (n := Qnat (length g)) in *. set (m := Qnat (length (traded_f g))) in *. set (N := n * ((1 # 16777216) * (1 # 16777216))) in *.
  assert (N0 : 0 <= N) by (unfold N; pose proof (Qnat_nonneg (length g)) as Z0; fold n in Z0; nra).
  assert (EN : 11 * (1 # 16777216) + 30 * n * ((1 # 16777216) * (1 # 16777216)) == 11 * (1 # 16777216) + 30 * N) by (unfold N; ring). rewrite EN in KV.
  assert (EM : 16 * (1 # 16777216) + 40 * n * ((1 # 16777216) * (1 # 16777216)) == 16 * (1 # 16777216) + 40 * N) by (unfold N; ring).
  assert (MN : m * ((1 # 9007199254740992) * (1 # 9007199254740992)) <= (1 # 1024) * N) by (unfold N; lra).
  specialize (KD ltac:(lra)). clearbody V Vx D Dr Dx.
  assert (VZ : Qeqb V 0 = Qeq_bool Vx 0).
  { destruct (Qeqb_spec V 0) as [E|E], (Qeq_bool Vx 0) eqn:E'; try reflexivity; exfalso.
    - assert (~ Vx == 0) by (intro K; apply Qeq_bool_iff in K; congruence). rewrite E in KV. apply Qabs_Qle_condition in KV. nra.
    - apply Qeq_bool_iff in E'. rewrite E' in KV. apply Qabs_Qle_condition in KV. lra. }
  rewrite VZ. destruct (Qeq_bool Vx 0) eqn:EZ; [exact I|]. assert (VP : 0 < Vx). { destruct (Qlt_le_dec 0 Vx) as [K|K]; [exact K|]. assert (Z0 : Vx == 0) by lra. apply Qeq_bool_iff in Z0. congruence. }
  split; [apply Qle_shift_div_l; lra|]. rewrite EM.
  assert (KD2 : Qabs (D - Dx) <= ((1 # 1000) * (1 # 16777216) + (1 # 10) * N) * Dx).
  { pose proof (Qabs_triangle (D - Dr) (Dr - Dx)) as T. setoid_replace (D - Dr + (Dr - Dx)) with (D - Dx) in T by ring. apply Qabs_Qle_condition in KT. assert (DR : 0 <= Dr <= (2 # 1) * Dx) by lra.
    assert (I : (11 * (1 # 9007199254740992) + 30 * m * ((1 # 9007199254740992) * (1 # 9007199254740992))) * Dr <= ((1 # 9000) * (1 # 16777216) + (30 # 1024) * N) * (2 * Dx)).
    { apply Qle_trans with (((1 # 9000) * (1 # 16777216) + (30 # 1024) * N) * Dr); [apply Qmult_le_compat_r; lra|]. rewrite !(Qmult_comm ((1 # 9000) * _ + _)). apply Qmult_le_compat_r; lra. }
    assert (I2 : Qabs (Dr - Dx) <= (1 # 9007199254740992) * Dx) by (apply Qabs_Qle_condition; exact KT).
    assert (ND : 0 <= N * Dx) by (apply Qmult_le_0_compat; assumption). lra. }
  destruct (rel_quot ((1 # 1000) * (1 # 16777216) + (1 # 10) * N) (11 * (1 # 16777216) + 30 * N) D Dx V Vx D0 VP ltac:(lra) ltac:(lra) KD2 KV) as [VP' KQ]. set (q := D / V) in *. assert (X0 : 0 <= Dx / Vx) by (apply Qle_shift_div_l; lra). set (x := Dx / Vx) in *. clearbody q x.
  set (k := ((1 # 1000) * (1 # 16777216) + (1 # 10) * N + (11 * (1 # 16777216) + 30 * N)) * (1 + 2 * (11 * (1 # 16777216) + 30 * N))) in *.
  assert (K1 : 0 <= k <= (12 # 16777216) + 31 * N) by (unfold k; split; nra).
  pose proof (rel_rnd 53 k q x X0 ltac:(lra) KQ) as R1. fold (r53 q) in R1. change (u_of 53) with (1 # 9007199254740992) in R1.
  set (k1 := k + (1 # 9007199254740992) * (1 + k)) in *. assert (K2 : 0 <= k1 <= (13 # 16777216) + 32 * N) by (unfold k1; split; lra).
  pose proof (rel_rnd 24 k1 (r53 q) x X0 ltac:(lra) R1) as R2. fold (r24 (r53 q)) in R2. change (u_of 24) with (1 # 16777216) in R2.
  eapply Qle_trans; [exact R2|]. apply Qmult_le_compat_r; [lra|exact X0].
Qed.
