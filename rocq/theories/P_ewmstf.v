(** P_ewmstf.v -- errors of the time-decayed volatility and of the price/volume correlation in float64. *)
From Coq Require Import Qround Qpower Qfield.
From Verif Require Import Base M_logic M_bars M_features M_volume M_volat M_float M_float2 M_float3 M_float7 M_float8 S_logic S_features S_volat S_float S_sumf.
From Verif Require Import P_weights P_features P_features2 P_volat P_float P_float2 P_float9 P_float11 P_float12 P_float13 P_sumf P_weightsf P_volatf P_volatf2.
Open Scope Q_scope.

(* ---------------------------------------------------------------- decay factors *)
Lemma r53_same x y : x == y -> r53 x == r53 y.
Proof. intro H. unfold r53. now rewrite (rnd_comp 53 x y H). Qed.
Lemma fl_0 : fl 53 0.
Proof. exists 0%Z, 0%Z. split; reflexivity. Qed.
(** The two weights of a step add up to one without error. *)
Lemma decay_exact e : fl 53 e -> 0 <= e <= 1 -> let a := r53 (1 - e) in
  0 <= a <= 1 /\ r53 (1 - a) == 1 - a /\ (1 # 2 <= e -> 1 - a == e) /\ Qabs (1 - a - e) <= u53 * (1 - e).
Proof.
  intros Fe He a.
  assert (Ra : 0 <= a <= 1) by (split; [apply r53_nonneg; lra|apply rnd_le; [lia|exact fl_1|lra]]).
  assert (Fa : fl 53 a) by (apply rnd_fl; lia).
  assert (H1 : 1 # 2 <= e -> a == 1 - e).
  { intro K. unfold a. apply sterbenz_le; [exact fl_1|exact Fe|lra|lra|lra]. }
  split; [exact Ra|]. split; [|split].
  - destruct (Qlt_le_dec a (1 # 2)) as [K|K].
    + assert (L : 1 # 2 <= e).
      { destruct (Qlt_le_dec e (1 # 2)) as [L|L]; [|exact L]. exfalso.
        assert (1 # 2 <= a) by (apply rnd_ge; [lia|exists 1%Z, (-1)%Z; split; [reflexivity|reflexivity]|lra]). lra. }
      specialize (H1 L). assert (E : 1 - a == e) by lra. unfold r53. rewrite (rnd_comp 53 (1 - a) e E). rewrite (rnd_exact 53 e); [lra|lia|exact Fe].
    + apply sterbenz_le; [exact fl_1|exact Fa|lra|lra|lra].
  - intro K. specialize (H1 K). lra.
  - assert (N := near_rnd 0 (1 - e) (1 - e) (1 - e) (near_exact 0 (1 - e) (1 - e) ltac:(rewrite Qabs_pos; lra))). apply near_ee in N. destruct N as [_ N]. fold a in N.
    assert (E1 : ee 1 == u53) by (rewrite ee_S, ee_0; ring). rewrite E1 in N.
    setoid_replace (1 - a - e) with (- (a - (1 - e))) by ring. now rewrite Qabs_opp.
Qed.
Lemma qprod_nonneg l : (forall x, In x l -> 0 <= x) -> 0 <= qprod l.
Proof.
  induction l as [|a l IH]; intro H; [discriminate|]. cbn [qprod fold_right]. apply Qmult_le_0_compat; [apply H; now left|].
  apply IH. intros x Hx. apply H. now right.
Qed.
Lemma wt_nonneg d i j : (1 <= j <= i)%nat -> (forall k, (1 <= k <= i)%nat -> 0 <= d k <= 1) -> 0 <= wt d i j.
Proof.
  intros Hj H. unfold wt. apply Qmult_le_0_compat; [pose proof (H j Hj); lra|]. apply qprod_nonneg.
  intros x Hx. apply in_map_iff in Hx. destruct Hx as (k & <- & Hk). apply in_seq in Hk. apply H. lia.
Qed.
(** One step of a decayed sum. *)
Lemma osum_decay y i c (f : nat -> nat -> Q -> Q) : (forall j x, (j <= i)%nat -> f (S i) j x == c * f i j x) ->
  osum y 1 (S i) (f (S i)) == c * osum y 1 i (f i) + obs y (S i) (f (S i) (S i)).
Proof.
  intros H. rewrite osum_snoc by lia. rewrite <- osum_scal.
  rewrite (osum_ext y 1 i (f (S i)) (fun j x => c * f i j x)) by (intros; apply H; lia). reflexivity.
Qed.

Section Steps.
  Variables (exp : Q -> Q) (ts : list Z) (hl : Q).
  Let a := ts_alpha_f exp ts hl.
  Let d := ts_om_f exp ts hl.
  Definition exp_ok (i : nat) : Prop := forall k, (1 <= k <= i)%nat -> fl 53 (exp (ts_arg_f ts hl k)) /\ 0 <= exp (ts_arg_f ts hl k) <= 1.
  Lemma steps_ok i : exp_ok i -> forall k, (1 <= k <= i)%nat -> 0 <= a k <= 1 /\ 0 <= d k <= 1 /\ a k == 1 - d k.
  Proof.
    intros H k Hk. destruct (H k Hk) as [F B]. destruct (decay_exact _ F B) as (R & E & _). cbv zeta in R, E. fold (ts_alpha_f exp ts hl k) in R, E.
    fold (a k) in R, E. unfold d, ts_om_f. fold (a k). rewrite E. split; [exact R|]. split; lra.
  Qed.
  Lemma exp_ok_S i : exp_ok (S i) -> exp_ok i.
  Proof. intros H k Hk. apply H. lia. Qed.

  Lemma m0_tracks y i : exp_ok i -> let W := osum y 1 i (fun j _ => wt d i j) in let Y := osum y 1 i (fun j x => wt d i j * (x * x)) in
    0 <= W /\ 0 <= Y /\ within u53 (2 * i + 1) (fst (m0_state_f exp ts y hl i)) Y /\ within u53 (2 * i) (snd (m0_state_f exp ts y hl i)) W.
  Proof.
    induction i as [|i IH]; intro He; cbv zeta.
    - change (osum y 1 0 (fun j _ => wt d 0 j)) with 0. change (osum y 1 0 (fun j x => wt d 0 j * (x * x))) with 0. cbn [m0_state_f fst snd].
      split; [lra|]. split; [lra|]. split; apply within_0.
    - specialize (IH (exp_ok_S _ He)). cbv zeta in IH. destruct IH as (P1 & P2 & I1 & I2).
      destruct (steps_ok (S i) He (S i) ltac:(lia)) as (Ra & Rd & E).
      set (W' := osum y 1 (S i) _). set (Y' := osum y 1 (S i) _).
      assert (EW : W' == d (S i) * osum y 1 i (fun j _ => wt d i j) + obs y (S i) (fun _ => wt d (S i) (S i))).
      { apply (osum_decay y i (d (S i)) (fun i j _ => wt d i j)). intros j _ Hj. rewrite wt_step by lia. reflexivity. }
      assert (EY : Y' == d (S i) * osum y 1 i (fun j x => wt d i j * (x * x)) + obs y (S i) (fun x => wt d (S i) (S i) * (x * x))).
      { apply (osum_decay y i (d (S i)) (fun i j x => wt d i j * (x * x))). intros j x Hj. rewrite wt_step by lia. ring. }
      clearbody W' Y'. set (W := osum y 1 i (fun j _ => wt d i j)) in *. set (Y := osum y 1 i (fun j x => wt d i j * (x * x))) in *. clearbody W Y.
      cbn [m0_state_f]. destruct (m0_state_f exp ts y hl i) as [u v]. cbn [fst snd] in I1, I2. fold (a (S i)). fold (d (S i)).
      assert (Q1 : 0 <= d (S i) * W) by (apply Qmult_le_0_compat; lra). assert (Q2 : 0 <= d (S i) * Y) by (apply Qmult_le_0_compat; lra).
      unfold obs in EW, EY. unfold known. destruct (nth (S i) y None) as [x|]; cbn [fst snd].
      + rewrite wt_last in EW, EY. destruct (sq_within x) as [V1 V2].
        assert (Q3 : 0 <= a (S i) * (x * x)) by (apply Qmult_le_0_compat; lra).
        split; [lra|]. split; [rewrite EY, <- E; lra|]. split.
        * apply (within_comp u53 _ (r53 (r53 (a (S i) * r53 (x * x)) + r53 (d (S i) * u))) (d (S i) * Y + a (S i) * (x * x))); [reflexivity|rewrite EY, E; reflexivity|].
          apply (within_comp u53 _ (r53 (r53 (d (S i) * u) + r53 (a (S i) * r53 (x * x)))) (d (S i) * Y + a (S i) * (x * x))); [apply r53_same; ring|reflexivity|].
          replace (2 * S i + 1)%nat with (S (S (2 * i + 1))) by lia. apply (within_add _ 2); [exact Q2|exact Q3|lia| |].
          -- apply within_r53; [exact Q2|]. now apply within_scale.
          -- apply within_r53; [exact Q3|]. apply within_scale; [lra|exact V2].
        * apply (within_comp u53 _ (r53 (a (S i) + r53 (d (S i) * v))) (a (S i) + d (S i) * W)); [reflexivity|rewrite EW, E; ring|].
          replace (2 * S i)%nat with (S (S (2 * i))) by lia. apply within_step; lra || exact I2.
      + split; [lra|]. split; [lra|]. split.
        * apply (within_comp u53 _ (r53 (d (S i) * u)) (d (S i) * Y)); [reflexivity|rewrite EY; ring|].
          replace (2 * S i + 1)%nat with (S (S (2 * i + 1))) by lia. apply (within_S u53 u53_bounds); [exact Q2|]. apply within_r53; [exact Q2|now apply within_scale].
        * apply (within_comp u53 _ (r53 (d (S i) * v)) (d (S i) * W)); [reflexivity|rewrite EW; ring|].
          replace (2 * S i)%nat with (S (S (2 * i))) by lia. apply (within_S u53 u53_bounds); [exact Q1|]. apply within_r53; [exact Q1|now apply within_scale].
  Qed.

  (** Sums of [ewmst]: missing values count as 0. *)
  Definition et_tracks (y : list (option Q)) (i : nat) (s : et_st) : Prop :=
    let z := zero_fill y in
    let W := osum z 1 i (fun j _ => wt d i j) in let W2 := osum z 1 i (fun j _ => wt d i j * wt d i j) in
    let Y := osum z 1 i (fun j x => wt d i j * x) in let YA := osum z 1 i (fun j x => wt d i j * Qabs x) in
    let Y2 := osum z 1 i (fun j x => wt d i j * (x * x)) in
    0 <= W /\ 0 <= W2 /\ 0 <= Y2 /\ within u53 (2 * i) (t_v s) W /\ within u53 (3 * i) (t_v2 s) W2 /\
    near (2 * i) (t_y s) Y YA /\ near (2 * i + 1) (t_yy s) Y2 Y2.
  Lemma et_tracks_all y i : (i < length y)%nat -> exp_ok i -> et_tracks y i (et_state_f exp ts y hl i).
  Proof.
    induction i as [|i IH]; intros Hi He.
    - unfold et_tracks. cbv zeta. cbn [et_state_f t_v t_v2 t_y t_yy].
      split; [change (0 <= 0); lra|]. split; [change (0 <= 0); lra|]. split; [change (0 <= 0); lra|]. split; [apply within_0|]. split; [apply within_0|].
      split; [apply near_self|]. apply (near_le 0 _ _ _ 0); [lia|change (0 <= 0); lra|apply near_self].
    - specialize (IH ltac:(lia) (exp_ok_S _ He)). unfold et_tracks in IH. cbv zeta in IH. destruct IH as (P1 & P2 & P3 & I1 & I2 & I3 & I4).
      destruct (steps_ok (S i) He (S i) ltac:(lia)) as (Ra & Rd & E). unfold et_tracks. cbv zeta. set (z := zero_fill y) in *.
      set (x := match nth (S i) y None with Some x => x | None => 0 end).
      assert (Ez : nth (S i) z None = Some x) by (apply zero_fill_nth; exact Hi).
      assert (EW := osum_decay z i (d (S i)) (fun i j _ => wt d i j) ltac:(intros; cbv beta; rewrite wt_step by lia; reflexivity)).
      assert (EW2 := osum_decay z i (d (S i) * d (S i)) (fun i j _ => wt d i j * wt d i j) ltac:(intros; cbv beta; rewrite !wt_step by lia; ring)).
      assert (EY := osum_decay z i (d (S i)) (fun i j x => wt d i j * x) ltac:(intros; cbv beta; rewrite wt_step by lia; ring)).
      assert (EYA := osum_decay z i (d (S i)) (fun i j x => wt d i j * Qabs x) ltac:(intros; cbv beta; rewrite wt_step by lia; ring)).
      assert (EY2 := osum_decay z i (d (S i)) (fun i j x => wt d i j * (x * x)) ltac:(intros; cbv beta; rewrite wt_step by lia; ring)).
      cbv beta in EW, EW2, EY, EYA, EY2. unfold obs in EW, EW2, EY, EYA, EY2. rewrite Ez, wt_last, <- E in EW, EW2, EY, EYA, EY2.
      set (W' := osum z 1 (S i) (fun j _ => wt d (S i) j)) in *. set (W2' := osum z 1 (S i) (fun j _ => wt d (S i) j * wt d (S i) j)) in *.
      set (Y' := osum z 1 (S i) (fun j x => wt d (S i) j * x)) in *. set (YA' := osum z 1 (S i) (fun j x => wt d (S i) j * Qabs x)) in *.
      set (Y2' := osum z 1 (S i) (fun j x => wt d (S i) j * (x * x))) in *.
      set (W := osum z 1 i (fun j _ => wt d i j)) in *. set (W2 := osum z 1 i (fun j _ => wt d i j * wt d i j)) in *.
      set (Y := osum z 1 i (fun j x => wt d i j * x)) in *. set (YA := osum z 1 i (fun j x => wt d i j * Qabs x)) in *.
      set (Y2 := osum z 1 i (fun j x => wt d i j * (x * x))) in *. clearbody W' W2' Y' YA' Y2' W W2 Y YA Y2.
      cbn [et_state_f]. cbv zeta. set (s := et_state_f exp ts y hl i) in *. clearbody s. fold (a (S i)). fold (d (S i)).
      set (al := a (S i)) in *. set (om := d (S i)) in *. clearbody al om.
      assert (B2 : 0 <= om * om) by (apply Qmult_le_0_compat; lra). assert (A2 : 0 <= al * al) by (apply Qmult_le_0_compat; lra).
      assert (Q1 : 0 <= om * W) by (apply Qmult_le_0_compat; lra). assert (Q2 : 0 <= om * om * W2) by (apply Qmult_le_0_compat; lra).
      assert (Q3 : 0 <= om * Y2) by (apply Qmult_le_0_compat; lra).
      destruct (sq_within x) as [X0 _]. assert (Q4 : 0 <= al * (x * x)) by (apply Qmult_le_0_compat; lra).
      assert (TV : within u53 (2 * S i) (r53 (al + r53 (om * t_v s))) W').
      { apply (within_comp u53 _ (r53 (al + r53 (om * t_v s))) (al + om * W)); [reflexivity|rewrite EW; ring|].
        replace (2 * S i)%nat with (S (S (2 * i))) by lia. apply within_step; lra || exact I1. }
      assert (TV2 : within u53 (3 * S i) (r53 (r53 (al * al) + r53 (r53 (om * om) * t_v2 s))) W2').
      { apply (within_comp u53 _ (r53 (r53 (r53 (om * om) * t_v2 s) + r53 (al * al))) (om * om * W2 + al * al)); [apply r53_same; ring|rewrite EW2; ring|].
        replace (3 * S i)%nat with (S (S (1 + 3 * i))) by lia. apply (within_add _ 1); [exact Q2|exact A2|lia| |].
        - apply within_mult_r; [exact B2|exact P2| |exact I2]. apply within_r53; [exact B2|now apply within_self, B2].
        - apply within_r53; [exact A2|now apply within_self, A2]. }
      pose proof (near_scale om _ _ _ _ (proj1 Rd) I3) as N3. pose proof (near_scale om _ _ _ _ (proj1 Rd) I4) as N4.
      split; [lra|]. split; [lra|]. split; [lra|].
      unfold known. unfold x in *. clear x. destruct (nth (S i) y None) as [x|]; cbn [t_v t_v2 t_y t_yy].
      + split; [exact TV|]. split; [exact TV2|].
        pose proof (near_scale al _ _ _ _ (proj1 Ra) (near_self x)) as M3. split.
        * apply (near_comp _ (r53 (r53 (al * x) + r53 (om * t_y s))) _ (al * x + om * Y) _ (al * Qabs x + om * YA)); [reflexivity|lra|lra|].
          replace (2 * S i)%nat with (S (S (2 * i))) by lia. apply near_rnd, near_plus; [|exact N3].
          apply (near_le 1 _ _ _ (al * Qabs x)); [lia|lra|exact M3].
        * apply (near_comp _ (r53 (r53 (r53 (al * x) * x) + r53 (om * t_yy s))) _ (al * x * x + om * Y2) _ (al * Qabs x * Qabs x + om * Y2)).
          { reflexivity. } { lra. } { rewrite EY2, <- Qmult_assoc, <- Qabs_Qmult, (Qabs_pos (x * x)) by exact X0. ring. }
          replace (2 * S i + 1)%nat with (S (S (2 * i + 1))) by lia. apply near_rnd, near_plus; [|exact N4].
          apply (near_le 2 _ _ _ (al * Qabs x * Qabs x)); [lia|lra|]. apply near_rnd. change 1%nat with (1 + 0)%nat at 1. apply near_mult; [exact M3|apply near_self].
      + split; [exact TV|]. split; [exact TV2|]. change (Qabs 0) with 0 in EYA. split.
        * apply (near_comp _ (r53 (om * t_y s)) _ (om * Y) _ (om * YA)); [reflexivity|lra|lra|]. apply (near_le (S (2 * i)) _ _ _ (om * YA)); [lia|lra|exact N3].
        * apply (near_comp _ (r53 (om * t_yy s)) _ (om * Y2) _ (om * Y2)); [reflexivity|lra|lra|]. apply (near_le (S (2 * i + 1)) _ _ _ (om * Y2)); [lia|lra|exact N4].
  Qed.
  Lemma et_raw_near k tv tv2 ty tyy W Y YA Y2 : 0 < W -> 0 <= Y2 -> within u53 (2 * k) tv W -> near (2 * k) ty Y YA -> near (2 * k + 1) tyy Y2 Y2 ->
    near (12 * k + 4) (et_raw_f (mkET tv tv2 ty tyy)) (Y2 / W - Y / W * (Y / W)) (Y2 / W + YA / W * (YA / W)).
  Proof.
    intros HW HY I1 I3 I4. unfold et_raw_f. cbv zeta. cbn [t_v t_v2 t_y t_yy].
    assert (MN : near (6 * k + 1) (r53 (ty / tv)) (Y / W) (YA / W)).
    { replace (6 * k + 1)%nat with (S (2 * k + 2 * (2 * k))) by lia. apply near_rnd, near_over; auto. }
    replace (12 * k + 4)%nat with (S (12 * k + 3)) by lia. apply near_rnd, near_minus.
    - apply (near_le (6 * k + 2) (12 * k + 3) _ _ (Y2 / W)); [lia|lra|]. replace (6 * k + 2)%nat with (S (2 * k + 1 + 2 * (2 * k))) by lia.
      apply near_rnd, near_over; auto.
    - replace (12 * k + 3)%nat with (S (6 * k + 1 + (6 * k + 1))) by lia. apply near_rnd, near_mult; exact MN.
  Qed.
  Lemma et_den_near k tv tv2 ty tyy W W2 : 0 < W -> 0 <= W2 -> within u53 (2 * k) tv W -> within u53 (3 * k) tv2 W2 ->
    near (7 * k + 2) (et_den_f (mkET tv tv2 ty tyy)) (W - W2 / W) (W + W2 / W).
  Proof.
    intros HW H2 I1 I2. unfold et_den_f. cbn [t_v t_v2].
    replace (7 * k + 2)%nat with (S (7 * k + 1)) by lia. apply near_rnd, near_minus.
    - apply (near_le (2 * k) _ _ _ W); [lia|lra|]. apply near_within; [lra|exact I1].
    - replace (7 * k + 1)%nat with (S (3 * k + 2 * (2 * k))) by lia. apply near_rnd, near_over; auto. now apply near_within.
  Qed.
End Steps.
