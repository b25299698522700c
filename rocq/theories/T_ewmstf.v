(** T_ewmstf.v -- C186: time-decayed volatility and the price/volume correlation in float64. *)
From Coq Require Import Qround Qpower Qfield.
From Verif Require Import Base M_logic M_bars M_features M_volume M_volat M_float M_float2 M_float3 M_float7 M_float8 S_logic S_features S_volat S_float S_sumf.
From Verif Require Import P_weights P_features P_features2 P_volat P_float P_float2 P_float9 P_float11 P_float12 P_float13 P_sumf P_weightsf P_volatf P_volatf2 P_ewmstf P_corrf.
From Verif Require Import T_features2 T_volat T_volatf.
Open Scope Q_scope.

(** * Decay factors *)
(** The argument of exp has three relative errors, two if the step is at most 2^53 ns (104 days). *)
Theorem C186_argument : forall ts hl k, 0 < hl -> let D := (nth k ts 0 - nth (k - 1) ts 0)%Z in (0 <= D)%Z ->
  within u53 3 (- ts_arg_f ts hl k) (inject_Z D / 1000000000 / hl) /\
  ((D <= 2 ^ 53)%Z -> within u53 2 (- ts_arg_f ts hl k) (inject_Z D / 1000000000 / hl)).
Proof.
  intros ts hl k Hh D HD. unfold ts_arg_f. fold D. assert (D0 : 0 <= inject_Z D) by (change 0 with (inject_Z 0); rewrite <- Zle_Qle; lia).
  assert (D1 : 0 <= inject_Z D / 1000000000) by (apply Qle_shift_div_l; lra).
  assert (D2 : 0 <= inject_Z D / 1000000000 / hl) by (apply Qle_shift_div_l; lra).
  assert (E : forall x, - r53 (- x / hl) == r53 (x / hl)).
  { intro x. unfold r53. rewrite (rnd_comp 53 (- x / hl) (- (x / hl))) by (unfold Qdiv; ring). rewrite rnd_opp. ring. }
  assert (G : forall n x, within u53 n x (inject_Z D) -> within u53 (S (S n)) (- r53 (- r53 (x / 1000000000) / hl)) (inject_Z D / 1000000000 / hl)).
  { intros n x H. apply (within_comp u53 _ (r53 (r53 (x / 1000000000) / hl)) (inject_Z D / 1000000000 / hl)); [symmetry; apply E|reflexivity|].
    apply within_quot; [exact D1|exact Hh|]. apply within_quot; [exact D0|lra|exact H]. }
  split; [|intro K].
  - apply G. apply within_r53; [exact D0|]. now apply within_self, D0.
  - apply G. apply within_exact; [exact D0|]. apply rnd_exact; [lia|]. apply fl_int. lia.
Qed.
(** What one step multiplies the older weights by and what it gives the new value add up to one without error; the first
    is within one rounding of exp, and equal to it from 1/2 on. *)
Theorem C186_decay : forall exp ts hl k, let e := exp (ts_arg_f ts hl k) in fl 53 e -> 0 <= e <= 1 ->
  ts_alpha_f exp ts hl k + ts_om_f exp ts hl k == 1 /\ 0 <= ts_om_f exp ts hl k <= 1 /\
  Qabs (ts_om_f exp ts hl k - e) <= u53 * (1 - e) /\ (1 # 2 <= e -> ts_om_f exp ts hl k == e).
Proof.
  intros exp ts hl k e Fe He. destruct (decay_exact e Fe He) as (R & E & H1 & H2). cbv zeta in R, E, H1, H2. unfold ts_om_f. fold e.
  unfold ts_alpha_f. fold e. rewrite E. split; [ring|]. split; [lra|]. split; [exact H2|exact H1].
Qed.
(** e = 9/16, 2/3 rounded, 1 - 2^-53. *)
Example C186_decay_example : forall e, In e [9 # 16; r53 (2 # 3); 9007199254740991 # 9007199254740992; r53 (1 # 1000000)] -> fl 53 e /\ 0 <= e <= 1.
Proof.
  intros e [<-|[<-|[<-|[<-|[]]]]].
  - split; [exists 9%Z, (-4)%Z; split; reflexivity|split; discriminate].
  - split; [apply rnd_fl; lia|split; vm_compute; discriminate].
  - split; [exists 9007199254740991%Z, (-53)%Z; split; reflexivity|split; discriminate].
  - split; [apply rnd_fl; lia|split; vm_compute; discriminate].
Qed.

(** * ewmst_mean0 *)
(** Up to 6 i + 2 relative errors the variance is the weighted mean square of the present values. *)
Theorem C186_mean0 : forall sqrt exp ts y hl floor i, ~ hl == 0 -> (i < length y)%nat ->
  (forall k, (1 <= k <= i)%nat -> fl 53 (exp (ts_arg_f ts hl k)) /\ 0 <= exp (ts_arg_f ts hl k) <= 1) ->
  let d := ts_om_f exp ts hl in
  let W := osum y 1 i (fun j _ => wt d i j) in
  let Y2 := osum y 1 i (fun j x => wt d i j * (x * x)) in
  exists out, ewmst_mean0_f sqrt exp ts y hl floor = Ok out /\ length out = length y /\
  (nth i out None = None <-> W == 0) /\
  (0 < W -> exists v r, nth i out None = Some r /\ floored (sqrt v) floor r /\ 0 <= v /\ within u53 (6 * i + 2) v (Y2 / W)).
Proof.
  intros sqrt exp ts y hl floor i Hh Hi He d W Y2. unfold ewmst_mean0_f. destruct (Qeqb_spec hl 0) as [Z0|_]; [contradiction|]. rewrite andb_false_r.
  eexists. split; [reflexivity|]. rewrite map_length, seq_length. split; [reflexivity|]. rewrite nth_map_seq by auto.
  destruct i as [|i]; [split; [split; reflexivity|intro K; exfalso; unfold W in K; vm_compute in K; discriminate]|].
  destruct (m0_tracks exp ts hl y (S i) He) as (P1 & P2 & I1 & I2). fold d in P1, P2, I1, I2. fold W in P1, I2. fold Y2 in P2, I1.
  set (s := m0_state_f exp ts y hl (S i)) in *. clearbody s W Y2. unfold m0_out_f. destruct (Qltb_spec 0 (snd s)) as [K|K].
  - assert (HW : 0 < W). { destruct (Qlt_le_dec 0 W) as [L|L]; [exact L|]. exfalso. assert (E : W == 0) by lra. destruct I2 as [_ I2]. rewrite E in I2. lra. }
    split; [split; [discriminate|lra]|]. intros _. cbv zeta.
    assert (V : within u53 (6 * S i + 2) (r53 (fst s / snd s)) (Y2 / W)).
    { replace (6 * S i + 2)%nat with (S (2 * S i + 1 + 2 * (2 * S i))) by lia. apply within_div_r; auto. }
    assert (Q0 : 0 <= Y2 / W) by (apply Qle_shift_div_l; lra). assert (V0 := within_nonneg u53 u53_bounds _ _ _ V Q0).
    destruct (Qltb_spec (r53 (fst s / snd s)) 0) as [N|N]; [lra|].
    eexists. eexists. split; [reflexivity|]. split; [apply floored_intro|]. split; [exact V0|exact V].
  - assert (HW : W == 0). { destruct (Qlt_le_dec 0 W) as [L|L]; [|lra]. exfalso. pose proof (within_pos _ _ _ L I2). lra. }
    split; [split; [intros _; exact HW|reflexivity]|lra].
Qed.
(** Half-life 60 s, steps of 60, 0 and 120 seconds, exp(-1) and exp(-2) replaced by 1/2 and 1/4, one missing value. *)
Definition c186_ts : list Z := [0; 60000000000; 60000000000; 180000000000; 240000000000]%Z.
Definition c186_exp (x : Q) : Q := if Qeqb x 0 then 1 else if Qeqb x (-(1)) then 1 # 2 else 1 # 4.
Example C186_mean0_example : let y := [Some 9; Some 3; Some 7; None; Some (1 # 2)] in
  (forall k, (1 <= k <= 4)%nat -> fl 53 (c186_exp (ts_arg_f c186_ts 60 k)) /\ 0 <= c186_exp (ts_arg_f c186_ts 60 k) <= 1) /\
  0 < osum y 1 4 (fun j _ => wt (ts_om_f c186_exp c186_ts 60) 4 j) /\
  ewmst_mean0_f (fun q => q) c186_exp c186_ts y 60 (1 # 10) = Ok [None; Some 9; Some 9; Some 9; Some (1376099886140985 # 1125899906842624)].
Proof.
  intro y. split; [|split; vm_compute; reflexivity].
  intros k Hk. destruct k as [|[|[|[|[|k]]]]]; try lia; (split; [|vm_compute; split; discriminate]).
  1, 4: exists 1%Z, (-1)%Z; split; [reflexivity|vm_compute; reflexivity].
  - exists 1%Z, 0%Z; split; [reflexivity|vm_compute; reflexivity].
  - exists 1%Z, (-2)%Z; split; [reflexivity|vm_compute; reflexivity].
Qed.

(** * ewmst *)
(** With missing values counted as 0, the variance is computed from three numbers near the exact ones: the mean square minus the
    squared mean (error relative to the mean square), the sum of the weights, and the denominator (error relative to that sum). *)
Theorem C186_ewmst : forall sqrt exp ts y hl floor i, ~ hl == 0 -> (1 <= i < length y)%nat ->
  (forall k, (1 <= k <= i)%nat -> fl 53 (exp (ts_arg_f ts hl k)) /\ 0 <= exp (ts_arg_f ts hl k) <= 1) ->
  let d := ts_om_f exp ts hl in let z := zero_fill y in
  let W := osum z 1 i (fun j _ => wt d i j) in
  let W2 := osum z 1 i (fun j _ => wt d i j * wt d i j) in
  let Y := osum z 1 i (fun j x => wt d i j * x) in
  let Y2 := osum z 1 i (fun j x => wt d i j * (x * x)) in
  exists out, ewmst_f sqrt exp ts y hl floor = Ok out /\ length out = length y /\
  (nth i out None = None <-> W == 0) /\
  (0 < W -> exists a Wf c r, nth i out None = Some r /\ within u53 (2 * i) Wf W /\
     Qabs (a - (Y2 / W - Y / W * (Y / W))) <= ((1 + u53) ^ Z.of_nat (12 * i + 4) - 1) * (2 * (Y2 / W)) /\
     Qabs (c - (W - W2 / W)) <= ((1 + u53) ^ Z.of_nat (7 * i + 2) - 1) * (2 * W) /\
     (a <= 0 \/ c <= 0 -> floored (sqrt 0) floor r) /\
     (0 < a -> 0 < c -> floored (sqrt (r53 (a * r53 (Wf / c)))) floor r)).
Proof.
  intros sqrt exp ts y hl floor i Hh Hi He d z W W2 Y Y2. unfold ewmst_f. destruct (Qeqb_spec hl 0) as [Z0|_]; [contradiction|]. rewrite andb_false_r.
  eexists. split; [reflexivity|]. rewrite map_length, seq_length. split; [reflexivity|]. rewrite nth_map_seq by lia. destruct i as [|i]; [lia|].
  pose proof (et_tracks_all exp ts hl y (S i) ltac:(lia) He) as T. unfold et_tracks in T. cbv zeta in T. fold d in T. fold z in T.
  assert (Hw : forall j, (1 <= j <= S i)%nat -> 0 <= wt d (S i) j).
  { intros j Hj. apply wt_nonneg; [exact Hj|]. intros k Hk. destruct (steps_ok exp ts hl (S i) He k Hk) as (_ & R & _). exact R. }
  pose proof (weight_counts z (wt d (S i)) 1 (S i) Hw) as C. cbv zeta in C. destruct C as (C0 & C1 & _ & _).
  pose proof (raw_nonneg (oabs z) (wt d (S i)) 1 (S i) Hw) as R. cbv zeta in R.
  rewrite (oabs_obs z (fun j _ => wt d (S i) j) (fun j _ => wt d (S i) j)) in R by reflexivity.
  rewrite (oabs_obs z (fun j x => wt d (S i) j * x) (fun j x => wt d (S i) j * Qabs x)) in R by reflexivity.
  rewrite (oabs_obs z (fun j x => wt d (S i) j * (x * x)) (fun j x => wt d (S i) j * (x * x))) in R.
  2:{ intros j x. rewrite <- Qabs_Qmult, Qabs_pos; [reflexivity|destruct (Qlt_le_dec x 0); nra]. }
  fold W in T, C0, C1, R. fold W2 in T, C1. fold Y in T. fold Y2 in T, R. set (YA := osum z 1 (S i) (fun j x => wt d (S i) j * Qabs x)) in *.
  destruct T as (P1 & P2 & P3 & I1 & I2 & I3 & I4).
  set (s := et_state_f exp ts y hl (S i)) in *. clearbody s W W2 Y Y2 YA. unfold et_out_f. destruct (Qltb_spec 0 (t_v s)) as [K|K].
  - assert (HW : 0 < W). { destruct (Qlt_le_dec 0 W) as [L|L]; [exact L|]. exfalso. assert (E : W == 0) by lra. destruct I1 as [_ I1]. rewrite E in I1. lra. }
    split; [split; [discriminate|lra]|]. intros _. cbv zeta. specialize (R HW).
    destruct s as [tv tv2 ty tyy]. cbn [t_v t_v2 t_y t_yy] in *.
    pose proof (et_raw_near (S i) tv tv2 ty tyy W Y YA Y2 HW P3 I1 I3 I4) as [_ N1].
    pose proof (et_den_near (S i) tv tv2 ty tyy W W2 HW P2 I1 I2) as [_ N2].
    exists (et_raw_f (mkET tv tv2 ty tyy)), tv, (et_den_f (mkET tv tv2 ty tyy)). eexists. split; [reflexivity|]. split; [exact I1|].
    fold (ee (12 * S i + 4)) in *. fold (ee (7 * S i + 2)) in *. pose proof (ee_nonneg (12 * S i + 4)) as G1. pose proof (ee_nonneg (7 * S i + 2)) as G2.
    assert (W2W : W2 / W <= W) by (apply Qle_shift_div_r; [exact HW|lra]).
    split; [eapply Qle_trans; [exact N1|]; rewrite !(Qmult_comm (ee (12 * S i + 4))); apply Qmult_le_compat_r; lra|].
    split; [eapply Qle_trans; [exact N2|]; rewrite !(Qmult_comm (ee (7 * S i + 2))); apply Qmult_le_compat_r; lra|].
    set (a := et_raw_f _). set (c := et_den_f _). clearbody a c. split.
    + intro AC. assert (E : (Qltb 0 c && Qltb 0 a)%bool = false).
      { destruct (Qltb_spec 0 c); [|reflexivity]. destruct (Qltb_spec 0 a); [|reflexivity]. destruct AC; lra. }
      rewrite E. apply floored_intro.
    + intros A0 C2. destruct (Qltb_spec 0 c); [|lra]. destruct (Qltb_spec 0 a); [|lra]. apply floored_intro.
  - assert (HW : W == 0). { destruct (Qlt_le_dec 0 W) as [L|L]; [|lra]. exfalso. pose proof (within_pos _ _ _ L I1). lra. }
    split; [split; [intros _; exact HW|reflexivity]|lra].
Qed.
Example C186_ewmst_example : let y := [Some 9; Some 3; Some 7; None; Some (1 # 2)] in
  0 < osum (zero_fill y) 1 4 (fun j _ => wt (ts_om_f c186_exp c186_ts 60) 4 j) /\
  ewmst_f (fun q => q) c186_exp c186_ts y 60 (1 # 10) =
  Ok [None; Some (1 # 10); Some (1 # 10); Some (9 # 2); Some (526630601587679 # 562949953421312)].
Proof. split; vm_compute; reflexivity. Qed.

(** A single return of 0.001, 49 seconds after the first timestamp, half-life 30 s.  One observation has no deviation: the exact
    output is the floor.  In float64 the raw variance and the denominator are both one rounding error above 0 and their quotient
    makes the variance 1.53e-6, a deviation of 0.00124. *)
Definition c186_e : Q := 7035615673764903 # 36028797018963968.
Definition c186_v : Q := 3624147668149883 # 2361183241434822606848.
Theorem C186_first_refuted : let ts := [0; 49000000000]%Z in let y := [Some 0; Some (r53 (1 # 1000))] in
  (1 # 1000000) < c186_v /\
  (forall sqrt exp floor, exp (ts_arg_f ts 30 1) = c186_e -> floor <= sqrt c186_v -> ewmst_f sqrt exp ts y 30 floor = Ok [None; Some (sqrt c186_v)]) /\
  (forall sqrt exp floor, 0 < step_decay exp ts 30 1 < 1 -> (forall v, v == 0 -> sqrt v <= floor) ->
     exists r, ewmst sqrt exp ts y 30 floor = Ok [None; Some r] /\ r == floor).
Proof.
  intros ts y. split; [reflexivity|]. split.
  - intros sqrt exp floor He Hf. unfold ewmst_f. change (2 <=? length y)%nat with true. change (Qeqb 30 0) with false. cbn [andb]. change (seq 0 (length y)) with [0%nat; 1%nat].
    cbn [map]. cbn [et_state_f]. cbv zeta. unfold ts_om_f, ts_alpha_f. rewrite He.
    change (known y 1) with (Some (r53 (1 # 1000))). cbv beta iota. cbn [t_v t_v2 t_y t_yy].
    match goal with |- context [et_out_f _ _ ?t] => set (st := t) end. unfold et_out_f. assert (E1 : Qltb 0 (t_v st) = true) by (vm_compute; reflexivity). rewrite E1. cbv zeta.
    assert (E2 : (Qltb 0 (et_den_f st) && Qltb 0 (et_raw_f st))%bool = true) by (vm_compute; reflexivity). rewrite E2.
    assert (E3 : r53 (et_raw_f st * r53 (t_v st / et_den_f st)) = c186_v) by (vm_compute; reflexivity). rewrite E3.
    destruct (Qltb_spec (sqrt c186_v) floor); [lra|reflexivity].
  - intros sqrt exp floor Hd Hs. destruct (C100_zero_filled_partial sqrt exp ts y 30 floor 1) as (out & E & L & _ & G); [discriminate|cbn; lia| |].
    { intros k Hk. replace k with 1%nat by lia. lra. }
    assert (N : n_obs (zero_fill y) (fun j => Qltb (step_decay exp ts 30 j) 1) 1 1 = 1%nat).
    { unfold n_obs. cbn [seq Nat.sub filter]. change (nth 1 (zero_fill y) None) with (Some (r53 (1 # 1000))). cbv beta iota.
      destruct (Qltb_spec (step_decay exp ts 30 1) 1); [reflexivity|lra]. }
    rewrite N in G. destruct (G ltac:(lia)) as (v & r & G1 & [G2 G3] & _ & G4 & _). specialize (G4 eq_refl). exists r.
    assert (R : r == floor). { pose proof (Hs v G4) as H1. destruct (Qlt_le_dec (sqrt v) floor) as [H2|H2]; [rewrite (G2 H2); reflexivity|rewrite (G3 H2); lra]. }
    split; [|exact R]. rewrite E. f_equal. cbn [length y] in L. destruct out as [|o0 [|o1 [|o2 out]]]; try discriminate L. cbn [nth] in G1. rewrite G1. f_equal.
    unfold ewmst in E. change (2 <=? length y)%nat with true in E. change (Qeqb 30 0) with false in E. cbn [andb] in E. change (seq 0 (length y)) with [0%nat; 1%nat] in E. cbn [map] in E.
    now injection E as <- _.
Qed.
(** Three equal returns of 0.001 at 10 s steps, half-life 30 s (exp(-1/3) in float64): the raw variance is a rounding error above
    0, so the reported deviation of a flat series is not the floor. *)
Theorem C186_flat_refuted : let ts := [0; 10000000000; 20000000000; 30000000000]%Z in let y := repeat (Some (r53 (1 # 1000))) 4 in
  exists v, (1 # 10000000000000000000000) < v /\
  forall sqrt exp floor, exp (r53 (- r53 (r53 10000000000 / 1000000000) / 30)) = (6453940286598821 # 9007199254740992) -> floor <= sqrt v ->
  exists out, ewmst_f sqrt exp ts y 30 floor = Ok out /\ nth 2 out None = Some (sqrt v).
Proof.
  intros ts y. exists (4629862248902937 # 5316911983139663491615228241121378304). split; [reflexivity|].
    intros sqrt exp floor He Hf. unfold ewmst_f. change (2 <=? length y)%nat with true. change (Qeqb 30 0) with false. cbn [andb].
    eexists. split; [reflexivity|]. rewrite nth_map_seq by (cbn; lia).
    assert (A1 : ts_alpha_f exp ts 30 1 = r53 (1 - (6453940286598821 # 9007199254740992))) by (unfold ts_alpha_f; rewrite <- He; reflexivity).
    assert (A2 : ts_alpha_f exp ts 30 2 = r53 (1 - (6453940286598821 # 9007199254740992))) by (unfold ts_alpha_f; rewrite <- He; reflexivity).
    cbn [et_state_f]. cbv zeta. unfold ts_om_f. rewrite A1, A2. change (known y 1) with (Some (r53 (1 # 1000))). change (known y 2) with (Some (r53 (1 # 1000))).
    cbv beta iota. cbn [t_v t_v2 t_y t_yy].
    match goal with |- et_out_f _ _ ?t = _ => set (st := t) end.
    unfold et_out_f. assert (E1 : Qltb 0 (t_v st) = true) by (vm_compute; reflexivity). rewrite E1. cbv zeta.
    assert (E2 : (Qltb 0 (et_den_f st) && Qltb 0 (et_raw_f st))%bool = true) by (vm_compute; reflexivity). rewrite E2.
    set (v := 4629862248902937 # 5316911983139663491615228241121378304) in *.
    assert (E3 : r53 (et_raw_f st * r53 (t_v st / et_den_f st)) = v) by (vm_compute; reflexivity). rewrite E3.
    destruct (Qltb_spec (sqrt v) floor) as [K|K]; [lra|reflexivity].
Qed.

(** * Price/volume correlation *)
(** Sum of the products of the sizes |x| + mean |x|, the scale of the errors of a sum of products of deviations. *)
Definition cross_size (xs ys : list Q) : Q :=
  qsum (map (fun p => (Qabs (fst p) + mean (map Qabs xs)) * (Qabs (snd p) + mean (map Qabs ys))) (combine xs ys)).
Lemma cross_size_map {A} (f g : A -> Q) l : cross_size (map f l) (map g l) =
  qsum (map (fun x => (Qabs (f x) + mean (map (fun x => Qabs (f x)) l)) * (Qabs (g x) + mean (map (fun x => Qabs (g x)) l))) l).
Proof. unfold cross_size. rewrite combine_map2, !map_map. reflexivity. Qed.
(** Every value lies in [-1, 1]. *)
Theorem C186_corr_range : forall sqrt price volume n i c, (i < length price)%nat ->
  nth i (pv_correlation_f sqrt price volume n) None = Some c -> -(1) <= c <= 1.
Proof.
  intros sqrt price volume n i c Hi. unfold pv_correlation_f. rewrite nth_map_seq by auto.
  destruct (i <? n)%nat; [discriminate|]. destruct (pv_return_f price i); [|discriminate].
  destruct (nth i volume None); [|discriminate]. cbv zeta.
  destruct (_ && _ && _). { intro E. injection E as <-. lra. }
  destruct (_ && _ && _). { intro E. injection E as <-. lra. }
  unfold corr_pairs_f. destruct (_ <? 2)%nat; [discriminate|]. destruct (corr_sums_f _) as [[cov sr] sv]. destruct (_ && _); [|discriminate].
  intro F. injection F as <-. apply clamp_range.
Qed.
(** Outside indices 4..9: the value is the clipped quotient of three numbers near the centred sums of the exact returns and of the
    volumes. *)
Theorem C186_corr : forall sqrt price volume n i, (1 <= n <= i)%nat -> (i < length price)%nat -> ~ (4 <= i < 10)%nat ->
  let p j := nth j price None in let w j := nth j volume None in
  let rs := map fst (observed (ret p) w i n) in let vs := map snd (observed (ret p) w i n) in let N := length rs in
  let out := nth i (pv_correlation_f sqrt price volume n) None in
  (ret p i = None \/ w i = None \/ (N < 2)%nat -> out = None) /\
  (ret p i <> None -> w i <> None -> (2 <= N)%nat -> exists cov sr sv,
     Qabs (cov - cross rs vs) <= ((1 + u53) ^ Z.of_nat (3 * N + 7) - 1) * cross_size rs vs /\
     Qabs (sr - cross rs rs) <= ((1 + u53) ^ Z.of_nat (3 * N + 9) - 1) * cross_size rs rs /\
     Qabs (sv - cross vs vs) <= ((1 + u53) ^ Z.of_nat (3 * N + 5) - 1) * cross_size vs vs /\
     0 <= sr /\ 0 <= sv /\ (sr == 0 \/ sv == 0 -> out = None) /\
     (0 < sr -> 0 < sv -> exists c, out = Some c /\ let x := r53 (cov / r53 (sqrt sr * sqrt sv)) in
        (1 <= x -> c == 1) /\ (x <= -(1) -> c == -(1)) /\ (-(1) <= x <= 1 -> c == x))).
Proof.
  intros sqrt price volume n i Hn Hi Hs p w rs vs N out. subst out. unfold pv_correlation_f. rewrite nth_map_seq by auto.
  replace (i <? n)%nat with false by (symmetry; apply Nat.ltb_ge; lia).
  replace ((4 <=? i) && (i <? 10))%nat with false
    by (symmetry; apply andb_false_iff; destruct (le_lt_dec 4 i); [right; apply Nat.ltb_ge; lia|left; apply Nat.leb_gt; lia]).
  cbn [andb]. cbv zeta. pose proof (pv_return_f_near price i) as P. rewrite pv_return_ret in P. fold p in P. change (ret (fun j => p j) i) with (ret p i) in P.
  change (nth i volume None) with (w i).
  destruct (valid_pairs_f_tri price volume i n) as (l & L1 & L2 & L3). rewrite valid_observed in L2. fold p w in L2.
  change (fun j : nat => p j) with p in L2. change (fun j : nat => w j) with w in L2.
  assert (Er : rs = map (fun t => snd (fst t)) l) by (unfold rs; rewrite L2, map_map; reflexivity).
  assert (Ev : vs = map (fun t => snd t) l) by (unfold vs; rewrite L2, map_map; reflexivity).
  assert (EN : N = length l) by (unfold N; rewrite Er, map_length; reflexivity). clearbody rs vs N. rewrite L1. subst rs vs N.
  set (ps := map (fun t => (fst (fst t), snd t)) l). assert (Lp : length ps = length l) by (unfold ps; apply map_length).
  split.
  - intro K. destruct (pv_return_f price i) as [x|]; [|reflexivity]. destruct (ret p i); [|contradiction]. destruct (w i); [|reflexivity].
    destruct K as [K|[K|K]]; try discriminate. unfold corr_pairs_f. rewrite Lp. destruct (Nat.ltb_spec (length l) 2); [reflexivity|lia].
  - intros K1 K2 K3. destruct (pv_return_f price i) as [x|]; destruct (ret p i); try contradiction; try congruence. destruct (w i); [|congruence].
    assert (H1 : (1 <= length l)%nat) by lia.
    assert (Nv : forall t, In t l -> near 0 (snd t) (snd t) (Qabs (snd t))) by (intros; apply near_self).
    pose proof (cross_near (fun t => fst (fst t)) (fun t => snd (fst t)) (fun t => Qabs (snd (fst t))) (fun t => snd t) (fun t => snd t) (fun t => Qabs (snd t)) 2 0 l H1 L3 Nv) as [_ X1].
    pose proof (cross_near (fun t => fst (fst t)) (fun t => snd (fst t)) (fun t => Qabs (snd (fst t))) (fun t => fst (fst t)) (fun t => snd (fst t)) (fun t => Qabs (snd (fst t))) 2 2 l H1 L3 L3) as [_ X2].
    pose proof (cross_near (fun t => snd t) (fun t => snd t) (fun t => Qabs (snd t)) (fun t => snd t) (fun t => snd t) (fun t => Qabs (snd t)) 0 0 l H1 Nv Nv) as [_ X3].
    replace (2 + 0 + 3 * length l + 5)%nat with (3 * length l + 7)%nat in X1 by lia. replace (2 + 2 + 3 * length l + 5)%nat with (3 * length l + 9)%nat in X2 by lia.
    replace (0 + 0 + 3 * length l + 5)%nat with (3 * length l + 5)%nat in X3 by lia.
    rewrite !cross_map, !cross_size_map.
    destruct (fsum_sq_zero (fun t => dev_f (map (fun t => fst (fst t)) l) (fst (fst t))) l) as [Z1 _].
    destruct (fsum_sq_zero (fun t => dev_f (map (fun t => snd t) l) (snd t)) l) as [Z2 _].
    assert (CS : corr_sums_f ps = (fsum (map (fun x => r53 (dev_f (map (fun t => fst (fst t)) l) (fst (fst x)) * dev_f (map (fun t => snd t) l) (snd x))) l),
      fsum (map (fun x => r53 (dev_f (map (fun t => fst (fst t)) l) (fst (fst x)) * dev_f (map (fun t => fst (fst t)) l) (fst (fst x)))) l),
      fsum (map (fun x => r53 (dev_f (map (fun t => snd t) l) (snd x) * dev_f (map (fun t => snd t) l) (snd x))) l))).
    { unfold corr_sums_f, ps. rewrite !map_map. reflexivity. }
    cbv beta in X1, X2, X3, Z1, Z2. set (cov := fsum (map (fun x => r53 (dev_f (map (fun t => fst (fst t)) l) (fst (fst x)) * dev_f (map (fun t => snd t) l) (snd x))) l)) in *.
    set (sr := fsum (map (fun x => r53 (dev_f (map (fun t => fst (fst t)) l) (fst (fst x)) * dev_f (map (fun t => fst (fst t)) l) (fst (fst x)))) l)) in *.
    set (sv := fsum (map (fun x => r53 (dev_f (map (fun t => snd t) l) (snd x) * dev_f (map (fun t => snd t) l) (snd x))) l)) in *. clearbody cov sr sv.
    exists cov, sr, sv. split; [exact X1|]. split; [exact X2|]. split; [exact X3|]. split; [exact Z1|]. split; [exact Z2|].
    unfold corr_pairs_f. rewrite Lp. destruct (Nat.ltb_spec (length l) 2); [lia|]. rewrite CS. split.
    + intro E. destruct (Qltb_spec 0 sr); [|reflexivity]. destruct (Qltb_spec 0 sv); [|reflexivity]. destruct E; lra.
    + intros S1 S2. destruct (Qltb_spec 0 sr); [|lra]. destruct (Qltb_spec 0 sv); [|lra]. cbn [andb]. eexists. split; [reflexivity|]. cbv zeta.
      set (x' := r53 (cov / _)). clearbody x'. destruct (Qltb_spec 1 x'), (Qltb_spec x' (-(1))); split; [intro; lra|split; intro; lra|intro; lra|split; intro; lra|intro; lra|split; intro; lra|intro; lra|split; intro; lra].
Qed.
(** NaN exactly when the returns all equal their rounded mean, or the volumes theirs. *)
Theorem C186_corr_nan : forall sqrt ps, (2 <= length ps)%nat ->
  (corr_pairs_f sqrt ps = None <-> (forall q, In q ps -> fst q == mean_f (map fst ps)) \/ (forall q, In q ps -> snd q == mean_f (map snd ps))).
Proof.
  intros sqrt ps Hl. unfold corr_pairs_f. destruct (Nat.ltb_spec (length ps) 2); [lia|]. unfold corr_sums_f. cbv zeta.
  destruct (fsum_sq_zero (fun q => dev_f (map fst ps) (fst q)) ps) as [Z1 E1]. destruct (fsum_sq_zero (fun q => dev_f (map snd ps) (snd q)) ps) as [Z2 E2].
  cbv beta in Z1, E1, Z2, E2. set (sr := fsum (map (fun p => r53 (dev_f (map fst ps) (fst p) * dev_f (map fst ps) (fst p))) ps)) in *.
  set (sv := fsum (map (fun p => r53 (dev_f (map snd ps) (snd p) * dev_f (map snd ps) (snd p))) ps)) in *. clearbody sr sv.
  assert (D1 : (forall q, In q ps -> dev_f (map fst ps) (fst q) == 0) <-> (forall q, In q ps -> fst q == mean_f (map fst ps))).
  { split; intros K q Hq; specialize (K q Hq); now apply dev_f_zero. }
  assert (D2 : (forall q, In q ps -> dev_f (map snd ps) (snd q) == 0) <-> (forall q, In q ps -> snd q == mean_f (map snd ps))).
  { split; intros K q Hq; specialize (K q Hq); now apply dev_f_zero. }
  rewrite D1 in E1. rewrite D2 in E2. rewrite <- E1, <- E2.
  destruct (Qltb_spec 0 sr), (Qltb_spec 0 sv); cbn [andb]; split; intro K; try discriminate; try reflexivity.
  - destruct K; lra.
  - right. lra.
  - left. lra.
  - left. lra.
Qed.
(** Three returns of 0.1 and three volumes of 0.1, neither of which varies: the exact correlation is undefined (NaN); in float64
    0.1 + 0.1 + 0.1 divided by 3 is not 0.1, both spreads are positive and equal to the covariance, and the result is the quotient
    of that number S by the rounded square of its root, cut to 1. *)
Theorem C186_corr_flat_refuted : let price := [Some 10; Some 11; None; Some 10; Some 11; None; Some 10; Some 11] in
  let volume := repeat (Some (r53 (1 # 10))) 8 in
  (forall sqrt, nth 7 (pv_correlation sqrt price volume 7) None = None) /\
  exists s, 0 < s /\ forall sqrt, nth 7 (pv_correlation_f sqrt price volume 7) None = Some (clamp (r53 (s / r53 (sqrt s * sqrt s)))) /\
    (0 < sqrt s -> sqrt s * sqrt s <= s -> clamp (r53 (s / r53 (sqrt s * sqrt s))) == 1).
Proof.
  intros price volume. split; [intro sqrt; vm_compute; reflexivity|].
  set (ps := repeat (r53 (1 # 10), r53 (1 # 10)) 3).
  assert (E : forall sqrt, nth 7 (pv_correlation_f sqrt price volume 7) None = corr_pairs_f sqrt ps).
  { intro sqrt. unfold pv_correlation_f. rewrite nth_map_seq by (cbn; lia). change (7 <? 7)%nat with false. cbv iota.
    replace (pv_return_f price 7) with (Some (r53 (1 # 10))) by (vm_compute; reflexivity). change (nth 7 volume None) with (Some (r53 (1 # 10))). cbv iota zeta.
    replace (mono_flag (fun j => oleb (nth (S j) volume None) (nth j volume None)) 7 7) with false by (vm_compute; reflexivity).
    replace (mono_flag (fun j => oleb (nth j volume None) (nth (S j) volume None)) 7 7) with false by (vm_compute; reflexivity).
    rewrite !andb_false_r. f_equal; try (vm_compute; reflexivity). }
  pose (s := fsum (map (fun p => r53 (dev_f (map fst ps) (fst p) * dev_f (map snd ps) (snd p))) ps)).
  assert (S0 : 0 < s) by (vm_compute; reflexivity).
  assert (CS : corr_sums_f ps = (s, s, s)) by (vm_compute; reflexivity).
  assert (F : forall sqrt, corr_pairs_f sqrt ps = Some (clamp (r53 (s / r53 (sqrt s * sqrt s))))).
  { intro sqrt. unfold corr_pairs_f. change (length ps <? 2)%nat with false. cbv iota. rewrite CS. destruct (Qltb_spec 0 s); [|lra]. reflexivity. }
  assert (Fs : fl 53 s) by (unfold s, ps, fsum; cbn [repeat map fold_left]; apply rnd_fl; lia).
  exists s. clearbody s. split; [exact S0|]. intro sqrt. rewrite E, F. split; [reflexivity|]. intros Q1 Q2.
  assert (R : r53 (sqrt s * sqrt s) <= s) by (apply rnd_le; [lia|exact Fs|exact Q2]).
  assert (R0 : 0 < r53 (sqrt s * sqrt s)) by (apply r53_pos; nra).
  assert (G : 1 <= r53 (s / r53 (sqrt s * sqrt s))) by (apply rnd_ge; [lia|exact fl_1|apply Qle_shift_div_l; lra]).
  unfold clamp. destruct (Qltb_spec 1 (r53 (s / r53 (sqrt s * sqrt s)))) as [K|K]; [reflexivity|].
  destruct (Qltb_spec (r53 (s / r53 (sqrt s * sqrt s))) (-(1))); lra.
Qed.
(** Four prices, window 3: the hypotheses of the theorem hold at index 3. *)
Example C186_corr_example : let price := map Some [10; 11; 9; 12] in let volume := map Some [1; 4; 2; 5] in
  let o := observed (ret (fun j => nth j price None)) (fun j => nth j volume None) 3 3 in
  length o = 3%nat /\ 0 < cross (map fst o) (map fst o) /\ 0 < cross (map snd o) (map snd o) /\
  option_map (fun c => Qfloor (c * 1000000)) (nth 3 (pv_correlation_f (fun q => if Qltb q 1 then 1 # 2 else 2) price volume 3) None) = Some 780808%Z.
Proof. cbv zeta. split; [reflexivity|]. split; [vm_compute; reflexivity|]. split; vm_compute; reflexivity. Qed.

Print Assumptions C186_argument.
Print Assumptions C186_decay.
Print Assumptions C186_mean0.
Print Assumptions C186_ewmst.
Print Assumptions C186_first_refuted.
Print Assumptions C186_flat_refuted.
Print Assumptions C186_corr_range.
Print Assumptions C186_corr.
Print Assumptions C186_corr_nan.
Print Assumptions C186_corr_flat_refuted.
