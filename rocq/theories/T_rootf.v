(** T_rootf.v -- C194: volatilities and scores in float64 up to and including the final square root. *)
From Coq Require Import Qround Qpower Qfield.
From Verif Require Import Base M_logic M_bars M_features M_volume M_volat M_float M_float2 M_float3 M_float7 M_float8 M_float9 S_logic S_features S_volat S_float S_sumf S_cstestf.
From Verif Require Import P_weights P_features P_features2 P_volat P_float P_float2 P_float7 P_float9 P_float11 P_float12 P_float13 P_sumf P_sizef P_weightsf P_volatf P_ewmstf P_corrf P_cstestf P_rootf.
From Verif Require Import T_features2 T_volat T_volatf T_ewmstf.
Open Scope Q_scope.

(** Realised volatility: its square is the mean square of the present returns up to one rounding per return and four more. *)
Theorem C194_realized_vol : forall sqrt sumf r n smp i, sqrt_rounded sqrt -> sums_somehow sumf -> (1 <= n <= i + 1)%nat -> (i < length r)%nat ->
  let w := vals (window (fun j => nth j r None) i n) in (2 <= length w)%nat ->
  exists s, nth i (realized_vol_f sqrt sumf r n smp) None = Some s /\ 0 <= s /\
    within u53 (length w + 4) (s * s) (qsum (map (fun x => x * x) w) / (Qnat (length w) - (if smp then 1 else 0))).
Proof.
  intros sqrt sumf r n smp i Hq Hs Hn Hi w Hw. destruct (C185_realized_vol sqrt sumf r n smp i Hs ltac:(lia) Hi) as (_ & _ & H). cbv zeta in H. fold w in H.
  destruct (H ltac:(lia) Hw) as (v & x & E & X0 & EX & W). exists (sqrt v). split; [exact E|]. pose proof (within_nonneg _ u53_bounds _ _ _ W X0) as V0.
  destruct (Hq v V0) as [R0 R]. split; [exact R0|]. assert (N2 : 2 <= Qnat (length w)) by (apply (Qnat_le 2); exact Hw).
  replace (length w + 4)%nat with (2 + (length w + 2))%nat by lia. apply (within_comp u53 _ (sqrt v * sqrt v) x); [reflexivity| |now apply (within_trans 2 (length w + 2) _ v)].
  rewrite <- EX. destruct smp; field; lra.
Qed.
(** Returns bounded by B have a realised volatility (not the sample one) of at most B up to these roundings. *)
Theorem C194_realized_bound : forall sqrt sumf r n i B s, sqrt_rounded sqrt -> sums_somehow sumf -> (1 <= n <= i + 1)%nat -> (i < length r)%nat ->
  (forall j x, nth j r None = Some x -> Qabs x <= B) -> nth i (realized_vol_f sqrt sumf r n false) None = Some s -> s * s <= Qpower (1 + u53) (Z.of_nat (n + 4)) * (B * B).
Proof.
  intros sqrt sumf r n i B s Hq Hs Hn Hi HB E. set (w := vals (window (fun j => nth j r None) i n)).
  destruct (C185_realized_vol sqrt sumf r n false i Hs ltac:(lia) Hi) as (_ & [_ Hnan] & _). cbv zeta in Hnan. fold w in Hnan.
  destruct (le_lt_dec 2 (length w)) as [Hw|Hw]; [|rewrite Hnan in E by (right; exact Hw); discriminate].
  destruct (C194_realized_vol sqrt sumf r n false i Hq Hs Hn Hi Hw) as (s' & E' & P & W). fold w in W. rewrite E' in E. injection E as ->.
  assert (N2 : 2 <= Qnat (length w)) by (apply (Qnat_le 2); exact Hw).
  assert (Lw : (length w <= n)%nat).
  { unfold w. clear. unfold window. generalize (i + 1 - n)%nat as a. induction n as [|n IH]; intro a; [apply Nat.le_refl|]. cbn [seq map]. unfold vals in *. cbn [flat_map]. rewrite app_length.
    specialize (IH (S a)). destruct (nth a r None); cbn [length]; lia. }
  assert (Q0 : qsum (map (fun x => x * x) w) <= Qnat (length w) * (B * B)).
  { assert (A : forall x, In x w -> x * x <= B * B).
    { intros x Hx. unfold w, vals in Hx. apply in_flat_map in Hx. destruct Hx as (o & Ho & Hx). destruct o as [y|]; [|contradiction]. destruct Hx as [->|[]].
      unfold window in Ho. apply in_map_iff in Ho. destruct Ho as (j & Ej & _). specialize (HB j x Ej). pose proof (Qabs_nonneg x). rewrite <- (abs_sq x). nra. }
    clear -A. induction w as [|y l IH]; [vm_compute; discriminate|]. rewrite map_cons, qsum_cons. cbn [length]. rewrite Qnat_S.
    specialize (IH (fun x Hx => A x (or_intror Hx))). specialize (A y (or_introl eq_refl)). set (q := qsum _) in *. set (m := Qnat (length l)) in *. clearbody q m. set (b := B * B) in *. set (z := y * y) in *. clearbody b z. rewrite Qmult_plus_distr_l, Qmult_1_l. lra. }
  assert (X : qsum (map (fun x => x * x) w) / (Qnat (length w) - 0) <= B * B).
  { apply Qle_shift_div_r; [lra|]. rewrite Qmult_comm. assert (Er : Qnat (length w) - 0 == Qnat (length w)) by ring. rewrite Er. exact Q0. }
  assert (X0 : 0 <= qsum (map (fun x => x * x) w) / (Qnat (length w) - 0)).
  { apply Qle_shift_div_l; [lra|]. rewrite Qmult_0_l. apply qsum_nonneg. intros y Hy. apply in_map_iff in Hy. destruct Hy as (x & <- & _). apply sq_nonneg'. }
  set (x := qsum _ / _) in *. clearbody x. pose proof (within_le _ u53_bounds (length w + 4) (n + 4) _ _ ltac:(lia) X0 W) as W2. unfold within in W2. destruct W2 as [_ W2].
  assert (U : 0 <= Qpower (1 + u53) (Z.of_nat (n + 4))) by (apply Qpower_pos; pose proof u53_bounds; lra).
  eapply Qle_trans; [exact W2|]. rewrite !(Qmult_comm (Qpower _ _)). now apply Qmult_le_compat_r.
Qed.
Definition c194_r : list (option Q) := [Some (r53 (1 # 10)); None; Some (r53 (3 # 10)); Some (r53 (- 1 # 5)); Some (r53 (7 # 10))].
Example C194_realized_vol_example : sqrt_rounded sqrt53 /\ length (vals (window (fun j => nth j c194_r None) 4 4)) = 3%nat /\
  (forall j x, nth j c194_r None = Some x -> Qabs x <= 7 # 10) /\
  exists s, nth 4 (realized_vol_f sqrt53 fsum c194_r 4 false) None = Some s /\ Qfloor (s * 1000000) = 454606%Z.
Proof.
  split; [exact sqrt53_rounded|]. split; [reflexivity|]. split.
  - intros j x. do 5 (destruct j as [|j]; [intro E; first [discriminate|injection E as <-; vm_compute; discriminate]|]). destruct j; discriminate.
  - eexists. split; [vm_compute; reflexivity|vm_compute; reflexivity].
Qed.

(** ewmst_mean0: where the floor does not act, the square is the weighted mean square of the present values up to 6 i + 4 roundings. *)
Theorem C194_mean0 : forall sqrt exp ts y hl floor i, sqrt_rounded sqrt -> ~ hl == 0 -> (i < length y)%nat ->
  (forall k, (1 <= k <= i)%nat -> fl 53 (exp (ts_arg_f ts hl k)) /\ 0 <= exp (ts_arg_f ts hl k) <= 1) ->
  let d := ts_om_f exp ts hl in
  let W := osum y 1 i (fun j _ => wt d i j) in
  let Y2 := osum y 1 i (fun j x => wt d i j * (x * x)) in 0 < W ->
  exists out r s, ewmst_mean0_f sqrt exp ts y hl floor = Ok out /\ nth i out None = Some r /\ 0 <= s /\ (s < floor -> r = floor) /\ (floor <= s -> r = s) /\
    within u53 (6 * i + 4) (s * s) (Y2 / W).
Proof.
  intros sqrt exp ts y hl floor i Hq Hh Hi He d W Y2 HW. destruct (C186_mean0 sqrt exp ts y hl floor i Hh Hi He) as (out & E & _ & _ & H).
  destruct (H HW) as (v & r & Er & [F1 F2] & V0 & Wv). fold d in Wv. fold W in Wv. fold Y2 in Wv. destruct (Hq v V0) as [R0 R].
  exists out, r, (sqrt v). split; [exact E|]. split; [exact Er|]. split; [exact R0|]. split; [exact F1|]. split; [exact F2|].
  replace (6 * i + 4)%nat with (2 + (6 * i + 2))%nat by lia. apply (within_trans 2 (6 * i + 2) _ v); auto.
  assert (P : 0 < 1 + u53) by (pose proof u53_bounds; lra). unfold within in Wv. destruct Wv as [_ Wv]. pose proof (Qpower_0_lt (1 + u53) (Z.of_nat (6 * i + 2)) P).
  set (u := Qpower (1 + u53) _) in *. set (z := Y2 / W) in *. clearbody u z. apply Qnot_lt_le. intro. nra.
Qed.
Example C194_mean0_example : let y := [Some 9; Some 3; Some 7; None; Some (1 # 2)] in
  (forall k, (1 <= k <= 4)%nat -> fl 53 (c186_exp (ts_arg_f c186_ts 60 k)) /\ 0 <= c186_exp (ts_arg_f c186_ts 60 k) <= 1) /\
  0 < osum y 1 4 (fun j _ => wt (ts_om_f c186_exp c186_ts 60) 4 j) /\
  exists out r, ewmst_mean0_f sqrt53 c186_exp c186_ts y 60 (1 # 10) = Ok out /\ nth 4 out None = Some r /\ Qfloor (r * 1000000) = 1105541%Z.
Proof.
  intro y. destruct C186_mean0_example as (A & B & _). split; [exact A|]. split; [exact B|]. do 2 eexists. split; [vm_compute; reflexivity|]. split; [reflexivity|vm_compute; reflexivity].
Qed.

(** z-score: it has the sign of x - m for the rounded mean m of the window, and its square is (x - m)^2 over the variance about m, up to
    2n + 16 roundings.  So no score exceeds the square root of n - ddof, up to these roundings. *)
Theorem C194_zscore : forall sqrt xs n ddof i z, sqrt_rounded sqrt -> (1 <= n <= i + 1)%nat -> (ddof < Z.of_nat n)%Z -> (i < length xs)%nat ->
  nth i (comp_zscore_f sqrt xs n ddof) None = Some z ->
  let w := window (at_ xs) i n in
  exists mu M m V, is_mean mu w /\ is_mean M (map Qabs w) /\ near (n + 1) m mu M /\
    V * inject_Z (Z.of_nat n - ddof) == qsum (map (fun x => (x - m) * (x - m)) w) /\ 0 < V /\
    0 <= z * (at_ xs i - m) /\ within u53 (2 * n + 16) (z * z) ((at_ xs i - m) * (at_ xs i - m) / V) /\
    z * z <= Qpower (1 + u53) (Z.of_nat (2 * n + 16)) * inject_Z (Z.of_nat n - ddof).
Proof.
  intros sqrt xs n ddof i z Hq Hn Hd Hi E w. rewrite zscore_f_nth in E by (auto; lia). cbv zeta in E. fold w in E. destruct (Nat.ltb_spec (i + 1) n); [lia|].
  assert (Lw : length w = n) by apply window_length. pose proof (Qnat_pos n ltac:(lia)) as P.
  assert (D : 0 < inject_Z (Z.of_nat n - ddof)) by (rewrite <- (Zlt_Qlt 0); lia).
  destruct (Qeqb_spec (sqrt (var_f w ddof)) 0) as [Z0|Z0]; [discriminate|]. injection E as E.
  pose proof (var_f_within w ddof ltac:(lia)) as Wv. rewrite Lw in Wv. pose proof (mean_f_near w ltac:(lia)) as N1. rewrite Lw in N1.
  set (m := mean_f w) in *. set (v := var_f w ddof) in *. set (S := qsum (map (fun x => (x - m) * (x - m)) w)) in *.
  assert (S0 : 0 <= S) by (apply qsum_nonneg; intros y Hy; apply in_map_iff in Hy; destruct Hy as (x & <- & _); apply sq_nonneg').
  assert (V0 : 0 <= S / inject_Z (Z.of_nat n - ddof)) by (apply Qle_shift_div_l; [exact D|now rewrite Qmult_0_l]).
  assert (v0 : 0 <= v) by exact (within_nonneg _ u53_bounds _ _ _ Wv V0).
  assert (vp : 0 < v). { destruct (Qlt_le_dec 0 v) as [K|K]; [exact K|]. exfalso. apply Z0, (root_zero sqrt v Hq). lra. }
  assert (VP : 0 < S / inject_Z (Z.of_nat n - ddof)).
  { destruct (Qlt_le_dec 0 (S / inject_Z (Z.of_nat n - ddof))) as [K|K]; [exact K|]. exfalso. assert (Ez : S / inject_Z (Z.of_nat n - ddof) == 0) by lra.
    unfold within in Wv. destruct Wv as [_ Wv]. rewrite Ez, Qmult_0_r in Wv. lra. }
  pose proof (root_pos sqrt v Hq vp) as Rp. destruct (Hq v v0) as [_ R].
  set (V := S / inject_Z (Z.of_nat n - ddof)) in *.
  assert (EV : V * inject_Z (Z.of_nat n - ddof) == S) by (unfold V; field; lra).
  assert (IN : In (at_ xs i) w) by (unfold w; apply in_window; [lia|]; exists i; repeat split; lia).
  pose proof (term_le w (fun x => (x - m) * (x - m)) (at_ xs i) (fun y => sq_nonneg' (y - m)) IN) as T. cbv beta in T. fold S in T.
  assert (WW : within u53 (n + 6) (sqrt v * sqrt v) V) by (replace (n + 6)%nat with (2 + (n + 4))%nat by lia; apply (within_trans 2 (n + 4) _ v); auto).
  assert (WZ : within u53 (2 * n + 16) (z * z) ((at_ xs i - m) * (at_ xs i - m) / V)).
  { rewrite <- E. set (a := r53 (at_ xs i - m)). pose proof (quotient_sq (n + 6) a (sqrt v) V Rp VP WW) as Q1.
    assert (A2 : within u53 2 (a * a / V) ((at_ xs i - m) * (at_ xs i - m) / V)).
    { apply (within_comp u53 2 (/ V * (a * a)) (/ V * ((at_ xs i - m) * (at_ xs i - m)))); [field; lra|field; lra|]. apply within_scale; [|apply r53_sq]. apply Qlt_le_weak, Qinv_lt_0_compat, VP. }
    replace (2 * n + 16)%nat with (2 + 2 * (n + 6) + 2)%nat by lia. apply (within_trans _ 2 _ (a * a / V)); auto.
    apply Qle_shift_div_l; [exact VP|]. rewrite Qmult_0_l. apply sq_nonneg'. }
  exists (qsum w / Qnat n), (asum w / Qnat n), m, V. unfold is_mean. rewrite map_length, Lw. split; [field; lra|]. split; [unfold asum; field; lra|].
  split; [exact N1|]. split; [exact EV|]. split; [exact VP|]. split.
  { rewrite <- E. apply quotient_sign; [exact Rp|]. apply r53_sign, sq_nonneg'. }
  split; [exact WZ|]. unfold within in WZ. destruct WZ as [_ WZ].
  assert (X : (at_ xs i - m) * (at_ xs i - m) / V <= inject_Z (Z.of_nat n - ddof)) by (apply Qle_shift_div_r; [exact VP|]; setoid_replace (inject_Z (Z.of_nat n - ddof) * V) with S by (rewrite <- EV; ring); exact T).
  pose proof (Qpower_pos (1 + u53) (Z.of_nat (2 * n + 16)) ltac:(pose proof u53_bounds; lra)) as U.
  set (u := Qpower (1 + u53) _) in *. set (x := (at_ xs i - m) * (at_ xs i - m) / V) in *. clearbody u x. apply (Qle_trans _ (u * x)); [exact WZ|nra].
Qed.
Example C194_zscore_example : exists z, nth 3 (comp_zscore_f sqrt53 [1; 2; 1; 5] 4 1) None = Some z /\ Qfloor (z * 1000000) = 1452743%Z /\ (1 < Z.of_nat 4)%Z.
Proof. eexists. split; [vm_compute; reflexivity|]. split; [vm_compute; reflexivity|lia]. Qed.

(** Price-volume correlation outside indices 4..9: the value is a number x cut to [-1, 1], where x has the sign of the computed cross
    product and x^2 is its square over the product of the computed spreads, up to 14 roundings. *)
Theorem C194_corr : forall sqrt price volume n i, sqrt_rounded sqrt -> (1 <= n <= i)%nat -> (i < length price)%nat -> ~ (4 <= i < 10)%nat ->
  let p j := nth j price None in let w j := nth j volume None in
  let rs := map fst (observed (ret p) w i n) in let vs := map snd (observed (ret p) w i n) in let N := length rs in
  ret p i <> None -> w i <> None -> (2 <= N)%nat -> exists cov sr sv,
     Qabs (cov - cross rs vs) <= ((1 + u53) ^ Z.of_nat (3 * N + 7) - 1) * cross_size rs vs /\
     Qabs (sr - cross rs rs) <= ((1 + u53) ^ Z.of_nat (3 * N + 9) - 1) * cross_size rs rs /\
     Qabs (sv - cross vs vs) <= ((1 + u53) ^ Z.of_nat (3 * N + 5) - 1) * cross_size vs vs /\
     (0 < sr -> 0 < sv -> exists c x, nth i (pv_correlation_f sqrt price volume n) None = Some c /\
        (1 <= x -> c == 1) /\ (x <= -(1) -> c == -(1)) /\ (-(1) <= x <= 1 -> c == x) /\
        0 <= x * cov /\ within u53 14 (x * x) (cov * cov / (sr * sv))).
Proof.
  intros sqrt price volume n i Hq Hn Hi Hs p w rs vs N H1 H2 H3. destruct (C186_corr sqrt price volume n i Hn Hi Hs) as (_ & H). cbv zeta in H.
  destruct (H H1 H2 H3) as (cov & sr & sv & A1 & A2 & A3 & _ & _ & _ & K). exists cov, sr, sv. split; [exact A1|]. split; [exact A2|]. split; [exact A3|].
  intros S1 S2. destruct (K S1 S2) as (c & E & K1 & K2 & K3). exists c. eexists. split; [exact E|]. split; [exact K1|]. split; [exact K2|]. split; [exact K3|].
  pose proof (root_pos sqrt sr Hq S1) as R1. pose proof (root_pos sqrt sv Hq S2) as R2. destruct (Hq sr ltac:(lra)) as [_ Q1]. destruct (Hq sv ltac:(lra)) as [_ Q2].
  set (a := sqrt sr) in *. set (b := sqrt sv) in *. clearbody a b. assert (AB : 0 < a * b) by nra. assert (RP : 0 < r53 (a * b)) by now apply r53_pos_iff.
  split; [apply quotient_sign; [exact RP|apply sq_nonneg']|]. apply (quotient_sq 6); [exact RP|nra|].
  apply (within_trans 2 4 _ (a * b * (a * b))); [nra|apply r53_sq|]. apply (within_comp u53 4 (a * a * (b * b)) (sr * sv)); [ring|reflexivity|]. apply (within_mult 2 2); auto; lra.
Qed.
Example C194_corr_example : let price := map Some [10; 11; 9; 12] in let volume := map Some [1; 4; 2; 5] in
  let o := observed (ret (fun j => nth j price None)) (fun j => nth j volume None) 3 3 in
  length o = 3%nat /\ 0 < cross (map fst o) (map fst o) /\ 0 < cross (map snd o) (map snd o) /\
  option_map (fun c => Qfloor (c * 1000000)) (nth 3 (pv_correlation_f sqrt53 price volume 3) None) = Some 990787%Z.
Proof. cbv zeta. split; [reflexivity|]. split; [vm_compute; reflexivity|]. split; vm_compute; reflexivity. Qed.

(** Two rows with volumes following the returns have correlation 1; the reported value is below 1. *)
Theorem C194_corr_one_refuted : exists price volume n i c,
  let p j := nth j price None in let w j := nth j volume None in
  let rs := map fst (observed (ret p) w i n) in let vs := map snd (observed (ret p) w i n) in
  cross rs vs * cross rs vs == cross rs rs * cross vs vs /\ 0 < cross rs vs /\
  nth i (pv_correlation_f sqrt53 price volume n) None = Some c /\ c < 1.
Proof.
  exists [Some 1; Some 2; Some 3], [Some 1; Some 1; Some (1 # 2)], 2%nat, 2%nat. eexists. cbv zeta.
  split; [vm_compute; reflexivity|]. split; [vm_compute; reflexivity|]. split; [vm_compute; reflexivity|]. vm_compute. reflexivity.
Qed.
(** The later of two different values has the sample z-score 1 / sqrt 2 or its opposite; of two neighbouring floats it is 1. *)
Theorem C194_zscore_pair_refuted : exists xs mu V z, (forall x, In x xs -> fl 53 x) /\ is_mean mu (window (at_ xs) 1 2) /\ is_var V (window (at_ xs) 1 2) 1 /\
  (at_ xs 1 - mu) * (at_ xs 1 - mu) / V == 1 # 2 /\ nth 1 (comp_zscore_f sqrt53 xs 2 1) None = Some z /\ z == 1.
Proof.
  exists [1; 1 + (1 # 4503599627370496)], (1 + (1 # 9007199254740992)), (1 # 40564819207303340847894502572032). eexists.
  split. { intros x [<-|[<-|[]]]; [exists 1%Z, 0%Z|exists 4503599627370497%Z, (-52)%Z]; split; vm_compute; reflexivity. }
  split; [vm_compute; reflexivity|]. split; [exists (1 + (1 # 9007199254740992)); split; vm_compute; reflexivity|]. split; [vm_compute; reflexivity|]. split; [vm_compute; reflexivity|reflexivity].
Qed.

Print Assumptions C194_realized_vol.
Print Assumptions C194_realized_bound.
Print Assumptions C194_mean0.
Print Assumptions C194_zscore.
Print Assumptions C194_corr.
Print Assumptions C194_corr_one_refuted.
Print Assumptions C194_zscore_pair_refuted.
