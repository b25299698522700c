(** T_profilef.v -- C189: volume profiles with float32 volumes and float64 sums. *)
From Verif Require Import Base M_logic M_bars M_footprint M_features M_volume M_float M_float11.
From Verif Require Import S_footprint S_features S_volume S_float S_profilef P_footprint P_weights P_features P_volume P_volume2 P_volume3.
From Verif Require Import P_float P_float5 P_float12 P_float13 P_retf P_profilef P_profilef2 P_profilef3 P_profilef4 P_profilef5 T_volume.
Open Scope Q_scope.

(** ** C189: POC and value area *)
(** The POC is the lowest level among those of largest volume, and the value area is found by the greedy search with float64
    running volume; its threshold is the requested share up to one float32 rounding per level and two float64 roundings. *)
Theorem C189_area : forall lv vols pct, vols <> [] -> length lv = length vols -> (forall x, In x vols -> 0 <= x) -> 0 <= pct ->
  exists thr p a b, comp_poc_hva_lva_f lv vols pct = Ok (Some (nth p lv 0%Z, nth b lv 0%Z, nth a lv 0%Z)) /\
    first_max (at_ vols) (length vols) p /\ (a <= p <= b)%nat /\ (b < length vols)%nat /\
    value_area_f (at_ vols) (length vols) thr (nth p vols 0) p p a b /\
    (1 - u24) ^ Z.of_nat (length vols) * (1 - u53) ^ 2 * (pct / 100 * qsum vols) <= thr <=
    (1 + u24) ^ Z.of_nat (length vols) * (1 + u53) ^ 2 * (pct / 100 * qsum vols).
Proof.
  intros lv vols pct Hne Hl Hn Hp. destruct (poc_area_f lv vols pct Hne Hl) as [p [a [b [E [F [V [Hab Hb]]]]]]].
  { intros i Hi. apply Hn, nth_In. auto. }
  exists (va_thr_f vols pct), p, a, b. split; [exact E|]. split; [exact F|]. split; [exact Hab|]. split; [exact Hb|]. split; [exact V|]. now apply thr_within.
Qed.
(** The value area holds the requested share up to rounding, and its part before the last growth (of at most two levels on each
    side) did not. *)
Theorem C189_coverage : forall lv vols pct poc hva lva, incr lv -> length lv = length vols -> (forall x, In x vols -> 0 <= x) -> 0 <= pct <= 100 ->
  comp_poc_hva_lva_f lv vols pct = Ok (Some (poc, hva, lva)) ->
  let n := length vols in
  let T := pct / 100 * qsum vols in
  exists a p b, nth a lv 0%Z = lva /\ nth p lv 0%Z = poc /\ nth b lv 0%Z = hva /\ (a <= p <= b)%nat /\ (b < n)%nat /\
    (1 - u24) ^ Z.of_nat n * (1 - u53) ^ 2 * T <= (1 + u53) ^ Z.of_nat (n + 1) * ssum (at_ vols) a (S b) /\
    ((a = p /\ b = p) \/
     exists a' b', (a <= a' <= p)%nat /\ (p <= b' <= b)%nat /\ (a' <= a + 2)%nat /\ (b <= b' + 2)%nat /\
       (1 - u53) ^ Z.of_nat (n + 1) * ssum (at_ vols) a' (S b') < (1 + u24) ^ Z.of_nat n * (1 + u53) ^ 2 * T).
Proof.
  intros lv vols pct poc hva lva Hi Hl Hn Hp E n T.
  assert (Hne : vols <> []) by (intros ->; discriminate).
  destruct (C189_area lv vols pct Hne Hl Hn (proj1 Hp)) as [thr [p [a [b [E2 [F [Hab [Hb [V [T1 T2]]]]]]]]]].
  rewrite E in E2. injection E2 as -> -> ->. exists a, p, b. do 3 (split; [reflexivity|]). split; [exact Hab|]. split; [exact Hb|].
  assert (Hv : forall i, (i < length vols)%nat -> 0 <= at_ vols i) by (intros i Hi2; apply Hn, nth_In; auto). fold n in Hb, V, T1, T2, Hv.
  assert (Hs : forall x y, (y <= n)%nat -> 0 <= ssum (at_ vols) x y).
  { intros x y Hy. unfold ssum. apply qsum_nonneg. intros z Hz. apply in_map_iff in Hz. destruct Hz as [i [<- Hi2]]. apply in_seq in Hi2. apply Hv. lia. }
  destruct (vaf_cover (at_ vols) n thr Hv _ _ _ _ _ V ltac:(lia)) as [Cv Sh].
  { eapply (within_comp u53); [reflexivity|rewrite ssum_one; reflexivity|]. apply within_self; [exact u53_bounds|apply Hv; lia]. }
  pose proof u53_bounds as [U1 U2]. pose proof u24_bounds as [U3 U4].
  assert (T0 : 0 <= T <= qsum vols).
  { pose proof (qsum_nonneg vols Hn) as N. unfold T. assert (P0 : 0 <= pct / 100) by (apply Qle_shift_div_l; lra). assert (P1 : pct / 100 <= 1) by (apply Qle_shift_div_r; lra). nra. }
  split.
  - destruct Cv as [[-> Eb]|Cv].
    + rewrite Eb. assert (Es : ssum (at_ vols) 0 n == qsum vols) by (symmetry; apply qsum_ssum). rewrite Es.
      pose proof (powers_le_one (1 - u24) n ltac:(lra)) as A1. pose proof (pow_nonneg (1 - u24) n ltac:(lra)) as A2.
      pose proof (powers_ge_one (1 + u53) (n + 1) ltac:(lra)) as A3.
      apply Qle_trans with (1 * T).
      * apply Qmult_le_compat_r; [|lra]. apply mult_le_one; split; auto; vm_compute; discriminate.
      * apply Qle_trans with (1 * qsum vols); [lra|]. apply Qmult_le_compat_r; lra.
    + eapply Qle_trans; [exact T1|]. eapply Qle_trans; [exact Cv|]. apply Qmult_le_compat_r; [apply powers_mono; [lra|lia]|apply Hs; lia].
  - destruct Sh as [Sh|[a' [b' [S1 [S2 [S3 [S4 S5]]]]]]]; [left; auto|]. right. exists a', b'. do 4 (split; [auto|]).
    eapply Qle_lt_trans; [|eapply Qlt_le_trans; [exact S5|exact T2]]. apply Qmult_le_compat_r; [|apply Hs; lia].
    replace (n + 1)%nat with ((b' - a' + 2) + (n + 1 - (b' - a' + 2)))%nat by lia. rewrite pow_add.
    pose proof (powers_le_one (1 - u53) (n + 1 - (b' - a' + 2)) ltac:(lra)) as A1.
    pose proof (pow_nonneg (1 - u53) (b' - a' + 2) ltac:(lra)) as A2.
    rewrite <- (Qmult_1_r ((1 - u53) ^ Z.of_nat (b' - a' + 2))) at 2. rewrite !(Qmult_comm ((1 - u53) ^ Z.of_nat (b' - a' + 2))). apply Qmult_le_compat_r; auto.
Qed.
(** Volumes in lots of 2^g with at most 2^24 lots in total: the search is the exact greedy one, for the share rounded to float64. *)
Theorem C189_lots : forall g lv vols pct, vols <> [] -> length lv = length vols -> (forall x, In x vols -> 0 <= x /\ grid g x) ->
  qsum vols <= two (24 + g) -> 0 <= pct <= 100 ->
  exists p a b, comp_poc_hva_lva_f lv vols pct = Ok (Some (nth p lv 0%Z, nth b lv 0%Z, nth a lv 0%Z)) /\
    first_max (at_ vols) (length vols) p /\
    value_area (at_ vols) (length vols) (r53 (qsum vols * r53 (pct / 100))) p p a b.
Proof.
  intros g lv vols pct Hne Hl Hg Ht Hp. assert (Hn : forall x, In x vols -> 0 <= x) by (intros x Hx; apply Hg; auto).
  destruct (poc_area_f lv vols pct Hne Hl) as [p [a [b [E [F [V [Hab Hb]]]]]]].
  { intros i Hi. apply Hn, nth_In. auto. }
  exists p, a, b. split; [exact E|]. split; [exact F|].
  assert (ET : va_thr_f vols pct = r53 (qsum vols * r53 (pct / 100))).
  { unfold va_thr_f. apply rnd_comp. rewrite (fsum24_exact g vols Hg Ht). reflexivity. }
  rewrite <- ET. pose proof (qsum_nonneg vols Hn) as N.
  assert (Hle : two (24 + g) <= two (53 + g)) by (apply two_le; lia).
  assert (Es : ssum (at_ vols) 0 (length vols) == qsum vols) by (symmetry; apply qsum_ssum).
  refine (vaf_exact (at_ vols) (length vols) (va_thr_f vols pct) _ g _ _ (nth p vols 0) p p a b V _ _ _).
  - intros i Hi. apply Hn, nth_In. auto.
  - intros i Hi. apply Hg, nth_In. auto.
  - rewrite Es. lra.
  - lia.
  - rewrite Es, ET. apply rnd_le; [lia| |].
    + apply (grid_fl 53 g); [lia| |rewrite Qabs_pos; lra]. clear -Hg. induction vols as [|x l IH]; [apply grid_0|].
      apply (grid_comp g (x + qsum l)); [symmetry; apply qsum_cons|]. apply grid_plus; [apply Hg; now left|apply IH; intros; apply Hg; now right].
    + assert (R : r53 (pct / 100) <= 1). { apply rnd_le; [lia|exists 1%Z, 0%Z; split; [lia|reflexivity]|apply Qle_shift_div_r; lra]. }
      assert (P0 : 0 <= pct / 100) by (apply Qle_shift_div_l; lra). pose proof (r53_nonneg _ P0). nra.
  - rewrite ssum_one. reflexivity.
Qed.
(** A value area of 100 % need not hold all the volume: the float32 total forgets small levels next to a large one. *)
Theorem C189_full_refuted : exists lv vols poc hva lva, length lv = length vols /\ (forall x, In x vols -> 0 < x /\ fl 24 x) /\
  comp_poc_hva_lva_f lv vols 100 = Ok (Some (poc, hva, lva)) /\ vol_where (fun l => ((lva <=? l) && (l <=? hva))%Z%bool) lv vols < qsum vols.
Proof.
  exists [10; 11; 12]%Z, [16777216; 1; 1], 10%Z, 10%Z, 10%Z. split; [reflexivity|]. split; [|vm_compute; auto].
  intros x Hx. split; [repeat (destruct Hx as [<-|Hx]; [reflexivity|]); destruct Hx|].
  destruct Hx as [<-|[<-|[<-|[]]]]; [exists 1%Z, 24%Z|exists 1%Z, 0%Z|exists 1%Z, 0%Z]; (split; [reflexivity|vm_compute; reflexivity]).
Qed.
Example C189_area_example : comp_poc_hva_lva_f [10; 11; 12; 13; 14]%Z [1; 2; 9; 4; 1] 70 = Ok (Some (12, 14, 12)%Z) /\
  value_area_f (at_ [1; 2; 9; 4; 1]) 5 (r53 (17 * r53 (70 / 100))) 9 2 2 2 4 /\ qsum [1; 2; 9; 4; 1] <= two (24 + 0).
Proof.
  split; [vm_compute; reflexivity|]. split; [|vm_compute; discriminate].
  apply (vf_up _ _ _ 9 14 2 2); [reflexivity|lia|right; reflexivity|vm_compute; reflexivity|]. apply vf_done. vm_compute. discriminate.
Qed.

(** ** C189: share above the POC *)
Theorem C189_share : forall lv vols poc, (forall x, In x vols -> 0 <= x) -> length vols = length lv ->
  let n := length vols in
  let A := vol_where (fun l => (poc <? l)%Z) lv vols in
  let s := pct_above_poc_f lv vols poc in
  0 <= s /\
  (1 - u53) ^ Z.of_nat (n + 1) * A <= s * ((1 + u24) ^ Z.of_nat n * qsum vols) /\
  s * ((1 - u24) ^ Z.of_nat n * qsum vols) <= (1 + u53) ^ Z.of_nat (n + 1) * A /\
  (qsum vols <= 0 -> s = 0).
Proof. exact share_f_spec. Qed.
(** The share can exceed 1: the numerator is a float64 sum, the total a float32 sum. *)
Theorem C189_share_refuted : exists lv vols poc, length vols = length lv /\ incr lv /\ (forall x, In x vols -> 0 < x /\ fl 24 x) /\
  1 < pct_above_poc_f lv vols poc.
Proof.
  exists [10; 11; 12; 13]%Z, [1 # 4; 16777216; 1; 1], 10%Z. split; [reflexivity|]. split.
  { intros i j Hij. cbn [length] in Hij. destruct i as [|[|[|[|i]]]]; destruct j as [|[|[|[|j]]]]; try lia; cbn; lia. }
  split; [|vm_compute; reflexivity].
  intros x Hx. split; [repeat (destruct Hx as [<-|Hx]; [reflexivity|]); destruct Hx|].
  destruct Hx as [<-|[<-|[<-|[<-|[]]]]]; [exists 1%Z, (-2)%Z|exists 1%Z, 24%Z|exists 1%Z, 0%Z|exists 1%Z, 0%Z]; (split; [reflexivity|vm_compute; reflexivity]).
Qed.
Example C189_share_example : pct_above_poc_f [10; 11; 12]%Z [1; 2; 1] 11 == 1 # 4 /\ pct_above_poc_f [10; 11]%Z [0; 0] 10 = 0.
Proof. split; vm_compute; reflexivity. Qed.

(** ** C189: buckets *)
(** Every bucket holds the volume of its levels up to one float32 rounding per level; widths and prices are as in C54. *)
Theorem C189_buckets : forall lv vols nb, lv <> [] -> incr lv -> length vols = length lv -> nb <> 0%Z ->
  (forall l, In l lv -> (- 2 ^ 29 <= l < 2 ^ 29)%Z) -> (forall x, In x vols -> 0 <= x) ->
  let mn := nth 0 lv 0%Z in
  let mx := last lv 0%Z in
  exists bp bv bw, bucket_price_levels_f lv vols nb = Ok (bp, bv) /\
    Z.odd bw = true /\ (Z.max 1 ((mx - mn) / nb) <= bw <= Z.max 1 ((mx - mn) / nb) + 1)%Z /\
    length bv = length bp /\
    (forall l, In l lv -> (0 <= (l - mn) / bw < Z.of_nat (length bp))%Z) /\
    (forall k, (k < length bp)%nat ->
       within u24 (length lv) (nth k bv 0) (vol_where (fun l => ((l - mn) / bw =? Z.of_nat k)%Z) lv vols)) /\
    incr bp /\
    (forall k, (k < length bp)%nat ->
       nth k bp 0%Z = (mn + Z.of_nat k * bw + (bw - 1) / 2)%Z \/
       (S k = length bp /\ nth k bp 0%Z = mx /\ mx = (mn + Z.of_nat k * bw)%Z)).
Proof.
  intros lv vols nb Hne Hi Hl Hnb Hr Hn mn mx. destruct (C54_buckets lv vols nb Hne Hi Hl Hnb Hr) as [bp [bv [bw [E [B1 [B2 [B3 [B4 [B5 [_ [B6 B7]]]]]]]]]]].
  destruct (bucket_f_spec lv vols nb bp bv Hn E) as [bf [Ef [L C]]].
  exists bp, bf, bw. split; [exact Ef|]. split; [exact B1|]. split; [exact B2|]. split; [congruence|]. split; [exact B4|]. split; [|auto].
  intros k Hk. eapply (within_comp u24); [reflexivity|apply B5; auto|]. apply C. lia.
Qed.
Example C189_buckets_example :
  (exists bv, bucket_price_levels_f [10; 11; 12; 13; 14; 15; 16]%Z [1; 2; 3; 4; 5; 6; 7] 2 = Ok ([11; 14; 16]%Z, bv) /\ map Qred bv = [6; 15; 7]) /\
  (exists bv, bucket_price_levels_f [10; 11; 12]%Z [16777216; 1; 1] 1 = Ok ([11]%Z, bv) /\ map Qred bv = [16777216]).
Proof. split; (eexists; split; [reflexivity|]; vm_compute; reflexivity). Qed.

(** ** C189: rolling profile *)
Theorem C189_rolling : forall ts highs lows plv pbv psv W tick pct,
  ascZ ts -> 0 < tick -> length highs = length ts -> length lows = length ts -> length plv = length ts -> (0 <= W)%Z ->
  vols_ok pbv -> vols_ok psv -> 0 <= pct <= 100 ->
  (forall t, (t < length ts)%nat -> footprint_ok (quots tick highs) (quots tick lows) plv 1 t) ->
  exists rows, volume_profile_rolling_f ts highs lows plv pbv psv W None tick pct = Ok rows /\ length rows = length ts /\
    forall i, (i < length ts)%nat ->
      ((nth i ts 0 < nth 0 ts 0 + W)%Z -> nth i rows None = Some (0%Z, 0%Z, 0%Z, 0)) /\
      ((nth 0 ts 0 + W <= nth i ts 0)%Z ->
         let bars := bars_in ts (nth i ts 0 - W)%Z (nth i ts 0%Z) in
         let f := level_total plv pbv psv bars in
         exists L H poc hva lva share, nth i rows None = Some (poc, hva, lva, share) /\
           level_range (quots tick highs) (quots tick lows) 1 bars L H /\
           float_profile f L H pct (length bars + 1) (span_sum f) poc hva lva share).
Proof. exact rolling_f_spec. Qed.
(** The reported POC need not be a level of largest volume: float32 cells stop growing at 2^24 times the added volume. *)
Theorem C189_poc_refuted : exists ts highs lows plv pbv psv row poc hva lva share,
  (forall t x, In x (nth t pbv []) -> 0 <= x /\ fl 24 x) /\ (forall t x, In x (nth t psv []) -> 0 <= x /\ fl 24 x) /\
  profile_at_f ts highs lows plv pbv psv 10 None 1 70 2 = Ok (Some row) /\ row = (poc, hva, lva, share) /\
  exists l, level_total plv pbv psv (bars_in ts (nth 2 ts 0 - 10)%Z (nth 2 ts 0%Z)) poc < level_total plv pbv psv (bars_in ts (nth 2 ts 0 - 10)%Z (nth 2 ts 0%Z)) l.
Proof.
  exists [0; 1; 2]%Z, [11; 11; 11], [10; 10; 10], [[10; 11]; [10; 11]; [10; 11]]%Z, [[16777216; 16777216]; [0; 1]; [0; 1]], [[0; 0]; [0; 0]; [0; 0]].
  eexists. eexists. eexists. eexists. eexists.
  assert (F0 : fl 24 0) by (exists 0%Z, 0%Z; split; [reflexivity|reflexivity]). assert (F1 : fl 24 1) by (exists 1%Z, 0%Z; split; [reflexivity|reflexivity]).
  assert (F2 : fl 24 16777216) by (exists 1%Z, 24%Z; split; [reflexivity|vm_compute; reflexivity]).
  split.
  { intros t x Hx. destruct t as [|[|[|t]]]; cbn in Hx; [| | |destruct t; destruct Hx]; (destruct Hx as [<-|[<-|[]]]; (split; [discriminate|assumption])). }
  split.
  { intros t x Hx. destruct t as [|[|[|t]]]; cbn in Hx; [| | |destruct t; destruct Hx]; (destruct Hx as [<-|[<-|[]]]; (split; [discriminate|assumption])). }
  split; [vm_compute; reflexivity|]. split; [reflexivity|]. exists 11%Z. vm_compute. reflexivity.
Qed.
Example C189_rolling_example :
  match volume_profile_rolling_f [100; 200; 300]%Z [3; 4; 4] [2; 2; 3] [[2; 3]; [2; 3; 4]; [3; 4]]%Z
    [[1; 1]; [0; 2; 1]; [1; 0]] [[0; 1]; [1; 1; 0]; [0; 2]] 100 None 1 70 with
  | Ok rows => map (option_map (fun r => (fst r, Qred (snd r)))) rows
  | Raise _ => []
  end = [Some (0, 0, 0, 0%Q)%Z; Some (3, 3, 2, (1 # 8)%Q)%Z; Some (3, 4, 3, (3 # 8)%Q)%Z] /\
  footprint_ok (quots 1 [3; 4; 4]) (quots 1 [2; 2; 3]) [[2; 3]; [2; 3; 4]; [3; 4]]%Z 1 1.
Proof.
  split; [vm_compute; reflexivity|]. split; [vm_compute; discriminate|]. split; [repeat constructor; cbn; intuition lia|].
  exists 2%Z, 4%Z. split; [split; [vm_compute; discriminate|intro K; exfalso; revert K; vm_compute; discriminate]|].
  split; [split; [vm_compute; discriminate|intro K; exfalso; revert K; vm_compute; discriminate]|]. split; [lia|]. split; [lia|].
  intros l Hl. cbn in Hl. intuition lia.
Qed.

(** ** C189: rounding to eight decimals before the trim *)
(** float32 volumes of at least a quarter are not changed. *)
Theorem C189_round8 : forall x, fl 24 x -> 1 # 4 <= x -> round8_f x == x.
Proof. exact round8_keeps. Qed.
(** Smaller ones can be: a volume of 2^-30 becomes 0, a volume of 3 * 2^-28 becomes the float32 next to 10^-8. *)
Theorem C189_round8_refuted : exists x y, 0 < x /\ fl 24 x /\ round8_f x == 0 /\ 0 < y /\ fl 24 y /\ 0 < round8_f y /\ ~ round8_f y == y.
Proof.
  exists (1 # 1073741824), (3 # 268435456). split; [reflexivity|]. split; [exists 1%Z, (-30)%Z; split; [reflexivity|vm_compute; reflexivity]|].
  split; [vm_compute; reflexivity|]. split; [reflexivity|]. split; [exists 3%Z, (-28)%Z; split; [reflexivity|vm_compute; reflexivity]|].
  split; [vm_compute; reflexivity|]. vm_compute. discriminate.
Qed.
Example C189_round8_example : round8_f (5 # 16) == 5 # 16 /\ round8_f (13421773 # 16777216) == 13421773 # 16777216.
Proof. split; vm_compute; reflexivity. Qed.

Print Assumptions C189_area.
Print Assumptions C189_coverage.
Print Assumptions C189_lots.
Print Assumptions C189_full_refuted.
Print Assumptions C189_share.
Print Assumptions C189_share_refuted.
Print Assumptions C189_buckets.
Print Assumptions C189_rolling.
Print Assumptions C189_poc_refuted.
Print Assumptions C189_round8.
Print Assumptions C189_round8_refuted.
