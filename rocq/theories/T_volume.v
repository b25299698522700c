(** T_volume.v -- property theorems of volume profiles, flow acceleration and VPIN
    (C51, C54-C57, C93-C97). *)
From Verif Require Import Base M_logic M_bars M_footprint M_features M_volume.
From Verif Require Import S_footprint S_features S_volume P_footprint P_weights P_features P_volume P_volume2 P_volume3.
Open Scope Q_scope.

(* ------------------------------------------------------------------ *)
(** ** C51: VPIN *)
(** Volume of bar [t] when known. *)
Definition known (l : list (option Q)) (t : nat) : Q := match nth t l None with Some x => x | None => 0 end.

Lemma vp_nan_iff b s t : vp_nan b s t = false <-> nth t b None <> None /\ nth t s None <> None.
Proof.
  unfold vp_nan. destruct (nth t b None), (nth t s None); split; try congruence;
  try (intros _; split; discriminate); intros [H1 H2]; congruence.
Qed.
Lemma vpin_window (f g : nat -> Q) i w : (w <= i + 1)%nat -> (forall t, (i < t + w)%nat -> (t <= i)%nat -> f t == g t) ->
  last_sum f i w == last_sum g i w.
Proof.
  intros Hw H. unfold last_sum, window. apply qsum_map_ext. intros t Ht. apply in_seq in Ht. apply H; lia.
Qed.

Theorem C51_vpin : forall b s w i, length s = length b -> (1 <= w)%nat -> (i < length b)%nat ->
  let complete := (w <= i + 1)%nat /\
     (forall t, (i < t + w)%nat -> (t <= i)%nat -> nth t b None <> None /\ nth t s None <> None) in
  let tot := last_sum (fun t => known b t + known s t) i w in
  length (vpin b s w) = length b /\
  (complete -> (1 # 1000000000) < tot -> exists v, nth i (vpin b s w) None = Some v /\
     v * tot == last_sum (fun t => Qabs (known b t - known s t)) i w) /\
  (~ complete \/ tot <= (1 # 1000000000) -> nth i (vpin b s w) None = None).
Proof.
  intros b s w i Hl Hw Hi complete tot. unfold vpin. split; [now rewrite map_length, seq_length|].
  rewrite nth_map_seq by auto. cbv zeta.
  destruct (Nat.leb_spec w (i + 1)) as [K|K]; cbn [andb].
  2:{ split; [intros [C _]; lia|reflexivity]. }
  pose proof (nan_count_zero b s (i + 1 - w) (i + 1) ltac:(lia)) as NC.
  destruct (Z.eqb_spec (nan_count b s (i + 1) - nan_count b s (i + 1 - w)) 0) as [E|E].
  - assert (NN : forall t, (i < t + w)%nat -> (t <= i)%nat -> vp_nan b s t = false).
    { intros t H1 H2. apply (proj1 NC E). lia. }
    assert (C : complete).
    { split; auto. intros t H1 H2. apply vp_nan_iff. auto. }
    assert (ET : prefix (vp_val b s b) (i + 1) - prefix (vp_val b s b) (i + 1 - w) +
                 (prefix (vp_val b s s) (i + 1) - prefix (vp_val b s s) (i + 1 - w)) == tot).
    { rewrite !prefix_window by auto. unfold tot.
      rewrite (vpin_window (vp_val b s b) (known b)), (vpin_window (vp_val b s s) (known s)); auto.
      - unfold last_sum, window. rewrite <- qsum_map_plus. reflexivity.
      - intros t H1 H2. unfold vp_val. rewrite NN by auto. reflexivity.
      - intros t H1 H2. unfold vp_val. rewrite NN by auto. reflexivity. }
    destruct (Qltb_spec (1 # 1000000000)
       (prefix (vp_val b s b) (i + 1) - prefix (vp_val b s b) (i + 1 - w) +
                 (prefix (vp_val b s s) (i + 1) - prefix (vp_val b s s) (i + 1 - w)))) as [T|T]; rewrite ET in T.
    + split.
      * intros _ _. eexists. split; [reflexivity|]. rewrite ET. rewrite prefix_window by auto.
        rewrite (vpin_window (vp_abs b s) (fun t => Qabs (known b t - known s t))); auto.
        -- field. lra.
        -- intros t H1 H2. unfold vp_abs, vp_val. rewrite NN by auto. reflexivity.
      * intros [H|H]; [contradiction|lra].
    + split; [intros; lra|reflexivity].
  - split; [|reflexivity]. intros [_ C] _. exfalso. apply E. apply NC. intros t Ht. apply vp_nan_iff. apply C; lia.
Qed.
Theorem C51_range : forall b s w i v, length s = length b -> (1 <= w)%nat -> (i < length b)%nat ->
  (forall x, In (Some x) b -> 0 <= x) -> (forall x, In (Some x) s -> 0 <= x) ->
  nth i (vpin b s w) None = Some v -> 0 <= v <= 1.
Proof.
  intros b s w i v Hl Hw Hi Hb Hs Hv.
  destruct (C51_vpin b s w i Hl Hw Hi) as [_ [H1 H2]].
  set (tot := last_sum (fun t => known b t + known s t) i w) in *.
  assert (KB : forall t, 0 <= known b t).
  { intro t. unfold known. destruct (nth t b None) eqn:E; [|lra]. apply Hb. rewrite <- E.
    destruct (Nat.lt_ge_cases t (length b)); [apply nth_In; auto|rewrite nth_overflow in E by auto; discriminate]. }
  assert (KS : forall t, 0 <= known s t).
  { intro t. unfold known. destruct (nth t s None) eqn:E; [|lra]. apply Hs. rewrite <- E.
    destruct (Nat.lt_ge_cases t (length s)); [apply nth_In; auto|rewrite nth_overflow in E by auto; discriminate]. }
  destruct (Qlt_le_dec (1 # 1000000000) tot) as [T|T]; [|rewrite H2 in Hv by auto; discriminate].
  assert (A : (w <= i + 1)%nat /\ (forall t, (i < t + w)%nat -> (t <= i)%nat -> nth t b None <> None /\ nth t s None <> None) \/
    ~ ((w <= i + 1)%nat /\ (forall t, (i < t + w)%nat -> (t <= i)%nat -> nth t b None <> None /\ nth t s None <> None))).
  { destruct (Nat.le_gt_cases w (i + 1)) as [K|K]; [|right; lia].
    destruct (forallb (fun t => negb (vp_nan b s t)) (seq (i + 1 - w) w)) eqn:F.
    - left. split; auto. intros t T1 T2. apply vp_nan_iff. rewrite forallb_forall in F.
      specialize (F t ltac:(apply in_seq; lia)). destruct (vp_nan b s t); auto.
    - right. intros [_ C]. assert (forallb (fun t => negb (vp_nan b s t)) (seq (i + 1 - w) w) = true); [|congruence].
      apply forallb_forall. intros t Ht. apply in_seq in Ht. rewrite (proj2 (vp_nan_iff b s t)); auto. apply C; lia. }
  destruct A as [A|A]; [|rewrite H2 in Hv by auto; discriminate].
  destruct (H1 A T) as [v' [E1 E2]]. rewrite Hv in E1. injection E1 as <-.
  set (num := last_sum (fun t => Qabs (known b t - known s t)) i w) in *.
  assert (N0 : 0 <= num).
  { apply qsum_nonneg. intros x Hx. apply in_map_iff in Hx. destruct Hx as [t [<- _]]. apply Qabs_nonneg. }
  assert (N1 : num <= tot).
  { apply qsum_le. intros t _. apply Qabs_Qle_condition. specialize (KB t). specialize (KS t). lra. }
  assert (Ev : v == num / tot) by (rewrite <- E2; field; lra). rewrite Ev. split.
  - apply Qle_shift_div_l; lra.
  - apply Qle_shift_div_r; lra.
Qed.
Example C51_example :
  map (option_map Qred) (vpin [Some 3; Some 1; None; Some 0; Some 2; Some 0] [Some 1; Some 1; Some 1; Some 0; Some 0; Some 6] 2) =
    [None; Some (1 # 3); None; None; Some 1; Some 1] /\
  map (option_map Qred) (vpin [Some 0; Some 0] [Some 0; Some 0] 1) = [None; None] /\
  map (option_map Qred) (vpin [Some 5; Some 1] [Some 1; Some 1] 2) = [None; Some (1 # 2)].
Proof. vm_compute. auto. Qed.

(* ------------------------------------------------------------------ *)
(** ** C54: bucketing conserves volume *)
Lemma nth_repeat_lt {A} (a d : A) n m : (n < m)%nat -> nth n (repeat a m) d = a.
Proof. intro H. rewrite (nth_indep _ d a) by (rewrite repeat_length; auto). apply nth_repeat. Qed.
Theorem C54_buckets : forall lv vols nb, lv <> [] -> incr lv -> length vols = length lv -> nb <> 0%Z ->
  (forall l, In l lv -> (- 2 ^ 29 <= l < 2 ^ 29)%Z) ->
  let mn := nth 0 lv 0%Z in
  let mx := last lv 0%Z in
  exists bp bv bw, bucket_price_levels lv vols nb = Ok (bp, bv) /\
    (* odd bucket width, the smallest odd number >= max(1, (mx - mn) / nb) *)
    Z.odd bw = true /\ (Z.max 1 ((mx - mn) / nb) <= bw <= Z.max 1 ((mx - mn) / nb) + 1)%Z /\
    (* every level lies in exactly one bucket, which holds its volume *)
    length bv = length bp /\
    (forall l, In l lv -> (0 <= (l - mn) / bw < Z.of_nat (length bp))%Z) /\
    (forall k, (k < length bp)%nat -> nth k bv 0 == vol_where (fun l => ((l - mn) / bw =? Z.of_nat k)%Z) lv vols) /\
    qsum bv == qsum vols /\
    (* prices: bucket midpoints; a last bucket holding only the top level has its price *)
    incr bp /\
    (forall k, (k < length bp)%nat ->
       nth k bp 0%Z = (mn + Z.of_nat k * bw + (bw - 1) / 2)%Z \/
       (S k = length bp /\ nth k bp 0%Z = mx /\ mx = (mn + Z.of_nat k * bw)%Z)).
Proof.
  intros lv vols nb Hne Hinc Hlen Hnb Hr mn mx.
  destruct (bucket_eq lv vols nb Hne Hinc Hlen Hr Hnb) as [bv [E [Lb [Hv Hin]]]]. cbv zeta in E, Lb, Hv, Hin. fold mn mx in E, Lb, Hv, Hin.
  set (bw := bin_width (mx - mn) nb) in *. set (c := ((mx - mn + bw - 1) / bw)%Z) in *.
  pose proof (left_exact lv vols nb Hne Hinc Hlen Hr) as HL. fold mn mx bw c in HL.
  pose proof (bw_pos lv vols nb Hlen) as Hb. fold mn mx bw in Hb.
  set (lf := ((mx - mn) / bw =? c)%Z) in *.
  set (bp := if lf then map (midpoint lv nb) (seq 0 (Z.to_nat c)) ++ [mx] else map (midpoint lv nb) (seq 0 (Z.to_nat c))) in *.
  assert (Lp : length bv = length bp).
  { rewrite Lb. unfold bp. destruct lf; rewrite ?app_length, map_length, seq_length; simpl; lia. }
  assert (Hp : forall k, (k < length bp)%nat ->
       nth k bp 0%Z = (mn + Z.of_nat k * bw + (bw - 1) / 2)%Z /\ (k < Z.to_nat c)%nat \/
       (k = Z.to_nat c /\ S k = length bp /\ nth k bp 0%Z = mx /\ mx = (mn + Z.of_nat k * bw)%Z)).
  { intros k Hk. unfold bp in *. destruct lf eqn:Elf.
    - rewrite app_length, map_length, seq_length in Hk. simpl in Hk.
      destruct (Nat.eq_dec k (Z.to_nat c)) as [->|Hn].
      + right. rewrite app_nth2 by (rewrite map_length, seq_length; lia). rewrite app_length, map_length, seq_length, Nat.sub_diag.
        split; [auto|]. split; [simpl; lia|]. split; [reflexivity|]. apply HL. reflexivity.
      + left. rewrite app_nth1 by (rewrite map_length, seq_length; lia). rewrite nth_map_seq by lia. split; [reflexivity|lia].
    - rewrite map_length, seq_length in Hk. left. rewrite nth_map_seq by lia. split; [reflexivity|lia]. }
  assert (Hlv : forall l, In l lv -> (0 <= (l - mn) / bw < Z.of_nat (length bp))%Z).
  { intros l Hl. specialize (Hin l Hl). pose proof (lv_bounds lv vols nb Hinc Hlen l Hl) as B. fold mn mx in B.
    assert (0 <= (l - mn) / bw)%Z by (apply Z.div_pos; lia). lia. }
  exists bp, bv, bw. split; [exact E|].
  destruct (bin_width_odd (mx - mn) nb) as [O1 O2]. split; [exact O1|]. split; [exact O2|].
  split; [exact Lp|]. split; [exact Hlv|]. split; [intros k Hk; apply Hv; lia|]. split; [|split].
  - rewrite (qsum_ssum bv). unfold ssum. rewrite Nat.sub_0_r.
    rewrite (qsum_map_ext_seq (at_ bv) (fun k => vol_where (fun l => ((l - mn) / bw =? Z.of_nat k)%Z) lv vols)).
    2:{ intros k Hk. apply Hv. lia. }
    unfold vol_where. rewrite qsum_exchange.
    rewrite (qsum_ssum vols). unfold ssum. rewrite Nat.sub_0_r, Hlen. apply qsum_map_ext_seq. intros i Hi.
    assert (Hi' : In (nth i lv 0%Z) lv) by (apply nth_In; lia). specialize (Hlv _ Hi').
    set (q := ((nth i lv 0 - mn) / bw)%Z) in *.
    assert (Hh : vol_at q (map Z.of_nat (seq 0 (length bv))) (repeat (nth i vols 0) (length bv)) == nth i vols 0).
    { assert (Hq : (Z.to_nat q < length bv)%nat) by lia.
      rewrite (vol_at_hit q _ _ (Z.to_nat q)).
      - rewrite nth_repeat_lt by auto. reflexivity.
      - apply FinFun.Injective_map_NoDup; [intros x y; lia|apply seq_NoDup].
      - rewrite map_length, seq_length. auto.
      - rewrite (nth_indep _ 0%Z (Z.of_nat 0)) by (rewrite map_length, seq_length; auto). rewrite map_nth, seq_nth by auto. lia. }
    eapply Qeq_trans; [|exact Hh].
    unfold vol_at, vol_where. rewrite map_length, seq_length. apply qsum_map_ext_seq. intros k Hk.
    rewrite (nth_indep _ 0%Z (Z.of_nat 0)) by (rewrite map_length, seq_length; lia). rewrite map_nth, seq_nth by lia.
    cbn [Nat.add]. destruct (q =? Z.of_nat k)%Z; [|reflexivity]. rewrite nth_repeat_lt by lia. reflexivity.
  - intros i j Hij. destruct (Hp i ltac:(lia)) as [[-> Hi]|[Hi [Hi2 _]]]; [|lia].
    assert (Hd : (0 <= (bw - 1) / 2 < bw)%Z).
    { split; [apply Z.div_pos; lia|]. apply Z.div_lt_upper_bound; lia. }
    destruct (Hp j ltac:(lia)) as [[-> Hj]|[Hj [Hj2 [-> Emx]]]]; [nia|rewrite Emx; nia].
  - intros k Hk. destruct (Hp k Hk) as [[H1 _]|[_ H2]]; auto.
Qed.
Example C54_example :
  (exists bp bv, bucket_price_levels [10; 11; 12; 13; 14; 15; 16]%Z [1; 2; 3; 4; 5; 6; 7] 2 = Ok (bp, bv) /\
     bp = [11; 14; 16]%Z /\ map Qred bv = [6; 15; 7]) /\
  (exists bp bv, bucket_price_levels [10]%Z [4] 3 = Ok (bp, bv) /\ bp = [10]%Z /\ map Qred bv = [4]).
Proof. split; (eexists; eexists; split; [reflexivity|]; vm_compute; auto). Qed.

(* ------------------------------------------------------------------ *)
(** ** C55: bucket prices inside the traded range *)
Theorem C55_range_refuted : exists lv vols nb pct poc hva lva bp bv,
  incr lv /\ bucket_price_levels lv vols nb = Ok (bp, bv) /\
  comp_poc_hva_lva bp bv pct = Ok (Some (poc, hva, lva)) /\ (last lv 0 < poc)%Z.
Proof.
  exists [0; 1; 2; 3; 4; 5; 6; 7; 8; 9; 10; 11]%Z, [0; 0; 0; 0; 0; 0; 0; 0; 0; 0; 1; 1], 2%Z, 70.
  do 5 eexists. split.
  { intros i j Hij. cbn [length] in Hij. do 12 (destruct i as [|i]; [do 12 (destruct j as [|j]; [cbn; lia|]); cbn; lia|]). lia. }
  split; [reflexivity|]. split; [vm_compute; reflexivity|]. vm_compute. reflexivity.
Qed.
(** What holds: never below the lowest level, and at most half a bucket width above
    the highest one. *)
Theorem C55_overshoot : forall lv vols nb bp bv, lv <> [] -> incr lv -> length vols = length lv -> nb <> 0%Z ->
  (forall l, In l lv -> (- 2 ^ 29 <= l < 2 ^ 29)%Z) ->
  bucket_price_levels lv vols nb = Ok (bp, bv) ->
  let mn := nth 0 lv 0%Z in
  let mx := last lv 0%Z in
  forall p, In p bp -> (mn <= p /\ 2 * (p - mx) <= Z.max 1 ((mx - mn) / nb))%Z.
Proof.
  intros lv vols nb bp bv Hne Hinc Hlen Hnb Hr E mn mx p Hp.
  destruct (bucket_eq lv vols nb Hne Hinc Hlen Hr Hnb) as [bv' [E' _]]. cbv zeta in E'. fold mn mx in E'.
  rewrite E in E'. injection E' as -> _.
  set (bw := bin_width (mx - mn) nb) in *. set (c := ((mx - mn + bw - 1) / bw)%Z) in *.
  pose proof (bw_pos lv vols nb Hlen) as Hb. fold mn mx bw in Hb.
  pose proof (c_facts lv vols nb Hne Hinc Hlen Hr) as C. fold mn mx bw c in C.
  destruct (bin_width_odd (mx - mn) nb) as [_ O2]. fold bw in O2.
  pose proof (mx_in lv vols nb Hne Hinc Hlen Hr) as Hmx. fold mx in Hmx.
  pose proof (lv_bounds lv vols nb Hinc Hlen mx Hmx) as B. fold mn mx in B.
  assert (Hmid : In p (map (midpoint lv nb) (seq 0 (Z.to_nat c))) -> (mn <= p /\ 2 * (p - mx) <= Z.max 1 ((mx - mn) / nb))%Z).
  { intro K. apply in_map_iff in K. destruct K as [k [<- Hk]]. apply in_seq in Hk.
    unfold midpoint, edge. fold mn mx bw.
    assert (0 <= (bw - 1) / 2)%Z by (apply Z.div_pos; lia).
    pose proof (Z.mul_div_le (bw - 1) 2 ltac:(lia)). split; nia. }
  destruct ((mx - mn) / bw =? c)%Z; [|auto]. apply in_app_iff in Hp. destruct Hp as [Hp|[<-|[]]]; [auto|]. lia.
Qed.
Example C55_example : exists bp bv, bucket_price_levels [0; 4; 8; 11]%Z [1; 2; 3; 4] 2 = Ok (bp, bv) /\
  bp = [2; 7; 12]%Z /\ (2 * (12 - 11) <= Z.max 1 ((11 - 0) / 2))%Z.
Proof. eexists. eexists. split; [reflexivity|]. vm_compute. split; [reflexivity|discriminate]. Qed.

(* ------------------------------------------------------------------ *)
(** ** C56: POC and value area *)
Theorem C56_value_area : forall lv vols pct, vols <> [] -> length lv = length vols -> incr lv ->
  (forall x, In x vols -> 0 <= x) -> 0 <= pct <= 100 ->
  exists poc hva lva, comp_poc_hva_lva lv vols pct = Ok (Some (poc, hva, lva)) /\
    (exists p, first_max (at_ vols) (length vols) p /\ poc = nth p lv 0%Z) /\
    In lva lv /\ In hva lv /\ (lva <= poc <= hva)%Z /\
    pct / 100 * qsum vols <= vol_where (fun l => (lva <=? l) && (l <=? hva))%Z%bool lv vols /\
    (lva = poc /\ hva = poc <-> pct / 100 * qsum vols <= vol_at poc lv vols).
Proof.
  intros lv vols pct Hne Hlen Hinc Hnn Hp.
  destruct (poc_area lv vols pct Hne Hlen) as [p [a [b [E [F [V [Hab Hb]]]]]]]; auto.
  { intros i Hi. apply Hnn. now apply nth_In. }
  exists (nth p lv 0%Z), (nth b lv 0%Z), (nth a lv 0%Z). split; [exact E|].
  split; [exists p; auto|]. split; [apply nth_In; lia|]. split; [apply nth_In; lia|].
  split; [split; apply incr_le; auto; lia|]. split.
  - rewrite vol_between by (auto; lia). rewrite Qmult_comm. eapply value_area_share; eauto.
  - pose proof (value_area_stop _ _ _ _ _ _ _ V ltac:(lia)) as S1. rewrite ssum_one in S1.
    rewrite (vol_at_hit _ lv vols p); [|apply NoDup_nth with 0%Z; intros i j Hi Hj Eij|lia|auto].
    + rewrite Qmult_comm. change (nth p vols 0) with (at_ vols p). rewrite <- S1. split.
      * intros [E1 E2].
        pose proof (proj1 (incr_lt_iff lv p a Hinc ltac:(lia) ltac:(lia)) ltac:(lia)).
        pose proof (proj1 (incr_lt_iff lv b p Hinc ltac:(lia) ltac:(lia)) ltac:(lia)). lia.
      * intros [-> ->]. auto.
    + pose proof (proj1 (incr_lt_iff lv i j Hinc Hi Hj) ltac:(lia)).
      pose proof (proj1 (incr_lt_iff lv j i Hinc Hj Hi) ltac:(lia)). lia.
Qed.
(** The search grows the area two levels at a time towards the larger neighbour. *)
Theorem C56_greedy : forall lv vols pct, vols <> [] -> length lv = length vols ->
  (forall x, In x vols -> 0 <= x) -> 0 <= pct <= 100 ->
  exists p a b, comp_poc_hva_lva lv vols pct = Ok (Some (nth p lv 0%Z, nth b lv 0%Z, nth a lv 0%Z)) /\
    first_max (at_ vols) (length vols) p /\
    value_area (at_ vols) (length vols) (qsum vols * (pct / 100)) p p a b /\ (a <= p)%nat /\ (p <= b < length vols)%nat.
Proof.
  intros lv vols pct Hne Hlen Hnn Hp.
  destruct (poc_area lv vols pct Hne Hlen) as [p [a [b [E [F [V [Hab Hb]]]]]]]; auto.
  { intros i Hi. apply Hnn. now apply nth_In. }
  exists p, a, b. split; [exact E|]. split; [exact F|]. split; [exact V|]. lia.
Qed.
Example C56_example :
  comp_poc_hva_lva [100; 101; 102; 103; 104; 105; 106]%Z [1; 5; 2; 9; 3; 1; 4] 64 = Ok (Some (103, 103, 101)%Z) /\
  comp_poc_hva_lva [100; 101; 102; 103; 104; 105; 106]%Z [1; 5; 2; 9; 3; 1; 4] 75 = Ok (Some (103, 105, 101)%Z) /\
  comp_poc_hva_lva [7; 8]%Z [3; 3] 60 = Ok (Some (7, 8, 7)%Z).
Proof. vm_compute. auto. Qed.

(* ------------------------------------------------------------------ *)
(** ** C57: developing profile *)
Theorem C57_every_bar_refuted : exists ts highs lows plv pbv psv a b tick pct,
  bars_in ts a b = [1; 2]%nat /\
  (forall t, In t (bars_in ts a b) -> footprint_ok highs lows plv tick t) /\
  volume_profile_developing ts highs lows plv pbv psv a b None tick pct = Raise IndexError.
Proof.
  exists [100; 200; 300]%Z, [3; 4; 4], [2; 2; 3], [[2; 3]; [2; 3; 4]; [3; 4]]%Z,
    [[1; 1]; [0; 2; 1]; [1; 0]], [[0; 1]; [1; 1; 0]; [0; 2]], 150%Z, 400%Z, 1, 70.
  split; [reflexivity|]. split; [|vm_compute; reflexivity].
  assert (R : forall z, rounds_to (inject_Z z / 1) z).
  { intro z. assert (E : inject_Z z / 1 - inject_Z z == 0) by field. split; rewrite E; [discriminate|]. intro K; discriminate K. }
  intros t Ht. cbn in Ht. destruct Ht as [<-|[<-|[]]]; unfold footprint_ok; cbn [nth].
  - split; [discriminate|]. split; [repeat constructor; simpl; intuition lia|]. exists 2%Z, 4%Z.
    split; [apply (R 2%Z)|]. split; [apply (R 4%Z)|]. split; [lia|]. split; [lia|]. intros l Hl; simpl in Hl; intuition lia.
  - split; [discriminate|]. split; [repeat constructor; simpl; intuition lia|]. exists 3%Z, 4%Z.
    split; [apply (R 3%Z)|]. split; [apply (R 4%Z)|]. split; [lia|]. split; [lia|]. intros l Hl; simpl in Hl; intuition lia.
Qed.
(** Whenever a bar lies before the requested start, no call returns normally. *)
Theorem C57_late_start : forall ts highs lows plv pbv psv a b nb tick pct out,
  ascZ ts -> (0 < length ts)%nat -> (nth 0 ts 0 < a)%Z ->
  volume_profile_developing ts highs lows plv pbv psv a b nb tick pct <> Ok out.
Proof.
  intros ts highs lows plv pbv psv a b nb tick pct out Hasc Hpos Ha E.
  apply developing_late in E. pose proof (ss_left_ge ts a 0 Hasc ltac:(lia)). lia.
Qed.
(** From the first bar on, every bar gets the profile of the bars up to it. *)
Theorem C57_from_first_partial : forall ts highs lows plv pbv psv a b tick pct,
  ascZ ts -> 0 < tick -> length highs = length ts -> length lows = length ts ->
  vols_ok pbv -> vols_ok psv -> 0 <= pct <= 100 -> ts <> [] ->
  (a <= nth 0 ts 0)%Z -> (nth 0 ts 0 <= b)%Z ->
  (forall t, In t (bars_in ts a b) -> footprint_ok highs lows plv tick t) ->
  exists L H out, volume_profile_developing ts highs lows plv pbv psv a b None tick pct = Ok out /\
    length out = length (bars_in ts a b) /\ level_range highs lows tick (bars_in ts a b) L H /\
    forall t, (t < length out)%nat -> exists poc hva lva, nth t out None = Some (poc, hva, lva) /\
      is_profile (level_total plv pbv psv (seq 0 (S t))) L H pct poc hva lva.
Proof. exact developing_spec. Qed.
Example C57_example : volume_profile_developing [100; 200; 300]%Z [3; 4; 4] [2; 2; 3] [[2; 3]; [2; 3; 4]; [3; 4]]%Z
    [[1; 1]; [0; 2; 1]; [1; 0]] [[0; 1]; [1; 1; 0]; [0; 2]] 0 250 None 1 70 =
    Ok [Some (3, 3, 2)%Z; Some (3, 3, 2)%Z] /\
  bars_in [100; 200; 300]%Z 0 250 = [0; 1]%nat /\
  map Qred (map (level_total [[2; 3]; [2; 3; 4]; [3; 4]]%Z [[1; 1]; [0; 2; 1]; [1; 0]] [[0; 1]; [1; 1; 0]; [0; 2]] [0; 1]%nat) [2; 3; 4]%Z) = [2; 5; 1].
Proof. vm_compute. auto. Qed.

(* ------------------------------------------------------------------ *)
(** ** C93: aggregation of footprints *)
Theorem C93_aggregate : forall ts highs lows plv pbv psv a b tick,
  ascZ ts -> 0 < tick -> length highs = length ts -> length lows = length ts -> (a <= b)%Z ->
  let bars := bars_in ts a b in
  bars <> [] -> (forall t, In t bars -> footprint_ok highs lows plv tick t) ->
  (forall t, In t bars -> length (nth t pbv []) = length (nth t plv []) /\ length (nth t psv []) = length (nth t plv [])) ->
  exists L H bv sv, aggregate_footprint ts highs lows plv pbv psv a b tick = Ok (zrange L (H + 1), bv, sv) /\
    level_range highs lows tick bars L H /\
    length bv = length (zrange L (H + 1)) /\ length sv = length (zrange L (H + 1)) /\
    (forall k, (k < length bv)%nat ->
       nth k bv 0 == lev_sum plv pbv bars (L + Z.of_nat k) /\ nth k sv 0 == lev_sum plv psv bars (L + Z.of_nat k)) /\
    qsum bv == qsum (map (fun t => qsum (nth t pbv [])) bars) /\
    qsum sv == qsum (map (fun t => qsum (nth t psv [])) bars).
Proof.
  intros ts highs lows plv pbv psv a b tick Hasc Ht Hh Hl Hab bars Hne Hok Hlen.
  destruct (aggregate_spec ts highs lows plv pbv psv a b tick) as [L [H [bv [sv [E [HL [HH [Hb [Lb [Ls Hk]]]]]]]]]]; auto.
  { intros t Htt. apply fp_ok_of. auto. }
  fold bars in HL, HH, Hb, Hk.
  pose proof (range_of highs lows tick bars L H HL HH Hb) as Hr.
  pose proof (range_le highs lows tick bars L H plv Ht Hok Hr) as HLH.
  assert (Hlv : forall t l, In t bars -> In l (nth t plv []) -> (L <= l <= H)%Z).
  { intros t l Htt Hll. destruct (fp_ok_of _ _ _ _ _ (Hok t Htt)) as [[_ K2] _]. specialize (K2 l Hll). destruct (Hb t Htt). lia. }
  rewrite zrange_length in Lb, Ls.
  exists L, H, bv, sv. rewrite zrange_length. split; [exact E|]. split; [exact Hr|]. split; [exact Lb|]. split; [exact Ls|].
  split; [exact Hk|]. split.
  - rewrite <- (span_lev_sum L H plv pbv bars Hlv) by (intros t Htt; apply Hlen; auto).
    symmetry. apply span_qsum; auto. intros k Hkk. apply Hk. auto.
  - rewrite <- (span_lev_sum L H plv psv bars Hlv) by (intros t Htt; apply Hlen; auto).
    symmetry. apply span_qsum; auto. intros k Hkk. apply Hk. lia.
Qed.
Example C93_example : exists bv sv,
  aggregate_footprint [100; 200; 300]%Z [3; 4; 4] [2; 2; 3] [[2; 3]; [2; 3; 4]; [3; 4]]%Z
    [[1; 1]; [0; 2; 1]; [1; 0]] [[0; 1]; [1; 1; 0]; [0; 2]] 200 300 1 = Ok ([2; 3; 4]%Z, bv, sv) /\
  map Qred bv = [0; 3; 1] /\ map Qred sv = [1; 1; 2] /\ bars_in [100; 200; 300]%Z 200 300 = [1; 2]%nat.
Proof. eexists. eexists. split; [reflexivity|]. vm_compute. auto. Qed.

(* ------------------------------------------------------------------ *)
(** ** C94: rolling volume profile *)
Theorem C94_rolling : forall ts highs lows plv pbv psv W tick pct,
  ascZ ts -> 0 < tick -> length highs = length ts -> length lows = length ts -> length plv = length ts -> (0 <= W)%Z ->
  vols_ok pbv -> vols_ok psv -> 0 <= pct <= 100 ->
  (forall t, (t < length ts)%nat -> footprint_ok highs lows plv tick t) ->
  exists rows, volume_profile_rolling ts highs lows plv pbv psv W None tick pct = Ok rows /\ length rows = length ts /\
    forall i, (i < length ts)%nat ->
      ((nth i ts 0 < nth 0 ts 0 + W)%Z -> nth i rows None = Some (0%Z, 0%Z, 0%Z, 0)) /\
      ((nth 0 ts 0 + W <= nth i ts 0)%Z ->
         let bars := bars_in ts (nth i ts 0 - W)%Z (nth i ts 0%Z) in
         let f := level_total plv pbv psv bars in
         exists L H poc hva lva share, nth i rows None = Some (poc, hva, lva, share) /\
           level_range highs lows tick bars L H /\ is_profile f L H pct poc hva lva /\
           (0 < span_sum f L H -> share * span_sum f L H == span_sum f (poc + 1) H) /\
           (span_sum f L H <= 0 -> share == 0)).
Proof.
  intros ts highs lows plv pbv psv W tick pct Hasc Ht Hh Hl Hp HW Hvb Hvs Hpct Hok.
  destruct (rolling_spec ts highs lows plv pbv psv W tick pct) as [rows [E [Hlen Hrow]]]; auto.
  exists rows. split; [exact E|]. split; [exact Hlen|]. intros i Hi. destruct (Hrow i Hi) as [R1 R2].
  split; [exact R1|]. intros Hge bars f. destruct (R2 Hge) as [L [H [[[[poc hva] lva] share] [E2 [Hr [P1 [P2 P3]]]]]]].
  exists L, H, poc, hva, lva, share. auto.
Qed.
(** Conversion to prices: a zero (warm-up, or price level 0) becomes NaN. *)
Theorem C94_prices : forall tick l, 0 < tick ->
  (l = 0%Z -> level_price tick l = None) /\
  (l <> 0%Z -> exists p, level_price tick l = Some p /\ p == inject_Z l * tick).
Proof.
  intros tick l Ht. unfold level_price. cbv zeta. destruct (Qeqb_spec (inject_Z l * tick) 0) as [K|K]; split; intro H.
  - reflexivity.
  - exfalso. apply Qmult_integral in K. destruct K as [K|K]; [|lra]. apply H.
    unfold Qeq in K. simpl in K. lia.
  - subst l. exfalso. apply K. ring.
  - eexists. split; [reflexivity|]. reflexivity.
Qed.
Example C94_example :
  match volume_profile_rolling [100; 200; 300]%Z [3; 4; 4] [2; 2; 3] [[2; 3]; [2; 3; 4]; [3; 4]]%Z
    [[1; 1]; [0; 2; 1]; [1; 0]] [[0; 1]; [1; 1; 0]; [0; 2]] 100 None 1 70 with
  | Ok rows => map (option_map (fun r => (fst r, Qred (snd r)))) rows
  | Raise _ => []
  end = [Some (0, 0, 0, 0%Q)%Z; Some (3, 3, 2, (1 # 8)%Q)%Z; Some (3, 4, 3, (3 # 8)%Q)%Z].
Proof. vm_compute. reflexivity. Qed.

(* ------------------------------------------------------------------ *)
(** ** C95: share of volume above the POC *)
Theorem C95_share : forall lv vols poc, (forall x, In x vols -> 0 <= x) -> length vols = length lv ->
  (0 < qsum vols -> pct_above_poc lv vols poc == vol_where (fun l => (poc <? l)%Z) lv vols / qsum vols) /\
  (qsum vols <= 0 -> pct_above_poc lv vols poc = 0) /\
  0 <= pct_above_poc lv vols poc <= 1 /\
  (0 < vol_at poc lv vols -> pct_above_poc lv vols poc < 1).
Proof.
  intros lv vols poc Hnn Hlen. destruct (pct_above_value lv vols poc Hnn Hlen) as [A1 A2].
  split; [exact A1|]. split; [exact A2|].
  set (W := vol_where (fun l => (poc <? l)%Z) lv vols) in *.
  assert (W0 : 0 <= W).
  { unfold W, vol_where. apply qsum_nonneg. intros x Hx. apply in_map_iff in Hx. destruct Hx as [i [<- Hi]]. apply in_seq in Hi.
    destruct (poc <? nth i lv 0)%Z; [|lra]. apply Hnn. apply nth_In. lia. }
  assert (W1 : W + vol_at poc lv vols <= qsum vols).
  { rewrite <- (vol_where_all (fun _ => true) lv vols) by auto. unfold W, vol_at, vol_where. rewrite <- qsum_map_plus.
    apply qsum_le. intros i Hi. apply in_seq in Hi. assert (0 <= nth i vols 0) by (apply Hnn, nth_In; lia).
    destruct (Z.ltb_spec poc (nth i lv 0%Z)), (Z.eqb_spec poc (nth i lv 0%Z)); lra || lia. }
  assert (V0 : 0 <= vol_at poc lv vols) by (apply vol_at_nonneg; auto).
  destruct (Qlt_le_dec 0 (qsum vols)) as [T|T].
  - rewrite A1 by auto. split; [split|].
    + apply Qle_shift_div_l; lra.
    + apply Qle_shift_div_r; lra.
    + intro K. apply Qlt_shift_div_r; lra.
  - rewrite A2 by auto. split; [lra|]. intro. lra.
Qed.
Example C95_example : pct_above_poc [1; 2; 3; 4]%Z [1; 4; 2; 1] 2 == 3 # 8 /\ pct_above_poc [1; 2]%Z [0; 0] 1 = 0.
Proof. vm_compute. split; reflexivity. Qed.

(* ------------------------------------------------------------------ *)
(** ** C96: flow acceleration *)
Theorem C96_flow_acceleration : forall ln v w r i, (1 <= w)%nat -> (i < length v)%nat ->
  let out := comp_flow_acceleration ln v w r in
  let recent := last_sum (at_ v) i r in
  let past := last_sum (at_ v) (i - r) (w - r) in
  let eps := 1 # 1000000000000 in
  length out = length v /\
  (nth i out None = None <-> (length v < w)%nat \/ (w <= r)%nat \/ (i + 1 < w)%nat) /\
  ((r < w)%nat -> (w <= i + 1)%nat -> ~ past + eps == 0 ->
     exists q, nth i out None = Some (ln q) /\ q * (past + eps) == recent + eps) /\
  ((r < w)%nat -> (w <= i + 1)%nat -> (forall x, In x v -> 0 <= x) ->
     exists q, nth i out None = Some (ln q) /\ 0 < q /\ q * (past + eps) == recent + eps).
Proof.
  intros ln v w r i Hw Hi out recent past eps. unfold out, comp_flow_acceleration. fold eps. cbv zeta.
  destruct (Nat.ltb_spec (length v) w) as [K1|K1]; cbn [orb].
  { rewrite repeat_length. split; [auto|]. rewrite nth_repeat. split; [split; auto|]. split; intros; lia. }
  destruct (Nat.leb_spec w r) as [K2|K2].
  { rewrite repeat_length. split; [auto|]. rewrite nth_repeat. split; [split; auto|]. split; intros; lia. }
  rewrite map_length, seq_length, nth_map_seq by auto. split; [auto|].
  destruct (Nat.ltb_spec i (w - 1)) as [K3|K3].
  { split; [split; auto; intros; right; right; lia|]. split; intros; lia. }
  split; [split; [discriminate|intros [?|[?|?]]; lia]|].
  assert (ER : prefix (qn v) (i + 1) - prefix (qn v) (i + 1 - r) == recent).
  { rewrite prefix_window by lia. reflexivity. }
  assert (EP : prefix (qn v) (i + 1 - r) - prefix (qn v) (i + 1 - w) == past).
  { unfold past. rewrite <- prefix_window by lia. replace (i - r + 1)%nat with (i + 1 - r)%nat by lia.
    replace (i + 1 - r - (w - r))%nat with (i + 1 - w)%nat by lia. reflexivity. }
  set (R := prefix (qn v) (i + 1) - prefix (qn v) (i + 1 - r)) in *.
  set (P := prefix (qn v) (i + 1 - r) - prefix (qn v) (i + 1 - w)) in *. clearbody R P.
  split.
  - intros _ _ Z0. exists ((R + eps) / (P + eps)).
    split; [reflexivity|]. rewrite ER, EP. field. auto.
  - intros _ _ Hnn. exists ((R + eps) / (P + eps)). split; [reflexivity|].
    assert (G : forall j n, 0 <= last_sum (at_ v) j n).
    { intros j n. apply qsum_nonneg. intros x Hx. apply in_map_iff in Hx. destruct Hx as [t [<- _]]. unfold at_.
      destruct (Nat.lt_ge_cases t (length v)); [apply Hnn, nth_In; auto|rewrite nth_overflow by auto; lra]. }
    pose proof (G i r) as G1. fold recent in G1. pose proof (G (i - r)%nat (w - r)%nat) as G2. fold past in G2.
    assert (0 < eps) by reflexivity. rewrite ER, EP. split.
    + apply Qlt_shift_div_l; lra.
    + field. lra.
Qed.
Example C96_example : map (option_map Qred) (comp_flow_acceleration (fun q => q) [1; 2; 3; 6] 3 1) =
    [None; None; Some 1; Some (6000000000001 # 5000000000001)].
Proof. vm_compute. reflexivity. Qed.

(* ------------------------------------------------------------------ *)
(** ** C97: trimming empty levels *)
Lemma lead_zeros_spec l : (lead_zeros l <= length l)%nat /\ (forall i, (i < lead_zeros l)%nat -> nth i l 0 == 0) /\
  ((lead_zeros l < length l)%nat -> ~ nth (lead_zeros l) l 0 == 0).
Proof.
  induction l as [|x l [I1 [I2 I3]]]; cbn [lead_zeros length]; [split; [lia|split; intros; lia]|].
  destruct (Qeqb_spec x 0) as [K|K].
  - split; [lia|]. split.
    + intros [|i] Hi; cbn [nth]; [auto|]. apply I2. lia.
    + intro H. cbn [nth]. apply I3. lia.
  - split; [lia|]. split; [intros; lia|]. intros _. exact K.
Qed.
Theorem C97_trim : forall lv vols lv' vols', length lv = length vols -> trim_trailing_zeros lv vols = (lv', vols') ->
  exists a m, (a + m <= length lv)%nat /\ lv' = firstn m (skipn a lv) /\ length vols' = m /\
    (forall k, (k < m)%nat -> Qabs (nth k vols' 0 - nth (a + k) vols 0) <= 1 # 200000000) /\
    (forall k, (k < length lv)%nat -> (k < a \/ a + m <= k)%nat -> Qabs (nth k vols 0) <= 1 # 200000000) /\
    ((0 < m)%nat -> ~ nth 0 vols' 0 == 0 /\ ~ nth (m - 1) vols' 0 == 0).
Proof.
  intros lv vols lv' vols' Hlen E. unfold trim_trailing_zeros in E. cbv zeta in E.
  set (v := map round8 vols) in *. set (a := lead_zeros v) in *. set (b := lead_zeros (rev (skipn a v))) in *.
  assert (Lv : length v = length lv) by (unfold v; rewrite map_length; auto).
  destruct (lead_zeros_spec v) as [A1 [A2 A3]]. fold a in A1, A2, A3.
  destruct (lead_zeros_spec (rev (skipn a v))) as [B1 [B2 B3]]. fold b in B1, B2, B3.
  rewrite rev_length, skipn_length in B1, B3.
  assert (R8 : forall k, (k < length lv)%nat -> Qabs (nth k v 0 - nth k vols 0) <= 1 # 200000000).
  { intros k Hk. unfold v. rewrite (nth_indep _ 0 (round8 0)) by (rewrite map_length; lia). rewrite map_nth.
    destruct (rhe_spec (nth k vols 0 * 100000000)) as [R _]. unfold round8.
    set (x := nth k vols 0) in *. set (z := rhe (x * 100000000)) in *.
    apply Qabs_Qle_condition in R. apply Qabs_Qle_condition.
    assert (EQ : inject_Z z / 100000000 - x == - (x * 100000000 - inject_Z z) * (1 # 100000000)) by field.
    rewrite EQ. split.
    - lra.
    - lra. }
  assert (Hnr : forall i, (i < length v - a)%nat -> nth i (rev (skipn a v)) 0 = nth (length v - 1 - i) v 0).
  { intros i Hi. rewrite rev_nth by (rewrite skipn_length; lia). rewrite skipn_length, nth_skipn. f_equal. lia. }
  injection E as <- <-. set (m := (length lv - a - b)%nat). exists a, m.
  assert (Hz : forall k, (k < length lv)%nat -> (k < a \/ a + m <= k)%nat -> nth k v 0 == 0).
  { intros k Hk [K|K]; [apply A2; auto|]. destruct (Nat.lt_ge_cases k a); [apply A2; auto|].
    specialize (B2 (length v - 1 - k)%nat ltac:(unfold m in K; lia)). rewrite Hnr in B2 by lia.
    replace (length v - 1 - (length v - 1 - k))%nat with k in B2 by lia. exact B2. }
  assert (Lf : length (firstn m (skipn a v)) = m) by (rewrite firstn_length, skipn_length; unfold m; lia).
  split; [unfold m; lia|]. split; [reflexivity|]. split; [exact Lf|]. split; [|split].
  - intros k Hk. rewrite nth_firstn by auto. rewrite nth_skipn. apply R8. unfold m in Hk. lia.
  - intros k Hk K. specialize (R8 k Hk). specialize (Hz k Hk K).
    rewrite <- Qabs_opp. assert (EQ : - nth k vols 0 == nth k v 0 - nth k vols 0) by (rewrite Hz; ring). rewrite EQ. exact R8.
  - intro Hm. rewrite !nth_firstn by lia. rewrite !nth_skipn. rewrite Nat.add_0_r. split.
    + apply A3. unfold m in Hm. lia.
    + specialize (B3 ltac:(unfold m in Hm; lia)). rewrite Hnr in B3 by (unfold m in Hm; lia).
      replace (length v - 1 - b)%nat with (a + (m - 1))%nat in B3 by (unfold m in *; lia). exact B3.
Qed.
Example C97_example : exists lv' vols', trim_trailing_zeros [5; 6; 7; 8; 9]%Z [0; 1; 0; 2; 1 # 1000000000] = (lv', vols') /\
  lv' = [6; 7; 8]%Z /\ map Qred vols' = [1; 0; 2].
Proof. eexists. eexists. split; [reflexivity|]. vm_compute. auto. Qed.

Print Assumptions C51_vpin.
Print Assumptions C51_range.
Print Assumptions C54_buckets.
Print Assumptions C55_range_refuted.
Print Assumptions C55_overshoot.
Print Assumptions C56_value_area.
Print Assumptions C56_greedy.
Print Assumptions C57_every_bar_refuted.
Print Assumptions C57_late_start.
Print Assumptions C57_from_first_partial.
Print Assumptions C93_aggregate.
Print Assumptions C94_rolling.
Print Assumptions C94_prices.
Print Assumptions C95_share.
Print Assumptions C96_flow_acceleration.
Print Assumptions C97_trim.
