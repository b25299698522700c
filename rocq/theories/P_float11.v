(** P_float11.v -- proofs about VPIN, flow acceleration, z-score and EWMA with float rounding. *)
From Coq Require Import Qround Qpower Qfield.
From Verif Require Import Base M_logic M_bars M_footprint M_features M_volume M_float M_float2 S_logic S_features S_volume S_float.
From Verif Require Import P_weights P_features P_features2 P_logic P_volume3 P_float P_float2 P_float9 P_float10.
Open Scope Q_scope.

Lemma r53_pos x : 0 < x -> 0 < r53 x.
Proof.
  intro H. pose proof (r53_err x) as R. rewrite (Qabs_pos x) in R by lra. apply Qabs_Qle_condition in R.
  assert (U : u53 < 1) by (vm_compute; reflexivity). nra.
Qed.
Lemma r24_pos x : 0 < x -> 0 < r24 x.
Proof.
  intro H. pose proof (r24_err x) as R. rewrite (Qabs_pos x) in R by lra. apply Qabs_Qle_condition in R.
  assert (U : u24 < 1) by (vm_compute; reflexivity). nra.
Qed.
Lemma r53_zero x : r53 x == 0 <-> x == 0.
Proof.
  split; intro H; [|unfold r53; now rewrite (rnd_0 53 x H)]. destruct (Q_dec x 0) as [[L|G]|E]; [|pose proof (r53_pos x G); lra|auto].
  exfalso. pose proof (r53_pos (- x) ltac:(lra)) as P. unfold r53 in *. rewrite rnd_opp in P. lra.
Qed.

(* ---------------------------------------------------------------- VPIN *)
Lemma vp_val_nonneg b s l t : (forall x, In (Some x) l -> 0 <= x) -> 0 <= vp_val b s l t.
Proof.
  intro H. unfold vp_val. destruct (vp_nan b s t); [lra|]. destruct (nth t l None) eqn:E; [|lra]. apply H. rewrite <- E.
  destruct (Nat.lt_ge_cases t (length l)); [apply nth_In; auto|rewrite nth_overflow in E by auto; discriminate].
Qed.
Lemma vpin_f_nonneg b s n i a : (forall x, In (Some x) b -> 0 <= x) -> (forall x, In (Some x) s -> 0 <= x) ->
  (i < length b)%nat -> nth i (vpin_f b s n) None = Some a -> 0 <= a.
Proof.
  intros Hb Hs Hi. unfold vpin_f. rewrite nth_map_seq by auto. cbv zeta. destruct (_ && _)%bool; [|discriminate].
  destruct (Qltb_spec (r53 (1 # 1000000000)) (r53 (r53 (prefix_f (vp_val b s b) (i + 1) - prefix_f (vp_val b s b) (i + 1 - n)) +
     r53 (prefix_f (vp_val b s s) (i + 1) - prefix_f (vp_val b s s) (i + 1 - n))))) as [T|]; [|discriminate].
  intro E. injection E as <-. apply r24_nonneg, r53_nonneg. apply Qle_shift_div_l.
  - eapply Qle_lt_trans; [|exact T]. apply r53_nonneg. discriminate.
  - rewrite Qmult_0_l. apply r53_nonneg. pose proof (prefix_f_mono (vp_abs_f b s) (i + 1 - n) (i + 1)) as M.
    assert (forall j, 0 <= vp_abs_f b s j) by (intro; apply Qabs_nonneg). specialize (M H ltac:(lia)). lra.
Qed.
Lemma vp_diff_near m xf x X k j : (j <= k)%nat -> (forall t, 0 <= X t) -> (forall t, near m (xf t) (x t) (X t)) ->
  near (m + k + 1) (r53 (prefix_f xf k - prefix_f xf j)) (prefix x k - prefix x j) (2 * prefix X k).
Proof.
  intros L P H. replace (m + k + 1)%nat with (S (m + k)) by lia. apply near_rnd.
  pose proof (prefix_mono X j k ltac:(auto) L).
  apply (near_le (m + k) _ _ _ (prefix X k + prefix X j)); [lia|lra|]. apply near_minus; [now apply prefix_f_near|].
  eapply near_le; [|apply Qle_refl|apply (prefix_f_near m); auto]. lia.
Qed.
Lemma prefix_plus f h k : prefix (fun t => f t + h t) k == prefix f k + prefix h k.
Proof. induction k as [|k IH]; cbn [prefix]; [reflexivity|]. rewrite IH. ring. Qed.
Lemma vpin_f_near b s n i a : (forall x, In (Some x) b -> 0 <= x) -> (forall x, In (Some x) s -> 0 <= x) ->
  (1 <= n)%nat -> (i < length b)%nat -> nth i (vpin_f b s n) None = Some a ->
  let V t := vp_val b s b t + vp_val b s s t in
  (n <= i + 1)%nat /\ (forall t, (i < t + n)%nat -> (t <= i)%nat -> vp_nan b s t = false) /\
  exists imb tot, a = r24 (r53 (imb / tot)) /\ r53 (1 # 1000000000) < tot /\
    near (i + 3) imb (last_sum (vp_abs b s) i n) (2 * prefix V (i + 1)) /\
    near (i + 3) tot (last_sum V i n) (2 * prefix V (i + 1)).
Proof.
  intros Hb Hs Hn Hi. unfold vpin_f. rewrite nth_map_seq by auto. cbv zeta.
  destruct (Nat.leb_spec n (i + 1)) as [K|K]; cbn [andb]; [|discriminate].
  pose proof (nan_count_zero b s (i + 1 - n) (i + 1) ltac:(lia)) as NC.
  destruct (Z.eqb_spec (nan_count b s (i + 1) - nan_count b s (i + 1 - n)) 0) as [E|E]; [|discriminate].
  set (imb := r53 (prefix_f (vp_abs_f b s) (i + 1) - prefix_f (vp_abs_f b s) (i + 1 - n))).
  set (tot := r53 (r53 (prefix_f (vp_val b s b) (i + 1) - prefix_f (vp_val b s b) (i + 1 - n)) +
     r53 (prefix_f (vp_val b s s) (i + 1) - prefix_f (vp_val b s s) (i + 1 - n)))).
  destruct (Qltb_spec (r53 (1 # 1000000000)) tot) as [T|]; [|discriminate]. intro Q. injection Q as <-.
  split; [auto|]. split; [intros t H1 H2; apply (proj1 NC E); lia|]. exists imb, tot. split; [reflexivity|]. split; [auto|].
  pose proof (fun t => vp_val_nonneg b s b t Hb) as Pb. pose proof (fun t => vp_val_nonneg b s s t Hs) as Ps. split.
  - eapply near_comp; [reflexivity|now apply prefix_window|reflexivity|].
    replace (i + 3)%nat with (1 + (i + 1) + 1)%nat by lia. apply vp_diff_near; [lia|intro t; specialize (Pb t); specialize (Ps t); lra|].
    intro t. apply near_abs. apply near_r53. specialize (Pb t). specialize (Ps t). apply Qabs_Qle_condition. lra.
  - eapply near_comp; [reflexivity|now apply prefix_window|reflexivity|]. replace (i + 3)%nat with (S (0 + (i + 1) + 1)) by lia. apply near_rnd.
    assert (KB := vp_diff_near 0 (vp_val b s b) (vp_val b s b) (vp_val b s b) (i + 1) (i + 1 - n) ltac:(lia) Pb
      ltac:(intro t; apply near_exact; rewrite Qabs_pos; [lra|apply Pb])).
    assert (KS := vp_diff_near 0 (vp_val b s s) (vp_val b s s) (vp_val b s s) (i + 1) (i + 1 - n) ltac:(lia) Ps
      ltac:(intro t; apply near_exact; rewrite Qabs_pos; [lra|apply Ps])).
    eapply near_comp; [reflexivity| | |exact (near_plus _ _ _ _ _ _ _ KB KS)]; rewrite !prefix_plus; ring.
Qed.

Lemma vpin_f_grid b s n i g : (-29 <= g)%Z -> (1 <= n)%nat -> (i < length b)%nat ->
  (forall x, In (Some x) b -> 0 <= x /\ grid g x) -> (forall x, In (Some x) s -> 0 <= x /\ grid g x) ->
  prefix (fun t => vp_val b s b t + vp_val b s s t) (i + 1) <= two (53 + g) ->
  match nth i (vpin_f b s n) None, nth i (vpin b s n) None with
  | Some a, Some x => a = r24 (r53 x)
  | None, None => True
  | _, _ => False
  end.
Proof.
  intros Hg Hn Hi Hb Hs B. unfold vpin_f, vpin. rewrite !nth_map_seq by auto. cbv zeta.
  destruct (Nat.leb_spec n (i + 1)) as [K|K]; cbn [andb]; [|exact I].
  destruct (Z.eqb_spec (nan_count b s (i + 1) - nan_count b s (i + 1 - n)) 0) as [E|E]; [|exact I].
  assert (Vg : forall l t, (forall x, In (Some x) l -> 0 <= x /\ grid g x) -> 0 <= vp_val b s l t /\ grid g (vp_val b s l t)).
  { intros l t H. split; [apply vp_val_nonneg; intros; now apply H|]. unfold vp_val. destruct (vp_nan b s t); [apply grid_0|].
    destruct (nth t l None) eqn:F; [|apply grid_0]. apply H. rewrite <- F.
    destruct (Nat.lt_ge_cases t (length l)); [apply nth_In; auto|rewrite nth_overflow in F by auto; discriminate]. }
  pose proof (fun t => Vg b t Hb) as Pb. pose proof (fun t => Vg s t Hs) as Ps.
  rewrite prefix_plus in B.
  assert (N0 : forall f k, (forall t, 0 <= f t) -> 0 <= prefix f k) by (intros f k H; apply (prefix_mono f 0 k); [auto|lia]).
  pose proof (N0 (vp_val b s b) (i + 1)%nat ltac:(intro; apply Pb)) as Nb. pose proof (N0 (vp_val b s s) (i + 1)%nat ltac:(intro; apply Ps)) as Ns.
  assert (Gen : forall xf f k, (k <= i + 1)%nat -> (forall t, 0 <= f t /\ grid g (f t)) -> (forall t, (t < i + 1)%nat -> xf t == f t) ->
     prefix f (i + 1) <= two (53 + g) -> prefix_f xf k == prefix f k).
  { intros xf f k Lk H H' Bf. apply (prefix_f_grid g).
    - intros j Hj. destruct (H j). split; [auto|split; [auto|apply H'; lia]].
    - eapply Qle_trans; [|exact Bf]. apply prefix_mono; [intros; apply H|lia]. }
  assert (Gd : forall xf f, (forall t, 0 <= f t /\ grid g (f t)) -> (forall t, (t < i + 1)%nat -> xf t == f t) -> prefix f (i + 1) <= two (53 + g) ->
     r53 (prefix_f xf (i + 1) - prefix_f xf (i + 1 - n)) == prefix f (i + 1) - prefix f (i + 1 - n)).
  { intros xf f H H' Bf. rewrite (r53_eq _ (prefix f (i + 1) - prefix f (i + 1 - n))).
    2:{ rewrite !(Gen xf f) by (auto; lia). reflexivity. }
    apply (r53_grid g); [apply grid_minus; apply prefix_grid; intros; apply H|].
    pose proof (prefix_mono f (i + 1 - n) (i + 1) ltac:(intros; apply H) ltac:(lia)).
    pose proof (N0 f (i + 1 - n)%nat ltac:(intro; apply H)). rewrite Qabs_pos; lra. }
  assert (Db := Gd (vp_val b s b) (vp_val b s b) Pb ltac:(reflexivity) ltac:(lra)).
  assert (Ds := Gd (vp_val b s s) (vp_val b s s) Ps ltac:(reflexivity) ltac:(lra)).
  assert (Ab : forall t, vp_abs b s t <= vp_val b s b t + vp_val b s s t).
  { intro t. unfold vp_abs. destruct (Pb t), (Ps t). apply Qabs_Qle_condition. lra. }
  assert (Aq : prefix (vp_abs b s) (i + 1) <= two (53 + g)).
  { eapply Qle_trans; [|exact B]. rewrite <- prefix_plus. clear - Ab. induction (i + 1)%nat as [|k IH]; cbn [prefix]; [lra|].
    pose proof (Ab k). lra. }
  assert (Pa : forall t, 0 <= vp_abs b s t /\ grid g (vp_abs b s t)).
  { intro t. split; [apply Qabs_nonneg|]. unfold vp_abs. destruct (Pb t) as [P1 G1], (Ps t) as [P2 G2].
    destruct (Qlt_le_dec (vp_val b s b t) (vp_val b s s t)).
    - eapply grid_comp; [symmetry; apply Qabs_neg; lra|]. apply grid_opp. now apply grid_minus.
    - eapply grid_comp; [symmetry; apply Qabs_pos; lra|]. now apply grid_minus. }
  assert (Ea : forall t, (t < i + 1)%nat -> vp_abs_f b s t == vp_abs b s t).
  { intros t Ht. unfold vp_abs_f, vp_abs. apply Qabs_wd. destruct (Pb t) as [P1 G1], (Ps t) as [P2 G2].
    apply (r53_grid g); [now apply grid_minus|]. change (vp_abs b s t <= two (53 + g)).
    pose proof (prefix_mono (vp_abs b s) (S t) (i + 1) ltac:(intros; apply Pa) ltac:(lia)) as M. cbn [prefix] in M.
    pose proof (N0 (vp_abs b s) t ltac:(intro; apply Pa)). lra. }
  assert (Da := Gd (vp_abs_f b s) (vp_abs b s) Pa Ea Aq).
  set (TB := prefix (vp_val b s b) (i + 1) - prefix (vp_val b s b) (i + 1 - n)) in *.
  set (TS := prefix (vp_val b s s) (i + 1) - prefix (vp_val b s s) (i + 1 - n)) in *.
  assert (TBn : 0 <= TB <= prefix (vp_val b s b) (i + 1)).
  { unfold TB. pose proof (prefix_mono (vp_val b s b) (i + 1 - n) (i + 1) ltac:(intros; apply Pb) ltac:(lia)).
    pose proof (N0 (vp_val b s b) (i + 1 - n)%nat ltac:(intro; apply Pb)). lra. }
  assert (TSn : 0 <= TS <= prefix (vp_val b s s) (i + 1)).
  { unfold TS. pose proof (prefix_mono (vp_val b s s) (i + 1 - n) (i + 1) ltac:(intros; apply Ps) ltac:(lia)).
    pose proof (N0 (vp_val b s s) (i + 1 - n)%nat ltac:(intro; apply Ps)). lra. }
  assert (GT : grid g (TB + TS)) by (unfold TB, TS; apply grid_plus; apply grid_minus; apply prefix_grid; intros; first [apply Pb|apply Ps]).
  assert (ET : r53 (r53 (prefix_f (vp_val b s b) (i + 1) - prefix_f (vp_val b s b) (i + 1 - n)) +
     r53 (prefix_f (vp_val b s s) (i + 1) - prefix_f (vp_val b s s) (i + 1 - n))) == TB + TS).
  { rewrite (r53_eq _ (TB + TS)) by (rewrite Db, Ds; reflexivity). apply (r53_grid g); [auto|]. rewrite Qabs_pos; lra. }
  set (tf := r53 (r53 _ + r53 _)) in *.
  assert (Small : TB + TS == 0 \/ two (-29) <= TB + TS).
  { destruct GT as [k Ek]. fold (two g) in Ek. pose proof (two_pos g). destruct (Z_le_gt_dec k 0) as [Kz|Kz].
    - left. assert (inject_Z k <= 0) by (change 0 with (inject_Z 0); rewrite <- Zle_Qle; lia). nra.
    - right. pose proof (two_le (-29) g Hg). assert (1 <= inject_Z k) by (change 1 with (inject_Z 1); rewrite <- Zle_Qle; lia). nra. }
  assert (C1 : r53 (1 # 1000000000) < two (-29)) by (vm_compute; reflexivity).
  assert (C2 : (1 # 1000000000) < two (-29)) by (vm_compute; reflexivity).
  assert (C3 : 0 <= r53 (1 # 1000000000)) by (vm_compute; discriminate).
  destruct (Qltb_spec (r53 (1 # 1000000000)) tf) as [T|T], (Qltb_spec (1 # 1000000000) (TB + TS)) as [U|U]; rewrite ET in T; try lra; try exact I.
  unfold r24. rewrite (r53_eq (r53 (prefix_f (vp_abs_f b s) (i + 1) - prefix_f (vp_abs_f b s) (i + 1 - n)) / tf)
    ((prefix (vp_abs b s) (i + 1) - prefix (vp_abs b s) (i + 1 - n)) / (TB + TS))); [reflexivity|].
  rewrite Da, ET. reflexivity.
Qed.

(* ---------------------------------------------------------------- flow acceleration *)
Lemma flow_arg_pos v n r i : (forall x, In x v -> 0 <= x) -> (r <= n <= i + 1)%nat -> 0 < flow_arg_f v n r i.
Proof.
  intros H L. unfold flow_arg_f. cbv zeta. assert (P : forall j, 0 <= qn v j) by (intro; now apply nth_nonneg).
  assert (D : forall a b, (a <= b)%nat -> 0 < r53 (r53 (prefix_f (qn v) b - prefix_f (qn v) a) + r53 (1 # 1000000000000))).
  { intros a b Lab. apply r53_pos. pose proof (prefix_f_mono (qn v) a b P Lab).
    assert (0 <= r53 (prefix_f (qn v) b - prefix_f (qn v) a)) by (apply r53_nonneg; lra).
    assert (0 < r53 (1 # 1000000000000)) by (apply r53_pos; reflexivity). lra. }
  apply r53_pos. apply Qlt_shift_div_l; [apply D; lia|]. rewrite Qmult_0_l. apply D. lia.
Qed.
Definition big : Q := 9007199254740992.
Lemma prefix_big m k : (1 <= k <= S m)%nat -> prefix_f (qn (big :: repeat 1 m)) k = big.
Proof.
  intros [K1 K2]. induction k as [|k IH]; [lia|]. destruct k as [|k]; [vm_compute; reflexivity|].
  cbn [prefix_f] in *. rewrite IH by lia.
  assert (E : qn (big :: repeat 1 m) (S k) = 1) by (unfold qn; cbn [nth]; apply (repeat_spec m 1), nth_In; rewrite repeat_length; lia).
  rewrite E. vm_compute. reflexivity.
Qed.

(* ---------------------------------------------------------------- z-score *)
Lemma mean_f_near l : (1 <= length l)%nat -> near (length l + 1) (mean_f l) (qsum l / Qnat (length l)) (asum l / Qnat (length l)).
Proof.
  intro H. unfold mean_f. rewrite Nat.add_1_r. apply near_rnd. pose proof (Qnat_pos (length l) ltac:(lia)) as P.
  destruct (fsum_near l) as [A B]. assert (I : 0 < / Qnat (length l)) by now apply Qinv_lt_0_compat.
  split; unfold Qdiv.
  - rewrite Qabs_Qmult, (Qabs_pos (/ _)) by lra. apply Qmult_le_compat_r; lra.
  - setoid_replace (fsum l * / Qnat (length l) - qsum l * / Qnat (length l)) with ((fsum l - qsum l) * / Qnat (length l)) by ring.
    rewrite Qabs_Qmult, (Qabs_pos (/ _)), Qmult_assoc by lra. apply Qmult_le_compat_r; lra.
Qed.
Lemma fsum_nonneg l : (forall x, In x l -> 0 <= x) -> 0 <= fsum l.
Proof.
  induction l as [|x l IH] using rev_ind; intro H; [discriminate|]. rewrite fsum_app. apply r53_nonneg.
  pose proof (H x ltac:(apply in_or_app; right; now left)). assert (0 <= fsum l) by (apply IH; intros; apply H, in_or_app; now left). lra.
Qed.
Lemma fsum_zero l : (forall x, In x l -> 0 <= x) -> fsum l == 0 <-> forall x, In x l -> x == 0.
Proof.
  induction l as [|x l IH] using rev_ind; intro H; [split; [intros _ x []|reflexivity]|].
  assert (Hl : forall y, In y l -> 0 <= y) by (intros; apply H, in_or_app; now left).
  pose proof (H x ltac:(apply in_or_app; right; now left)). pose proof (fsum_nonneg l Hl). rewrite fsum_app, r53_zero. split.
  - intros E y Hy. assert (fsum l == 0 /\ x == 0) as [E1 E2] by (split; lra). apply in_app_or in Hy.
    destruct Hy as [Hy|[<-|[]]]; [now apply (proj1 (IH Hl))|auto].
  - intro E. rewrite (proj2 (IH Hl)) by (intros; apply E, in_or_app; now left). rewrite (E x) by (apply in_or_app; right; now left). ring.
Qed.
Lemma var_f_zero l ddof : (ddof < Z.of_nat (length l))%Z -> var_f l ddof == 0 <-> forall x, In x l -> x == mean_f l.
Proof.
  intro H. unfold var_f. cbv zeta. rewrite r53_zero.
  assert (P : 0 < inject_Z (Z.of_nat (length l) - ddof)) by (rewrite <- (Zlt_Qlt 0); lia).
  set (D := map _ l).
  assert (DN : forall y, In y D -> 0 <= y).
  { intros y Hy. apply in_map_iff in Hy. destruct Hy as (x & <- & _). cbv zeta. apply r53_nonneg.
    destruct (Qlt_le_dec (r53 (x - mean_f l)) 0); nra. }
  assert (E1 : fsum D / inject_Z (Z.of_nat (length l) - ddof) == 0 <-> fsum D == 0).
  { split; intro E.
    - setoid_replace (fsum D) with (fsum D / inject_Z (Z.of_nat (length l) - ddof) * inject_Z (Z.of_nat (length l) - ddof)) by (field; lra). rewrite E. ring.
    - rewrite E. field. lra. }
  rewrite E1, (fsum_zero D DN). split.
  - intros E x Hx. assert (Z0 : r53 (r53 (x - mean_f l) * r53 (x - mean_f l)) == 0) by (apply E; unfold D; apply in_map_iff; exists x; auto).
    rewrite r53_zero in Z0. assert (Z1 : r53 (x - mean_f l) == 0) by (destruct (Qmult_integral _ _ Z0); auto).
    rewrite r53_zero in Z1. lra.
  - intros E y Hy. apply in_map_iff in Hy. destruct Hy as (x & <- & Hx). cbv zeta. rewrite r53_zero.
    assert (Z1 : r53 (x - mean_f l) == 0) by (rewrite r53_zero, (E x Hx); ring). rewrite Z1. ring.
Qed.
Lemma zscore_f_nth sqrt xs n ddof i : (1 <= n)%nat -> (i < length xs)%nat ->
  nth i (comp_zscore_f sqrt xs n ddof) None =
    let w := window (at_ xs) i n in
    if (i + 1 <? n)%nat then None else if Qeqb (sqrt (var_f w ddof)) 0 then None
    else Some (r53 (r53 (at_ xs i - mean_f w) / sqrt (var_f w ddof))).
Proof.
  intros Hn Hi. unfold comp_zscore_f. rewrite nth_map_seq by auto. destruct (Nat.ltb_spec (i + 1) n); [reflexivity|].
  rewrite lastn_window by lia. reflexivity.
Qed.
Lemma qsum_const c l : (forall x, In x l -> x == c) -> qsum l == Qnat (length l) * c.
Proof.
  induction l as [|x l IH]; intro H; [unfold Qnat; cbn [qsum fold_right length]; change (inject_Z (Z.of_nat 0)) with 0; ring|].
  rewrite qsum_cons. cbn [length]. rewrite Qnat_S, IH by (intros; apply H; now right). rewrite (H x) by now left. ring.
Qed.
Lemma mean_f_const g c l : (1 <= length l)%nat -> (forall x, In x l -> x == c) -> grid g c -> Qnat (length l) * Qabs c <= two (53 + g) ->
  mean_f l == c.
Proof.
  intros Hl H G B. pose proof (Qnat_pos (length l) ltac:(lia)) as P. unfold mean_f.
  assert (A : asum l == Qnat (length l) * Qabs c).
  { unfold asum. rewrite (qsum_map_ext Qabs (fun _ => Qabs c)) by (intros x Hx; rewrite (H x Hx); reflexivity).
    rewrite qsum_map_const. unfold Qnat. ring. }
  assert (F : fsum l == Qnat (length l) * c).
  { rewrite (fsum_grid g).
    - now apply qsum_const.
    - intros x Hx. eapply grid_comp; [symmetry; now apply H|exact G].
    - rewrite A. exact B. }
  rewrite (r53_eq _ c) by (rewrite F; field; lra). apply (r53_grid g); [auto|].
  eapply Qle_trans; [|exact B]. pose proof (Qabs_nonneg c).
  assert (1 <= Qnat (length l)) by (unfold Qnat; change 1 with (inject_Z 1); rewrite <- Zle_Qle; lia). nra.
Qed.

(* ---------------------------------------------------------------- EWMA *)
Lemma beta_f_bounds span : (1 <= span)%Z -> 0 <= ewma_beta_f span <= 1.
Proof.
  intro H. unfold ewma_beta_f.
  assert (S2 : 2 <= inject_Z span + 1) by (assert (1 <= inject_Z span) by (change 1 with (inject_Z 1); rewrite <- Zle_Qle; lia); lra).
  assert (F2 : 2 <= r53 (inject_Z span + 1)) by (apply rnd_ge; [lia|apply (fl_comp 53 (two 1)); [reflexivity|apply two_fl; lia]|auto]).
  assert (F1 : fl 53 1) by (apply (fl_comp 53 (two 0)); [reflexivity|apply two_fl; lia]).
  assert (A : 0 <= r53 (2 / r53 (inject_Z span + 1)) <= 1).
  { split; [apply r53_nonneg, Qle_shift_div_l; lra|]. apply rnd_le; [lia|auto|]. apply Qle_shift_div_r; lra. }
  split; [apply r53_nonneg; lra|]. apply rnd_le; [lia|auto|lra].
Qed.
Lemma beta_f_err span : (1 <= span < 2 ^ 53)%Z -> Qabs (ewma_beta_f span - (1 - 2 / (inject_Z span + 1))) <= 2 * u53.
Proof.
  intro H. unfold ewma_beta_f.
  assert (S2 : 2 <= inject_Z span + 1) by (assert (1 <= inject_Z span) by (change 1 with (inject_Z 1); rewrite <- Zle_Qle; lia); lra).
  assert (E : r53 (inject_Z span + 1) == inject_Z span + 1).
  { apply rnd_exact; [lia|]. apply (fl_comp 53 (inject_Z (span + 1) * two 0)); [rewrite inject_Z_plus, two_0; ring|].
    apply fl_le; [lia|]. rewrite Z.abs_eq; lia. }
  rewrite (r53_eq (2 / r53 (inject_Z span + 1)) (2 / (inject_Z span + 1))) by (rewrite E; reflexivity).
  set (q := 2 / (inject_Z span + 1)). assert (Q1 : 0 <= q <= 1) by (unfold q; split; [apply Qle_shift_div_l; lra|apply Qle_shift_div_r; lra]).
  pose proof (r53_err q) as R1. rewrite (Qabs_pos q) in R1 by lra.
  assert (F1 : fl 53 1) by (apply (fl_comp 53 (two 0)); [reflexivity|apply two_fl; lia]).
  assert (A : 0 <= r53 q <= 1) by (split; [apply r53_nonneg; lra|apply rnd_le; [lia|auto|lra]]).
  pose proof (r53_err (1 - r53 q)) as R2. rewrite (Qabs_pos (1 - r53 q)) in R2 by lra.
  apply Qabs_Qle_condition in R1, R2. apply Qabs_Qle_condition. pose proof u53_bounds.
  assert (q * u53 <= u53) by nra. assert ((1 - r53 q) * u53 <= u53) by nra. lra.
Qed.
Lemma within_step b m u U y : 0 <= b -> 0 <= U -> 0 <= y -> within u53 m u U -> within u53 (S (S m)) (r53 (y + r53 (b * u))) (y + b * U).
Proof.
  intros Hb HU Hy W. pose proof (within_nonneg u53 u53_bounds m u U W HU) as Hu.
  assert (W1 : within u53 m (b * u) (b * U)).
  { destruct W as [A B]. unfold within. split; [apply (Qle_trans _ (b * ((1 - u53) ^ Z.of_nat m * U))); [lra|rewrite !(Qmult_comm b); apply Qmult_le_compat_r; auto]|].
    apply (Qle_trans _ (b * ((1 + u53) ^ Z.of_nat m * U))); [rewrite !(Qmult_comm b); apply Qmult_le_compat_r; auto|lra]. }
  assert (0 <= b * U) by nra.
  apply (within_rnd u53 u53_bounds (S m) (y + r53 (b * u)) (y + b * U)); [|lra|apply r53_err].
  apply within_plus; [apply within_self; [exact u53_bounds|auto]|].
  apply (within_rnd u53 u53_bounds m (b * u) (b * U)); [exact W1|auto|apply r53_err].
Qed.

Lemma geox_nonneg q x i : 0 <= q -> (forall j, (j <= i)%nat -> 0 <= x j) -> 0 <= geox q x i.
Proof.
  intros Hq. induction i as [|i IH]; intro H; [rewrite geox0; apply H; lia|]. rewrite geox_S.
  pose proof (H (S i) ltac:(lia)). assert (0 <= geox q x i) by (apply IH; intros; apply H; lia). nra.
Qed.
Lemma ewma_loop_f_within b x ys : 0 <= b -> forall i0 u v,
  (forall j, (j <= i0 + length ys)%nat -> 0 <= x j) ->
  (forall k, (k < length ys)%nat -> nth k ys 0 = x (S i0 + k)%nat) ->
  within u53 (2 * i0) u (geox b x i0) -> within u53 (2 * i0) v (geo b i0) ->
  forall k, (k < length ys)%nat -> exists u' v', nth k (ewma_loop_f b u v ys) 0 = r53 (u' / v') /\
    within u53 (2 * (S i0 + k)) u' (geox b x (S i0 + k)) /\ within u53 (2 * (S i0 + k)) v' (geo b (S i0 + k)).
Proof.
  intro Hb. induction ys as [|y ys IH]; intros i0 u v Hx Hy Wu Wv k Hk; [cbn [length] in Hk; lia|].
  cbn [length] in *. cbn [ewma_loop_f]. cbv zeta.
  pose proof (Hy 0%nat ltac:(lia)) as E0. cbn [nth] in E0. rewrite Nat.add_0_r in E0.
  assert (Wu' : within u53 (2 * S i0) (r53 (y + r53 (b * u))) (geox b x (S i0))).
  { replace (2 * S i0)%nat with (S (S (2 * i0))) by lia. eapply within_comp; [reflexivity|symmetry; apply geox_S|]. rewrite <- E0.
    apply within_step; [auto|apply geox_nonneg; [auto|intros; apply Hx; lia]|rewrite E0; apply Hx; lia|auto]. }
  assert (Wv' : within u53 (2 * S i0) (r53 (1 + r53 (b * v))) (geo b (S i0))).
  { replace (2 * S i0)%nat with (S (S (2 * i0))) by lia.
    eapply within_comp; [reflexivity| |apply within_step; [exact Hb| |discriminate|exact Wv]].
    - rewrite !geo_geox, geox_S. reflexivity.
    - rewrite geo_geox. apply geox_nonneg; [auto|discriminate]. }
  destruct k as [|k].
  - exists (r53 (y + r53 (b * u))), (r53 (1 + r53 (b * v))). rewrite Nat.add_0_r. split; [reflexivity|]. split; auto.
  - cbn [nth]. replace (S i0 + S k)%nat with (S (S i0) + k)%nat by lia.
    apply (IH (S i0)); [intros; apply Hx; lia| |exact Wu'|exact Wv'|lia].
    intros j Hj. specialize (Hy (S j) ltac:(lia)). cbn [nth] in Hy. rewrite Hy. f_equal. lia.
Qed.
Lemma ewma_f_within ys span out i : ewma_f ys span = Ok out -> (forall x, In x ys -> 0 <= x) -> (i < length ys)%nat ->
  let b := ewma_beta_f span in let m := geox b (at_ ys) i / geo b i in
  (1 - u53) ^ Z.of_nat (2 * i + 1) * m <= nth i out 0 * (1 + u53) ^ Z.of_nat (2 * i) /\
  nth i out 0 * (1 - u53) ^ Z.of_nat (2 * i) <= (1 + u53) ^ Z.of_nat (2 * i + 1) * m.
Proof.
  intros E Hp Hi b m. unfold ewma_f in E. destruct (Z.ltb_spec span 1) as [|Hs]; [discriminate|].
  destruct ys as [|y ys]; [cbn [length] in Hi; lia|]. injection E as <-. fold b.
  assert (Hb : 0 <= b) by (apply beta_f_bounds; auto). assert (Hx : forall j, 0 <= at_ (y :: ys) j) by (intro; now apply nth_nonneg).
  pose proof u53_bounds as U.
  destruct i as [|i].
  - cbn [nth]. assert (Em : m == y) by (unfold m; rewrite geox0, geo0; unfold at_; cbn [nth]; field). rewrite Em.
    assert (0 <= y) by (apply (Hx 0%nat)). change ((1 + u53) ^ Z.of_nat (2 * 0)) with 1. change ((1 - u53) ^ Z.of_nat (2 * 0)) with 1.
    change (2 * 0 + 1)%nat with 1%nat. rewrite !pow_S. change ((1 - u53) ^ Z.of_nat 0) with 1. change ((1 + u53) ^ Z.of_nat 0) with 1. split; nra.
  - cbn [length] in Hi.
    destruct (ewma_loop_f_within b (at_ (y :: ys)) ys Hb 0%nat y 1) with (k := i) as (u & v & E & Wu & Wv).
    + intros; apply Hx.
    + reflexivity.
    + eapply within_comp; [reflexivity|symmetry; apply geox0|]. apply within_self; [exact U|apply (Hx 0%nat)].
    + eapply within_comp; [reflexivity|symmetry; apply geo0|]. apply within_self; [exact U|discriminate].
    + lia.
    + cbn [nth]. rewrite E. change (1 + i)%nat with (S i) in *. set (k := (2 * S i)%nat) in *.
      assert (GU : 0 <= geox b (at_ (y :: ys)) (S i)) by (apply geox_nonneg; auto).
      pose proof (geo_pos b (S i) Hb) as GV. destruct Wu as [U1 U2], Wv as [V1 V2].
      set (P := (1 - u53) ^ Z.of_nat k) in *. set (R := (1 + u53) ^ Z.of_nat k) in *.
      assert (HP : 0 < P) by (apply pow_pos; assert (u53 < 1) by (vm_compute; reflexivity); lra).
      assert (HR : 1 <= R) by (apply pow_ge1; lra).
      assert (Hv : 0 < v) by nra. assert (Hu : 0 <= u) by nra.
      rewrite Nat.add_1_r, !pow_S. fold P R.
      pose proof (r53_err (u / v)) as Er. assert (Q0 : 0 <= u / v) by (apply Qle_shift_div_l; lra). rewrite (Qabs_pos (u / v)) in Er by auto.
      apply Qabs_Qle_condition in Er. set (r := r53 (u / v)) in *. clearbody r.
      assert (Hq : u / v * v == u) by (field; lra). set (q := u / v) in *. clearbody q.
      assert (Hm : m * geo b (S i) == geox b (at_ (y :: ys)) (S i)) by (unfold m; field; lra).
      assert (M0 : 0 <= m) by (unfold m; apply Qle_shift_div_l; lra). clearbody m P R.
      set (G := geo b (S i)) in *. set (GX := geox b (at_ (y :: ys)) (S i)) in *. clearbody G GX.
      assert (L1 : P * m <= q * R).
      { assert (P * m * G <= q * R * G) by (rewrite <- Qmult_assoc, Hm; assert (q * v <= q * (R * G)) by nra; lra).
        apply (Qmult_le_r _ _ G); [lra|exact H]. }
      assert (L2 : q * P <= R * m).
      { assert (q * P * G <= R * m * G) by (rewrite <- (Qmult_assoc R m G), Hm; assert (q * (P * G) <= q * v) by nra; lra).
        apply (Qmult_le_r _ _ G); [lra|exact H]. }
      assert ((1 - u53) * q <= r) by lra. assert (r <= (1 + u53) * q) by lra. split.
      * apply (Qle_trans _ ((1 - u53) * (q * R))); [rewrite <- Qmult_assoc; nra|nra].
      * apply (Qle_trans _ ((1 + u53) * (q * P))); [nra|rewrite <- Qmult_assoc; nra].
Qed.

(** Powers of two. *)
Lemma ewma_two_loop b e n : 0 <= b -> forall u v, 1 <= v -> u == v * two e -> Forall (fun o => o == two e) (ewma_loop_f b u v (repeat (two e) n)).
Proof.
  intro Hb. assert (F1 : fl 53 1) by (apply (fl_comp 53 (two 0)); [reflexivity|apply two_fl; lia]).
  induction n as [|n IH]; intros u v Hv E; [constructor|]. cbn [repeat ewma_loop_f]. cbv zeta.
  assert (SC : forall x y, x == y * two e -> r53 x == r53 y * two e).
  { intros x y H. rewrite (r53_eq x (y * two e) H). apply rnd_two. }
  assert (E1 : r53 (two e + r53 (b * u)) == r53 (1 + r53 (b * v)) * two e).
  { apply SC. rewrite (SC (b * u) (b * v)) by (rewrite E; ring). ring. }
  assert (V' : 1 <= r53 (1 + r53 (b * v))).
  { apply rnd_ge; [lia|auto|]. assert (0 <= r53 (b * v)) by (apply r53_nonneg; nra). lra. }
  constructor; [|now apply IH].
  rewrite (r53_eq _ (two e)) by (rewrite E1; field; lra). apply rnd_exact; [lia|apply two_fl; lia].
Qed.

(** A window that has long left the large trade behind. *)
Definition big_close (m : nat) : list Q := 1 :: repeat 3 (S (S m)).
Definition big_volume (m : nat) : list Q := big :: repeat 1 (S (S m)).
Lemma nth_rep (c : Q) k n : (k < n)%nat -> nth k (repeat c n) 0 = c.
Proof. intro H. apply (repeat_spec n c), nth_In. rewrite repeat_length. lia. Qed.
Lemma big_state ln m k : (k <= m)%nat -> fst (vwap_state_f ln (big_close m) (big_volume m) 2 false (S k)) = (7, 1).
Proof.
  induction k as [|k IH]; intro H; [vm_compute; reflexivity|].
  specialize (IH ltac:(lia)). set (st := vwap_state_f ln (big_close m) (big_volume m) 2 false (S k)) in *.
  change (vwap_state_f ln (big_close m) (big_volume m) 2 false (S (S k))) with
    (let i := (2 + S k)%nat in
     let w := r53 (fst (fst st) + r53 (r53 (qn (big_close m) i * qn (big_volume m) i) - r53 (qn (big_close m) (i - 2) * qn (big_volume m) (i - 2)))) in
     let v := r53 (snd (fst st) + r53 (qn (big_volume m) i - qn (big_volume m) (i - 2))) in
     ((w, v), if Qltb 0 v then vwap_dist_f ln false (qn (big_close m) i) w v else snd st)).
  cbv zeta. cbn [fst]. rewrite IH. cbn [fst snd]. replace (2 + S k - 2)%nat with (S k) by lia.
  assert (C : forall j, (j < S (S m))%nat -> qn (big_close m) (S j) = 3 /\ qn (big_volume m) (S j) = 1).
  { intros j Hj. unfold qn, big_close, big_volume. split; cbn [nth]; now apply nth_rep. }
  change (2 + S k)%nat with (S (S (S k))). destruct (C (S (S k)) ltac:(lia)) as [-> ->], (C k ltac:(lia)) as [-> ->].
  vm_compute. reflexivity.
Qed.
