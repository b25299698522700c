(** T_backend2.v -- transforms with a pandas implementation only: z-score and kurtosis (C133-C134). *)
From Verif Require Import Base M_logic M_features S_features P_weights P_features P_features2 T_features T_features2
  M_transforms S_transforms M_backend S_backend P_backend T_backend.
Open Scope Q_scope.

(* ------------------------------------------------------------------ *)
(** ** C133: MeanReversionZScore *)

Lemma sq_nonneg (a : Q) : 0 <= a * a.
Proof. destruct (Qlt_le_dec a 0); nra. Qed.
Lemma sq_zero (a : Q) : a * a == 0 -> a == 0.
Proof. intro H. apply Qmult_integral in H. tauto. Qed.
(** Sum of the deviations from the mean. *)
Lemma dev_sum (l : list Q) : l <> [] -> qsum (map (fun y => y - mean l) l) == 0.
Proof.
  intro Hl. assert (P : 0 < Qnat (length l)) by (apply Qnat_pos; destruct l; [congruence|cbn; lia]).
  transitivity (qsum (map (fun y => y) l) + qsum (map (fun _ => - mean l) l)).
  { rewrite <- qsum_map_plus. apply qsum_map_ext. intros; ring. }
  rewrite map_id, qsum_map_const. fold (Qnat (length l)). unfold mean. field. lra.
Qed.
Lemma dev2_nonneg l : 0 <= dev2 l.
Proof. apply qsum_nonneg. intros y Hy. apply in_map_iff in Hy. destruct Hy as [x [<- _]]. apply sq_nonneg. Qed.
Lemma dev2_zero l x : dev2 l == 0 -> In x l -> x == mean l.
Proof.
  intros H Hx. assert (E : (x - mean l) * (x - mean l) == 0).
  { apply (qsum_zero_all (map (fun y => (y - mean l) * (y - mean l)) l)); [|unfold dev2 in H; lra|].
    - intros y Hy. apply in_map_iff in Hy. destruct Hy as [z [<- _]]. apply sq_nonneg.
    - apply in_map_iff. now exists x. }
  apply sq_zero in E. lra.
Qed.
Lemma dev2_same l a : (forall x, In x l -> x == a) -> l <> [] -> dev2 l == 0.
Proof.
  intros H Hl. assert (P : 0 < Qnat (length l)) by (apply Qnat_pos; destruct l; [congruence|cbn; lia]).
  assert (M : mean l == a).
  { unfold mean. assert (S : qsum l == a * Qnat (length l)).
    { rewrite <- (map_id l) at 1. rewrite (qsum_map_ext _ (fun _ => a)) by (intros; now apply H). rewrite qsum_map_const. fold (Qnat (length l)). ring. }
    rewrite S. field. lra. }
  unfold dev2. rewrite (qsum_map_ext _ (fun _ => 0)).
  - rewrite qsum_map_const. ring.
  - intros x Hx. rewrite M, (H x Hx). ring.
Qed.
(** A single deviation is at most (n-1)/n of the total: the others balance it. *)
Lemma one_dev l x : In x l -> Qnat (length l) * ((x - mean l) * (x - mean l)) <= (Qnat (length l) - 1) * dev2 l.
Proof.
  intro Hx. assert (Hl : l <> []) by (intro E; rewrite E in Hx; destruct Hx).
  pose proof (dev_sum l Hl) as D. unfold dev2. set (m := mean l) in *. clearbody m. apply in_split in Hx. destruct Hx as [l1 [l2 ->]].
  assert (PM : Permutation.Permutation (l1 ++ x :: l2) (x :: l1 ++ l2)) by (symmetry; apply Permutation.Permutation_middle).
  rewrite (qsum_perm _ _ (Permutation.Permutation_map _ PM)) in D. rewrite (qsum_perm _ _ (Permutation.Permutation_map (fun y => (y - m) * (y - m)) PM)).
  rewrite (Permutation.Permutation_length PM). cbn [map length] in *. rewrite qsum_cons in D |- *. rewrite Qnat_S. set (o := l1 ++ l2) in *.
  pose proof (sum_sq_cs (map (fun y => (y - m, 1)) o)) as H. cbv zeta in H. rewrite !map_map in H. cbn [fst snd] in H. destruct H as [H1 [H2 H3]].
  rewrite qsum_map_const in H3. fold (Qnat (length o)) in H3.
  assert (E : qsum (map (fun y => (y - m) * 1) o) == qsum (map (fun y => y - m) o)) by (apply qsum_map_ext; intros; ring).
  rewrite E in H3. set (A := qsum (map (fun y => (y - m) * (y - m)) o)) in *. set (s := qsum (map (fun y => y - m) o)) in *. clearbody A s.
  set (k := Qnat (length o)) in *. clearbody k. assert (s == -(x - m)) by lra. rewrite H in H3. lra.
Qed.

(** Value: deviation from the mean of the last n rows over their sample standard deviation; missing when
    a value is missing in the window or the window has no spread. *)
Theorem C133_value : forall sqrt x n i, (2 <= n)%nat -> (i < length x)%nat ->
  let out := nth i (mr_zscore sqrt x n) NaN in let w := window (val x) i n in
  (~ full x i n -> out = NaN) /\
  (full x i n -> exists var, var * (Qnat n - 1) == dev2 w /\ 0 <= var /\
     (~ sqrt var == 0 -> exists z, out = Fin z /\ z * sqrt var == val x i - mean w) /\
     (sqrt var == 0 -> var == 0 -> out = NaN)).
Proof.
  intros sqrt x n i Hn Hi out w. unfold out, mr_zscore. rewrite nth_map_seq by auto. split; intro F.
  - now rewrite rolling_none.
  - rewrite rolling_full by auto. change (map (val x) (seq (i + 1 - n) n)) with w. destruct F as [F0 F].
    assert (V : nth i x None = Some (val x i)) by (unfold val; specialize (F i ltac:(lia) ltac:(lia)); destruct (nth i x None); congruence).
    rewrite V. replace (n <? 2)%nat with false by (symmetry; apply Nat.ltb_ge; lia). cbv zeta.
    assert (Lw : length w = n) by apply window_length.
    assert (M : qsum w / Qnat n = mean w) by (unfold mean; now rewrite Lw). rewrite M. fold (dev2 w).
    assert (E : inject_Z (Z.of_nat n - 1) == Qnat n - 1) by (unfold Qnat, Z.sub; rewrite inject_Z_plus; reflexivity).
    assert (P1 : 1 < Qnat n). { pose proof (Qnat_le 2 n ltac:(lia)) as Q2. change (Qnat 2) with 2 in Q2. lra. }
    exists (dev2 w / inject_Z (Z.of_nat n - 1)). pose proof (dev2_nonneg w) as N0.
    split. { rewrite <- E. field. lra. }
    split. { apply Qle_shift_div_l; lra. }
    set (s := sqrt _). split; intro Z0; unfold ediv; destruct (Qeqb_spec s 0); try contradiction.
    + eexists. split; [reflexivity|]. field. auto.
    + intro VZ. assert (D0 : dev2 w == 0).
      { assert (A : dev2 w == dev2 w / inject_Z (Z.of_nat n - 1) * inject_Z (Z.of_nat n - 1)) by (field; lra). rewrite VZ in A. lra. }
      assert (X : val x i == mean w).
      { apply dev2_zero; auto. unfold w, window. apply in_map_iff. exists i. split; [auto|apply in_seq; lia]. }
      destruct (Qltb_spec 0 (val x i - mean w)); [lra|]. destruct (Qltb_spec (val x i - mean w) 0); [lra|reflexivity].
Qed.
(** The z-score never exceeds (n-1)/sqrt n in size. *)
Theorem C133_bound : forall sqrt x n i z, (2 <= n)%nat -> (i < length x)%nat ->
  let w := window (val x) i n in (forall a, a * (Qnat n - 1) == dev2 w -> sqrt a * sqrt a == a) ->
  nth i (mr_zscore sqrt x n) NaN = Fin z -> z * z * Qnat n <= (Qnat n - 1) * (Qnat n - 1).
Proof.
  intros sqrt x n i z Hn Hi w SQ H. destruct (C133_value sqrt x n i Hn Hi) as [A B]. fold w in B.
  destruct (full_dec x i n) as [F|F]; [|rewrite A in H by auto; discriminate].
  destruct (B F) as [var [V [V0 [K1 K2]]]]. specialize (SQ var V).
  destruct (Qeq_dec (sqrt var) 0) as [Z0|Z0]. { rewrite K2 in H; [discriminate|auto|rewrite <- SQ, Z0; ring]. }
  destruct (K1 Z0) as [z' [E Ez]]. rewrite E in H. injection H as ->.
  assert (I : In (val x i) w) by (unfold w, window; apply in_map_iff; exists i; split; [auto|apply in_seq; destruct F; lia]).
  pose proof (one_dev w _ I) as O. rewrite <- Ez, <- V in O. assert (Lw : length w = n) by apply window_length. rewrite Lw in O.
  assert (VP : 0 < var) by (rewrite <- SQ; destruct (Qlt_le_dec (sqrt var) 0); [nra|]; assert (0 < sqrt var) by lra; nra).
  assert (O' : (z * z * Qnat n) * var <= ((Qnat n - 1) * (Qnat n - 1)) * var).
  { set (s := sqrt var) in *. clearbody s. assert (E1 : z * z * Qnat n * (s * s) == Qnat n * (z * s * (z * s))) by ring. rewrite SQ in E1. lra. }
  apply Qmult_lt_0_le_reg_r in O'; auto.
Qed.
(** On a series without gaps it is the z-score kernel with ddof 1. *)
Theorem C133_agree : forall sqrt xs n i, (2 <= n)%nat -> (i < length xs)%nat -> (forall a, 0 <= a -> sqrt a == 0 -> a == 0) ->
  same_val (nth i (mr_zscore sqrt (map Some xs) n) NaN) (nth i (comp_zscore sqrt xs n 1) None).
Proof.
  intros sqrt xs n i Hn Hi S0. assert (Hi' : (i < length (map (@Some Q) xs))%nat) by now rewrite map_length.
  assert (V : forall j, (j < length xs)%nat -> val (map Some xs) j = at_ xs j).
  { intros j Hj. unfold val. rewrite (nth_indep _ None (Some 0)) by (rewrite map_length; lia). now rewrite map_nth. }
  unfold comp_zscore. rewrite nth_map_seq by auto. destruct (Nat.ltb_spec (i + 1) n) as [L|L].
  - destruct (C133_value sqrt (map Some xs) n i Hn Hi') as [A _]. rewrite A; [exact I|]. intros [F _]. lia.
  - unfold mr_zscore. rewrite map_length, nth_map_seq by auto. rewrite rolling_full by first [exact Hi' | apply complete_full; [apply complete_map|exact Hi'|lia]].
    rewrite (nth_indep _ None (Some 0)) by (rewrite map_length; lia). rewrite map_nth. rewrite lastn_window by lia.
    assert (W : map (val (map Some xs)) (seq (i + 1 - n) n) = window (at_ xs) i n).
    { apply map_ext_in. intros j Hj. apply in_seq in Hj. apply V. lia. }
    rewrite W. set (w := window (at_ xs) i n). assert (Lw : length w = n) by apply window_length. rewrite Lw.
    replace (n <? 2)%nat with false by (symmetry; apply Nat.ltb_ge; lia). cbv zeta.
    assert (M : qsum w / Qnat n = mean w) by (unfold mean; now rewrite Lw). rewrite M. fold (dev2 w).
    change (nth i xs 0) with (at_ xs i). change (qn xs i) with (at_ xs i).
    assert (P1 : 0 < inject_Z (Z.of_nat n - 1)) by (change 0 with (inject_Z 0); rewrite <- Zlt_Qlt; lia).
    pose proof (dev2_nonneg w) as N0.
    assert (D : 0 <= dev2 w / inject_Z (Z.of_nat n - 1)) by (apply Qle_shift_div_l; lra).
    unfold ediv. destruct (Qeqb_spec (sqrt (dev2 w / inject_Z (Z.of_nat n - 1))) 0) as [Z0|Z0]; [|cbn; reflexivity].
    specialize (S0 _ D Z0). assert (D0 : dev2 w == 0).
    { assert (A : dev2 w == dev2 w / inject_Z (Z.of_nat n - 1) * inject_Z (Z.of_nat n - 1)) by (field; lra). rewrite S0 in A. lra. }
    assert (X : at_ xs i == mean w).
    { apply dev2_zero; auto. unfold w, window. apply in_map_iff. exists i. split; [auto|apply in_seq; lia]. }
    destruct (Qltb_spec 0 (at_ xs i - mean w)); [lra|]. destruct (Qltb_spec (at_ xs i - mean w) 0); [lra|exact I].
Qed.
(** A window of one row never has a value. *)
Theorem C133_single : forall sqrt x n i, (n < 2)%nat -> nth i (mr_zscore sqrt x n) NaN = NaN.
Proof.
  intros sqrt x n i Hn. destruct (le_lt_dec (length x) i) as [L|L]; [apply nth_overflow; unfold mr_zscore; now rewrite map_length, seq_length|].
  unfold mr_zscore. rewrite nth_map_seq by auto. destruct (rolling x n i), (nth i x None); auto.
  now replace (n <? 2)%nat with true by (symmetry; apply Nat.ltb_lt; lia).
Qed.
Example C133_example :
  map (fun e => match e with Fin q => Fin (Qred q) | e => e end) (mr_zscore ex_root (map Some [0; 2; 4; 6] ++ None :: map Some [7; 7; 7]) 3)
    = [NaN; NaN; Fin 1; Fin 1; NaN; NaN; NaN; NaN] /\
  map (option_map Qred) (comp_zscore ex_root [0; 2; 4] 3 1) = [None; None; Some 1] /\
  full (map Some [0; 2; 4]) 2 3 /\ (forall a, a * (Qnat 3 - 1) == dev2 [0; 2; 4] -> ex_root a * ex_root a == a) /\
  (forall a, 0 <= a -> ex_root a == 0 -> a == 0).
Proof.
  split; [vm_compute; reflexivity|]. split; [vm_compute; reflexivity|]. split. { apply complete_full; [apply complete_map|cbn; lia|lia]. }
  split.
  - intros a Ha. change (Qnat 3) with 3 in Ha. assert (D : dev2 [0; 2; 4] == 8) by (vm_compute; reflexivity). rewrite D in Ha. unfold ex_root.
    destruct (Qeqb_spec a 36); [lra|]. destruct (Qeqb_spec a 4); lra.
  - intros a _. unfold ex_root. destruct (Qeqb_spec a 36); [lra|]. destruct (Qeqb_spec a 4); lra.
Qed.

(* ------------------------------------------------------------------ *)
(** ** C134: KurtosisTransform *)

Lemma dev4_nonneg l : 0 <= dev4 l.
Proof. apply qsum_nonneg. intros y Hy. apply in_map_iff in Hy. destruct Hy as [x [<- _]]. apply sq_nonneg. Qed.
(** Fourth moment against the square of the second. *)
Lemma dev4_low l : dev2 l * dev2 l <= Qnat (length l) * dev4 l.
Proof.
  unfold dev2, dev4. set (m := mean l). clearbody m.
  pose proof (sum_sq_cs (map (fun y => ((y - m) * (y - m), 1)) l)) as H. cbv zeta in H. rewrite !map_map in H. cbn [fst snd] in H. destruct H as [_ [_ H]].
  rewrite qsum_map_const in H. fold (Qnat (length l)) in H.
  assert (E : qsum (map (fun y => (y - m) * (y - m) * 1) l) == qsum (map (fun y => (y - m) * (y - m)) l)) by (apply qsum_map_ext; intros; ring).
  rewrite E in H. lra.
Qed.
Lemma sum_sq_le (f : Q -> Q) l : (forall y, 0 <= f y) -> qsum (map (fun y => f y * f y) l) <= qsum (map f l) * qsum (map f l) /\ 0 <= qsum (map f l).
Proof.
  intro N. induction l as [|a l [IH IH0]]; [split; cbn; lra|]. cbn [map]. rewrite !qsum_cons. specialize (N a).
  set (S := qsum (map f l)) in *. set (T := qsum (map (fun y => f y * f y) l)) in *. clearbody S T. set (c := f a) in *. clearbody c. split; nra.
Qed.
Lemma dev4_high l : dev4 l <= dev2 l * dev2 l.
Proof. unfold dev2, dev4. apply (sum_sq_le (fun y => (y - mean l) * (y - mean l))). intro y. apply sq_nonneg. Qed.
(** Value of a full window: n times the sum of fourth powers over the squared sum of squares, minus 3;
    missing when the window is not full or all its values are equal. It lies between -2 and n-3. *)
Theorem C134_value : forall x n i, (1 <= n)%nat -> (i < length x)%nat ->
  let out := nth i (kurtosis_pd x n) None in let w := window (val x) i n in
  (~ full x i n -> out = None) /\
  (full x i n -> (forall y, In y w -> y == val x i) -> out = None) /\
  (full x i n -> ~ (forall y, In y w -> y == val x i) ->
     exists k, out = Some k /\ (k + 3) * (dev2 w * dev2 w) == Qnat n * dev4 w /\ 0 < dev2 w /\ -(2) <= k <= Qnat n - 3).
Proof.
  intros x n i Hn Hi out w. unfold out, kurtosis_pd. rewrite nth_map_seq by auto.
  assert (Lw : length w = n) by apply window_length. assert (P : 0 < Qnat n) by (apply Qnat_pos; lia).
  assert (Hw : w <> []) by (intro E; rewrite E in Lw; cbn in Lw; lia).
  assert (FF : full x i n -> rolling x n i = Some w) by (intro F; now rewrite rolling_full).
  assert (KK : kurtosis w = if Qeqb (dev2 w / Qnat n) 0 then None else Some (dev4 w / Qnat n / (dev2 w / Qnat n * (dev2 w / Qnat n)) - 3)).
  { unfold kurtosis, dev2, dev4, mean. rewrite Lw. reflexivity. }
  split; [intro F; now rewrite rolling_none|]. split; intro F; rewrite (FF F); rewrite KK; intro S.
  - pose proof (dev2_same w _ S Hw) as D. destruct (Qeqb_spec (dev2 w / Qnat n) 0) as [|K]; [reflexivity|]. exfalso. apply K. rewrite D. field. lra.
  - assert (D : 0 < dev2 w).
    { pose proof (dev2_nonneg w) as N. destruct (Qeq_dec (dev2 w) 0) as [Z|Z]; [|lra]. exfalso. apply S. intros y Hy.
      rewrite (dev2_zero w y Z Hy). symmetry. apply dev2_zero; auto. unfold w, window. apply in_map_iff. exists i. split; [auto|apply in_seq; destruct F; lia]. }
    destruct (Qeqb_spec (dev2 w / Qnat n) 0) as [K|K].
    { exfalso. assert (E : dev2 w == dev2 w / Qnat n * Qnat n) by (field; lra). rewrite K in E. lra. }
    assert (E : (dev4 w / Qnat n / (dev2 w / Qnat n * (dev2 w / Qnat n)) - 3 + 3) * (dev2 w * dev2 w) == Qnat n * dev4 w) by (field; lra).
    eexists. split; [reflexivity|]. split; [exact E|]. split; [exact D|]. set (k := _ - 3) in *. clearbody k.
    pose proof (dev4_low w) as A. pose proof (dev4_high w) as B. rewrite Lw in A. set (d2 := dev2 w) in *. set (d4 := dev4 w) in *. clearbody d2 d4.
    assert (P2 : 0 < d2 * d2) by nra. split.
    + assert (1 * (d2 * d2) <= (k + 3) * (d2 * d2)) by lra. apply Qmult_lt_0_le_reg_r in H; lra.
    + assert ((k + 3) * (d2 * d2) <= Qnat n * (d2 * d2)) by (rewrite E; nra). apply Qmult_lt_0_le_reg_r in H; lra.
Qed.
Lemma dev_affine a b (l : list Q) : l <> [] -> dev2 (map (fun y => a * y + b) l) == a * a * dev2 l /\ dev4 (map (fun y => a * y + b) l) == a * a * (a * a) * dev4 l.
Proof.
  intro Hl. assert (P : 0 < Qnat (length l)) by (apply Qnat_pos; destruct l; [congruence|cbn; lia]).
  assert (M : mean (map (fun y => a * y + b) l) == a * mean l + b).
  { unfold mean. rewrite map_length.
    assert (E : qsum (map (fun y => a * y + b) l) == a * qsum l + b * Qnat (length l)).
    { rewrite <- (map_id l) at 2. rewrite <- qsum_map_scal. transitivity (qsum (map (fun y => a * y) l) + qsum (map (fun _ => b) l)); [rewrite <- qsum_map_plus; reflexivity|].
      rewrite qsum_map_const. fold (Qnat (length l)). cbn. ring. }
    rewrite E. field. lra. }
  unfold dev2, dev4. rewrite !map_map. split; rewrite <- qsum_map_scal; apply qsum_map_ext; intros y _; rewrite M; ring.
Qed.
(** Changing the unit and the origin of the data does not change it. *)
Theorem C134_affine : forall a b x n i, ~ a == 0 -> (1 <= n)%nat ->
  oeq (nth i (kurtosis_pd (map (option_map (fun y => a * y + b)) x) n) None) (nth i (kurtosis_pd x n) None).
Proof.
  intros a b x n i Ha Hn. destruct (le_lt_dec (length x) i) as [L|L].
  { rewrite !nth_overflow by (unfold kurtosis_pd; rewrite !map_length, seq_length, ?map_length; lia). exact I. }
  unfold kurtosis_pd. rewrite map_length, !nth_map_seq by auto. set (x' := map _ x).
  assert (N : forall j, nth j x' None = option_map (fun y => a * y + b) (nth j x None)).
  { intro j. unfold x'. change None with (option_map (fun y => a * y + b) None) at 1. apply map_nth. }
  assert (Lx : length x' = length x) by apply map_length.
  destruct (full_dec x i n) as [F|F].
  - assert (F' : full x' i n) by (destruct F as [F0 F]; split; [auto|]; intros j J1 J2; rewrite N; specialize (F j J1 J2); destruct (nth j x None); [discriminate|congruence]).
    rewrite !rolling_full by (auto; lia). set (w := map (val x) _).
    assert (W : map (val x') (seq (i + 1 - n) n) = map (fun y => a * y + b) w).
    { unfold w. rewrite map_map. apply map_ext_in. intros j Hj. apply in_seq in Hj. destruct F as [F0 F]. specialize (F j ltac:(lia) ltac:(lia)).
      unfold val. rewrite N. destruct (nth j x None); [reflexivity|congruence]. }
    rewrite W. assert (Hw : w <> []) by (intro E; assert (length w = n) by (unfold w; now rewrite map_length, seq_length); rewrite E in *; cbn in *; lia).
    destruct (dev_affine a b w Hw) as [D2 D4].
    assert (P : 0 < Qnat (length w)) by (apply Qnat_pos; destruct w; [congruence|cbn; lia]).
    assert (K : forall v, kurtosis v = if Qeqb (dev2 v / Qnat (length v)) 0 then None else Some (dev4 v / Qnat (length v) / (dev2 v / Qnat (length v) * (dev2 v / Qnat (length v))) - 3)) by reflexivity.
    rewrite !K, map_length. set (w' := map _ w) in *. set (m := Qnat (length w)) in *. clearbody m.
    set (a2 := dev2 w') in *. set (a4 := dev4 w') in *. set (b2 := dev2 w) in *. set (b4 := dev4 w) in *. clearbody a2 a4 b2 b4.
    assert (AA : 0 < a * a) by (destruct (Qlt_le_dec a 0); [nra|]; assert (0 < a) by lra; nra).
    destruct (Qeqb_spec (a2 / m) 0) as [Z1|Z1], (Qeqb_spec (b2 / m) 0) as [Z2|Z2]; cbn; auto.
    + apply Z2. assert (E : a2 / m == a * a * (b2 / m)) by (rewrite D2; field; lra). rewrite E in Z1. apply Qmult_integral in Z1. destruct Z1; [lra|auto].
    + apply Z1. rewrite D2. setoid_replace (a * a * b2 / m) with (a * a * (b2 / m)) by (field; lra). rewrite Z2. ring.
    + assert (~ b2 == 0) by (intro E; apply Z2; rewrite E; field; lra). rewrite D2, D4. field. repeat split; auto; lra.
  - assert (F' : ~ full x' i n) by (intros [F0 F']; apply F; split; [auto|]; intros j J1 J2 K; apply (F' j J1 J2); now rewrite N, K).
    rewrite !rolling_none by (auto; lia). exact I.
Qed.
Example C134_example : map (option_map Qred) (kurtosis_pd (map Some [1; 3; 1; 3; 3; 3; 3] ++ [None; Some 4]) 4) =
    [None; None; None; Some (-2); Some (-2 # 3); Some (-2 # 3); None; None; None] /\
  full (map Some [1; 3; 1; 3; 3]) 4 4 /\ ~ (forall y, In y (window (val (map Some [1; 3; 1; 3; 3])) 4 4) -> y == 3).
Proof.
  split; [vm_compute; reflexivity|]. split. { apply complete_full; [apply complete_map|cbn; lia|lia]. }
  intro H. specialize (H 1 ltac:(cbn; tauto)). discriminate H.
Qed.

Print Assumptions C133_value.
Print Assumptions C133_bound.
Print Assumptions C133_agree.
Print Assumptions C133_single.
Print Assumptions C134_value.
Print Assumptions C134_affine.
