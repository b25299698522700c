(** P_volat.v -- lemmas on the volatility estimators. *)
From Coq Require Import Qpower.
From Verif Require Import Base M_features S_features P_weights P_features M_volat S_volat.
Open Scope Q_scope.

(** ** Sums over present observations *)
Lemma ssum_plus f g a b : ssum (fun j => f j + g j) a b == ssum f a b + ssum g a b.
Proof. unfold ssum. apply qsum_map_plus. Qed.
Lemma ssum_scal c f a b : ssum (fun j => c * f j) a b == c * ssum f a b.
Proof. unfold ssum. apply qsum_map_scal. Qed.
Lemma osum_ext y a i f g : (forall j x, (a <= j <= i)%nat -> f j x == g j x) -> osum y a i f == osum y a i g.
Proof.
  intro H. apply ssum_ext. intros j Hj. unfold obs. destruct (nth j y None); [apply H; lia|reflexivity].
Qed.
Lemma osum_plus y a i f g : osum y a i (fun j x => f j x + g j x) == osum y a i f + osum y a i g.
Proof.
  unfold osum. rewrite <- ssum_plus. apply ssum_ext. intros j _. unfold obs. destruct (nth j y None); [reflexivity|ring].
Qed.
Lemma osum_scal y a i c f : osum y a i (fun j x => c * f j x) == c * osum y a i f.
Proof.
  unfold osum. rewrite <- ssum_scal. apply ssum_ext. intros j _. unfold obs. destruct (nth j y None); [reflexivity|ring].
Qed.
Lemma osum_nonneg y a i f : (forall j x, (a <= j <= i)%nat -> 0 <= f j x) -> 0 <= osum y a i f.
Proof.
  intro H. apply ssum_nonneg. intros j Hj. unfold obs. destruct (nth j y None); [apply H; lia|lra].
Qed.
Lemma osum_snoc y a i f : (a <= S i)%nat -> osum y a (S i) f == osum y a i f + obs y (S i) (f (S i)).
Proof. intro H. unfold osum. now rewrite ssum_snoc by lia. Qed.

(** Sum of weighted squared deviations. *)
Lemma osum_dev y a i w m :
  osum y a i (fun j x => w j * ((x - m) * (x - m))) ==
  osum y a i (fun j x => w j * (x * x)) + (- (2) * m) * osum y a i (fun j x => w j * x)
  + m * m * osum y a i (fun j _ => w j).
Proof.
  rewrite <- !osum_scal, <- !osum_plus. apply osum_ext. intros. ring.
Qed.

(** The variance formula of the code. *)
Lemma wvar_formula y w a i : let W := osum y a i (fun j _ => w j) in
  let W2 := osum y a i (fun j _ => w j * w j) in
  let Y := osum y a i (fun j x => w j * x) in let Y2 := osum y a i (fun j x => w j * (x * x)) in
  0 < W -> 0 < W - W2 / W -> wvar y w a i ((Y2 / W - Y / W * (Y / W)) * W / (W - W2 / W)).
Proof.
  intros W W2 Y Y2 HW HD. exists (Y / W). fold W W2. split; [fold Y; field; lra|].
  rewrite osum_dev. fold W Y Y2. set (D := W - W2 / W) in *. clearbody D. field. lra.
Qed.
Lemma raw_nonneg y w a i : (forall j, (a <= j <= i)%nat -> 0 <= w j) -> let W := osum y a i (fun j _ => w j) in
  let Y := osum y a i (fun j x => w j * x) in let Y2 := osum y a i (fun j x => w j * (x * x)) in
  0 < W -> 0 <= Y2 / W - Y / W * (Y / W).
Proof.
  intros Hw W Y Y2 HW.
  assert (E : Y2 / W - Y / W * (Y / W) == osum y a i (fun j x => w j * ((x - Y / W) * (x - Y / W))) / W).
  { rewrite osum_dev. fold W Y Y2. field. lra. }
  rewrite E. apply Qle_shift_div_l; auto. rewrite Qmult_0_l.
  apply osum_nonneg. intros j x Hj. specialize (Hw j Hj). assert (0 <= (x - Y / W) * (x - Y / W)) by (destruct (Qlt_le_dec (x - Y / W) 0); nra).
  nra.
Qed.

(** Number of positive weights. *)
Lemma weight_counts_list y (w : nat -> Q) l : (forall j, In j l -> 0 <= w j) ->
  let W := qsum (map (fun j => obs y j (fun _ => w j)) l) in
  let W2 := qsum (map (fun j => obs y j (fun _ => w j * w j)) l) in
  let n := length (filter (fun j => match nth j y None with Some _ => Qltb 0 (w j) | None => false end) l) in
  0 <= W /\ 0 <= W2 /\ W2 <= W * W /\ (0 < W <-> (1 <= n)%nat) /\ (W2 < W * W <-> (2 <= n)%nat).
Proof.
  induction l as [|j l IH]; intro Hw.
  - cbn. repeat split; try lra; try lia; intro; try lra; lia.
  - destruct (IH (fun k Hk => Hw k (or_intror Hk))) as [I0 [J0 [I1 [I2 I3]]]]. cbv zeta in *. cbn [map filter]. rewrite !qsum_cons.
    specialize (Hw j (or_introl eq_refl)).
    set (W := qsum (map _ l)) in *. set (W2 := qsum (map (fun j => obs y j (fun _ => w j * w j)) l)) in *.
    set (F := filter _ l) in *. clearbody W W2. unfold obs. destruct (nth j y None) as [x|]; cbn [length].
    + destruct (Qltb_spec 0 (w j)) as [K|K]; cbn [length].
      * split; [lra|]. split; [nra|]. split; [nra|]. split; [split; [lia|intro; lra]|]. split; intro H.
        -- destruct (Qlt_le_dec 0 W) as [P|P]; [apply I2 in P; lia|]. exfalso. assert (E : W == 0) by lra. rewrite E in H. lra.
        -- assert (1 <= length F)%nat by lia. apply I2 in H0. nra.
      * assert (E : w j == 0) by lra. split; [nra|]. split; [nra|]. split; [nra|]. rewrite E.
        split; [rewrite <- I2; split; intro; lra|]. rewrite <- I3. split; intro; nra.
    + split; [lra|]. split; [lra|]. split; [nra|]. split; [rewrite <- I2; split; intro; lra|]. rewrite <- I3. split; intro; nra.
Qed.
Lemma weight_counts y w a i : (forall j, (a <= j <= i)%nat -> 0 <= w j) ->
  let W := osum y a i (fun j _ => w j) in let W2 := osum y a i (fun j _ => w j * w j) in
  let n := n_obs y (fun j => Qltb 0 (w j)) a i in
  0 <= W /\ W2 <= W * W /\ (0 < W <-> (1 <= n)%nat) /\ (W2 < W * W <-> (2 <= n)%nat).
Proof.
  intro H. destruct (weight_counts_list y w (seq a (S i - a))) as [A [_ B]].
  - intros j Hj. apply in_seq in Hj. apply H. lia.
  - split; [exact A|exact B].
Qed.
Lemma den_pos W W2 : 0 < W -> (0 < W - W2 / W <-> W2 < W * W).
Proof.
  intro H. assert (E : W2 / W * W == W2) by (field; lra). set (q := W2 / W) in *. clearbody q. split; intro K; nra.
Qed.

(** ** ewms *)
Lemma ew_loop_length sqrt b : forall ys s, length (ew_loop sqrt b s ys) = length ys.
Proof. induction ys; intros; cbn; auto. Qed.
Lemma ew_loop_nth sqrt b : forall ys s i, (i < length ys)%nat ->
  nth i (ew_loop sqrt b s ys) None = ew_out sqrt (fold_left (ew_step b) (firstn (S i) ys) s).
Proof.
  induction ys as [|y t IH]; intros s i Hi; [simpl in Hi; lia|].
  cbn [ew_loop]. destruct i as [|i]; [reflexivity|]. cbn [nth]. rewrite IH by (simpl in Hi; lia). reflexivity.
Qed.
Lemma firstn_snoc {A} (d : A) l k : (k < length l)%nat -> firstn (S k) l = firstn k l ++ [nth k l d].
Proof.
  revert k. induction l as [|x t IH]; intros k H; [simpl in H; lia|]. destruct k; [reflexivity|].
  cbn [firstn nth app]. f_equal. apply IH. simpl in H. lia.
Qed.
Definition bw (b : Q) (k j : nat) : Q := b ^ Z.of_nat (k - 1 - j).
Lemma bw_step b k j : (j < k)%nat -> bw b (S k) j == b * bw b k j.
Proof. intro H. unfold bw. replace (S k - 1 - j)%nat with (S (k - 1 - j)) by lia. apply pow_S. Qed.
Lemma bw_last b k : bw b (S k) k == 1.
Proof. unfold bw. replace (S k - 1 - k)%nat with 0%nat by lia. reflexivity. Qed.
Lemma ew_fold b ys k : (k <= length ys)%nat ->
  let s := fold_left (ew_step b) (firstn k ys) (mkEW 0 0 0 0) in
  e_w s == ssum (fun j => obs ys j (fun _ => bw b k j)) 0 k /\
  e_w2 s == ssum (fun j => obs ys j (fun _ => bw b k j * bw b k j)) 0 k /\
  e_y s == ssum (fun j => obs ys j (fun x => bw b k j * x)) 0 k /\
  e_y2 s == ssum (fun j => obs ys j (fun x => bw b k j * (x * x))) 0 k.
Proof.
  induction k as [|k IH]; intro Hk.
  - cbn. repeat split; reflexivity.
  - destruct (IH ltac:(lia)) as [I1 [I2 [I3 I4]]]. cbv zeta in *.
    rewrite (firstn_snoc None) by lia. rewrite fold_left_app. cbn [fold_left].
    set (s := fold_left _ _ _) in *. clearbody s.
    rewrite !ssum_snoc by lia.
    assert (S1 : forall c f, (forall j x, (j < k)%nat -> f (S k) j x == c * f k j x) ->
       ssum (fun j => obs ys j (f (S k) j)) 0 k == c * ssum (fun j => obs ys j (f k j)) 0 k).
    { intros c f Hf. rewrite <- ssum_scal. apply ssum_ext. intros j Hj. unfold obs. destruct (nth j ys None); [apply Hf; lia|ring]. }
    rewrite (S1 b (fun k j _ => bw b k j)), (S1 (b * b) (fun k j _ => bw b k j * bw b k j)),
      (S1 b (fun k j x => bw b k j * x)), (S1 b (fun k j x => bw b k j * (x * x))).
    2-5: intros; rewrite bw_step by auto; ring.
    rewrite <- I1, <- I2, <- I3, <- I4. unfold obs. destruct (nth k ys None) as [x|]; cbn [ew_step e_w e_w2 e_y e_y2].
    + rewrite !bw_last. repeat split; ring.
    + repeat split; ring.
Qed.
Lemma bw_pos b k j : 0 < b -> 0 < bw b k j.
Proof. intro H. unfold bw. now apply Qpower_0_lt. Qed.

(** ** Time-decayed weights *)
Lemma qprod_app l m : qprod (l ++ m) == qprod l * qprod m.
Proof.
  induction l as [|x l IH]; cbn [app].
  - change (qprod []) with 1. ring.
  - change (x * qprod (l ++ m) == x * qprod l * qprod m). rewrite IH. ring.
Qed.
Lemma wt_step d i j : (j <= i)%nat -> wt d (S i) j == d (S i) * wt d i j.
Proof.
  intro H. unfold wt. replace (S i - j)%nat with (S (i - j)) by lia. rewrite seq_S, map_app, qprod_app.
  replace (S j + (i - j))%nat with (S i) by lia. cbn [map qprod fold_right]. ring.
Qed.
Lemma wt_last d i : wt d i i == 1 - d i.
Proof. unfold wt. rewrite Nat.sub_diag. cbn [seq map qprod fold_right]. ring. Qed.
Lemma qprod_pos l : (forall x, In x l -> 0 < x) -> 0 < qprod l.
Proof.
  induction l as [|x l IH]; intro H; cbn [qprod fold_right]; [lra|]. fold (qprod l).
  assert (0 < x) by (apply H; left; auto). assert (0 < qprod l) by (apply IH; intros; apply H; right; auto). nra.
Qed.
Lemma wt_sign d i j : (1 <= j)%nat -> (forall k, (1 <= k <= i)%nat -> 0 < d k <= 1) -> (j <= i)%nat ->
  0 <= wt d i j /\ (Qltb 0 (wt d i j) = Qltb (d j) 1).
Proof.
  intros H1 Hd Hj. unfold wt. set (P := qprod _).
  assert (0 < P). { apply qprod_pos. intros x Hx. apply in_map_iff in Hx. destruct Hx as [k [<- Hk]]. apply in_seq in Hk. apply Hd. lia. }
  destruct (Hd j ltac:(lia)). clearbody P. split; [nra|].
  destruct (Qltb_spec 0 ((1 - d j) * P)), (Qltb_spec (d j) 1); auto; exfalso; nra.
Qed.
Lemma n_obs_ext y p q a i : (forall j, (a <= j <= i)%nat -> p j = q j) -> n_obs y p a i = n_obs y q a i.
Proof.
  intro H. unfold n_obs. f_equal. apply filter_ext_in. intros j Hj. apply in_seq in Hj.
  destruct (nth j y None); [apply H; lia|auto].
Qed.
Lemma m0_sums exp ts y hl i : let d := step_decay exp ts hl in
  fst (m0_state exp ts y hl i) == osum y 1 i (fun j x => wt d i j * (x * x)) /\
  snd (m0_state exp ts y hl i) == osum y 1 i (fun j _ => wt d i j).
Proof.
  intro d. induction i as [|i [I1 I2]]; [split; reflexivity|].
  rewrite !osum_snoc by lia. cbn [m0_state]. destruct (m0_state exp ts y hl i) as [u v]. cbn [fst snd] in I1, I2.
  change (ts_alpha exp ts hl (S i)) with (1 - d (S i)).
  assert (S1 : forall f : nat -> nat -> Q -> Q, (forall j x, (j <= i)%nat -> f (S i) j x == d (S i) * f i j x) ->
       osum y 1 i (f (S i)) == d (S i) * osum y 1 i (f i)).
  { intros f Hf. rewrite <- osum_scal. apply osum_ext. intros. apply Hf. lia. }
  rewrite (S1 (fun i j x => wt d i j * (x * x))), (S1 (fun i j _ => wt d i j)).
  2-3: intros; rewrite wt_step by auto; ring.
  rewrite <- I1, <- I2. unfold known, obs. destruct (nth (S i) y None) as [x|]; cbn [fst snd].
  - rewrite wt_last. split; ring.
  - split; ring.
Qed.
Lemma zero_fill_nth y j : (j < length y)%nat ->
  nth j (zero_fill y) None = Some (match nth j y None with Some x => x | None => 0 end).
Proof.
  intro H. unfold zero_fill. rewrite (nth_indep _ None (Some 0)) by (rewrite map_length; auto).
  change (Some 0) with ((fun o => match o with Some x => Some x | None => Some 0 end) None). rewrite map_nth.
  destruct (nth j y None); reflexivity.
Qed.
Lemma et_sums exp ts y hl i : (i < length y)%nat -> let d := step_decay exp ts hl in let s := et_state exp ts y hl i in
  t_v s == osum (zero_fill y) 1 i (fun j _ => wt d i j) /\
  t_v2 s == osum (zero_fill y) 1 i (fun j _ => wt d i j * wt d i j) /\
  t_y s == osum (zero_fill y) 1 i (fun j x => wt d i j * x) /\
  t_yy s == osum (zero_fill y) 1 i (fun j x => wt d i j * (x * x)).
Proof.
  intros Hi d. cbv zeta. induction i as [|i IH]; [repeat split; reflexivity|].
  destruct (IH ltac:(lia)) as [I1 [I2 [I3 I4]]].
  rewrite !osum_snoc by lia. cbn [et_state]. set (s := et_state exp ts y hl i) in *. clearbody s.
  change (ts_alpha exp ts hl (S i)) with (1 - d (S i)).
  assert (S1 : forall c (f : nat -> nat -> Q -> Q), (forall j x, (j <= i)%nat -> f (S i) j x == c * f i j x) ->
       osum (zero_fill y) 1 i (f (S i)) == c * osum (zero_fill y) 1 i (f i)).
  { intros c f Hf. rewrite <- osum_scal. apply osum_ext. intros. apply Hf. lia. }
  rewrite (S1 (d (S i)) (fun i j _ => wt d i j)), (S1 (d (S i) * d (S i)) (fun i j _ => wt d i j * wt d i j)),
    (S1 (d (S i)) (fun i j x => wt d i j * x)), (S1 (d (S i)) (fun i j x => wt d i j * (x * x))).
  2-5: intros; rewrite wt_step by auto; ring.
  rewrite <- I1, <- I2, <- I3, <- I4. unfold obs. rewrite zero_fill_nth by auto. rewrite !wt_last.
  unfold known. destruct (nth (S i) y None) as [x|]; cbn [t_v t_v2 t_y t_yy]; repeat split; ring.
Qed.

(** ** Present values *)
Lemma vals_app l m : vals (l ++ m) = vals l ++ vals m.
Proof. unfold vals. now rewrite flat_map_app. Qed.
Lemma valid_sum_eq l : fst (valid_sum l) = length (vals l) /\ snd (valid_sum l) == qsum (vals l).
Proof.
  unfold valid_sum. induction l as [|o l IH] using rev_ind; [split; reflexivity|].
  rewrite fold_left_app, vals_app, app_length, qsum_app. cbn [fold_left].
  destruct o as [x|]; cbn [vals flat_map app length qsum fold_right fst snd]; destruct IH as [-> ->]; split; try lia; ring.
Qed.
Lemma valid_sums_eq l : fst (fst (valid_sums l)) = length (vals l) /\ snd (fst (valid_sums l)) == qsum (vals l) /\
  snd (valid_sums l) == qsum (map (fun x => x * x) (vals l)).
Proof.
  unfold valid_sums. induction l as [|o l IH] using rev_ind; [repeat split; reflexivity|].
  rewrite fold_left_app, vals_app, map_app, app_length, !qsum_app. cbn [fold_left].
  destruct o as [x|]; cbn [vals flat_map app length map qsum fold_right fst snd]; destruct IH as [-> [-> ->]]; repeat split; try lia; ring.
Qed.
Lemma valid_mean_spec l :
  (valid_mean l = None <-> vals l = []) /\ (forall m, valid_mean l = Some m -> is_mean m (vals l)).
Proof.
  unfold valid_mean. cbv zeta. destruct (valid_sum_eq l) as [E1 E2]. rewrite E1.
  destruct (Nat.ltb_spec 0 (length (vals l))) as [K|K].
  - split; [split; [discriminate|intro H; rewrite H in K; simpl in K; lia]|].
    intros m E. injection E as <-. unfold is_mean. rewrite E2. pose proof (Qnat_pos _ K). field. lra.
  - split; [split; auto; intros _; destruct (vals l); [auto|simpl in K; lia]|]. discriminate.
Qed.
Lemma olast_window l i n : (1 <= n)%nat -> (n <= i + 1)%nat -> (i < length l)%nat ->
  olast l i n = window (fun j => nth j l None) i n.
Proof.
  intros. unfold olast, window. apply nth_ext with (d := None) (d' := None).
  { rewrite map_length, seq_length, firstn_length, skipn_length. lia. }
  intros k Hk. rewrite firstn_length, skipn_length in Hk. rewrite nth_firstn by lia. rewrite nth_skipn.
  rewrite (nth_indep (map _ _) None (nth (i + 1 - n) l None)) by (rewrite map_length, seq_length; lia).
  change (nth (i + 1 - n) l None) with ((fun j => nth j l None) (i + 1 - n)%nat). rewrite map_nth. rewrite seq_nth by lia. reflexivity.
Qed.
Lemma sq_dev l m : qsum (map (fun x => (x - m) * (x - m)) l) ==
  qsum (map (fun x => x * x) l) - 2 * m * qsum l + m * m * Qnat (length l).
Proof.
  induction l as [|x l IH]; cbn [map length]; rewrite ?qsum_cons.
  - change (qsum []) with 0. unfold Qnat. change (inject_Z (Z.of_nat 0)) with 0. ring.
  - rewrite IH, Qnat_S. ring.
Qed.
Lemma sq_dev_nonneg l m : 0 <= qsum (map (fun x => (x - m) * (x - m)) l).
Proof.
  apply qsum_nonneg. intros y Hy. apply in_map_iff in Hy. destruct Hy as [x [<- _]]. destruct (Qlt_le_dec (x - m) 0); nra.
Qed.
(** Variance from sum and sum of squares. *)
Lemma is_var_formula l ddof v : l <> [] -> (ddof < Z.of_nat (length l))%Z ->
  v * inject_Z (Z.of_nat (length l) - ddof) ==
    qsum (map (fun x => x * x) l) - Qnat (length l) * (qsum l / Qnat (length l)) * (qsum l / Qnat (length l)) ->
  is_var v l ddof /\ 0 <= v.
Proof.
  intros Hne Hd E. assert (Hp : 0 < Qnat (length l)) by (apply Qnat_pos; destruct l; [contradiction|simpl; lia]).
  assert (Hv : v * inject_Z (Z.of_nat (length l) - ddof) == qsum (map (fun x => (x - qsum l / Qnat (length l)) * (x - qsum l / Qnat (length l))) l)).
  { rewrite E, sq_dev. field. lra. }
  split.
  - exists (qsum l / Qnat (length l)). split; [now apply mean_div|exact Hv].
  - assert (P : 0 < inject_Z (Z.of_nat (length l) - ddof)) by (change 0 with (inject_Z 0); rewrite <- Zlt_Qlt; lia).
    pose proof (sq_dev_nonneg l (qsum l / Qnat (length l))) as N. rewrite <- Hv in N.
    apply (Qmult_le_r _ _ _ P). lra.
Qed.
Lemma pmax_zero_r v : 0 <= v -> pmax v 0 = v.
Proof. intro H. unfold pmax. destruct (Qltb_spec v 0); [lra|auto]. Qed.
Lemma pmax_zero_l v : 0 <= v -> pmax 0 v == v.
Proof. intro H. unfold pmax. destruct (Qltb_spec 0 v); lra. Qed.

(** ** Rolling variance *)
Lemma rolling_variance_spec series n ddof mp i : (1 <= n)%nat -> (0 <= ddof)%Z -> (i < length series)%nat ->
  let w := vals (window (fun j => nth j series None) i n) in
  let out := nth i (rolling_variance series n ddof mp) None in
  (out = None <-> (i + 1 < n)%nat \/ (Z.of_nat (length w) < mp)%Z \/ (Z.of_nat (length w) <= ddof)%Z) /\
  (forall v, out = Some v -> is_var v w ddof /\ 0 <= v).
Proof.
  intros Hn Hd Hi w out. unfold out, rolling_variance. rewrite nth_map_seq by auto.
  destruct (Nat.ltb_spec (length series) n) as [K|K]; cbn [orb].
  { split; [split; auto; intros _; left; lia|discriminate]. }
  destruct (Nat.ltb_spec (i + 1) n) as [K2|K2].
  { split; [split; auto|discriminate]. }
  rewrite olast_window by lia. fold w.
  destruct (valid_sums_eq (window (fun j => nth j series None) i n)) as [E1 [E2 E3]]. fold w in E1, E2, E3.
  destruct (valid_sums _) as [[c s] q]. cbn [fst snd] in E1, E2, E3. subst c.
  destruct (Z.leb_spec mp (Z.of_nat (length w))) as [K3|K3]; cbn [andb]; [|split; [split; auto|discriminate]].
  destruct (Z.ltb_spec ddof (Z.of_nat (length w))) as [K4|K4]; [|split; [split; auto|discriminate]].
  split; [split; [discriminate|lia]|]. intros v E. injection E as <-.
  assert (Hne : w <> []) by (intro H; rewrite H in K4; simpl in K4; lia).
  assert (Hp : 0 < Qnat (length w)) by (apply Qnat_pos; lia).
  assert (P : 0 < inject_Z (Z.of_nat (length w) - ddof)) by (change 0 with (inject_Z 0); rewrite <- Zlt_Qlt; lia).
  set (V := (q / Qnat (length w) - s / Qnat (length w) * (s / Qnat (length w))) * (Qnat (length w) / inject_Z (Z.of_nat (length w) - ddof))).
  destruct (is_var_formula w ddof V Hne K4) as [[m [M1 M2]] N].
  { unfold V. rewrite E2, E3. field. lra. }
  split; [|rewrite pmax_zero_l; auto]. exists m. split; [auto|]. rewrite pmax_zero_l; auto.
Qed.
