(** P_volatf.v -- errors of true range, ATR, realised volatility and rolling variance in float64. *)
From Coq Require Import Qround Qpower Qfield.
From Verif Require Import Base M_logic M_bars M_features M_volume M_volat M_float M_float2 M_float3 M_float7 S_logic S_features S_volat S_float S_sumf.
From Verif Require Import P_weights P_features P_features2 P_volat P_float P_float2 P_float9 P_float11 P_float12 P_float13 P_sumf P_weightsf.
Open Scope Q_scope.

(* ---------------------------------------------------------------- true range *)
Lemma r53_abs x : Qabs (r53 x) == r53 (Qabs x).
Proof.
  destruct (Qlt_le_dec x 0) as [K|K].
  - rewrite (Qabs_neg x) by lra. rewrite (Qabs_neg (r53 x)); [unfold r53; rewrite rnd_opp; reflexivity|].
    rewrite <- (rnd_0 53 0 ltac:(reflexivity)). apply (r53_mono x 0). lra.
  - rewrite (Qabs_pos x) by lra. apply Qabs_pos. now apply r53_nonneg.
Qed.
Lemma pmax_r53 a b x y : a == r53 x -> b == r53 y -> pmax a b == r53 (pmax x y).
Proof.
  intros E F. unfold pmax. destruct (Qltb_spec a b) as [K|K], (Qltb_spec x y) as [L|L]; try assumption.
  - pose proof (r53_mono y x ltac:(lra)). lra.
  - pose proof (r53_mono x y ltac:(lra)). lra.
Qed.
(** Equality of entries that may be NaN, up to a relation. *)
Definition ole (R : Q -> Q -> Prop) (a x : option Q) : Prop :=
  match a, x with Some u, Some v => R u v | None, None => True | _, _ => False end.
Lemma tr_at_rounded high low close i : ole (fun a x => a == r53 x) (tr_at_f high low close i) (tr_at high low close i).
Proof.
  destruct i as [|j]; cbn [tr_at_f tr_at].
  - destruct (known high 0); [|exact I]. destruct (known low 0); [reflexivity|exact I].
  - destruct (known high (S j)); [|exact I]. destruct (known low (S j)); [|exact I]. destruct (known close j); [|exact I]. cbn [ole].
    apply pmax_r53; [apply pmax_r53; [reflexivity|apply r53_abs]|apply r53_abs].
Qed.
Definition wf_first (high low : list (option Q)) : Prop := forall h l, nth 0 high None = Some h -> nth 0 low None = Some l -> l <= h.
Lemma pmax_ge_r a b : b <= pmax a b.
Proof. unfold pmax. destruct (Qltb_spec a b); lra. Qed.
Definition wnn (k : nat) (a x : Q) : Prop := 0 <= x /\ within u53 k a x.
Lemma tr_at_within high low close i : wf_first high low -> ole (wnn 1) (tr_at_f high low close i) (tr_at high low close i).
Proof.
  intro W. pose proof (tr_at_rounded high low close i) as R.
  destruct (tr_at high low close i) as [x|] eqn:Ex, (tr_at_f high low close i) as [a|]; cbn [ole] in *; try exact I; try contradiction.
  assert (P : 0 <= x).
  { destruct i as [|j]; cbn [tr_at] in Ex.
    - unfold known in Ex. destruct (nth 0 high None) as [h|] eqn:Eh; [|discriminate]. destruct (nth 0 low None) as [l|] eqn:El; [|discriminate].
      injection Ex as <-. pose proof (W h l Eh El). lra.
    - destruct (known high (S j)); [|discriminate]. destruct (known low (S j)); [|discriminate]. destruct (known close j); [|discriminate].
      match type of Ex with Some ?e = Some _ => replace x with e by congruence end. eapply Qle_trans; [|apply pmax_ge_r]. apply Qabs_nonneg. }
  split; [exact P|]. apply (within_comp u53 1 (r53 x) x); [symmetry; exact R|reflexivity|]. apply within_r53; [exact P|]. now apply within_self, P.
Qed.

(* ---------------------------------------------------------------- sums of present values *)
Lemma present_vals l : present l = vals l.
Proof. reflexivity. Qed.
Lemma valid_sum_f_eq l : valid_sum_f l = (length (vals l), fsum (vals l)).
Proof.
  unfold valid_sum_f. induction l as [|o l IH] using rev_ind; [reflexivity|]. rewrite fold_left_app, IH, vals_app. cbn [fold_left].
  destruct o as [x|]; cbn [vals flat_map app fst snd]; [rewrite fsum_app, app_length; cbn [length]; now rewrite Nat.add_1_r|now rewrite app_nil_r].
Qed.
Lemma valid_sums_f_eq l : valid_sums_f l = (length (vals l), fsum (vals l), fsum (map (fun x => r53 (x * x)) (vals l))).
Proof.
  unfold valid_sums_f. induction l as [|o l IH] using rev_ind; [reflexivity|]. rewrite fold_left_app, IH, vals_app. cbn [fold_left].
  destruct o as [x|]; cbn [vals flat_map app fst snd]; [rewrite map_app; cbn [map]; rewrite !fsum_app, app_length; cbn [length]; now rewrite Nat.add_1_r|now rewrite app_nil_r].
Qed.
(** Two lists of entries, pairwise related. *)
Definition otracks (k : nat) (lf l : list (option Q)) : Prop := Forall2 (ole (wnn k)) lf l.
Lemma otracks_vals k lf l : otracks k lf l -> Forall2 (wnn k) (vals lf) (vals l).
Proof.
  induction 1 as [|a x lf l H _ IH]; [constructor|]. change (a :: lf) with ([a] ++ lf). change (x :: l) with ([x] ++ l). rewrite !vals_app.
  apply Forall2_app; [|exact IH]. destruct a, x; cbn in *; try contradiction; [|constructor]. constructor; [exact H|constructor].
Qed.
Lemma forall2_len {A B} (R : A -> B -> Prop) l m : Forall2 R l m -> length l = length m.
Proof. induction 1; cbn [length]; congruence. Qed.
Lemma forall2_sum k lf l : Forall2 (wnn k) lf l -> length lf = length l /\ 0 <= qsum l /\ within u53 (k + length l) (fsum lf) (qsum l).
Proof.
  intro F. split; [eapply forall2_len; exact F|].
  assert (E : map fst (combine lf l) = lf /\ map snd (combine lf l) = l /\ wpairs k (combine lf l) /\ 0 <= qsum l).
  { induction F as [|a x lf l [H1 H2] F IH]; [split; [reflexivity|]; split; [reflexivity|]; split; [intros p []|cbn; lra]|]. destruct IH as (A & B & C & D). cbn [combine map fst snd]. rewrite A, B.
    split; [reflexivity|]. split; [reflexivity|]. split; [|rewrite qsum_cons; lra]. intros p [<-|Hp]; [cbn [fst snd]; auto|now apply C]. }
  destruct E as (A & B & C & D). split; [exact D|]. pose proof (some_order_within lf (fsum lf) (fsum_some_order lf) k (combine lf l) A C) as W.
  rewrite B in W. replace (length l) with (length lf) by (eapply forall2_len; exact F). exact W.
Qed.
Lemma valid_mean_within k lf l : otracks k lf l -> (length (vals l) <= length l)%nat /\ ole (wnn (k + length l + 1)) (valid_mean_f lf) (valid_mean l).
Proof.
  intro T. assert (LL : (length (vals l) <= length l)%nat).
  { clear T. induction l as [|o l IH]; [cbn; lia|]. change (o :: l) with ([o] ++ l). rewrite vals_app, app_length. destruct o; cbn in *; lia. }
  split; [exact LL|]. destruct (forall2_sum _ _ _ (otracks_vals _ _ _ T)) as (L & P & W).
  unfold valid_mean_f, valid_mean. cbv zeta. rewrite valid_sum_f_eq. cbn [fst snd]. destruct (valid_sum_eq l) as [E1 E2]. rewrite E1, L.
  destruct (Nat.ltb_spec 0 (length (vals l))) as [K|K]; [|exact I]. cbn [ole]. assert (Pn := Qnat_pos _ K).
  assert (Q0 : 0 <= qsum (vals l) / Qnat (length (vals l))) by (apply Qle_shift_div_l; lra).
  split; [rewrite E2; exact Q0|]. apply (within_le u53 u53_bounds (S (k + length (vals l)))); [lia|rewrite E2; exact Q0|].
  eapply within_comp; [reflexivity|rewrite E2; reflexivity|]. apply within_quot; auto.
Qed.

(* ---------------------------------------------------------------- ATR *)
Lemma forall2_firstn {A B} (R : A -> B -> Prop) l m : Forall2 R l m -> forall n, Forall2 R (firstn n l) (firstn n m).
Proof. induction 1 as [|a b l m H F IH]; intro n; [rewrite !firstn_nil; constructor|]. destruct n; cbn [firstn]; constructor; auto. Qed.
Lemma forall2_skipn {A B} (R : A -> B -> Prop) l m : Forall2 R l m -> forall n, Forall2 R (skipn n l) (skipn n m).
Proof. induction 1 as [|a b l m H F IH]; intro n; [rewrite !skipn_nil; constructor|]. destruct n; cbn [skipn]; [constructor; auto|apply IH]. Qed.
Lemma forall2_nth {A B} (R : A -> B -> Prop) d e l m : Forall2 R l m -> R d e -> forall n, R (nth n l d) (nth n m e).
Proof. induction 1 as [|a b l m H F IH]; intros D n; [now rewrite !nth_overflow by (cbn; lia)|]. destruct n; cbn [nth]; auto. Qed.
Lemma forall2_map {A} (R : Q -> Q -> Prop) (f g : A -> option Q) l : (forall x, ole R (f x) (g x)) -> Forall2 (ole R) (map f l) (map g l).
Proof. intro H. induction l; cbn [map]; constructor; auto. Qed.
Lemma wnn_le k m a x : (k <= m)%nat -> wnn k a x -> wnn m a x.
Proof. intros L [H1 H2]. split; [exact H1|]. now apply (within_le u53 u53_bounds k). Qed.
Lemma ole_le k m a x : (k <= m)%nat -> ole (wnn k) a x -> ole (wnn m) a x.
Proof. intros L H. destruct a, x; cbn [ole] in *; auto. now apply (wnn_le k). Qed.
Lemma atr_ema_within trf tr w k : (1 <= w)%nat -> otracks 1 trf tr -> ole (wnn (w + 2 + 3 * k)) (atr_ema_f trf w k) (atr_ema tr w k).
Proof.
  intros Hw T. assert (Pw := Qnat_ge1 w Hw). induction k as [|k IH]; cbn [atr_ema_f atr_ema].
  - destruct (valid_mean_within 1 _ _ (forall2_firstn _ _ _ T w)) as [_ V]. apply (ole_le (1 + length (firstn w tr) + 1)); [|exact V].
    rewrite firstn_length. lia.
  - pose proof (forall2_nth (ole (wnn 1)) None None _ _ T I (w - 1 + S k)) as X. unfold known.
    destruct (nth (w - 1 + S k) trf None) as [xf|], (nth (w - 1 + S k) tr None) as [x|]; cbn [ole] in X; try contradiction; [|exact I].
    destruct (atr_ema_f trf w k) as [af|], (atr_ema tr w k) as [a|]; cbn [ole] in IH; try contradiction; [|exact I]. cbn [ole].
    destruct X as [X1 X2]. destruct IH as [I1 I2].
    assert (P : 0 <= (Qnat w - 1) * a) by (apply Qmult_le_0_compat; lra). assert (P2 : 0 <= (Qnat w - 1) * a + x) by lra.
    split; [apply Qle_shift_div_l; lra|]. replace (w + 2 + 3 * S k)%nat with (S (S (S (w + 2 + 3 * k)))) by lia.
    apply within_quot; [exact P2|lra|]. apply (within_add _ 1); [exact P|exact X1|lia| |exact X2]. apply within_r53; [exact P|]. apply within_scale; [lra|exact I2].
Qed.
Lemma atr_sma_within high low close trf tr w i : otracks 1 trf tr -> ole (wnn (w + 2)) (atr_sma_f high low close trf w i) (atr_sma high low close tr w i).
Proof.
  intro T. assert (V : ole (wnn (w + 2)) (valid_mean_f (olast trf i w)) (valid_mean (olast tr i w))).
  { unfold olast. destruct (valid_mean_within 1 _ _ (forall2_firstn _ _ _ (forall2_skipn _ _ _ T (i + 1 - w)) w)) as [_ V].
    eapply ole_le; [|exact V]. rewrite firstn_length. lia. }
  unfold atr_sma_f, atr_sma. destruct (i =? 2)%nat, (known high i), (known low i), (known close i); try exact V; exact I.
Qed.
Lemma atr_norm_within high low i k af a : ole (wnn k) af a -> ole (wnn (k + 5)) (atr_norm_f high low i af) (atr_norm high low i a).
Proof.
  intro H. unfold atr_norm_f, atr_norm. destruct af as [xf|], a as [x|]; cbn [ole] in H; try contradiction; [|exact I].
  assert (W : wnn (k + 5) xf x) by (apply (wnn_le k); [lia|exact H]).
  destruct (known high i) as [h|]; [|exact W]. destruct (known low i) as [l|]; [|exact W]. cbv zeta.
  assert (E : 0 < r53 (r53 (h + l) / 2) <-> 0 < (h + l) / 2).
  { rewrite r53_pos_iff. assert (G : forall z, 0 < z / 2 <-> 0 < z).
    { intro z. split; intro K; [assert (z == z / 2 * 2) by field; lra|apply Qlt_shift_div_l; lra]. }
    rewrite !G. apply r53_pos_iff. }
  destruct (Qltb_spec 0 (r53 (r53 (h + l) / 2))) as [K|K], (Qltb_spec 0 ((h + l) / 2)) as [L|L]; cbn [ole]; try exact W; try (exfalso; tauto).
  - destruct H as [H1 H2]. assert (P : 0 <= h + l) by (assert (h + l == (h + l) / 2 * 2) by field; lra).
    split; [apply Qle_shift_div_l; lra|]. replace (k + 5)%nat with (S (k + 2 * 2)) by lia. apply within_div_r; [exact H1|exact L|exact H2|].
    apply within_quot; [exact P|lra|]. apply within_r53; [exact P|]. now apply within_self, P.
  - exfalso. apply E in K. lra.
  - exfalso. apply E in L. lra.
Qed.
Definition atr_steps (w i : nat) (ema norm : bool) : nat :=
  (w + 2 + (if ema then 3 * (i + 1 - w) else 0) + (if norm then 5 else 0))%nat.
Lemma atr_within high low close w ema norm ex : (1 <= w)%nat -> wf_first high low -> atr high low close w ema norm = Ok ex ->
  exists out, atr_f high low close w ema norm = Ok out /\ length out = length ex /\
    forall i, ole (wnn (atr_steps w i ema norm)) (nth i out None) (nth i ex None).
Proof.
  intros Hw W. unfold atr, atr_f, true_range, true_range_f.
  destruct ((length high =? length low)%nat && (length low =? length close)%nat)%bool; [|discriminate]. intro E. injection E as <-.
  eexists. split; [reflexivity|]. rewrite !map_length. split; [reflexivity|]. intro i.
  set (trf := map (tr_at_f high low close) _). set (tr := map (tr_at high low close) _).
  assert (T : otracks 1 trf tr) by (apply forall2_map; intro; now apply tr_at_within). clearbody trf tr.
  destruct (Nat.lt_ge_cases i (length high)) as [Hi|Hi]; [|rewrite !nth_overflow by (rewrite map_length, seq_length; lia); exact I].
  rewrite !nth_map_seq by auto.
  set (af := if ((length high <? w) || (i + 1 <? w))%nat%bool then None else if ema then atr_ema_f trf w (i + 1 - w) else atr_sma_f high low close trf w i).
  set (a := if ((length high <? w) || (i + 1 <? w))%nat%bool then None else if ema then atr_ema tr w (i + 1 - w) else atr_sma high low close tr w i).
  assert (R : ole (wnn (atr_steps w i ema false)) af a).
  { unfold af, a, atr_steps. destruct (_ || _)%bool; [exact I|]. destruct ema; [apply (ole_le (w + 2 + 3 * (i + 1 - w))); [lia|now apply atr_ema_within]|].
    apply (ole_le (w + 2)); [lia|now apply atr_sma_within]. }
  clearbody af a. unfold atr_steps in *. destruct norm; [|exact R]. apply (ole_le (w + 2 + (if ema then 3 * (i + 1 - w) else 0) + 0 + 5)); [lia|].
  now apply atr_norm_within.
Qed.

(* ---------------------------------------------------------------- realised volatility *)
Lemma sq_within v : 0 <= v * v /\ within u53 1 (r53 (v * v)) (v * v).
Proof.
  assert (P : 0 <= v * v) by (destruct (Qlt_le_dec v 0); nra). split; [exact P|]. apply within_r53; [exact P|]. now apply within_self, P.
Qed.
Lemma squares_within sumf l : sums_somehow sumf -> 0 <= qsum (map (fun v => v * v) l) /\
  within u53 (1 + length l) (sumf (map (fun v => r53 (v * v)) l)) (qsum (map (fun v => v * v) l)).
Proof.
  intro F. split; [apply qsum_nonneg; intros y Hy; apply in_map_iff in Hy; destruct Hy as [x [<- _]]; apply sq_within|].
  apply (sum_within sumf 1 (fun v => r53 (v * v)) (fun v => v * v) l F). intros x _. apply sq_within.
Qed.
Lemma length_vals l : (length (vals l) <= length l)%nat.
Proof. induction l as [|o l IH]; [cbn; lia|]. change (o :: l) with ([o] ++ l). rewrite vals_app, app_length. destruct o; cbn in *; lia. Qed.

(* ---------------------------------------------------------------- rolling variance *)
Lemma near_div k a x A c : 0 < c -> near k a x A -> near k (a / c) (x / c) (A / c).
Proof.
  intros Hc [H1 H2]. assert (I : 0 < / c) by (apply Qinv_lt_0_compat; lra).
  assert (AB : forall z, Qabs (z / c) == Qabs z * / c) by (intro z; unfold Qdiv; rewrite Qabs_Qmult, (Qabs_pos (/ c)) by lra; reflexivity).
  split; [rewrite AB; unfold Qdiv; apply Qmult_le_compat_r; lra|].
  setoid_replace (a / c - x / c) with ((a - x) / c) by (field; lra). rewrite AB. unfold Qdiv. rewrite Qmult_assoc. apply Qmult_le_compat_r; lra.
Qed.
(** The square of the mean of the absolute values is at most the mean square. *)
Lemma mean_sq_le l : l <> [] -> asum l / Qnat (length l) * (asum l / Qnat (length l)) <= qsum (map (fun x => x * x) l) / Qnat (length l).
Proof.
  intro H. assert (Hp : 0 < Qnat (length l)) by (apply Qnat_pos; destruct l; [contradiction|cbn; lia]).
  pose proof (sq_dev_nonneg (map Qabs l) (asum l / Qnat (length l))) as D. rewrite sq_dev, map_map, map_length in D.
  assert (E : qsum (map (fun x => Qabs x * Qabs x) l) == qsum (map (fun x => x * x) l)).
  { clear. induction l as [|x l IH]; cbn [map]; [reflexivity|]. rewrite !qsum_cons, IH.
    assert (Qabs x * Qabs x == x * x) by (rewrite <- Qabs_Qmult, Qabs_pos; [reflexivity|destruct (Qlt_le_dec x 0); nra]). lra. }
  rewrite E in D. fold (asum l) in D. set (q := qsum (map (fun x => x * x) l)) in *. set (n := Qnat (length l)) in *. set (s := asum l) in *. clearbody q n s.
  setoid_replace (q - 2 * (s / n) * s + s / n * (s / n) * n) with ((q / n - s / n * (s / n)) * n) in D by (field; lra).
  assert (0 <= q / n - s / n * (s / n)); [|lra]. apply (Qmult_le_r _ _ n Hp). lra.
Qed.
Lemma pmax0_close v x e : 0 <= x -> Qabs (v - x) <= e -> Qabs (pmax 0 v - x) <= e.
Proof.
  intros Hx H. unfold pmax. apply Qabs_Qle_condition in H. apply Qabs_Qle_condition. destruct (Qltb_spec 0 v); lra.
Qed.
Definition var_value_f (l : list Q) (ddof : Z) : Q :=
  let c := Qnat (length l) in
  let mean := r53 (fsum l / c) in
  r53 (r53 (r53 (fsum (map (fun x => r53 (x * x)) l) / c) - r53 (mean * mean)) * r53 (c / inject_Z (Z.of_nat (length l) - ddof))).
Lemma var_value_near l ddof : l <> [] -> (0 <= ddof < Z.of_nat (length l))%Z -> exists x, is_var x l ddof /\ 0 <= x /\
  Qabs (var_value_f l ddof - x) * inject_Z (Z.of_nat (length l) - ddof) <= ee (2 * length l + 6) * (2 * qsum (map (fun v => v * v) l)).
Proof.
  intros Hl Hd. assert (Hp : 0 < Qnat (length l)) by (apply Qnat_pos; destruct l; [contradiction|cbn; lia]).
  assert (P : 0 < inject_Z (Z.of_nat (length l) - ddof)) by (change 0 with (inject_Z 0); rewrite <- Zlt_Qlt; lia).
  destruct (squares_within fsum l (fsum_some_order)) as [Q0 QW]. pose proof (fsum_near l) as SN. pose proof (mean_sq_le l Hl) as CS.
  set (x := (qsum (map (fun v => v * v) l) / Qnat (length l) - qsum l / Qnat (length l) * (qsum l / Qnat (length l))) * (Qnat (length l) / inject_Z (Z.of_nat (length l) - ddof))).
  destruct (is_var_formula l ddof x Hl ltac:(lia)) as [V1 V2]; [unfold x; field; lra|].
  exists x. split; [exact V1|]. split; [exact V2|]. unfold var_value_f, x. cbv zeta. clear V1 V2 x.
  set (c := Qnat (length l)) in *. set (d := inject_Z (Z.of_nat (length l) - ddof)) in *. set (q := qsum (map (fun v => v * v) l)) in *.
  set (qf := fsum (map (fun v => r53 (v * v)) l)) in *. set (n := length l) in *.
  assert (QN : near (n + 2) (r53 (qf / c)) (q / c) (q / c)).
  { replace (n + 2)%nat with (S (1 + n)) by lia. apply near_rnd, near_div; [exact Hp|]. now apply near_within. }
  assert (MN : near (n + 1) (r53 (fsum l / c)) (qsum l / c) (asum l / c)).
  { replace (n + 1)%nat with (S n) by lia. apply near_rnd, near_div; [exact Hp|exact SN]. }
  assert (M2 : near (2 * n + 3) (r53 (r53 (fsum l / c) * r53 (fsum l / c))) (qsum l / c * (qsum l / c)) (asum l / c * (asum l / c))).
  { replace (2 * n + 3)%nat with (S (n + 1 + (n + 1))) by lia. apply near_rnd, near_mult; exact MN. }
  assert (DN : near (2 * n + 4) (r53 (r53 (qf / c) - r53 (r53 (fsum l / c) * r53 (fsum l / c)))) (q / c - qsum l / c * (qsum l / c)) (2 * (q / c))).
  { replace (2 * n + 4)%nat with (S (2 * n + 3)) by lia. apply near_rnd.
    apply (near_le (2 * n + 3) (2 * n + 3) _ _ (q / c + asum l / c * (asum l / c))); [lia|lra|]. apply near_minus; [|exact M2].
    apply (near_le (n + 2) (2 * n + 3) _ _ (q / c)); [lia|lra|exact QN]. }
  assert (F0 : 0 <= c / d) by (apply Qle_shift_div_l; lra).
  assert (FN : near 1 (r53 (c / d)) (c / d) (c / d)) by (apply near_rnd, near_exact; rewrite Qabs_pos; lra).
  pose proof (near_rnd _ _ _ _ (near_mult _ _ _ _ _ _ _ _ DN FN)) as [_ R]. replace (S (2 * n + 4 + 1)) with (2 * n + 6)%nat in R by lia. fold (ee (2 * n + 6)) in R.
  setoid_replace (ee (2 * n + 6) * (2 * q)) with (ee (2 * n + 6) * (2 * (q / c) * (c / d)) * d) by (field; lra).
  apply Qmult_le_compat_r; [exact R|lra].
Qed.
