(** P_level.v -- indicators of prices with a constant added or turned upside down. *)
From Coq Require Import Qfield.
From Verif Require Import Base M_logic M_bars M_features M_volat M_cusumtest S_units S_level P_units P_units2 P_units3 P_units4 P_units6 P_features.
Open Scope Q_scope.

Lemma sign_sq s : sign_like s -> s * s == 1.
Proof. intros [->| ->]; reflexivity. Qed.
Lemma linl_length s d l l' : linl s d l l' -> length l' = length l.
Proof. intro H. symmetry. eapply F2_length; eauto. Qed.
Lemma F2_nth_in {A B} (R : A -> B -> Prop) d e l m i : Forall2 R l m -> (i < length l)%nat -> R (nth i l d) (nth i m e).
Proof. intro H. revert i. induction H as [|x y l m Hx H IH]; intros i Hi; [cbn in Hi; lia|]. destruct i; cbn [nth]; [exact Hx|]. apply IH. cbn in Hi. lia. Qed.
Lemma linl_qn s d l l' i : linl s d l l' -> (i < length l)%nat -> lin s d (qn l i) (qn l' i).
Proof. intros H Hi. unfold qn. now apply (F2_nth_in (lin s d)). Qed.
Lemma linl_lastn s d l l' i n : linl s d l l' -> linl s d (lastn l i n) (lastn l' i n).
Proof. intro H. unfold lastn. now apply F2_firstn, F2_skipn. Qed.
Lemma linl_qsum s d l l' : linl s d l l' -> qsum l' == s * qsum l + d * Qnat (length l).
Proof.
  induction 1 as [|x y l m Hx H IH]; cbn [qsum fold_right length]; [unfold Qnat; cbn; ring|].
  fold (qsum l) (qsum m). unfold lin in Hx. rewrite IH, Hx. unfold Qnat. rewrite Nat2Z.inj_succ. unfold Z.succ. rewrite inject_Z_plus. ring.
Qed.
Lemma Qnat_pos n : (1 <= n)%nat -> 0 < Qnat n.
Proof. intro H. unfold Qnat. change 0 with (inject_Z 0). rewrite <- Zlt_Qlt. lia. Qed.
Lemma lastn_len l i n : (n <= i + 1)%nat -> (i < length l)%nat -> length (lastn l i n) = n.
Proof. intros H1 H2. unfold lastn. rewrite firstn_length, skipn_length. lia. Qed.

(** ** Averages *)
Lemma sma_level s d xs xs' w : (1 <= w)%nat -> linl s d xs xs' -> olinl s d (sma xs w) (sma xs' w).
Proof.
  intros Hw H. unfold sma. rewrite (linl_length _ _ _ _ H). apply F2_map_same. intros i Hi. apply in_seq in Hi.
  destruct (Nat.ltb_spec (i + 1) w); [exact I|]. cbn [olin]. unfold lin.
  rewrite (linl_qsum s d _ _ (linl_lastn s d xs xs' i w H)), lastn_len by lia. pose proof (Qnat_pos w Hw). field. lra.
Qed.
Lemma ewma_loop_level s d alpha : 0 <= 1 - alpha -> forall ys ys' u u' v, linl s d ys ys' -> 0 < v -> u' == s * u + d * v ->
  linl s d (ewma_loop alpha u v ys) (ewma_loop alpha u' v ys').
Proof.
  intro Ha. intros ys ys' u u' v H. revert u u' v. induction H as [|y y' l l' Hy H IH]; intros u u' v Hv Hu; cbn [ewma_loop]; constructor.
  - assert (0 < 1 + (1 - alpha) * v) by nra. unfold lin in *. rewrite Hy, Hu. field. lra.
  - apply IH; [nra|]. unfold lin in Hy. rewrite Hy, Hu. ring.
Qed.
Lemma ewma_level s d ys ys' span : linl s d ys ys' -> both (linl s d) (ewma ys span) (ewma ys' span).
Proof.
  intro H. unfold ewma. destruct (Z.ltb_spec span 1); [reflexivity|]. destruct H as [|y y' l l' Hy H]; cbn [both]; constructor.
  - unfold lin in *. rewrite Hy. field.
  - apply ewma_loop_level; [|exact H|reflexivity|unfold lin in Hy; rewrite Hy; ring].
    assert (1 <= inject_Z span) by (change 1 with (inject_Z 1); rewrite <- Zle_Qle; lia).
    assert (2 / (inject_Z span + 1) <= 1); [|lra]. apply Qle_shift_div_r; lra.
Qed.

(** ** RSI *)
Lemma diff_level s d p p' i : linl s d p p' -> (1 <= i < length p)%nat -> diff p' i == s * diff p i.
Proof.
  intros H Hi. unfold diff. pose proof (linl_qn s d p p' i H ltac:(lia)) as A. pose proof (linl_qn s d p p' (i - 1) H ltac:(lia)) as B.
  unfold lin in *. rewrite A, B. ring.
Qed.
Lemma wilder_ext w a a' x x' k : a == a' -> (forall i, (w < i <= w + k)%nat -> x i == x' i) -> wilder w a x k == wilder w a' x' k.
Proof.
  intros Ha. induction k as [|k IH]; intro H; [exact Ha|]. cbn [wilder]. rewrite (H (w + S k)%nat) by lia. rewrite IH; [reflexivity|]. intros; apply H; lia.
Qed.
Lemma wilder_nonneg w a x k : (1 <= w)%nat -> 0 <= a -> (forall i, 0 <= x i) -> 0 <= wilder w a x k.
Proof.
  intros Hw Ha Hx. induction k as [|k IH]; [exact Ha|]. cbn [wilder]. pose proof (Qnat_pos w Hw). specialize (Hx (w + S k)%nat).
  assert (1 <= Qnat w) by (unfold Qnat; change 1 with (inject_Z 1); rewrite <- Zle_Qle; lia).
  apply Qle_shift_div_l; [lra|]. nra.
Qed.
Lemma gain_nonneg p i : 0 <= gain p i.
Proof. unfold gain. destruct (Qltb_spec 0 (diff p i)); lra. Qed.
Lemma loss_nonneg p i : 0 <= loss p i.
Proof. unfold loss. destruct (Qltb_spec (diff p i) 0); lra. Qed.
Lemma gain_pd_same p i : gain_pd p i == gain p i.
Proof. unfold gain_pd, gain. destruct (Qltb_spec (diff p i) 0), (Qltb_spec 0 (diff p i)); lra. Qed.
Lemma loss_pd_same p i : loss_pd p i == loss p i.
Proof. unfold loss_pd, loss. destruct (Qltb_spec (diff p i) 0), (Qltb_spec 0 (diff p i)); lra. Qed.
Lemma gl_same d p p' i : linl 1 d p p' -> (1 <= i < length p)%nat -> gain p' i == gain p i /\ loss p' i == loss p i.
Proof.
  intros H Hi. pose proof (diff_level 1 d p p' i H Hi) as D. unfold gain, loss.
  destruct (Qltb_spec 0 (diff p' i)), (Qltb_spec 0 (diff p i)), (Qltb_spec (diff p' i) 0), (Qltb_spec (diff p i) 0); split; lra.
Qed.
Lemma gl_swap d p p' i : linl (-(1)) d p p' -> (1 <= i < length p)%nat -> gain p' i == loss p i /\ loss p' i == gain p i.
Proof.
  intros H Hi. pose proof (diff_level (-(1)) d p p' i H Hi) as D. unfold gain, loss.
  destruct (Qltb_spec 0 (diff p' i)), (Qltb_spec 0 (diff p i)), (Qltb_spec (diff p' i) 0), (Qltb_spec (diff p i) 0); split; lra.
Qed.
Lemma rsi_sums_gl p w : forall a b k, fst (fold_left (fun s i => let d := diff p i in if Qltb 0 d then (fst s + d, snd s) else (fst s, snd s + - d)) (seq k w) (a, b))
    == a + qsum (map (gain p) (seq k w)) /\
  snd (fold_left (fun s i => let d := diff p i in if Qltb 0 d then (fst s + d, snd s) else (fst s, snd s + - d)) (seq k w) (a, b))
    == b + qsum (map (loss p) (seq k w)).
Proof.
  induction w as [|w IH]; intros a b k; cbn [seq fold_left map qsum fold_right fst snd]; [split; ring|]. cbv zeta. fold (qsum (map (gain p) (seq (S k) w))) (qsum (map (loss p) (seq (S k) w))).
  assert (G : gain p k == if Qltb 0 (diff p k) then diff p k else 0) by reflexivity.
  assert (L : loss p k == if Qltb (diff p k) 0 then - diff p k else 0) by reflexivity.
  destruct (Qltb_spec 0 (diff p k)); [destruct (IH (a + diff p k) b (S k)) as [E1 E2]|destruct (IH a (b + - diff p k) (S k)) as [E1 E2]];
    destruct (Qltb_spec (diff p k) 0); split; rewrite ?E1, ?E2; lra.
Qed.
Lemma rsi_sums_eq p w : fst (rsi_sums p w) == qsum (map (gain p) (seq 1 w)) /\ snd (rsi_sums p w) == qsum (map (loss p) (seq 1 w)).
Proof. unfold rsi_sums. destruct (rsi_sums_gl p w 0 0 1) as [A B]. rewrite A, B. split; ring. Qed.
Lemma qsum_ext {A} (f g : A -> Q) l : (forall x, In x l -> f x == g x) -> qsum (map f l) == qsum (map g l).
Proof.
  induction l as [|x l IH]; intro H; cbn [map qsum fold_right]; [reflexivity|]. fold (qsum (map f l)) (qsum (map g l)).
  rewrite (H x (or_introl eq_refl)), IH; [reflexivity|]. intros; apply H; now right.
Qed.
Lemma qsum_nonneg {A} (f : A -> Q) l : (forall x, 0 <= f x) -> 0 <= qsum (map f l).
Proof. intro H. induction l as [|x l IH]; cbn [map qsum fold_right]; [lra|]. fold (qsum (map f l)). specialize (H x). lra. Qed.

(** Average gain and loss of a bar. *)
Definition avg_gain (p : list Q) (w i : nat) : Q := wilder w (fst (rsi_sums p w) / Qnat w) (gain p) (i - w).
Definition avg_loss (p : list Q) (w i : nat) : Q := wilder w (snd (rsi_sums p w) / Qnat w) (loss p) (i - w).
Lemma avgs_nonneg p w i : (1 <= w)%nat -> 0 <= avg_gain p w i /\ 0 <= avg_loss p w i.
Proof.
  intro Hw. destruct (rsi_sums_eq p w) as [A B]. pose proof (Qnat_pos w Hw).
  split; (apply wilder_nonneg; [exact Hw| |first [apply gain_nonneg|apply loss_nonneg]]); rewrite ?A, ?B; (apply Qle_shift_div_l; [lra|]);
    rewrite Qmult_0_l; apply qsum_nonneg; first [apply gain_nonneg|apply loss_nonneg].
Qed.
Lemma avgs_same d p p' w i : linl 1 d p p' -> (w <= i < length p)%nat -> avg_gain p' w i == avg_gain p w i /\ avg_loss p' w i == avg_loss p w i.
Proof.
  intros H Hi. destruct (rsi_sums_eq p w) as [A B]. destruct (rsi_sums_eq p' w) as [A' B'].
  unfold avg_gain, avg_loss. split; apply wilder_ext; try (intros j Hj; apply (gl_same d p p' j H); lia).
  - rewrite A, A'. rewrite (qsum_ext (gain p') (gain p)); [reflexivity|]. intros j Hj. apply in_seq in Hj. apply (gl_same d p p' j H). lia.
  - rewrite B, B'. rewrite (qsum_ext (loss p') (loss p)); [reflexivity|]. intros j Hj. apply in_seq in Hj. apply (gl_same d p p' j H). lia.
Qed.
Lemma avgs_swap d p p' w i : linl (-(1)) d p p' -> (w <= i < length p)%nat -> avg_gain p' w i == avg_loss p w i /\ avg_loss p' w i == avg_gain p w i.
Proof.
  intros H Hi. destruct (rsi_sums_eq p w) as [A B]. destruct (rsi_sums_eq p' w) as [A' B'].
  unfold avg_gain, avg_loss. split; apply wilder_ext; try (intros j Hj; apply (gl_swap d p p' j H); lia).
  - rewrite B, A'. rewrite (qsum_ext (gain p') (loss p)); [reflexivity|]. intros j Hj. apply in_seq in Hj. apply (gl_swap d p p' j H). lia.
  - rewrite A, B'. rewrite (qsum_ext (loss p') (gain p)); [reflexivity|]. intros j Hj. apply in_seq in Hj. apply (gl_swap d p p' j H). lia.
Qed.
Lemma rsi_shift d p p' w : (1 <= w)%nat -> linl 1 d p p' -> oscl 1 (rsi_wilder p w) (rsi_wilder p' w).
Proof.
  intros Hw H. unfold rsi_wilder. rewrite (linl_length _ _ _ _ H). apply F2_map_same. intros i Hi. apply in_seq in Hi.
  destruct (Nat.ltb_spec i w); [exact I|]. cbv zeta. fold (avg_gain p w i) (avg_loss p w i) (avg_gain p' w i) (avg_loss p' w i).
  destruct (avgs_same d p p' w i H ltac:(lia)) as [G L]. unfold rsi_value.
  destruct (Qltb_spec 0 (avg_loss p w i)), (Qltb_spec 0 (avg_loss p' w i)); try lra; [|exact I]. cbn [osc]. unfold sc. rewrite G, L. ring.
Qed.
Lemma rsi_turn d p p' w : (1 <= w)%nat -> linl (-(1)) d p p' -> Forall2 turned (rsi_wilder p w) (rsi_wilder p' w).
Proof.
  intros Hw H. unfold rsi_wilder. rewrite (linl_length _ _ _ _ H). apply F2_map_same. intros i Hi. apply in_seq in Hi.
  destruct (Nat.ltb_spec i w); [exact I|]. cbv zeta. fold (avg_gain p w i) (avg_loss p w i) (avg_gain p' w i) (avg_loss p' w i).
  destruct (avgs_swap d p p' w i H ltac:(lia)) as [G L]. destruct (avgs_nonneg p w i Hw) as [N1 N2]. unfold rsi_value.
  set (g := avg_gain p w i) in *. set (l := avg_loss p w i) in *. clearbody g l.
  destruct (Qltb_spec 0 l) as [P|P], (Qltb_spec 0 (avg_loss p' w i)) as [Q0|Q0]; cbn [turned]; try exact I.
  - rewrite G, L. assert (0 < g) by lra. field. repeat split; lra.
  - assert (E : g == 0) by lra. rewrite E. field. lra.
  - assert (E : l == 0) by lra. rewrite G, L, E. field. lra.
Qed.
Lemma rsi_value_pd_comp g g' l l' : g == g' -> l == l' -> rsi_value_pd g l == rsi_value_pd g' l'.
Proof.
  intros G L. unfold rsi_value_pd. destruct (Qeqb_spec l 0), (Qeqb_spec l' 0); try lra. now rewrite G, L.
Qed.
Lemma rsi_pd_avgs p w i : (w <= i)%nat ->
  rsi_value_pd (wilder w (qsum (map (gain_pd p) (seq 1 w)) / Qnat w) (gain_pd p) (i - w)) (wilder w (qsum (map (loss_pd p) (seq 1 w)) / Qnat w) (loss_pd p) (i - w))
  == rsi_value_pd (avg_gain p w i) (avg_loss p w i).
Proof.
  intro Hi. destruct (rsi_sums_eq p w) as [A B]. apply rsi_value_pd_comp; apply wilder_ext; try (intros; first [apply gain_pd_same|apply loss_pd_same]).
  - rewrite A. rewrite (qsum_ext (gain_pd p) (gain p)); [reflexivity|]. intros; apply gain_pd_same.
  - rewrite B. rewrite (qsum_ext (loss_pd p) (loss p)); [reflexivity|]. intros; apply loss_pd_same.
Qed.
Lemma rsi_pd_shift d p p' w : (1 <= w)%nat -> linl 1 d p p' -> both (oscl 1) (rsi_pd p w) (rsi_pd p' w).
Proof.
  intros Hw H. unfold rsi_pd. rewrite (linl_length _ _ _ _ H). destruct (Nat.leb_spec (length p) w); [reflexivity|]. cbn [both]. cbv zeta.
  apply F2_map_same. intros i Hi. apply in_seq in Hi. destruct (Nat.ltb_spec i w); [exact I|]. cbn [osc]. unfold sc. rewrite !rsi_pd_avgs by lia.
  destruct (avgs_same d p p' w i H ltac:(lia)) as [G L]. rewrite (rsi_value_pd_comp _ _ _ _ G L). ring.
Qed.
Lemma rsi_pd_turn d p p' w : (1 <= w)%nat -> linl (-(1)) d p p' -> both (Forall2 turned_pd) (rsi_pd p w) (rsi_pd p' w).
Proof.
  intros Hw H. unfold rsi_pd. rewrite (linl_length _ _ _ _ H). destruct (Nat.leb_spec (length p) w); [reflexivity|]. cbn [both]. cbv zeta.
  apply F2_map_same. intros i Hi. apply in_seq in Hi. destruct (Nat.ltb_spec i w); [exact I|]. cbn [turned_pd]. rewrite !rsi_pd_avgs by lia.
  destruct (avgs_swap d p p' w i H ltac:(lia)) as [G L]. rewrite (rsi_value_pd_comp _ _ _ _ G L). destruct (avgs_nonneg p w i Hw) as [N1 N2].
  set (g := avg_gain p w i) in *. set (l := avg_loss p w i) in *. clearbody g l. unfold rsi_value_pd.
  destruct (Qeqb_spec l 0) as [P|P], (Qeqb_spec g 0) as [P2|P2].
  - right. split; reflexivity.
  - left. rewrite P. field. lra.
  - left. rewrite P2. field. lra.
  - left. assert (0 < g) by lra. assert (0 < l) by lra. field. repeat split; lra.
Qed.
