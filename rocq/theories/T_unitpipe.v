(** T_unitpipe.v -- C199: stored and resampled time bars in other units. *)
From Coq Require Import Qpower.
From Verif Require Import Base M_logic M_bars M_tbio M_float M_float16 M_pipe S_units S_unitbars S_unitpipe P_units P_units2 P_units5 P_units7 P_unitpipe T_tbio.
Open Scope Q_scope.

(** Sorting by size does not depend on the units. *)
Lemma ins_follows c d b b' l l' : 0 < d -> same_stored c d b b' -> Forall2 (same_stored c d) l l' -> Forall2 (same_stored c d) (ins_med b l) (ins_med b' l').
Proof.
  intros Hd Hb H. induction H as [|x y l l' H F IH]; [constructor; [exact Hb|constructor]|]. cbn [ins_med].
  assert (E : Qleb (b_med b') (b_med y) = Qleb (b_med b) (b_med x)).
  { assert (M : sc d (b_med b) (b_med b')) by apply Hb. assert (M' : sc d (b_med x) (b_med y)) by apply H. unfold sc in *.
    destruct (Qleb (b_med b) (b_med x)) eqn:K.
    - apply Qleb_iff in K. apply Qleb_iff. rewrite M, M'. nra.
    - apply Bool.not_true_iff_false. intro J. apply Bool.not_true_iff_false in K. apply K. apply Qleb_iff in J. apply Qleb_iff. rewrite M, M' in J. nra. }
  rewrite E. destruct (Qleb (b_med b) (b_med x)); constructor; auto.
Qed.
Theorem C199_order : forall c d, 0 < d -> order_follows c d sort_med.
Proof. intros c d Hd g g' H. unfold sort_med. induction H as [|x y l l' H F IH]; [constructor|]. cbn [fold_right]. now apply ins_follows. Qed.

(** Exact arithmetic, any units: the resampled rows are the same rows in the new units. *)
Theorem C199_resample : forall c d sort tf df df', 0 < c -> 0 < d -> order_follows c d sort -> Forall2 (same_stored c d) df df' ->
  Forall2 (same_stored c d) (resample sort tf df) (resample sort tf df').
Proof. intros. now apply resample_units. Qed.
(** float32 and float64, units that are powers of two: not a bit more or less is rounded. *)
Theorem C199_resample_float : forall e f sort tf df df', order_follows (M_float.two e) (M_float.two f) sort -> Forall2 (same_stored (M_float.two e) (M_float.two f)) df df' ->
  Forall2 (same_stored (M_float.two e) (M_float.two f)) (resample_f sort tf df) (resample_f sort tf df').
Proof. intros e f sort tf df df' O H. apply resample_f_units; auto using binary_two; apply binary_pos, binary_two. Qed.
(** The same from the trades on. *)
Theorem C199_trades : forall c d sort px px' am am' ts I tf, 0 < c -> 0 < d -> order_follows c d sort -> scl c px px' -> scl d am am' ->
  match stored_bars px am ts I, stored_bars px' am' ts I with
  | Ok df, Ok df' => Forall2 (same_stored c d) (resample sort tf df) (resample sort tf df')
  | Raise x, Raise x' => x = x'
  | _, _ => False
  end.
Proof.
  intros c d sort px px' am am' ts I tf Hc Hd O Hp Ha. pose proof (stored_bars_units c d px px' am am' ts I Hc Hd Hp Ha) as K.
  destruct (stored_bars px am ts I), (stored_bars px' am' ts I); cbn [both] in K; try exact K. now apply resample_units.
Qed.
Theorem C199_trades_float : forall e f sort px px' am am' ts I tf, order_follows (M_float.two e) (M_float.two f) sort -> scl (M_float.two e) px px' -> scl (M_float.two f) am am' ->
  match stored_bars_f px am ts I, stored_bars_f px' am' ts I with
  | Ok df, Ok df' => Forall2 (same_stored (M_float.two e) (M_float.two f)) (resample_f sort tf df) (resample_f sort tf df')
  | Raise x, Raise x' => x = x'
  | _, _ => False
  end.
Proof.
  intros e f sort px px' am am' ts I tf O Hp Ha. pose proof (stored_bars_f_units _ _ px px' am am' ts I (binary_two e) (binary_two f) Hp Ha) as K.
  destruct (stored_bars_f px am ts I), (stored_bars_f px' am' ts I); cbn [both] in K; try exact K. now apply C199_resample_float.
Qed.

(** Two bars of float32 volumes, in units of one and of a tenth. *)
Definition vbar (t : Z) (v : Q) : bar := mkBar t (Some 1) (Some 1) (Some 1) (Some 1) v 1 (Some 1) v.
(** In floats other units are not exact: the volumes of two bars, ten times as large, do not add up to ten times the volume. *)
Theorem C199_any_unit_refuted : exists v w v' w', r24 v == v /\ r24 w == w /\ v' = r24 (10 * v) /\ w' = r24 (10 * w) /\
  exists r r', resample_f sort_med 2 [vbar 0 v; vbar 1 w] = [r] /\ resample_f sort_med 2 [vbar 0 v'; vbar 1 w'] = [r'] /\ ~ b_vol r' == r24 (10 * b_vol r).
Proof.
  exists (r24 (1 # 10)), (r24 (6 # 10)), (r24 (10 * r24 (1 # 10))), (r24 (10 * r24 (6 # 10))).
  split; [vm_compute; reflexivity|]. split; [vm_compute; reflexivity|]. split; [reflexivity|]. split; [reflexivity|].
  eexists. eexists. split; [vm_compute; reflexivity|]. split; [vm_compute; reflexivity|]. vm_compute. discriminate.
Qed.

(** Three bars in two periods; the second period has no trade. *)
Definition ub : list bar :=
  [mkBar 0 (Some 10) (Some 12) (Some 9) (Some 11) (r24 (1 # 10)) 1 (Some 10) (r24 (1 # 10));
   mkBar 1 (Some 11) (Some 11) (Some 8) (Some 8) (r24 (6 # 10)) 2 (Some 9) (r24 (3 # 10));
   mkBar 2 (Some 8) (Some 8) (Some 8) (Some 8) 0 0 None 0]%Q.
Definition osize (c : Q) (x : option Q) : option Q := match x with Some a => Some (c * a) | None => None end.
Definition rebar (c d : Q) (b : bar) : bar :=
  mkBar (b_ts b) (osize c (b_open b)) (osize c (b_high b)) (osize c (b_low b)) (osize c (b_close b)) (d * b_vol b) (b_trades b) (osize c (b_vwap b)) (d * b_med b).
Lemma rebar_same c d b : same_stored c d b (rebar c d b).
Proof. destruct b as [t [o|] [h|] [l|] [k|] v n [w|] m]; repeat split; cbn; try exact I; reflexivity. Qed.
Lemma rebars_same c d l : Forall2 (same_stored c d) l (map (rebar c d) l).
Proof. induction l; constructor; [apply rebar_same|assumption]. Qed.
Lemma F2_pair {A} (R : A -> A -> Prop) a b c d : Forall2 R [a; b] [c; d] -> R a c /\ R b d.
Proof. intro H. inversion H as [|x y l m P Q]; subst. inversion Q; subst. now split. Qed.
Example C199_example : exists r s r' s', resample sort_med 2 ub = [r; s] /\ resample sort_med 2 (map (rebar 7 3) ub) = [r'; s'] /\
  same_stored 7 3 r r' /\ same_stored 7 3 s s' /\ b_open r' = Some 70 /\ b_vwap s' = None /\ b_trades r' = 3%Z.
Proof.
  pose proof (C199_resample 7 3 sort_med 2 ub _ eq_refl eq_refl (C199_order 7 3 eq_refl) (rebars_same 7 3 ub)) as H.
  eexists _, _, _, _. split; [vm_compute; reflexivity|]. split; [vm_compute; reflexivity|].
  vm_compute in H. apply F2_pair in H. split; [exact (proj1 H)|]. split; [exact (proj2 H)|]. now repeat split.
Qed.
Example C199_example_float : exists r s r' s', resample_f sort_med 2 ub = [r; s] /\ resample_f sort_med 2 (map (rebar (M_float.two 5) (M_float.two (-2))) ub) = [r'; s'] /\
  same_stored (M_float.two 5) (M_float.two (-2)) r r' /\ same_stored (M_float.two 5) (M_float.two (-2)) s s' /\ b_vwap s' = None /\ 0 < b_vol r'.
Proof.
  pose proof (C199_resample_float 5 (-2) sort_med 2 ub _ (C199_order _ _ (binary_pos _ (binary_two (-2)))) (rebars_same _ _ ub)) as H.
  eexists _, _, _, _. split; [vm_compute; reflexivity|]. split; [vm_compute; reflexivity|].
  vm_compute in H. apply F2_pair in H. split; [exact (proj1 H)|]. split; [exact (proj2 H)|]. now repeat split.
Qed.
(** Trades in both units give bars. *)
Definition ut : list Z := [1600000000500000000; 1600000002500000000; 1600000010500000000]%Z.
Example C199_example_trades : exists df df', stored_bars [100; 50; 60] [1; 2; 3] ut 1000000000 = Ok df /\ stored_bars [10000; 5000; 6000] [1000; 2000; 3000] ut 1000000000 = Ok df' /\
  scl 100 [100; 50; 60] [10000; 5000; 6000] /\ scl 1000 [1; 2; 3] [1000; 2000; 3000] /\ length (resample sort_med 4000000000 df') = 3%nat.
Proof. eexists _, _. split; [vm_compute; reflexivity|]. split; [vm_compute; reflexivity|]. split; [repeat constructor|]. split; [repeat constructor|]. vm_compute. reflexivity. Qed.
Example C199_example_trades_float : exists df df', stored_bars_f [100; 50; 60] [1; 2; 3] ut 1000000000 = Ok df /\ stored_bars_f [400; 200; 240] [1 # 2; 1; 3 # 2] ut 1000000000 = Ok df' /\
  scl (M_float.two 2) [100; 50; 60] [400; 200; 240] /\ scl (M_float.two (-1)) [1; 2; 3] [1 # 2; 1; 3 # 2] /\ length (resample_f sort_med 4000000000 df') = 3%nat.
Proof. eexists _, _. split; [vm_compute; reflexivity|]. split; [vm_compute; reflexivity|]. split; [repeat constructor|]. split; [repeat constructor|]. vm_compute. reflexivity. Qed.

Print Assumptions C199_order.
Print Assumptions C199_resample.
Print Assumptions C199_resample_float.
Print Assumptions C199_trades.
Print Assumptions C199_trades_float.
Print Assumptions C199_any_unit_refuted.
