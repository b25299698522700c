(** P_weightsf.v -- uniqueness and return attribution in float64. *)
From Coq Require Import Permutation.
From Verif Require Import Base M_weights S_weights P_weights P_weights2 M_float M_float2 M_float6 S_float S_sumf P_float P_float9 P_float12 P_float13 P_sumf.
Open Scope Q_scope.

Lemma map_pair_fst {A} (f g : A -> Q) l : map fst (map (fun x => (f x, g x)) l) = map f l.
Proof. rewrite map_map. apply map_ext. reflexivity. Qed.
Lemma map_pair_snd {A} (f g : A -> Q) l : map snd (map (fun x => (f x, g x)) l) = map g l.
Proof. rewrite map_map. apply map_ext. reflexivity. Qed.
(** A sum in any order of rounded terms. *)
Lemma sum_within {A} sumf k (f g : A -> Q) l : sums_somehow sumf -> (forall x, In x l -> 0 <= g x /\ within u53 k (f x) (g x)) ->
  within u53 (k + length l) (sumf (map f l)) (qsum (map g l)).
Proof.
  intros HS H. pose proof (some_order_within _ _ (HS (map f l)) k (map (fun x => (f x, g x)) l) (map_pair_fst f g l)) as W. rewrite map_pair_snd, map_length in W. apply W.
  intros p Hp. apply in_map_iff in Hp. destruct Hp as (x & <- & Hx). now apply H.
Qed.
Lemma sum_le {A} sumf z (f g : A -> Q) l : sums_somehow sumf -> (forall x, In x l -> f x <= g x /\ grid z (g x) /\ 0 <= g x) -> qsum (map g l) <= two (53 + z) ->
  sumf (map f l) <= qsum (map g l).
Proof.
  intros HS H T. pose proof (some_order_le _ _ (HS (map f l)) z (map (fun x => (f x, g x)) l) (map_pair_fst f g l)) as W. rewrite map_pair_snd in W. apply W; [|exact T].
  intros p Hp. apply in_map_iff in Hp. destruct Hp as (x & <- & Hx). now apply H.
Qed.
Lemma sum_ge {A} sumf z (f g : A -> Q) l : sums_somehow sumf -> (forall x, In x l -> g x <= f x /\ grid z (g x) /\ 0 <= g x) -> qsum (map g l) <= two (53 + z) ->
  qsum (map g l) <= sumf (map f l).
Proof.
  intros HS H T. pose proof (some_order_ge _ _ (HS (map f l)) z (map (fun x => (f x, g x)) l) (map_pair_fst f g l)) as W. rewrite map_pair_snd in W. apply W; [|exact T].
  intros p Hp. apply in_map_iff in Hp. destruct Hp as (x & <- & Hx). now apply H.
Qed.

(** ** Uniqueness *)
Section Mean.
  Variable sumf : list Q -> Q.
  Hypothesis HS : sums_somehow sumf.
  Variables (f : nat -> nat) (s m : nat).
  Hypothesis Hm : (0 < m)%nat.
  Hypothesis Hf : forall j, (s <= j < s + m)%nat -> (0 < f j)%nat.
  Let t := fun j : nat => 1 / Qnat (f j).
  Let S0 := qsum (map t (seq s m)).
  Let F0 := sumf (map (fun j => r53 (t j)) (seq s m)).

  Lemma mean_inverse_f_spec : mean_inverse_f sumf (map (fun j => Z.of_nat (f j)) (seq s m)) = Fin (r53 (F0 / Qnat m)).
  Proof.
    unfold mean_inverse_f. rewrite map_length, seq_length. destruct (Nat.eqb_spec m 0); [lia|].
    replace (existsb _ _) with false; [unfold F0; now rewrite map_map|]. symmetry. apply not_true_iff_false.
    rewrite existsb_exists. intros [x [Hx Hz]]. apply in_map_iff in Hx. destruct Hx as [j [<- Hj]].
    apply in_seq in Hj. specialize (Hf j). lia.
  Qed.
  Lemma t_range j : In j (seq s m) -> 0 < t j <= 1 /\ (f j = 1%nat \/ t j <= 1 # 2).
  Proof.
    intro Hj. apply in_seq in Hj. specialize (Hf j Hj). pose proof (Qnat_le 1 _ Hf) as H1. change (Qnat 1) with 1 in H1. unfold t.
    split; [split; [apply Qlt_shift_div_l; lra|apply Qle_shift_div_r; lra]|]. destruct (Nat.eq_dec (f j) 1); [now left|right]. pose proof (Qnat_le 2 (f j) ltac:(lia)) as H2. change (Qnat 2) with 2 in H2. apply Qle_shift_div_r; lra.
  Qed.
  Lemma mean_sum_pos : 0 < S0.
  Proof.
    assert (HI : In s (seq s m)) by (apply in_seq; lia). pose proof (t_range s HI) as [T _].
    assert (t s <= S0); [|lra]. apply qsum_elem_le; [|now apply in_map]. intros y Hy. apply in_map_iff in Hy. destruct Hy as (j & <- & Hj). apply t_range in Hj. lra.
  Qed.
  Lemma mean_within : within u53 (m + 2) (r53 (F0 / Qnat m)) (S0 / Qnat m).
  Proof.
    replace (m + 2)%nat with (S (S m)) by lia. pose proof (Qnat_pos m Hm). pose proof mean_sum_pos. apply within_quot; [lra|assumption|].
    replace (S m) with (1 + length (seq s m))%nat by (rewrite seq_length; lia). apply sum_within; [exact HS|]. intros j Hj. apply t_range in Hj. split; [lra|]. apply within_r53; [lra|]. apply within_self; [exact u53_bounds|lra].
  Qed.
  Hypothesis Hbig : (Z.of_nat m <= 2 ^ 52)%Z.
  Lemma Qnat_m_two : Qnat m <= two 52.
  Proof. unfold Qnat. rewrite two_Z by lia. rewrite <- Zle_Qle. exact Hbig. Qed.
  Lemma grid_half : grid (-1) (1 # 2).
  Proof. exists 1%Z. reflexivity. Qed.
  Lemma grid_1 : grid (-1) 1.
  Proof. exists 2%Z. reflexivity. Qed.
  Lemma fl_half : fl 53 (1 # 2).
  Proof. exists 1%Z, (-1)%Z. split; [vm_compute; reflexivity|reflexivity]. Qed.
  Lemma sum_bound_half j0 : In j0 (seq s m) -> f j0 <> 1%nat -> F0 <= Qnat m - (1 # 2).
  Proof.
    intros Hj Hn. set (g := fun j => if (j =? j0)%nat then 1 # 2 else 1).
    assert (E : qsum (map g (seq s m)) == Qnat m - (1 # 2)).
    { assert (E1 : qsum (map g (seq s m)) == qsum (map (fun j => 1 + (if (j =? j0)%nat then - (1 # 2) else 0)) (seq s m))).
      { apply qsum_map_ext. intros j _. unfold g. destruct (j =? j0)%nat; reflexivity. }
      rewrite E1, qsum_map_plus, qsum_map_const, seq_length.
      assert (E2 : forall l, NoDup l -> qsum (map (fun j => if (j =? j0)%nat then - (1 # 2) else 0) l) == if existsb (Nat.eqb j0) l then - (1 # 2) else 0).
      { induction l as [|a l IH]; intro ND; [reflexivity|]. inversion ND; subst. rewrite map_cons, qsum_cons, (IH H2). cbn [existsb]. rewrite Nat.eqb_sym. destruct (Nat.eqb_spec j0 a) as [->|Ha]; cbn [orb]; [|ring].
        replace (existsb (Nat.eqb a) l) with false; [ring|]. symmetry. apply not_true_iff_false. rewrite existsb_exists. intros (x & Hx & Ex). apply Nat.eqb_eq in Ex. subst. contradiction. }
      rewrite E2 by apply seq_NoDup. replace (existsb (Nat.eqb j0) (seq s m)) with true; [unfold Qnat; ring|]. symmetry. apply existsb_exists. exists j0. split; [exact Hj|apply Nat.eqb_refl]. }
    rewrite <- E. apply (sum_le sumf (-1)); [exact HS| |rewrite E; pose proof Qnat_m_two; change (53 + -1)%Z with 52%Z; lra].
    intros j Hjj. pose proof (t_range j Hjj) as [T T2]. unfold g. destruct (Nat.eqb_spec j j0) as [->|Hne].
    - split; [|split; [exact grid_half|lra]]. apply rnd_le; [lia|exact fl_half|]. destruct T2; [contradiction|assumption].
    - split; [|split; [exact grid_1|lra]]. apply rnd_le; [lia|exact fl_1|lra].
  Qed.
  Lemma sum_bound : F0 <= Qnat m.
  Proof.
    assert (E : qsum (map (fun _ : nat => 1) (seq s m)) == Qnat m) by (rewrite qsum_map_const, seq_length; unfold Qnat; ring). rewrite <- E.
    apply (sum_le sumf (-1)); [exact HS| |rewrite E; exact Qnat_m_two]. intros j Hjj. pose proof (t_range j Hjj) as [T _]. split; [|split; [exact grid_1|lra]]. apply rnd_le; [lia|exact fl_1|lra].
  Qed.
  Lemma mean_range : 0 < r53 (F0 / Qnat m) <= 1.
  Proof.
    pose proof (Qnat_pos m Hm). pose proof mean_sum_pos. split.
    - apply (within_pos (m + 2) _ (S0 / Qnat m)); [apply Qlt_shift_div_l; lra|exact mean_within].
    - apply rnd_le; [lia|exact fl_1|]. pose proof sum_bound. apply Qle_shift_div_r; lra.
  Qed.
  Lemma mean_one : r53 (F0 / Qnat m) == 1 <-> S0 / Qnat m == 1.
  Proof.
    pose proof (Qnat_pos m Hm) as HP. split.
    - intro E. assert (A : forall j, In j (seq s m) -> f j = 1%nat).
      { intros j Hj. destruct (Nat.eq_dec (f j) 1) as [|Hn]; [assumption|exfalso]. pose proof (sum_bound_half j Hj Hn) as B.
        assert (C : r53 (F0 / Qnat m) <= 1 - two (-53)); [|assert (0 < two (-53)) by apply two_pos; lra].
        apply rnd_le; [lia| |].
        - exists (2 ^ 53 - 1)%Z, (-53)%Z. split; [vm_compute; reflexivity|vm_compute; reflexivity].
        - apply Qle_trans with ((Qnat m - (1 # 2)) / Qnat m); [apply Qmult_le_compat_r; [exact B|apply Qlt_le_weak, Qinv_lt_0_compat; exact HP]|]. apply Qle_shift_div_r; [exact HP|].
          pose proof Qnat_m_two as M2. assert (E2 : two (-53) * two 52 == 1 # 2) by reflexivity. pose proof (two_pos (-53)) as T0.
          assert (two (-53) * Qnat m <= two (-53) * two 52) by (rewrite !(Qmult_comm (two (-53))); apply Qmult_le_compat_r; lra). lra. }
      assert (E2 : S0 == qsum (map (fun _ => 1) (seq s m))).
      { apply qsum_map_ext. intros j Hj. unfold t. rewrite (A j Hj). reflexivity. }
      rewrite E2, qsum_map_const, seq_length. fold (Qnat m). field. lra.
    - intro E. assert (A : forall j, In j (seq s m) -> t j == 1).
      { assert (B : S0 == Qnat m) by (apply Qmult_inj_r with (/ Qnat m); [intro X; pose proof (Qinv_lt_0_compat _ HP); lra|]; rewrite Qmult_inv_r by lra; exact E).
        assert (C : qsum (map (fun j => 1 - t j) (seq s m)) == 0).
        { assert (C1 : qsum (map (fun j => 1 - t j) (seq s m)) == qsum (map (fun j => 1 + - (1) * t j) (seq s m))) by (apply qsum_map_ext; intros; ring).
          rewrite C1, qsum_map_plus, qsum_map_scal, qsum_map_const, seq_length. fold S0. rewrite B. unfold Qnat. ring. }
        intros j Hj. assert (Z0 : 1 - t j == 0).
        { apply (qsum_zero_all (map (fun j => 1 - t j) (seq s m))); [|lra|apply (in_map (fun j => 1 - t j)); exact Hj]. intros y Hy. apply in_map_iff in Hy. destruct Hy as (q & <- & Hq). apply t_range in Hq. lra. }
        lra. }
      assert (E1 : qsum (map (fun _ : nat => 1) (seq s m)) == Qnat m) by (rewrite qsum_map_const, seq_length; unfold Qnat; ring).
      assert (F1 : Qnat m <= F0).
      { rewrite <- E1. apply (sum_ge sumf (-1)); [exact HS| |rewrite E1; exact Qnat_m_two]. intros j Hjj. split; [|split; [exact grid_1|lra]]. apply rnd_ge; [lia|exact fl_1|]. rewrite (A j Hjj). lra. }
      pose proof sum_bound. assert (F2 : F0 / Qnat m == 1) by (assert (X : F0 == Qnat m) by lra; rewrite X; field; lra). unfold r53. rewrite (rnd_comp 53 _ 1 F2). apply rnd_exact; [lia|exact fl_1].
  Qed.
End Mean.

Lemma uniqueness_f sumf n events touches ws conc : sums_somehow sumf -> average_uniqueness n events touches = Ok (ws, conc) ->
  exists wsf, average_uniqueness_f sumf n events touches = Ok (wsf, conc) /\ length wsf = length events /\
  forall i, (i < length events)%nat -> (nth i events 0 <= nth i touches 0)%nat -> (nth i touches 0 < n)%nat ->
    (forall j, (nth i events 0 <= j <= nth i touches 0)%nat -> (Z.of_nat (overlap events touches j) < 32768)%Z) ->
    let m := (S (nth i touches 0) - nth i events 0)%nat in
    exists u uf, nth i ws NaN = Fin u /\ nth i wsf NaN = Fin uf /\ within u53 (m + 2) uf u /\
      ((Z.of_nat m <= 2 ^ 52)%Z -> 0 < uf <= 1 /\ (uf == 1 <-> u == 1)).
Proof.
  intros HS Hok. pose proof (au_len _ _ _ _ _ Hok) as Hl. pose proof (au_conc _ _ _ _ _ Hok) as Hc. unfold average_uniqueness_f. rewrite Hl, Nat.eqb_refl. cbn [negb]. rewrite <- Hl.
  eexists. split; [rewrite <- Hc; reflexivity|]. split; [now rewrite map_length, seq_length|]. intros i Hi Hse Hen Hov. set (m := (S (nth i touches 0) - nth i events 0)%nat).
  destruct (au_val n events touches ws conc Hok i Hi Hse Hen Hov) as (u & Eu & Ev). rewrite nth_map_seq by exact Hi.
  rewrite (firstn_skipn_map 0%Z) by (rewrite Hc, conc_length; lia).
  rewrite (map_ext_in _ (fun j => Z.of_nat (overlap events touches j))).
  2:{ intros j Hj. apply in_seq in Hj. apply (au_exact _ _ _ _ _ Hok); [lia|]. apply Hov. lia. }
  assert (Hf : forall j, (nth i events 0 <= j < nth i events 0 + m)%nat -> (0 < overlap events touches j)%nat).
  { intros j Hj. apply (overlap_pos events touches i); [exact Hi|]. unfold covers. unfold m in Hj. lia. }
  replace (nth i touches 0 + 1 - nth i events 0)%nat with m by (unfold m; lia). assert (Hm : (0 < m)%nat) by (unfold m; lia).
  rewrite (mean_inverse_f_spec sumf _ _ _ Hm Hf). do 2 eexists. split; [exact Eu|]. split; [reflexivity|]. unfold ssum in Ev. fold m in Ev. split.
  - eapply within_comp; [reflexivity|symmetry; exact Ev|]. now apply mean_within.
  - intro Hb. split; [now apply mean_range|]. rewrite Ev. now apply mean_one.
Qed.

(** ** Return attribution *)
Section AttrF.
  Variable sumf : list Q -> Q.
  Hypothesis HS : sums_somehow sumf.
  Variable lnf : Q -> option Q.
  Variables (events touches : list nat) (close : list Q) (conc : list Z).
  Let ln' := fun q => lnf (r53 q).

  Lemma log_ret_same j : log_ret_r lnf close j = log_ret ln' close j.
  Proof. destruct j; reflexivity. Qed.
  Lemma attr_fold_near l : forall k a x A, near (S k) a x A ->
    near (S k + length l) (fold_left (attr_step_f lnf close conc) l a) (fold_left (attr_step ln' close conc) l x)
      (A + qsum (map (fun j => Qabs (attr_term ln' close conc j)) l)).
  Proof.
    induction l as [|j l IH]; intros k a x A N.
    - cbn [fold_left map length]. apply (near_le (S k) _ _ _ A); [lia| |exact N]. unfold qsum. cbn. lra.
    - cbn [fold_left length map]. replace (S k + S (length l))%nat with (S (S k) + length l)%nat by lia.
      eapply near_comp; [reflexivity|reflexivity| |apply (IH (S k) _ _ (A + Qabs (attr_term ln' close conc j)))]; [rewrite qsum_cons; ring|].
      unfold attr_step_f, attr_step, attr_term. rewrite log_ret_same. destruct (log_ret ln' close j) as [r|].
      + destruct (0 <? nth j conc 0)%Z.
        * apply near_rnd. apply near_plus; [exact N|]. eapply (near_le 1); [lia|apply Qle_refl|]. apply near_rnd. apply near_exact. apply Qle_refl.
        * apply (near_le (S k) _ _ _ A); [lia| |exact N]. cbn. lra.
      + apply (near_le (S k) _ _ _ A); [lia| |exact N]. cbn. lra.
  Qed.
  Lemma attr_raw_near s e : near (S (S e - s)) (attr_raw_f lnf close conc s e) (attr_raw ln' close conc s e) (ssum (fun j => Qabs (attr_term ln' close conc j)) s (S e)).
  Proof.
    unfold attr_raw_f, attr_raw, ssum. replace (S e - s)%nat with (e + 1 - s)%nat by lia. apply near_abs.
    pose proof (attr_fold_near (seq s (e + 1 - s)) 0 0 0 0 (near_exact 1 0 0 ltac:(cbn; lra))) as N. rewrite seq_length in N. cbn [Nat.add] in N.
    eapply near_comp; [reflexivity|reflexivity| |exact N]. ring.
  Qed.
  Let raw := map (fun i => attr_raw_f lnf close conc (nth i events 0%nat) (nth i touches 0%nat)) (seq 0 (length events)).
  Lemma raw_f_nonneg x : In x raw -> 0 <= x.
  Proof. intro H. apply in_map_iff in H. destruct H as (i & <- & _). apply Qabs_nonneg. Qed.
  Lemma raw_f_len : length raw = length events.
  Proof. unfold raw. now rewrite map_length, seq_length. Qed.
  Lemma list_sum_within l : (forall x, In x l -> 0 <= x) -> within u53 (length l) (sumf l) (qsum l).
  Proof.
    intro H. pose proof (sum_within sumf 0 (fun x => x) (fun x => x) l HS) as W. rewrite map_id in W. apply W. intros x Hx. split; [now apply H|]. apply within_self; [exact u53_bounds|now apply H].
  Qed.
  Lemma sum_pos_iff l : (forall x, In x l -> 0 <= x) -> (0 < sumf l <-> 0 < qsum l).
  Proof.
    intro H. pose proof (list_sum_within l H) as W. split; intro P; [|now apply (within_pos (length l) _ (qsum l))].
    destruct W as [_ W]. pose proof (qsum_nonneg l H) as N. destruct (Qlt_le_dec 0 (qsum l)); [assumption|]. assert (E : qsum l == 0) by lra. rewrite E in W. lra.
  Qed.
  Lemma attr_norm_f : (0 < qsum raw -> exists ws, return_attribution_f sumf lnf events touches close conc true = Ok ws /\ length ws = length events /\
      (forall i, (i < length events)%nat -> 0 <= nth i ws 0 /\ within u53 (2 * length events + 2) (nth i ws 0) (nth i raw 0 * Qnat (length events) / qsum raw)) /\
      within u53 (2 * length events + 2) (qsum ws) (Qnat (length events))) /\
    (qsum raw <= 0 -> return_attribution_f sumf lnf events touches close conc true = Raise ValueError).
  Proof.
    unfold return_attribution_f. fold raw. pose proof (sum_pos_iff raw raw_f_nonneg) as PI. split; intro HP.
    - destruct (Qleb_spec (sumf raw) 0) as [H|H]; [apply PI in HP; lra|]. eexists. split; [reflexivity|]. split; [now rewrite map_length, raw_f_len|].
      assert (W : forall w, 0 <= w -> within u53 (2 * length events + 2) (r53 (w * r53 (Qnat (length events) / sumf raw))) (w * Qnat (length events) / qsum raw)).
      { intros w Hw. pose proof (Qnat_nonneg (length events)) as NN. apply (within_comp u53 _ (r53 (w * r53 (Qnat (length events) / sumf raw))) (w * (Qnat (length events) / qsum raw))); [reflexivity|field; lra|].
        replace (2 * length events + 2)%nat with (S (0 + S (0 + 2 * length events)))%nat by lia. apply within_mult_r; [exact Hw|apply Qle_shift_div_l; lra|apply within_self; [exact u53_bounds|exact Hw]|].
        apply within_div_r; [exact NN|exact HP|apply within_self; [exact u53_bounds|exact NN]|]. rewrite <- raw_f_len. apply list_sum_within. exact raw_f_nonneg. }
      split.
      + intros i Hi. rewrite (nth_indep _ 0 (r53 (0 * r53 (Qnat (length events) / sumf raw)))) by (rewrite map_length, raw_f_len; exact Hi).
        rewrite (map_nth (fun w => r53 (w * r53 (Qnat (length events) / sumf raw)))). assert (Hw : 0 <= nth i raw 0) by (apply raw_f_nonneg, nth_In; rewrite raw_f_len; exact Hi).
        split; [|now apply W]. apply (within_nonneg u53 u53_bounds _ _ _ (W _ Hw)). apply Qle_shift_div_l; [exact HP|]. pose proof (Qnat_nonneg (length events)). assert (0 <= nth i raw 0 * Qnat (length events)) by (apply Qmult_le_0_compat; assumption). lra.
      + assert (E : Qnat (length events) == qsum (map (fun w => w * Qnat (length events) / qsum raw) raw)).
        { rewrite (qsum_map_ext _ (fun w => w * (Qnat (length events) / qsum raw))) by (intros; field; lra). rewrite (qsum_map_mul_r (Qnat (length events) / qsum raw) (fun w => w)), map_id. field. lra. }
        eapply within_comp; [reflexivity|symmetry; exact E|]. pose proof raw_f_nonneg as RN. revert RN. generalize raw at 1 3 5. intros l RN. induction l as [|w l IH]; [apply within_0|]. cbn [map].
        eapply within_comp; [symmetry; apply qsum_cons|symmetry; apply qsum_cons|]. apply within_plus; [apply W, RN; now left|]. apply IH. intros x Hx. apply RN. now right.
    - destruct (Qleb_spec (sumf raw) 0) as [H|H]; [reflexivity|]. apply PI in H. lra.
  Qed.
End AttrF.
