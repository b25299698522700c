(** P_mirror.v -- proofs about exchanging buyers and sellers and turning prices upside down (C172). *)
From Coq Require Import Qround.
From Verif Require Import Base M_bars M_footprint S_footprint P_footprint P_float P_weights S_mirror.
Open Scope Q_scope.

Lemma zget_opp l j : zget 0%Z (map Z.opp l) j = (- zget 0%Z l j)%Z.
Proof. unfold zget. rewrite map_length. exact (map_nth Z.opp l 0%Z _). Qed.

(* ------------------------------------------------------------------ *)
(** ** Directional features *)

Lemma pmin_opp a b a' b' : a' == - a -> b' == - b -> pmin a' b' == - pmax a b.
Proof. intros H1 H2. unfold pmin, pmax. destruct (Qltb_spec b' a'), (Qltb_spec a b); lra. Qed.
Lemma pmax_opp a b a' b' : a' == - a -> b' == - b -> pmax a' b' == - pmin a b.
Proof. intros H1 H2. unfold pmin, pmax. destruct (Qltb_spec a' b'), (Qltb_spec b a); lra. Qed.

Definition dmirror (a b : dstate) : Prop :=
  (d_tb b = d_ts a /\ d_ts b = d_tb a /\ d_vb b = d_vs a /\ d_vs b = d_vb a /\ d_db b = d_ds a /\ d_ds b = d_db a) /\
  (d_ct b = (- d_ct a)%Z /\ d_cv b == - d_cv a /\ d_cd b == - d_cd a) /\
  (d_mx b = d_mx a /\ d_cs b = d_cs a /\ d_prev b = (- d_prev a)%Z) /\
  (d_tmin b = (- d_tmax a)%Z /\ d_tmax b = (- d_tmin a)%Z) /\
  (d_vmin b == - d_vmax a /\ d_vmax b == - d_vmin a) /\ (d_dmin b == - d_dmax a /\ d_dmax b == - d_dmin a).

Lemma d_step_mirror p v s a b j : dmirror a b -> dmirror (d_step p v s a j) (d_step p v (map Z.opp s) b j).
Proof.
  intros ((A1 & A2 & A3 & A4 & A5 & A6) & (B1 & B2 & B3) & (C1 & C2 & C3) & (D1 & D2) & (E1 & E2) & (F1 & F2)).
  unfold d_step. rewrite zget_opp, C1, C2, C3. cbv zeta.
  set (sg := zget 0%Z s j). set (pp := zget 0 p j). set (q := zget 0 v j). set (p1 := zget 0 p (j - 1)).
  replace (- sg =? - d_prev a)%Z with (sg =? d_prev a)%Z by (apply Bool.eq_iff_eq_true; rewrite !Z.eqb_eq; lia).
  set (mc := if negb (sg =? d_prev a)%Z then _ else _). destruct mc as [mx cs].
  replace (- sg =? 1)%Z with (sg =? -1)%Z by (apply Bool.eq_iff_eq_true; rewrite !Z.eqb_eq; lia).
  replace (- sg =? -1)%Z with (sg =? 1)%Z by (apply Bool.eq_iff_eq_true; rewrite !Z.eqb_eq; lia).
  destruct (Z.eqb_spec sg 1) as [H1|H1]; destruct (Z.eqb_spec sg (-1)) as [H2|H2]; try lia;
    unfold dmirror; cbn [d_tb d_ts d_vb d_vs d_db d_ds d_ct d_cv d_cd d_mx d_cs d_prev d_tmin d_tmax d_vmin d_vmax d_dmin d_dmax].
  - assert (V : d_cv b - q == - (d_cv a + q)) by lra. assert (W : d_cd b - pp * q == - (d_cd a + pp * q)) by lra.
    repeat split; try congruence; try lia; try lra; try (apply pmin_opp; assumption); try (apply pmax_opp; assumption).
  - assert (V : d_cv b + q == - (d_cv a - q)) by lra. assert (W : d_cd b + pp * q == - (d_cd a - pp * q)) by lra.
    repeat split; try congruence; try lia; try lra; try (apply pmin_opp; assumption); try (apply pmax_opp; assumption).
  - repeat split; try congruence; try lia; try lra.
Qed.
Lemma d_fold_mirror p v s l : forall a b, dmirror a b ->
  dmirror (fold_left (d_step p v s) l a) (fold_left (d_step p v (map Z.opp s)) l b).
Proof. induction l as [|j l IH]; intros a b H; cbn [fold_left]; [exact H|]. apply IH. now apply d_step_mirror. Qed.
Lemma d_init_mirror prev : dmirror (d_init prev) (d_init (- prev)).
Proof. unfold dmirror, d_init, big. cbn. repeat split; try lia; reflexivity. Qed.

Lemma bar_directional_flip p v s a e : dir_swapped (bar_directional p v s a e) (bar_directional p v (flipped s) a e).
Proof.
  unfold bar_directional, flipped. cbv zeta.
  assert (P : (if (a + 1 <? e)%Z then zget 0%Z (map Z.opp s) (a + 1 - 1) else 0%Z) =
              (- (if (a + 1 <? e)%Z then zget 0%Z s (a + 1 - 1) else 0%Z))%Z).
  { destruct (a + 1 <? e)%Z; [apply zget_opp|reflexivity]. }
  rewrite P. set (prev := if (a + 1 <? e)%Z then _ else _).
  pose proof (d_fold_mirror p v s (zrange (a + 1) (e + 1)) _ _ (d_init_mirror prev)) as H.
  set (x := fold_left (d_step p v s) _ _) in *. set (y := fold_left (d_step p v (map Z.opp s)) _ _) in *. clearbody x y.
  destruct H as ((A1 & A2 & A3 & A4 & A5 & A6) & (B1 & B2 & B3) & (C1 & C2 & C3) & (D1 & D2) & (E1 & E2) & (F1 & F2)).
  unfold dir_swapped. cbn [f_ticks_buy f_ticks_sell f_vol_buy f_vol_sell f_dol_buy f_dol_sell f_mean_spread f_max_spread f_ct_min f_ct_max f_cv_min f_cv_max f_cd_min f_cd_max].
  rewrite C2, A1, A2, (Z.add_comm (d_ts x)). repeat split; assumption.
Qed.

(* ------------------------------------------------------------------ *)
(** ** Footprints *)

Definition lv_swap (a : levels) : levels := mkLv (lv_sv a) (lv_bv a) (lv_st a) (lv_bt a).
Lemma fp_step_flip p am s tick low n acc j :
  fp_step p am (map Z.opp s) tick low n (match acc with Ok a => Ok (lv_swap a) | Raise e => Raise e end) j =
  match fp_step p am s tick low n acc j with Ok a => Ok (lv_swap a) | Raise e => Raise e end.
Proof.
  destruct acc as [a|e]; [|reflexivity]. unfold fp_step. rewrite zget_opp. cbv zeta.
  set (sg := zget 0%Z s j). destruct (_ && _)%bool; [|reflexivity].
  replace (- sg =? 1)%Z with (sg =? -1)%Z by (apply Bool.eq_iff_eq_true; rewrite !Z.eqb_eq; lia).
  replace (- sg =? -1)%Z with (sg =? 1)%Z by (apply Bool.eq_iff_eq_true; rewrite !Z.eqb_eq; lia).
  destruct (Z.eqb_spec sg 1); destruct (Z.eqb_spec sg (-1)); try lia; reflexivity.
Qed.
Lemma fp_fold_flip p am s tick low n l : forall acc,
  fold_left (fp_step p am (map Z.opp s) tick low n) l (match acc with Ok a => Ok (lv_swap a) | Raise e => Raise e end) =
  match fold_left (fp_step p am s tick low n) l acc with Ok a => Ok (lv_swap a) | Raise e => Raise e end.
Proof. induction l as [|j l IH]; intro acc; cbn [fold_left]; [reflexivity|]. rewrite fp_step_flip. apply IH. Qed.

Lemma argmax_ext l l' : length l = length l' -> (forall i, (i < length l)%nat -> nth i l 0 == nth i l' 0) -> argmax l = argmax l'.
Proof.
  intros L H. destruct l as [|x l]; destruct l' as [|x' l']; try discriminate; [reflexivity|].
  assert (N : x :: l <> []) by discriminate. assert (N' : x' :: l' <> []) by discriminate.
  destruct (argmax_spec _ N) as [A1 [A2 A3]]. destruct (argmax_spec _ N') as [B1 [B2 B3]].
  set (u := argmax (x :: l)) in *. set (w := argmax (x' :: l')) in *. rewrite <- L in B1, B2.
  destruct (Nat.lt_trichotomy u w) as [C|[C|C]]; [|exact C|]; exfalso.
  - specialize (B3 u C). rewrite <- !H in B3 by assumption. specialize (A2 w B1). lra.
  - specialize (A3 w C). rewrite !H in A3 by assumption. specialize (B2 u A1). lra.
Qed.

Lemma feat_flip lv bv sv mult :
  match comp_footprint_features lv bv sv mult, comp_footprint_features lv sv bv mult with
  | Ok f, Ok g => ff_cot g = ff_cot f /\ ff_gini g == ff_gini f
  | Raise e, Raise e' => e = e'
  | _, _ => False
  end.
Proof.
  unfold comp_footprint_features. cbv zeta. destruct (length lv =? 0)%nat; [reflexivity|]. cbn [ff_cot ff_gini].
  set (n := length lv).
  set (t := map (fun i => nth i bv 0 + nth i sv 0) (seq 0 n)). set (t' := map (fun i => nth i sv 0 + nth i bv 0) (seq 0 n)).
  assert (Ln : length t = n) by (unfold t; now rewrite map_length, seq_length).
  assert (Ln' : length t' = n) by (unfold t'; now rewrite map_length, seq_length).
  assert (E : forall i, (i < length t)%nat -> nth i t 0 == nth i t' 0).
  { intros i Hi. rewrite Ln in Hi. unfold t, t'. rewrite !nth_map_seq by exact Hi. lra. }
  assert (Q : qsum t' == qsum t).
  { unfold t, t'. apply qsum_map_ext. intros. lra. }
  split; [f_equal; symmetry; apply argmax_ext; [congruence|exact E]|].
  replace (Qltb 0 (qsum t')) with (Qltb 0 (qsum t)) by (apply Qltb_proper; [reflexivity|now symmetry]).
  destruct (Qltb 0 (qsum t) && (0 <? n)%nat)%bool; [|reflexivity].
  assert (G : qsum (map (fun x => x / qsum t' * (x / qsum t')) t') == qsum (map (fun x => x / qsum t * (x / qsum t)) t)).
  { unfold t at 3, t' at 3. rewrite !map_map. apply qsum_map_ext. intros i _. rewrite Q.
    setoid_replace (nth i sv 0 + nth i bv 0) with (nth i bv 0 + nth i sv 0) by lra. reflexivity. }
  rewrite G. reflexivity.
Qed.

Lemma bar_footprint_flip p am s tick lo hi mult a e :
  match bar_footprint p am s tick lo hi mult a e, bar_footprint p am (flipped s) tick lo hi mult a e with
  | Ok f, Ok g => fp_swapped f g
  | Raise e, Raise e' => e = e'
  | _, _ => False
  end.
Proof.
  unfold bar_footprint, flipped. destruct (Qeqb tick 0); [reflexivity|]. cbv zeta.
  set (low := rhe (lo / tick)). set (high := rhe (hi / tick)). destruct (high - low + 1 <? 0)%Z; [reflexivity|].
  set (n := (high - low + 1)%Z). set (zn := Z.to_nat n). set (l := zrange (a + 1) (e + 1)).
  pose proof (fp_fold_flip p am s tick low n l (Ok (mkLv (repeat 0 zn) (repeat 0 zn) (repeat 0%Z zn) (repeat 0%Z zn)))) as F.
  cbn [lv_swap lv_bv lv_sv lv_bt lv_st] in F. unfold lv_swap in F at 1. cbn [lv_bv lv_sv lv_bt lv_st] in F. rewrite F.
  destruct (fold_left (fp_step p am s tick low n) l _) as [st|x]; [|reflexivity].
  cbn [lv_swap lv_bv lv_sv lv_bt lv_st].
  pose proof (feat_flip (map (wraps 32) (zrange low (high + 1))) (lv_bv st) (lv_sv st) mult) as G.
  destruct (comp_footprint_features _ (lv_bv st) (lv_sv st) mult) as [f|x];
    destruct (comp_footprint_features _ (lv_sv st) (lv_bv st) mult) as [g|x']; try exact G; try tauto.
  unfold fp_swapped. cbn [fp_levels fp_bv fp_sv fp_bt fp_st fp_cot fp_gini]. repeat split; apply G.
Qed.

(* ------------------------------------------------------------------ *)
(** ** Upside down *)

Lemma rhe_mirror c x y : Z.even c = true -> y == inject_Z c - x -> rhe y = (c - rhe x)%Z.
Proof.
  intros Hc E. apply (rounds_unique y); [apply rhe_spec|]. destruct (rhe_spec x) as [R1 R2].
  unfold rounds_to.
  assert (A : Qabs (y - inject_Z (c - rhe x)) == Qabs (x - inject_Z (rhe x))).
  { unfold Z.sub. rewrite inject_Z_plus, inject_Z_opp, E.
    rewrite <- (Qabs_opp (x - inject_Z (rhe x))). apply Qabs_wd. lra. }
  rewrite A. split; [exact R1|]. intro H. specialize (R2 H). now rewrite Z.even_sub, Hc, R2.
Qed.

Lemma nth_rev {A} (l : list A) d i : (i < length l)%nat -> nth i (rev l) d = nth (length l - 1 - i) l d.
Proof. intro H. rewrite rev_nth by exact H. f_equal. lia. Qed.

Lemma list_ext {A} (d : A) l l' : length l = length l' -> (forall i, (i < length l)%nat -> nth i l d = nth i l' d) -> l = l'.
Proof. intros L H. apply (nth_ext l l' d d L H). Qed.

Lemma qadd_rev l i x : (i < length l)%nat -> qadd_at (rev l) (length l - 1 - i) x = rev (qadd_at l i x).
Proof.
  intro H. apply (list_ext 0).
  - now rewrite qadd_at_length, !rev_length, qadd_at_length.
  - intros k Hk. rewrite qadd_at_length, rev_length in Hk.
    rewrite qadd_at_nth by now rewrite rev_length.
    rewrite (nth_rev (qadd_at l i x)) by now rewrite qadd_at_length.
    rewrite qadd_at_length, qadd_at_nth by lia. rewrite nth_rev by exact Hk.
    destruct (Nat.eqb_spec k (length l - 1 - i)); destruct (Nat.eqb_spec (length l - 1 - k) i); try lia; reflexivity.
Qed.
Lemma zadd_rev l i x : (i < length l)%nat -> zadd_at (rev l) (length l - 1 - i) x = rev (zadd_at l i x).
Proof.
  intro H. apply (list_ext 0%Z).
  - now rewrite zadd_at_length, !rev_length, zadd_at_length.
  - intros k Hk. rewrite zadd_at_length, rev_length in Hk.
    rewrite zadd_at_nth by now rewrite rev_length.
    rewrite (nth_rev (zadd_at l i x)) by now rewrite zadd_at_length.
    rewrite zadd_at_length, zadd_at_nth by lia. rewrite nth_rev by exact Hk.
    destruct (Nat.eqb_spec k (length l - 1 - i)); destruct (Nat.eqb_spec (length l - 1 - k) i); try lia; reflexivity.
Qed.

Definition lv_len (m : nat) (a : levels) : Prop :=
  length (lv_bv a) = m /\ length (lv_sv a) = m /\ length (lv_bt a) = m /\ length (lv_st a) = m.
Definition lv_mirror (a : levels) : levels := mkLv (rev (lv_sv a)) (rev (lv_bv a)) (rev (lv_st a)) (rev (lv_bt a)).

Section Mirror.
  Variables (p p' am : list Q) (s s' : list Z) (tick : Q) (c low high : Z).
  Hypothesis Hc : Z.even c = true.
  Hypothesis Ht : ~ tick == 0.
  Notation n := (high - low + 1)%Z.

  Lemma level_mirror j : zget 0 p' j == inject_Z c * tick - zget 0 p j ->
    rhe (zget 0 p' j / tick) = (c - rhe (zget 0%Q p j / tick)%Q)%Z.
  Proof. intro E. apply rhe_mirror; [exact Hc|]. rewrite E. field. exact Ht. Qed.

  Lemma fp_step_mirror acc j :
    (zget 0 p' j == inject_Z c * tick - zget 0 p j) -> zget 0%Z s' j = (- zget 0%Z s j)%Z ->
    match acc with Ok a => lv_len (Z.to_nat n) a | Raise _ => True end ->
    fp_step p' am s' tick (c - high) n (match acc with Ok a => Ok (lv_mirror a) | Raise e => Raise e end) j =
    match fp_step p am s tick low n acc j with Ok a => Ok (lv_mirror a) | Raise e => Raise e end /\
    match fp_step p am s tick low n acc j with Ok a => lv_len (Z.to_nat n) a | Raise _ => True end.
  Proof.
    intros Hp Hs L. destruct acc as [a|e]; [|split; [reflexivity|exact Logic.I]].
    unfold fp_step. cbv zeta. rewrite (level_mirror j Hp), Hs.
    set (r := rhe (zget 0 p j / tick)). set (sg := zget 0%Z s j). set (x := zget 0 am j).
    replace ((0 <=? c - r - (c - high)) && (c - r - (c - high) <? n))%Z%bool with ((0 <=? r - low) && (r - low <? n))%Z%bool.
    2:{ apply Bool.eq_iff_eq_true. rewrite !Bool.andb_true_iff, !Z.leb_le, !Z.ltb_lt. lia. }
    destruct ((0 <=? r - low) && (r - low <? n))%Z%bool eqn:B; [|split; [reflexivity|exact Logic.I]].
    apply Bool.andb_true_iff in B. rewrite Z.leb_le, Z.ltb_lt in B.
    replace (- sg =? 1)%Z with (sg =? -1)%Z by (apply Bool.eq_iff_eq_true; rewrite !Z.eqb_eq; lia).
    replace (- sg =? -1)%Z with (sg =? 1)%Z by (apply Bool.eq_iff_eq_true; rewrite !Z.eqb_eq; lia).
    destruct L as (L1 & L2 & L3 & L4).
    assert (I : Z.to_nat (c - r - (c - high)) = (Z.to_nat n - 1 - Z.to_nat (r - low))%nat) by lia.
    assert (Hi : (Z.to_nat (r - low) < Z.to_nat n)%nat) by lia.
    set (i := Z.to_nat (r - low)) in *. set (m := Z.to_nat n) in *.
    destruct (Z.eqb_spec sg 1); destruct (Z.eqb_spec sg (-1)); try lia.
    - split.
      + unfold lv_mirror. cbn [lv_bv lv_sv lv_bt lv_st]. rewrite I.
        rewrite <- (qadd_rev (lv_bv a)) by lia. rewrite <- (zadd_rev (lv_bt a)) by lia. rewrite L1, L3. reflexivity.
      + unfold lv_len. cbn [lv_bv lv_sv lv_bt lv_st]. now rewrite qadd_at_length, zadd_at_length.
    - split.
      + unfold lv_mirror. cbn [lv_bv lv_sv lv_bt lv_st]. rewrite I.
        rewrite <- (qadd_rev (lv_sv a)) by lia. rewrite <- (zadd_rev (lv_st a)) by lia. rewrite L2, L4. reflexivity.
      + unfold lv_len. cbn [lv_bv lv_sv lv_bt lv_st]. now rewrite qadd_at_length, zadd_at_length.
    - split; [reflexivity|]. unfold lv_len. auto.
  Qed.

  Lemma fp_fold_mirror l : (forall j, In j l -> zget 0 p' j == inject_Z c * tick - zget 0 p j /\ zget 0%Z s' j = (- zget 0%Z s j)%Z) ->
    forall acc, match acc with Ok a => lv_len (Z.to_nat n) a | Raise _ => True end ->
    fold_left (fp_step p' am s' tick (c - high) n) l (match acc with Ok a => Ok (lv_mirror a) | Raise e => Raise e end) =
    match fold_left (fp_step p am s tick low n) l acc with Ok a => Ok (lv_mirror a) | Raise e => Raise e end /\
    match fold_left (fp_step p am s tick low n) l acc with Ok a => lv_len (Z.to_nat n) a | Raise _ => True end.
  Proof.
    induction l as [|j l IH]; intros H acc L; cbn [fold_left]; [split; [reflexivity|exact L]|].
    destruct (H j (or_introl eq_refl)) as [Hp Hs]. destruct (fp_step_mirror acc j Hp Hs L) as [E L'].
    rewrite E. apply IH; [|exact L']. intros k Hk. apply H. now right.
  Qed.
End Mirror.

Lemma zrange_mirror c low high : zrange (c - high) (c - low + 1) = map (fun l => (c - l)%Z) (rev (zrange low (high + 1))).
Proof.
  unfold zrange. replace (c - low + 1 - (c - high))%Z with (high + 1 - low)%Z by lia.
  set (m := Z.to_nat (high + 1 - low)). apply (list_ext 0%Z).
  - now rewrite !map_length, rev_length, map_length.
  - intros i Hi. rewrite map_length, seq_length in Hi.
    rewrite nth_map_seq by exact Hi.
    rewrite (nth_indep _ 0%Z (c - 0)%Z) by (rewrite map_length, rev_length, map_length, seq_length; exact Hi).
    rewrite (map_nth (fun l => (c - l)%Z)).
    rewrite nth_rev by (rewrite map_length, seq_length; exact Hi). rewrite map_length, seq_length.
    rewrite nth_map_seq by lia. lia.
Qed.

Lemma map_seq_rev {A} (f g : nat -> A) n : (forall i, (i < n)%nat -> f i = g (n - 1 - i)%nat) -> map f (seq 0 n) = rev (map g (seq 0 n)).
Proof.
  intro H. destruct n as [|n']; [reflexivity|]. set (n := S n') in *. apply (list_ext (f 0%nat)).
  - now rewrite rev_length, !map_length.
  - intros i Hi. rewrite map_length, seq_length in Hi.
    rewrite nth_map_seq by exact Hi. rewrite nth_rev by (now rewrite map_length, seq_length).
    rewrite map_length, seq_length, nth_map_seq by lia. now apply H.
Qed.

Lemma feat_mirror lv lv' bv sv mult : length lv' = length lv -> length bv = length lv -> length sv = length lv ->
  match comp_footprint_features lv bv sv mult, comp_footprint_features lv' (rev sv) (rev bv) mult with
  | Ok f, Ok g => ff_bi g = rev (ff_si f) /\ ff_si g = rev (ff_bi f) /\ ff_gini g == ff_gini f
  | Raise e, Raise e' => e = e'
  | _, _ => False
  end.
Proof.
  intros L Lb Ls. unfold comp_footprint_features. cbv zeta. rewrite L. set (n := length lv) in *.
  destruct (Nat.eqb_spec n 0) as [|Hn]; [reflexivity|]. cbn [ff_bi ff_si ff_gini].
  split; [|split].
  - apply map_seq_rev. intros i Hi. unfold buy_imb, sell_imb.
    destruct (Nat.ltb_spec 1 n) as [H1|H1]; cbn [andb].
    2:{ replace n with 1%nat by lia. replace i with 0%nat by lia. reflexivity. }
    destruct (Nat.leb_spec 1 i); destruct (Nat.ltb_spec (n - 1 - i) (n - 1)); cbn [andb]; try lia.
    rewrite !nth_rev by lia. rewrite Lb, Ls.
    replace (n - 1 - (i - 1))%nat with (S (n - 1 - i))%nat by lia. reflexivity.
  - apply map_seq_rev. intros i Hi. unfold buy_imb, sell_imb.
    destruct (Nat.ltb_spec 1 n) as [H1|H1]; cbn [andb]; [|reflexivity].
    destruct (Nat.ltb_spec i (n - 1)); destruct (Nat.leb_spec 1 (n - 1 - i)); cbn [andb]; try lia.
    rewrite !nth_rev by lia. rewrite Lb, Ls.
    replace (n - 1 - S i)%nat with (n - 1 - i - 1)%nat by lia. reflexivity.
  - set (t := map (fun i => nth i bv 0 + nth i sv 0) (seq 0 n)).
    set (t' := map (fun i => nth i (rev sv) 0 + nth i (rev bv) 0) (seq 0 n)).
    assert (E : t' = rev (map (fun i => nth i sv 0 + nth i bv 0) (seq 0 n))).
    { apply map_seq_rev. intros i Hi. rewrite !nth_rev by lia. now rewrite Lb, Ls. }
    assert (P : forall f : Q -> Q, (forall x y, x == y -> f x == f y) -> qsum (map f t') == qsum (map f t)).
    { intros f Hf. rewrite E. rewrite <- (qsum_perm (map f (map (fun i => nth i sv 0 + nth i bv 0) (seq 0 n)))).
      2: apply Permutation.Permutation_map, Permutation.Permutation_rev.
      unfold t. rewrite !map_map. apply qsum_map_ext. intros i _. apply Hf. lra. }
    assert (Q : qsum t' == qsum t).
    { pose proof (P (fun x => x) (fun x y H => H)) as H. now rewrite !map_id in H. }
    replace (Qltb 0 (qsum t')) with (Qltb 0 (qsum t)) by (apply Qltb_proper; [reflexivity|now symmetry]).
    destruct (Qltb 0 (qsum t) && (0 <? n)%nat)%bool; [|reflexivity].
    assert (G : qsum (map (fun x => x / qsum t' * (x / qsum t')) t') == qsum (map (fun x => x / qsum t * (x / qsum t)) t)).
    { rewrite P by (intros x y H; now rewrite H). apply qsum_map_ext. intros x _. now rewrite Q. }
    rewrite G. reflexivity.
Qed.

Lemma feat_cot_mirror c lv bv sv mult f g :
  length bv = length lv -> length sv = length lv ->
  comp_footprint_features lv bv sv mult = Ok f ->
  comp_footprint_features (map (fun l => (c - l)%Z) (rev lv)) (rev sv) (rev bv) mult = Ok g ->
  (exists i, (i < length lv)%nat /\ forall k, (k < length lv)%nat -> k <> i -> nth k bv 0 + nth k sv 0 < nth i bv 0 + nth i sv 0) ->
  ff_cot g = (c - ff_cot f)%Z.
Proof.
  intros Lb Ls Ef Eg [i [Hi U]].
  assert (Hne : (0 < length lv)%nat) by lia.
  set (lv' := map (fun l => (c - l)%Z) (rev lv)) in *.
  assert (L' : length lv' = length lv) by (unfold lv'; now rewrite map_length, rev_length).
  assert (Hne' : (0 < length lv')%nat) by lia.
  destruct (feat_ok lv bv sv mult Hne) as [f0 [E0 [_ [_ [_ [[k [Hk [Ck [Mk _]]]] _]]]]]].
  destruct (feat_ok lv' (rev sv) (rev bv) mult Hne') as [g0 [E1 [_ [_ [_ [[k' [Hk' [Ck' [Mk' _]]]] _]]]]]].
  assert (f0 = f) by congruence. assert (g0 = g) by congruence. subst f0 g0.
  assert (k = i).
  { destruct (Nat.eq_dec k i) as [|N]; [assumption|]. pose proof (U k Hk N). pose proof (Mk i Hi). lra. }
  assert (k' = (length lv - 1 - i)%nat).
  { rewrite L' in *. destruct (Nat.eq_dec k' (length lv - 1 - i)) as [|N]; [assumption|exfalso].
    assert (X : (length lv - 1 - k')%nat <> i) by lia. assert (Y : (length lv - 1 - k' < length lv)%nat) by lia.
    pose proof (U _ Y X) as U1. pose proof (Mk' (length lv - 1 - i)%nat ltac:(lia)) as M1.
    rewrite !nth_rev in M1 by lia. rewrite Lb, Ls in M1.
    replace (length lv - 1 - (length lv - 1 - i))%nat with i in M1 by lia. lra. }
  subst k k'. rewrite Ck, Ck'. unfold lv'.
  rewrite (nth_indep _ 0%Z (c - 0)%Z) by (rewrite map_length, rev_length; lia).
  rewrite (map_nth (fun l => (c - l)%Z)). rewrite nth_rev by lia.
  replace (length lv - 1 - (length lv - 1 - i))%nat with i by lia. reflexivity.
Qed.

Lemma count_rev l : count_true (rev l) = count_true l.
Proof.
  unfold count_true. do 2 f_equal. induction l as [|b l IH]; [reflexivity|]. cbn [rev filter].
  rewrite filter_app, app_length, IH. cbn [filter]. destruct b; cbn [length]; lia.
Qed.

(** Runs upside down. *)
Lemma run_mirror bi si n : length bi = n -> length si = n ->
  (forall i, ~ (nth i bi false = true /\ nth i si false = true)) ->
  Z.abs (max_run (rev si) (rev bi) n) = Z.abs (max_run bi si n) /\
  ((forall a b len sg sg', is_run (imb_sign bi si) n a len sg -> is_run (imb_sign bi si) n b len sg' ->
      (forall c len' sg'', is_run (imb_sign bi si) n c len' sg'' -> (len' <= len)%nat) -> sg = sg') ->
   max_run (rev si) (rev bi) n = (- max_run bi si n)%Z).
Proof.
  intros Lb Ls U.
  assert (S1 : forall i, (i < n)%nat -> imb_sign (rev si) (rev bi) i = (- imb_sign bi si (n - 1 - i))%Z).
  { intros i Hi. unfold imb_sign. rewrite !nth_rev by lia. rewrite Lb, Ls.
    specialize (U (n - 1 - i)%nat). destruct (nth (n - 1 - i) si false); destruct (nth (n - 1 - i) bi false); try tauto; reflexivity. }
  destruct (max_run_spec bi si n) as [A1 [A2 A3]]. destruct (max_run_spec (rev si) (rev bi) n) as [B1 [B2 B3]].
  assert (T : forall a len sg, is_run (imb_sign bi si) n a len sg -> is_run (imb_sign (rev si) (rev bi)) n (n - a - len) len (- sg)).
  { intros a len sg (R1 & R2 & R3 & R4). unfold is_run. repeat split; try lia. intros i Hi. rewrite S1 by lia.
    rewrite R4 by lia. reflexivity. }
  assert (T' : forall a len sg, is_run (imb_sign (rev si) (rev bi)) n a len sg -> is_run (imb_sign bi si) n (n - a - len) len (- sg)).
  { intros a len sg (R1 & R2 & R3 & R4). unfold is_run. repeat split; try lia. intros i Hi.
    specialize (R4 (n - 1 - i)%nat ltac:(lia)). rewrite S1 in R4 by lia.
    replace (n - 1 - (n - 1 - i))%nat with i in R4 by lia. lia. }
  set (x := max_run bi si n) in *. set (y := max_run (rev si) (rev bi) n) in *. clearbody x y.
  assert (AB : Z.abs y = Z.abs x).
  2:{ split; [exact AB|]. intro One. destruct (Z.eq_dec x 0) as [->|Hx]; [lia|]. assert (Hy : y <> 0%Z) by lia.
      destruct (A2 Hx) as [a [R _]]. destruct (B2 Hy) as [b [R' _]]. apply T' in R'. rewrite AB in R'.
      assert (E : Z.sgn x = (- Z.sgn y)%Z); [|lia].
      apply (One a (n - b - Z.to_nat (Z.abs x))%nat (Z.to_nat (Z.abs x))); [exact R|exact R'|].
      intros c len' sg'' Rc. apply A1 in Rc. lia. }
  apply Z.le_antisymm.
  - destruct (Z.eq_dec y 0) as [->|Hy]; [lia|]. destruct (B2 Hy) as [a [R _]]. apply T' in R. apply A1 in R. lia.
  - destruct (Z.eq_dec x 0) as [->|Hx]; [lia|]. destruct (A2 Hx) as [a [R _]]. apply T in R. apply B1 in R. lia.
Qed.
