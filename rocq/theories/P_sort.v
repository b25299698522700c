(** P_sort.v -- sorting rationals, order statistics, median, percentile. *)
From Coq Require Import Qround.
From Verif Require Import Base M_bars S_bars.
Open Scope Q_scope.

Lemma qinsert_perm x l : Permutation (x :: l) (qinsert x l).
Proof.
  induction l as [|y l IH]; simpl; [auto|]. destruct (Qleb x y); [auto|].
  rewrite perm_swap. now apply perm_skip.
Qed.
Lemma qsort_perm l : Permutation l (qsort l).
Proof. induction l as [|x l IH]; simpl; [auto|]. rewrite <- qinsert_perm. now apply perm_skip. Qed.
Lemma qsort_length l : length (qsort l) = length l.
Proof. symmetry. apply Permutation_length, qsort_perm. Qed.

Lemma qinsert_sorted x l : StronglySorted Qle l -> StronglySorted Qle (qinsert x l).
Proof.
  induction 1 as [|y l Hs IH Hf]; simpl.
  - repeat constructor.
  - rewrite Forall_forall in Hf. destruct (Qleb_spec x y).
    + constructor; [constructor; [auto|now rewrite Forall_forall]|]. constructor; [auto|].
      rewrite Forall_forall. intros z Hz. specialize (Hf z Hz). lra.
    + constructor; [auto|]. rewrite Forall_forall. intros z Hz.
      apply (Permutation_in z (Permutation_sym (qinsert_perm x l))) in Hz. destruct Hz as [<-|Hz]; [lra|auto].
Qed.
Lemma qsort_sorted l : StronglySorted Qle (qsort l).
Proof. induction l as [|x l IH]; simpl; [constructor|now apply qinsert_sorted]. Qed.
Lemma ssorted_asc l : StronglySorted Qle l -> ascQ l.
Proof.
  induction 1 as [|y l Hs IH Hf]; intros i j Hij; simpl in Hij; [lia|].
  rewrite Forall_forall in Hf. destruct i as [|i], j as [|j]; simpl; try lra; try lia.
  - apply Hf, nth_In. lia.
  - apply IH. lia.
Qed.
Lemma qsort_asc l : ascQ (qsort l).
Proof. apply ssorted_asc, qsort_sorted. Qed.

Lemma count_perm p l l' : Permutation l l' -> count p l = count p l'.
Proof.
  unfold count. induction 1; simpl; auto; try congruence.
  - destruct (p x); simpl; congruence.
  - destruct (p x), (p y); reflexivity.
Qed.
Lemma count_app p l l' : count p (l ++ l') = (count p l + count p l')%nat.
Proof. unfold count. now rewrite filter_app, app_length. Qed.
Lemma count_le p l : (count p l <= length l)%nat.
Proof. unfold count. induction l; simpl; [lia|]. destruct (p a); simpl; lia. Qed.
Lemma count_all p l : (forall x, In x l -> p x = true) -> count p l = length l.
Proof. unfold count. induction l; simpl; intro H; [auto|]. rewrite H by auto. simpl. rewrite IHl; auto. Qed.
Lemma count_none p l : (forall x, In x l -> p x = false) -> count p l = 0%nat.
Proof. unfold count. induction l; simpl; intro H; [auto|]. rewrite H by auto. auto. Qed.
Lemma count_mono (p q : Q -> bool) l : (forall x, p x = true -> q x = true) -> (count p l <= count q l)%nat.
Proof.
  intro H. unfold count. induction l as [|x l IH]; simpl; [lia|].
  destruct (p x) eqn:E; [rewrite (H x E); simpl; lia|]. destruct (q x); simpl; lia.
Qed.

Lemma in_firstn_asc l k x : ascQ l -> (k < length l)%nat -> In x (firstn (S k) l) -> x <= nth k l 0%Q.
Proof.
  intros Ha Hk Hx. destruct (In_nth _ _ 0 Hx) as [i [Hi <-]]. rewrite firstn_length in Hi.
  rewrite nth_firstn by lia. apply Ha. lia.
Qed.
Lemma in_skipn_asc l k x : ascQ l -> In x (skipn k l) -> nth k l 0%Q <= x.
Proof.
  intros Ha Hx. destruct (In_nth _ _ 0 Hx) as [i [Hi <-]]. rewrite skipn_length in Hi.
  rewrite nth_skipn. apply Ha. lia.
Qed.

Lemma count_le_asc l k : ascQ l -> (k < length l)%nat -> (S k <= count (fun x => Qleb x (nth k l 0%Q)) l)%nat.
Proof.
  intros Ha Hk. set (p := fun x => Qleb x (nth k l 0%Q)).
  rewrite <- (firstn_skipn (S k) l). rewrite count_app.
  rewrite (count_all _ (firstn (S k) l)).
  - rewrite firstn_length. lia.
  - intros x Hx. apply Qleb_iff. now apply (in_firstn_asc l).
Qed.
Lemma count_ge_asc l k : ascQ l -> (k < length l)%nat -> (length l - k <= count (fun x => Qleb (nth k l 0%Q) x) l)%nat.
Proof.
  intros Ha Hk. set (p := fun x => Qleb (nth k l 0%Q) x).
  rewrite <- (firstn_skipn k l) at 2. rewrite count_app.
  rewrite (count_all _ (skipn k l)).
  - rewrite skipn_length. lia.
  - intros x Hx. apply Qleb_iff. now apply (in_skipn_asc l).
Qed.
Lemma count_lt_asc l k : ascQ l -> (k < length l)%nat -> (count (fun x => Qltb x (nth k l 0%Q)) l <= k)%nat.
Proof.
  intros Ha Hk. set (p := fun x => Qltb x (nth k l 0%Q)).
  rewrite <- (firstn_skipn k l). rewrite count_app.
  rewrite (count_none _ (skipn k l)).
  - pose proof (count_le p (firstn k l)). rewrite firstn_length in H. lia.
  - intros x Hx. apply Qltb_false. now apply (in_skipn_asc l).
Qed.

(** The k-th smallest value does not depend on the sorting used. *)
Lemma sorted_unique l l' k : ascQ l -> ascQ l' -> Permutation l l' -> (k < length l)%nat -> nth k l 0 == nth k l' 0%Q.
Proof.
  assert (G : forall l l', ascQ l -> ascQ l' -> Permutation l l' -> (k < length l)%nat -> nth k l' 0 <= nth k l 0%Q).
  { clear. intros l l' Ha Ha' Hp Hk. apply Qnot_lt_le. intro H.
    pose proof (count_le_asc l k Ha Hk) as H1.
    assert (Hk' : (k < length l')%nat) by (rewrite <- (Permutation_length Hp); auto).
    pose proof (count_lt_asc l' k Ha' Hk') as H2.
    assert (H3 : (count (fun x => Qleb x (nth k l 0%Q)) l <= count (fun x => Qltb x (nth k l' 0%Q)) l)%nat).
    { apply count_mono. intros x Hx. apply Qleb_iff in Hx. apply Qltb_iff. lra. }
    rewrite (count_perm (fun x => Qltb x (nth k l' 0%Q)) l l' Hp) in H3. lia. }
  intros Ha Ha' Hp Hk. apply Qle_antisym; apply G; auto; [now apply Permutation_sym|].
  now rewrite <- (Permutation_length Hp).
Qed.

Lemma median_mid l srt : l <> [] -> ascQ srt -> Permutation l srt ->
  median l == (nth ((length l - 1) / 2) srt 0 + nth (length l / 2) srt 0%Q) / 2.
Proof.
  intros Hl Ha Hp. assert (Hn : (0 < length l)%nat) by (destruct l; [contradiction|simpl; lia]).
  assert (U : forall k, (k < length l)%nat -> nth k (qsort l) 0%Q == nth k srt 0%Q).
  { intros k Hk. apply sorted_unique; auto; [apply qsort_asc| |now rewrite qsort_length].
    rewrite <- qsort_perm. exact Hp. }
  unfold median. destruct (Nat.odd (length l)) eqn:E.
  - apply Nat.odd_spec in E. destruct E as [m Em]. rewrite Em in *.
    replace (2 * m + 1 - 1)%nat with (m * 2)%nat by lia. rewrite Nat.div_mul by lia.
    replace (2 * m + 1)%nat with (1 + m * 2)%nat by lia. rewrite Nat.div_add by lia. simpl (1 / 2)%nat.
    rewrite Nat.add_0_l. rewrite U by lia. field.
  - assert (Ev : Nat.even (length l) = true) by (rewrite <- Nat.negb_odd, E; reflexivity).
    apply Nat.even_spec in Ev. destruct Ev as [m Em]. rewrite Em in *.
    replace (2 * m)%nat with (m * 2)%nat by lia. rewrite Nat.div_mul by lia.
    replace (m * 2 - 1)%nat with (1 + (m - 1) * 2)%nat by lia. rewrite Nat.div_add by lia. simpl (1 / 2)%nat.
    rewrite Nat.add_0_l. rewrite !U by lia. reflexivity.
Qed.

Lemma median_counts l : l <> [] ->
  (length l <= 2 * count (fun x => Qleb x (median l)) l)%nat /\
  (length l <= 2 * count (fun x => Qleb (median l) x) l)%nat.
Proof.
  intro Hl. assert (Hn : (0 < length l)%nat) by (destruct l; [contradiction|simpl; lia]).
  pose proof (median_mid l (qsort l) Hl (qsort_asc l) (qsort_perm l)) as Hm.
  set (a := nth ((length l - 1) / 2) (qsort l) 0%Q) in *. set (b := nth (length l / 2) (qsort l) 0%Q) in *.
  assert (K1 : ((length l - 1) / 2 < length l)%nat) by (apply Nat.div_lt_upper_bound; lia).
  assert (K2 : (length l / 2 < length l)%nat) by (apply Nat.div_lt_upper_bound; lia).
  assert (K3 : ((length l - 1) / 2 <= length l / 2)%nat) by (apply Nat.div_le_mono; lia).
  assert (Hab : a <= b) by (apply qsort_asc; rewrite qsort_length; lia).
  pose proof (Nat.div_mod (length l - 1) 2 ltac:(lia)) as D1.
  pose proof (Nat.div_mod (length l) 2 ltac:(lia)) as D2.
  pose proof (Nat.mod_upper_bound (length l - 1) 2 ltac:(lia)) as B1.
  pose proof (Nat.mod_upper_bound (length l) 2 ltac:(lia)) as B2.
  assert (Ham : a <= median l) by (rewrite Hm; apply Qle_shift_div_l; lra).
  assert (Hbm : median l <= b) by (rewrite Hm; apply Qle_shift_div_r; lra).
  split.
  - pose proof (count_le_asc (qsort l) ((length l - 1) / 2) (qsort_asc l) ltac:(rewrite qsort_length; lia)) as C.
    rewrite (count_perm _ l (qsort l) (qsort_perm l)).
    assert (C' : (count (fun x => Qleb x (nth ((length l - 1) / 2) (qsort l) 0%Q)) (qsort l) <=
             count (fun x => Qleb x (median l)) (qsort l))%nat).
    { apply count_mono. intros x Hx. apply Qleb_iff in Hx. apply Qleb_iff. fold a in Hx. lra. }
    lia.
  - pose proof (count_ge_asc (qsort l) (length l / 2) (qsort_asc l) ltac:(rewrite qsort_length; lia)) as C.
    rewrite qsort_length in C. rewrite (count_perm _ l (qsort l) (qsort_perm l)).
    assert (C' : (count (fun x => Qleb (nth (length l / 2) (qsort l) 0%Q) x) (qsort l) <=
             count (fun x => Qleb (median l) x) (qsort l))%nat).
    { apply count_mono. intros x Hx. apply Qleb_iff in Hx. apply Qleb_iff. fold b in Hx. lra. }
    lia.
Qed.

Lemma qsort_in_range l k : (k < length l)%nat -> In (nth k (qsort l) 0%Q) l.
Proof.
  intro H. apply (Permutation_in _ (Permutation_sym (qsort_perm l))). apply nth_In. now rewrite qsort_length.
Qed.
Lemma median_between l lo hi : l <> [] -> (forall x, In x l -> lo <= x <= hi) -> lo <= median l <= hi.
Proof.
  intros Hl H. assert (Hn : (0 < length l)%nat) by (destruct l; [contradiction|simpl; lia]).
  rewrite (median_mid l (qsort l) Hl (qsort_asc l) (qsort_perm l)).
  pose proof (H _ (qsort_in_range l ((length l - 1) / 2) ltac:(apply Nat.div_lt_upper_bound; lia))).
  pose proof (H _ (qsort_in_range l (length l / 2) ltac:(apply Nat.div_lt_upper_bound; lia))).
  split; [apply Qle_shift_div_l|apply Qle_shift_div_r]; lra.
Qed.

(** The percentile lies between two neighbouring order statistics. *)
Lemma percentile_between l q : l <> [] -> 0 <= q <= 100 ->
  exists k, (k < length l)%nat /\
    Qnat k <= Qnat (length l - 1) * q / 100 < Qnat k + 1 /\
    nth k (qsort l) 0%Q <= percentile l q /\
    ((S k < length l)%nat -> percentile l q <= nth (S k) (qsort l) 0%Q) /\
    ((S k = length l)%nat -> percentile l q = nth k (qsort l) 0%Q) /\
    percentile l q == nth k (qsort l) 0%Q + (Qnat (length l - 1) * q / 100 - Qnat k) *
      (nth (Nat.min (S k) (length l - 1)) (qsort l) 0%Q - nth k (qsort l) 0%Q).
Proof.
  intros Hl Hq. assert (Hn : (0 < length l)%nat) by (destruct l; [contradiction|simpl; lia]).
  unfold percentile. set (rank := Qnat (length l - 1) * q / 100). set (f := Z.to_nat (Qfloor rank)).
  assert (R0 : 0 <= rank).
  { unfold rank. apply Qle_shift_div_l; [lra|]. rewrite Qmult_0_l. apply Qmult_le_0_compat; [apply Qnat_nonneg|lra]. }
  assert (R1 : rank <= Qnat (length l - 1)).
  { unfold rank. apply Qle_shift_div_r; [lra|]. pose proof (Qnat_nonneg (length l - 1)).
    assert (0 <= Qnat (length l - 1) * (100 - q)) by (apply Qmult_le_0_compat; lra). lra. }
  assert (F0 : (0 <= Qfloor rank)%Z).
  { change 0%Z with (Qfloor 0). now apply Qfloor_resp_le. }
  assert (Ff : Qnat f = inject_Z (Qfloor rank)) by (unfold Qnat, f; rewrite Z2Nat.id; auto).
  pose proof (Qfloor_le rank) as L1. pose proof (Qlt_floor rank) as L2.
  rewrite inject_Z_plus in L2. change (inject_Z 1) with 1 in L2.
  assert (Fn : (f < length l)%nat).
  { apply Qle_trans with (z := Qnat (length l - 1)) in L1; [|exact R1].
    unfold Qnat in L1. rewrite <- Zle_Qle in L1. unfold f. lia. }
  exists f. split; [exact Fn|]. split; [rewrite Ff; lra|].
  destruct (Nat.ltb_spec (S f) (length l)).
  - pose proof (qsort_asc l f (S f) ltac:(rewrite qsort_length; lia)) as Hs.
    set (a := nth f (qsort l) 0%Q) in *. set (b := nth (S f) (qsort l) 0%Q) in *.
    assert (0 <= (b - a) * (rank - Qnat f)) by (apply Qmult_le_0_compat; [lra|rewrite Ff; lra]).
    assert (0 <= (b - a) * (1 - (rank - Qnat f))) by (apply Qmult_le_0_compat; [lra|rewrite Ff; lra]).
    split; [lra|]. split; [intros _; lra|]. split; [lia|].
    replace (Nat.min (S f) (length l - 1)) with (S f) by lia. fold rank a b. ring.
  - split; [lra|]. split; [lia|]. split; [auto|].
    replace (Nat.min (S f) (length l - 1)) with f by lia. ring.
Qed.
