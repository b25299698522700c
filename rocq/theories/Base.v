(** Base.v -- numbers, arrays, ranges and folds shared by the models.
    Nothing in this file models repository code; it provides the vocabulary
    (Python/numpy primitives) the models are written in. *)
From Coq Require Export List Arith ZArith QArith Qminmax Qabs Lia Lqa Bool.
From Coq Require Export Sorting.Sorted Sorting.Permutation Setoid Morphisms.
From Coq Require Import ZifyBool.
Export ListNotations.
Open Scope Q_scope.

Global Arguments Z.add : simpl never.
Global Arguments Z.sub : simpl never.
Global Arguments Z.mul : simpl never.
Global Arguments Z.opp : simpl never.
Global Arguments Z.div : simpl never.
Global Arguments Z.modulo : simpl never.
Global Arguments Z.pow : simpl never.
Global Arguments Z.of_nat : simpl never.
Global Arguments Z.to_nat : simpl never.
Global Arguments Qplus : simpl never.
Global Arguments Qmult : simpl never.
Global Arguments Qminus : simpl never.
Global Arguments Qopp : simpl never.
Global Arguments Qdiv : simpl never.
Global Arguments Qinv : simpl never.
Global Arguments inject_Z : simpl never.

(* ------------------------------------------------------------------ *)
(** ** Comparisons on Q (Python [<], [<=], [==] on finite floats) *)

Definition Qleb (a b : Q) : bool := Qle_bool a b.
Definition Qltb (a b : Q) : bool := negb (Qle_bool b a).
Definition Qeqb (a b : Q) : bool := Qeq_bool a b.

Lemma Qleb_spec a b : BoolSpec (a <= b) (b < a) (Qleb a b).
Proof.
  unfold Qleb. destruct (Qle_bool a b) eqn:E; constructor.
  - now apply Qle_bool_iff.
  - apply Qnot_le_lt. intro H. apply Qle_bool_iff in H. congruence.
Qed.

Lemma Qltb_spec a b : BoolSpec (a < b) (b <= a) (Qltb a b).
Proof.
  unfold Qltb. destruct (Qle_bool b a) eqn:E; simpl; constructor.
  - now apply Qle_bool_iff.
  - apply Qnot_le_lt. intro H. apply Qle_bool_iff in H. congruence.
Qed.

Lemma Qeqb_spec a b : BoolSpec (a == b) (~ a == b) (Qeqb a b).
Proof.
  unfold Qeqb. destruct (Qeq_bool a b) eqn:E; constructor.
  - now apply Qeq_bool_iff.
  - intro H. apply Qeq_bool_iff in H. congruence.
Qed.

Lemma Qleb_iff a b : Qleb a b = true <-> a <= b.
Proof. apply Qle_bool_iff. Qed.
Lemma Qltb_iff a b : Qltb a b = true <-> a < b.
Proof. destruct (Qltb_spec a b); split; intro; try discriminate; auto; lra. Qed.
Lemma Qleb_false a b : Qleb a b = false <-> b < a.
Proof. destruct (Qleb_spec a b); split; intro; try discriminate; auto; lra. Qed.
Lemma Qltb_false a b : Qltb a b = false <-> b <= a.
Proof. destruct (Qltb_spec a b); split; intro; try discriminate; auto; lra. Qed.

Global Instance Qleb_proper : Proper (Qeq ==> Qeq ==> eq) Qleb.
Proof.
  intros a a' Ha b b' Hb.
  destruct (Qleb_spec a b), (Qleb_spec a' b'); auto; exfalso; lra.
Qed.
Global Instance Qltb_proper : Proper (Qeq ==> Qeq ==> eq) Qltb.
Proof.
  intros a a' Ha b b' Hb.
  destruct (Qltb_spec a b), (Qltb_spec a' b'); auto; exfalso; lra.
Qed.

(** Python's builtin [max]/[min] of two numbers (second argument wins only if
    strictly larger/smaller). *)
Definition pmax (a b : Q) : Q := if Qltb a b then b else a.
Definition pmin (a b : Q) : Q := if Qltb b a then b else a.

Lemma pmax_l a b : a <= pmax a b.
Proof. unfold pmax. destruct (Qltb_spec a b); lra. Qed.
Lemma pmax_r a b : b <= pmax a b.
Proof. unfold pmax. destruct (Qltb_spec a b); lra. Qed.
Lemma pmin_l a b : pmin a b <= a.
Proof. unfold pmin. destruct (Qltb_spec b a); lra. Qed.
Lemma pmin_r a b : pmin a b <= b.
Proof. unfold pmin. destruct (Qltb_spec b a); lra. Qed.
Lemma pmax_case a b : pmax a b = a \/ pmax a b = b.
Proof. unfold pmax. destruct (Qltb a b); auto. Qed.
Lemma pmin_case a b : pmin a b = a \/ pmin a b = b.
Proof. unfold pmin. destruct (Qltb b a); auto. Qed.
Lemma pmax_lub a b c : a <= c -> b <= c -> pmax a b <= c.
Proof. destruct (pmax_case a b) as [-> | ->]; auto. Qed.
Lemma pmin_glb a b c : c <= a -> c <= b -> c <= pmin a b.
Proof. destruct (pmin_case a b) as [-> | ->]; auto. Qed.

Global Instance pmax_proper : Proper (Qeq ==> Qeq ==> Qeq) pmax.
Proof.
  intros a a' Ha b b' Hb. unfold pmax.
  destruct (Qltb_spec a b), (Qltb_spec a' b'); lra.
Qed.
Global Instance pmin_proper : Proper (Qeq ==> Qeq ==> Qeq) pmin.
Proof.
  intros a a' Ha b b' Hb. unfold pmin.
  destruct (Qltb_spec b a), (Qltb_spec b' a'); lra.
Qed.

(* ------------------------------------------------------------------ *)
(** ** Sums *)

Definition qsum (l : list Q) : Q := fold_right Qplus 0 l.

Lemma qsum_app l1 l2 : qsum (l1 ++ l2) == qsum l1 + qsum l2.
Proof.
  induction l1 as [|x l IH]; simpl.
  - ring.
  - rewrite IH. ring.
Qed.

Lemma qsum_cons x l : qsum (x :: l) == x + qsum l.
Proof. simpl. ring. Qed.

Lemma qsum_perm l1 l2 : Permutation l1 l2 -> qsum l1 == qsum l2.
Proof.
  induction 1; simpl.
  - reflexivity.
  - rewrite IHPermutation; ring.
  - ring.
  - now rewrite IHPermutation1.
Qed.

Lemma qsum_map_ext {A} (f g : A -> Q) l :
  (forall x, In x l -> f x == g x) -> qsum (map f l) == qsum (map g l).
Proof.
  induction l as [|x l IH]; simpl; intro H.
  - reflexivity.
  - rewrite (H x), IH by auto. reflexivity.
Qed.

Lemma qsum_map_plus {A} (f g : A -> Q) l :
  qsum (map (fun x => f x + g x) l) == qsum (map f l) + qsum (map g l).
Proof. induction l as [|x l IH]; simpl; [ring | rewrite IH; ring]. Qed.

Lemma qsum_map_scal {A} c (f : A -> Q) l :
  qsum (map (fun x => c * f x) l) == c * qsum (map f l).
Proof. induction l as [|x l IH]; simpl; [ring | rewrite IH; ring]. Qed.

Lemma qsum_map_const {A} c (l : list A) :
  qsum (map (fun _ => c) l) == c * inject_Z (Z.of_nat (length l)).
Proof.
  induction l as [|x l IH]; simpl length.
  - simpl. ring.
  - rewrite Nat2Z.inj_succ. simpl map. rewrite qsum_cons, IH.
    unfold Z.succ. rewrite inject_Z_plus. ring.
Qed.

Lemma qsum_nonneg l : (forall x, In x l -> 0 <= x) -> 0 <= qsum l.
Proof.
  induction l as [|x l IH]; simpl; intro H; [lra|].
  pose proof (H x (or_introl eq_refl)).
  assert (0 <= qsum l) by auto. lra.
Qed.

Lemma qsum_le {A} (f g : A -> Q) l :
  (forall x, In x l -> f x <= g x) -> qsum (map f l) <= qsum (map g l).
Proof.
  induction l as [|x l IH]; simpl; intro H; [lra|].
  pose proof (H x (or_introl eq_refl)).
  assert (qsum (map f l) <= qsum (map g l)) by auto. lra.
Qed.

Lemma qsum_concat ls : qsum (concat ls) == qsum (map qsum ls).
Proof.
  induction ls as [|l ls IH]; simpl; [reflexivity|].
  now rewrite qsum_app, IH.
Qed.

(** A Python accumulation loop [for x in l: acc += f x]. *)
Lemma fold_left_qsum {A} (f : A -> Q) l a :
  fold_left (fun acc x => acc + f x) l a == a + qsum (map f l).
Proof.
  revert a. induction l as [|x l IH]; simpl; intro a; [ring|].
  rewrite IH. ring.
Qed.

Lemma qsum_elem_le x l : (forall y, In y l -> 0 <= y) -> In x l -> x <= qsum l.
Proof.
  induction l as [|y l IH]; simpl; [tauto|]. intros H [E|Hin].
  - subst. assert (0 <= qsum l) by (apply qsum_nonneg; auto). lra.
  - assert (0 <= y) by auto. assert (x <= qsum l) by auto. lra.
Qed.

Lemma qsum_zero_all l : (forall y, In y l -> 0 <= y) -> qsum l <= 0 ->
  forall x, In x l -> x == 0.
Proof.
  intros H Hs x Hx. pose proof (qsum_elem_le x l H Hx). pose proof (H x Hx). lra.
Qed.

(* ------------------------------------------------------------------ *)
(** ** Arrays *)

(** numba/numpy element read [l[i]]: a negative index counts from the end.
    Out-of-range reads return [d]; theorems exclude them by hypothesis. *)
Definition zget {A} (d : A) (l : list A) (i : Z) : A :=
  nth (Z.to_nat (if (i <? 0)%Z then (i + Z.of_nat (length l))%Z else i)) l d.

(** Python [range(a, b)] *)
Definition zrange (a b : Z) : list Z :=
  map (fun k => (a + Z.of_nat k)%Z) (seq 0 (Z.to_nat (b - a))).

(** numpy slice [l[a:b]] for 0 <= a *)
Definition slice {A} (l : list A) (a b : Z) : list A :=
  firstn (Z.to_nat (b - a)) (skipn (Z.to_nat a) l).

Lemma zrange_length a b : length (zrange a b) = Z.to_nat (b - a).
Proof. unfold zrange. now rewrite map_length, seq_length. Qed.

Lemma in_zrange a b i : In i (zrange a b) <-> (a <= i < b)%Z.
Proof.
  unfold zrange. rewrite in_map_iff. split.
  - intros [k [<- Hk]]. apply in_seq in Hk. lia.
  - intro H. exists (Z.to_nat (i - a)). split; [lia|]. apply in_seq. lia.
Qed.

Lemma zrange_nil a b : (b <= a)%Z -> zrange a b = [].
Proof. intro H. unfold zrange. replace (Z.to_nat (b - a)) with O by lia. reflexivity. Qed.

Lemma zrange_cons a b : (a < b)%Z -> zrange a b = a :: zrange (a + 1) b.
Proof.
  intro H. unfold zrange.
  replace (Z.to_nat (b - a)) with (S (Z.to_nat (b - (a + 1)))) by lia.
  simpl. f_equal; [lia|]. rewrite <- seq_shift, map_map.
  apply map_ext. intro k. lia.
Qed.

Lemma zrange_snoc a b : (a <= b)%Z -> zrange a (b + 1) = zrange a b ++ [b].
Proof.
  intro H. unfold zrange.
  replace (Z.to_nat (b + 1 - a)) with (S (Z.to_nat (b - a))) by lia.
  rewrite seq_S, map_app. simpl. do 2 f_equal. lia.
Qed.

Lemma zrange_app a b c : (a <= b <= c)%Z -> zrange a c = zrange a b ++ zrange b c.
Proof.
  intros H. unfold zrange.
  replace (Z.to_nat (c - a)) with (Z.to_nat (b - a) + Z.to_nat (c - b))%nat by lia.
  rewrite seq_app, map_app. f_equal.
  replace (0 + Z.to_nat (b - a))%nat with (Z.to_nat (b - a) + 0)%nat by lia.
  generalize (Z.to_nat (c - b)) as m, 0%nat as s. intros m.
  induction m as [|m IH]; simpl; intro s; [reflexivity|].
  f_equal; [lia|]. rewrite <- IH. f_equal. f_equal. lia.
Qed.

Lemma zget_nonneg {A} (d : A) l i : (0 <= i)%Z -> zget d l i = nth (Z.to_nat i) l d.
Proof. intro H. unfold zget. destruct (Z.ltb_spec i 0); [lia|reflexivity]. Qed.

Lemma zget_neg1 {A} (d : A) l : l <> [] -> zget d l (-1) = last l d.
Proof.
  intro H. unfold zget. change (-1 <? 0)%Z with true. cbv iota.
  destruct (exists_last H) as [l' [a ->]].
  rewrite app_length. simpl.
  replace (Z.to_nat (-1 + Z.of_nat (length l' + 1))) with (length l') by lia.
  rewrite last_last. rewrite app_nth2 by apply le_n. rewrite Nat.sub_diag. reflexivity.
Qed.

Lemma skipn_nth_cons {A} (d : A) l n : (n < length l)%nat ->
  skipn n l = nth n l d :: skipn (S n) l.
Proof.
  revert l. induction n as [|n IH]; intros [|x l] H; simpl in *; try lia; auto.
  apply IH. lia.
Qed.

Lemma slice_nil {A} (l : list A) a b : (b <= a)%Z -> slice l a b = [].
Proof. intro H. unfold slice. replace (Z.to_nat (b - a)) with O by lia. reflexivity. Qed.

Lemma slice_cons {A} (d : A) l a b : (0 <= a < b)%Z -> (a < Z.of_nat (length l))%Z ->
  slice l a b = nth (Z.to_nat a) l d :: slice l (a + 1) b.
Proof.
  intros H Hl. unfold slice.
  replace (Z.to_nat (b - a)) with (S (Z.to_nat (b - (a + 1)))) by lia.
  rewrite (skipn_nth_cons d l (Z.to_nat a)) by lia. simpl.
  replace (Z.to_nat (a + 1)) with (S (Z.to_nat a)) by lia. reflexivity.
Qed.

Lemma map_zget_zrange {A} (d : A) l a b :
  (0 <= a)%Z -> (b <= Z.of_nat (length l))%Z ->
  map (zget d l) (zrange a b) = slice l a b.
Proof.
  intros Ha Hb. remember (Z.to_nat (b - a)) as n eqn:En.
  revert a Ha En. induction n as [|n IH]; intros a Ha En.
  - rewrite zrange_nil, slice_nil by lia. reflexivity.
  - rewrite zrange_cons by lia. rewrite (slice_cons d) by lia. simpl.
    rewrite zget_nonneg by lia. f_equal. apply IH; lia.
Qed.

Lemma slice_length {A} (l : list A) a b :
  (0 <= a <= b)%Z -> (b <= Z.of_nat (length l))%Z ->
  length (slice l a b) = Z.to_nat (b - a).
Proof.
  intros H Hl. unfold slice. rewrite firstn_length, skipn_length. lia.
Qed.

Lemma skipn_add {A} n m (l : list A) : skipn n (skipn m l) = skipn (m + n) l.
Proof.
  revert l. induction m as [|m IH]; intros [|x l]; simpl; auto. now destruct n.
Qed.
Lemma firstn_add {A} n m (l : list A) :
  firstn (n + m) l = firstn n l ++ firstn m (skipn n l).
Proof.
  revert l. induction n as [|n IH]; intros [|x l]; simpl; auto.
  - now destruct m.
  - now rewrite IH.
Qed.

Lemma slice_app {A} (l : list A) a b c :
  (0 <= a <= b)%Z -> (b <= c)%Z ->
  slice l a c = slice l a b ++ slice l b c.
Proof.
  intros H Hc. unfold slice.
  replace (Z.to_nat (c - a)) with (Z.to_nat (b - a) + Z.to_nat (c - b))%nat by lia.
  rewrite firstn_add, skipn_add. do 3 f_equal. lia.
Qed.

Lemma slice_full {A} (l : list A) : slice l 0 (Z.of_nat (length l)) = l.
Proof.
  unfold slice. simpl. rewrite Z.sub_0_r, Nat2Z.id. apply firstn_all.
Qed.

Lemma nth_skipn {A} (d : A) l n k : nth k (skipn n l) d = nth (n + k) l d.
Proof.
  revert l. induction n as [|n IH]; intros [|x l]; simpl; auto.
  now destruct k.
Qed.
Lemma nth_firstn {A} (d : A) l n k : (k < n)%nat -> nth k (firstn n l) d = nth k l d.
Proof.
  revert l k. induction n as [|n IH]; intros [|x l] [|k] H; simpl; auto; try lia.
  apply IH. lia.
Qed.

Lemma slice_nth {A} (d : A) l a b k :
  (Z.of_nat k < b - a)%Z ->
  nth k (slice l a b) d = nth (Z.to_nat a + k) l d.
Proof.
  intros Hk. unfold slice. rewrite nth_firstn, nth_skipn by lia. reflexivity.
Qed.

Lemma in_slice {A} (d : A) l a b x :
  (0 <= a)%Z -> (b <= Z.of_nat (length l))%Z ->
  In x (slice l a b) <-> exists i, (a <= i < b)%Z /\ x = nth (Z.to_nat i) l d.
Proof.
  intros Ha Hb. rewrite <- (map_zget_zrange d) by auto. rewrite in_map_iff. split.
  - intros [i [<- Hi]]. apply in_zrange in Hi. exists i. split; [lia|].
    now rewrite zget_nonneg by lia.
  - intros [i [Hi ->]]. exists i. split; [now rewrite zget_nonneg by lia|].
    now apply in_zrange.
Qed.

(** [searchsorted] on an ascending array: number of leading elements <= v
    (side='right') respectively < v (side='left'). *)
Fixpoint ss_right (l : list Z) (v : Z) : nat :=
  match l with
  | [] => 0
  | x :: l => if (x <=? v)%Z then S (ss_right l v) else 0
  end.
Fixpoint ss_left (l : list Z) (v : Z) : nat :=
  match l with
  | [] => 0
  | x :: l => if (x <? v)%Z then S (ss_left l v) else 0
  end.

(** Ascending lists *)
Definition ascZ (l : list Z) : Prop :=
  forall i j, (i <= j < length l)%nat -> (nth i l 0 <= nth j l 0)%Z.

Lemma ascZ_cons x l : ascZ (x :: l) -> ascZ l.
Proof. intros H i j Hij. apply (H (S i) (S j)). simpl. lia. Qed.

Lemma ss_right_le l v : (ss_right l v <= length l)%nat.
Proof. induction l as [|x l IH]; simpl; [lia|]. destruct (x <=? v)%Z; lia. Qed.
Lemma ss_left_le l v : (ss_left l v <= length l)%nat.
Proof. induction l as [|x l IH]; simpl; [lia|]. destruct (x <? v)%Z; lia. Qed.

Lemma ss_right_lt l v i : (i < ss_right l v)%nat -> (nth i l 0 <= v)%Z.
Proof.
  revert i. induction l as [|x l IH]; simpl; intros i H; [lia|].
  destruct (Z.leb_spec x v); [|lia]. destruct i as [|i]; [lia|]. apply IH. lia.
Qed.
Lemma ss_left_lt l v i : (i < ss_left l v)%nat -> (nth i l 0 < v)%Z.
Proof.
  revert i. induction l as [|x l IH]; simpl; intros i H; [lia|].
  destruct (Z.ltb_spec x v); [|lia]. destruct i as [|i]; [lia|]. apply IH. lia.
Qed.

Lemma ss_right_ge l v i : ascZ l ->
  (ss_right l v <= i < length l)%nat -> (v < nth i l 0)%Z.
Proof.
  revert i. induction l as [|x l IH]; simpl; intros i Ha H; [lia|].
  destruct (Z.leb_spec x v).
  - destruct i as [|i]; [lia|]. apply IH; [eapply ascZ_cons; eauto|lia].
  - pose proof (Ha 0%nat i) as H1. simpl in H1. specialize (H1 ltac:(lia)).
    simpl in H1. lia.
Qed.
Lemma ss_left_ge l v i : ascZ l ->
  (ss_left l v <= i < length l)%nat -> (v <= nth i l 0)%Z.
Proof.
  revert i. induction l as [|x l IH]; simpl; intros i Ha H; [lia|].
  destruct (Z.ltb_spec x v).
  - destruct i as [|i]; [lia|]. apply IH; [eapply ascZ_cons; eauto|lia].
  - pose proof (Ha 0%nat i) as H1. simpl in H1. specialize (H1 ltac:(lia)).
    simpl in H1. lia.
Qed.

(* ------------------------------------------------------------------ *)
(** ** Folds *)

Lemma fold_left_seq_S {S0} (step : S0 -> nat -> S0) a n s :
  fold_left step (seq a (S n)) s = step (fold_left step (seq a n) s) (a + n)%nat.
Proof. rewrite seq_S, fold_left_app. reflexivity. Qed.

Lemma fold_left_ext {A B} (f g : A -> B -> A) l a :
  (forall a x, In x l -> f a x = g a x) -> fold_left f l a = fold_left g l a.
Proof.
  revert a. induction l as [|x l IH]; simpl; intros a H; [reflexivity|].
  rewrite H by auto. apply IH. auto.
Qed.

Lemma fold_left_map {A B C} (f : A -> C -> A) (g : B -> C) l a :
  fold_left f (map g l) a = fold_left (fun a x => f a (g x)) l a.
Proof. revert a. induction l as [|x l IH]; simpl; auto. Qed.

(** Segment sums: sum of f(i) for a <= i < b. *)
Definition ssum (f : nat -> Q) (a b : nat) : Q := qsum (map f (seq a (b - a))).

Lemma ssum_nil f a b : (b <= a)%nat -> ssum f a b == 0.
Proof. intro H. unfold ssum. replace (b - a)%nat with 0%nat by lia. reflexivity. Qed.

Lemma ssum_snoc f a b : (a <= b)%nat -> ssum f a (S b) == ssum f a b + f b.
Proof.
  intro H. unfold ssum. replace (S b - a)%nat with (S (b - a)) by lia.
  rewrite seq_S, map_app, qsum_app. simpl.
  replace (a + (b - a))%nat with b by lia. ring.
Qed.

Lemma ssum_cons f a b : (a < b)%nat -> ssum f a b == f a + ssum f (S a) b.
Proof.
  intro H. unfold ssum. replace (b - a)%nat with (S (b - S a)) by lia.
  simpl. reflexivity.
Qed.

Lemma ssum_split f a b c : (a <= b <= c)%nat -> ssum f a c == ssum f a b + ssum f b c.
Proof.
  intro H. unfold ssum. rewrite <- qsum_app, <- map_app.
  replace (c - a)%nat with ((b - a) + (c - b))%nat by lia.
  rewrite seq_app. replace (a + (b - a))%nat with b by lia. reflexivity.
Qed.

Lemma ssum_ext f g a b : (forall i, (a <= i < b)%nat -> f i == g i) -> ssum f a b == ssum g a b.
Proof.
  intro H. unfold ssum. apply qsum_map_ext. intros x Hx. apply in_seq in Hx. apply H. lia.
Qed.

Lemma ssum_nonneg f a b : (forall i, (a <= i < b)%nat -> 0 <= f i) -> 0 <= ssum f a b.
Proof.
  intro H. unfold ssum. apply qsum_nonneg. intros x Hx.
  apply in_map_iff in Hx. destruct Hx as [i [<- Hi]]. apply in_seq in Hi. apply H. lia.
Qed.

(** Fixed-width integer wrap-around (numpy narrowing casts / overflow). *)
Definition wrapu (bits : Z) (z : Z) : Z := (z mod 2 ^ bits)%Z.
Definition wraps (bits : Z) (z : Z) : Z :=
  ((z + 2 ^ (bits - 1)) mod 2 ^ bits - 2 ^ (bits - 1))%Z.

Lemma wrapu_id bits z : (0 <= z < 2 ^ bits)%Z -> wrapu bits z = z.
Proof. intro H. unfold wrapu. apply Z.mod_small. exact H. Qed.
Lemma wraps_id bits z : (0 < bits)%Z -> (- 2 ^ (bits - 1) <= z < 2 ^ (bits - 1))%Z ->
  wraps bits z = z.
Proof.
  intros Hb H. unfold wraps.
  assert (2 ^ bits = 2 * 2 ^ (bits - 1))%Z.
  { replace bits with (Z.succ (bits - 1)) at 1 by lia. rewrite Z.pow_succ_r; lia. }
  rewrite Z.mod_small; lia.
Qed.

(** Conversion of lengths to Q *)
Definition Qnat (n : nat) : Q := inject_Z (Z.of_nat n).
Lemma Qnat_S n : Qnat (S n) == Qnat n + 1.
Proof. unfold Qnat. rewrite Nat2Z.inj_succ. unfold Z.succ. rewrite inject_Z_plus. reflexivity. Qed.
Lemma Qnat_nonneg n : 0 <= Qnat n.
Proof. unfold Qnat. rewrite <- (Zle_Qle 0). lia. Qed.
Lemma Qnat_pos n : (0 < n)%nat -> 0 < Qnat n.
Proof. intro H. unfold Qnat. rewrite <- (Zlt_Qlt 0). lia. Qed.
Lemma Qnat_plus a b : Qnat (a + b) == Qnat a + Qnat b.
Proof. unfold Qnat. rewrite Nat2Z.inj_add, inject_Z_plus. reflexivity. Qed.
Lemma Qnat_le a b : (a <= b)%nat -> Qnat a <= Qnat b.
Proof. intro H. unfold Qnat. rewrite <- Zle_Qle. lia. Qed.

(* ------------------------------------------------------------------ *)
(** ** Exceptions as values *)
Inductive exn : Type := ValueError | TypeError | KeyError | IndexError | NotImplementedError | ZeroDivisionError | AssertionError.
Inductive result (A : Type) : Type := Ok (a : A) | Raise (e : exn).
Arguments Ok {A} a.
Arguments Raise {A} e.

(* ------------------------------------------------------------------ *)
(** ** Float values that may be infinite or NaN *)
Inductive ext : Type := Fin (q : Q) | PInf | NInf | NaN.

(** IEEE multiplication of a finite number with an extended one (exact product). *)
Definition qsign (q : Q) : Z := Z.sgn (Qnum q).
Definition emulq (a : Q) (b : ext) : ext :=
  match b with
  | Fin q => Fin (a * q)
  | PInf => if (qsign a =? 0)%Z then NaN else if (0 <? qsign a)%Z then PInf else NInf
  | NInf => if (qsign a =? 0)%Z then NaN else if (0 <? qsign a)%Z then NInf else PInf
  | NaN => NaN
  end.
(** [a >= b] and [a <= b] for finite [a] (False with NaN). *)
Definition q_ge_ext (a : Q) (b : ext) : bool :=
  match b with Fin q => Qleb q a | PInf => false | NInf => true | NaN => false end.
Definition q_le_ext (a : Q) (b : ext) : bool :=
  match b with Fin q => Qleb a q | PInf => true | NInf => false | NaN => false end.

Lemma qsign_pos q : (0 < qsign q)%Z <-> 0 < q.
Proof. unfold qsign, Qlt. simpl. rewrite Z.mul_1_r. destruct (Qnum q); simpl; lia. Qed.
Lemma qsign_neg q : (qsign q < 0)%Z <-> q < 0.
Proof. unfold qsign, Qlt. simpl. rewrite Z.mul_1_r. destruct (Qnum q); simpl; lia. Qed.
Lemma qsign_zero q : (qsign q = 0)%Z <-> q == 0.
Proof. unfold qsign, Qeq. simpl. rewrite Z.mul_1_r. destruct (Qnum q); simpl; lia. Qed.
