(** P_units.v -- lemmas on changes of units. *)
From Coq Require Import Qpower Qfield.
From Verif Require Import Base M_logic M_bars M_features M_volat S_units.
Open Scope Q_scope.

Lemma sc_comp c d x y x' y' : c == d -> x == x' -> y == y' -> sc c x y -> sc d x' y'.
Proof. unfold sc. intros E1 E2 E3 H. now rewrite <- E1, <- E2, <- E3. Qed.
Lemma sc_unit c d x y : c == d -> sc c x y -> sc d x y.
Proof. intros. eapply sc_comp; eauto; reflexivity. Qed.
Lemma sc_0 c : sc c 0 0.
Proof. unfold sc. ring. Qed.
Lemma sc_1 x : sc 1 x x.
Proof. unfold sc. ring. Qed.
Lemma sc_eq x y : sc 1 x y <-> x == y.
Proof. unfold sc. split; intro H; [rewrite H; ring|rewrite <- H; ring]. Qed.
Lemma sc_plus c x y x' y' : sc c x x' -> sc c y y' -> sc c (x + y) (x' + y').
Proof. unfold sc. intros -> ->. ring. Qed.
Lemma sc_minus c x y x' y' : sc c x x' -> sc c y y' -> sc c (x - y) (x' - y').
Proof. unfold sc. intros -> ->. ring. Qed.
Lemma sc_opp c x x' : sc c x x' -> sc c (- x) (- x').
Proof. unfold sc. intros ->. ring. Qed.
Lemma sc_mult c d x y x' y' : sc c x x' -> sc d y y' -> sc (c * d) (x * y) (x' * y').
Proof. unfold sc. intros -> ->. ring. Qed.
Lemma sc_const c k x x' : sc c x x' -> sc c (k * x) (k * x').
Proof. unfold sc. intros ->. ring. Qed.
Lemma sc_const_r c k x x' : sc c x x' -> sc c (x * k) (x' * k).
Proof. unfold sc. intros ->. ring. Qed.
Lemma sc_divk c k x x' : sc c x x' -> sc c (x / k) (x' / k).
Proof. unfold sc, Qdiv. intros ->. ring. Qed.
Lemma Qinv_0 x : x == 0 -> / x == 0.
Proof. intros ->. reflexivity. Qed.
Lemma sc_div c d x y x' y' : sc c x x' -> sc d y y' -> sc (c / d) (x / y) (x' / y').
Proof. unfold sc, Qdiv. intros -> ->. rewrite Qinv_mult_distr. ring. Qed.
Lemma sc_ratio c x y x' y' : 0 < c -> sc c x x' -> sc c y y' -> x / y == x' / y'.
Proof.
  intros Hc A B. apply sc_eq. apply (sc_unit (c / c)); [field; lra|]. now apply sc_div.
Qed.
Lemma sc_abs c x x' : 0 < c -> sc c x x' -> sc c (Qabs x) (Qabs x').
Proof. unfold sc. intros Hc ->. rewrite Qabs_Qmult, (Qabs_pos c) by lra. reflexivity. Qed.
Lemma Qlt_sc c x y x' y' : 0 < c -> sc c x x' -> sc c y y' -> x < y <-> x' < y'.
Proof.
  unfold sc. intros Hc -> ->. rewrite !(Qmult_comm c). split; intro H; [now apply Qmult_lt_r|now apply Qmult_lt_r in H].
Qed.
Lemma Qltb_sc c x y x' y' : 0 < c -> sc c x x' -> sc c y y' -> Qltb x y = Qltb x' y'.
Proof.
  intros Hc A B. pose proof (Qlt_sc c x y x' y' Hc A B) as E.
  destruct (Qltb_spec x y), (Qltb_spec x' y'); auto; exfalso; [assert (x' < y') by tauto|assert (x < y) by tauto]; lra.
Qed.
Lemma Qleb_sc c x y x' y' : 0 < c -> sc c x x' -> sc c y y' -> Qleb x y = Qleb x' y'.
Proof.
  intros Hc A B. pose proof (Qlt_sc c y x y' x' Hc B A) as E.
  destruct (Qleb_spec x y), (Qleb_spec x' y'); auto; exfalso; [assert (y < x) by tauto|assert (y' < x') by tauto]; lra.
Qed.
Lemma Qeqb_sc c x y x' y' : 0 < c -> sc c x x' -> sc c y y' -> Qeqb x y = Qeqb x' y'.
Proof.
  intros Hc A B. pose proof (Qlt_sc c x y x' y' Hc A B). pose proof (Qlt_sc c y x y' x' Hc B A).
  destruct (Qeqb_spec x y) as [E|E], (Qeqb_spec x' y') as [F|F]; auto; exfalso.
  - apply F. destruct (Qlt_le_dec x' y'); [assert (x < y) by tauto; lra|]. destruct (Qlt_le_dec y' x'); [assert (y < x) by tauto; lra|lra].
  - apply E. destruct (Qlt_le_dec x y); [assert (x' < y') by tauto; lra|]. destruct (Qlt_le_dec y x); [assert (y' < x') by tauto; lra|lra].
Qed.
Lemma sc_if c (b b' : bool) x y x' y' : b = b' -> sc c x x' -> sc c y y' -> sc c (if b then x else y) (if b' then x' else y').
Proof. intros <- H1 H2. now destruct b. Qed.
Lemma sc_pmax c x y x' y' : 0 < c -> sc c x x' -> sc c y y' -> sc c (pmax x y) (pmax x' y').
Proof. intros. unfold pmax. apply sc_if; auto. now apply (Qltb_sc c). Qed.
Lemma sc_pmin c x y x' y' : 0 < c -> sc c x x' -> sc c y y' -> sc c (pmin x y) (pmin x' y').
Proof. intros. unfold pmin. apply sc_if; auto. now apply (Qltb_sc c). Qed.
(** Lists. *)
Lemma F2_length {A B} (R : A -> B -> Prop) l m : Forall2 R l m -> length l = length m.
Proof. induction 1; cbn [length]; auto. Qed.
Lemma F2_nth {A B} (R : A -> B -> Prop) d e l m i : R d e -> Forall2 R l m -> R (nth i l d) (nth i m e).
Proof. intros D H. revert i. induction H as [|x y l m Hx H IH]; intros [|i]; cbn [nth]; auto. Qed.
Lemma F2_firstn {A B} (R : A -> B -> Prop) l m n : Forall2 R l m -> Forall2 R (firstn n l) (firstn n m).
Proof. intro H. revert n. induction H; intros [|n]; cbn [firstn]; constructor; auto. Qed.
Lemma F2_skipn {A B} (R : A -> B -> Prop) l m n : Forall2 R l m -> Forall2 R (skipn n l) (skipn n m).
Proof. intro H. revert n. induction H; intros [|n]; cbn [skipn]; auto. Qed.
Lemma F2_map {A B C D} (R : A -> B -> Prop) (S0 : C -> D -> Prop) f g l m : (forall x y, R x y -> S0 (f x) (g y)) -> Forall2 R l m -> Forall2 S0 (map f l) (map g m).
Proof. intros H. induction 1; cbn [map]; constructor; auto. Qed.
Lemma F2_map_same {A C D} (S0 : C -> D -> Prop) (f : A -> C) (g : A -> D) l : (forall x, In x l -> S0 (f x) (g x)) -> Forall2 S0 (map f l) (map g l).
Proof. induction l as [|x l IH]; intro H; cbn [map]; constructor; [apply H; now left|apply IH; intros; apply H; now right]. Qed.
Lemma F2_eq {A} (l m : list A) : Forall2 eq l m -> l = m.
Proof. induction 1; congruence. Qed.
Lemma F2_seq {C D} (S0 : C -> D -> Prop) f g n m : n = m -> (forall i, (i < n)%nat -> S0 (f i) (g i)) -> Forall2 S0 (map f (seq 0 n)) (map g (seq 0 m)).
Proof. intros <- H. apply F2_map_same. intros i Hi. apply in_seq in Hi. apply H. lia. Qed.
Lemma fold_rel {A B C} (R : A -> B -> Prop) (f : A -> C -> A) (g : B -> C -> B) l a b :
  (forall x y k, R x y -> R (f x k) (g y k)) -> R a b -> R (fold_left f l a) (fold_left g l b).
Proof. intros H. revert a b. induction l as [|k l IH]; intros a b Rab; cbn [fold_left]; auto. Qed.
Lemma fold_rel2 {A B C D} (R : A -> B -> Prop) (S0 : C -> D -> Prop) (f : A -> C -> A) (g : B -> D -> B) l m a b :
  (forall x y k j, R x y -> S0 k j -> R (f x k) (g y j)) -> Forall2 S0 l m -> R a b -> R (fold_left f l a) (fold_left g m b).
Proof. intros H F. revert a b. induction F as [|k j l m Hk F IH]; intros a b Rab; cbn [fold_left]; auto. Qed.
Lemma scl_nth c l l' i : scl c l l' -> sc c (nth i l 0) (nth i l' 0).
Proof. apply F2_nth. apply sc_0. Qed.
Lemma scl_qn c l l' i : scl c l l' -> sc c (qn l i) (qn l' i).
Proof. apply scl_nth. Qed.
Lemma F2_zget {A} (R : A -> A -> Prop) d l m i : R d d -> Forall2 R l m -> R (zget d l i) (zget d m i).
Proof. intros D H. unfold zget. rewrite (F2_length _ _ _ H). destruct (_ <? _)%Z; now apply F2_nth. Qed.
Lemma scl_zget c l l' i : scl c l l' -> sc c (zget 0 l i) (zget 0 l' i).
Proof. apply F2_zget. apply sc_0. Qed.
Lemma scl_qsum c l l' : scl c l l' -> sc c (qsum l) (qsum l').
Proof. induction 1; cbn [qsum fold_right]; [apply sc_0|now apply sc_plus]. Qed.
Lemma sc_qsum_map {A} c (f g : A -> Q) l : (forall x, In x l -> sc c (f x) (g x)) -> sc c (qsum (map f l)) (qsum (map g l)).
Proof. intro H. apply scl_qsum. now apply F2_map_same. Qed.
Lemma scl_lastn c l l' i n : scl c l l' -> scl c (lastn l i n) (lastn l' i n).
Proof. intro H. unfold lastn. now apply F2_firstn, F2_skipn. Qed.
Lemma scl_slice c l l' a b : scl c l l' -> scl c (slice l a b) (slice l' a b).
Proof. intro H. unfold slice. now apply F2_firstn, F2_skipn. Qed.
Lemma scl_length c l l' : scl c l l' -> length l' = length l.
Proof. intro H. symmetry. eapply F2_length; eauto. Qed.
Lemma scl_qinsert c x x' l l' : 0 < c -> sc c x x' -> scl c l l' -> scl c (qinsert x l) (qinsert x' l').
Proof.
  intros Hc Hx H. induction H as [|y y' l l' Hy H IH]; cbn [qinsert]; [constructor; [auto|constructor]|].
  rewrite (Qleb_sc c x y x' y') by auto. destruct (Qleb x' y'); constructor; auto; now constructor.
Qed.
Lemma scl_qsort c l l' : 0 < c -> scl c l l' -> scl c (qsort l) (qsort l').
Proof. intros Hc H. induction H; cbn [qsort fold_right]; [constructor|now apply scl_qinsert]. Qed.
Lemma sc_median c l l' : 0 < c -> scl c l l' -> sc c (median l) (median l').
Proof.
  intros Hc H. pose proof (scl_qsort c l l' Hc H) as Q0. unfold median. cbv zeta. rewrite (scl_length _ _ _ H).
  destruct (Nat.odd (length l)); [now apply scl_nth|]. apply sc_divk, sc_plus; now apply scl_nth.
Qed.
(** Results. *)
Lemma both_collect {A} (R : A -> A -> Prop) l m : Forall2 (both R) l m -> both (Forall2 R) (collect l) (collect m).
Proof.
  induction 1 as [|x y l m Hx H IH]; cbn [collect both]; [constructor|]. destruct x as [a|e], y as [b|f]; cbn [both] in Hx; try contradiction; [|exact Hx].
  destruct (collect l), (collect m); cbn [both] in *; try contradiction; auto.
Qed.
Lemma osc_None c : osc c None None.
Proof. exact I. Qed.
Lemma osc_Some c x y : sc c x y -> osc c (Some x) (Some y).
Proof. auto. Qed.
Lemma osc_if c (b b' : bool) x y x' y' : b = b' -> osc c x x' -> osc c y y' -> osc c (if b then x else y) (if b' then x' else y').
Proof. intros <- H1 H2. now destruct b. Qed.
