(** P_sumf.v -- sums in any order. *)
From Coq Require Import Permutation.
From Verif Require Import Base M_float M_float2 S_float S_sumf P_float P_float9 P_float12 P_float13.
Open Scope Q_scope.

Lemma within_mult n m a x b y : 0 <= x -> 0 <= y -> within u53 n a x -> within u53 m b y -> within u53 (n + m) (a * b) (x * y).
Proof.
  intros Hx Hy Wa Wb. pose proof (within_nonneg u53 u53_bounds n a x Wa Hx) as Ha. pose proof (within_nonneg u53 u53_bounds m b y Wb Hy) as Hb. destruct Wa as [A1 A2], Wb as [B1 B2].
  unfold within. rewrite !pow_add. pose proof u53_bounds as U. pose proof (pow_nonneg (1 - u53) n ltac:(lra)) as P1. pose proof (pow_nonneg (1 - u53) m ltac:(lra)) as P2. pose proof (pow_nonneg (1 + u53) n ltac:(lra)) as P3. pose proof (pow_nonneg (1 + u53) m ltac:(lra)) as P4.
  set (p := (1 - u53) ^ Z.of_nat n) in *. set (q := (1 - u53) ^ Z.of_nat m) in *. set (r := (1 + u53) ^ Z.of_nat n) in *. set (s := (1 + u53) ^ Z.of_nat m) in *. clearbody p q r s.
  split.
  - setoid_replace (p * q * (x * y)) with ((p * x) * (q * y)) by ring. assert (0 <= p * x) by (apply Qmult_le_0_compat; assumption). assert (0 <= q * y) by (apply Qmult_le_0_compat; assumption). apply Qle_trans with (a * (q * y)); [apply Qmult_le_compat_r; lra|]. rewrite !(Qmult_comm a). apply Qmult_le_compat_r; lra.
  - setoid_replace (r * s * (x * y)) with ((r * x) * (s * y)) by ring. assert (0 <= r * x) by (apply Qmult_le_0_compat; assumption). apply Qle_trans with (a * (s * y)); [rewrite !(Qmult_comm a); apply Qmult_le_compat_r; lra|]. apply Qmult_le_compat_r; [lra|]. apply Qmult_le_0_compat; assumption.
Qed.
Lemma within_mult_r n m a x b y : 0 <= x -> 0 <= y -> within u53 n a x -> within u53 m b y -> within u53 (S (n + m)) (r53 (a * b)) (x * y).
Proof. intros Hx Hy A B. apply within_r53; [now apply Qmult_le_0_compat|now apply within_mult]. Qed.
Lemma within_div_r n m a x b y : 0 <= x -> 0 < y -> within u53 n a x -> within u53 m b y -> within u53 (S (n + 2 * m)) (r53 (a / b)) (x / y).
Proof. intros Hx Hy A B. apply within_r53; [apply Qle_shift_div_l; lra|now apply within_div]. Qed.
(** Within is symmetric up to a factor of two in the count. *)
Lemma within_sym n a x : 0 < x -> within u53 n a x -> within u53 (2 * n) x a.
Proof.
  intros Hx W. pose proof (within_pos n a x Hx W) as Ha. pose proof (within_div 0 n x x a x ltac:(lra) Hx (within_self u53 u53_bounds 0 x ltac:(lra)) W) as D. cbn [Nat.add] in D.
  apply (within_scale a _ _ _ ltac:(lra)) in D. eapply within_comp; [| |exact D]; field; lra.
Qed.
Lemma within_trans n m a b x : 0 <= x -> within u53 n a b -> within u53 m b x -> within u53 (n + m) a x.
Proof.
  intros Hx [A1 A2] [B1 B2]. unfold within. rewrite !pow_add. pose proof u53_bounds as U. pose proof (pow_nonneg (1 - u53) n ltac:(lra)) as P1. pose proof (pow_nonneg (1 + u53) n ltac:(lra)) as P3.
  set (p := (1 - u53) ^ Z.of_nat n) in *. set (q := (1 - u53) ^ Z.of_nat m) in *. set (r := (1 + u53) ^ Z.of_nat n) in *. set (s := (1 + u53) ^ Z.of_nat m) in *. clearbody p q r s. split.
  - apply Qle_trans with (p * b); [|exact A1]. setoid_replace (p * q * x) with (p * (q * x)) by ring. rewrite !(Qmult_comm p). apply Qmult_le_compat_r; assumption.
  - apply Qle_trans with (r * b); [exact A2|]. setoid_replace (r * s * x) with (r * (s * x)) by ring. rewrite !(Qmult_comm r). apply Qmult_le_compat_r; assumption.
Qed.
Lemma near_within n a x : 0 <= x -> within u53 n a x -> near n a x x.
Proof. intros Hx W. apply near_ee. split; [rewrite Qabs_pos by exact Hx; lra|now apply within_abs_err]. Qed.

Lemma qsum_perm l m : Permutation l m -> qsum l == qsum m.
Proof. induction 1 as [|x l m _ IH|x y l|l m k _ IH1 _ IH2]; cbn [qsum fold_right] in *; try reflexivity; [unfold qsum in IH; cbn; rewrite IH; reflexivity|cbn; ring|now rewrite IH1]. Qed.
Lemma qsum_app2 l m : qsum (l ++ m) == qsum l + qsum m.
Proof. apply qsum_app. Qed.
Definition wpairs (k : nat) (ps : list (Q * Q)) : Prop := forall p, In p ps -> 0 <= snd p /\ within u53 k (fst p) (snd p).
Lemma wpairs_sum k ps : wpairs k ps -> 0 <= qsum (map snd ps).
Proof. intro H. apply qsum_nonneg. intros x Hx. apply in_map_iff in Hx. destruct Hx as (p & <- & Hp). now apply H. Qed.
Lemma map_app_inv {A B} (f : A -> B) l : forall a b, map f l = a ++ b -> exists l1 l2, l = l1 ++ l2 /\ map f l1 = a /\ map f l2 = b.
Proof.
  induction l as [|x l IH]; intros a b E.
  - exists [], []. destruct a; [|discriminate]. cbn in *. subst. auto.
  - destruct a as [|y a]; [exists [], (x :: l); auto|]. cbn in E. injection E as E1 E2. destruct (IH a b E2) as (l1 & l2 & -> & <- & <-). exists (x :: l1), l2. cbn. rewrite E1. auto.
Qed.
Lemma some_order_within l s : some_order l s -> forall k ps, map fst ps = l -> wpairs k ps -> within u53 (k + length l) s (qsum (map snd ps)).
Proof.
  induction 1 as [|x|x|l m a b Hl Hm _ IHl _ IHm|l m a HP _ IH]; intros k ps E W.
  - destruct ps; [|discriminate]. apply within_0.
  - destruct ps as [|[y z] [|]]; try discriminate. cbn in E. injection E as ->. destruct (W (x, z) (or_introl eq_refl)) as [Z1 Z2]. cbn [fst snd] in *.
    cbn [map snd length]. apply (within_comp u53 _ x z); [reflexivity|unfold qsum; cbn; ring|]. apply (within_le u53 u53_bounds k); [lia|exact Z1|exact Z2].
  - destruct ps as [|[y z] [|]]; try discriminate. cbn in E. injection E as ->. destruct (W (x, z) (or_introl eq_refl)) as [Z1 Z2]. cbn [fst snd] in *.
    cbn [map snd length]. apply (within_comp u53 _ (r53 x) z); [reflexivity|unfold qsum; cbn; ring|]. replace (k + 1)%nat with (S k) by lia. now apply within_r53.
  - destruct (map_app_inv fst ps l m E) as (p1 & p2 & -> & E1 & E2). assert (W1 : wpairs k p1) by (intros p Hp; apply W; apply in_or_app; now left). assert (W2 : wpairs k p2) by (intros p Hp; apply W; apply in_or_app; now right).
    specialize (IHl k p1 E1 W1). specialize (IHm k p2 E2 W2). pose proof (wpairs_sum k p1 W1). pose proof (wpairs_sum k p2 W2). rewrite map_app, app_length.
    eapply within_comp; [reflexivity|symmetry; apply qsum_app2|]. assert (1 <= length l)%nat by (destruct l; [congruence|cbn; lia]). assert (1 <= length m)%nat by (destruct m; [congruence|cbn; lia]).
    apply (within_le u53 u53_bounds (S (k + (length l + length m - 1)))); [lia|lra|]. apply within_r53; [lra|]. apply within_plus; [apply (within_le u53 u53_bounds (k + length l))|apply (within_le u53 u53_bounds (k + length m))]; try assumption; lia.
  - assert (HP' : Permutation l (map fst ps)) by now rewrite E. destruct (Permutation_map_inv fst _ HP') as (p3 & E3 & P3). specialize (IH k p3 (eq_sym E3)). rewrite <- (Permutation_length HP).
    eapply within_comp; [reflexivity|apply qsum_perm; apply Permutation_map; apply Permutation_sym; exact P3|]. apply IH. intros p Hp. apply W. apply (Permutation_in p (Permutation_sym P3) Hp).
Qed.
(** Bounds on a grid. *)
Definition bpairs (R : Q -> Q -> Prop) (g : Z) (ps : list (Q * Q)) : Prop := forall p, In p ps -> R (fst p) (snd p) /\ grid g (snd p) /\ 0 <= snd p.
Lemma bpairs_sum R g ps : bpairs R g ps -> 0 <= qsum (map snd ps) /\ grid g (qsum (map snd ps)).
Proof.
  intro H. split; [apply qsum_nonneg; intros x Hx; apply in_map_iff in Hx; destruct Hx as (p & <- & Hp); now apply H|].
  apply qsum_grid. intros x Hx. apply in_map_iff in Hx. destruct Hx as (p & <- & Hp). now apply H.
Qed.
Lemma some_order_le l s : some_order l s -> forall g ps, map fst ps = l -> bpairs Qle g ps -> qsum (map snd ps) <= two (53 + g) -> s <= qsum (map snd ps).
Proof.
  induction 1 as [|x|x|l m a b Hl Hm _ IHl _ IHm|l m a HP _ IH]; intros g ps E W T.
  - destruct ps; [|discriminate]. apply Qle_refl.
  - destruct ps as [|[y z] [|]]; try discriminate. cbn in E. injection E as ->. destruct (W (x, z) (or_introl eq_refl)) as (Z1 & Z2 & Z3). cbn [fst snd] in *. unfold qsum. cbn. lra.
  - destruct ps as [|[y z] [|]]; try discriminate. cbn in E. injection E as ->. destruct (W (x, z) (or_introl eq_refl)) as (Z1 & Z2 & Z3). cbn [fst snd map] in *. assert (EZ : qsum [z] == z) by (unfold qsum; cbn; ring). rewrite EZ in *. apply rnd_le; [lia| |exact Z1]. apply (grid_fl 53 g); [lia|exact Z2|]. rewrite Qabs_pos by exact Z3. exact T.
  - destruct (map_app_inv fst ps l m E) as (p1 & p2 & -> & E1 & E2). assert (W1 : bpairs Qle g p1) by (intros p Hp; apply W; apply in_or_app; now left). assert (W2 : bpairs Qle g p2) by (intros p Hp; apply W; apply in_or_app; now right).
    destruct (bpairs_sum _ g p1 W1) as [N1 G1]. destruct (bpairs_sum _ g p2 W2) as [N2 G2]. rewrite map_app in T |- *. rewrite qsum_app2 in T |- *. specialize (IHl g p1 E1 W1 ltac:(lra)). specialize (IHm g p2 E2 W2 ltac:(lra)).
    apply rnd_le; [lia| |lra]. apply (grid_fl 53 g); [lia|now apply grid_plus|]. rewrite Qabs_pos by lra. exact T.
  - assert (HP' : Permutation l (map fst ps)) by now rewrite E. destruct (Permutation_map_inv fst _ HP') as (p3 & E3 & P3). pose proof (qsum_perm _ _ (Permutation_map snd P3)) as EP. rewrite EP in *. apply (IH g p3 (eq_sym E3)); [|exact T].
    intros p Hp. apply W. apply (Permutation_in p (Permutation_sym P3) Hp).
Qed.
Lemma some_order_ge l s : some_order l s -> forall g ps, map fst ps = l -> bpairs (fun a b => b <= a) g ps -> qsum (map snd ps) <= two (53 + g) -> qsum (map snd ps) <= s.
Proof.
  induction 1 as [|x|x|l m a b Hl Hm _ IHl _ IHm|l m a HP _ IH]; intros g ps E W T.
  - destruct ps; [|discriminate]. apply Qle_refl.
  - destruct ps as [|[y z] [|]]; try discriminate. cbn in E. injection E as ->. destruct (W (x, z) (or_introl eq_refl)) as (Z1 & Z2 & Z3). cbn [fst snd] in *. unfold qsum. cbn. lra.
  - destruct ps as [|[y z] [|]]; try discriminate. cbn in E. injection E as ->. destruct (W (x, z) (or_introl eq_refl)) as (Z1 & Z2 & Z3). cbn [fst snd map] in *. assert (EZ : qsum [z] == z) by (unfold qsum; cbn; ring). rewrite EZ in *. apply rnd_ge; [lia| |exact Z1]. apply (grid_fl 53 g); [lia|exact Z2|]. rewrite Qabs_pos by exact Z3. exact T.
  - destruct (map_app_inv fst ps l m E) as (p1 & p2 & -> & E1 & E2). assert (W1 : bpairs (fun a b => b <= a) g p1) by (intros p Hp; apply W; apply in_or_app; now left). assert (W2 : bpairs (fun a b => b <= a) g p2) by (intros p Hp; apply W; apply in_or_app; now right).
    destruct (bpairs_sum _ g p1 W1) as [N1 G1]. destruct (bpairs_sum _ g p2 W2) as [N2 G2]. rewrite map_app in T |- *. rewrite qsum_app2 in T |- *. specialize (IHl g p1 E1 W1 ltac:(lra)). specialize (IHm g p2 E2 W2 ltac:(lra)).
    apply rnd_ge; [lia| |lra]. apply (grid_fl 53 g); [lia|now apply grid_plus|]. rewrite Qabs_pos by lra. exact T.
  - assert (HP' : Permutation l (map fst ps)) by now rewrite E. destruct (Permutation_map_inv fst _ HP') as (p3 & E3 & P3). pose proof (qsum_perm _ _ (Permutation_map snd P3)) as EP. rewrite EP in *. apply (IH g p3 (eq_sym E3)); [|exact T].
    intros p Hp. apply W. apply (Permutation_in p (Permutation_sym P3) Hp).
Qed.
(** The sequential sum is one of them. *)
Lemma fsum_some_order l : some_order l (fsum l).
Proof.
  induction l as [|x l IH] using rev_ind; [apply so_nil|]. rewrite fsum_app. destruct l as [|y l].
  - cbn [fsum fold_left app]. unfold fsum. cbn [fold_left]. unfold r53. rewrite (rnd_comp 53 (0 + x) x) by ring. apply so_round.
  - apply so_add; [discriminate|discriminate|exact IH|apply so_one].
Qed.
