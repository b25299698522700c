(** P_float9.v -- errors of float64 sums and products of terms of either sign. *)
From Coq Require Import Qround Qpower.
From Verif Require Import Base M_logic M_bars M_footprint M_features M_volume M_float M_float2 S_logic S_features S_volume S_float.
From Verif Require Import P_features P_float P_float2.
Open Scope Q_scope.

Definition ee (k : nat) : Q := (1 + u53) ^ Z.of_nat k - 1.
Lemma ee_0 : ee 0 == 0.
Proof. unfold ee. change ((1 + u53) ^ Z.of_nat 0) with 1. ring. Qed.
Lemma ee_S k : ee (S k) == ee k + u53 * (1 + ee k).
Proof. unfold ee. rewrite pow_S. ring. Qed.
Lemma ee_nonneg k : 0 <= ee k.
Proof. unfold ee. pose proof (pow_ge1 (1 + u53) k ltac:(pose proof u53_bounds; lra)). lra. Qed.
Lemma ee_add k m : ee (k + m) == ee k + ee m * (1 + ee k).
Proof. unfold ee. rewrite pow_add. ring. Qed.
Lemma ee_mono k m : (k <= m)%nat -> ee k <= ee m.
Proof.
  intro H. replace m with (k + (m - k))%nat by lia. rewrite ee_add.
  pose proof (ee_nonneg k). pose proof (ee_nonneg (m - k)). nra.
Qed.
Lemma near_ee k a x A : near k a x A <-> Qabs x <= A /\ Qabs (a - x) <= ee k * A.
Proof. reflexivity. Qed.

Lemma Qabs_tri a b c : Qabs (a - c) <= Qabs (a - b) + Qabs (b - c).
Proof. eapply Qle_trans; [|apply Qabs_triangle]. apply Qle_lteq. right. apply Qabs_wd. ring. Qed.
Lemma Qabs_le_diff a x : Qabs a <= Qabs (a - x) + Qabs x.
Proof. eapply Qle_trans; [|apply Qabs_triangle]. apply Qle_lteq. right. apply Qabs_wd. ring. Qed.

Lemma near_comp k a b x y A B : a == b -> x == y -> A == B -> near k a x A -> near k b y B.
Proof. intros E F G [H1 H2]. split; [rewrite <- F, <- G; auto|rewrite <- E, <- F, <- G; auto]. Qed.
Lemma near_exact k x A : Qabs x <= A -> near k x x A.
Proof.
  intro H. split; [auto|]. setoid_replace (x - x) with 0 by ring. change (Qabs 0) with 0.
  pose proof (ee_nonneg k) as E. pose proof (Qabs_nonneg x). unfold ee in E. nra.
Qed.
Lemma near_le k m a x A B : (k <= m)%nat -> A <= B -> near k a x A -> near m a x B.
Proof.
  intros L AB [H1 H2]. split; [lra|]. eapply Qle_trans; [exact H2|].
  pose proof (ee_mono k m L). pose proof (ee_nonneg k). pose proof (Qabs_nonneg x). fold (ee k) (ee m). nra.
Qed.
Lemma near_rnd k a x A : near k a x A -> near (S k) (r53 a) x A.
Proof.
  intros [H1 H2]. split; [auto|]. fold (ee k) in H2. fold (ee (S k)). rewrite ee_S.
  pose proof (r53_err a) as R. pose proof (Qabs_tri (r53 a) a x) as T. pose proof (Qabs_le_diff a x) as D.
  pose proof u53_bounds as U.
  assert (Qabs a * u53 <= (ee k * A + A) * u53) by (apply Qmult_le_compat_r; lra). lra.
Qed.
Lemma near_plus k a x A b y B : near k a x A -> near k b y B -> near k (a + b) (x + y) (A + B).
Proof.
  intros [H1 H2] [K1 K2]. split; [eapply Qle_trans; [apply Qabs_triangle|lra]|].
  setoid_replace (a + b - (x + y)) with ((a - x) + (b - y)) by ring. eapply Qle_trans; [apply Qabs_triangle|]. lra.
Qed.
Lemma near_opp k a x A : near k a x A -> near k (- a) (- x) A.
Proof.
  intros [H1 H2]. split; [rewrite Qabs_opp; auto|]. setoid_replace (- a - - x) with (- (a - x)) by ring. now rewrite Qabs_opp.
Qed.
Lemma near_minus k a x A b y B : near k a x A -> near k b y B -> near k (a - b) (x - y) (A + B).
Proof. intros H K. apply near_plus; [exact H|now apply near_opp]. Qed.
Lemma near_mult k m a x A b y B : near k a x A -> near m b y B -> near (k + m) (a * b) (x * y) (A * B).
Proof.
  intros [H1 H2] [K1 K2]. fold (ee k) in H2. fold (ee m) in K2.
  pose proof (Qabs_nonneg x). pose proof (Qabs_nonneg y). pose proof (ee_nonneg k). pose proof (ee_nonneg m).
  split; [rewrite Qabs_Qmult; nra|]. fold (ee (k + m)). rewrite ee_add.
  setoid_replace (a * b - x * y) with ((a - x) * b + x * (b - y)) by ring.
  eapply Qle_trans; [apply Qabs_triangle|]. rewrite !Qabs_Qmult.
  pose proof (Qabs_le_diff b y) as D.
  assert (P1 : Qabs (a - x) * Qabs b <= (ee k * A) * (ee m * B + B)).
  { pose proof (Qabs_nonneg (a - x)). pose proof (Qabs_nonneg b). apply Qmult_le_compat_nonneg; split; lra. }
  assert (P2 : Qabs x * Qabs (b - y) <= A * (ee m * B)).
  { pose proof (Qabs_nonneg (b - y)). apply Qmult_le_compat_nonneg; split; lra. }
  assert (0 <= A * B) by nra. nra.
Qed.
Lemma near_abs k a x A : near k a x A -> near k (Qabs a) (Qabs x) A.
Proof.
  intros [H1 H2]. split; [rewrite Qabs_pos by apply Qabs_nonneg; auto|].
  eapply Qle_trans; [|exact H2]. apply Qabs_Qle_condition. pose proof (Qabs_le_diff a x). pose proof (Qabs_le_diff x a) as K.
  setoid_replace (x - a) with (- (a - x)) in K by ring. rewrite Qabs_opp in K. lra.
Qed.

(* ---------------------------------------------------------------- sums *)
Definition asum (l : list Q) : Q := qsum (map Qabs l).
Lemma fsum_app l x : fsum (l ++ [x]) = r53 (fsum l + x).
Proof. unfold fsum. now rewrite fold_left_app. Qed.
Lemma fsum_near l : near (length l) (fsum l) (qsum l) (asum l).
Proof.
  induction l as [|x l IH] using rev_ind; [apply near_exact; discriminate|].
  rewrite fsum_app, app_length. cbn [length]. rewrite Nat.add_1_r. unfold asum. rewrite map_app. cbn [map].
  eapply near_comp; [reflexivity|symmetry; apply qsum_app|symmetry; apply qsum_app|].
  eapply near_comp; [reflexivity| |  |apply near_rnd, near_plus; [exact IH|apply (near_exact (length l) x (Qabs x)); lra]];
    cbn [qsum fold_right]; fold (asum l); unfold asum; ring.
Qed.
Lemma asum_nonneg l : 0 <= asum l.
Proof. induction l as [|x l IH]; [discriminate|]. unfold asum in *. cbn [map]. rewrite qsum_cons. pose proof (Qabs_nonneg x). lra. Qed.
Lemma qsum_grid g l : (forall x, In x l -> grid g x) -> grid g (qsum l).
Proof.
  induction l as [|x l IH]; intro H; [apply grid_0|]. eapply grid_comp; [symmetry; apply qsum_cons|].
  apply grid_plus; [apply H; now left|apply IH; intros; apply H; now right].
Qed.
Lemma qsum_abs l : Qabs (qsum l) <= asum l.
Proof.
  induction l as [|x l IH]; [discriminate|]. unfold asum in *. cbn [map]. rewrite !qsum_cons. eapply Qle_trans; [apply Qabs_triangle|]. lra.
Qed.
Lemma r53_grid g x : grid g x -> Qabs x <= two (53 + g) -> r53 x == x.
Proof. intros G B. apply rnd_exact; [lia|]. apply (grid_fl 53 g); [lia|auto|auto]. Qed.
Lemma asum_app l m : asum (l ++ m) == asum l + asum m.
Proof. unfold asum. rewrite map_app. apply qsum_app. Qed.
Lemma fsum_grid g l : (forall x, In x l -> grid g x) -> asum l <= two (53 + g) -> fsum l == qsum l.
Proof.
  induction l as [|x l IH] using rev_ind; intros H B; [reflexivity|].
  rewrite asum_app in B. unfold asum at 2 in B. cbn [map qsum fold_right] in B. pose proof (Qabs_nonneg x).
  assert (E : fsum l == qsum l) by (apply IH; [intros; apply H, in_or_app; now left|lra]).
  rewrite fsum_app, qsum_app. cbn [qsum fold_right]. rewrite Qplus_0_r.
  unfold r53. rewrite (rnd_comp 53 (fsum l + x) (qsum l + x)) by (rewrite E; reflexivity). apply (r53_grid g).
  - apply grid_plus; [apply qsum_grid; intros; apply H, in_or_app; now left|apply H, in_or_app; right; now left].
  - eapply Qle_trans; [apply Qabs_triangle|]. pose proof (qsum_abs l). lra.
Qed.
Lemma asum_pos l : (forall x, In x l -> 0 <= x) -> asum l == qsum l.
Proof. intro H. unfold asum. rewrite (qsum_map_ext Qabs (fun x => x)); [now rewrite map_id|]. intros x Hx. apply Qabs_pos. auto. Qed.

(* ---------------------------------------------------------------- scaling by powers of two *)
Lemma rnd_two p e x : rnd p (x * two e) == rnd p x * two e.
Proof.
  destruct (Qeq_dec x 0) as [Z0|N]; [rewrite (rnd_0 p x Z0), rnd_0; [ring|rewrite Z0; ring]|].
  pose proof (two_pos e) as Pe. assert (N' : ~ x * two e == 0) by nra.
  unfold rnd. destruct (Qeqb_spec x 0); [contradiction|]. destruct (Qeqb_spec (x * two e) 0); [contradiction|].
  assert (L : ilog (x * two e) = (ilog x + e)%Z).
  { apply ilog_unique. pose proof (ilog_spec x N) as [A B]. rewrite Qabs_scale by auto.
    replace (ilog x + e + 1)%Z with (ilog x + 1 + e)%Z by lia. rewrite (two_plus (ilog x) e), (two_plus (ilog x + 1) e). nra. }
  rewrite L. rewrite !Qred_correct.
  assert (E : rhe (x * two e / two (ilog x + e - (p - 1))) = rhe (x / two (ilog x - (p - 1)))).
  { apply rhe_comp. replace (ilog x + e - (p - 1))%Z with (ilog x - (p - 1) + e)%Z by lia. rewrite two_plus.
    pose proof (two_pos (ilog x - (p - 1))). field. split; lra. }
  rewrite E. replace (ilog x + e - (p - 1))%Z with (ilog x - (p - 1) + e)%Z by lia. rewrite two_plus. ring.
Qed.
