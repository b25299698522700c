(** P_float.v -- proofs about float rounding. *)
From Coq Require Import Qround Qpower.
From Verif Require Import Base M_logic M_footprint S_footprint P_footprint M_float S_float P_features.
Open Scope Q_scope.

(* ---------------------------------------------------------------- powers of two *)
Lemma two_ne : ~ 2 == 0.
Proof. discriminate. Qed.
Lemma two_pos e : 0 < two e.
Proof. unfold two. apply Qpower_0_lt. reflexivity. Qed.
Lemma two_plus a b : two (a + b) == two a * two b.
Proof. unfold two. apply Qpower_plus, two_ne. Qed.
Lemma two_Z n : (0 <= n)%Z -> two n == inject_Z (2 ^ n).
Proof. intro H. unfold two. rewrite Zpower_Qpower by auto. reflexivity. Qed.
Lemma two_0 : two 0 == 1.
Proof. reflexivity. Qed.
Lemma two_1 : two 1 == 2.
Proof. reflexivity. Qed.
Lemma two_S e : two (e + 1) == 2 * two e.
Proof. rewrite two_plus, two_1. ring. Qed.
Lemma two_ge1 n : (0 <= n)%Z -> 1 <= two n.
Proof.
  intro H. rewrite two_Z by auto. change 1 with (inject_Z 1). rewrite <- Zle_Qle.
  pose proof (Z.pow_pos_nonneg 2 n). lia.
Qed.
Lemma two_le a b : (a <= b)%Z -> two a <= two b.
Proof.
  intro H. replace b with (a + (b - a))%Z by lia. rewrite two_plus.
  pose proof (two_pos a). pose proof (two_ge1 (b - a) ltac:(lia)). nra.
Qed.
Lemma two_lt a b : (a < b)%Z -> two a < two b.
Proof.
  intro H. pose proof (two_le (a + 1) b ltac:(lia)) as L. rewrite two_S in L. pose proof (two_pos a). lra.
Qed.
Lemma two_lt_inv a b : two a < two b -> (a < b)%Z.
Proof. intro H. apply Z.nle_gt. intro C. apply two_le in C. lra. Qed.
Lemma two_opp a : two a * two (- a) == 1.
Proof. rewrite <- two_plus. replace (a + - a)%Z with 0%Z by lia. reflexivity. Qed.

(* ---------------------------------------------------------------- the exponent *)
Lemma ilog_spec x : ~ x == 0 -> two (ilog x) <= Qabs x < two (ilog x + 1).
Proof.
  intro Hx. destruct x as [n d]. unfold ilog. cbn [Qnum Qden].
  assert (Hn : (0 < Z.abs n)%Z) by (unfold Qeq in Hx; cbn in Hx; lia).
  change (Qabs (n # d)) with (Z.abs n # d).
  set (a := Z.abs n) in *. set (l := (Z.log2 a - Z.log2 (Z.pos d))%Z).
  pose proof (Z.log2_spec a Hn) as [A1 A2]. pose proof (Z.log2_spec (Z.pos d) ltac:(lia)) as [D1 D2].
  pose proof (Z.log2_nonneg a). pose proof (Z.log2_nonneg (Z.pos d)).
  set (la := Z.log2 a) in *. set (ld := Z.log2 (Z.pos d)) in *.
  assert (Ea : (a # d) == inject_Z a * / inject_Z (Z.pos d)) by (rewrite Qmake_Qdiv; reflexivity).
  assert (Dp : 0 < inject_Z (Z.pos d)) by reflexivity.
  assert (QA1 : two la <= inject_Z a) by (rewrite two_Z, <- Zle_Qle by lia; lia).
  assert (QA2 : inject_Z a < two (la + 1)) by (rewrite two_Z, <- Zlt_Qlt by lia; lia).
  assert (QD1 : two ld <= inject_Z (Z.pos d)) by (rewrite two_Z, <- Zle_Qle by lia; lia).
  assert (QD2 : inject_Z (Z.pos d) < two (ld + 1)) by (rewrite two_Z, <- Zlt_Qlt by lia; lia).
  assert (El : two la == two l * two ld) by (rewrite <- two_plus; unfold l; replace (la - ld + ld)%Z with la by lia; reflexivity).
  rewrite two_S in QA2, QD2.
  assert (U : (a # d) < two (l + 1)).
  { rewrite Ea. apply Qlt_shift_div_r; [exact Dp|]. rewrite two_S. pose proof (two_pos l). nra. }
  assert (L : two (l - 1) <= (a # d)).
  { rewrite Ea. apply Qle_shift_div_l; [exact Dp|].
    assert (E : two l == 2 * two (l - 1)) by (rewrite <- two_S; replace (l - 1 + 1)%Z with l by lia; reflexivity).
    pose proof (two_pos (l - 1)). pose proof (two_pos ld). nra. }
  destruct (Qleb_spec (two l) (a # d)) as [G|G].
  - split; assumption.
  - replace (l - 1 + 1)%Z with l by lia. split; assumption.
Qed.
Lemma ilog_unique x a : two a <= Qabs x < two (a + 1) -> ilog x = a.
Proof.
  intros [H1 H2].
  assert (Hx : ~ x == 0). { intro E. rewrite E in H1. change (Qabs 0) with 0 in H1. pose proof (two_pos a). lra. }
  destruct (ilog_spec x Hx) as [L1 L2].
  assert (ilog x < a + 1)%Z by (apply two_lt_inv; lra).
  assert (a < ilog x + 1)%Z by (apply two_lt_inv; lra). lia.
Qed.
Lemma ilog_comp x y : ~ x == 0 -> x == y -> ilog x = ilog y.
Proof.
  intros Hx E. symmetry. apply ilog_unique. rewrite <- E. now apply ilog_spec.
Qed.

(* ---------------------------------------------------------------- rounding *)
Lemma rounds_comp x y m : x == y -> rounds_to x m -> rounds_to y m.
Proof. intros E [A B]. split; [rewrite <- E; auto|intro C; apply B; rewrite E; auto]. Qed.
Lemma rhe_comp x y : x == y -> rhe x = rhe y.
Proof. intro E. apply (rounds_unique y); [eapply rounds_comp; [exact E|apply rhe_spec]|apply rhe_spec]. Qed.
Lemma rhe_Z z : rhe (inject_Z z) = z.
Proof.
  apply (rounds_unique (inject_Z z)); [apply rhe_spec|].
  unfold rounds_to. assert (E : inject_Z z - inject_Z z == 0) by ring. rewrite E.
  split; [discriminate|]. change (Qabs 0) with 0. intro C. discriminate C.
Qed.

Lemma rnd_0 p x : x == 0 -> rnd p x = 0.
Proof. intro E. unfold rnd. destruct (Qeqb_spec x 0); [reflexivity|contradiction]. Qed.
Lemma rnd_comp p x y : x == y -> rnd p x = rnd p y.
Proof.
  intro E. destruct (Qeq_dec x 0) as [Z0|N].
  - rewrite !rnd_0; [reflexivity|rewrite <- E; auto|auto].
  - unfold rnd. destruct (Qeqb_spec x 0); [contradiction|].
    destruct (Qeqb_spec y 0) as [C|]; [exfalso; apply N; rewrite E; exact C|].
    rewrite (ilog_comp x y N E). cbv zeta. set (e := (ilog y - (p - 1))%Z).
    assert (E2 : x / two e == y / two e) by (rewrite E; reflexivity).
    rewrite (rhe_comp _ _ E2). reflexivity.
Qed.
Global Instance rnd_proper p : Proper (Qeq ==> Qeq) (rnd p).
Proof. intros x y E. rewrite (rnd_comp p x y E). reflexivity. Qed.
Global Instance r53_proper : Proper (Qeq ==> Qeq) r53.
Proof. apply rnd_proper. Qed.
Global Instance r24_proper : Proper (Qeq ==> Qeq) r24.
Proof. apply rnd_proper. Qed.

(** x = t * 2^e with 2^(p-1) <= |t| < 2^p, rounded to an integer m. *)
Lemma rnd_form p x : ~ x == 0 -> exists e m,
  two (e + (p - 1)) <= Qabs x < two (e + p) /\ rounds_to (x / two e) m /\ rnd p x == inject_Z m * two e.
Proof.
  intro N. set (e := (ilog x - (p - 1))%Z). exists e, (rhe (x / two e)).
  pose proof (ilog_spec x N) as [A B]. split; [|split].
  - unfold e. replace (ilog x - (p - 1) + (p - 1))%Z with (ilog x) by lia.
    replace (ilog x - (p - 1) + p)%Z with (ilog x + 1)%Z by lia. split; assumption.
  - apply rhe_spec.
  - unfold rnd. destruct (Qeqb_spec x 0); [contradiction|]. cbv zeta. fold e. apply Qred_correct.
Qed.
Lemma rounds_opp x m : rounds_to x m -> rounds_to (- x) (- m).
Proof.
  intros [A B]. unfold rounds_to.
  assert (E : Qabs (- x - inject_Z (- m)) == Qabs (x - inject_Z m)).
  { rewrite <- (Qabs_opp (x - inject_Z m)). rewrite inject_Z_opp. apply Qabs_wd. ring. }
  rewrite E. split; [exact A|]. intro C. rewrite Z.even_opp. auto.
Qed.
Lemma rnd_opp p x : rnd p (- x) == - rnd p x.
Proof.
  destruct (Qeq_dec x 0) as [Z0|N].
  - rewrite (rnd_0 p x Z0). rewrite rnd_0; [reflexivity|]. rewrite Z0. reflexivity.
  - unfold rnd. destruct (Qeqb_spec x 0); [contradiction|].
    destruct (Qeqb_spec (- x) 0) as [C|]; [exfalso; apply N; lra|].
    assert (El : ilog (- x) = ilog x).
    { apply ilog_unique. rewrite Qabs_opp. now apply ilog_spec. }
    rewrite El. cbv zeta. set (e := (ilog x - (p - 1))%Z). rewrite !Qred_correct.
    assert (R : rhe (- x / two e) = (- rhe (x / two e))%Z).
    { apply (rounds_unique (- x / two e)); [apply rhe_spec|].
      apply (rounds_comp (- (x / two e))); [field; pose proof (two_pos e); lra|]. apply rounds_opp, rhe_spec. }
    rewrite R, inject_Z_opp. ring.
Qed.

(** The nearest integer is not beaten by any other integer. *)
Lemma rounds_best x m k : rounds_to x m -> Qabs (x - inject_Z m) <= Qabs (x - inject_Z k).
Proof.
  intros [A _]. destruct (Z.eq_dec m k) as [->|N]; [lra|].
  assert (D : 1 <= Qabs (inject_Z m - inject_Z k)).
  { unfold Qminus. rewrite <- inject_Z_opp, <- inject_Z_plus.
    change (Qabs (inject_Z (m + - k))) with (inject_Z (Z.abs (m + - k))).
    change 1 with (inject_Z 1). rewrite <- Zle_Qle. lia. }
  assert (T : Qabs (inject_Z m - inject_Z k) <= Qabs (x - inject_Z m) + Qabs (x - inject_Z k)).
  { assert (E : inject_Z m - inject_Z k == - (x - inject_Z m) + (x - inject_Z k)) by ring.
    rewrite E. rewrite <- (Qabs_opp (x - inject_Z m)). apply Qabs_triangle. }
  lra.
Qed.

Lemma Qabs_scale x c : 0 < c -> Qabs (x * c) == Qabs x * c.
Proof. intro H. rewrite Qabs_Qmult. rewrite (Qabs_pos c) by lra. reflexivity. Qed.

Lemma fl_le p m e : (1 <= p)%Z -> (Z.abs m <= 2 ^ p)%Z -> fl p (inject_Z m * two e).
Proof.
  intros Hp H. destruct (Z.eq_dec (Z.abs m) (2 ^ p)) as [E|N].
  - exists (Z.sgn m * 2 ^ (p - 1))%Z, (e + 1)%Z.
    assert (P1 : (2 ^ p = 2 * 2 ^ (p - 1))%Z) by (rewrite <- Z.pow_succ_r by lia; f_equal; lia).
    assert (0 < 2 ^ (p - 1))%Z by (apply Z.pow_pos_nonneg; lia).
    split. { rewrite Z.abs_mul. rewrite (Z.abs_eq (2 ^ (p - 1))) by lia. destruct m; cbn [Z.sgn Z.abs] in *; lia. }
    fold (two (e + 1)). rewrite two_S.
    assert (Em : m = (Z.sgn m * 2 ^ (p - 1) * 2)%Z) by (rewrite <- Z.mul_assoc, (Z.mul_comm (2 ^ (p - 1))), <- P1, <- E, Z.mul_comm; symmetry; apply Z.abs_sgn).
    rewrite Em at 1. rewrite inject_Z_mult. change (inject_Z 2) with 2. ring.
  - exists m, e. split; [lia|reflexivity].
Qed.
Lemma fl_comp p x y : x == y -> fl p x -> fl p y.
Proof. intros E [m [e [H1 H2]]]. exists m, e. split; [auto|rewrite <- E; auto]. Qed.
Lemma fl_opp p x : fl p x -> fl p (- x).
Proof.
  intros [m [e [H1 H2]]]. exists (- m)%Z, e. split; [rewrite Z.abs_opp; auto|].
  rewrite H2, inject_Z_opp. ring.
Qed.
Lemma fl_0 p : (0 <= p)%Z -> fl p 0.
Proof. intro H. exists 0%Z, 0%Z. split; [cbn; apply Z.pow_pos_nonneg; lia|reflexivity]. Qed.

Lemma mantissa_bound p x e m : (1 <= p)%Z -> two (e + (p - 1)) <= Qabs x < two (e + p) ->
  rounds_to (x / two e) m -> (2 ^ (p - 1) <= Z.abs m <= 2 ^ p)%Z.
Proof.
  intros Hp [L U] R.
  pose proof (two_pos e) as Pe.
  assert (X : Qabs (x / two e) == Qabs x / two e).
  { unfold Qdiv. rewrite Qabs_scale; [reflexivity|]. apply Qinv_lt_0_compat, two_pos. }
  assert (L' : inject_Z (2 ^ (p - 1)) <= Qabs (x / two e)).
  { rewrite X, <- two_Z by lia. apply Qle_shift_div_l; [exact Pe|]. rewrite <- two_plus, Z.add_comm. exact L. }
  assert (U' : Qabs (x / two e) <= inject_Z (2 ^ p)).
  { rewrite X, <- two_Z by lia. apply Qle_shift_div_r; [exact Pe|]. rewrite <- two_plus, Z.add_comm. lra. }
  set (t := x / two e) in *. clearbody t.
  assert (G : forall t m, 0 <= t -> rounds_to t m -> inject_Z (2 ^ (p - 1)) <= t <= inject_Z (2 ^ p) -> (2 ^ (p - 1) <= m <= 2 ^ p)%Z).
  { intros t0 m0 H0 R0 [L0 U0]. rewrite <- (rhe_Z (2 ^ (p - 1))), <- (rhe_Z (2 ^ p)).
    rewrite (rounds_unique _ _ _ R0 (rhe_spec t0)). split; apply rhe_mono; auto. }
  assert (Pp : (0 < 2 ^ (p - 1))%Z) by (apply Z.pow_pos_nonneg; lia).
  destruct (Qlt_le_dec t 0) as [Neg|Pos].
  - rewrite Qabs_neg in L', U' by lra. pose proof (G (- t) (- m)%Z ltac:(lra) (rounds_opp _ _ R) (conj L' U')). lia.
  - rewrite Qabs_pos in L', U' by lra. pose proof (G t m Pos R (conj L' U')). lia.
Qed.

Lemma rnd_fl p x : (1 <= p)%Z -> fl p (rnd p x).
Proof.
  intro Hp. destruct (Qeq_dec x 0) as [Z0|N].
  - rewrite rnd_0 by auto. apply fl_0. lia.
  - destruct (rnd_form p x N) as [e [m [B [R E]]]].
    eapply fl_comp; [symmetry; exact E|]. apply fl_le; [auto|]. eapply mantissa_bound; eauto.
Qed.

Lemma rnd_dist p x e m : rounds_to (x / two e) m -> rnd p x == inject_Z m * two e ->
  Qabs (rnd p x - x) == Qabs (x / two e - inject_Z m) * two e.
Proof.
  intros R E. pose proof (two_pos e) as Pe. rewrite <- Qabs_scale by exact Pe.
  rewrite <- Qabs_opp. apply Qabs_wd. rewrite E. field. lra.
Qed.

Lemma rnd_best_pos p x z : (1 <= p)%Z -> 0 < x -> fl p z -> Qabs (rnd p x - x) <= Qabs (z - x).
Proof.
  intros Hp Hx [k [g [Hk Ez]]]. fold (two g) in Ez.
  assert (N : ~ x == 0) by lra.
  destruct (rnd_form p x N) as [e [m [[L U] [R E]]]].
  rewrite (Qabs_pos x) in L, U by lra. pose proof (two_pos e) as Pe. pose proof (two_pos g) as Pg.
  rewrite (rnd_dist p x e m R E).
  assert (D : forall c, Qabs (x / two e - inject_Z m) * two e <= Qabs (inject_Z c * two e - x)).
  { intro c. assert (E2 : Qabs (inject_Z c * two e - x) == Qabs (x / two e - inject_Z c) * two e).
    { rewrite <- Qabs_scale by exact Pe. rewrite <- (Qabs_opp (inject_Z c * two e - x)). apply Qabs_wd. field. lra. }
    rewrite E2. apply Qmult_le_compat_r; [|lra]. now apply rounds_best. }
  destruct (Z.le_gt_cases e g) as [G|G].
  - assert (E3 : z == inject_Z (k * 2 ^ (g - e)) * two e).
    { rewrite Ez, inject_Z_mult, <- two_Z by lia. rewrite <- Qmult_assoc, <- two_plus.
      replace (g - e + e)%Z with g by lia. reflexivity. }
    rewrite E3. apply D.
  - (* z lies below the binade of x *)
    assert (Zs : z <= two (e + (p - 1))).
    { rewrite Ez. apply Qle_trans with (inject_Z (2 ^ p) * two g).
      - apply Qmult_le_compat_r; [|lra]. rewrite <- Zle_Qle. lia.
      - rewrite <- two_Z, <- two_plus by lia. apply two_le. lia. }
    assert (B : two (e + (p - 1)) == inject_Z (2 ^ (p - 1)) * two e).
    { rewrite <- two_Z by lia. rewrite <- two_plus, Z.add_comm. reflexivity. }
    eapply Qle_trans; [apply (D (2 ^ (p - 1))%Z)|]. rewrite <- B.
    rewrite !Qabs_neg by lra. lra.
Qed.
Lemma rnd_best p x z : (1 <= p)%Z -> fl p z -> Qabs (rnd p x - x) <= Qabs (z - x).
Proof.
  intros Hp Hz. destruct (Q_dec x 0) as [[H|H]|H].
  - assert (P : 0 < - x) by lra. pose proof (rnd_best_pos p (- x) (- z) Hp P (fl_opp _ _ Hz)) as B.
    rewrite rnd_opp in B.
    assert (E1 : Qabs (- rnd p x - - x) == Qabs (rnd p x - x)) by (rewrite <- Qabs_opp; apply Qabs_wd; ring).
    assert (E2 : Qabs (- z - - x) == Qabs (z - x)) by (rewrite <- Qabs_opp; apply Qabs_wd; ring).
    rewrite E1, E2 in B. exact B.
  - now apply rnd_best_pos.
  - rewrite (rnd_0 p x H), H. change (Qabs (0 - 0)) with 0. apply Qabs_nonneg.
Qed.

Lemma rnd_exact p x : (1 <= p)%Z -> fl p x -> rnd p x == x.
Proof.
  intros Hp H. pose proof (rnd_best p x x Hp H) as B.
  assert (E : x - x == 0) by ring. rewrite E in B. change (Qabs 0) with 0 in B.
  apply Qabs_Qle_condition in B. lra.
Qed.
Lemma rnd_idem p x : (1 <= p)%Z -> rnd p (rnd p x) == rnd p x.
Proof. intro H. apply rnd_exact; [auto|now apply rnd_fl]. Qed.

Lemma rnd_mono p x y : (1 <= p)%Z -> x <= y -> rnd p x <= rnd p y.
Proof.
  intros Hp H. apply Qle_lteq in H. destruct H as [H|H]; [|rewrite (rnd_comp p x y H); lra].
  apply Qnot_lt_le. intro C.
  pose proof (rnd_best p x (rnd p y) Hp (rnd_fl p y Hp)) as B1.
  pose proof (rnd_best p y (rnd p x) Hp (rnd_fl p x Hp)) as B2.
  set (X := rnd p x) in *. set (Y := rnd p y) in *. clearbody X Y.
  revert B1 B2. apply (Qabs_case (X - x)); apply (Qabs_case (Y - x)); apply (Qabs_case (Y - y)); apply (Qabs_case (X - y)); intros; lra.
Qed.
Lemma rnd_pos p x : (1 <= p)%Z -> 0 <= x -> 0 <= rnd p x.
Proof. intros Hp H. rewrite <- (rnd_0 p 0) by reflexivity. now apply rnd_mono. Qed.
Lemma rnd_ge p c x : (1 <= p)%Z -> fl p c -> c <= x -> c <= rnd p x.
Proof. intros Hp Hc H. rewrite <- (rnd_exact p c Hp Hc). now apply rnd_mono. Qed.
Lemma rnd_le p c x : (1 <= p)%Z -> fl p c -> x <= c -> rnd p x <= c.
Proof. intros Hp Hc H. rewrite <- (rnd_exact p c Hp Hc). now apply rnd_mono. Qed.

Lemma rnd_err p x : Qabs (rnd p x - x) <= Qabs x * two (- p).
Proof.
  destruct (Qeq_dec x 0) as [Z0|N].
  - rewrite (rnd_0 p x Z0), Z0. change (Qabs (0 - 0)) with 0. change (Qabs 0) with 0. lra.
  - destruct (rnd_form p x N) as [e [m [[L U] [[R _] E]]]].
    assert (D : Qabs (rnd p x - x) <= (1 # 2) * two e).
    { assert (Ed : Qabs (rnd p x - x) == Qabs (x / two e - inject_Z m) * two e).
      { pose proof (two_pos e). rewrite <- Qabs_scale by auto. rewrite <- Qabs_opp. apply Qabs_wd. rewrite E. field. lra. }
      rewrite Ed. apply Qmult_le_compat_r; [exact R|]. pose proof (two_pos e). lra. }
    eapply Qle_trans; [exact D|].
    assert (E2 : (1 # 2) * two e == two (e + (p - 1)) * two (- p)).
    { rewrite <- two_plus. replace (e + (p - 1) + - p)%Z with (e - 1)%Z by lia.
      replace e with (e - 1 + 1)%Z at 1 by lia. rewrite two_S. ring. }
    rewrite E2. apply Qmult_le_compat_r; [exact L|]. pose proof (two_pos (- p)). lra.
Qed.

Lemma rnd_nearest p x : (1 <= p)%Z -> nearest_even p x (rnd p x).
Proof.
  intro Hp. split; [now apply rnd_fl|]. split; [intros z Hz; now apply rnd_best|].
  intros z Hz Nz Tie.
  destruct (Qeq_dec x 0) as [Z0|N].
  { exfalso. apply Nz. rewrite (rnd_0 p x Z0) in *. rewrite Z0 in Tie. change (Qabs (0 - 0)) with 0 in Tie.
    assert (A : Qabs (z - 0) <= 0) by lra. apply Qabs_Qle_condition in A. lra. }
  destruct (rnd_form p x N) as [e [m [B [R E]]]].
  exists m, e. split; [eapply mantissa_bound; eauto|]. split; [|exact E].
  apply (proj2 R).
  pose proof (two_pos e) as Pe.
  assert (Ed := rnd_dist p x e m R E).
  (* if the distance were below 1/2 ulp, z could not be as near *)
  apply Qle_antisym; [exact (proj1 R)|]. apply Qnot_lt_le. intro C.
  destruct Hz as [k [g [Hk Ez]]]. fold (two g) in Ez. pose proof (two_pos g) as Pg.
  assert (NI : forall c, z == inject_Z c * two e -> False).
  { intros c Ec. assert (c <> m) by (intros ->; apply Nz; rewrite Ec, E; reflexivity).
    assert (Ez2 : Qabs (z - x) == Qabs (x / two e - inject_Z c) * two e).
    { rewrite <- Qabs_scale by exact Pe. rewrite <- (Qabs_opp (z - x)). apply Qabs_wd. rewrite Ec. field. lra. }
    rewrite Ed, Ez2 in Tie. apply Qmult_inj_r in Tie; [|lra].
    assert (D : 1 <= Qabs (inject_Z m - inject_Z c)).
    { unfold Qminus. rewrite <- inject_Z_opp, <- inject_Z_plus.
      change (Qabs (inject_Z (m + - c))) with (inject_Z (Z.abs (m + - c))).
      change 1 with (inject_Z 1). rewrite <- Zle_Qle. lia. }
    assert (T : Qabs (inject_Z m - inject_Z c) <= Qabs (x / two e - inject_Z m) + Qabs (x / two e - inject_Z c)).
    { assert (E3 : inject_Z m - inject_Z c == - (x / two e - inject_Z m) + (x / two e - inject_Z c)) by ring.
      rewrite E3. rewrite <- (Qabs_opp (x / two e - inject_Z m)). apply Qabs_triangle. }
    lra. }
  destruct (Z.le_gt_cases e g) as [G|G].
  { apply (NI (k * 2 ^ (g - e))%Z).
    rewrite Ez, inject_Z_mult, <- two_Z by lia. rewrite <- Qmult_assoc, <- two_plus.
    replace (g - e + e)%Z with g by lia. reflexivity. }
  assert (Zs : Qabs z <= two (e + (p - 1))).
  { rewrite Ez, Qabs_scale by exact Pg.
    apply Qle_trans with (inject_Z (2 ^ p) * two g).
    - apply Qmult_le_compat_r; [|lra]. change (Qabs (inject_Z k)) with (inject_Z (Z.abs k)). rewrite <- Zle_Qle. lia.
    - rewrite <- two_Z, <- two_plus by lia. apply two_le. lia. }
  assert (Bq : two (e + (p - 1)) == inject_Z (2 ^ (p - 1)) * two e).
  { rewrite <- two_Z by lia. rewrite <- two_plus, Z.add_comm. reflexivity. }
  (* the bound of the binade is at least as near as z, so z is that bound *)
  destruct (Qlt_le_dec x 0) as [Neg|Pos].
  - rewrite (Qabs_neg x) in B by lra.
    assert (F : fl p (inject_Z (- 2 ^ (p - 1)) * two e)).
    { apply fl_le; [auto|]. rewrite Z.abs_opp, Z.abs_eq by (apply Z.pow_nonneg; lia). apply Z.pow_le_mono_r; lia. }
    pose proof (rnd_best p x _ Hp F) as Bst. apply Qabs_Qle_condition in Zs.
    rewrite Tie in Bst. rewrite inject_Z_opp in Bst.
    assert (Es : - inject_Z (2 ^ (p - 1)) * two e == - two (e + (p - 1))) by (rewrite Bq; ring).
    rewrite Es in Bst. rewrite !Qabs_pos in Bst by lra.
    apply (NI (- 2 ^ (p - 1))%Z). rewrite inject_Z_opp, Es. lra.
  - rewrite (Qabs_pos x) in B by lra.
    assert (F : fl p (inject_Z (2 ^ (p - 1)) * two e)).
    { apply fl_le; [auto|]. rewrite Z.abs_eq by (apply Z.pow_nonneg; lia). apply Z.pow_le_mono_r; lia. }
    pose proof (rnd_best p x _ Hp F) as Bst. apply Qabs_Qle_condition in Zs.
    rewrite Tie, <- Bq in Bst. rewrite !Qabs_neg in Bst by lra.
    apply (NI (2 ^ (p - 1))%Z). rewrite <- Bq. lra.
Qed.

(* ---------------------------------------------------------------- multiples of a power of two *)
Lemma grid_comp g x y : x == y -> grid g x -> grid g y.
Proof. intros E [k H]. exists k. rewrite <- E. exact H. Qed.
Lemma grid_0 g : grid g 0.
Proof. exists 0%Z. reflexivity || (change (inject_Z 0) with 0; ring). Qed.
Lemma grid_plus g x y : grid g x -> grid g y -> grid g (x + y).
Proof. intros [a A] [b B]. exists (a + b)%Z. rewrite A, B, inject_Z_plus. ring. Qed.
Lemma grid_opp g x : grid g x -> grid g (- x).
Proof. intros [a A]. exists (- a)%Z. rewrite A, inject_Z_opp. ring. Qed.
Lemma grid_minus g x y : grid g x -> grid g y -> grid g (x - y).
Proof. intros A B. apply grid_plus; [auto|now apply grid_opp]. Qed.
Lemma grid_mult g h x y : grid g x -> grid h y -> grid (g + h) (x * y).
Proof.
  intros [a A] [b B]. exists (a * b)%Z. rewrite A, B, inject_Z_mult. fold (two g) (two h) (two (g + h)).
  rewrite two_plus. ring.
Qed.
Lemma grid_fl p g x : (1 <= p)%Z -> grid g x -> Qabs x <= two (p + g) -> fl p x.
Proof.
  intros Hp [k E] B. fold (two g) in E. pose proof (two_pos g) as Pg.
  eapply fl_comp; [symmetry; exact E|]. apply fl_le; [auto|].
  rewrite E in B. rewrite Qabs_scale in B by exact Pg. rewrite two_plus in B. rewrite (two_Z p) in B by lia.
  apply Qmult_le_r in B; [|exact Pg]. change (Qabs (inject_Z k)) with (inject_Z (Z.abs k)) in B.
  rewrite <- Zle_Qle in B. exact B.
Qed.
Lemma grid_rnd p g x : (1 <= p)%Z -> grid g x -> 0 <= x <= two (p + g) -> rnd p x == x.
Proof. intros Hp G B. apply rnd_exact; [auto|]. apply (grid_fl p g); auto. rewrite Qabs_pos; lra. Qed.

(* ---------------------------------------------------------------- accumulated relative errors *)
Lemma pow_nonneg c n : 0 <= c -> 0 <= c ^ Z.of_nat n.
Proof. intro H. induction n as [|n IH]; [discriminate|]. rewrite pow_S. nra. Qed.
Lemma pow_le1 c n : 0 <= c <= 1 -> c ^ Z.of_nat n <= 1.
Proof. intro H. induction n as [|n IH]; [change (c ^ Z.of_nat 0) with 1; lra|]. rewrite pow_S. pose proof (pow_nonneg c n (proj1 H)). nra. Qed.
Lemma pow_ge1 c n : 1 <= c -> 1 <= c ^ Z.of_nat n.
Proof. intro H. induction n as [|n IH]; [change (c ^ Z.of_nat 0) with 1; lra|]. rewrite pow_S. nra. Qed.
Lemma pow_add c n m : c ^ Z.of_nat (n + m) == c ^ Z.of_nat n * c ^ Z.of_nat m.
Proof.
  induction n as [|n IH]; [cbn [Nat.add]; change (c ^ Z.of_nat 0) with 1; ring|].
  cbn [Nat.add]. rewrite !pow_S, IH. ring.
Qed.

Section Within.
  Variable u : Q.
  Hypothesis Hu : 0 <= u <= 1.
  Lemma within_0 n : within u n 0 0.
  Proof. unfold within. split; lra. Qed.
  Lemma within_self n x : 0 <= x -> within u n x x.
  Proof.
    intro H. pose proof (pow_le1 (1 - u) n ltac:(lra)). pose proof (pow_ge1 (1 + u) n ltac:(lra)).
    unfold within. split; nra.
  Qed.
  Lemma within_nonneg n a x : within u n a x -> 0 <= x -> 0 <= a.
  Proof. intros [A _] H. pose proof (pow_nonneg (1 - u) n ltac:(lra)). nra. Qed.
  Lemma within_comp n a x b y : a == b -> x == y -> within u n a x -> within u n b y.
  Proof. intros E F [A B]. unfold within. rewrite <- E, <- F. split; auto. Qed.
  Lemma within_rnd n a x r : within u n a x -> 0 <= x -> Qabs (r - a) <= Qabs a * u -> within u (S n) r x.
  Proof.
    intros W H R. pose proof (within_nonneg n a x W H) as Ha. destruct W as [A B].
    rewrite (Qabs_pos a) in R by lra. apply Qabs_Qle_condition in R. unfold within. rewrite !pow_S.
    set (l := (1 - u) ^ Z.of_nat n) in *. set (h := (1 + u) ^ Z.of_nat n) in *. clearbody l h. split; nra.
  Qed.
  Lemma within_plus n a x b y : within u n a x -> within u n b y -> within u n (a + b) (x + y).
  Proof. intros [A B] [C D]. unfold within. split; lra. Qed.
  Lemma within_S n a x : 0 <= x -> within u n a x -> within u (S n) a x.
  Proof.
    intros H [A B]. unfold within. rewrite !pow_S.
    pose proof (pow_nonneg (1 - u) n ltac:(lra)). pose proof (pow_ge1 (1 + u) n ltac:(lra)).
    set (l := (1 - u) ^ Z.of_nat n) in *. set (h := (1 + u) ^ Z.of_nat n) in *. clearbody l h.
    assert (0 <= l * x) by nra. assert (0 <= h * x) by nra. split; nra.
  Qed.
  Lemma within_le n m a x : (n <= m)%nat -> 0 <= x -> within u n a x -> within u m a x.
  Proof. intros L H W. induction L; [exact W|now apply within_S]. Qed.
End Within.

Lemma u53_bounds : 0 <= u53 <= 1.
Proof. split; vm_compute; discriminate. Qed.
Lemma u24_bounds : 0 <= u24 <= 1.
Proof. split; vm_compute; discriminate. Qed.
Lemma r53_err x : Qabs (r53 x - x) <= Qabs x * u53.
Proof. apply rnd_err. Qed.
Lemma r24_err x : Qabs (r24 x - x) <= Qabs x * u24.
Proof. apply rnd_err. Qed.
Lemma r53_mono x y : x <= y -> r53 x <= r53 y.
Proof. apply rnd_mono. lia. Qed.
Lemma r24_mono x y : x <= y -> r24 x <= r24 y.
Proof. apply rnd_mono. lia. Qed.
Lemma r53_nonneg x : 0 <= x -> 0 <= r53 x.
Proof. apply rnd_pos. lia. Qed.
Lemma r24_nonneg x : 0 <= x -> 0 <= r24 x.
Proof. apply rnd_pos. lia. Qed.

(** One more term of a float64 sum of non-negative terms. *)
Lemma within_sum n a x q : within u53 n a x -> 0 <= x -> 0 <= q -> within u53 (S n) (r53 (a + q)) (x + q).
Proof.
  intros W Hx Hq. apply (within_rnd u53 u53_bounds n (a + q) (x + q)); [|lra|apply r53_err].
  apply within_plus; [exact W|]. apply within_self; [exact u53_bounds|auto].
Qed.

