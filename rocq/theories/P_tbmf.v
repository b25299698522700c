(** P_tbmf.v -- the triple barrier method in float64 against exact arithmetic. *)
From Verif Require Import Base M_logic M_tbm M_float M_float5 S_tbm S_float S_tbmf P_tbm P_float P_float9 P_float12.
Open Scope Q_scope.

Lemma u53_small : 0 < u53 /\ u53 <= 1 # 1000.
Proof. split; vm_compute; [reflexivity|discriminate]. Qed.
Lemma Qabs_case_or x : (0 <= x /\ Qabs x == x) \/ (x <= 0 /\ Qabs x == - x).
Proof. apply Qabs_case; intros; [left|right]; split; try assumption; reflexivity. Qed.

(** Quotient by a rounded divisor. *)
Lemma quot3 a U : ~ U == 0 -> Qabs (r53 (a / r53 U) - a / U) <= 3 * u53 * Qabs (a / U).
Proof.
  intro HU. pose proof (r53_err U) as R1. pose proof (r53_err (a / r53 U)) as R2. set (V := r53 U) in *.
  set (t := V / U). assert (Ht : Qabs (t - 1) <= u53).
  { setoid_replace (t - 1) with ((V - U) / U) by (unfold t; field; exact HU). unfold Qdiv. rewrite Qabs_Qmult, Qabs_Qinv. assert (0 < Qabs U) by (destruct (Qabs_case_or U) as [[? E]|[? E]]; rewrite E; destruct (Qeq_dec U 0); try contradiction; lra).
    apply Qle_shift_div_r; [assumption|]. rewrite Qmult_comm. exact R1. }
  pose proof u53_small as [U0 U1]. apply Qabs_Qle_condition in Ht.
  assert (HV : ~ V == 0) by (intro E; assert (t == 0) by (unfold t; rewrite E; field; exact HU); lra).
  set (z' := a / V) in *. assert (Ez : a / U == z' * t) by (unfold z', t; field; split; assumption). rewrite Ez.
  set (y := r53 z') in *. clearbody y z' t. clear - R2 Ht U0 U1. set (u := u53) in *. clearbody u.
  rewrite Qabs_Qmult. assert (A : Qabs t == t) by (apply Qabs_pos; lra). rewrite A.
  setoid_replace (y - z' * t) with ((y - z') + z' * (1 - t)) by ring. eapply Qle_trans; [apply Qabs_triangle|]. rewrite Qabs_Qmult.
  assert (B : Qabs (1 - t) <= u) by (apply Qabs_Qle_condition; lra). pose proof (Qabs_nonneg z') as P. set (w := Qabs z') in *. clearbody w.
  assert (w * Qabs (1 - t) <= w * u) by (rewrite !(Qmult_comm w); apply Qmult_le_compat_r; assumption).
  assert (w * u * (3 * t - 2) >= 0) by (apply Qmult_le_0_compat; [apply Qmult_le_0_compat; lra|lra]). nra.
Qed.
(** Ratio of a return to a barrier. *)
Lemma ratio_near r r' U R E rho eta : ~ U == 0 -> Qabs r <= R -> R <= rho * Qabs U -> Qabs (r' - r) <= E -> E <= eta * Qabs U ->
  Qabs (r / U) <= rho /\ Qabs (r53 (r' / r53 U) - r / U) <= eta + 3 * u53 * (rho + eta).
Proof.
  intros HU Hr HR He HE. pose proof (quot3 r' U HU) as Q3. assert (P : 0 < Qabs U) by (destruct (Qabs_case_or U) as [[? E0]|[? E0]]; rewrite E0; destruct (Qeq_dec U 0); try contradiction; lra).
  assert (A : Qabs (r / U) <= rho) by (unfold Qdiv; rewrite Qabs_Qmult, Qabs_Qinv; apply Qle_shift_div_r; [assumption|lra]).
  assert (B : Qabs ((r' - r) / U) <= eta) by (unfold Qdiv; rewrite Qabs_Qmult, Qabs_Qinv; apply Qle_shift_div_r; [assumption|lra]).
  split; [exact A|]. pose proof u53_small as [U0 U1].
  assert (C : Qabs (r' / U) <= rho + eta) by (setoid_replace (r' / U) with (r / U + (r' - r) / U) by (field; exact HU); eapply Qle_trans; [apply Qabs_triangle|]; lra).
  setoid_replace (r53 (r' / r53 U) - r / U) with ((r53 (r' / r53 U) - r' / U) + (r' - r) / U) by (field; exact HU). eapply Qle_trans; [apply Qabs_triangle|].
  set (y := Qabs (r53 (r' / r53 U) - r' / U)) in *. set (q := Qabs (r' / U)) in *. clearbody y q. assert (3 * u53 * q <= 3 * u53 * (rho + eta)) by (rewrite !(Qmult_comm (3 * u53)); apply Qmult_le_compat_r; lra). lra.
Qed.
(** Weight of two maxima. *)
Lemma weight_near a a' b b' D rho : 0 <= a <= rho -> 0 <= a' -> 0 <= b -> 0 <= b' -> Qabs (a' - a) <= D -> Qabs (b' - b) <= D ->
  Qabs (pmin (r53 (a' / r53 (1 + b'))) 1 - pmin (a / (1 + b)) 1) <= (1 + rho) * D + 3 * u53 * (rho + D).
Proof.
  intros Ha Ha' Hb Hb' HA HB. pose proof (quot3 a' (1 + b') ltac:(lra)) as Q3. pose proof u53_small as [U0 U1].
  set (q := a / (1 + b)). set (q' := a' / (1 + b')) in *. set (y := r53 (a' / r53 (1 + b'))) in *.
  assert (I : 0 <= / (1 + b') <= 1) by (split; [apply Qinv_le_0_compat; lra|setoid_replace (/ (1 + b')) with (1 / (1 + b')) by (field; lra); apply Qle_shift_div_r; lra]).
  assert (I2 : 0 <= q <= rho) by (unfold q; split; [apply Qle_shift_div_l; lra|apply Qle_shift_div_r; [lra|nra]]).
  assert (E : q' - q == ((a' - a) + q * (b - b')) * / (1 + b')) by (unfold q, q'; field; split; lra).
  assert (D0 : 0 <= D) by (pose proof (Qabs_nonneg (a' - a)); lra).
  assert (L : Qabs (q' - q) <= (1 + rho) * D).
  { rewrite E, Qabs_Qmult. rewrite (Qabs_pos (/ (1 + b'))) by lra. assert (T : Qabs (a' - a + q * (b - b')) <= (1 + rho) * D).
    { eapply Qle_trans; [apply Qabs_triangle|]. rewrite Qabs_Qmult, (Qabs_pos q) by lra. rewrite Qabs_Qminus in HB. pose proof (Qabs_nonneg (b - b')) as N0. assert (q * Qabs (b - b') <= rho * D) by (apply Qle_trans with (rho * Qabs (b - b')); [apply Qmult_le_compat_r; lra|rewrite !(Qmult_comm rho); apply Qmult_le_compat_r; lra]). lra. }
    pose proof (Qabs_nonneg (a' - a + q * (b - b'))) as N1. set (v := Qabs (a' - a + q * (b - b'))) in *. set (w := / (1 + b')) in *. clearbody v w. assert (v * w <= v * 1) by (rewrite !(Qmult_comm v); apply Qmult_le_compat_r; lra). lra. }
  assert (Lq : Qabs q' <= rho + D).
  { assert (A0 : 0 <= q') by (unfold q'; apply Qle_shift_div_l; lra). rewrite Qabs_pos by exact A0. unfold q'. apply Qle_shift_div_r; [lra|]. apply Qabs_Qle_condition in HA. assert (0 <= (rho + D) * b') by (apply Qmult_le_0_compat; lra). lra. }
  assert (T : Qabs (y - q) <= (1 + rho) * D + 3 * u53 * (rho + D)).
  { setoid_replace (y - q) with ((y - q') + (q' - q)) by ring. eapply Qle_trans; [apply Qabs_triangle|]. assert (M : 3 * u53 * Qabs q' <= 3 * u53 * (rho + D)) by (rewrite !(Qmult_comm (3 * u53)); apply Qmult_le_compat_r; [exact Lq|lra]). clear - L Q3 M. set (z1 := 3 * u53 * Qabs q') in *. set (z2 := (1 + rho) * D) in *. set (z3 := 3 * u53 * (rho + D)) in *. clearbody z1 z2 z3. lra. }
  clear - T. set (z2 := (1 + rho) * D + 3 * u53 * (rho + D)) in *. clearbody z2 q y. eapply Qle_trans; [|exact T]. pose proof (Qle_Qabs (y - q)) as P1. pose proof (Qle_Qabs (q - y)) as P2. rewrite (Qabs_Qminus q y) in P2. apply Qabs_Qle_condition. unfold pmin. destruct (Qltb_spec 1 y), (Qltb_spec 1 q); lra.
Qed.

(** Both loops take the same way. *)
Section Sync.
  Variables (ln lnf : Q -> Q) (cv : Z -> Z) (ts : list Z) (close : list Q) (e : nat) (side : Q) (mc : Z) (U L U' L' : ext) (E : Q).
  Let t0 := nth e ts 0%Z.
  Let r j := (ln (nth j close 0) - ln (nth e close 0)) * side.
  Let rf j := r53 (r53 (lnf (nth j close 0) - lnf (nth e close 0)) * side).
  Definition upd (x mu ml : Q) : Q * Q :=
    if (Qltb 0 x && barrier_valid U)%bool then (ratio_max mu x U, ml) else if (Qltb x 0 && barrier_valid L)%bool then (mu, ratio_max ml x L) else (mu, ml).
  Definition upd_f (x mu ml : Q) : Q * Q :=
    if (Qltb 0 x && barrier_valid U')%bool then (ratio_max_f mu x U', ml) else if (Qltb x 0 && barrier_valid L')%bool then (mu, ratio_max_f ml x L') else (mu, ml).
  Variable P : Q * Q -> Q * Q -> Prop.
  Definition same_way (js : list nat) : Prop := forall j, In j js -> eligible cv ts e mc j ->
    Qabs (rf j - r j) <= E /\ q_ge_ext (rf j) U' = q_ge_ext (r j) U /\ q_le_ext (rf j) L' = q_le_ext (r j) L /\
    (forall m m', P m m' -> P (upd (r j) (fst m) (snd m)) (upd_f (rf j) (fst m') (snd m'))).
  Lemma scan_sync js : same_way js -> forall x x' m m', Qabs (x' - x) <= E -> P m m' ->
    let o := tbm_scan ln cv ts close t0 (ln (nth e close 0)) side mc U L js x (fst m) (snd m) in
    let o' := tbm_scan_f lnf cv ts close t0 (lnf (nth e close 0)) side mc U' L' js x' (fst m') (snd m') in
    fst (fst (fst o')) = fst (fst (fst o)) /\ Qabs (snd (fst (fst o')) - snd (fst (fst o))) <= E /\ P (snd (fst o), snd o) (snd (fst o'), snd o').
  Proof.
    induction js as [|j js IH]; intros HS x x' m m' Hx HP; cbn [tbm_scan tbm_scan_f].
    - cbn [fst snd]. split; [reflexivity|]. split; [exact Hx|]. destruct m, m'. exact HP.
    - assert (HS' : same_way js) by (intros i Hi; apply HS; now right). cbv zeta. destruct (Z.ltb_spec (cv (nth j ts 0%Z - t0)) mc) as [Hd|Hd]; [now apply (IH HS')|].
      destruct (HS j (or_introl eq_refl) Hd) as (H1 & H2 & H3 & H4). specialize (H4 m m' HP).
      fold (r j). fold (rf j). fold (upd (r j) (fst m) (snd m)). fold (upd_f (rf j) (fst m') (snd m')).
      destruct (upd (r j) (fst m) (snd m)) as [mu ml]. destruct (upd_f (rf j) (fst m') (snd m')) as [mu' ml']. rewrite H2, H3.
      destruct (q_ge_ext (r j) U); [cbn [fst snd]; auto|]. destruct (q_le_ext (r j) L); [cbn [fst snd]; auto|].
      exact (IH HS' (r j) (rf j) (mu, ml) (mu', ml') H1 H4).
  Qed.
  Lemma scan_none js x mu ml : (forall j, In j js -> ~ eligible cv ts e mc j) ->
    tbm_scan ln cv ts close t0 (ln (nth e close 0)) side mc U L js x mu ml = (None, x, mu, ml) /\
    tbm_scan_f lnf cv ts close t0 (lnf (nth e close 0)) side mc U' L' js x mu ml = (None, x, mu, ml).
  Proof.
    induction js as [|j js IH]; intro H; [split; reflexivity|]. cbn [tbm_scan tbm_scan_f]. cbv zeta. destruct (Z.ltb_spec (cv (nth j ts 0%Z - t0)) mc) as [Hd|Hd]; [apply IH; intros i Hi; apply H; now right|].
    exfalso. apply (H j); [now left|exact Hd].
  Qed.
End Sync.

(** Error of one return. *)
Lemma ret_near x x' b b' s R d : (s == 1 \/ s == 0 \/ s == - (1)) -> Qabs (x' - x) <= d -> Qabs (b' - b) <= d -> Qabs (x - b) <= R ->
  Qabs (r53 (r53 (x' - b') * s) - (x - b) * s) <= ret_error R d.
Proof.
  intros Hs Hx Hb HR. assert (I : r53 (r53 (x' - b') * s) == r53 (x' - b') * s).
  { destruct Hs as [Hs|[Hs|Hs]].
    - transitivity (r53 (r53 (x' - b'))); [unfold r53 at 1; rewrite (rnd_comp 53 _ (r53 (x' - b'))) by (rewrite Hs; ring); reflexivity|]. unfold r53. rewrite rnd_idem by lia. rewrite Hs. ring.
    - unfold r53 at 1. rewrite (rnd_0 53 (r53 (x' - b') * s)) by (rewrite Hs; ring). rewrite Hs. ring.
    - transitivity (r53 (- r53 (x' - b'))); [unfold r53 at 1; rewrite (rnd_comp 53 _ (- r53 (x' - b'))) by (rewrite Hs; ring); reflexivity|]. unfold r53. rewrite rnd_opp, rnd_idem by lia. rewrite Hs. ring. }
  rewrite I. pose proof (r53_err (x' - b')) as Q1. set (y := r53 (x' - b')) in *. clearbody y. pose proof u53_small as [U0 U1].
  assert (K : Qabs (x' - b') <= R + 2 * d).
  { setoid_replace (x' - b') with ((x - b) + ((x' - x) - (b' - b))) by ring. eapply Qle_trans; [apply Qabs_triangle|]. pose proof (Qabs_triangle (x' - x) (- (b' - b))) as T. rewrite Qabs_opp in T. setoid_replace (x' - x - (b' - b)) with (x' - x + - (b' - b)) by ring. lra. }
  assert (T : Qabs (y - (x - b)) <= ret_error R d).
  { unfold ret_error. setoid_replace (y - (x - b)) with ((y - (x' - b')) + ((x' - x) + - (b' - b))) by ring. eapply Qle_trans; [apply Qabs_triangle|]. pose proof (Qabs_triangle (x' - x) (- (b' - b))) as T. rewrite Qabs_opp in T.
    assert (Qabs (x' - b') * u53 <= (R + 2 * d) * u53) by (apply Qmult_le_compat_r; lra). lra. }
  setoid_replace (y * s - (x - b) * s) with ((y - (x - b)) * s) by ring. rewrite Qabs_Qmult. pose proof (Qabs_nonneg (y - (x - b))). destruct Hs as [Hs|[Hs|Hs]]; rewrite Hs.
  - change (Qabs 1) with 1. lra.
  - change (Qabs 0) with 0. lra.
  - change (Qabs (- (1))) with 1. lra.
Qed.
Lemma barrier_same x x' E q : Qabs (x' - x) <= E -> E + u53 * Qabs q < Qabs (x - q) ->
  Qleb (r53 q) x' = Qleb q x /\ Qleb x' (r53 q) = Qleb x q.
Proof.
  intros Hx Hq. pose proof (r53_err q) as R. rewrite (Qmult_comm _ u53) in R. set (g := u53 * Qabs q) in *. set (q' := r53 q) in *. clearbody g q'. apply Qabs_Qle_condition in Hx, R.
  assert (A : E + g < x - q \/ x - q < - (E + g)) by (revert Hq; apply Qabs_case; intros; [left|right]; lra).
  split; [destruct (Qleb_spec q' x'), (Qleb_spec q x)|destruct (Qleb_spec x' q'), (Qleb_spec x q)]; try reflexivity; exfalso; destruct A; lra.
Qed.
Lemma clear_same tgt bottom top E x x' : Qabs (x' - x) <= E -> barrier_clear tgt bottom top E x ->
  q_ge_ext x' (emulq_f tgt top) = q_ge_ext x (emulq tgt top) /\ q_le_ext x' (emulq_f (- tgt) bottom) = q_le_ext x (emulq (- tgt) bottom).
Proof.
  intros Hx [Ht Hb]. unfold emulq_f. split.
  - destruct top as [m| | |]; [cbn [emulq q_ge_ext]; exact (proj1 (barrier_same x x' E (tgt * m) Hx Ht))| | |]; destruct (emulq tgt _) eqn:Q; cbn [emulq] in Q; try reflexivity; exfalso; try discriminate; revert Q; destruct (qsign tgt =? 0)%Z, (0 <? qsign tgt)%Z; discriminate.
  - destruct bottom as [m| | |]; [cbn [emulq q_le_ext]; apply (barrier_same x x' E (- tgt * m) Hx); setoid_replace (- tgt * m) with (- (tgt * m)) by ring; rewrite Qabs_opp; setoid_replace (x - - (tgt * m)) with (x + tgt * m) by ring; exact Hb| | |]; destruct (emulq (- tgt) _) eqn:Q; cbn [emulq] in Q; try reflexivity; exfalso; try discriminate; revert Q; destruct (qsign (- tgt) =? 0)%Z, (0 <? qsign (- tgt))%Z; discriminate.
Qed.
Lemma label_same (meta : bool) (mr x x' E : Q) : Qabs (x' - x) <= E -> E < Qabs (x - (if meta then mr else 0)) -> tbm_label meta mr x' = tbm_label meta mr x.
Proof.
  intros Hx HE. unfold tbm_label. apply Qabs_Qle_condition in Hx. destruct meta.
  - assert (A : E < x - mr \/ x - mr < - E) by (revert HE; apply Qabs_case; intros; [left|right]; lra). destruct (Qleb_spec mr x'), (Qleb_spec mr x); try reflexivity; exfalso; destruct A; lra.
  - assert (A : E < x \/ x < - E) by (revert HE; apply Qabs_case; intros; [left|right]; lra).
    assert (S : qsign x' = qsign x).
    { destruct A as [A|A].
      - assert (P1 : 0 < x) by lra. assert (P2 : 0 < x') by lra. apply qsign_pos in P1, P2. unfold qsign in *. destruct (Qnum x), (Qnum x'); cbn in *; lia.
      - assert (P1 : x < 0) by lra. assert (P2 : x' < 0) by lra. apply qsign_neg in P1, P2. unfold qsign in *. destruct (Qnum x), (Qnum x'); cbn in *; lia. }
    now rewrite S.
Qed.
(** Maxima of ratios. *)
Definition mnear (D rho : Q) (m m' : Q) : Prop := 0 <= m <= rho /\ 0 <= m' /\ Qabs (m' - m) <= D.
Definition pnear (D rho : Q) (m m' : Q * Q) : Prop := mnear D rho (fst m) (fst m') /\ mnear D rho (snd m) (snd m').
Lemma mnear_max D rho m m' x y : mnear D rho m m' -> x <= rho -> Qabs (y - x) <= D -> mnear D rho (pmax m x) (pmax m' y).
Proof.
  intros ((A & B) & C & H) Hx Hy. unfold mnear. apply Qabs_Qle_condition in H, Hy. rewrite Qabs_Qle_condition. unfold pmax. destruct (Qltb_spec m x), (Qltb_spec m' y); lra.
Qed.
Lemma mnear_eq D rho m m' n n' : n == m -> n' == m' -> mnear D rho m m' -> mnear D rho n n'.
Proof. unfold mnear. intros -> ->. tauto. Qed.
Lemma pmax_low m x : x <= m -> pmax m x == m.
Proof. intro. unfold pmax. destruct (Qltb_spec m x); lra. Qed.
Lemma r53_low x : x <= 0 -> r53 x <= 0.
Proof. intro H. destruct (Qlt_le_dec 0 (r53 x)) as [K|K]; [pose proof (proj1 (r53_pos_iff x) K); lra|exact K]. Qed.
Lemma div_neg a b : a <= 0 -> 0 < b -> a / b <= 0.
Proof. intros. apply Qle_shift_div_r; lra. Qed.
Lemma div_neg' a b : 0 <= a -> b < 0 -> a / b <= 0.
Proof. intros Ha Hb. setoid_replace (a / b) with (- a / - b) by (field; lra). apply div_neg; lra. Qed.
Lemma r53_valid q : barrier_valid (Fin (r53 q)) = barrier_valid (Fin q).
Proof.
  cbn [barrier_valid]. f_equal. destruct (Qeqb_spec (r53 q) 0) as [A|A], (Qeqb_spec q 0) as [B|B]; try reflexivity; exfalso.
  - destruct (Qlt_le_dec q 0) as [C|C]; [pose proof (proj2 (r53_neg_iff q) C); lra|]. assert (H : 0 < q) by lra. pose proof (proj2 (r53_pos_iff q) H). lra.
  - apply A. unfold r53. now rewrite rnd_0.
Qed.
Lemma upd_near tgt bottom top R rho E eta x x' m m' : 0 < tgt -> 0 <= rho -> 0 <= eta -> wide tgt top R rho E eta -> wide tgt bottom R rho E eta -> Qabs x <= R -> Qabs (x' - x) <= E ->
  let D := eta + 3 * u53 * (rho + eta) in pnear D rho m m' ->
  pnear D rho (upd (emulq tgt top) (emulq (- tgt) bottom) x (fst m) (snd m)) (upd_f (emulq_f tgt top) (emulq_f (- tgt) bottom) x' (fst m') (snd m')).
Proof.
  intros Ht Hrho Heta Wt Wb HR HE D [Pu Pl]. destruct m as [mu ml], m' as [mu' ml']. cbn [fst snd] in *.
  assert (Sp : emulq tgt PInf = PInf) by (cbn [emulq]; apply qsign_pos in Ht; destruct (Z.eqb_spec (qsign tgt) 0); [lia|]; destruct (Z.ltb_spec 0 (qsign tgt)); [reflexivity|lia]).
  assert (Sm : emulq (- tgt) PInf = NInf) by (cbn [emulq]; assert (K : - tgt < 0) by lra; apply qsign_neg in K; destruct (Z.eqb_spec (qsign (- tgt)) 0); [lia|]; destruct (Z.ltb_spec 0 (qsign (- tgt))); [lia|reflexivity]).
  assert (A : mnear D rho (fst (upd (emulq tgt top) (emulq (- tgt) bottom) x mu ml)) (fst (upd_f (emulq_f tgt top) (emulq_f (- tgt) bottom) x' mu' ml'))).
  { unfold upd, upd_f, emulq_f. destruct top as [q| | |]; cbn [wide] in Wt; try contradiction.
    - destruct Wt as (Hq & W1 & W2). set (U := tgt * q) in *. assert (HU : 0 < U) by (unfold U; apply Qmult_lt_0_compat; assumption).
      change (emulq tgt (Fin q)) with (Fin U). cbv iota. rewrite r53_valid. assert (V : barrier_valid (Fin U) = true) by (cbn [barrier_valid]; destruct (Qeqb_spec U 0); [lra|reflexivity]). rewrite V, !andb_true_r. cbn [ratio_max ratio_max_f].
      destruct (ratio_near x x' U R E rho eta) as [N1 N2]; try assumption; try (rewrite Qabs_pos by lra; assumption); try lra. fold D in N2.
      assert (HV : 0 < r53 U) by now apply r53_pos_iff.
      pose proof (mnear_max D rho mu mu' (x / U) (r53 (x' / r53 U)) Pu (Qle_trans _ _ _ (Qle_Qabs _) N1) N2) as N. revert N. apply mnear_eq.
      + destruct Pu as ((P1 & P2) & P3 & P4). destruct (Qltb_spec 0 x); [reflexivity|]. assert (K : x / U <= 0) by (apply div_neg; lra). rewrite (pmax_low mu (x / U)) by lra. destruct (Qltb x 0 && barrier_valid _)%bool; reflexivity.
      + destruct Pu as ((P1 & P2) & P3 & P4). destruct (Qltb_spec 0 x'); [reflexivity|]. assert (K : r53 (x' / r53 U) <= 0) by (apply r53_low, div_neg; lra). rewrite (pmax_low mu' _) by lra. destruct (Qltb x' 0 && barrier_valid _)%bool; reflexivity.
    - rewrite Sp. cbn [barrier_valid]. rewrite !andb_false_r. destruct (Qltb x 0 && barrier_valid _)%bool, (Qltb x' 0 && barrier_valid _)%bool; exact Pu. }
  assert (B : mnear D rho (snd (upd (emulq tgt top) (emulq (- tgt) bottom) x mu ml)) (snd (upd_f (emulq_f tgt top) (emulq_f (- tgt) bottom) x' mu' ml'))).
  { unfold upd, upd_f.
    generalize (emulq_f tgt top) (emulq tgt top). intros U1 U0. unfold emulq_f. destruct bottom as [q| | |]; cbn [wide] in Wb; try contradiction.
    - destruct Wb as (Hq & W1 & W2). set (U := - tgt * q) in *. assert (HU : U < 0) by (unfold U; assert (0 < tgt * q) by (apply Qmult_lt_0_compat; assumption); lra). assert (EU : Qabs U == tgt * q) by (rewrite Qabs_neg by lra; unfold U; ring).
      change (emulq (- tgt) (Fin q)) with (Fin U). cbv iota. rewrite r53_valid. assert (V : barrier_valid (Fin U) = true) by (cbn [barrier_valid]; destruct (Qeqb_spec U 0); [lra|reflexivity]). rewrite V, !andb_true_r. cbn [ratio_max ratio_max_f].
      destruct (ratio_near x x' U R E rho eta) as [N1 N2]; try assumption; try (rewrite EU; assumption); try lra. fold D in N2.
      assert (HV : r53 U < 0) by now apply r53_neg_iff.
      pose proof (mnear_max D rho ml ml' (x / U) (r53 (x' / r53 U)) Pl (Qle_trans _ _ _ (Qle_Qabs _) N1) N2) as N. revert N. destruct Pl as ((P1 & P2) & P3 & P4). apply mnear_eq.
      + destruct (Qltb_spec x 0) as [K0|K0]; [destruct (Qltb_spec 0 x); [lra|reflexivity]|]. assert (K : x / U <= 0) by (apply div_neg'; lra). rewrite (pmax_low ml (x / U)) by lra. destruct (Qltb 0 x && barrier_valid _)%bool; reflexivity.
      + destruct (Qltb_spec x' 0) as [K0|K0]; [destruct (Qltb_spec 0 x'); [lra|reflexivity]|]. assert (K : r53 (x' / r53 U) <= 0) by (apply r53_low, div_neg'; lra). rewrite (pmax_low ml' _) by lra. destruct (Qltb 0 x' && barrier_valid _)%bool; reflexivity.
    - rewrite Sm. cbn [barrier_valid]. rewrite !andb_false_r. destruct (Qltb 0 x && barrier_valid _)%bool, (Qltb 0 x' && barrier_valid _)%bool; exact Pl. }
  split; assumption.
Qed.

(** The loop itself: first touch, maxima not negative. *)
Section First.
  Variables (lnf : Q -> Q) (cv : Z -> Z) (ts : list Z) (close : list Q) (e : nat) (side : Q) (mc : Z) (U L : ext).
  Let rf j := r53 (r53 (lnf (nth j close 0) - lnf (nth e close 0)) * side).
  Let hit j := eligible cv ts e mc j /\ (q_ge_ext (rf j) U = true \/ q_le_ext (rf j) L = true).
  Lemma upd_f_nonneg x mu ml : 0 <= mu -> 0 <= ml -> 0 <= fst (upd_f U L x mu ml) /\ 0 <= snd (upd_f U L x mu ml).
  Proof.
    intros Hu Hl. unfold upd_f. destruct (Qltb 0 x && barrier_valid U)%bool; [|destruct (Qltb x 0 && barrier_valid L)%bool]; cbn [fst snd]; (split; [|]); try assumption; unfold ratio_max_f.
    - destruct U as [q| | |]; try assumption. unfold pmax. destruct (Qltb_spec mu (r53 (x / q))); lra.
    - destruct L as [q| | |]; try assumption. unfold pmax. destruct (Qltb_spec ml (r53 (x / q))); lra.
  Qed.
  Lemma scan_f_first n : forall a x mu ml, 0 <= mu -> 0 <= ml ->
    let o := tbm_scan_f lnf cv ts close (nth e ts 0%Z) (lnf (nth e close 0)) side mc U L (seq a n) x mu ml in
    0 <= snd (fst o) /\ 0 <= snd o /\
    match fst (fst (fst o)) with
    | Some i => (a <= i < a + n)%nat /\ hit i /\ snd (fst (fst o)) = rf i /\ forall j, (a <= j < i)%nat -> ~ hit j
    | None => forall j, (a <= j < a + n)%nat -> ~ hit j
    end.
  Proof.
    induction n as [|n IH]; intros a x mu ml Hu Hl; [cbn; split; [assumption|]; split; [assumption|]; intros; lia|]. cbn [seq tbm_scan_f]. cbv zeta.
    assert (SH : forall o : option nat * Q * Q * Q, ~ hit a -> 
      (0 <= snd (fst o) /\ 0 <= snd o /\ match fst (fst (fst o)) with Some i => (S a <= i < S a + n)%nat /\ hit i /\ snd (fst (fst o)) = rf i /\ forall j, (S a <= j < i)%nat -> ~ hit j | None => forall j, (S a <= j < S a + n)%nat -> ~ hit j end) ->
      0 <= snd (fst o) /\ 0 <= snd o /\ match fst (fst (fst o)) with Some i => (a <= i < a + S n)%nat /\ hit i /\ snd (fst (fst o)) = rf i /\ forall j, (a <= j < i)%nat -> ~ hit j | None => forall j, (a <= j < a + S n)%nat -> ~ hit j end).
    { intros o NH (B1 & B2 & B3). split; [exact B1|]. split; [exact B2|]. destruct (fst (fst (fst o))) as [i|].
      - destruct B3 as (C1 & C2 & C3 & C4). split; [lia|]. split; [exact C2|]. split; [exact C3|]. intros j Hj. destruct (Nat.eq_dec j a) as [->|]; [exact NH|apply C4; lia].
      - intros j Hj. destruct (Nat.eq_dec j a) as [->|]; [exact NH|apply B3; lia]. }
    destruct (Z.ltb_spec (cv (nth a ts 0%Z - nth e ts 0%Z)) mc) as [Hd|Hd]; [apply SH; [intros [K _]; unfold eligible in K; lia|now apply IH]|].
    fold (rf a). fold (upd_f U L (rf a) mu ml). destruct (upd_f_nonneg (rf a) mu ml Hu Hl) as [N1 N2]. destruct (upd_f U L (rf a) mu ml) as [mu1 ml1]. cbn [fst snd] in N1, N2.
    destruct (q_ge_ext (rf a) U) eqn:Q1; [cbn [fst snd]; split; [exact N1|]; split; [exact N2|]; split; [lia|]; split; [split; [exact Hd|now left]|]; split; [reflexivity|intros; lia]|].
    destruct (q_le_ext (rf a) L) eqn:Q2; [cbn [fst snd]; split; [exact N1|]; split; [exact N2|]; split; [lia|]; split; [split; [exact Hd|now right]|]; split; [reflexivity|intros; lia]|].
    apply SH; [intros [_ [K|K]]; congruence|now apply IH].
  Qed.
End First.
Lemma weight_f_range t r mu ml U L w : 0 <= mu -> 0 <= ml -> tbm_weight_f t r mu ml U L = Some w -> 0 <= w <= 1.
Proof.
  intros Hu Hl. assert (K : forall a b, 0 <= a -> 0 <= b -> 0 <= pmin (r53 (a / r53 (1 + b))) 1 <= 1).
  { intros a b A B. assert (0 < r53 (1 + b)) by (apply r53_pos_iff; lra). assert (0 <= r53 (a / r53 (1 + b))) by (apply r53_nonneg; apply Qle_shift_div_l; [assumption|lra]). unfold pmin. destruct (Qltb_spec 1 (r53 (a / r53 (1 + b)))); lra. }
  unfold tbm_weight_f. destruct t; [|intro H; injection H as <-; lra]. destruct (Qltb 0 r); [destruct (barrier_valid U)|destruct (barrier_valid L)]; try discriminate; intro H; injection H as <-; now apply K.
Qed.
