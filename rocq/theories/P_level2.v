(** P_level2.v -- oscillators, volatilities and structural break tests of prices with a constant added or turned
    upside down. *)
From Coq Require Import Qfield.
From Verif Require Import Base M_logic M_bars M_features M_volat M_cusumtest S_units S_level P_units P_units2 P_units3 P_units4 P_units6 P_features P_level.
Open Scope Q_scope.

(** ** Stochastic %K *)
Lemma lmin_turn d l l' : l <> [] -> linl (-(1)) d l l' -> lmin l' == d - lmax l.
Proof.
  intros Hn H. destruct H as [|x x' l l' Hx H]; [easy|]. cbn [lmin lmax].
  apply (fold_rel2 (fun a b => b == d - a) (lin (-(1)) d) pmax pmin l l' x x'); auto; [|unfold lin in Hx; lra].
  intros a b k j Hab Hk. unfold lin in Hk. destruct (pmax_spec a k) as [[-> ?]|[-> ?]], (pmin_spec b j) as [[-> ?]|[-> ?]]; lra.
Qed.
Lemma lmax_turn d l l' : l <> [] -> linl (-(1)) d l l' -> lmax l' == d - lmin l.
Proof.
  intros Hn H. destruct H as [|x x' l l' Hx H]; [easy|]. cbn [lmin lmax].
  apply (fold_rel2 (fun a b => b == d - a) (lin (-(1)) d) pmin pmax l l' x x'); auto; [|unfold lin in Hx; lra].
  intros a b k j Hab Hk. unfold lin in Hk. destruct (pmin_spec a k) as [[-> ?]|[-> ?]], (pmax_spec b j) as [[-> ?]|[-> ?]]; lra.
Qed.
Lemma Qeqb_turn d x y x' y' : x' == d - x -> y' == d - y -> Qeqb x' y' = Qeqb x y.
Proof. intros A B. destruct (Qeqb_spec x' y'), (Qeqb_spec x y); auto; exfalso; lra. Qed.
Lemma ne_of_len {A} (l : list A) : (0 < length l)%nat -> l <> [].
Proof. destruct l; [cbn; lia|discriminate]. Qed.
Lemma stoch_ext_turn d lo hi lo' hi' n k : (1 <= n)%nat -> length hi = length lo -> (n + k <= length lo)%nat ->
  linl (-(1)) d hi lo' -> linl (-(1)) d lo hi' ->
  fst (stoch_ext lo' hi' n k) == d - snd (stoch_ext lo hi n k) /\ snd (stoch_ext lo' hi' n k) == d - fst (stoch_ext lo hi n k).
Proof.
  intros Hn L Hk H1 H2. induction k as [|k IH]; cbn [stoch_ext].
  - cbn [fst snd]. split; [apply lmin_turn|apply lmax_turn]; try (apply F2_firstn; assumption); apply ne_of_len; rewrite firstn_length; lia.
  - specialize (IH ltac:(lia)). destruct IH as [I1 I2]. cbv zeta. replace (n + k - n)%nat with k by lia.
    pose proof (linl_qn _ _ _ _ k H1 ltac:(lia)) as A. pose proof (linl_qn _ _ _ _ k H2 ltac:(lia)) as B. unfold lin in A, B.
    rewrite (Qeqb_turn d (qn hi k) (snd (stoch_ext lo hi n k)) (qn lo' k) (fst (stoch_ext lo' hi' n k))) by lra.
    rewrite (Qeqb_turn d (qn lo k) (fst (stoch_ext lo hi n k)) (qn hi' k) (snd (stoch_ext lo' hi' n k))) by lra.
    rewrite Bool.orb_comm. destruct (_ || _)%bool; cbn [fst snd].
    + split; [apply lmin_turn|apply lmax_turn]; try (apply linl_lastn; assumption); apply ne_of_len; rewrite lastn_len; lia.
    + pose proof (linl_qn _ _ _ _ (n + k)%nat H1 ltac:(lia)) as A2. pose proof (linl_qn _ _ _ _ (n + k)%nat H2 ltac:(lia)) as B2. unfold lin in A2, B2.
      set (a := fst (stoch_ext lo hi n k)) in *. set (b := snd (stoch_ext lo hi n k)) in *.
      set (a' := fst (stoch_ext lo' hi' n k)) in *. set (b' := snd (stoch_ext lo' hi' n k)) in *. clearbody a b a' b'.
      split.
      * destruct (pmin_spec a' (qn lo' (n + k))) as [[-> ?]|[-> ?]], (pmax_spec b (qn hi (n + k))) as [[-> ?]|[-> ?]]; lra.
      * destruct (pmax_spec b' (qn hi' (n + k))) as [[-> ?]|[-> ?]], (pmin_spec a (qn lo (n + k))) as [[-> ?]|[-> ?]]; lra.
Qed.
Lemma stoch_turn d cl lo hi cl' lo' hi' n : (1 <= n)%nat -> length lo = length cl -> length hi = length cl ->
  linl (-(1)) d cl cl' -> linl (-(1)) d hi lo' -> linl (-(1)) d lo hi' ->
  Forall2 (osum 100) (stoch_k cl lo hi n) (stoch_k cl' lo' hi' n).
Proof.
  intros Hn L1 L2 H Hl Hh. unfold stoch_k. cbv zeta. rewrite (linl_length _ _ _ _ H). apply F2_map_same. intros t Ht. apply in_seq in Ht.
  destruct (Nat.ltb_spec (t + 1) n); [exact I|].
  destruct (stoch_ext_turn d lo hi lo' hi' n (t + 1 - n) Hn ltac:(lia) ltac:(lia) Hl Hh) as [I1 I2].
  pose proof (linl_qn _ _ _ _ t H ltac:(lia)) as C. unfold lin in C.
  set (a := fst (stoch_ext lo hi n (t + 1 - n))) in *. set (b := snd (stoch_ext lo hi n (t + 1 - n))) in *.
  destruct (Qltb_spec a b), (Qltb_spec (fst (stoch_ext lo' hi' n (t + 1 - n))) (snd (stoch_ext lo' hi' n (t + 1 - n)))); try lra; try exact I.
  cbn [osum]. rewrite I1, I2, C. field. lra.
Qed.
(** A constant added is twice turned. *)
Lemma turn_twice d l l' : linl 1 d l l' -> exists m, linl (-(1)) 0 l m /\ linl (-(1)) d m l'.
Proof.
  induction 1 as [|x x' l l' Hx H (m & I1 & I2)]; [exists []; split; constructor|]. exists (- x :: m).
  unfold lin in Hx. split; constructor; auto; unfold lin; lra.
Qed.
Lemma stoch_shift d cl lo hi cl' lo' hi' n : (1 <= n)%nat -> length lo = length cl -> length hi = length cl ->
  linl 1 d cl cl' -> linl 1 d lo lo' -> linl 1 d hi hi' -> oscl 1 (stoch_k cl lo hi n) (stoch_k cl' lo' hi' n).
Proof.
  intros Hn L1 L2 H Hl Hh. destruct (turn_twice d _ _ H) as (c & C1 & C2). destruct (turn_twice d _ _ Hl) as (l & A1 & A2). destruct (turn_twice d _ _ Hh) as (h & B1 & B2).
  pose proof (stoch_turn 0 cl lo hi c h l n Hn L1 L2 C1 B1 A1) as F1.
  pose proof (stoch_turn d c h l cl' lo' hi' n Hn ltac:(rewrite (linl_length _ _ _ _ B1), (linl_length _ _ _ _ C1); lia)
    ltac:(rewrite (linl_length _ _ _ _ A1), (linl_length _ _ _ _ C1); lia) C2 A2 B2) as F2.
  clear - F1 F2. revert F2. generalize (stoch_k cl' lo' hi' n) as z. induction F1 as [|x y lx ly Hx F IH]; intros z F2; inversion F2 as [|y' w ly' lw Hy F']; subst; constructor; [|apply IH; assumption].
  clear - Hx Hy. destruct x, y, w; cbn [osum osc] in *; try contradiction; auto. unfold sc. lra.
Qed.

(** ** ADX *)
Section Adx.
  Variables (d : Q) (hi lo cl hi' lo' cl' : list Q).
  Hypothesis L1 : length lo = length hi.
  Hypothesis L2 : length cl = length hi.
  Hypothesis Hl : linl (-(1)) d hi lo'.
  Hypothesis Hh : linl (-(1)) d lo hi'.
  Hypothesis Hc : linl (-(1)) d cl cl'.
  Lemma tr_turn i : (i < length hi)%nat -> true_rng hi' lo' cl' i == true_rng hi lo cl i.
  Proof.
    intro Hi. unfold true_rng. destruct (Nat.eqb_spec i 0) as [|N]; [reflexivity|].
    pose proof (linl_qn _ _ _ _ i Hl ltac:(lia)) as A. pose proof (linl_qn _ _ _ _ i Hh ltac:(lia)) as B. pose proof (linl_qn _ _ _ _ (i - 1) Hc ltac:(lia)) as C.
    unfold lin in *.
    assert (E1 : Qabs (qn hi' i - qn cl' (i - 1)) == Qabs (qn lo i - qn cl (i - 1))).
    { rewrite <- (Qabs_opp (qn lo i - qn cl (i - 1))). apply Qabs_wd. lra. }
    assert (E2 : Qabs (qn lo' i - qn cl' (i - 1)) == Qabs (qn hi i - qn cl (i - 1))).
    { rewrite <- (Qabs_opp (qn hi i - qn cl (i - 1))). apply Qabs_wd. lra. }
    assert (E3 : qn hi' i - qn lo' i == qn hi i - qn lo i) by lra.
    rewrite (pmax_comp _ _ _ _ (pmax_comp _ _ _ _ E3 E1) E2).
    set (a := qn hi i - qn lo i). set (b := Qabs (qn lo i - _)). set (c := Qabs (qn hi i - _)). clearbody a b c.
    destruct (pmax_spec (pmax a b) c) as [[-> ?]|[-> ?]], (pmax_spec a b) as [[? ?]|[? ?]], (pmax_spec (pmax a c) b) as [[-> ?]|[-> ?]], (pmax_spec a c) as [[? ?]|[? ?]]; lra.
  Qed.
  Lemma dm_turn i : (i < length hi)%nat -> plus_dm hi' lo' i == minus_dm hi lo i /\ minus_dm hi' lo' i == plus_dm hi lo i.
  Proof.
    intro Hi. unfold plus_dm, minus_dm. destruct (Nat.eqb_spec i 0) as [|N]; [split; reflexivity|]. cbv zeta.
    pose proof (linl_qn _ _ _ _ i Hl ltac:(lia)) as A. pose proof (linl_qn _ _ _ _ i Hh ltac:(lia)) as B.
    pose proof (linl_qn _ _ _ _ (i - 1) Hl ltac:(lia)) as A2. pose proof (linl_qn _ _ _ _ (i - 1) Hh ltac:(lia)) as B2. unfold lin in *.
    assert (E1 : qn hi' i - qn hi' (i - 1) == qn lo (i - 1) - qn lo i) by lra.
    assert (E2 : qn lo' (i - 1) - qn lo' i == qn hi i - qn hi (i - 1)) by lra.
    set (u := qn hi i - qn hi (i - 1)) in *. set (v := qn lo (i - 1) - qn lo i) in *. set (u' := qn hi' i - qn hi' (i - 1)) in *. set (v' := qn lo' (i - 1) - qn lo' i) in *.
    clearbody u v u' v'.
    split; [destruct (Qltb_spec v' u'), (Qltb_spec 0 u'), (Qltb_spec u v), (Qltb_spec 0 v)|destruct (Qltb_spec u' v'), (Qltb_spec 0 v'), (Qltb_spec v u), (Qltb_spec 0 u)]; cbn [andb]; lra.
  Qed.
  Lemma wsum_ext x y len k n : (len + k < n)%nat -> (forall i, (i < n)%nat -> x i == y i) -> wsum x len k == wsum y len k.
  Proof.
    intros Hn H. induction k as [|k IH]; cbn [wsum].
    - apply qsum_ext. intros i Hi. apply in_seq in Hi. apply H. lia.
    - rewrite IH, (H (len + S k)%nat) by lia. reflexivity.
  Qed.
  Lemma di_comp a b a' b' : a == a' -> b == b' -> di a b == di a' b'.
  Proof. intros A B. unfold di. destruct (Qltb_spec 0 b), (Qltb_spec 0 b'); try lra. now rewrite A, B. Qed.
  Lemma dx_of_swap p m p' m' : p' == m -> m' == p -> dx_of p' m' == dx_of p m.
  Proof.
    intros A B. unfold dx_of. destruct (Qltb_spec 0 (p' + m')), (Qltb_spec 0 (p + m)); try lra.
    assert (E : Qabs (p' - m') == Qabs (p - m)) by (rewrite <- (Qabs_opp (p - m)); apply Qabs_wd; lra).
    assert (E2 : p' + m' == p + m) by lra. now rewrite E, E2.
  Qed.
  Lemma dx_turn len i : (i < length hi)%nat -> dx hi' lo' cl' len i == dx hi lo cl len i.
  Proof.
    intro Hi. unfold dx. destruct (Nat.ltb_spec i len); [reflexivity|]. cbv zeta.
    assert (T := wsum_ext _ _ len (i - len) (length hi) ltac:(lia) tr_turn).
    assert (P := wsum_ext _ _ len (i - len) (length hi) ltac:(lia) (fun j Hj => proj1 (dm_turn j Hj))).
    assert (M := wsum_ext _ _ len (i - len) (length hi) ltac:(lia) (fun j Hj => proj2 (dm_turn j Hj))).
    apply dx_of_swap; apply di_comp; auto.
  Qed.
  Lemma adx_at_ext x y len k n : (1 <= len)%nat -> (2 * len - 1 + k < n)%nat -> (forall i, (i < n)%nat -> x i == y i) -> adx_at x len k == adx_at y len k.
  Proof.
    intros Hl1 Hn H. induction k as [|k IH]; cbn [adx_at].
    - rewrite (qsum_ext x y); [reflexivity|]. intros i Hi. apply in_seq in Hi. apply H. lia.
    - rewrite IH by lia. rewrite (H (2 * len - 1 + S k)%nat) by lia. reflexivity.
  Qed.
  Lemma adx_turn len : (1 <= len)%nat -> scl 1 (adx_core hi lo cl len) (adx_core hi' lo' cl' len).
  Proof.
    intro Hn. unfold adx_core. rewrite (linl_length _ _ _ _ Hh), L1. apply F2_map_same. intros i Hi. apply in_seq in Hi.
    apply sc_eq. destruct (Nat.ltb_spec (i + 1) (2 * len)); [reflexivity|].
    symmetry. apply (adx_at_ext _ _ len _ (length hi)); [exact Hn|lia|]. intros j Hj. now apply dx_turn.
  Qed.
End Adx.
Lemma adx_shift d hi lo cl hi' lo' cl' len : (1 <= len)%nat -> length lo = length hi -> length cl = length hi ->
  linl 1 d hi hi' -> linl 1 d lo lo' -> linl 1 d cl cl' -> scl 1 (adx_core hi lo cl len) (adx_core hi' lo' cl' len).
Proof.
  intros Hn L1 L2 Hh Hl H. destruct (turn_twice d _ _ H) as (c & C1 & C2). destruct (turn_twice d _ _ Hl) as (l & A1 & A2). destruct (turn_twice d _ _ Hh) as (h & B1 & B2).
  pose proof (adx_turn 0 hi lo cl l h c L1 L2 B1 A1 C1 len Hn) as F1.
  pose proof (adx_turn d l h c hi' lo' cl' ltac:(rewrite (linl_length _ _ _ _ B1), (linl_length _ _ _ _ A1); lia) ltac:(rewrite (linl_length _ _ _ _ A1), (linl_length _ _ _ _ C1); lia) A2 B2 C2 len Hn) as F2.
  clear - F1 F2. revert F2. generalize (adx_core hi' lo' cl' len) as z. induction F1 as [|x y lx ly Hx F IH]; intros z F2; inversion F2 as [|y' w ly' lw Hy F']; subst; constructor; [|apply IH; assumption].
  clear - Hx Hy. unfold sc in *. lra.
Qed.

(** ** z-score *)
Lemma dev_level s d m m' l l' : sign_like s -> m' == s * m + d -> linl s d l l' ->
  qsum (map (fun x => (x - m') * (x - m')) l') == qsum (map (fun x => (x - m) * (x - m)) l).
Proof.
  intros Hs Hm. induction 1 as [|x x' l l' Hx H IH]; cbn [map qsum fold_right]; [reflexivity|].
  fold (qsum (map (fun x => (x - m') * (x - m')) l')) (qsum (map (fun x => (x - m) * (x - m)) l)). rewrite IH. unfold lin in Hx. rewrite Hx, Hm.
  pose proof (sign_sq s Hs) as S. setoid_replace ((s * x + d - (s * m + d)) * (s * x + d - (s * m + d))) with (s * s * ((x - m) * (x - m))) by ring. rewrite S. ring.
Qed.
Lemma zscore_level sqrt s d xs xs' w ddof : respects sqrt -> sign_like s -> (1 <= w)%nat -> linl s d xs xs' ->
  olinl s 0 (comp_zscore sqrt xs w ddof) (comp_zscore sqrt xs' w ddof).
Proof.
  intros Hr Hs Hw H. unfold comp_zscore. rewrite (linl_length _ _ _ _ H). apply F2_map_same. intros i Hi. apply in_seq in Hi.
  destruct (Nat.ltb_spec (i + 1) w); [exact I|]. cbv zeta.
  pose proof (linl_lastn s d xs xs' i w H) as HW. pose proof (linl_qsum _ _ _ _ HW) as S. rewrite (linl_length _ _ _ _ HW).
  pose proof (lastn_len xs i w ltac:(lia) ltac:(lia)) as LW. rewrite LW in *. set (W := lastn xs i w) in *. set (W' := lastn xs' i w) in *. clearbody W W'.
  pose proof (Qnat_pos w Hw).
  assert (M : qsum W' / Qnat w == s * (qsum W / Qnat w) + d) by (rewrite S; field; lra).
  pose proof (dev_level s d _ _ W W' Hs M HW) as D.
  assert (R : sqrt (qsum (map (fun x => (x - qsum W' / Qnat w) * (x - qsum W' / Qnat w)) W') / inject_Z (Z.of_nat w - ddof)) ==
              sqrt (qsum (map (fun x => (x - qsum W / Qnat w) * (x - qsum W / Qnat w)) W) / inject_Z (Z.of_nat w - ddof))) by (apply Hr; now rewrite D).
  set (r := sqrt (qsum (map (fun x => (x - qsum W / Qnat w) * (x - qsum W / Qnat w)) W) / _)) in *. set (r' := sqrt (qsum (map (fun x => (x - qsum W' / Qnat w) * (x - qsum W' / Qnat w)) W') / _)) in *. clearbody r r'.
  destruct (Qeqb_spec r 0), (Qeqb_spec r' 0); try lra; [exact I|]. cbn [olin]. unfold lin.
  pose proof (linl_qn _ _ _ _ i H ltac:(lia)) as X. unfold lin in X. rewrite X, M, R. field. lra.
Qed.

(** ** Exponentially weighted volatilities *)
Lemma olinl_length s d l l' : olinl s d l l' -> length l' = length l.
Proof. intro H. symmetry. eapply F2_length; eauto. Qed.
Lemma olinl_known s d l l' i : olinl s d l l' -> olin s d (known l i) (known l' i).
Proof. intro H. unfold known. apply F2_nth; [exact I|exact H]. Qed.
Lemma pmax_0_comp x y : x == y -> pmax x 0 == pmax y 0.
Proof. intro H. apply pmax_comp; [exact H|reflexivity]. Qed.
Definition ewl (s d : Q) (a b : ew_st) : Prop :=
  e_w b = e_w a /\ e_w2 b = e_w2 a /\ e_y b == s * e_y a + d * e_w a /\ e_y2 b == e_y2 a + 2 * s * d * e_y a + d * d * e_w a.
Lemma ew_step_level s d b x t y y' : sign_like s -> ewl s d x t -> olin s d y y' -> ewl s d (ew_step b x y) (ew_step b t y').
Proof.
  intros Hs (E1 & E2 & E3 & E4) K. pose proof (sign_sq s Hs) as S.
  destruct y as [v|], y' as [v'|]; cbn [olin] in K; try contradiction; unfold ewl; cbn [ew_step e_w e_w2 e_y e_y2]; rewrite E1, E2.
  - split; [reflexivity|split; [reflexivity|]]. unfold lin in K. rewrite K, E3, E4. split; [ring|].
    setoid_replace ((s * v + d) * (s * v + d)) with (s * s * (v * v) + 2 * s * d * v + d * d) by ring. rewrite S. ring.
  - split; [reflexivity|split; [reflexivity|]]. rewrite E3, E4. split; ring.
Qed.
Lemma ew_out_level sqrt s d x t : respects sqrt -> sign_like s -> ewl s d x t -> osc 1 (ew_out sqrt x) (ew_out sqrt t).
Proof.
  intros Hr Hs (E1 & E2 & E3 & E4). pose proof (sign_sq s Hs) as S. unfold ew_out. cbv zeta. rewrite E1, E2. destruct (Qltb_spec 0 (e_w x)) as [P|]; [|exact I].
  destruct (Qltb_spec 0 (e_w x - e_w2 x / e_w x)) as [P2|]; [|exact I]. cbn [osc]. apply sc_eq. apply Hr, pmax_0_comp. symmetry.
  assert (V : e_y2 t / e_w x - e_y t / e_w x * (e_y t / e_w x) == e_y2 x / e_w x - e_y x / e_w x * (e_y x / e_w x)).
  { rewrite E3, E4. setoid_replace ((s * e_y x + d * e_w x) / e_w x * ((s * e_y x + d * e_w x) / e_w x)) with (s * s * (e_y x / e_w x * (e_y x / e_w x)) + 2 * s * d * (e_y x / e_w x) + d * d) by (field; lra).
    rewrite S. field. lra. }
  now rewrite V.
Qed.
Lemma ewms_level sqrt s d y y' span : respects sqrt -> sign_like s -> olinl s d y y' -> oscl 1 (ewms sqrt y span) (ewms sqrt y' span).
Proof.
  intros Hr Hs H. unfold ewms. rewrite (olinl_length _ _ _ _ H). destruct (span <=? 1)%Z; [apply F2_repeat; exact I|].
  generalize (1 - 2 / (inject_Z span + 1)) as b. intro b.
  assert (G : forall x t, ewl s d x t -> oscl 1 (ew_loop sqrt b x y) (ew_loop sqrt b t y')).
  { induction H as [|x x' l l' Hx H IH]; intros x0 t R; cbn [ew_loop]; constructor.
    - apply (ew_out_level sqrt s d); auto. now apply ew_step_level.
    - apply IH. now apply ew_step_level. }
  apply G. unfold ewl. cbn [e_w e_w2 e_y e_y2]. repeat split; ring.
Qed.
Lemma m0_state_level exp s ts y y' hl i : sign_like s -> olinl s 0 y y' ->
  fst (m0_state exp ts y' hl i) == fst (m0_state exp ts y hl i) /\ snd (m0_state exp ts y' hl i) = snd (m0_state exp ts y hl i).
Proof.
  intros Hs H. pose proof (sign_sq s Hs) as S. induction i as [|i [I1 I2]]; cbn [m0_state]; [split; reflexivity|].
  pose proof (olinl_known s 0 y y' (Datatypes.S i) H) as K. destruct (m0_state exp ts y hl i) as [u v], (m0_state exp ts y' hl i) as [u' v']. cbn [fst snd] in I1, I2. subst v'.
  destruct (known y (Datatypes.S i)) as [x|], (known y' (Datatypes.S i)) as [x'|]; cbn [olin] in K; try contradiction; cbn [fst snd]; split; try reflexivity.
  - unfold lin in K. rewrite K, I1. setoid_replace ((s * x + 0) * (s * x + 0)) with (s * s * (x * x)) by ring. rewrite S. ring.
  - rewrite I1. reflexivity.
Qed.
Lemma floor_comp f x y : x == y -> (if Qltb x f then f else x) == (if Qltb y f then f else y).
Proof. intro E. destruct (Qltb_spec x f), (Qltb_spec y f); lra. Qed.
Lemma mean0_level sqrt exp s ts y y' hl f : respects sqrt -> sign_like s -> olinl s 0 y y' ->
  both (oscl 1) (ewmst_mean0 sqrt exp ts y hl f) (ewmst_mean0 sqrt exp ts y' hl f).
Proof.
  intros Hr Hs H. unfold ewmst_mean0. rewrite (olinl_length _ _ _ _ H). destruct (_ && _)%bool; [reflexivity|]. cbn [both]. apply F2_map_same. intros [|i] _; [exact I|].
  destruct (m0_state_level exp s ts y y' hl (S i) Hs H) as [I1 I2]. unfold m0_out. cbv zeta. rewrite I2. destruct (Qltb 0 _); [|exact I]. cbn [osc]. apply sc_eq.
  set (a := fst (m0_state exp ts y hl (S i))) in *. set (b := fst (m0_state exp ts y' hl (S i))) in *. set (v := snd (m0_state exp ts y hl (S i))) in *. clearbody a b v.
  apply floor_comp, Hr. assert (E : a / v == b / v) by now rewrite I1. destruct (Qltb_spec (a / v) 0), (Qltb_spec (b / v) 0); lra.
Qed.
(** The time weighted volatility, without missing values after the first. *)
Definition etl (s d : Q) (a b : et_st) : Prop :=
  t_v b = t_v a /\ t_v2 b = t_v2 a /\ t_y b == s * t_y a + d * t_v a /\ t_yy b == t_yy a + 2 * s * d * t_y a + d * d * t_v a.
Lemma et_state_level exp s d ts y y' hl i : sign_like s -> olinl s d y y' -> (d == 0 \/ forall j, (1 <= j <= i)%nat -> known y j <> None) ->
  etl s d (et_state exp ts y hl i) (et_state exp ts y' hl i).
Proof.
  intros Hs H. pose proof (sign_sq s Hs) as S. induction i as [|i IH]; intro HK; cbn [et_state]; [unfold etl; cbn [t_v t_v2 t_y t_yy]; repeat split; ring|].
  destruct IH as (E1 & E2 & E3 & E4). { destruct HK as [|HK]; [now left|right]. intros; apply HK; lia. }
  cbv zeta. pose proof (olinl_known s d y y' (Datatypes.S i) H) as K.
  destruct (known y (Datatypes.S i)) as [x|] eqn:Ex, (known y' (Datatypes.S i)) as [x'|]; cbn [olin] in K; try contradiction; unfold etl; cbn [t_v t_v2 t_y t_yy]; rewrite E1, E2;
    (split; [reflexivity|split; [reflexivity|]]).
  - unfold lin in K. rewrite K, E3, E4. split; [ring|]. set (a := ts_alpha exp ts hl (Datatypes.S i)). clearbody a.
    setoid_replace (a * (s * x + d) * (s * x + d)) with (s * s * (a * x * x) + 2 * s * d * (a * x) + d * d * a) by ring. rewrite S. ring.
  - destruct HK as [D|HK]; [|now specialize (HK (Datatypes.S i) ltac:(lia))]. rewrite E3, E4, D. split; ring.
Qed.
Lemma ewmst_level sqrt exp s d ts y y' hl f : respects sqrt -> sign_like s -> olinl s d y y' -> (d == 0 \/ forall j, (1 <= j < length y)%nat -> known y j <> None) ->
  both (oscl 1) (ewmst sqrt exp ts y hl f) (ewmst sqrt exp ts y' hl f).
Proof.
  intros Hr Hs H HK. pose proof (sign_sq s Hs) as S. unfold ewmst. rewrite (olinl_length _ _ _ _ H). destruct (_ && _)%bool; [reflexivity|]. cbn [both]. apply F2_map_same. intros [|i] Hi; [exact I|].
  apply in_seq in Hi. destruct (et_state_level exp s d ts y y' hl (Datatypes.S i) Hs H) as (E1 & E2 & E3 & E4). { destruct HK as [|HK]; [now left|right]. intros; apply HK; lia. }
  unfold et_out. cbv zeta. rewrite E1, E2.
  set (x := et_state exp ts y hl (Datatypes.S i)) in *. set (t := et_state exp ts y' hl (Datatypes.S i)) in *. clearbody x t.
  destruct (Qltb_spec 0 (t_v x)) as [P|]; [|exact I]. cbn [osc]. apply sc_eq, floor_comp, Hr.
  assert (V : t_yy t / t_v x - t_y t / t_v x * (t_y t / t_v x) == t_yy x / t_v x - t_y x / t_v x * (t_y x / t_v x)).
  { rewrite E3, E4. setoid_replace ((s * t_y x + d * t_v x) / t_v x * ((s * t_y x + d * t_v x) / t_v x)) with (s * s * (t_y x / t_v x * (t_y x / t_v x)) + 2 * s * d * (t_y x / t_v x) + d * d) by (field; lra).
    rewrite S. field. lra. }
  set (a := t_yy t / t_v x - _) in *. set (b := t_yy x / t_v x - _) in *. clearbody a b.
  destruct (Qltb 0 (t_v x - t_v2 x / t_v x)); cbn [andb]; [|reflexivity]. destruct (Qltb_spec 0 a), (Qltb_spec 0 b); try lra. now rewrite V.
Qed.

(** ** True range, ATR *)
Lemma tr_at_turn d h l k h' l' k' i : olinl (-(1)) d h l' -> olinl (-(1)) d l h' -> olinl (-(1)) d k k' -> osc 1 (tr_at h l k i) (tr_at h' l' k' i).
Proof.
  intros Hh Hl Hk. pose proof (olinl_known _ _ _ _ i Hh) as A. pose proof (olinl_known _ _ _ _ i Hl) as B. unfold tr_at. destruct i as [|i].
  - destruct (known h 0), (known l' 0); cbn [olin] in A; try contradiction; destruct (known l 0), (known h' 0); cbn [olin] in B; try contradiction; try exact I.
    cbn [osc]. unfold sc, lin in *. lra.
  - pose proof (olinl_known _ _ _ _ i Hk) as C.
    destruct (known h (S i)) as [a|], (known l' (S i)) as [a'|]; cbn [olin] in A; try contradiction; destruct (known l (S i)) as [b|], (known h' (S i)) as [b'|]; cbn [olin] in B; try contradiction; try exact I;
      destruct (known k i) as [c|], (known k' i) as [c'|]; cbn [olin] in C; try contradiction; try exact I.
    cbn [osc]. apply sc_eq. symmetry. unfold lin in *.
    assert (E1 : Qabs (b' - c') == Qabs (b - c)) by (rewrite <- (Qabs_opp (b - c)); apply Qabs_wd; lra).
    assert (E2 : Qabs (a' - c') == Qabs (a - c)) by (rewrite <- (Qabs_opp (a - c)); apply Qabs_wd; lra).
    assert (E3 : b' - a' == a - b) by lra. rewrite (pmax_comp _ _ _ _ (pmax_comp _ _ _ _ E3 E1) E2).
    set (x := a - b). set (y := Qabs (b - c)). set (z := Qabs (a - c)). clearbody x y z.
    destruct (pmax_spec (pmax x y) z) as [[-> ?]|[-> ?]], (pmax_spec x y) as [[? ?]|[? ?]], (pmax_spec (pmax x z) y) as [[-> ?]|[-> ?]], (pmax_spec x z) as [[? ?]|[? ?]]; lra.
Qed.
Lemma true_range_turn d h l k h' l' k' : olinl (-(1)) d h l' -> olinl (-(1)) d l h' -> olinl (-(1)) d k k' -> both (oscl 1) (true_range h l k) (true_range h' l' k').
Proof.
  intros Hh Hl Hk. unfold true_range. rewrite (olinl_length _ _ _ _ Hh), (olinl_length _ _ _ _ Hl), (olinl_length _ _ _ _ Hk).
  rewrite (Nat.eqb_sym (length l) (length h)). destruct (Nat.eqb_spec (length h) (length l)) as [E|]; cbn [andb]; [|reflexivity]. rewrite <- E.
  destruct (length h =? length k)%nat; [|reflexivity]. cbn [both]. apply F2_map_same. intros i _. now apply (tr_at_turn d).
Qed.
Lemma atr_turn d h l k h' l' k' w ema : olinl (-(1)) d h l' -> olinl (-(1)) d l h' -> olinl (-(1)) d k k' ->
  both (oscl 1) (atr h l k w ema false) (atr h' l' k' w ema false).
Proof.
  intros Hh Hl Hk. unfold atr. cbv zeta. pose proof (true_range_turn d h l k h' l' k' Hh Hl Hk) as T.
  destruct (true_range h l k) as [tr|e] eqn:ET, (true_range h' l' k') as [tr'|e']; cbn [both] in T; try contradiction; [|exact T].
  assert (LL : length h' = length h).
  { unfold true_range in ET. destruct (Nat.eqb_spec (length h) (length l)) as [E|]; [|discriminate]. rewrite (olinl_length _ _ _ _ Hl). now symmetry. }
  rewrite LL. cbn [both]. apply F2_map_same. intros i _. destruct (_ || _)%bool; [exact I|]. destruct ema; [now apply atr_ema_units|].
  pose proof (olinl_known _ _ _ _ i Hh) as A. pose proof (olinl_known _ _ _ _ i Hl) as B. pose proof (olinl_known _ _ _ _ i Hk) as C.
  pose proof (valid_mean_units 1 _ _ (oscl_olast 1 _ _ i w T)) as V. unfold atr_sma.
  destruct (i =? 2)%nat; [|exact V].
  destruct (known h i), (known l' i); cbn [olin] in A; try contradiction; destruct (known l i), (known h' i); cbn [olin] in B; try contradiction; try exact V;
    destruct (known k i), (known k' i); cbn [olin] in C; try contradiction; try exact V; exact I.
Qed.
Lemma oturn_twice d l l' : olinl 1 d l l' -> exists m, olinl (-(1)) 0 l m /\ olinl (-(1)) d m l'.
Proof.
  induction 1 as [|x x' l l' Hx H (m & I1 & I2)]; [exists []; split; constructor|]. exists (option_map Qopp x :: m).
  destruct x as [x|], x' as [x'|]; cbn [olin option_map] in *; try contradiction; split; constructor; auto; cbn [olin]; unfold lin in *; lra.
Qed.
Lemma both_trans1 x y z : both (oscl 1) x y -> both (oscl 1) y z -> both (oscl 1) x z.
Proof.
  destruct x as [x|], y as [y|], z as [z|]; cbn [both]; intros A B; try contradiction; try congruence.
  revert z B. induction A as [|a b l m Ha A IH]; intros z B; inversion B as [|b' w ly' lw Hb B']; subst; constructor; [|apply IH; assumption].
  clear - Ha Hb. destruct a, b, w; cbn [osc] in *; try contradiction; auto. unfold sc in *. lra.
Qed.
Lemma range_shift d h l k h' l' k' w ema : olinl 1 d h h' -> olinl 1 d l l' -> olinl 1 d k k' ->
  both (oscl 1) (true_range h l k) (true_range h' l' k') /\ both (oscl 1) (atr h l k w ema false) (atr h' l' k' w ema false).
Proof.
  intros Hh Hl Hk. destruct (oturn_twice d _ _ Hh) as (a & A1 & A2). destruct (oturn_twice d _ _ Hl) as (b & B1 & B2). destruct (oturn_twice d _ _ Hk) as (c & C1 & C2).
  split.
  - apply (both_trans1 _ (true_range b a c)); [now apply (true_range_turn 0)|now apply (true_range_turn d)].
  - apply (both_trans1 _ (atr b a c w ema false)); [now apply (atr_turn 0)|now apply (atr_turn d)].
Qed.

(** ** Realised volatility, rolling variance, variance ratio *)
Lemma olinl_olast s d l l' i n : olinl s d l l' -> olinl s d (olast l i n) (olast l' i n).
Proof. intro H. unfold olast. now apply F2_firstn, F2_skipn. Qed.
Lemma valid_sum_count s d l l' : olinl s d l l' -> fst (valid_sum l') = fst (valid_sum l).
Proof.
  intro H. unfold valid_sum. apply (fold_rel2 (fun s t : nat * Q => fst t = fst s) (olin s d)); auto.
  intros [n a] [m b] x y E K. cbn [fst snd] in *. destruct x, y; cbn [olin] in K; try contradiction; cbn [fst snd]; auto.
Qed.
Lemma realized_level sqrt s r r' w sm : respects sqrt -> sign_like s -> olinl s 0 r r' -> oscl 1 (realized_vol sqrt r w sm) (realized_vol sqrt r' w sm).
Proof.
  intros Hr Hs H. pose proof (sign_sq s Hs) as S. unfold realized_vol. rewrite (olinl_length _ _ _ _ H). apply F2_map_same. intros i _. destruct (_ <? _)%nat; [exact I|]. cbv zeta.
  pose proof (olinl_olast s 0 r r' i w H) as HW. rewrite (valid_sum_count _ _ _ _ HW). destruct (1 <? _)%nat; [|exact I]. cbn [osc]. apply sc_eq, Hr.
  assert (E : qsum (map (fun x => match x with Some v => v * v | None => 0 end) (olast r' i w)) == qsum (map (fun x => match x with Some v => v * v | None => 0 end) (olast r i w))).
  { clear - HW S. induction HW as [|x x' l l' Hx H IH]; cbn [map qsum fold_right]; [reflexivity|].
    fold (qsum (map (fun x => match x with Some v => v * v | None => 0 end) l)) (qsum (map (fun x => match x with Some v => v * v | None => 0 end) l')). rewrite IH.
    destruct x as [x|], x' as [x'|]; cbn [olin] in Hx; try contradiction; [|reflexivity]. unfold lin in Hx. rewrite Hx.
    setoid_replace ((s * x + 0) * (s * x + 0)) with (s * s * (x * x)) by ring. rewrite S. ring. }
  now rewrite E.
Qed.
Lemma Qnat_S n : Qnat (S n) == Qnat n + 1.
Proof. unfold Qnat. rewrite Nat2Z.inj_succ. unfold Z.succ. rewrite inject_Z_plus. reflexivity. Qed.
Lemma valid_sums_level s d l l' : sign_like s -> olinl s d l l' ->
  let '(c, u, q) := valid_sums l in let '(c', u', q') := valid_sums l' in
  c' = c /\ u' == s * u + d * Qnat c /\ q' == q + 2 * s * d * u + d * d * Qnat c.
Proof.
  intros Hs H. pose proof (sign_sq s Hs) as S0. pose (R := (fun a b : nat * Q * Q => let '(c, u, q) := a in let '(c', u', q') := b in c' = c /\ u' == s * u + d * Qnat c /\ q' == q + 2 * s * d * u + d * d * Qnat c)).
  assert (G : R (valid_sums l) (valid_sums l')).
  { unfold valid_sums. apply (fold_rel2 R (olin s d)); auto.
    - intros [[c u] q] [[c' u'] q'] x y (E1 & E2 & E3) K. unfold R. cbn [fst snd]. destruct x as [x|], y as [y|]; cbn [olin] in K; try contradiction; [|auto].
      split; [congruence|]. unfold lin in K. rewrite Qnat_S, K, E2, E3. split; [ring|].
      setoid_replace ((s * x + d) * (s * x + d)) with (s * s * (x * x) + 2 * s * d * x + d * d) by ring. rewrite S0. ring.
    - split; [reflexivity|]. change (Qnat 0) with 0. split; ring. }
  exact G.
Qed.
Lemma rolling_variance_level s d l l' w ddof mp : sign_like s -> (0 <= ddof)%Z -> olinl s d l l' -> oscl 1 (rolling_variance l w ddof mp) (rolling_variance l' w ddof mp).
Proof.
  intros Hs Hd H. pose proof (sign_sq s Hs) as S. unfold rolling_variance. rewrite (olinl_length _ _ _ _ H). apply F2_map_same. intros i _. destruct (_ || _)%bool; [exact I|].
  pose proof (valid_sums_level s d _ _ Hs (olinl_olast s d l l' i w H)) as V. destruct (valid_sums (olast l i w)) as [[c u] q], (valid_sums (olast l' i w)) as [[c' u'] q'].
  destruct V as (-> & E2 & E3). destruct (mp <=? Z.of_nat c)%Z; cbn [andb]; [|exact I]. destruct (Z.ltb_spec ddof (Z.of_nat c)); [|exact I]. cbv zeta. cbn [osc]. apply sc_eq.
  apply pmax_comp; [reflexivity|]. assert (0 < Qnat c) by (apply Qnat_pos; lia).
  assert (E : q' / Qnat c - u' / Qnat c * (u' / Qnat c) == q / Qnat c - u / Qnat c * (u / Qnat c)).
  { rewrite E2, E3. setoid_replace ((s * u + d * Qnat c) / Qnat c * ((s * u + d * Qnat c) / Qnat c)) with (s * s * (u / Qnat c * (u / Qnat c)) + 2 * s * d * (u / Qnat c) + d * d) by (field; lra).
    rewrite S. field. lra. }
  now rewrite E.
Qed.

(** ** Bollinger %b *)
Lemma bb_sums_level s d p p' w k : sign_like s -> linl s d p p' -> (w + k <= length p)%nat ->
  fst (bb_sums p' w k) == s * fst (bb_sums p w k) + d * Qnat w /\ snd (bb_sums p' w k) == snd (bb_sums p w k) + 2 * s * d * fst (bb_sums p w k) + d * d * Qnat w.
Proof.
  intros Hs H. pose proof (sign_sq s Hs) as S0. induction k as [|k IH]; intro Hk; cbn [bb_sums].
  - assert (G : forall m j a b a' b' n, (j + m <= length p)%nat -> a' == s * a + d * Qnat n -> b' == b + 2 * s * d * a + d * d * Qnat n ->
      fst (fold_left (fun s j => (fst s + qn p' j, snd s + qn p' j * qn p' j)) (seq j m) (a', b')) ==
        s * fst (fold_left (fun s j => (fst s + qn p j, snd s + qn p j * qn p j)) (seq j m) (a, b)) + d * Qnat (n + m) /\
      snd (fold_left (fun s j => (fst s + qn p' j, snd s + qn p' j * qn p' j)) (seq j m) (a', b')) ==
        snd (fold_left (fun s j => (fst s + qn p j, snd s + qn p j * qn p j)) (seq j m) (a, b)) +
        2 * s * d * fst (fold_left (fun s j => (fst s + qn p j, snd s + qn p j * qn p j)) (seq j m) (a, b)) + d * d * Qnat (n + m)).
    { induction m as [|m IHm]; intros j a b a' b' n Hj Ha Hb; cbn [seq fold_left fst snd]; [rewrite Nat.add_0_r; auto|].
      replace (n + S m)%nat with (S n + m)%nat by lia. pose proof (linl_qn _ _ _ _ j H ltac:(lia)) as X. unfold lin in X.
      apply IHm; [lia| |]; rewrite Qnat_S, X, ?Ha, ?Hb; [ring|].
      setoid_replace ((s * qn p j + d) * (s * qn p j + d)) with (s * s * (qn p j * qn p j) + 2 * s * d * qn p j + d * d) by ring. rewrite S0. ring. }
    apply (G w 0%nat 0 0 0 0 0%nat); [lia| |]; change (Qnat 0) with 0; ring.
  - destruct (IH ltac:(lia)) as [I1 I2]. cbv zeta. cbn [fst snd]. replace (w + k - w)%nat with k by lia.
    pose proof (linl_qn _ _ _ _ (w + k)%nat H ltac:(lia)) as X. pose proof (linl_qn _ _ _ _ k H ltac:(lia)) as Y. unfold lin in X, Y. rewrite X, Y, I1, I2. split; [ring|].
    setoid_replace ((s * qn p (w + k) + d) * (s * qn p (w + k) + d)) with (s * s * (qn p (w + k) * qn p (w + k)) + 2 * s * d * qn p (w + k) + d * d) by ring.
    setoid_replace ((s * qn p k + d) * (s * qn p k + d)) with (s * s * (qn p k * qn p k) + 2 * s * d * qn p k + d * d) by ring. rewrite S0. ring.
Qed.
Lemma bb_level sqrt s d p p' w k : respects sqrt -> sign_like s -> (1 <= w)%nat -> linl s d p p' ->
  both (Forall2 (bb_rel s)) (bollinger_percent_b sqrt p w k) (bollinger_percent_b sqrt p' w k).
Proof.
  intros Hr Hs Hw H. pose proof (sign_sq s Hs) as S0. unfold bollinger_percent_b. rewrite (linl_length _ _ _ _ H). destruct (_ <? _)%nat; [apply F2_repeat; exact I|].
  destruct (Nat.eqb_spec w 1) as [|N1]; [reflexivity|]. cbn [both]. apply F2_map_same. intros i Hi. apply in_seq in Hi. destruct (Nat.ltb_spec (i + 1) w); [exact I|].
  destruct (bb_sums_level s d p p' w (i + 1 - w) Hs H ltac:(lia)) as [E1 E2]. unfold bb_value. cbv zeta.
  set (a := fst (bb_sums p w _)) in *. set (b := snd (bb_sums p w _)) in *. set (a' := fst (bb_sums p' w _)) in *. set (b' := snd (bb_sums p' w _)) in *. clearbody a b a' b'.
  pose proof (Qnat_pos w Hw) as PW. set (n := Qnat w) in *. clearbody n.
  assert (M : a' / n == s * (a / n) + d) by (rewrite E1; field; lra).
  assert (V : (b' - n * (a' / n) * (a' / n)) / (n - 1) == (b - n * (a / n) * (a / n)) / (n - 1)).
  { assert (E : b' - n * (a' / n) * (a' / n) == b - n * (a / n) * (a / n)).
    { rewrite M, E2. setoid_replace (n * (s * (a / n) + d) * (s * (a / n) + d)) with (s * s * (n * (a / n) * (a / n)) + 2 * s * d * a + d * d * n) by (field; lra). rewrite S0. ring. }
    now rewrite E. }
  assert (R : sqrt (pmax ((b' - n * (a' / n) * (a' / n)) / (n - 1)) 0) == sqrt (pmax ((b - n * (a / n) * (a / n)) / (n - 1)) 0)) by (apply Hr, pmax_0_comp, V).
  set (r := sqrt (pmax ((b - n * (a / n) * (a / n)) / (n - 1)) 0)) in *. set (r' := sqrt (pmax ((b' - n * (a' / n) * (a' / n)) / (n - 1)) 0)) in *. clearbody r r'.
  set (m := a / n) in *. set (m' := a' / n) in *. clearbody m m'. clear V E1 E2.
  assert (X : qn p' i == s * qn p i + d) by (apply (linl_qn s d p p' i H); lia).
  set (x := qn p i) in *. set (x' := qn p' i) in *. clearbody x x'. pose proof (Qmult_comp k k (Qeq_refl k) r' r R) as KR. set (z := k * r) in *. set (z' := k * r') in *. clearbody z z'.
  destruct (Qltb_spec (m - z) (m + z)), (Qltb_spec (m' - z') (m' + z')); try lra; [|exact I].
  unfold bb_rel. cbn [olin]. unfold lin. rewrite X, M, KR. destruct Hs as [Es|Es]; rewrite Es; field; lra.
Qed.

(** ** Prices turned on a logarithmic scale *)
Lemma oturned_known c l l' i : Forall2 (oturned_log c) l l' -> oturned_log c (known l i) (known l' i).
Proof. intro H. unfold known. apply F2_nth; [exact I|exact H]. Qed.
Lemma turned_ratio c a b a' b' : 0 < c -> turned_log c a a' -> turned_log c b b' -> a' / b' == / (a / b) /\ 0 < a' /\ 0 < b'.
Proof.
  intros Hc [Pa Ea] [Pb Eb]. assert (0 < c / a) by (apply Qlt_shift_div_l; lra). assert (0 < c / b) by (apply Qlt_shift_div_l; lra).
  split; [rewrite Ea, Eb; field; repeat split; lra|]. split; lra.
Qed.
Lemma vr_ret1_turn ln c p p' i : odd_log ln -> 0 < c -> Forall2 (oturned_log c) p p' -> olin (-(1)) 0 (vr_ret1 ln p true i) (vr_ret1 ln p' true i).
Proof.
  intros [Hr Ho] Hc H. destruct i as [|i]; [exact I|]. cbn [vr_ret1]. pose proof (oturned_known c _ _ (S i) H) as A. pose proof (oturned_known c _ _ i H) as B.
  destruct (known p (S i)) as [a|], (known p' (S i)) as [a'|]; cbn [oturned_log] in A; try contradiction; try exact I.
  destruct (known p i) as [b|], (known p' i) as [b'|]; cbn [oturned_log] in B; try contradiction; try exact I.
  destruct (turned_ratio c a b a' b' Hc A B) as (E & P1 & P2). destruct A as [Pa _], B as [Pb _].
  destruct (Qleb_spec b 0), (Qleb_spec b' 0), (Qleb_spec a 0), (Qleb_spec a' 0); try lra. cbn [olin]. unfold lin. rewrite (Hr _ _ E), Ho by (apply Qlt_shift_div_l; lra). ring.
Qed.
Lemma vr_ret4_turn r r' i : olinl (-(1)) 0 r r' -> olin (-(1)) 0 (vr_ret4 r i) (vr_ret4 r' i).
Proof.
  intro H. unfold vr_ret4. destruct (i <? 4)%nat; [exact I|].
  pose proof (olinl_known _ _ _ _ i H) as A. pose proof (olinl_known _ _ _ _ (i - 1) H) as B. pose proof (olinl_known _ _ _ _ (i - 2) H) as C. pose proof (olinl_known _ _ _ _ (i - 3) H) as D.
  destruct (known r i), (known r' i); cbn [olin] in A; try contradiction; try exact I. destruct (known r (i - 1)), (known r' (i - 1)); cbn [olin] in B; try contradiction; try exact I.
  destruct (known r (i - 2)), (known r' (i - 2)); cbn [olin] in C; try contradiction; try exact I. destruct (known r (i - 3)), (known r' (i - 3)); cbn [olin] in D; try contradiction; try exact I.
  cbn [olin]. unfold lin in *. lra.
Qed.
Lemma variance_ratio_turn ln c p p' w ddof : odd_log ln -> 0 < c -> (0 <= ddof)%Z -> Forall2 (oturned_log c) p p' ->
  oscl 1 (variance_ratio ln p w ddof true) (variance_ratio ln p' w ddof true).
Proof.
  intros Hl Hc Hd H. unfold variance_ratio. cbv zeta. rewrite <- (F2_length _ _ _ H). destruct (_ <? _)%nat; [apply F2_repeat; exact I|].
  set (n := length p). assert (sign_like (-(1))) as SL by (right; reflexivity).
  assert (R1 : olinl (-(1)) 0 (map (vr_ret1 ln p true) (seq 0 n)) (map (vr_ret1 ln p' true) (seq 0 n))) by (apply F2_map_same; intros i _; now apply (vr_ret1_turn ln c)).
  set (r := map (vr_ret1 ln p true) _) in *. set (r' := map (vr_ret1 ln p' true) _) in *. clearbody r r'.
  assert (R4 : olinl (-(1)) 0 (map (vr_ret4 r) (seq 0 n)) (map (vr_ret4 r') (seq 0 n))) by (apply F2_map_same; intros i _; now apply vr_ret4_turn).
  pose proof (rolling_variance_level _ _ _ _ w ddof 1 SL Hd R1) as V1. pose proof (rolling_variance_level _ _ _ _ w ddof 1 SL Hd R4) as V4.
  apply F2_map_same. intros i _. pose proof (oscl_known 1 _ _ i V1) as A. pose proof (oscl_known 1 _ _ i V4) as B.
  destruct (known (rolling_variance r w ddof 1) i), (known (rolling_variance r' w ddof 1) i); cbn [osc] in A; try contradiction; try exact I.
  destruct (known (rolling_variance (map (vr_ret4 r) (seq 0 n)) w ddof 1) i) as [v|], (known (rolling_variance (map (vr_ret4 r') (seq 0 n)) w ddof 1) i) as [v'|]; cbn [osc] in B; try contradiction; try exact I.
  unfold sc in A, B. destruct (Qltb_spec 0 v), (Qltb_spec 0 v'); try lra; [|exact I]. cbn [osc]. apply sc_eq. rewrite A, B. field. lra.
Qed.
Lemma parkinson_turn ln c h l h' l' : respects ln -> 0 < c -> length h = length l -> Forall2 (turned_log c) h l' -> Forall2 (turned_log c) l h' ->
  both (scl 1) (parkinson_range ln h l) (parkinson_range ln h' l').
Proof.
  intros Hr Hc L H1 H2. unfold parkinson_range. rewrite <- (F2_length _ _ _ H2), <- L. apply both_collect. apply F2_map_same. intros i Hi. apply in_seq in Hi.
  pose proof (F2_nth_in (turned_log c) 0 0 h l' i H1 ltac:(lia)) as A. pose proof (F2_nth_in (turned_log c) 0 0 l h' i H2 ltac:(lia)) as B.
  fold (qn h i) in A. fold (qn l' i) in A. fold (qn l i) in B. fold (qn h' i) in B. destruct (turned_ratio c _ _ _ _ Hc A B) as (E & P1 & P2). destruct A as [PA EA], B as [PB EB].
  destruct (Qeqb_spec (qn l i) 0); [lra|]. destruct (Qeqb_spec (qn l' i) 0); [lra|]. cbv zeta. cbn [both]. apply sc_eq.
  assert (E2 : qn h' i / qn l' i == qn h i / qn l i) by (rewrite EA, EB; field; repeat split; lra).
  now rewrite (Hr _ _ E2).
Qed.
Lemma lagged_turn ln c ts p p' W : odd_log ln -> 0 < c -> length ts = length p -> Forall2 (turned_log c) p p' ->
  both (Forall2 eopp) (comp_lagged_returns ln ts p W true) (comp_lagged_returns ln ts p' W true).
Proof.
  intros [Hr Ho] Hc L H. unfold comp_lagged_returns. destruct (W <=? 0)%Z; [reflexivity|]. cbv zeta. cbn [both]. rewrite <- (F2_length _ _ _ H). apply F2_map_same. intros i Hi. apply in_seq in Hi.
  destruct (_ <? _)%nat; [exact I|].
  set (lag := (Z.of_nat _ - 1)%Z). clearbody lag. destruct (Z.leb_spec 0 lag); cbn [andb]; [|exact I]. destruct (Z.ltb_spec lag (Z.of_nat i)); [|exact I].
  pose proof (F2_nth_in (turned_log c) 0 0 p p' i H ltac:(lia)) as A. pose proof (F2_nth_in (turned_log c) 0 0 p p' (Z.to_nat lag) H ltac:(lia)) as B.
  change (nth i p 0) with (qn p i) in A. change (nth i p' 0) with (qn p' i) in A. change (nth (Z.to_nat lag) p 0) with (qn p (Z.to_nat lag)) in B. change (nth (Z.to_nat lag) p' 0) with (qn p' (Z.to_nat lag)) in B.
  destruct (turned_ratio c _ _ _ _ Hc A B) as (E & P1 & P2). destruct A as [PA EA], B as [PB EB]. unfold lag_return.
  destruct (Qeqb_spec (qn p (Z.to_nat lag)) 0); [lra|]. destruct (Qeqb_spec (qn p' (Z.to_nat lag)) 0); [lra|]. unfold flog.
  assert (0 < qn p i / qn p (Z.to_nat lag)) as PR by (apply Qlt_shift_div_l; lra). assert (0 < qn p' i / qn p' (Z.to_nat lag)) as PR' by (apply Qlt_shift_div_l; lra).
  destruct (Qltb_spec 0 (qn p i / qn p (Z.to_nat lag))); [|lra]. destruct (Qltb_spec 0 (qn p' i / qn p' (Z.to_nat lag))); [|lra]. cbn [eopp]. rewrite (Hr _ _ E). now apply Ho.
Qed.

(** ** The structural break test *)
Lemma cs_step_same sqrt ln s d y y' t sg sg' a b n : linl s d y y' -> sg' == sg -> s == 1 -> (n < t < length y)%nat -> cs_same a b ->
  cs_same (cs_step sqrt ln y t sg a n) (cs_step sqrt ln y' t sg' b n).
Proof.
  intros H G S N (E1 & E2 & E3 & E4). unfold cs_step. cbv zeta.
  pose proof (linl_qn _ _ _ _ t H ltac:(lia)) as A. pose proof (linl_qn _ _ _ _ n H ltac:(lia)) as B. unfold lin in A, B. rewrite S in A, B.
  assert (D : qn y' t - qn y' n == qn y t - qn y n) by lra. set (x := qn y t - qn y n) in *. set (x' := qn y' t - qn y' n) in *. clearbody x x'.
  assert (K : sg' * sqrt (Qnat (t - n)) == sg * sqrt (Qnat (t - n))) by now rewrite G. set (e := sg * _) in *. set (e' := sg' * _) in *. clearbody e e'.
  destruct (Qleb_spec e (1 # 10000000000000000)), (Qleb_spec e' (1 # 10000000000000000)); try lra; [now repeat split|].
  assert (U : pmax 0 x' / e' == pmax 0 x / e) by (rewrite (pmax_comp 0 x' 0 x (Qeq_refl 0) D), K; reflexivity).
  assert (V : - pmin 0 x' / e' == - pmin 0 x / e) by (rewrite (pmin_comp 0 x' 0 x (Qeq_refl 0) D), K; reflexivity).
  set (u := pmax 0 x / e) in *. set (u' := pmax 0 x' / e') in *. set (v := - pmin 0 x / e) in *. set (v' := - pmin 0 x' / e') in *. clearbody u u' v v'.
  destruct (Qltb_spec (c_up a) u), (Qltb_spec (c_up b) u'); try lra; destruct (Qltb_spec (c_dn a) v), (Qltb_spec (c_dn b) v'); try lra;
    unfold cs_same; cbn [c_up c_dn c_cu c_cd]; repeat split; auto; try lra; reflexivity.
Qed.
Lemma cs_step_swap sqrt ln s d y y' t sg sg' a b n : linl s d y y' -> sg' == sg -> s == -(1) -> (n < t < length y)%nat -> cs_swap a b ->
  cs_swap (cs_step sqrt ln y t sg a n) (cs_step sqrt ln y' t sg' b n).
Proof.
  intros H G S N (E1 & E2 & E3 & E4). unfold cs_step. cbv zeta.
  pose proof (linl_qn _ _ _ _ t H ltac:(lia)) as A. pose proof (linl_qn _ _ _ _ n H ltac:(lia)) as B. unfold lin in A, B. rewrite S in A, B.
  assert (D : qn y' t - qn y' n == - (qn y t - qn y n)) by lra. set (x := qn y t - qn y n) in *. set (x' := qn y' t - qn y' n) in *. clearbody x x'.
  assert (K : sg' * sqrt (Qnat (t - n)) == sg * sqrt (Qnat (t - n))) by now rewrite G. set (e := sg * _) in *. set (e' := sg' * _) in *. clearbody e e'.
  destruct (Qleb_spec e (1 # 10000000000000000)), (Qleb_spec e' (1 # 10000000000000000)); try lra; [now repeat split|].
  assert (U0 : pmax 0 x' == - pmin 0 x) by (destruct (pmax_spec 0 x') as [[-> ?]|[-> ?]], (pmin_spec 0 x) as [[-> ?]|[-> ?]]; lra).
  assert (V0 : - pmin 0 x' == pmax 0 x) by (destruct (pmin_spec 0 x') as [[-> ?]|[-> ?]], (pmax_spec 0 x) as [[-> ?]|[-> ?]]; lra).
  assert (U : pmax 0 x' / e' == - pmin 0 x / e) by (rewrite U0, K; reflexivity).
  assert (V : - pmin 0 x' / e' == pmax 0 x / e) by (rewrite V0, K; reflexivity).
  set (u := pmax 0 x / e) in *. set (u' := pmax 0 x' / e') in *. set (v := - pmin 0 x / e) in *. set (v' := - pmin 0 x' / e') in *. clearbody u u' v v'.
  destruct (Qltb_spec (c_up a) u), (Qltb_spec (c_dn b) v'); try lra; destruct (Qltb_spec (c_dn a) v), (Qltb_spec (c_up b) u'); try lra;
    unfold cs_swap; cbn [c_up c_dn c_cu c_cd]; repeat split; auto; try lra; reflexivity.
Qed.
Lemma max_s_level sqrt ln s d y y' t sg sg' : sign_like s -> linl s d y y' -> sg' == sg -> (t < length y)%nat ->
  cs_rel s (comp_max_s_nt sqrt ln y t sg) (comp_max_s_nt sqrt ln y' t sg').
Proof.
  intros Hs H G T. unfold comp_max_s_nt. assert (B : Qleb sg' 0 = Qleb sg 0) by (destruct (Qleb_spec sg' 0), (Qleb_spec sg 0); auto; lra). rewrite B.
  assert (I0 : cs_rel s cs_init cs_init) by (split; intros _; repeat split; reflexivity).
  destruct (_ || _)%bool; [exact I0|].
  assert (GG : forall m k a b, (k + m <= t)%nat -> cs_rel s a b -> cs_rel s (fold_left (cs_step sqrt ln y t sg) (seq k m) a) (fold_left (cs_step sqrt ln y' t sg') (seq k m) b)).
  { induction m as [|m IH]; intros k a b Hk R; cbn [seq fold_left]; [exact R|]. apply IH; [lia|]. destruct R as [R1 R2]. split; intro E.
    - apply (cs_step_same sqrt ln s d); auto; lia.
    - apply (cs_step_swap sqrt ln s d); auto; lia. }
  destruct (Nat.le_gt_cases 2 t); [apply GG; [lia|exact I0]|]. replace (t - 2)%nat with 0%nat by lia. exact I0.
Qed.
Lemma cs_sigma_level sqrt s d y y' t : respects sqrt -> sign_like s -> linl s d y y' -> (t < length y)%nat -> cs_sigma sqrt y' t == cs_sigma sqrt y t.
Proof.
  intros Hr Hs H T. pose proof (sign_sq s Hs) as S0. apply Hr. assert (E : cum_sq_diff y' t == cum_sq_diff y t); [|now rewrite E].
  apply qsum_ext. intros k Hk. apply in_seq in Hk. pose proof (linl_qn _ _ _ _ k H ltac:(lia)) as A. pose proof (linl_qn _ _ _ _ (k - 1) H ltac:(lia)) as B. unfold lin in A, B. rewrite A, B.
  setoid_replace ((s * qn y k + d - (s * qn y (k - 1) + d)) * (s * qn y k + d - (s * qn y (k - 1) + d))) with (s * s * ((qn y k - qn y (k - 1)) * (qn y k - qn y (k - 1)))) by ring.
  rewrite S0. ring.
Qed.
Lemma developing_level sqrt ln s d p p' warmup : respects sqrt -> sign_like s -> linl s d (map ln p) (map ln p') ->
  both (Forall2 (ocs_rel s)) (cusum_developing sqrt ln p warmup) (cusum_developing sqrt ln p' warmup).
Proof.
  intros Hr Hs H. unfold cusum_developing. cbv zeta. rewrite (linl_length _ _ _ _ H). destruct (_ && _)%bool; [reflexivity|]. cbn [both]. apply F2_map_same. intros t Ht. apply in_seq in Ht.
  destruct (_ <? _)%nat; [exact I|]. cbn [ocs_rel]. apply (max_s_level sqrt ln s d); auto; [|lia]. apply (cs_sigma_level sqrt s d); auto. lia.
Qed.
Lemma last_level sqrt ln s d p p' : respects sqrt -> sign_like s -> p <> [] -> linl s d (map ln p) (map ln p') -> cs_rel s (cusum_last sqrt ln p) (cusum_last sqrt ln p').
Proof.
  intros Hr Hs Hn H. unfold cusum_last. cbv zeta. rewrite (linl_length _ _ _ _ H).
  assert (length (map ln p) - 1 < length (map ln p))%nat by (rewrite map_length; destruct p; [easy|cbn; lia]).
  apply (max_s_level sqrt ln s d); auto. now apply (cs_sigma_level sqrt s d).
Qed.
Lemma linl_window ln s d p p' w i : linl s d (map ln p) (map ln p') -> linl s d (map ln (price_window p w i)) (map ln (price_window p' w i)).
Proof. intro H. unfold price_window. rewrite <- !firstn_map, <- !skipn_map. now apply F2_firstn, F2_skipn. Qed.
Lemma rolling_level sqrt ln s d p p' window warmup : respects sqrt -> sign_like s -> Forall (fun x => 0 < x) p -> Forall (fun x => 0 < x) p' -> linl s d (map ln p) (map ln p') ->
  both (Forall2 (ocs_rel s)) (cusum_rolling sqrt ln p window warmup) (cusum_rolling sqrt ln p' window warmup).
Proof.
  intros Hr Hs P P' H. unfold cusum_rolling. assert (LL : length p' = length p) by (apply linl_length in H; now rewrite !map_length in H).
  assert (X : forall l, Forall (fun x => 0 < x) l -> existsb (fun p => Qleb p 0) l = false).
  { induction 1 as [|x l Hx _ IH]; cbn [existsb]; [reflexivity|]. rewrite IH. destruct (Qleb_spec x 0); [lra|reflexivity]. }
  rewrite !X by assumption. cbv zeta. rewrite LL. destruct (_ <? warmup + 2)%nat eqn:W2; [apply F2_repeat; exact I|].
  set (w := if (window <? warmup + 2)%nat then _ else _). destruct (Nat.ltb_spec w (length p)) as [HW|]; [|now apply (developing_level sqrt ln s d)].
  pose proof (developing_level sqrt ln s d _ _ warmup Hr Hs (linl_window ln s d p p' w w H)) as D.
  destruct (cusum_developing sqrt ln (price_window p w w) warmup) as [f|e], (cusum_developing sqrt ln (price_window p' w w) warmup) as [f'|e']; cbn [both] in D; try contradiction; [|exact D].
  cbn [both]. apply F2_map_same. intros i Hi. apply in_seq in Hi. destruct (Nat.leb_spec i w); [apply F2_nth; [exact I|exact D]|]. cbn [ocs_rel].
  apply (last_level sqrt ln s d); auto; [|now apply linl_window].
  apply ne_of_len. unfold price_window. rewrite firstn_length, skipn_length. lia.
Qed.
