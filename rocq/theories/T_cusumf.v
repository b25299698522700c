(** T_cusumf.v -- property C182: CUSUM filter and CUSUM bars in float64.
    [rnd p] is the rounding characterised in C137_rounding. *)
From Verif Require Import Base M_logic M_sampling M_float M_float4 S_float S_logic S_cusumf P_float P_float2 P_float3 P_float9 P_cusumbar P_cusumf.
Open Scope Q_scope.

Lemma run_error_cerr B d k : run_error B d k == cerr B d k.
Proof. unfold run_error, cerr, ee. reflexivity. Qed.

(** * C182  The filter *)
Theorem C182_filter : forall (ln lnf : Q -> Q) (x : list Q) (thr : list (option Q)) (B d : Q),
  0 <= B -> 0 <= d ->
  (forall i, (0 < i < length x)%nat -> Qabs (lnf (r53 (nth i x 0 / nth (i - 1) x 0)) - price_ret ln x i) <= d) ->
  sums_within (price_ret ln x) 0 (length x) B ->
  (forall i t, (0 < i < length x)%nat -> nth (if (length thr =? 1)%nat then 0%nat else i) thr None = Some t ->
     clear_of (price_ret ln x) 0 i t (run_error B d i)) ->
  cusum_filter_f lnf x thr = cusum_filter ln x thr.
Proof.
  intros ln lnf x thr B d HB Hd Hr HW HC. unfold cusum_filter_f, cusum_filter. destruct (length x <=? 1)%nat eqn:L1; [reflexivity|].
  apply Nat.leb_gt in L1. destruct (negb (length thr =? 1)%nat && negb (length thr =? length x)%nat)%bool eqn:L2; [reflexivity|]. cbv zeta. f_equal.
  set (th := expand_threshold (length x) thr). set (n := length x) in *.
  assert (HT : forall i t, (0 < i < n)%nat -> nth i th None = Some t -> clear_of (price_ret ln x) 0 i t (run_error B d i)).
  { intros i t Hi E. apply HC; [exact Hi|]. rewrite <- E. unfold th, expand_threshold. destruct thr as [|t0 [|t1 l]]; cbn [length Nat.eqb]; [now destruct i|rewrite (nth_indep (repeat t0 n) None t0) by (rewrite repeat_length; lia); now rewrite nth_repeat|reflexivity]. }
  set (D := fun (i : nat) (p m : Q) => match nth i th None with None => DNone | Some t => if Qltb m (- t) then DDown else if Qltb t p then DUp else DNone end).
  rewrite (fold_gstep (cusum_filter_step_f lnf x th) (gstep r53 (log_ret_f lnf x) D)).
  2:{ intros s i _. unfold cusum_filter_step_f, gstep, D. cbv zeta. destruct (nth i th None) as [t|]; [|reflexivity]. destruct (Qltb _ (- t)); [reflexivity|]. destruct (Qltb t _); reflexivity. }
  rewrite (fold_gstep (cusum_filter_step ln x th) (gstep (fun q => q) (price_ret ln x) D)).
  2:{ intros s i _. unfold cusum_filter_step, gstep, D. cbv zeta. change (log_ret ln x i) with (price_ret ln x i). destruct (nth i th None) as [t|]; [|reflexivity]. destruct (Qltb _ (- t)); [reflexivity|]. destruct (Qltb t _); reflexivity. }
  assert (HD : forall i a b p m p' m', (0 < i < n)%nat -> (0 < a <= S i)%nat -> (0 < b <= S i)%nat -> p == ssum (price_ret ln x) a (S i) -> m == ssum (price_ret ln x) b (S i) ->
    Qabs (p' - p) <= cerr B d (i - 0) -> Qabs (m' - m) <= cerr B d (i - 0) -> D i p' m' = D i p m).
  { intros i a b p m p' m' Hi Ha Hb Ep Em Np Nm. rewrite Nat.sub_0_r in *. unfold D. destruct (nth i th None) as [t|] eqn:Et; [|reflexivity].
    pose proof (HT i t Hi Et) as C. destruct (C a Ha) as [C1 _]. destruct (C b Hb) as [_ C2]. rewrite run_error_cerr in C1, C2. rewrite <- Ep in C1. rewrite <- Em in C2.
    destruct (far_ltb p p' t _ Np C1) as (-> & _). assert (C3 : cerr B d i < Qabs (m - - t)) by (setoid_replace (m - - t) with (m + t) by ring; exact C2).
    destruct (far_ltb m m' (- t) _ Nm C3) as (_ & -> & _). reflexivity. }
  pose proof (sync_fold (price_ret ln x) (log_ret_f lnf x) D D B d 0 n HB Hd Hr HW HD (mkCS [] 0 0) (mkCS [] 0 0)) as S.
  specialize (S ltac:(split; [reflexivity|]; split; [exists 1%nat; split; [lia|now rewrite ssum_nil by lia]|]; split; [exists 1%nat; split; [lia|now rewrite ssum_nil by lia]|]; split; cbn [cs_pos cs_neg]; apply (cerr_nonneg B d 0 HB Hd)) (n - 1)%nat ltac:(lia)).
  exact (proj1 S).
Qed.

(** Prices 8, 12, 9, 18 with [ln q = q - 1] and an error of 2^-60 in the returns. *)
Example C182_filter_example : let ln := fun q => q - 1 in let lnf := fun q => r53 (q - 1) in let x := [8; 12; 9; 18] in let thr := [Some (9 # 10)] in
  cusum_filter_f lnf x thr = Ok [3%nat] /\ cusum_filter ln x thr = Ok [3%nat] /\
  (forall i, (0 < i < 4)%nat -> Qabs (lnf (r53 (nth i x 0 / nth (i - 1) x 0)) - price_ret ln x i) <= 1 # 1152921504606846976) /\
  sums_within (price_ret ln x) 0 4 2 /\ forall i, (0 < i < 4)%nat -> clear_of (price_ret ln x) 0 i (9 # 10) (run_error 2 (1 # 1152921504606846976) i).
Proof.
  split; [vm_compute; reflexivity|]. split; [vm_compute; reflexivity|]. split; [|split].
  - intros i H. do 4 (destruct i as [|i]; [try lia; vm_compute; discriminate|]). lia.
  - intros a i H H2. do 4 (destruct a as [|a]; [try lia; do 4 (destruct i as [|i]; [try lia; vm_compute; discriminate|]); lia|]). lia.
  - intros i H a Ha. do 5 (destruct a as [|a]; [try lia; do 4 (destruct i as [|i]; [try lia; split; vm_compute; reflexivity|]); lia|]). lia.
Qed.

(** Without the distance the events may differ: prices 1, 4, 4 + 2^-50, threshold 3, the sum of the returns is a
    little above 3 and rounds to 3, for a logarithm that is exact up to rounding. *)
Theorem C182_filter_refuted : exists (ln lnf : Q -> Q) (x : list Q) (t : Q),
  (forall q, lnf q = r53 (ln q)) /\ (forall i, (0 < i < length x)%nat -> lnf (r53 (nth i x 0 / nth (i - 1) x 0)) == price_ret ln x i) /\
  cusum_filter ln x [Some t] = Ok [2%nat] /\ cusum_filter_f lnf x [Some t] = Ok [].
Proof.
  exists (fun q => q - 1), (fun q => r53 (q - 1)), [1; 4; 4 + (1 # 1125899906842624)], 3. split; [reflexivity|]. split; [|split; vm_compute; reflexivity].
  intros i H. cbn [length] in H. do 3 (destruct i as [|i]; [try lia; vm_compute; reflexivity|]). lia.
Qed.

(** * C182  The bars *)
Theorem C182_bars : forall (ln lnf : Q -> Q) (ts : list Z) (x : list Q) (sigma : list (option Q)) (flr mult B d : Q) (f : nat),
  length sigma = length x -> first_known sigma f -> 0 <= B -> 0 <= d ->
  (forall i, (f < i < length x)%nat -> Qabs (lnf (r53 (nth i x 0 / nth (i - 1) x 0)) - price_ret ln x i) <= d) ->
  sums_within (price_ret ln x) f (length x) B ->
  (forall i s, (f < i < length x)%nat -> ~ ((i + 1 < length x)%nat /\ nth i ts 0%Z = nth (i + 1) ts 0%Z) -> last_known sigma i s ->
     clear_of (price_ret ln x) f i (Qmax (mult * s) flr) (run_error B d (i - f) + u53 * Qabs (mult * s))) ->
  cusum_bar_indexer_f lnf ts x sigma flr mult = cusum_bar_indexer ln ts x sigma flr mult.
Proof.
  intros ln lnf ts x sigma flr mult B d f HL Hf HB Hd Hr HW HC.
  pose proof (first_known_some _ _ Hf) as E0. assert (Ef : first_non_nan sigma = f) by (unfold first_non_nan; now rewrite E0). destruct (first_some_known _ _ E0) as [Hlen _].
  unfold cusum_bar_indexer_f, cusum_bar_indexer. cbv zeta. rewrite Ef. set (sg := fill_sigma sigma). set (n := length x) in *.
  set (sk := fun i => ((i + 1 <? n)%nat && (nth i ts 0 =? nth (i + 1) ts 0)%Z)%bool).
  set (D := fun (lam : nat -> option Q) (i : nat) (p m : Q) => if sk i then DNone else match lam i with None => DNone | Some t => if Qleb t p then DUp else if Qleb m (- t) then DDown else DNone end).
  rewrite (fold_gstep (cusum_bar_step_f lnf ts x sg flr mult) (gstep r53 (log_ret_f lnf x) (D (cusum_lam_f sg flr mult)))).
  2:{ intros s i _. unfold cusum_bar_step_f, gstep, D. cbv zeta. fold n. fold (sk i). destruct (sk i); [reflexivity|]. destruct (cusum_lam_f sg flr mult i) as [t|]; [|reflexivity]. destruct (Qleb t _); [reflexivity|]. destruct (Qleb _ (- t)); reflexivity. }
  rewrite (fold_gstep (cusum_bar_step ln ts x sg flr mult) (gstep (fun q => q) (price_ret ln x) (D (cusum_lam sg flr mult)))).
  2:{ intros s i _. unfold cusum_bar_step, gstep, D. cbv zeta. change (log_ret ln x i) with (price_ret ln x i). fold n. fold (sk i). destruct (sk i); [reflexivity|]. destruct (cusum_lam sg flr mult i) as [t|]; [|reflexivity]. destruct (Qleb t _); [reflexivity|]. destruct (Qleb _ (- t)); reflexivity. }
  assert (HD : forall i a b p m p' m', (f < i < n)%nat -> (f < a <= S i)%nat -> (f < b <= S i)%nat -> p == ssum (price_ret ln x) a (S i) -> m == ssum (price_ret ln x) b (S i) ->
    Qabs (p' - p) <= cerr B d (i - f) -> Qabs (m' - m) <= cerr B d (i - f) -> D (cusum_lam_f sg flr mult) i p' m' = D (cusum_lam sg flr mult) i p m).
  { intros i a b p m p' m' Hi Ha Hb Ep Em Np Nm. unfold D. destruct (sk i) eqn:K; [reflexivity|]. destruct (fill_sigma_known sigma f i Hf ltac:(lia)) as (s & Es & Ks). fold sg in Es.
    unfold cusum_lam_f, cusum_lam. rewrite Es.
    assert (C : clear_of (price_ret ln x) f i (Qmax (mult * s) flr) (run_error B d (i - f) + u53 * Qabs (mult * s))).
    { apply HC; [exact Hi| |exact Ks]. intros [K1 K2]. unfold sk in K. apply Nat.ltb_lt in K1. rewrite K1, K2, Z.eqb_refl in K. discriminate. }
    destruct (C a Ha) as [C1 _]. destruct (C b Hb) as [_ C2]. rewrite run_error_cerr in C1, C2. rewrite <- Ep in C1. rewrite <- Em in C2.
    rewrite <- (pmax_Qmax (mult * s) flr) in C1, C2. pose proof (r53_err (mult * s)) as R.
    assert (L : Qabs (pmax (r53 (mult * s)) flr - pmax (mult * s) flr) <= u53 * Qabs (mult * s)).
    { rewrite (Qmult_comm _ u53) in R. eapply Qle_trans; [|exact R]. pose proof (Qle_Qabs (r53 (mult * s) - mult * s)) as Q1. pose proof (Qle_Qabs (mult * s - r53 (mult * s))) as Q2. rewrite (Qabs_Qminus (mult * s) _) in Q2.
      apply Qabs_Qle_condition. unfold pmax. destruct (Qltb_spec (r53 (mult * s)) flr), (Qltb_spec (mult * s) flr); lra. }
    set (l := pmax (mult * s) flr) in *. set (l' := pmax (r53 (mult * s)) flr) in *. set (e := cerr B d (i - f)) in *. set (g := u53 * Qabs (mult * s)) in *. clearbody l l' e g.
    apply Qabs_Qle_condition in L, Np, Nm.
    assert (A1 : Qleb l' p' = Qleb l p).
    { assert (A : e + g < p - l \/ p - l < - (e + g)) by (revert C1; apply Qabs_case; intros; [left|right]; lra). destruct (Qleb_spec l' p'), (Qleb_spec l p); try reflexivity; exfalso; destruct A; lra. }
    assert (A2 : Qleb m' (- l') = Qleb m (- l)).
    { assert (A : e + g < m + l \/ m + l < - (e + g)) by (revert C2; apply Qabs_case; intros; [left|right]; lra). destruct (Qleb_spec m' (- l')), (Qleb_spec m (- l)); try reflexivity; exfalso; destruct A; lra. }
    rewrite A1, A2. reflexivity. }
  destruct (Nat.le_gt_cases n (f + 1)) as [Hn|Hn]; [replace (n - (f + 1))%nat with 0%nat by lia; reflexivity|].
  pose proof (sync_fold (price_ret ln x) (log_ret_f lnf x) (D (cusum_lam sg flr mult)) (D (cusum_lam_f sg flr mult)) B d f n HB Hd Hr HW HD (mkCS [f] 0 0) (mkCS [f] 0 0)) as S.
  specialize (S ltac:(split; [reflexivity|]; split; [exists (f + 1)%nat; split; [lia|now rewrite ssum_nil by lia]|]; split; [exists (f + 1)%nat; split; [lia|now rewrite ssum_nil by lia]|]; split; cbn [cs_pos cs_neg]; apply (cerr_nonneg B d 0 HB Hd)) (n - (f + 1))%nat ltac:(lia)).
  exact (proj1 S).
Qed.

(** Prices 7, 8, 12, 9, 18, sigma known from position 1 on. *)
Example C182_bars_example : let ln := fun q => q - 1 in let lnf := fun q => r53 (q - 1) in let x := [7; 8; 12; 9; 18] in let ts := [1; 2; 3; 4; 5]%Z in
  let sigma := [None; Some (3 # 10); None; None; Some (2 # 5)] in let e := 1 # 1152921504606846976 in
  cusum_bar_indexer_f lnf ts x sigma (1 # 10) 2 = [1; 4]%nat /\ first_known sigma 1 /\
  (forall i, (1 < i < 5)%nat -> Qabs (lnf (r53 (nth i x 0 / nth (i - 1) x 0)) - price_ret ln x i) <= e) /\
  sums_within (price_ret ln x) 1 5 2 /\ forall i s, (1 < i < 5)%nat -> last_known sigma i s ->
    clear_of (price_ret ln x) 1 i (Qmax (2 * s) (1 # 10)) (run_error 2 e (i - 1) + u53 * Qabs (2 * s)).
Proof.
  cbv zeta. split; [vm_compute; reflexivity|]. split; [split; [now exists (3 # 10)|intros j Hj; now replace j with 0%nat by lia]|]. split; [|split].
  - intros i H. do 5 (destruct i as [|i]; [try lia; vm_compute; discriminate|]). lia.
  - intros a i H H2. do 5 (destruct a as [|a]; [try lia; do 5 (destruct i as [|i]; [try lia; vm_compute; discriminate|]); lia|]). lia.
  - intros i s Hi (k & Hk & Es & Hn). assert (S : s = (if (i =? 4)%nat then 2 # 5 else 3 # 10)).
    { do 5 (destruct k as [|k]; [cbn [nth] in Es; first [discriminate Es|injection Es as <-; destruct (Nat.eqb_spec i 4) as [->|]; [first [reflexivity|specialize (Hn 4%nat ltac:(lia)); discriminate]|first [reflexivity|lia]]]|]). lia. }
    subst s. intros a Ha. do 6 (destruct a as [|a]; [try lia; do 5 (destruct i as [|i]; [try lia; split; vm_compute; reflexivity|]); lia|]). lia.
Qed.

(** Without the distance the bars may differ: prices 1, 2, 2 + 2^-51, [ln q = 3 (q - 1)], threshold 3 + 2^-50; the sum
    3 + 3 * 2^-52 rounds up to the threshold. *)
Theorem C182_bars_refuted : exists (ln lnf : Q -> Q) (ts : list Z) (x : list Q) (sigma : list (option Q)) (flr mult : Q),
  (forall q, lnf q = r53 (ln q)) /\ (forall i, (0 < i < length x)%nat -> lnf (r53 (nth i x 0 / nth (i - 1) x 0)) == price_ret ln x i) /\
  cusum_bar_indexer ln ts x sigma flr mult = [0%nat] /\ cusum_bar_indexer_f lnf ts x sigma flr mult = [0; 2]%nat.
Proof.
  exists (fun q => 3 * (q - 1)), (fun q => r53 (3 * (q - 1))), [1; 2; 3]%Z, [1; 2; 2 + (1 # 2251799813685248)], [Some (3 + (1 # 1125899906842624)); None; None], (1 # 10), 1.
  split; [reflexivity|]. split; [|split; vm_compute; reflexivity].
  intros i H. cbn [length] in H. do 3 (destruct i as [|i]; [try lia; vm_compute; reflexivity|]). lia.
Qed.

Print Assumptions C182_filter.
Print Assumptions C182_filter_refuted.
Print Assumptions C182_bars.
Print Assumptions C182_bars_refuted.
