(** P_float2.v -- proofs about volume and dollar bars with float64 arithmetic. *)
From Verif Require Import Base M_logic S_logic P_logic M_float S_float P_features P_float.
Open Scope Q_scope.

(* ---------------------------------------------------------------- volume bars *)
Definition vol_run_f (v : list Q) (thr : Q) (k : nat) :=
  fold_left (volume_step_f v thr) (seq 1 k) ([0%nat], nth 0 v 0).

Lemma vol_run_f_inv v thr k : (forall i, 0 <= nth i v 0) ->
  let '(idx, cum) := vol_run_f v thr k in
  greedy_float (fun i => nth i v 0) thr (S k) idx /\
  (1 <= length idx)%nat /\
  within u53 (S k - seg_start idx (length idx - 1)) cum (ssum (fun i => nth i v 0) (seg_start idx (length idx - 1)) (S k)) /\
  (seg_start idx (length idx - 1) <= S k)%nat.
Proof.
  intro Pos. set (vf := fun i => nth i v 0).
  assert (SP : forall a b, 0 <= ssum vf a b) by (intros; apply ssum_nonneg; intros; apply Pos).
  induction k as [|k IH].
  - simpl. unfold greedy_float. simpl. repeat split; try lia.
    + unfold ssum. cbn [Nat.sub seq map]. unfold qsum; cbn [fold_right]. pose proof (Pos 0%nat). unfold vf.
      change ((1 - u53) ^ Z.of_nat 1) with (1 - u53). pose proof u53_bounds. nra.
    + unfold ssum. cbn [Nat.sub seq map]. unfold qsum; cbn [fold_right]. pose proof (Pos 0%nat). unfold vf.
      change ((1 + u53) ^ Z.of_nat 1) with (1 + u53). pose proof u53_bounds. nra.
  - unfold vol_run_f in *. rewrite fold_left_seq_S.
    destruct (fold_left (volume_step_f v thr) (seq 1 k) ([0%nat], nth 0 v 0)) as [idx cum].
    destruct IH as [[Hhd [Hbars Htail]] [Hlen [Ecum Hst]]].
    set (K := (length idx - 1)%nat) in *.
    unfold volume_step_f. replace (1 + k)%nat with (S k) by lia.
    change (nth (S k) v 0) with (vf (S k)).
    assert (Ecum' : within u53 (S (S k) - seg_start idx K) (r53 (cum + vf (S k))) (ssum vf (seg_start idx K) (S (S k)))).
    { eapply within_comp; [reflexivity|symmetry; apply ssum_snoc; lia|].
      replace (S (S k) - seg_start idx K)%nat with (S (S k - seg_start idx K)) by lia.
      apply within_sum; [exact Ecum|apply SP|apply Pos]. }
    assert (Hlast : (nth K idx 0 < S k)%nat).
    { destruct (Nat.eq_dec K 0) as [E0|Hne].
      - rewrite E0. destruct idx as [|a idx]; simpl in *; [lia|]. inversion Hhd; subst. lia.
      - assert (H1 : (S (K - 1) < length idx)%nat) by lia.
        destruct (Hbars (K - 1)%nat H1) as [Hb _]. replace (S (K - 1)) with K in Hb by lia. lia. }
    destruct (Qleb_spec thr (r53 (cum + vf (S k)))) as [Hge|Hlt].
    + (* close *)
      assert (Elen : (length (idx ++ [S k]) - 1 = S K)%nat) by (rewrite app_length; simpl; lia).
      rewrite Elen.
      assert (Enth : nth (S K) (idx ++ [S k]) 0%nat = S k).
      { replace (S K) with (length idx) by lia. apply nth_last_app. }
      split; [|split; [rewrite app_length; simpl; lia|split]].
      * split; [|split].
        -- destruct idx; simpl in *; [lia|auto].
        -- intros j Hj. rewrite app_length in Hj. simpl in Hj.
           destruct (Nat.eq_dec j K) as [->|Hne].
           ++ rewrite Enth, app_nth1, seg_start_app by lia. split; [lia|]. split.
              ** eapply Qle_trans; [exact Hge|]. exact (proj2 Ecum').
              ** intros i Hi. apply Htail. fold K. lia.
           ++ rewrite !app_nth1, seg_start_app by lia.
              destruct (Hbars j ltac:(lia)) as [Hb [Hb1 Hb2]]. split; [lia|]. split; auto.
        -- cbv zeta. rewrite Elen. intros j Hj. rewrite Enth in Hj. lia.
      * unfold seg_start. rewrite Enth. eapply within_comp; [reflexivity|symmetry; apply ssum_nil; lia|]. apply within_0.
      * unfold seg_start. rewrite Enth. lia.
    + split; [|split; [assumption|split]].
      * split; [assumption|split].
        -- intros j Hj. destruct (Hbars j Hj) as [Hb [Hb1 Hb2]]. split; [lia|]. split; auto.
        -- cbv zeta; fold K. intros j Hj. destruct (Nat.eq_dec j (S k)) as [->|Hne].
           ++ eapply Qle_lt_trans; [exact (proj1 Ecum')|assumption].
           ++ apply Htail. fold K. lia.
      * fold K. exact Ecum'.
      * fold K. lia.
Qed.

Lemma nth_nonneg (v : list Q) : (forall x, In x v -> 0 <= x) -> forall i, 0 <= nth i v 0.
Proof.
  intros H i. destruct (Nat.lt_ge_cases i (length v)).
  - apply H. now apply nth_In.
  - rewrite nth_overflow by auto. lra.
Qed.

Lemma volume_f_greedy v thr : (1 <= length v)%nat -> (forall x, In x v -> 0 <= x) ->
  greedy_float (fun i => nth i v 0) thr (length v) (volume_bar_indexer_f v thr).
Proof.
  intros H P. unfold volume_bar_indexer_f.
  pose proof (vol_run_f_inv v thr (length v - 1) (nth_nonneg v P)) as I. unfold vol_run_f in I.
  destruct (fold_left (volume_step_f v thr) (seq 1 (length v - 1)) ([0%nat], nth 0 v 0)) as [idx cum].
  replace (S (length v - 1)) with (length v) in I by lia. apply I.
Qed.

(** Away from the threshold the float closes are the exact closes. *)
Lemma volume_f_clear v thr : (1 <= length v)%nat -> (forall x, In x v -> 0 <= x) ->
  let vf i := nth i v 0 in
  (forall s j, (s <= j < length v)%nat ->
     thr <= (1 - u53) ^ Z.of_nat (S j - s) * ssum vf s (S j) \/ (1 + u53) ^ Z.of_nat (S j - s) * ssum vf s (S j) < thr) ->
  volume_bar_indexer_f v thr = volume_bar_indexer v thr.
Proof.
  intros H P vf Clear. apply (greedy_unique vf thr (length v)); [|now apply volume_greedy].
  destruct (volume_f_greedy v thr H P) as [Hhd [Hb Ht]].
  assert (SP : forall a b, 0 <= ssum vf a b).
  { intros. apply ssum_nonneg. intros. apply nth_nonneg, P. }
  set (cl := volume_bar_indexer_f v thr) in *.
  assert (Lo : forall s j, (s <= j < length v)%nat -> (1 - u53) ^ Z.of_nat (S j - s) * ssum vf s (S j) < thr -> ssum vf s (S j) < thr).
  { intros s j Hj L. destruct (Clear s j Hj) as [C|C]; [lra|].
    pose proof (pow_ge1 (1 + u53) (S j - s) ltac:(pose proof u53_bounds; lra)). pose proof (SP s (S j)). nra. }
  assert (Hi : forall s j, (s <= j < length v)%nat -> thr <= (1 + u53) ^ Z.of_nat (S j - s) * ssum vf s (S j) -> thr <= ssum vf s (S j)).
  { intros s j Hj L. destruct (Clear s j Hj) as [C|C]; [|lra].
    pose proof (pow_le1 (1 - u53) (S j - s) ltac:(pose proof u53_bounds; lra)). pose proof (SP s (S j)). nra. }
  assert (Sg : forall k j, (nth k cl 0 < j)%nat -> (seg_start cl k <= j)%nat).
  { intros k j Hk. unfold seg_start. destruct k; lia. }
  split; [exact Hhd|]. split.
  - intros k Hk. destruct (Hb k Hk) as [A [B C]]. split; [exact A|]. split.
    + apply Hi; [|exact B]. split; [apply Sg|]; lia.
    + intros j Hj. apply Lo; [|now apply C]. split; [apply Sg|]; lia.
  - intros k j Hj. apply Lo; [|now apply Ht]. split; [apply Sg|]; lia.
Qed.

(** On a grid coarse enough the additions are exact. *)
Lemma volume_f_grid v thr g M : (forall x, In x v -> grid g x /\ 0 <= x <= M) -> thr + M <= two (53 + g) -> M + M <= two (53 + g) ->
  0 <= M -> volume_bar_indexer_f v thr = volume_bar_indexer v thr.
Proof.
  intros H B B2 HM. unfold volume_bar_indexer_f, volume_bar_indexer.
  assert (Hv : forall i, grid g (nth i v 0) /\ 0 <= nth i v 0 <= M).
  { intro i. destruct (Nat.lt_ge_cases i (length v)).
    - apply H. now apply nth_In.
    - rewrite nth_overflow by auto. split; [apply grid_0|lra]. }
  assert (G : forall k, let s := fold_left (volume_step_f v thr) (seq 1 k) ([0%nat], nth 0 v 0) in
     let s' := fold_left (volume_step v thr) (seq 1 k) ([0%nat], nth 0 v 0) in
     fst s = fst s' /\ snd s == snd s' /\ grid g (snd s) /\ 0 <= snd s /\ (snd s <= M \/ snd s <= thr)).
  { induction k as [|k IH].
    - cbn [seq fold_left fst snd]. destruct (Hv 0%nat) as [G0 [P0 P1]].
      split; [reflexivity|]. split; [reflexivity|]. split; [exact G0|]. split; [exact P0|now left].
    - cbv zeta in *. rewrite !fold_left_seq_S.
      destruct (fold_left (volume_step_f v thr) (seq 1 k) _) as [idx c].
      destruct (fold_left (volume_step v thr) (seq 1 k) _) as [idx' c']. cbn [fst snd] in IH.
      destruct IH as [-> [Ec [Gc [C0 C1]]]]. unfold volume_step_f, volume_step.
      set (q := nth (1 + k) v 0). destruct (Hv (1 + k)%nat) as [Gq [Q0 Q1]]. fold q in Gq, Q0, Q1.
      assert (Big : c + q <= two (53 + g)) by (destruct C1; lra).
      assert (R : r53 (c + q) == c + q) by (apply (grid_rnd 53 g); [lia|now apply grid_plus|lra]).
      assert (E : Qleb thr (r53 (c + q)) = Qleb thr (c' + q)).
      { destruct (Qleb_spec thr (r53 (c + q))), (Qleb_spec thr (c' + q)); auto; lra. }
      rewrite E. destruct (Qleb_spec thr (c' + q)).
      + cbn [fst snd]. split; [reflexivity|]. split; [reflexivity|]. split; [apply grid_0|]. split; [lra|left; lra].
      + cbn [fst snd]. split; [reflexivity|]. split; [lra|]. split; [|split; [lra|right; lra]].
        apply (grid_comp g (c + q)); [symmetry; exact R|now apply grid_plus]. }
  exact (proj1 (G (length v - 1)%nat)).
Qed.

Lemma volume_f_app v thr s i : fst (volume_step_f v thr s i) = fst s \/ fst (volume_step_f v thr s i) = fst s ++ [i].
Proof. destruct s as [l c]. unfold volume_step_f. destruct (Qleb thr (r53 (c + nth i v 0))); simpl; auto. Qed.
Lemma volume_f_prefix v m thr : (1 <= m <= length v)%nat ->
  filter (fun i => i <? m)%nat (volume_bar_indexer_f v thr) = volume_bar_indexer_f (firstn m v) thr.
Proof.
  intro H. unfold volume_bar_indexer_f.
  rewrite firstn_length. replace (Nat.min m (length v)) with m by lia.
  apply (prefix_law (volume_step_f v thr) fst (volume_step_f (firstn m v) thr) fst eq_refl 1 (length v - 1) m); try lia.
  - intros. apply volume_f_app.
  - simpl. intros i [<-|[]]. lia.
  - rewrite nth_firstn by lia. f_equal. apply fold_left_ext. intros s i Hi. apply in_seq in Hi.
    unfold volume_step_f. destruct s. rewrite nth_firstn by lia. reflexivity.
Qed.

(* ---------------------------------------------------------------- dollar bars *)
Lemma nth_pos_mult (p v : list Q) : (forall x, In x p -> 0 <= x) -> (forall x, In x v -> 0 <= x) ->
  forall i, 0 <= nth i p 0 * nth i v 0.
Proof. intros Hp Hv i. pose proof (nth_nonneg p Hp i). pose proof (nth_nonneg v Hv i). nra. Qed.

Lemma dollar_f_grid p v thr g h :
  (forall x, In x p -> grid g x /\ 0 <= x) -> (forall x, In x v -> grid h x /\ 0 <= x) -> grid (g + h) thr -> 0 <= thr ->
  ssum (fun k => nth k p 0 * nth k v 0) 0 (length p) <= two (53 + (g + h)) -> (1 <= length p)%nat ->
  fst (dollar_bar_run_f p v thr) = fst (dollar_bar_run p v thr) /\ snd (dollar_bar_run_f p v thr) == snd (dollar_bar_run p v thr).
Proof.
  intros Hp Hv Gt T0 B Len. set (dl := fun k => nth k p 0 * nth k v 0) in *.
  assert (D0 : forall i, 0 <= dl i) by (apply nth_pos_mult; intros x Hx; [apply (proj2 (Hp x Hx))|apply (proj2 (Hv x Hx))]).
  assert (Dg : forall i, grid (g + h) (dl i)).
  { intro i. apply grid_mult.
    - destruct (Nat.lt_ge_cases i (length p)); [apply Hp; now apply nth_In|rewrite nth_overflow by auto; apply grid_0].
    - destruct (Nat.lt_ge_cases i (length v)); [apply Hv; now apply nth_In|rewrite nth_overflow by auto; apply grid_0]. }
  assert (SP : forall a b, 0 <= ssum dl a b) by (intros; apply ssum_nonneg; auto).
  assert (Db : forall i, (i < length p)%nat -> ssum dl 0 i + dl i <= two (53 + (g + h))).
  { intros i Hi. rewrite <- ssum_snoc by lia. pose proof (ssum_split dl 0 (S i) (length p) ltac:(lia)). pose proof (SP (S i) (length p)). lra. }
  assert (Rd : forall i, (i < length p)%nat -> r53 (dl i) == dl i).
  { intros i Hi. apply (grid_rnd 53 (g + h)); [lia|apply Dg|]. pose proof (Db i Hi). pose proof (SP 0%nat i). pose proof (D0 i). lra. }
  assert (G : forall k, (k < length p)%nat ->
     let s := fold_left (dollar_step_f p v thr) (seq 1 k) ([0%nat], r53 (nth 0 p 0 * nth 0 v 0)) in
     let s' := fold_left (dollar_step p v thr) (seq 1 k) ([0%nat], nth 0 p 0 * nth 0 v 0) in
     fst s = fst s' /\ snd s == snd s' /\ grid (g + h) (snd s) /\ 0 <= snd s <= ssum dl 0 (S k)).
  { induction k as [|k IH]; intro Hk.
    - cbn [seq fold_left fst snd]. pose proof (Rd 0%nat ltac:(lia)) as R. unfold dl at 1 2 in R.
      split; [reflexivity|]. split; [exact R|]. split; [eapply grid_comp; [symmetry; exact R|apply (Dg 0%nat)]|].
      rewrite R. rewrite ssum_snoc, ssum_nil by lia. pose proof (D0 0%nat). unfold dl in *. lra.
    - specialize (IH ltac:(lia)). cbv zeta in *. rewrite !fold_left_seq_S.
      destruct (fold_left (dollar_step_f p v thr) (seq 1 k) _) as [idx c].
      destruct (fold_left (dollar_step p v thr) (seq 1 k) _) as [idx' c']. cbn [fst snd] in IH.
      destruct IH as [-> [Ec [Gc [C0 C1]]]]. unfold dollar_step_f, dollar_step.
      replace (1 + k)%nat with (S k) by lia. change (nth (S k) p 0 * nth (S k) v 0) with (dl (S k)).
      pose proof (D0 (S k)) as Q0. pose proof (Dg (S k)) as Gq. pose proof (Db (S k) Hk) as Bk. pose proof (Rd (S k) Hk) as R1.
      assert (E1 : c + r53 (dl (S k)) == c + dl (S k)) by (rewrite R1; reflexivity).
      assert (R : r53 (c + r53 (dl (S k))) == c + dl (S k)).
      { rewrite E1. apply (grid_rnd 53 (g + h)); [lia|now apply grid_plus|lra]. }
      assert (E : Qleb thr (r53 (c + r53 (dl (S k)))) = Qleb thr (c' + dl (S k))).
      { destruct (Qleb_spec thr (r53 (c + r53 (dl (S k))))), (Qleb_spec thr (c' + dl (S k))); auto; lra. }
      assert (Sn : ssum dl 0 (S (S k)) == ssum dl 0 (S k) + dl (S k)) by (apply ssum_snoc; lia).
      rewrite E. destruct (Qleb_spec thr (c' + dl (S k))).
      + cbn [fst snd].
        assert (E2 : r53 (c + r53 (dl (S k))) - thr == c + dl (S k) - thr) by (rewrite R; reflexivity).
        assert (R2 : r53 (r53 (c + r53 (dl (S k))) - thr) == c + dl (S k) - thr).
        { rewrite E2. apply (grid_rnd 53 (g + h)); [lia|apply grid_minus; [now apply grid_plus|auto]|lra]. }
        split; [reflexivity|]. split; [lra|]. split; [|lra].
        eapply grid_comp; [symmetry; exact R2|]. apply grid_minus; [now apply grid_plus|auto].
      + cbn [fst snd]. split; [reflexivity|]. split; [lra|]. split; [|lra].
        eapply grid_comp; [symmetry; exact R|]. now apply grid_plus. }
  specialize (G (length p - 1)%nat ltac:(lia)). unfold dollar_bar_run_f, dollar_bar_run. cbv zeta in G. split; apply G.
Qed.

(** Conservation up to rounding. *)
Lemma dollar_f_conserve p v thr : (1 <= length p)%nat -> (forall x, In x p -> 0 <= x) -> (forall x, In x v -> 0 <= x) -> 0 <= thr ->
  let T := ssum (fun k => nth k p 0 * nth k v 0) 0 (length p) in
  let s := dollar_bar_run_f p v thr in
  0 <= snd s /\
  Qabs (snd s + thr * Qnat (length (fst s) - 1) - T) <= 3 * Qnat (length p) * u53 * (1 + u53) ^ Z.of_nat (2 * length p) * T.
Proof.
  intros Len Hp Hv T0. set (dl := fun k => nth k p 0 * nth k v 0). cbv zeta.
  assert (D0 : forall i, 0 <= dl i) by (apply nth_pos_mult; auto).
  assert (SP : forall a b, 0 <= ssum dl a b) by (intros; apply ssum_nonneg; auto).
  set (T := ssum dl 0 (length p)).
  pose proof u53_bounds as Hu. set (N := length p) in *.
  assert (P1 : forall n, 1 <= (1 + u53) ^ Z.of_nat n) by (intro; apply pow_ge1; lra).
  assert (PM : forall n m, (n <= m)%nat -> (1 + u53) ^ Z.of_nat n <= (1 + u53) ^ Z.of_nat m).
  { intros n m L. replace m with (n + (m - n))%nat by lia. rewrite pow_add. pose proof (P1 n). pose proof (P1 (m - n)%nat). nra. }
  assert (ST : forall k, (k <= N)%nat -> ssum dl 0 k <= T).
  { intros k Hk. unfold T. rewrite (ssum_split dl 0 k N) by lia. pose proof (SP k N). lra. }
  set (E := u53 * ((1 + u53) ^ Z.of_nat (2 * N) * T)).
  assert (TN : 0 <= T) by apply SP.
  assert (E0 : 0 <= E). { unfold E. pose proof (P1 (2 * N)%nat). assert (0 <= (1 + u53) ^ Z.of_nat (2 * N) * T) by nra. nra. }
  assert (RU : forall x, 0 <= x -> r53 x <= (1 + u53) * x).
  { intros x Hx. pose proof (r53_err x) as R. rewrite (Qabs_pos x) in R by auto. apply Qabs_Qle_condition in R. lra. }
  assert (RE : forall x B, 0 <= x <= B -> Qabs (r53 x - x) <= u53 * B).
  { intros x B [Hx HB]. eapply Qle_trans; [apply r53_err|]. rewrite Qabs_pos by auto. nra. }
  assert (G : forall k, (k < N)%nat ->
     let s := fold_left (dollar_step_f p v thr) (seq 1 k) ([0%nat], r53 (nth 0 p 0 * nth 0 v 0)) in
     0 <= snd s <= (1 + u53) ^ Z.of_nat (2 * S k) * ssum dl 0 (S k) /\ (1 <= length (fst s))%nat /\ fl 53 (snd s) /\
     Qabs (snd s + thr * Qnat (length (fst s) - 1) - ssum dl 0 (S k)) <= 3 * Qnat (S k) * E).
  { induction k as [|k IH]; intro Hk.
    - cbn [seq fold_left fst snd length Nat.sub]. change (nth 0 p 0 * nth 0 v 0) with (dl 0%nat).
      pose proof (D0 0%nat) as Q0. pose proof (ST 1%nat ltac:(lia)) as S1.
      assert (S0 : ssum dl 0 1 == dl 0%nat) by (rewrite ssum_snoc, ssum_nil by lia; ring).
      split; [split; [now apply r53_nonneg|]|].
      + pose proof (RU _ Q0). rewrite S0. replace (2 * 1)%nat with (S 1) by lia. rewrite pow_S. pose proof (P1 1%nat).
        assert (0 <= (1 + u53) * dl 0%nat) by nra. nra.
      + split; [auto|]. split; [apply rnd_fl; lia|].
        assert (E2 : r53 (dl 0%nat) + thr * Qnat 0 - ssum dl 0 1 == r53 (dl 0%nat) - dl 0%nat).
        { rewrite S0. change (Qnat 0) with 0. ring. }
        rewrite E2. change (Qnat 1) with 1.
        pose proof (RE (dl 0%nat) ((1 + u53) ^ Z.of_nat (2 * N) * T)) as R. fold E in R.
        assert (0 <= dl 0%nat <= (1 + u53) ^ Z.of_nat (2 * N) * T) by (pose proof (P1 (2 * N)%nat); split; nra).
        specialize (R ltac:(auto)). lra.
    - specialize (IH ltac:(lia)). cbv zeta in *. rewrite fold_left_seq_S.
      destruct (fold_left (dollar_step_f p v thr) (seq 1 k) _) as [idx c]. cbn [fst snd] in IH.
      destruct IH as [[C0 C1] [L1 [Fc Er]]]. unfold dollar_step_f. replace (1 + k)%nat with (S k) by lia.
      change (nth (S k) p 0 * nth (S k) v 0) with (dl (S k)). set (q := dl (S k)). pose proof (D0 (S k)) as Q0. fold q in Q0.
      assert (Sn : ssum dl 0 (S (S k)) == ssum dl 0 (S k) + q) by (apply ssum_snoc; lia).
      pose proof (SP 0%nat (S k)) as S0.
      set (A := (1 + u53) ^ Z.of_nat (2 * S k)) in *. pose proof (P1 (2 * S k)%nat) as A1. fold A in A1.
      assert (EA : (1 + u53) ^ Z.of_nat (2 * S (S k)) == (1 + u53) * ((1 + u53) * A)).
      { replace (2 * S (S k))%nat with (S (S (2 * S k))) by lia. rewrite !pow_S. reflexivity. }
      pose proof (ST (S (S k)) ltac:(lia)) as STk. pose proof (PM (2 * S (S k))%nat (2 * N)%nat ltac:(lia)) as PMk.
      set (W := (1 + u53) ^ Z.of_nat (2 * N)) in *. rewrite EA in PMk.
      pose proof (r53_nonneg q Q0) as rq0. pose proof (RU q Q0) as rq1.
      pose proof (r53_nonneg (c + r53 q) ltac:(lra)) as d0. pose proof (RU (c + r53 q) ltac:(lra)) as d1.
      set (rq := r53 q) in *. set (d := r53 (c + rq)) in *.
      assert (X1 : (1 + u53) * q <= (1 + u53) * A * q) by (assert (0 <= (1 + u53) * q) by nra; nra).
      assert (X2 : c + rq <= (1 + u53) * A * (ssum dl 0 (S k) + q)).
      { assert (A * ssum dl 0 (S k) <= (1 + u53) * A * ssum dl 0 (S k)) by (assert (0 <= A * ssum dl 0 (S k)) by nra; nra). lra. }
      assert (X3 : d <= (1 + u53) * ((1 + u53) * A) * (ssum dl 0 (S k) + q)) by nra.
      assert (X4 : (1 + u53) * ((1 + u53) * A) * (ssum dl 0 (S k) + q) <= W * T).
      { assert (0 <= ssum dl 0 (S k) + q) by lra. assert (0 <= W) by (pose proof (P1 (2 * N)%nat); unfold W; lra). nra. }
      assert (X5 : q <= W * T).
      { assert (1 <= (1 + u53) * ((1 + u53) * A)) by (assert (1 <= (1 + u53) * A) by nra; nra). nra. }
      assert (X6 : c + rq <= W * T).
      { assert (0 <= (1 + u53) * A * (ssum dl 0 (S k) + q)) by (assert (0 <= (1 + u53) * A) by nra; nra). nra. }
      pose proof (RE q (W * T) ltac:(lra)) as e1. pose proof (RE (c + rq) (W * T) ltac:(lra)) as e2.
      fold E in e1, e2. fold rq in e1. fold d in e2.
      rewrite Sn, Qnat_S.
      destruct (Qleb_spec thr d) as [Hge|Hlt]; cbn [fst snd].
      + pose proof (RE (d - thr) (W * T) ltac:(lra)) as e3. fold E in e3.
        assert (D1 : r53 (d - thr) <= d) by (apply rnd_le; [lia|apply rnd_fl; lia|lra]).
        split; [split; [apply r53_nonneg; lra|rewrite EA; lra]|].
        rewrite app_length. cbn [length]. split; [lia|]. split; [apply rnd_fl; lia|].
        replace (length idx + 1 - 1)%nat with (S (length idx - 1)) by lia. rewrite Qnat_S.
        set (r := r53 (d - thr)) in *. clearbody r d rq.
        apply Qabs_Qle_condition in e1. apply Qabs_Qle_condition in e2. apply Qabs_Qle_condition in e3. apply Qabs_Qle_condition in Er.
        apply Qabs_Qle_condition. set (Y := thr * Qnat (length idx - 1)) in *.
        assert (EY : thr * (Qnat (length idx - 1) + 1) == Y + thr) by (unfold Y; ring). rewrite EY.
        set (Z := Qnat (S k) * E). assert (EZ : 3 * (Qnat (S k) + 1) * E == 3 * Z + 3 * E) by (unfold Z; ring). rewrite EZ.
        assert (EZ2 : 3 * Qnat (S k) * E == 3 * Z) by (unfold Z; ring). rewrite EZ2 in Er. lra.
      + split; [split; [exact d0|rewrite EA; lra]|]. split; [exact L1|]. split; [apply rnd_fl; lia|].
        clearbody d rq.
        apply Qabs_Qle_condition in e1. apply Qabs_Qle_condition in e2. apply Qabs_Qle_condition in Er.
        apply Qabs_Qle_condition. set (Y := thr * Qnat (length idx - 1)) in *.
        set (Z := Qnat (S k) * E). assert (EZ : 3 * (Qnat (S k) + 1) * E == 3 * Z + 3 * E) by (unfold Z; ring). rewrite EZ.
        assert (EZ2 : 3 * Qnat (S k) * E == 3 * Z) by (unfold Z; ring). rewrite EZ2 in Er. lra. }
  specialize (G (N - 1)%nat ltac:(lia)). cbv zeta in G. unfold dollar_bar_run_f. fold N.
  replace (S (N - 1)) with N in G by lia. destruct G as [[G0 _] [_ [_ G1]]]. split; [exact G0|].
  fold T in G1. eapply Qle_trans; [exact G1|]. unfold E. apply Qle_lteq. right. ring.
Qed.

Lemma dollar_f_app p v thr s i : fst (dollar_step_f p v thr s i) = fst s \/ fst (dollar_step_f p v thr s i) = fst s ++ [i].
Proof. destruct s as [l c]. unfold dollar_step_f. destruct (Qleb thr _); simpl; auto. Qed.
Lemma dollar_f_prefix p v m thr : (1 <= m <= length p)%nat ->
  filter (fun i => i <? m)%nat (fst (dollar_bar_run_f p v thr)) = fst (dollar_bar_run_f (firstn m p) (firstn m v) thr).
Proof.
  intro H. unfold dollar_bar_run_f.
  rewrite firstn_length. replace (Nat.min m (length p)) with m by lia.
  apply (prefix_law (dollar_step_f p v thr) fst (dollar_step_f (firstn m p) (firstn m v) thr) fst eq_refl 1 (length p - 1) m); try lia.
  - intros. apply dollar_f_app.
  - simpl. intros i [<-|[]]. lia.
  - rewrite !nth_firstn by lia. f_equal. apply fold_left_ext. intros s i Hi. apply in_seq in Hi.
    unfold dollar_step_f. destruct s. rewrite !nth_firstn by lia. reflexivity.
Qed.
