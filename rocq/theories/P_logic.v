(** P_logic.v -- proofs about the tick, volume, dollar and CUSUM bar indexers. *)
From Verif Require Import Base M_logic S_logic P_cusum.
Open Scope Q_scope.

(* ------------------------------------------------------------------ *)
(** ** Loops that append their index *)
Section Appending.
  Context {S0 : Type} (step : S0 -> nat -> S0) (idx : S0 -> list nat).
  Hypothesis app : forall s i, idx (step s i) = idx s \/ idx (step s i) = idx s ++ [i].

  Lemma idx_fold l s : exists e, idx (fold_left step l s) = idx s ++ e /\ incl e l.
  Proof.
    revert s. induction l as [|x l IH]; simpl; intro s.
    - exists []. rewrite app_nil_r. split; [reflexivity|]. intros y [].
    - destruct (IH (step s x)) as [e [E He]]. rewrite E.
      destruct (app s x) as [Ex|Ex]; rewrite Ex.
      + exists e. split; [reflexivity|]. intros y Hy. right. auto.
      + exists (x :: e). rewrite <- app_assoc. split; [reflexivity|].
        intros y [->|Hy]; [now left|right; auto].
  Qed.

  Lemma idx_fold_sorted a n s : exists e,
    idx (fold_left step (seq a n) s) = idx s ++ e /\
    StronglySorted lt e /\ (forall i, In i e -> a <= i < a + n)%nat.
  Proof.
    induction n as [|n [e [E [Hs Hr]]]].
    - exists []. simpl. rewrite app_nil_r. repeat split; try constructor; simpl in *; tauto.
    - rewrite fold_left_seq_S.
      destruct (app (fold_left step (seq a n) s) (a + n)) as [Ex|Ex]; rewrite Ex, E.
      + exists e. repeat split; auto. apply Hr; auto. specialize (Hr i H). lia.
      + exists (e ++ [(a + n)%nat]). rewrite <- app_assoc. repeat split; auto.
        * apply ssorted_snoc; auto. intros y Hy. apply Hr in Hy. lia.
        * apply in_app_or in H. destruct H as [H|[<-|[]]]; [apply Hr in H|]; lia.
        * apply in_app_or in H. destruct H as [H|[<-|[]]]; [apply Hr in H|]; lia.
  Qed.
End Appending.

Lemma filter_lt_all m l : (forall i, In i l -> i < m)%nat -> filter (fun i => i <? m)%nat l = l.
Proof.
  induction l as [|x l IH]; simpl; intro H; [reflexivity|].
  destruct (Nat.ltb_spec x m); [|specialize (H x (or_introl eq_refl)); lia].
  rewrite IH; auto.
Qed.
Lemma filter_lt_none m l : (forall i, In i l -> m <= i)%nat -> filter (fun i => i <? m)%nat l = [].
Proof.
  induction l as [|x l IH]; simpl; intro H; [reflexivity|].
  destruct (Nat.ltb_spec x m); [specialize (H x (or_introl eq_refl)); lia|]. apply IH; auto.
Qed.

(** Causality: two appending loops that agree below m. *)
Lemma prefix_law {S0 S1} (st : S0 -> nat -> S0) (idx : S0 -> list nat) (st' : S1 -> nat -> S1) (idx' : S1 -> list nat)
      (proj : S0 = S1) a n m s :
  (forall s i, idx (st s i) = idx s \/ idx (st s i) = idx s ++ [i]) ->
  (a <= m)%nat -> (m <= a + n)%nat ->
  (forall i, In i (idx s) -> i < m)%nat ->
  forall s',
  idx (fold_left st (seq a (m - a)) s) = idx' (fold_left st' (seq a (m - a)) s') ->
  filter (fun i => i <? m)%nat (idx (fold_left st (seq a n) s)) = idx' (fold_left st' (seq a (m - a)) s').
Proof.
  intros Happ Ham Hmn Hs s' E. rewrite <- E.
  replace n with ((m - a) + (a + n - m))%nat by lia.
  rewrite seq_app, fold_left_app. replace (a + (m - a))%nat with m by lia.
  set (s1 := fold_left st (seq a (m - a)) s).
  destruct (idx_fold_sorted st idx Happ a (m - a) s) as [e1 [E1 [_ H1]]].
  destruct (idx_fold_sorted st idx Happ m (a + n - m) s1) as [e2 [E2 [_ H2]]].
  fold s1 in E1. rewrite E2, E1, filter_app.
  rewrite (filter_lt_all m (idx s ++ e1)), (filter_lt_none m e2), app_nil_r; auto.
  - intros i Hi. apply H2 in Hi. lia.
  - intros i Hi. apply in_app_or in Hi. destruct Hi as [Hi|Hi]; [auto|]. apply H1 in Hi. lia.
Qed.

(* ------------------------------------------------------------------ *)
(** ** Tick bars *)

Lemma tick_app thr s i : fst (tick_step thr s i) = fst s \/ fst (tick_step thr s i) = fst s ++ [i].
Proof. destruct s as [l c]. unfold tick_step. destruct (thr <=? c + 1)%Z; simpl; auto. Qed.

Lemma tick_all n thr : (1 <= n)%nat -> (thr <= 1)%Z -> tick_bar_indexer n thr = seq 0 n.
Proof.
  intros Hn Ht. unfold tick_bar_indexer.
  assert (H : forall k, fst (fold_left (tick_step thr) (seq 1 k) ([0%nat], 1%Z)) = seq 0 (S k) /\
                        (0 <= snd (fold_left (tick_step thr) (seq 1 k) ([0%nat], 1%Z)))%Z).
  { induction k as [|k [IH1 IH2]]; [simpl; split; [reflexivity|lia]|].
    rewrite fold_left_seq_S.
    destruct (fold_left (tick_step thr) (seq 1 k) ([0%nat], 1%Z)) as [l c]. simpl in IH1, IH2.
    unfold tick_step. destruct (Z.leb_spec thr (c + 1)); [|lia]. simpl fst. simpl snd.
    split; [|lia]. rewrite IH1. rewrite (seq_S (S k)). reflexivity. }
  destruct (H (n - 1)%nat) as [E _]. rewrite E. f_equal. lia.
Qed.

Lemma tick_closed n (thr : nat) : (1 <= n)%nat -> (2 <= thr)%nat ->
  tick_bar_indexer n (Z.of_nat thr) =
  0%nat :: map (fun k => k * thr - 1)%nat (seq 1 (n / thr)).
Proof.
  intros Hn Ht. unfold tick_bar_indexer.
  assert (H : forall k, fold_left (tick_step (Z.of_nat thr)) (seq 1 k) ([0%nat], 1%Z) =
     (0%nat :: map (fun k => k * thr - 1)%nat (seq 1 (S k / thr)), Z.of_nat (S k mod thr))).
  { induction k as [|k IH].
    - cbn [seq fold_left]. rewrite Nat.div_small, Nat.mod_small by lia. reflexivity.
    - rewrite fold_left_seq_S, IH. unfold tick_step. simpl plus.
      pose proof (Nat.div_mod (S k) thr ltac:(lia)) as E1.
      pose proof (Nat.mod_upper_bound (S k) thr ltac:(lia)) as B1.
      set (q := (S k / thr)%nat) in *. set (m := (S k mod thr)%nat) in *.
      destruct (Z.leb_spec (Z.of_nat thr) (Z.of_nat m + 1)) as [Hle|Hlt].
      + assert (Em : (m + 1 = thr)%nat) by lia.
        assert (Eq : (S (S k) = thr * S q + 0)%nat) by nia.
        assert (Eq1 : (S (S k) / thr = S q)%nat) by (symmetry; apply (Nat.div_unique _ _ _ 0%nat); lia).
        assert (Eq2 : (S (S k) mod thr = 0)%nat) by (symmetry; apply (Nat.mod_unique _ _ (S q)); lia).
        rewrite Eq1, Eq2. rewrite (seq_S q 1), map_app.
        assert (S k = (1 + q) * thr - 1)%nat as -> by nia.
        reflexivity.
      + assert (Eq : (S (S k) = thr * q + (m + 1))%nat) by nia.
        assert (Eq1 : (S (S k) / thr = q)%nat) by (symmetry; apply (Nat.div_unique _ _ _ (m+1)%nat); lia).
        assert (Eq2 : (S (S k) mod thr = m + 1)%nat) by (symmetry; apply (Nat.mod_unique _ _ q); lia).
        rewrite Eq1, Eq2. f_equal. lia. }
  rewrite H. cbn [fst]. do 4 f_equal. lia.
Qed.

Lemma tick_in n (thr : nat) i : (1 <= n)%nat -> (1 <= thr)%nat ->
  (In i (tick_bar_indexer n (Z.of_nat thr)) <-> i = 0%nat \/ (1 <= i < n)%nat /\ Nat.divide thr (i + 1)).
Proof.
  intros Hn Ht. destruct (Nat.eq_dec thr 1) as [->|Hne].
  - rewrite tick_all by lia. rewrite in_seq. split.
    + intro H. destruct i as [|i]; [now left|right]. split; [lia|]. exists (S i + 1)%nat. lia.
    + intros [->|[H _]]; lia.
  - rewrite tick_closed by lia. simpl. rewrite in_map_iff. split.
    + intros [<-|[k [<- Hk]]]; [now left|]. right. apply in_seq in Hk.
      pose proof (Nat.mul_div_le n thr ltac:(lia)).
      assert (k * thr <= n)%nat by nia.
      split; [nia|]. exists k. nia.
    + intros [->|[Hi [k Hk]]]; [now left|]. right. exists k. split; [lia|].
      apply in_seq. assert (1 <= k)%nat by nia.
      assert (k <= n / thr)%nat by (apply Nat.div_le_lower_bound; nia). lia.
Qed.

Lemma tick_prefix n m thr : (1 <= m <= n)%nat ->
  filter (fun i => i <? m)%nat (tick_bar_indexer n thr) = tick_bar_indexer m thr.
Proof.
  intro H. unfold tick_bar_indexer.
  apply (prefix_law (tick_step thr) fst (tick_step thr) fst eq_refl 1 (n - 1) m); try lia.
  - intros. apply tick_app.
  - simpl. intros i [<-|[]]. lia.
  - reflexivity.
Qed.

(* ------------------------------------------------------------------ *)
(** ** Volume bars *)

Lemma volume_app v thr s i : fst (volume_step v thr s i) = fst s \/ fst (volume_step v thr s i) = fst s ++ [i].
Proof. destruct s as [l c]. unfold volume_step. destruct (Qleb thr (c + nth i v 0)); simpl; auto. Qed.

Definition vol_run (v : list Q) (thr : Q) (k : nat) :=
  fold_left (volume_step v thr) (seq 1 k) ([0%nat], nth 0 v 0).

Lemma nth_last_app (l : list nat) x d : nth (length l) (l ++ [x]) d = x.
Proof. rewrite app_nth2 by lia. now rewrite Nat.sub_diag. Qed.

Lemma seg_start_app closes x k : (k < length closes)%nat ->
  seg_start (closes ++ [x]) k = seg_start closes k.
Proof. intro H. unfold seg_start. destruct k; [reflexivity|]. now rewrite app_nth1. Qed.

Lemma vol_run_inv v thr k :
  let '(idx, cum) := vol_run v thr k in
  greedy_volume (fun i => nth i v 0) thr (S k) idx /\
  (1 <= length idx)%nat /\
  cum == ssum (fun i => nth i v 0) (seg_start idx (length idx - 1)) (S k) /\
  (seg_start idx (length idx - 1) <= S k)%nat.
Proof.
  set (vf := fun i => nth i v 0).
  induction k as [|k IH].
  - simpl. unfold greedy_volume. simpl. repeat split; try lia.
    unfold ssum. simpl. unfold vf. ring.
  - unfold vol_run in *. rewrite fold_left_seq_S.
    destruct (fold_left (volume_step v thr) (seq 1 k) ([0%nat], nth 0 v 0)) as [idx cum].
    destruct IH as [[Hhd [Hbars Htail]] [Hlen [Ecum Hst]]].
    set (K := (length idx - 1)%nat) in *.
    unfold volume_step. replace (1 + k)%nat with (S k) by lia.
    change (nth (S k) v 0) with (vf (S k)).
    assert (Ecum' : cum + vf (S k) == ssum vf (seg_start idx K) (S (S k))).
    { rewrite ssum_snoc by lia. rewrite Ecum. reflexivity. }
    assert (Hlast : (nth K idx 0 < S k)%nat).
    { destruct (Nat.eq_dec K 0) as [E0|Hne].
      - rewrite E0. destruct idx as [|a idx]; simpl in *; [lia|]. inversion Hhd; subst. lia.
      - assert (H1 : (S (K - 1) < length idx)%nat) by lia.
        destruct (Hbars (K - 1)%nat H1) as [Hb _]. replace (S (K - 1)) with K in Hb by lia. lia. }
    destruct (Qleb_spec thr (cum + vf (S k))) as [Hge|Hlt].
    + (* close *)
      assert (Elen : (length (idx ++ [S k]) - 1 = S K)%nat) by (rewrite app_length; simpl; lia).
      rewrite Elen.
      assert (Enth : nth (S K) (idx ++ [S k]) 0%nat = S k).
      { replace (S K) with (length idx) by lia. apply nth_last_app. }
      split; [|split; [rewrite app_length; simpl; lia|split]].
      * split; [|split].
        -- destruct idx; simpl in *; [lia|auto].
        -- intros j Hj. rewrite app_length in Hj. simpl in Hj.
           destruct (Nat.eq_dec j K) as [->|Hne].
           ++ rewrite Enth, app_nth1, seg_start_app by lia. repeat split; try lia.
              ** lra.
              ** intros i Hi. apply Htail. fold K. lia.
           ++ rewrite !app_nth1, seg_start_app by lia.
              destruct (Hbars j ltac:(lia)) as [Hb [Hb1 Hb2]]. repeat split; auto; lia.
        -- cbv zeta. rewrite Elen. intros j Hj. rewrite Enth in Hj. lia.
      * unfold seg_start. rewrite Enth. rewrite ssum_nil by lia. reflexivity.
      * unfold seg_start. rewrite Enth. lia.
    + split; [|split; [assumption|split]].
      * split; [assumption|split].
        -- intros j Hj. destruct (Hbars j Hj) as [Hb [Hb1 Hb2]]. repeat split; auto; lia.
        -- cbv zeta; fold K. intros j Hj. destruct (Nat.eq_dec j (S k)) as [->|Hne].
           ++ rewrite <- Ecum'; assumption.
           ++ apply Htail. fold K. lia.
      * fold K. exact Ecum'.
      * fold K. lia.
Qed.

Lemma volume_greedy v thr : (1 <= length v)%nat ->
  greedy_volume (fun i => nth i v 0) thr (length v) (volume_bar_indexer v thr).
Proof.
  intro H. unfold volume_bar_indexer.
  pose proof (vol_run_inv v thr (length v - 1)) as I. unfold vol_run in I.
  destruct (fold_left (volume_step v thr) (seq 1 (length v - 1)) ([0%nat], nth 0 v 0)) as [idx cum].
  replace (S (length v - 1)) with (length v) in I by lia. apply I.
Qed.

Lemma volume_prefix v m thr : (1 <= m <= length v)%nat ->
  filter (fun i => i <? m)%nat (volume_bar_indexer v thr) = volume_bar_indexer (firstn m v) thr.
Proof.
  intro H. unfold volume_bar_indexer.
  rewrite firstn_length. replace (Nat.min m (length v)) with m by lia.
  apply (prefix_law (volume_step v thr) fst (volume_step (firstn m v) thr) fst eq_refl 1 (length v - 1) m); try lia.
  - intros. apply volume_app.
  - simpl. intros i [<-|[]]. lia.
  - rewrite nth_firstn by lia. f_equal. apply fold_left_ext. intros s i Hi. apply in_seq in Hi.
    unfold volume_step. destruct s. rewrite nth_firstn by lia. reflexivity.
Qed.

(** The greedy segmentation is unique, so the specification determines the closes. *)
Lemma greedy_sorted v thr n l : greedy_volume v thr n l ->
  forall i j, (i < j < length l)%nat -> (nth i l 0 < nth j l 0)%nat.
Proof.
  intros [_ [H _]] i j [Hij Hj]. induction j as [|j IH]; [lia|].
  destruct (H j Hj) as [Hlt _]. destruct (Nat.eq_dec i j) as [->|]; [lia|].
  specialize (IH ltac:(lia) ltac:(lia)). lia.
Qed.

Lemma greedy_unique v thr n l l' :
  greedy_volume v thr n l -> greedy_volume v thr n l' -> l = l'.
Proof.
  intros G G'. pose proof G as [H0 [Hb Ht]]. pose proof G' as [H0' [Hb' Ht']]. cbv zeta in *.
  assert (Hl : (1 <= length l)%nat) by (destruct l; simpl in *; [discriminate|lia]).
  assert (Hl' : (1 <= length l')%nat) by (destruct l'; simpl in *; [discriminate|lia]).
  assert (A : forall k, (k < length l)%nat -> (k < length l')%nat /\ nth k l 0%nat = nth k l' 0%nat).
  { assert (W : forall k, (k < length l)%nat ->
       (forall j, (j <= k)%nat -> (j < length l')%nat /\ nth j l 0%nat = nth j l' 0%nat)).
    { induction k as [|k IH]; intros Hk j Hj.
      - assert (j = 0)%nat by lia. subst. split; [lia|].
        destruct l, l'; simpl in *; congruence.
      - specialize (IH ltac:(lia)). destruct (Nat.eq_dec j (S k)) as [->|]; [|apply IH; lia].
        destruct (IH k (le_n _)) as [Hk' Ek].
        assert (Es : seg_start l k = seg_start l' k) by (unfold seg_start; destruct k; congruence).
        destruct (Hb k Hk) as [B1 [B2 B3]].
        destruct (Nat.lt_ge_cases (S k) (length l')) as [Hlt|Hge].
        + split; [assumption|]. destruct (Hb' k Hlt) as [B1' [B2' B3']].
          destruct (Nat.lt_trichotomy (nth (S k) l 0%nat) (nth (S k) l' 0%nat)) as [C|[C|C]]; auto.
          * specialize (B3' (nth (S k) l 0%nat) ltac:(lia)). rewrite Es in B2. lra.
          * specialize (B3 (nth (S k) l' 0%nat) ltac:(lia)). rewrite Es in B3. lra.
        + exfalso. specialize (Ht' (nth (S k) l 0%nat)).
          replace (length l' - 1)%nat with k in Ht' by lia.
          specialize (Ht' ltac:(lia)). rewrite Es in B2. lra. }
    intros k Hk. apply (W k Hk k). lia. }
  assert (Elen : length l = length l').
  { destruct (Nat.lt_trichotomy (length l) (length l')) as [C|[C|C]]; auto.
    - exfalso. destruct (A (length l - 1)%nat ltac:(lia)) as [_ Ek].
      set (k := (length l - 1)%nat) in *.
      destruct (Hb' k ltac:(lia)) as [B1 [B2 _]].
      assert (Es : seg_start l k = seg_start l' k) by (unfold seg_start; destruct k; congruence).
      specialize (Ht (nth (S k) l' 0%nat)). fold k in Ht.
      specialize (Ht ltac:(lia)). rewrite Es in Ht. lra.
    - exfalso. destruct (A (length l') ltac:(lia)) as [Hx _]. lia. }
  apply nth_ext with (d := 0%nat) (d' := 0%nat); auto.
  intros k Hk. apply A. exact Hk.
Qed.

(* ------------------------------------------------------------------ *)
(** ** Dollar bars *)

Lemma dollar_app p v thr s i :
  fst (dollar_step p v thr s i) = fst s \/ fst (dollar_step p v thr s i) = fst s ++ [i].
Proof.
  destruct s as [l c]. unfold dollar_step.
  destruct (Qleb thr (c + nth i p 0 * nth i v 0)); simpl; auto.
Qed.

Definition dol (p v : list Q) (i : nat) : Q := nth i p 0 * nth i v 0.

Lemma closes_below_app l x i :
  closes_below (l ++ [x]) i =
  (closes_below l i + if ((1 <=? x) && (x <? i))%nat then 1 else 0)%nat.
Proof.
  unfold closes_below. rewrite filter_app, app_length. cbn [filter].
  destruct ((1 <=? x) && (x <? i))%nat%bool; cbn [length]; lia.
Qed.

Lemma closes_below_ext l i j : (forall c, In c l -> c < i)%nat -> (i <= j)%nat ->
  closes_below l j = closes_below l i.
Proof.
  intros H Hij. unfold closes_below. f_equal. apply filter_ext_in. intros c Hc.
  specialize (H c Hc). destruct (Nat.ltb_spec c j), (Nat.ltb_spec c i); lia || reflexivity.
Qed.

Lemma dollar_inv p v thr k :
  let '(idx, cum) := fold_left (dollar_step p v thr) (seq 1 k) ([0%nat], dol p v 0) in
  cum == ssum (dol p v) 0 (S k) - thr * Qnat (closes_below idx (S k)) /\
  (forall c, In c idx -> (c < S k)%nat) /\
  (forall i, (1 <= i < S k)%nat ->
     (In i idx <-> thr <= ssum (dol p v) 0 (S i) - thr * Qnat (closes_below idx i))).
Proof.
  induction k as [|k IH].
  - simpl. repeat split; intros; try lia.
    + unfold ssum, closes_below, Qnat. simpl. ring.
  - rewrite fold_left_seq_S.
    destruct (fold_left (dollar_step p v thr) (seq 1 k) ([0%nat], dol p v 0)) as [idx cum].
    destruct IH as [Ec [Hr Hi]]. unfold dollar_step. replace (1 + k)%nat with (S k) by lia.
    fold (dol p v (S k)).
    assert (Es : cum + dol p v (S k) ==
                 ssum (dol p v) 0 (S (S k)) - thr * Qnat (closes_below idx (S k))).
    { rewrite (ssum_snoc _ 0 (S k)) by lia. rewrite Ec. ring. }
    assert (Hni : ~ In (S k) idx) by (intro H; apply Hr in H; lia).
    assert (Ecb : closes_below idx (S (S k)) = closes_below idx (S k)) by (apply closes_below_ext; auto).
    destruct (Qleb_spec thr (cum + dol p v (S k))) as [Hge|Hlt].
    + split; [|split].
      * rewrite closes_below_app, Ecb. destruct (Nat.leb_spec 1 (S k)); [|lia].
        destruct (Nat.ltb_spec (S k) (S (S k))); [|lia]. simpl andb. cbv iota.
        rewrite Qnat_plus. change (Qnat 1) with 1. rewrite Es. ring.
      * intros c Hc. apply in_app_or in Hc. destruct Hc as [Hc|[<-|[]]]; [apply Hr in Hc|]; lia.
      * intros i Hi'. rewrite closes_below_app.
        destruct (Nat.ltb_spec (S k) i); [lia|]. rewrite andb_false_r, Nat.add_0_r.
        destruct (Nat.eq_dec i (S k)) as [->|Hne].
        -- split; [intros _; lra|]. intros _. apply in_or_app. right. now left.
        -- rewrite <- (Hi i ltac:(lia)). split.
           ++ intro HH. apply in_app_or in HH. destruct HH as [H'|[H'|[]]]; [auto|lia].
           ++ intro HH. apply in_or_app. now left.
    + split; [|split].
      * rewrite Ecb. exact Es.
      * intros c Hc. apply Hr in Hc. lia.
      * intros i Hi'. destruct (Nat.eq_dec i (S k)) as [->|Hne].
        -- split; [intro HH; contradiction|]. intro H. exfalso. lra.
        -- apply Hi. lia.
Qed.

Lemma dollar_char p v thr : (1 <= length p)%nat ->
  let closes := dollar_bar_indexer p v thr in
  (snd (dollar_bar_run p v thr) ==
     ssum (dol p v) 0 (length p) - thr * Qnat (closes_below closes (length p))) /\
  (forall c, In c closes -> (c < length p)%nat) /\
  (forall i, (1 <= i < length p)%nat ->
     (In i closes <-> thr <= ssum (dol p v) 0 (S i) - thr * Qnat (closes_below closes i))).
Proof.
  intro H. pose proof (dollar_inv p v thr (length p - 1)) as I.
  unfold dollar_bar_indexer, dollar_bar_run. fold (dol p v 0).
  destruct (fold_left (dollar_step p v thr) (seq 1 (length p - 1)) ([0%nat], dol p v 0)) as [idx cum].
  replace (S (length p - 1)) with (length p) in I by lia. simpl. exact I.
Qed.

Lemma closes_below_S l i : closes_below l (S i) =
  (closes_below l i + (if (1 <=? i)%nat then count_occ Nat.eq_dec l i else 0))%nat.
Proof.
  unfold closes_below. induction l as [|c l IH]; cbn [filter length count_occ].
  - destruct (1 <=? i)%nat; reflexivity.
  - destruct (Nat.eq_dec c i) as [->|Hne].
    + destruct (Nat.leb_spec 1 i), (Nat.ltb_spec i (S i)), (Nat.ltb_spec i i); cbn [andb length] in *; lia.
    + destruct (Nat.leb_spec 1 c), (Nat.ltb_spec c (S i)), (Nat.ltb_spec c i); cbn [andb length] in *; lia.
Qed.

Lemma dollar_sorted p v thr : StronglySorted lt (dollar_bar_indexer p v thr) /\
  hd_error (dollar_bar_indexer p v thr) = Some 0%nat.
Proof.
  unfold dollar_bar_indexer, dollar_bar_run.
  destruct (idx_fold_sorted (dollar_step p v thr) fst (dollar_app p v thr) 1 (length p - 1)
              ([0%nat], (nth 0 p 0 * nth 0 v 0))) as [e [E [Hs Hr]]].
  rewrite E. simpl. split; [|reflexivity]. constructor; auto.
  apply Forall_forall. intros x Hx. apply Hr in Hx. lia.
Qed.

Lemma count_occ_strict l i : StronglySorted lt l -> (count_occ Nat.eq_dec l i <= 1)%nat.
Proof.
  induction 1 as [|a l Hs IH Ha]; simpl; [lia|].
  destruct (Nat.eq_dec a i) as [->|]; [|lia].
  assert (count_occ Nat.eq_dec l i = 0)%nat; [|lia].
  apply count_occ_not_In. intro Hin. rewrite Forall_forall in Ha. apply Ha in Hin. lia.
Qed.

(** With non-negative dollars the residual after every trade is non-negative. *)
Lemma dollar_residual_nonneg p v thr i : (1 <= length p)%nat ->
  (forall k, 0 <= dol p v k) -> (i < length p)%nat ->
  0 <= ssum (dol p v) 0 (S i) - thr * Qnat (closes_below (dollar_bar_indexer p v thr) (S i)).
Proof.
  intros Hp Hd. pose proof (dollar_char p v thr Hp) as [_ [Hr Hc]]. cbv zeta in *.
  destruct (dollar_sorted p v thr) as [Hs Hh].
  set (cl := dollar_bar_indexer p v thr) in *.
  induction i as [|i IH]; intro Hi.
  - assert (closes_below cl 1 = 0)%nat as ->.
    { unfold closes_below. replace (filter _ cl) with (@nil nat); [reflexivity|].
      symmetry. clear -cl. induction cl as [|c l IH]; cbn [filter]; [reflexivity|].
      destruct (Nat.leb_spec 1 c), (Nat.ltb_spec c 1); cbn [andb]; try lia; apply IH. }
    assert (0 <= ssum (dol p v) 0 1) by (apply ssum_nonneg; intros; apply Hd).
    change (Qnat 0) with 0. lra.
  - specialize (IH ltac:(lia)). rewrite closes_below_S. simpl (1 <=? S i)%nat. cbv iota.
    pose proof (Hc (S i) ltac:(lia)) as Hci.
    pose proof (Hd (S i)) as Hdi.
    destruct (in_dec Nat.eq_dec (S i) cl) as [Hin|Hnin].
    + assert (count_occ Nat.eq_dec cl (S i) = 1)%nat as ->.
      { pose proof (count_occ_strict cl (S i) Hs). apply (count_occ_In Nat.eq_dec) in Hin. lia. }
      rewrite Qnat_plus. change (Qnat 1) with 1. apply Hci in Hin. lra.
    + apply (count_occ_not_In Nat.eq_dec) in Hnin. rewrite Hnin, Nat.add_0_r.
      rewrite ssum_snoc by lia. lra.
Qed.

Lemma dollar_prefix p v m thr : (1 <= m <= length p)%nat ->
  filter (fun i => i <? m)%nat (dollar_bar_indexer p v thr)
  = dollar_bar_indexer (firstn m p) (firstn m v) thr.
Proof.
  intro H. unfold dollar_bar_indexer, dollar_bar_run.
  rewrite firstn_length. replace (Nat.min m (length p)) with m by lia.
  apply (prefix_law (dollar_step p v thr) fst (dollar_step (firstn m p) (firstn m v) thr) fst eq_refl 1 (length p - 1) m); try lia.
  - intros. apply dollar_app.
  - simpl. intros i [<-|[]]. lia.
  - rewrite !nth_firstn by lia. f_equal. apply fold_left_ext. intros s i Hi. apply in_seq in Hi.
    unfold dollar_step. destruct s. rewrite !nth_firstn by lia. reflexivity.
Qed.
