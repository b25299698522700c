(** P_sampling.v -- proofs about the CUSUM filter. *)
From Verif Require Import Base M_logic M_sampling S_logic P_cusum P_logic P_cusumbar.
Open Scope Q_scope.

Section Filter.
  Variable ln : Q -> Q.
  Variables (xs : list Q) (thr : list (option Q)).

  Definition flt_dec (i : nat) (p q : Q) : option bool :=
    match nth i thr None with
    | None => None
    | Some t => if Qltb q (- t) then Some false else if Qltb t p then Some true else None
    end.
  Lemma flt_step_g g i :
    cusum_filter_step ln xs thr (g2c g) i = g2c (gstep (log_ret ln xs) flt_dec g i).
  Proof.
    unfold cusum_filter_step, gstep, flt_dec, g2c. simpl.
    destruct (nth i thr None) as [t|]; [|reflexivity].
    destruct (Qltb _ (- t)); [reflexivity|]. destruct (Qltb t _); reflexivity.
  Qed.
  Lemma flt_fold_g l g :
    fold_left (cusum_filter_step ln xs thr) l (g2c g) =
    g2c (fold_left (gstep (log_ret ln xs) flt_dec) l g).
  Proof. revert g. induction l as [|x l IH]; simpl; intro g; [reflexivity|]. now rewrite flt_step_g, IH. Qed.

  Lemma flt_dec_spec i p q t : nth i thr None = Some t ->
    (flt_dec i p q = Some false <-> q < - t) /\
    (flt_dec i p q = Some true <-> ~ q < - t /\ t < p).
  Proof.
    intro E. unfold flt_dec. rewrite E.
    destruct (Qltb_spec q (- t)); [split; split; try discriminate; tauto|].
    destruct (Qltb_spec t p).
    - split; split; try discriminate; try (intros; lra). intros _. split; lra.
    - split; split; try discriminate; intros; lra.
  Qed.
End Filter.

Lemma cusum_filter_inner ln xs thr :
  (2 <= length xs)%nat -> (forall i t, nth i thr None = Some t -> 0 <= t) ->
  cusum_events (fun i => ln (nth i xs 0 / nth (i - 1) xs 0)) 0 (length xs)
    (fun _ => True)
    (fun i x => exists t, nth i thr None = Some t /\ x < - t)
    (fun i x => exists t, nth i thr None = Some t /\ t < x)
    (cs_idx (fold_left (cusum_filter_step ln xs thr) (seq 1 (length xs - 1)) (mkCS [] 0 0))).
Proof.
  intros Hn Ht. set (n := length xs) in *.
  change (mkCS [] 0 0) with (g2c (mkG [] 0 0)). rewrite flt_fold_g. unfold g2c. simpl cs_idx.
  destruct (grun_inv (log_ret ln xs) (flt_dec thr) [] 0 (n - 1)) as [ups [dns G]].
  unfold grun in G. replace (1 + (n - 1))%nat with n in G by lia.
  destruct G as [Hu Hd _ _ Hdec [evs [Eidx [Hsort Hevs]]]].
  rewrite Eidx. simpl app. exists dns, ups.
  split; [exact Hsort|]. split; [intro i; rewrite Hevs; tauto|]. split.
  { intros i H. apply Hevs in H. destruct H as [H|H]; [apply Hu in H|apply Hd in H]; lia. }
  intros i Hi. change (fun i => ln (nth i xs 0 / nth (i - 1) xs 0)) with (log_ret ln xs).
  destruct (Hdec i Hi) as [p [q [Hp [Hq [U D]]]]].
  destruct (nth i thr None) as [t|] eqn:E.
  - destruct (flt_dec_spec ln thr i p q t E) as [D' U'].
    assert (H0 : 0 <= t) by eauto.
    assert (Hlo : run_ending (log_ret ln xs) (last_before dns 0 i) i
        (fun x => exists t0, Some t = Some t0 /\ x < - t0) <-> q < - t).
    { rewrite (minrun_lt _ _ _ _ _ H0 Hq). apply run_ending_ext. intro x. split.
      - intros [s' [Hk' H]]. inversion Hk'; subst. exact H.
      - intro H. eauto. }
    assert (Hhi : run_ending (log_ret ln xs) (last_before ups 0 i) i
        (fun x => exists t0, Some t = Some t0 /\ t0 < x) <-> t < p).
    { rewrite (maxrun_gt _ _ _ _ _ H0 Hp). apply run_ending_ext. intro x. split.
      - intros [s' [Hk' H]]. inversion Hk'; subst. exact H.
      - intro H. eauto. }
    rewrite Hlo, Hhi, U, D, D', U'. tauto.
  - unfold flt_dec in U, D. rewrite E in U, D. split.
    + rewrite D. split; [discriminate|]. intros [_ [j [_ [t [H _]]]]]. discriminate.
    + rewrite U. split; [discriminate|]. intros [_ [_ [j [_ [t [H _]]]]]]. discriminate.
Qed.

Lemma expand_nth n t i : (i < n)%nat -> nth i (repeat t n) (@None Q) = t.
Proof. revert i. induction n as [|n IH]; intros i H; [lia|]. destruct i; simpl; [reflexivity|]. apply IH. lia. Qed.

Lemma cusum_filter_full ln xs thr evs :
  (forall t, In (Some t) thr -> 0 <= t) ->
  cusum_filter ln xs thr = Ok evs ->
  cusum_events (fun i => ln (nth i xs 0 / nth (i - 1) xs 0)) 0 (length xs)
    (fun _ => True)
    (fun i x => exists t, nth (if (length thr =? 1)%nat then 0%nat else i) thr None = Some t /\ x < - t)
    (fun i x => exists t, nth (if (length thr =? 1)%nat then 0%nat else i) thr None = Some t /\ t < x)
    evs.
Proof.
  intros Ht. unfold cusum_filter.
  destruct (Nat.leb_spec (length xs) 1); [discriminate|].
  destruct (negb (length thr =? 1)%nat && negb (length thr =? length xs)%nat)%bool; [discriminate|].
  intro E. inversion E as [E']. clear E.
  set (thr' := expand_threshold (length xs) thr) in *.
  assert (Hnth : forall i, (i < length xs)%nat ->
     nth i thr' None = nth (if (length thr =? 1)%nat then 0%nat else i) thr None).
  { intros i Hi. unfold thr', expand_threshold. destruct thr as [|t [|t' l]]; try reflexivity.
    simpl. apply expand_nth. assumption. }
  assert (Hpos : forall i t, nth i thr' None = Some t -> 0 <= t).
  { intros i t Hi. destruct (Nat.lt_ge_cases i (length xs)) as [C|C].
    - rewrite Hnth in Hi by assumption. apply Ht.
      destruct (Nat.lt_ge_cases (if (length thr =? 1)%nat then 0%nat else i) (length thr)) as [D|D].
      + rewrite <- Hi. apply nth_In. exact D.
      + rewrite nth_overflow in Hi by exact D. discriminate.
    - unfold thr', expand_threshold in Hi. destruct thr as [|t0 [|t1 l]].
      + destruct i; discriminate.
      + rewrite nth_overflow in Hi; [discriminate|]. rewrite repeat_length. lia.
      + apply Ht. destruct (Nat.lt_ge_cases i (length (t0 :: t1 :: l))) as [D|D].
        * rewrite <- Hi. apply nth_In. exact D.
        * rewrite nth_overflow in Hi by exact D. discriminate. }
  pose proof (cusum_filter_inner ln xs thr' ltac:(lia) Hpos) as [ups [dns [H1 [H2 [H3 H4]]]]].
  exists ups, dns. split; [exact H1|]. split; [exact H2|]. split; [exact H3|].
  intros i Hi. specialize (H4 i Hi). rewrite <- (Hnth i) by lia. exact H4.
Qed.

Lemma cusum_filter_expand ln xs t :
  cusum_filter ln xs [t] = cusum_filter ln xs (repeat t (length xs)).
Proof.
  unfold cusum_filter. destruct (Nat.leb_spec (length xs) 1) as [|H]; [reflexivity|].
  assert (E2 : (negb (length (repeat t (length xs)) =? 1) && negb (length (repeat t (length xs)) =? length xs))%nat%bool = false).
  { rewrite repeat_length, Nat.eqb_refl. apply andb_false_r. }
  rewrite E2. change (length [t] =? 1)%nat with true. cbn [negb andb]. cbv iota.
  assert (E : expand_threshold (length xs) (repeat t (length xs)) = repeat t (length xs)).
  { destruct (length xs) as [|[|n]]; try lia. reflexivity. }
  rewrite E. reflexivity.
Qed.

Lemma cusum_filter_raises ln xs thr :
  (cusum_filter ln xs thr = Raise ValueError <->
     (length xs < 2)%nat \/ (length thr <> 1%nat /\ length thr <> length xs)) /\
  ((exists e, cusum_filter ln xs thr = Raise e) -> cusum_filter ln xs thr = Raise ValueError).
Proof.
  unfold cusum_filter. destruct (Nat.leb_spec (length xs) 1).
  - split; [|reflexivity]. split; [left; lia|reflexivity].
  - destruct (Nat.eqb_spec (length thr) 1), (Nat.eqb_spec (length thr) (length xs)); cbn [negb andb]; cbv iota;
      (split; [split; [intro; try discriminate; try (right; auto; fail)|intros [?|?]; try reflexivity; lia]
              |try reflexivity; intros [ee He]; discriminate]).
Qed.

Lemma flt_app ln xs thr s i :
  cs_idx (cusum_filter_step ln xs thr s i) = cs_idx s \/
  cs_idx (cusum_filter_step ln xs thr s i) = cs_idx s ++ [i].
Proof.
  unfold cusum_filter_step. destruct (nth i thr None); simpl; auto.
  destruct (Qltb _ _); simpl; auto. destruct (Qltb _ _); simpl; auto.
Qed.

Lemma cusum_filter_prefix ln xs thr m evs :
  length thr = length xs -> (2 <= m <= length xs)%nat ->
  cusum_filter ln xs thr = Ok evs ->
  cusum_filter ln (firstn m xs) (firstn m thr) = Ok (filter (fun i => i <? m)%nat evs).
Proof.
  intros Hl Hm. unfold cusum_filter. rewrite !firstn_length, Hl.
  replace (Nat.min m (length xs)) with m by lia.
  destruct (Nat.leb_spec (length xs) 1); [lia|]. destruct (Nat.leb_spec m 1); [lia|].
  rewrite !Nat.eqb_refl. cbn [negb]. rewrite !andb_false_r. intro E. inversion E as [E']. f_equal. symmetry.
  assert (Hx : forall l : list (option Q), (length l <> 1)%nat -> forall n, expand_threshold n l = l).
  { intros [|a [|b l]] Hne n; simpl in *; try reflexivity. lia. }
  rewrite !Hx by (rewrite ?firstn_length; lia).
  apply (prefix_law (cusum_filter_step ln xs thr) cs_idx
     (cusum_filter_step ln (firstn m xs) (firstn m thr)) cs_idx eq_refl 1 (length xs - 1) m); try lia.
  - intros. apply flt_app.
  - simpl. tauto.
  - f_equal. apply fold_left_ext. intros s i Hi. apply in_seq in Hi.
    unfold cusum_filter_step, log_ret. rewrite !nth_firstn by lia. reflexivity.
Qed.
