(** P_weights3.v -- final sample weights. *)
From Verif Require Import Base M_weights S_weights P_weights P_weights2.
Open Scope Q_scope.

Lemma osum_some l : (forall x, In x l -> x <> None) ->
  exists s, osum l = Some s /\ s == qsum (map (fun c => match c with Some x => x | None => 0 end) l).
Proof.
  induction l as [|x l IH]; intro H; simpl.
  - exists 0. split; reflexivity.
  - destruct x as [a|]; [|exfalso; apply (H None); simpl; auto].
    destruct IH as [s [E Es]]; [intros y Hy; apply H; simpl; auto|]. rewrite E.
    exists (a + s). split; [reflexivity|]. rewrite Es. reflexivity.
Qed.
Lemma osum_none l : In None l -> osum l = None.
Proof.
  induction l as [|x l IH]; simpl; [tauto|]. intros [->|H]; [reflexivity|]. rewrite IH by auto. now destruct x.
Qed.

Definition oval (c : option Q) : Q := match c with Some x => x | None => 0 end.
(** Information part (kit.py L435-447) and vertical part. *)
Definition info_part (u : list Q) (attr : option (list Q)) (i : nat) : Q :=
  match attr with Some a => nth i a 0 | None => nth i u 0 end.
Definition vert_part (vert : option (list (option Q))) (i : nat) : Q :=
  match vert with Some v => oval (nth i v None) | None => 1 end.

Lemma td_nonempty u c td : time_decay u c = Ok td -> (0 < length u)%nat.
Proof.
  intro H. destruct (td_value u c td H) as [_ [_ [Hs _]]]. destruct u; [exfalso; apply Hs; reflexivity|simpl; lia].
Qed.

Section Final.
  Variables (u : list Q) (c : Q) (attr : option (list Q)) (vert : option (list (option Q))) (labels : option (list Z)).
  Variable ws : list (option Q).
  Hypothesis Hok : compute_final_weights u c attr vert labels = Ok ws.

  Lemma guards : (forall a, attr = Some a -> length a = length u /\ 0 < qsum a) /\
    (forall v, vert = Some v -> length v = length u) /\ (forall l, labels = Some l -> length l = length u) /\
    exists td, time_decay u c = Ok td.
  Proof.
    unfold compute_final_weights in Hok.
    destruct (negb _); [discriminate|].
    destruct (match attr with Some a => negb (length a =? length u)%nat | None => false end) eqn:E1; [discriminate|].
    destruct (match vert with Some a => negb (length a =? length u)%nat | None => false end) eqn:E2; [discriminate|].
    destruct (match labels with Some a => negb (length a =? length u)%nat | None => false end) eqn:E3; [discriminate|].
    destruct (time_decay u c) as [td|e]; [|discriminate].
    destruct (match attr with Some a => Qleb (qsum a) 0 | None => false end) eqn:E4; [discriminate|].
    repeat split.
    - intros ; subst. apply negb_false_iff, Nat.eqb_eq in E1. auto.
    - subst. now apply Qleb_false in E4.
    - intros ; subst. apply negb_false_iff, Nat.eqb_eq in E2. auto.
    - intros ; subst. apply negb_false_iff, Nat.eqb_eq in E3. auto.
    - now exists td.
  Qed.

  Variable td : list Q.
  Hypothesis Htd : time_decay u c = Ok td.
  Let raw i := nth i td 0 * info_part u attr i * vert_part vert i.

  Lemma nan_poison : (exists v i, vert = Some v /\ (i < length u)%nat /\ nth i v None = None) -> ws = repeat None (length u).
  Proof.
    intros [v [i [Ev [Hi Hn]]]]. unfold compute_final_weights in Hok.
    destruct (negb _); [discriminate|]. destruct (match attr with Some a => negb (length a =? length u)%nat | None => false end); [discriminate|].
    destruct (match vert with Some a => negb (length a =? length u)%nat | None => false end); [discriminate|].
    destruct (match labels with Some a => negb (length a =? length u)%nat | None => false end); [discriminate|].
    rewrite Htd in Hok.
    destruct (match attr with Some a => Qleb (qsum a) 0 | None => false end); [discriminate|].
    rewrite Ev in Hok. rewrite osum_none in Hok; [inversion Hok; reflexivity|].
    apply in_map_iff. exists i. split; [now rewrite Hn|]. apply in_seq. lia.
  Qed.

  Hypothesis Hnan : forall v i, vert = Some v -> (i < length u)%nat -> nth i v None <> None.

  (** The combined weights are a positive multiple of raw. *)
  Lemma final_base : exists K base, 0 < K /\ length base = length u /\
    (forall i, (i < length u)%nat -> nth i base 0 == raw i / K) /\ qsum base == Qnat (length u) /\
    ws = map Some match labels with Some l => bal_final (class_balance_weights l base) | None => base end.
  Proof.
    destruct guards as [Ga [Gv [Gl _]]]. unfold compute_final_weights in Hok.
    destruct (negb _); [discriminate|]. destruct (match attr with Some a => negb (length a =? length u)%nat | None => false end); [discriminate|].
    destruct (match vert with Some a => negb (length a =? length u)%nat | None => false end); [discriminate|].
    destruct (match labels with Some a => negb (length a =? length u)%nat | None => false end); [discriminate|].
    rewrite Htd in Hok.
    destruct (match attr with Some a => Qleb (qsum a) 0 | None => false end); [discriminate|].
    set (info := match attr with Some a => map (fun x => x * Qnat (length u) / qsum a) a | None => u end) in *.
    set (comb0 := map (fun i => nth i td 0 * nth i info 0) (seq 0 (length u))) in *.
    set (comb := match vert with Some v => map (fun i => omul (Some (nth i comb0 0)) (nth i v None)) (seq 0 (length u))
                 | None => map Some comb0 end) in *.
    assert (Hn : 0 < Qnat (length u)) by (apply Qnat_pos, (td_nonempty u c td Htd)).
    assert (Hinfo : exists J, 0 < J /\ forall i, (i < length u)%nat -> nth i info 0 == info_part u attr i * J).
    { unfold info, info_part. destruct attr as [a|].
      - destruct (Ga a eq_refl) as [La Sa]. exists (Qnat (length u) / qsum a).
        split; [apply Qlt_shift_div_l; lra|]. intros i Hi.
        set (f := fun x => _). rewrite (nth_indep _ 0 (f 0)) by (rewrite map_length; lia). rewrite map_nth. unfold f.
        field. lra.
      - exists 1. split; [lra|]. intros; ring. }
    destruct Hinfo as [J [HJ Hinfo]].
    assert (Hc0 : forall i, (i < length u)%nat -> nth i comb0 0 == nth i td 0 * info_part u attr i * J).
    { intros i Hi. unfold comb0. rewrite nth_map_seq by auto. rewrite Hinfo by auto. ring. }
    assert (Lc : length comb = length u).
    { unfold comb. destruct vert; rewrite ?map_length, ?seq_length; auto. unfold comb0. now rewrite map_length, seq_length. }
    assert (Hc : forall i, (i < length u)%nat -> exists x, nth i comb None = Some x /\ x == raw i * J).
    { intros i Hi. unfold comb, raw, vert_part. destruct vert as [v|].
      - rewrite nth_map_seq by auto. destruct (nth i v None) as [y|] eqn:Ey.
        + exists (nth i comb0 0 * y). split; [reflexivity|]. rewrite Hc0 by auto. simpl oval. ring.
        + exfalso. apply (Hnan v i); auto.
      - exists (nth i comb0 0). split.
        + rewrite (nth_indep _ None (Some 0)) by (rewrite map_length; unfold comb0; rewrite map_length, seq_length; auto).
          now rewrite map_nth.
        + rewrite Hc0 by auto. ring. }
    destruct (osum_some comb) as [s [Es Hs]].
    { intros x Hx. destruct (In_nth _ _ None Hx) as [i [Hi <-]]. destruct (Hc i ltac:(lia)) as [y [-> _]]. discriminate. }
    rewrite Es in Hok.
    destruct (Qleb_spec (s / Qnat (length u)) 0) as [|Hm]; [discriminate|].
    set (base := map (fun c0 => match c0 with Some x => x / (s / Qnat (length u)) | None => 0 end) comb) in *.
    assert (Hs0 : 0 < s).
    { destruct (Qlt_le_dec 0 s); auto. exfalso.
      assert (s / Qnat (length u) <= 0); [|lra]. apply Qle_shift_div_r; lra. }
    exists (s / Qnat (length u) / J), base.
    split; [apply Qlt_shift_div_l; lra|].
    split; [unfold base; now rewrite map_length|]. split.
    { intros i Hi. unfold base. destruct (Hc i Hi) as [x [Ex Hx]].
      set (f := fun c0 : option Q => _). change 0 with (f None) at 1. rewrite map_nth, Ex. unfold f. rewrite Hx.
      field. repeat split; lra. }
    split.
    { unfold base.
      rewrite (qsum_map_ext _ (fun c0 => oval c0 * (/ (s / Qnat (length u))))).
      - rewrite qsum_map_mul_r. setoid_replace (qsum (map oval comb)) with s by (symmetry; exact Hs). field. split; lra.
      - intros x _. destruct x; simpl; [reflexivity|ring]. }
    destruct labels; inversion Hok; reflexivity.
  Qed.

  Lemma final_unlabelled : labels = None ->
    length ws = length u /\
    exists K, 0 < K /\
      (forall i, (i < length u)%nat -> exists w, nth i ws None = Some w /\ w == raw i / K) /\
      qsum (map oval ws) == Qnat (length u).
  Proof.
    intro El. destruct final_base as [K [base [HK [Lb [Hb [Sb Hw]]]]]]. rewrite El in Hw. subst ws.
    split; [now rewrite map_length|]. exists K. split; [auto|]. split.
    - intros i Hi. exists (nth i base 0). split; [|auto].
      rewrite (nth_indep _ None (Some 0)) by (rewrite map_length; lia). now rewrite map_nth.
    - rewrite map_map. simpl. rewrite map_id. exact Sb.
  Qed.

  Lemma final_labelled l : labels = Some l ->
    let rawl := map raw (seq 0 (length u)) in
    length ws = length u /\ (forall i, (i < length u)%nat -> nth i ws None <> None) /\
    let wl := map oval ws in
    (forall k cl, n_distinct l k -> In cl l ->
       class_total l wl cl == if Qltb 0 (class_total l rawl cl) then Qnat (length u) / Qnat k else 0) /\
    ((forall cl, In cl l -> 0 < class_total l rawl cl) -> qsum wl == Qnat (length u)) /\
    (forall i j, (i < length u)%nat -> (j < length u)%nat -> nth i l 0%Z = nth j l 0%Z ->
       nth i wl 0 * raw j == nth j wl 0 * raw i).
  Proof.
    intro El. destruct guards as [_ [_ [Gl _]]]. pose proof (Gl l El) as Ll.
    destruct final_base as [K [base [HK [Lb [Hb [Sb Hw]]]]]]. rewrite El in Hw. intro rawl.
    assert (Lbl : length base = length l) by lia.
    pose proof (bal_len l base) as Lf. cbv zeta in Lf.
    assert (Hwl : map oval ws = bal_final (class_balance_weights l base)).
    { rewrite Hw, map_map. simpl. apply map_id. }
    assert (Hct : forall cl, class_total l base cl == class_total l rawl cl / K).
    { intro cl. unfold class_total.
      transitivity (qsum (map (fun i => nth i rawl 0 * / K) (filter (fun i => (nth i l 0 =? cl)%Z) (seq 0 (length l))))).
      - apply qsum_map_ext. intros i Hi. apply filter_In in Hi. destruct Hi as [Hi _]. apply in_seq in Hi.
        rewrite Hb by lia. unfold rawl. rewrite nth_map_seq by lia. reflexivity.
      - rewrite qsum_map_mul_r. reflexivity. }
    assert (Hpos : forall cl, Qltb 0 (class_total l base cl) = Qltb 0 (class_total l rawl cl)).
    { intro cl. rewrite Hct.
      destruct (Qltb_spec 0 (class_total l rawl cl / K)) as [A|A], (Qltb_spec 0 (class_total l rawl cl)) as [B|B]; auto; exfalso.
      - assert (class_total l rawl cl / K <= 0) by (apply Qle_shift_div_r; lra). lra.
      - assert (0 < class_total l rawl cl / K) by (apply Qlt_shift_div_l; lra). lra. }
    split; [rewrite Hw, map_length; lia|]. split.
    { intros i Hi. rewrite Hw. rewrite (nth_indep _ None (Some 0)) by (rewrite map_length; lia).
      rewrite map_nth. discriminate. }
    cbv zeta. rewrite Hwl. split; [|split].
    - intros k cl Hk Hcl. pose proof (class_final l base Lbl cl Hcl) as Ef. cbv zeta in Ef. rewrite Ef, Hpos.
      pose proof (distinct_unique l k Hk) as Ek. cbv zeta in Ek. rewrite Ek.
      destruct (Qltb 0 (class_total l rawl cl)); [rewrite Sb|]; reflexivity.
    - intro Hall. rewrite <- Sb. apply bal_total; auto.
      + intros cl Hcl. apply Qltb_iff. rewrite Hpos. apply Qltb_iff. auto.
      + pose proof (td_nonempty u c td Htd). intros ->. simpl in Ll. lia.
    - intros i j Hi Hj Eij. pose proof (bal_prop l base Lbl i j ltac:(lia) ltac:(lia) Eij) as Ep. cbv zeta in Ep.
      rewrite !Hb in Ep by auto.
      setoid_replace (raw j) with (raw j / K * K) by (field; lra).
      setoid_replace (raw i) with (raw i / K * K) by (field; lra).
      rewrite !Qmult_assoc. rewrite Ep. reflexivity.
  Qed.
End Final.
