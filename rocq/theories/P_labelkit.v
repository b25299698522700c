(** P_labelkit.v -- proofs about event selection. *)
From Verif Require Import Base M_tbm S_tbm P_tbm M_labelkit.
Open Scope Q_scope.

Lemma drop_trailing_spec ts times vert kept : drop_trailing ts times vert = Ok kept ->
  StronglySorted lt kept /\
  forall k, In k kept <-> (k < length times)%nat /\ (nth k times 0 + vert <= last ts 0)%Z.
Proof.
  unfold drop_trailing. destruct ts as [|x l]; [discriminate|]. intro H. inversion H; subst; clear H. split.
  - generalize 0%nat at 1 as s. induction (length times) as [|m IH]; intro s; simpl; [constructor|].
    assert (Hf : Forall (lt s) (filter (fun k => (nth k times 0 + vert <=? last (x :: l) 0)%Z) (seq (S s) m))).
    { apply Forall_forall. intros y Hy. apply filter_In in Hy. destruct Hy as [Hy _]. apply in_seq in Hy. lia. }
    destruct (_ <=? _)%Z; [constructor; auto|auto].
  - intro k. rewrite filter_In, in_seq, Z.leb_le. intuition lia.
Qed.

Lemma event_index_spec ts t : ascZ ts -> ts <> [] -> (t <= last ts 0)%Z ->
  (event_index ts t < length ts)%nat /\ (t <= nth (event_index ts t) ts 0)%Z /\
  forall j, (j < event_index ts t)%nat -> (nth j ts 0 < t)%Z.
Proof.
  intros Ha Hne Hl. unfold event_index.
  assert (Hlt : (ss_left ts t < length ts)%nat).
  { destruct (le_lt_dec (length ts) (ss_left ts t)); [|auto]. exfalso.
    assert (0 < length ts)%nat by (destruct ts; [contradiction|simpl; lia]).
    pose proof (ss_left_lt ts t (length ts - 1) ltac:(lia)) as H1.
    destruct (exists_last Hne) as [l' [x E]]. rewrite E in *. rewrite last_last in Hl.
    rewrite app_length in H1. simpl in H1. rewrite app_nth2 in H1 by lia.
    replace (length l' + 1 - 1 - length l')%nat with 0%nat in H1 by lia. simpl in H1. lia. }
  split; [auto|]. split; [apply ss_left_ge; auto|]. apply ss_left_lt.
Qed.

Lemma combine_nth_lt {A B} (la : list A) (lb : list B) k a b :
  length la = length lb -> nth k (combine la lb) (a, b) = (nth k la a, nth k lb b).
Proof. apply combine_nth. Qed.

Section CL.
  Variables (ln : Q -> Q) (rnd : Z -> Z).
  Hypothesis Hr : monotone rnd.
  Variables (ts : list Z) (price : list Q) (times : list Z) (targets : list Q) (bottom top : ext)
    (vert mc : Z) (sides : option (list Z)) (min_ret : Q) (outs : list (nat * nat * tbm_out)).
  Hypothesis Hok : compute_labels ln rnd ts price times targets bottom top vert mc sides min_ret = Ok outs.
  Hypothesis Hts : ascZ ts.

  Lemma cl_rows : exists kept tb,
    drop_trailing ts times vert = Ok kept /\
    triple_barrier ln rnd ts price (map (fun k => event_index ts (nth k times 0%Z)) kept)
      (map (fun k => nth k targets 0) kept) bottom top (Some vert) mc
      (option_map (fun l => map (fun k => nth k l 0%Z) kept) sides) min_ret = Ok tb /\
    length tb = length kept /\ map (fun o => fst (fst o)) outs = kept /\
    map (fun o => snd (fst o)) outs = map (fun k => event_index ts (nth k times 0%Z)) kept /\
    map snd outs = tb.
  Proof.
    unfold compute_labels in Hok. destruct (drop_trailing ts times vert) as [kept|] eqn:E; [|discriminate].
    set (evs := map _ kept) in *.
    destruct (triple_barrier _ _ _ _ _ _ _ _ _ _ _ _) as [tb|] eqn:E2; [|discriminate].
    inversion Hok; subst outs; clear Hok. exists kept, tb. split; [reflexivity|]. split; [exact E2|].
    destruct (tb_nth _ _ _ _ _ _ _ _ _ _ _ _ _ 0%nat dflt E2) as [Hl _].
    assert (Le : length evs = length kept) by (unfold evs; apply map_length).
    assert (Lc : length (combine kept evs) = length kept) by (rewrite combine_length; lia).
    split; [lia|].
    assert (Hsp : forall {A B} (la : list A) (lb : list B), length la = length lb ->
              map fst (combine la lb) = la /\ map snd (combine la lb) = lb).
    { clear. induction la as [|a la IH]; intros [|b lb] H; simpl in *; try discriminate; auto.
      destruct (IH lb ltac:(lia)) as [-> ->]. auto. }
    destruct (Hsp _ _ (combine kept evs) tb ltac:(lia)) as [F1 F2].
    destruct (Hsp _ _ kept evs ltac:(lia)) as [F3 F4].
    split; [|split].
    - rewrite <- (map_map fst fst), F1. exact F3.
    - rewrite <- (map_map fst snd), F1. exact F4.
    - exact F2.
  Qed.

  Lemma cl_main :
    StronglySorted lt (map (fun o => fst (fst o)) outs) /\
    (forall k, In k (map (fun o => fst (fst o)) outs) <->
       (k < length times)%nat /\ (nth k times 0 + vert <= last ts 0)%Z) /\
    (forall k e o, In (k, e, o) outs ->
       (e < length ts)%nat /\ (nth k times 0 <= nth e ts 0)%Z /\ forall j, (j < e)%nat -> (nth j ts 0 < nth k times 0)%Z).
  Proof.
    destruct cl_rows as [kept [tb [E1 [E2 [E3 [E4 [E5 E6]]]]]]].
    destruct (drop_trailing_spec _ _ _ _ E1) as [S1 S2]. rewrite E4. split; [auto|]. split; [auto|].
    intros k e o Hin.
    assert (Hv : (0 < vert)%Z).
    { destruct (Z_lt_le_dec 0 vert) as [H|H]; auto. exfalso.
      assert (triple_barrier ln rnd ts price (map (fun k => event_index ts (nth k times 0%Z)) kept)
      (map (fun k => nth k targets 0) kept) bottom top (Some vert) mc
      (option_map (fun l => map (fun k => nth k l 0%Z) kept) sides) min_ret = Raise ValueError).
      { apply tb_raise_iff. left. eauto. } congruence. }
    assert (Hts0 : ts <> []) by (intros ->; discriminate).
    destruct (In_nth _ _ (0%nat, 0%nat, dflt) Hin) as [i [Hi Ei]].
    assert (Hk : nth i kept 0%nat = k).
    { rewrite <- E4. change 0%nat with ((fun o => fst (fst o)) (0%nat, 0%nat, dflt)). rewrite map_nth, Ei. reflexivity. }
    assert (Li : (i < length kept)%nat) by (rewrite <- E4, map_length; auto).
    assert (He : e = event_index ts (nth k times 0%Z)).
    { assert (nth i (map (fun o => snd (fst o)) outs) 0%nat = e).
      { change 0%nat with ((fun o : nat * nat * tbm_out => snd (fst o)) (0%nat, 0%nat, dflt)). rewrite map_nth, Ei. reflexivity. }
      rewrite E5 in H. rewrite <- H.
      rewrite (nth_indep _ 0%nat (event_index ts (nth 0 times 0%Z))) by (rewrite map_length; auto).
      rewrite (map_nth (fun k => event_index ts (nth k times 0%Z))). now rewrite Hk. }
    assert (Hin' : In k kept) by (rewrite <- Hk; now apply nth_In).
    apply S2 in Hin'. subst e. apply event_index_spec; auto. lia.
  Qed.

  (** Labelled iff another record lies inside the window counted from the event's record. *)
  Lemma cl_labelled k e o : In (k, e, o) outs ->
    (tb_touch o <> None <-> exists j, (e < j < length ts)%nat /\ (rnd (nth j ts 0) <= rnd (rnd (nth e ts 0) + vert))%Z).
  Proof.
    intro Hin. destruct (cl_main) as [_ [_ Hm]]. destruct (Hm k e o Hin) as [He _].
    destruct cl_rows as [kept [tb [E1 [E2 [E3 [E4 [E5 E6]]]]]]].
    destruct (In_nth _ _ (0%nat, 0%nat, dflt) Hin) as [i [Hi Ei]].
    assert (Li : (i < length (map (fun k => event_index ts (nth k times 0%Z)) kept))%nat).
    { rewrite <- E5, map_length. auto. }
    assert (He' : nth i (map (fun k => event_index ts (nth k times 0%Z)) kept) 0%nat = e).
    { rewrite <- E5. change 0%nat with ((fun o : nat * nat * tbm_out => snd (fst o)) (0%nat, 0%nat, dflt)). rewrite map_nth, Ei. reflexivity. }
    assert (Ho : nth i tb dflt = o).
    { rewrite <- E6. change dflt with (snd (0%nat, 0%nat, dflt)) at 1. rewrite map_nth, Ei. reflexivity. }
    destruct (tb_nth _ _ _ _ _ _ _ _ _ _ _ _ _ i dflt E2) as [_ Hn]. specialize (Hn Li). rewrite Ho, He' in Hn.
    rewrite Hn. unfold tbm_event, tbm_t1_idx.
    assert (Hasc : ascZ (map rnd ts)).
    { intros a b Hab. rewrite map_length in Hab.
      rewrite !(nth_indep _ 0%Z (rnd 0%Z)) by (rewrite map_length; lia). rewrite !map_nth. apply Hr, Hts. lia. }
    set (q := ss_right (map rnd ts) (rnd (rnd (nth e ts 0%Z) + vert)%Z)).
    assert (Hq : forall j, (j < length ts)%nat -> ((j < q)%nat <-> (rnd (nth j ts 0) <= rnd (rnd (nth e ts 0%Z) + vert)%Z)%Z)).
    { intros j Hj. assert (Ej : nth j (map rnd ts) 0%Z = rnd (nth j ts 0%Z)).
      { rewrite (nth_indep _ 0%Z (rnd 0%Z)) by (rewrite map_length; lia). now rewrite map_nth. }
      split; intro H.
      - pose proof (ss_right_lt (map rnd ts) (rnd (rnd (nth e ts 0%Z) + vert)%Z) j H). lia.
      - destruct (le_lt_dec q j) as [G|G]; [|auto]. exfalso.
        pose proof (ss_right_ge (map rnd ts) (rnd (rnd (nth e ts 0%Z) + vert)%Z) j Hasc) as X. rewrite map_length in X.
        specialize (X ltac:(unfold q in G; lia)). lia. }
    assert (Hql : (q <= length ts)%nat) by (unfold q; pose proof (ss_right_le (map rnd ts) (rnd (rnd (nth e ts 0%Z) + vert)%Z)); rewrite map_length in *; lia).
    destruct (Z.leb_spec (Z.of_nat q - 1) (Z.of_nat e)) as [G|G].
    - cbn [tb_touch]. split; [congruence|]. intros [j [Hj Hw]]. exfalso. apply Hq in Hw; lia.
    - match goal with |- context [tbm_scan ?a ?b ?c ?d ?e0 ?f ?g ?h ?i0 ?j0 ?k0 ?l0 ?m0] => destruct (tbm_scan a b c d e0 f g h i0 j0 k0 l0 m0) as [[[? ?] ?] ?] end.
      cbn [tb_touch]. split; [intros _|discriminate]. exists (S e). split; [lia|]. apply Hq; lia.
  Qed.
End CL.

(** ** Preprocessing *)
Lemma first_valid_spec col i : first_valid col = Some i <->
  (i < length col)%nat /\ nth i col None <> None /\ forall j, (j < i)%nat -> nth j col None = None.
Proof.
  revert i. induction col as [|[x|] col IH]; intro i; simpl.
  - split; [discriminate|lia].
  - split.
    + intro H; inversion H; subst. split; [lia|]. split; [discriminate|lia].
    + intros [_ [_ H]]. destruct i; [auto|]. specialize (H 0%nat ltac:(lia)). discriminate.
  - split.
    + destruct (first_valid col) as [k|] eqn:E; [|discriminate]. intro H; inversion H; subst.
      destruct (proj1 (IH k) eq_refl) as [H1 [H2 H3]]. split; [lia|]. split; [auto|].
      intros [|j] Hj; [auto|]. apply H3. lia.
    + intros [H1 [H2 H3]]. destruct i as [|i]; [congruence|].
      rewrite (proj2 (IH i)); [reflexivity|]. split; [lia|]. split; [auto|]. intros j Hj. apply (H3 (S j)). lia.
Qed.
Lemma first_valid_none col : first_valid col = None <-> forall i, (i < length col)%nat -> nth i col None = None.
Proof.
  induction col as [|[x|] col IH]; simpl.
  - split; [intros; lia|auto].
  - split; [discriminate|]. intro H. specialize (H 0%nat ltac:(lia)). discriminate.
  - destruct (first_valid col) as [k|] eqn:E; simpl.
    + split; [discriminate|]. intro H. exfalso. apply first_valid_spec in E. destruct E as [E1 [E2 _]].
      apply E2. apply (H (S k)). lia.
    + split; [|auto]. intros _ [|i] Hi; [auto|]. apply IH; [auto|lia].
Qed.

(** Row i is at or after the first valid entry of every column that has one. *)
Definition started (cols : list (list (option Q))) (i : nat) : Prop :=
  forall c, In c cols -> (forall j, (j < length c)%nat -> nth j c None = None) \/
    exists j, (j <= i)%nat /\ (j < length c)%nat /\ nth j c None <> None.

Lemma fold_max_le l m i : (fold_left Nat.max l m <= i)%nat <-> (m <= i)%nat /\ forall x, In x l -> (x <= i)%nat.
Proof.
  revert m. induction l as [|y l IH]; intro m; simpl.
  - intuition.
  - rewrite IH. split.
    + intros [H1 H2]. split; [lia|]. intros x [<-|Hx]; [lia|auto].
    + intros [H1 H2]. split; [|auto]. specialize (H2 y (or_introl eq_refl)). lia.
Qed.

Lemma firsts_in cols x :
  In x (concat (map (fun c => match first_valid c with Some i => [i] | None => [] end) cols)) <->
  exists c, In c cols /\ first_valid c = Some x.
Proof.
  rewrite in_concat. split.
  - intros [l [Hl Hx]]. apply in_map_iff in Hl. destruct Hl as [c [<- Hc]]. exists c. split; [auto|].
    destruct (first_valid c); simpl in Hx; [destruct Hx as [->|[]]; auto|contradiction].
  - intros [c [Hc E]]. exists [x]. split; [|simpl; auto]. apply in_map_iff. exists c. rewrite E. auto.
Qed.

Lemma started_iff cols i :
  (fold_left Nat.max (concat (map (fun c => match first_valid c with Some i => [i] | None => [] end) cols)) 0 <= i)%nat
  <-> started cols i.
Proof.
  rewrite fold_max_le. split.
  - intros [_ H] c Hc. destruct (first_valid c) as [k|] eqn:E.
    + right. exists k. split; [apply H, firsts_in; eauto|]. apply first_valid_spec in E. tauto.
    + left. now apply first_valid_none.
  - intro H. split; [lia|]. intros x Hx. apply firsts_in in Hx. destruct Hx as [c [Hc E]].
    apply first_valid_spec in E. destruct E as [E1 [E2 E3]].
    destruct (H c Hc) as [N|[j [Hj [Hl Hn]]]]; [exfalso; apply E2, N; auto|].
    destruct (le_lt_dec x j); [lia|]. exfalso. apply Hn, E3. auto.
Qed.

Lemma preprocess_ok cols target min_ret bottom top kept :
  preprocess_features cols target min_ret bottom top = Ok kept ->
  StronglySorted lt kept /\ kept <> [] /\
  forall i, In i kept <-> (i < length target)%nat /\ started cols i /\
    target_ok min_ret (emax bottom top) (nth i target None) = true.
Proof.
  unfold preprocess_features. pose proof (started_iff cols) as Hst.
  destruct (concat _) as [|x l] eqn:E; [discriminate|].
  set (start := fold_left Nat.max (x :: l) 0%nat) in *.
  set (kp := filter _ _). destruct (Nat.eqb_spec (length kp) 0); [discriminate|].
  destruct (existsb _ _); [discriminate|]. intro H; inversion H; subst kept; clear H.
  split; [|split].
  - unfold kp. generalize (length target - start)%nat as m. intro m. generalize start as s.
    induction m as [|m IH]; intro s; simpl; [constructor|].
    set (f := fun i => target_ok _ _ _) in *.
    assert (Hf : Forall (lt s) (filter f (seq (S s) m))).
    { apply Forall_forall. intros y Hy. apply filter_In in Hy. destruct Hy as [Hy _]. apply in_seq in Hy. lia. }
    change (target_ok min_ret (emax bottom top) (nth s target None)) with (f s). destruct (f s); [constructor; auto|auto].
  - intro Hk. apply n. now rewrite Hk.
  - intro i. unfold kp. rewrite filter_In, in_seq. rewrite <- Hst. fold start. intuition lia.
Qed.
Lemma preprocess_raise cols target min_ret bottom top e :
  preprocess_features cols target min_ret bottom top = Raise e ->
  e = ValueError /\
  ((forall c i, In c cols -> (i < length c)%nat -> nth i c None = None) \/
   forall i, (i < length target)%nat -> started cols i ->
     target_ok min_ret (emax bottom top) (nth i target None) = false).
Proof.
  unfold preprocess_features. pose proof (started_iff cols) as Hst. pose proof (firsts_in cols) as Hin.
  destruct (concat _) as [|x l] eqn:E.
  { intro H; inversion H; split; auto. left. intros c i Hc Hi.
    destruct (first_valid c) as [k|] eqn:Ek; [exfalso; apply (Hin k); eauto|].
    now apply (proj1 (first_valid_none c) Ek). }
  set (start := fold_left Nat.max (x :: l) 0%nat) in *.
  set (kp := filter _ _). destruct (Nat.eqb_spec (length kp) 0) as [Z0|NZ].
  - intro H; inversion H; split; auto. right. intros i Hi Hs. apply Hst in Hs. fold start in Hs.
    destruct (target_ok min_ret (emax bottom top) (nth i target None)) eqn:T; auto. exfalso.
    assert (In i kp) by (apply filter_In; split; [apply in_seq; lia|auto]).
    destruct kp; [contradiction|discriminate].
  - destruct (existsb _ _) eqn:X; [|discriminate]. exfalso. apply existsb_exists in X. destruct X as [i [Hi N]].
    apply filter_In in Hi. destruct Hi as [_ Hi]. destruct (nth i target None); discriminate.
Qed.
