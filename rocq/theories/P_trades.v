(** P_trades.v -- proofs about the trade utilities. *)
From Coq Require Import Qround.
From Verif Require Import Base M_logic M_weights M_footprint M_trades S_trades P_weights P_weights2 P_tbm P_footprint.
Open Scope Q_scope.

(* ---------------------------------------------------------------- tick rule *)
Definition side_inv (prices : list Q) (m : nat) (st : list Z * Z * Q) : Prop :=
  let '(sides, pt, pp) := st in
  length sides = m /\ pp = nth (m - 1) prices 0 /\ last_move prices (m - 1) pt /\
  (forall i, (i < m)%nat -> last_move prices i (nth i sides 0%Z)).

Lemma trade_side_sign p pp pt : let dp := p - pp in
  (1 # 1000000000000 < Qabs dp /\ ((comp_trade_side p pp pt = 1%Z /\ 0 < dp) \/ (comp_trade_side p pp pt = (-1)%Z /\ dp < 0)))
  \/ (Qabs dp <= 1 # 1000000000000 /\ comp_trade_side p pp pt = pt).
Proof.
  cbv zeta. unfold comp_trade_side, eps12. cbv zeta. destruct (Qltb_spec (1 # 1000000000000) (Qabs (p - pp))) as [H|H]; [left|right; auto].
  split; [auto|]. set (dp := p - pp) in *. clearbody dp.
  destruct (Q_dec dp 0) as [[Hn|Hp]|Hz].
  - right. split; [|auto]. apply qsign_neg in Hn. unfold qsign in *. lia.
  - left. split; [|auto]. apply qsign_pos in Hp. unfold qsign in *. lia.
  - exfalso. rewrite Hz in H. simpl in H. lra.
Qed.

Lemma side_loop prices m : (1 <= m)%nat ->
  side_inv prices m (fold_left (side_step prices) (seq 1 (m - 1)) ([0%Z], 0%Z, nth 0 prices 0)).
Proof.
  induction m as [|m IH]; [lia|]. intros _. destruct m as [|m].
  - simpl. repeat split.
    + left. split; [reflexivity|]. intros; lia.
    + intros i Hi. assert (i = 0)%nat by lia. subst. left. split; [reflexivity|]. intros; lia.
  - replace (S (S m) - 1)%nat with (S m) by lia. replace (S m - 1)%nat with m in IH by lia.
    rewrite fold_left_seq_S. specialize (IH ltac:(lia)).
    destruct (fold_left (side_step prices) (seq 1 m) _) as [[sides pt] pp].
    destruct IH as [L [Hpp [Hlm Hall]]]. unfold side_step. replace (1 + m)%nat with (S m) by lia.
    unfold side_inv. replace (S (S m) - 1)%nat with (S m) by lia. replace (S m - 1)%nat with m in * by lia.
    assert (Hnew : last_move prices (S m) (comp_trade_side (nth (S m) prices 0) pp pt)).
    { pose proof (trade_side_sign (nth (S m) prices 0) pp pt) as K. cbv zeta in K. subst pp.
      destruct K as [[K1 K2]|[K1 K2]].
      - right. exists (S m). replace (S m - 1)%nat with m by lia. repeat split; auto; try lia. 
      - rewrite K2. destruct Hlm as [[-> Hl]|[k [Hk [Hk2 [Hk3 Hk4]]]]].
        + left. split; [reflexivity|]. intros k Hk. destruct (Nat.eq_dec k (S m)) as [->|]; [|apply Hl; lia].
          replace (S m - 1)%nat with m by lia. auto.
        + right. exists k. repeat split; auto; try lia. intros k' Hk'.
          destruct (Nat.eq_dec k' (S m)) as [->|]; [|apply Hk4; lia]. replace (S m - 1)%nat with m by lia. auto. }
    split; [rewrite app_length; simpl; lia|]. split; [reflexivity|]. split; [exact Hnew|].
    intros i Hi. destruct (Nat.eq_dec i (S m)) as [->|Hne].
    + rewrite app_nth2 by lia. rewrite L. replace (S m - S m)%nat with 0%nat by lia. exact Hnew.
    + rewrite app_nth1 by lia. apply Hall. lia.
Qed.

Lemma side_vector prices :
  length (comp_trade_side_vector prices) = length prices /\
  forall i, (i < length prices)%nat -> last_move prices i (nth i (comp_trade_side_vector prices) 0%Z).
Proof.
  unfold comp_trade_side_vector. destruct prices as [|p0 prices]; [split; [reflexivity|simpl; intros; lia]|].
  set (l := p0 :: prices). pose proof (side_loop l (length l) ltac:(unfold l; simpl; lia)) as H.
  replace (firstn (length l) [0%Z]) with [0%Z] by (unfold l; simpl; now rewrite firstn_nil).
  destruct (fold_left _ _ _) as [[sides pt] pp]. cbn [fst]. destruct H as [H1 [_ [_ H2]]]. auto.
Qed.

Lemma last_move_unique prices i s s' : last_move prices i s -> last_move prices i s' -> s = s'.
Proof.
  unfold last_move. cbv zeta. intros [[-> H]|[k [Hk [H1 [H2 H3]]]]] [[-> H']|[k' [Hk' [H1' [H2' H3']]]]].
  - reflexivity.
  - specialize (H k' Hk'). lra.
  - specialize (H' k Hk). lra.
  - assert (k = k').
    { destruct (Nat.lt_trichotomy k k') as [L|[E|G]]; [|exact E|].
      - specialize (H3 k' ltac:(lia)). lra.
      - specialize (H3' k ltac:(lia)). lra. }
    subst k'. destruct H2 as [[-> ?]|[-> ?]], H2' as [[-> ?]|[-> ?]]; auto; lra.
Qed.

(* ---------------------------------------------------------------- median3 *)
Ltac med3 := unfold median3; repeat match goal with
  | |- context [Qltb ?a ?b] => destruct (Qltb_spec a b); cbv beta iota zeta end.
Lemma median3_mid a b c : exists x y, Permutation [a; b; c] [x; median3 a b c; y] /\ x <= median3 a b c <= y.
Proof.
  assert (P1 : forall x y z : Q, Permutation [x; y; z] [x; z; y]) by (intros; apply perm_skip, perm_swap).
  assert (P2 : forall x y z : Q, Permutation [x; y; z] [y; x; z]) by (intros; apply perm_swap).
  assert (P3 : forall x y z : Q, Permutation [x; y; z] [y; z; x]) by (intros; eapply perm_trans; [apply P2|apply P1]).
  assert (P4 : forall x y z : Q, Permutation [x; y; z] [z; x; y]) by (intros; eapply perm_trans; [apply P1|apply P2]).
  assert (P5 : forall x y z : Q, Permutation [x; y; z] [z; y; x]) by (intros; eapply perm_trans; [apply P3|apply P2]).
  med3; try lra;
  first [ exists a, b; split; [solve [auto]|lra] | exists a, c; split; [solve [auto]|lra]
        | exists b, a; split; [solve [auto]|lra] | exists b, c; split; [solve [auto]|lra]
        | exists c, a; split; [solve [auto]|lra] | exists c, b; split; [solve [auto]|lra] ].
Qed.
Lemma median3_sym a b c :
  median3 b a c == median3 a b c /\ median3 a c b == median3 a b c /\ median3 c b a == median3 a b c /\
  median3 b c a == median3 a b c /\ median3 c a b == median3 a b c.
Proof. repeat split; med3; lra. Qed.

(* ---------------------------------------------------------------- order check / sort *)
Lemma adj_asc l : (forall i, (S i < length l)%nat -> (nth i l 0 <= nth (S i) l 0)%Z) -> ascZ l.
Proof.
  intros H i j [Hij Hj]. induction j as [|j IH].
  - assert (i = 0)%nat by lia. subst. lia.
  - destruct (Nat.eq_dec i (S j)) as [->|]; [lia|].
    specialize (IH ltac:(lia) ltac:(lia)). specialize (H j Hj). lia.
Qed.
Lemma check_order_spec ts : check_timestamps_order ts = true <-> ascZ ts.
Proof.
  unfold check_timestamps_order. rewrite forallb_forall. split.
  - intro H. apply adj_asc. intros i Hi. specialize (H (S i)). rewrite in_seq in H. specialize (H ltac:(lia)).
    replace (S i - 1)%nat with i in H by lia. destruct (Z.ltb_spec (nth (S i) ts 0) (nth i ts 0))%Z; [discriminate|auto].
  - intros H i Hi. apply in_seq in Hi. specialize (H (i - 1)%nat i ltac:(lia)).
    destruct (Z.ltb_spec (nth i ts 0) (nth (i - 1) ts 0))%Z; [lia|reflexivity].
Qed.

Lemma map_nth_seq {A} (d : A) l : map (fun i => nth i l d) (seq 0 (length l)) = l.
Proof.
  induction l as [|x l IH]; [reflexivity|]. simpl. f_equal. rewrite <- seq_shift, map_map. exact IH.
Qed.

(* ---------------------------------------------------------------- merging *)
Definition rjoin (h r : mrow) : Prop :=
  m_ts r = m_ts h /\ Qabs (m_px r - m_px h) < 1 # 100000000 /\ (m_side r = -1 <-> m_side h = -1)%Z.
Lemma same_trade_iff r cur : same_trade r cur = true <-> rjoin cur r.
Proof.
  unfold same_trade, rjoin. rewrite !andb_true_iff, Z.eqb_eq, Qltb_iff, Bool.eqb_true_iff.
  destruct (Z.eqb_spec (m_side r) (-1)), (Z.eqb_spec (m_side cur) (-1)); intuition congruence.
Qed.

Definition gtotal (g : list mrow) : Q := qsum (map m_am g).
(** One merged row [o] explained by the block [g] of input rows. *)
Definition block_ok (g : list mrow) (o : mrow) : Prop :=
  exists h t, g = h :: t /\ m_ts o = m_ts h /\ m_px o = m_px h /\ m_side o = m_side h /\ m_am o == gtotal g /\
    forall r, In r g -> rjoin h r.
Definition sep (o1 o2 : mrow) : Prop := ~ rjoin o1 o2.
Fixpoint adjsep (l : list mrow) : Prop :=
  match l with a :: ((b :: _) as l') => sep a b /\ adjsep l' | _ => True end.
Lemma adjsep_snoc l a b : adjsep (l ++ [a]) -> sep a b -> adjsep ((l ++ [a]) ++ [b]).
Proof.
  induction l as [|x l IH]; intros H Hs; [simpl; auto|].
  destruct l as [|y l]; simpl in *; [tauto|]. destruct H as [H1 H2]. split; [auto|]. apply IH; auto.
Qed.
Lemma adjsep_swap l a a' : adjsep (l ++ [a]) -> m_ts a = m_ts a' -> m_px a = m_px a' -> m_side a = m_side a' -> adjsep (l ++ [a']).
Proof.
  intros H H1 H2 H3. induction l as [|x l IH]; [exact I|].
  destruct l as [|y l]; simpl in *.
  - unfold sep, rjoin in *. rewrite <- H1, <- H2, <- H3. tauto.
  - destruct H as [K1 K2]. split; [auto|]. now apply IH.
Qed.

Lemma rjoin_refl r : rjoin r r.
Proof. unfold rjoin. split; [reflexivity|]. split; [|tauto]. setoid_replace (m_px r - m_px r) with 0 by ring. simpl. lra. Qed.

Lemma block_single r : block_ok [r] r.
Proof.
  exists r, []. do 4 (split; [reflexivity|]). split; [unfold gtotal; simpl; ring|].
  intros x [<-|[]]. apply rjoin_refl.
Qed.
Lemma merge_loop rs : forall done cur gs g,
  Forall2 block_ok gs done -> block_ok g cur -> adjsep (done ++ [cur]) ->
  exists gs', concat gs' = concat gs ++ g ++ rs /\
    let '(done', cur') := fold_left merge_step rs (done, cur) in
    Forall2 block_ok gs' (done' ++ [cur']) /\ adjsep (done' ++ [cur']).
Proof.
  induction rs as [|r rs IH]; intros done cur gs g Hg Hc Hs.
  - exists (gs ++ [g]). split; [rewrite concat_app; simpl; now rewrite app_nil_r|].
    simpl. split; [apply Forall2_app; auto|auto].
  - simpl. destruct (same_trade r cur) eqn:E.
    + apply same_trade_iff in E. destruct (IH done (mkM (m_ts cur) (m_px cur) (m_am cur + m_am r) (m_side cur)) gs (g ++ [r])) as [gs' [C F]].
      * exact Hg.
      * destruct Hc as [h [t [-> [H1 [H2 [H3 [H4 H5]]]]]]]. exists h, (t ++ [r]). cbn [m_ts m_px m_am m_side].
        do 4 (split; [auto|]). split.
        -- unfold gtotal in *. rewrite map_app, qsum_app, H4. simpl. ring.
        -- intros x Hx. apply in_app_or in Hx. destruct Hx as [Hx|[<-|[]]]; [auto|].
           unfold rjoin in *. rewrite <- H1, <- H2, <- H3. auto.
      * eapply adjsep_swap; eauto.
      * exists gs'. split; [|exact F]. rewrite C, <- app_assoc. reflexivity.
    + assert (Hsep : sep cur r) by (intro K; apply same_trade_iff in K; congruence).
      destruct (IH (done ++ [cur]) r (gs ++ [g]) [r]) as [gs' [C F]].
      * apply Forall2_app; auto.
      * apply block_single.
      * now apply adjsep_snoc.
      * exists gs'. split; [|exact F]. rewrite C, concat_app. simpl. rewrite app_nil_r, <- app_assoc. reflexivity.
Qed.

Lemma merge_rows_spec rows : exists gs, concat gs = rows /\ Forall2 block_ok gs (merge_rows rows) /\ adjsep (merge_rows rows).
Proof.
  destruct rows as [|r0 rs]; [exists []; simpl; auto|].
  destruct (merge_loop rs [] r0 [] [r0]) as [gs [C F]].
  - constructor.
  - apply block_single.
  - exact I.
  - exists gs. split; [exact C|]. unfold merge_rows. destruct (fold_left _ _ _). exact F.
Qed.

Lemma merge_rows_fix rows : adjsep rows -> merge_rows rows = rows.
Proof.
  destruct rows as [|r0 rs]; [reflexivity|]. unfold merge_rows.
  assert (G : forall rs done cur, adjsep (cur :: rs) -> let '(d, c) := fold_left merge_step rs (done, cur) in d ++ [c] = done ++ cur :: rs).
  { clear. induction rs as [|r rs IH]; intros done cur H; [reflexivity|].
    destruct H as [H1 H2]. simpl. destruct (same_trade r cur) eqn:E; [apply same_trade_iff in E; contradiction|].
    specialize (IH (done ++ [cur]) r H2). destruct (fold_left _ _ _). rewrite IH, <- app_assoc. reflexivity. }
  intro H. specialize (G rs [] r0 H). destruct (fold_left _ _ _). exact G.
Qed.

Lemma merge_total rows : qsum (map m_am (merge_rows rows)) == qsum (map m_am rows).
Proof.
  destruct (merge_rows_spec rows) as [gs [<- [F _]]]. induction F as [|g o gs out B F IH]; [reflexivity|].
  simpl. rewrite map_app, qsum_app, IH. destruct B as [h [t [_ [_ [_ [_ [B _]]]]]]]. rewrite B. unfold gtotal. ring.
Qed.

Lemma ascZ_app_inv l l' : ascZ (l ++ l') -> ascZ l /\ ascZ l' /\ (forall x y, In x l -> In y l' -> (x <= y)%Z).
Proof.
  intro H. repeat split.
  - intros i j Hij. specialize (H i j). rewrite app_length, !app_nth1 in H by lia. apply H. lia.
  - intros i j Hij. specialize (H (length l + i)%nat (length l + j)%nat). rewrite app_length, !app_nth2_plus in H. apply H. lia.
  - intros x y Hx Hy. apply (In_nth _ _ 0%Z) in Hx, Hy. destruct Hx as [i [Hi <-]], Hy as [j [Hj <-]].
    specialize (H i (length l + j)%nat). rewrite app_length, app_nth1, app_nth2_plus in H by lia. apply H. lia.
Qed.
Lemma ascZ_cons_intro x l : ascZ l -> (forall y, In y l -> (x <= y)%Z) -> ascZ (x :: l).
Proof.
  intros H Hx i j Hij. simpl in Hij. destruct i as [|i], j as [|j]; simpl; try lia.
  - apply Hx, nth_In. lia.
  - apply H. lia.
Qed.
Lemma merge_asc rows : ascZ (map m_ts rows) -> ascZ (map m_ts (merge_rows rows)).
Proof.
  destruct (merge_rows_spec rows) as [gs [<- [F _]]]. induction F as [|g o gs out B F IH]; intro H; [auto|].
  simpl in *. rewrite map_app in H. apply ascZ_app_inv in H. destruct H as [_ [H2 H3]].
  apply ascZ_cons_intro; [auto|]. intros y Hy.
  destruct B as [h [t [-> [-> _]]]].
  assert (K : exists r, In r (concat gs) /\ m_ts r = y).
  { clear - F Hy. induction F as [|g o gs out B F IH]; [destruct Hy|]. simpl in *. destruct Hy as [<-|Hy].
    - destruct B as [h [t [-> [-> _]]]]. exists h. simpl. auto.
    - destruct (IH Hy) as [r [Hr Hy']]. exists r. split; [apply in_or_app; auto|auto]. }
  destruct K as [r [Hr <-]]. apply H3; [simpl; auto|now apply in_map].
Qed.

Lemma concat_map_inv {A B} (f : A -> B) gs : forall l, concat gs = map f l -> exists igs, concat igs = l /\ gs = map (map f) igs.
Proof.
  induction gs as [|g gs IH]; intros l H; simpl in H.
  - exists []. split; [|reflexivity]. destruct l; [reflexivity|discriminate].
  - symmetry in H. apply map_eq_app in H. destruct H as [l1 [l2 [-> [H1 H2]]]].
    symmetry in H2. destruct (IH _ H2) as [igs [C G]]. exists (l1 :: igs). simpl. split; [congruence|]. congruence.
Qed.

Lemma adjsep_nth l k a b : adjsep l -> nth_error l k = Some a -> nth_error l (S k) = Some b -> sep a b.
Proof.
  revert k. induction l as [|x l IH]; intros k H Ha Hb; [destruct k; discriminate|].
  destruct l as [|y l]; [destruct k as [|[|k]]; discriminate|].
  destruct H as [H1 H2]. destruct k as [|k]; simpl in Ha, Hb; [congruence|]. eapply IH; eauto.
Qed.
Lemma Forall2_len {A B} (P : A -> B -> Prop) l l' : Forall2 P l l' -> length l = length l'.
Proof. induction 1; simpl; congruence. Qed.
Lemma Forall2_nth_error {A B} (P : A -> B -> Prop) l l' : Forall2 P l l' -> forall k a, nth_error l k = Some a ->
  exists b, nth_error l' k = Some b /\ P a b.
Proof.
  induction 1 as [|x y l l' H F IH]; intros [|k] a Ha; try discriminate; simpl in *; [injection Ha as <-; eauto|auto].
Qed.
Lemma ibm_side_range ibm i : (ibm = None /\ ibm_side ibm i = 0%Z) \/ (ibm <> None /\ (ibm_side ibm i = -1 \/ ibm_side ibm i = 1)%Z).
Proof. destruct ibm as [b|]; simpl; [right|left; auto]. split; [discriminate|]. destruct (nth i b false); auto. Qed.
Lemma ibm_side_iff ibm i j : ((ibm_side ibm i = -1 <-> ibm_side ibm j = -1) <-> ibm_side ibm i = ibm_side ibm j)%Z.
Proof. destruct (ibm_side_range ibm i) as [[E H]|[E H]], (ibm_side_range ibm j) as [[E' H']|[E' H']]; try congruence; lia. Qed.

Definition in_row (ts : list Z) (px am : list Q) (ibm : option (list bool)) (i : nat) : mrow :=
  mkM (nth i ts 0%Z) (nth i px 0) (nth i am 0) (ibm_side ibm i).

Lemma grouping_rows ts px am ibm :
  let out := merge_rows (map (in_row ts px am ibm) (seq 0 (length ts))) in
  exists gs, grouping ts px am (ibm_side ibm) gs (map m_ts out) (map m_px out) (map m_am out) (map m_side out).
Proof.
  intro out. destruct (merge_rows_spec (map (in_row ts px am ibm) (seq 0 (length ts)))) as [rgs [C [F S]]]. fold out in F, S.
  apply concat_map_inv in C. destruct C as [gs [C ->]]. exists gs.
  assert (L : length out = length gs) by (apply Forall2_len in F; rewrite map_length in F; lia).
  unfold grouping. rewrite !map_length, L. do 5 (split; [auto|]).
  assert (B : forall k g, nth_error gs k = Some g -> exists o, nth_error out k = Some o /\ block_ok (map (in_row ts px am ibm) g) o).
  { intros k g Hk. apply (Forall2_nth_error _ _ _ F). now rewrite nth_error_map, Hk. }
  assert (J : forall h i, rjoin (in_row ts px am ibm h) (in_row ts px am ibm i) <-> joins ts px (ibm_side ibm) h i).
  { intros h i. unfold rjoin, joins, in_row. cbn [m_ts m_px m_side]. now rewrite ibm_side_iff. }
  split.
  - intros k g Hk. destruct (B k g Hk) as [o [Ho [h' [t' [E [H1 [H2 [H3 [H4 H5]]]]]]]]].
    destruct g as [|h t]; [discriminate|]. simpl in E. injection E as <- <-. exists h, t. split; [reflexivity|].
    assert (Hlt : (k < length out)%nat) by (apply nth_error_Some; congruence).
    assert (N : nth k out (mkM 0 0 0 0) = o) by (now apply nth_error_nth).
    rewrite (nth_indep _ 0%Z (m_ts (mkM 0 0 0 0))), (nth_indep _ 0 (m_px (mkM 0 0 0 0))), (nth_indep (map m_side out) 0%Z (m_side (mkM 0 0 0 0))),
      (nth_indep (map m_am out) 0 (m_am (mkM 0 0 0 0))) by (now rewrite map_length).
    rewrite !map_nth, N. unfold in_row in H1, H2, H3. cbn [m_ts m_px m_side] in *.
    do 3 (split; [auto|]). split.
    + rewrite H4. unfold gtotal. rewrite map_map. reflexivity.
    + intros i Hi. apply J, H5. now apply (in_map (in_row ts px am ibm) (h :: t)).
  - intros k g1 g2 H1 H2 Hj. destruct (B _ _ H1) as [o1 [O1 [h1 [t1 [E1 [A1 [A2 [A3 _]]]]]]]].
    destruct (B _ _ H2) as [o2 [O2 [h2 [t2 [E2 [B1 [B2 [B3 _]]]]]]]].
    destruct g1 as [|i1 g1]; [discriminate|]. destruct g2 as [|i2 g2]; [discriminate|]. injection E1 as <- _. injection E2 as <- _.
    simpl in Hj. apply J in Hj. apply (adjsep_nth _ _ _ _ S O1 O2). unfold rjoin in *. rewrite A1, A2, A3, B1, B2, B3. exact Hj.
Qed.

Lemma merge_grouping ts px am ibm ts' px' am' sd :
  merge_split_trades ts px am ibm = (ts', px', am', sd) ->
  exists gs sd', grouping ts px am (ibm_side ibm) gs ts' px' am' sd' /\ sd = match ibm with None => [] | Some _ => sd' end.
Proof.
  unfold merge_split_trades. fold (in_row ts px am ibm). intro H. injection H as <- <- <- <-.
  destruct (grouping_rows ts px am ibm) as [gs G]. exists gs. eexists. split; [exact G|reflexivity].
Qed.

Lemma merge_laws ts px am ibm ts' px' am' sd : length am = length ts ->
  merge_split_trades ts px am ibm = (ts', px', am', sd) ->
  qsum am' == qsum am /\ (ascZ ts -> ascZ ts') /\
  merge_split_trades ts' px' am' (match ibm with None => None | Some _ => Some (map (fun s => (s =? -1)%Z) sd) end) = (ts', px', am', sd).
Proof.
  intros La. unfold merge_split_trades. fold (in_row ts px am ibm). set (rows := map (in_row ts px am ibm) (seq 0 (length ts))).
  intro H. injection H as <- <- <- <-. split; [|split].
  - rewrite merge_total. unfold rows. rewrite map_map. unfold in_row. cbn [m_am]. rewrite <- La. now rewrite map_nth_seq.
  - intro Ha. apply merge_asc. unfold rows. rewrite map_map. unfold in_row. cbn [m_ts]. now rewrite map_nth_seq.
  - destruct (merge_rows_spec rows) as [gs [C [F S]]].
    assert (Sd : forall o, In o (merge_rows rows) -> exists i, m_side o = ibm_side ibm i).
    { intros o Ho. assert (K : exists g, In g gs /\ block_ok g o).
      { clear - F Ho. induction F as [|g o' gs out B F IH]; [destruct Ho|]. destruct Ho as [<-|Ho]; [exists g; simpl; auto|].
        destruct (IH Ho) as [g' [Hg Hb]]. exists g'. simpl. auto. }
      destruct K as [g [Hg [h [t [-> [_ [_ [-> _]]]]]]]].
      assert (Hh : In h rows) by (rewrite <- C; apply in_concat; exists (h :: t); split; simpl; auto).
      unfold rows in Hh. apply in_map_iff in Hh. destruct Hh as [i [<- _]]. exists i. reflexivity. }
    set (out := merge_rows rows) in *. rewrite map_length.
    match goal with |- context [merge_rows ?r] => assert (E : r = out) end.
    { transitivity (map (fun i => nth i out (mkM 0 0 0 0)) (seq 0 (length out))); [|apply map_nth_seq]. apply map_ext_in. intros i Hi. apply in_seq in Hi.
      rewrite (nth_indep _ 0%Z (m_ts (mkM 0 0 0 0))), (nth_indep _ 0 (m_px (mkM 0 0 0 0))),
        (nth_indep (map m_am out) 0 (m_am (mkM 0 0 0 0))) by (rewrite map_length; lia).
      rewrite !map_nth. assert (Hin : In (nth i out (mkM 0 0 0 0)) out) by (apply nth_In; lia).
      destruct (Sd _ Hin) as [j Hj]. destruct (nth i out (mkM 0 0 0 0)) as [a b c s] eqn:En. cbn [m_ts m_px m_am]. f_equal.
      cbn [m_side] in Hj. destruct ibm as [bl|]; simpl ibm_side in *; [|congruence].
      rewrite map_map. rewrite (nth_indep _ false ((fun o => (m_side o =? -1)%Z) (mkM 0 0 0 0))) by (rewrite map_length; lia).
      rewrite (map_nth (fun o => (m_side o =? -1)%Z)), En. cbn [m_side].
      destruct (nth j bl false); subst s; reflexivity. }
    rewrite E, (merge_rows_fix out S). destruct ibm; reflexivity.
Qed.
