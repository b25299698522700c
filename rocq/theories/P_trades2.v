(** P_trades2.v -- proofs about TradesData preprocessing and the tick size estimate. *)
From Coq Require Import Qround.
From Verif Require Import Base M_logic M_weights M_footprint M_trades S_trades S_footprint P_weights P_weights2 P_tbm P_time P_footprint P_trades.
Open Scope Q_scope.

(* ---------------------------------------------------------------- units *)
Lemma fold_max_spec l t : let m := fold_left Z.max l t in (In m (t :: l)) /\ (forall x, In x (t :: l) -> (x <= m)%Z).
Proof.
  revert t. induction l as [|y l IH]; intros t; simpl.
  - split; [auto|]. intros x [<-|[]]. lia.
  - destruct (IH (Z.max t y)) as [H1 H2]. simpl in *. split.
    + destruct H1 as [H1|H1]; [|auto]. destruct (Z.max_spec t y) as [[_ E]|[_ E]]; rewrite E in *; auto.
    + intros x [<-|[<-|Hx]]; [specialize (H2 (Z.max t y))|specialize (H2 (Z.max t y))|apply H2; auto];
        specialize (H2 (or_introl eq_refl)); lia.
Qed.
Lemma infer_spec ts m : In m ts -> (forall x, In x ts -> (x <= m)%Z) ->
  infer_unit ts = if (10 ^ 18 + 64 <? m)%Z then U_ns else if (10 ^ 15 <? m)%Z then U_us else if (10 ^ 12 <? m)%Z then U_ms else U_s.
Proof.
  intros Hm Hmax. destruct ts as [|t l]; [destruct Hm|]. unfold infer_unit.
  destruct (fold_max_spec l t) as [H1 H2].
  assert (E : fold_left Z.max l t = m) by (apply Z.le_antisymm; auto). rewrite E. cbv zeta. clear.
  assert (T : forall a b, f64 a = a -> (a < f64 b)%Z -> b = (a + 1)%Z -> (a <? f64 m)%Z = (a <? m)%Z).
  { intros a b Ha Hb ->. destruct (Z.ltb_spec a m) as [H|H]; [apply Z.ltb_lt|apply Z.ltb_ge].
    - pose proof (f64_mono (a + 1) m ltac:(lia)). lia.
    - pose proof (f64_mono m a H). lia. }
  rewrite (T (10 ^ 15)%Z (10 ^ 15 + 1)%Z) by (vm_compute; reflexivity).
  rewrite (T (10 ^ 12)%Z (10 ^ 12 + 1)%Z) by (vm_compute; reflexivity).
  assert (K : (10 ^ 18 <? f64 m)%Z = (10 ^ 18 + 64 <? m)%Z).
  { destruct (Z.ltb_spec (10 ^ 18 + 64) m) as [H|H]; [apply Z.ltb_lt|apply Z.ltb_ge].
    - apply Z.lt_le_trans with (f64 (10 ^ 18 + 65)); [vm_compute; reflexivity|]. apply f64_mono. lia.
    - apply Z.le_trans with (f64 (10 ^ 18 + 64)); [now apply f64_mono|]. vm_compute. discriminate. }
  rewrite K. reflexivity.
Qed.

Lemma floor_laws f t : (0 < f)%Z ->
  let r := (t / f * f)%Z in (f | r)%Z /\ (r <= t < r + f)%Z /\ (r / f * f = r)%Z.
Proof.
  intros Hf r. unfold r. pose proof (Z.div_mod t f ltac:(lia)). pose proof (Z.mod_pos_bound t f Hf).
  split; [exists (t / f)%Z; reflexivity|]. split; [lia|]. now rewrite Z.div_mul by lia.
Qed.
Lemma unit_pos u f : unit_ns u = Some f -> (0 < f)%Z.
Proof. destruct u; simpl; intro H; inversion H; subst; reflexivity. Qed.
Lemma tunit_eqb_eq a b : tunit_eqb a b = true <-> a = b.
Proof. destruct a, b; simpl; split; congruence. Qed.

Lemma apply_res_spec unit proc rows out : apply_res unit proc rows = Ok out ->
  map m_px out = map m_px rows /\ map m_am out = map m_am rows /\ map m_side out = map m_side rows /\
  ((match proc with None => True | Some p => p = unit end /\ out = rows) \/
   (exists p f, proc = Some p /\ p <> unit /\ unit_ns p = Some f /\ map m_ts out = map (fun t => t / f * f)%Z (map m_ts rows))).
Proof.
  unfold apply_res. destruct proc as [p|]; [|intro H; injection H as <-; do 3 (split; [reflexivity|]); left; split; auto].
  destruct (tunit_eqb p unit) eqn:E; [apply tunit_eqb_eq in E; subst; intro H; injection H as <-; do 3 (split; [reflexivity|]); left; split; auto|].
  destruct (unit_ns p) as [f|] eqn:F; [|discriminate]. intro H. injection H as <-. rewrite !map_map. cbn [m_px m_am m_side m_ts].
  do 3 (split; [reflexivity|]). right. exists p, f. split; [reflexivity|]. split; [intro K; apply tunit_eqb_eq in K; congruence|]. split; [exact F|symmetry; apply map_map].
Qed.

Lemma floor_asc f l : (0 < f)%Z -> ascZ l -> ascZ (map (fun t => t / f * f)%Z l).
Proof.
  intros Hf H i j Hij. rewrite map_length in Hij. assert (G : forall k, (k < length l)%nat -> nth k (map (fun t => t / f * f)%Z l) 0%Z = (nth k l 0 / f * f)%Z).
  { intros k Hk. rewrite (nth_indep _ 0%Z ((fun t => t / f * f)%Z 0%Z)) by (rewrite map_length; lia). now rewrite (map_nth (fun t => t / f * f)%Z). }
  rewrite !G by lia.
  specialize (H i j Hij). apply Z.mul_le_mono_nonneg_r; [lia|]. apply Z.div_le_mono; auto.
Qed.
Lemma apply_res_asc unit proc rows out : apply_res unit proc rows = Ok out -> ascZ (map m_ts rows) -> ascZ (map m_ts out).
Proof.
  intros H Ha. apply apply_res_spec in H. destruct H as [_ [_ [_ [[_ ->]|[p [f [_ [_ [F ->]]]]]]]]]; [auto|].
  apply floor_asc; [eapply unit_pos; eauto|auto].
Qed.

(* ---------------------------------------------------------------- drop_dup *)
Lemma existsb_in z l : existsb (Z.eqb z) l = true <-> In z l.
Proof. rewrite existsb_exists. split; [intros [x [H E]]; apply Z.eqb_eq in E; now subst|intro H; exists z; rewrite Z.eqb_refl; auto]. Qed.
Lemma drop_dup_in l : forall seen r, In r (drop_dup seen l) -> In r l /\ ~ In (r_id r) seen.
Proof.
  induction l as [|x l IH]; intros seen r H; simpl in H; [destruct H|].
  destruct (existsb (Z.eqb (r_id x)) seen) eqn:E.
  - destruct (IH _ _ H). simpl; auto.
  - destruct H as [<-|H].
    + split; [simpl; auto|]. intro K. apply existsb_in in K. congruence.
    + destruct (IH _ _ H) as [H1 H2]. simpl in *. split; [auto|]. intro. apply H2; auto.
Qed.
Lemma drop_dup_nodup l : forall seen, NoDup (map r_id (drop_dup seen l)).
Proof.
  induction l as [|x l IH]; intros seen; simpl; [constructor|].
  destruct (existsb _ seen); [auto|]. simpl. constructor; [|auto].
  intro H. apply in_map_iff in H. destruct H as [r [E H]]. apply drop_dup_in in H. destruct H as [_ H]. apply H. simpl. auto.
Qed.
Lemma drop_dup_cover l : forall seen z, In z (map r_id l) -> ~ In z seen -> In z (map r_id (drop_dup seen l)).
Proof.
  induction l as [|x l IH]; intros seen z H Hs; simpl in H; [destruct H|]. simpl.
  destruct (existsb (Z.eqb (r_id x)) seen) eqn:E.
  - destruct H as [<-|H]; [apply existsb_in in E; contradiction|auto].
  - simpl. destruct (Z.eq_dec (r_id x) z) as [->|Hne]; [auto|]. right. destruct H as [H|H]; [contradiction|].
    apply IH; [auto|]. simpl. tauto.
Qed.
Lemma drop_dup_id l : forall seen, NoDup (map r_id l) -> (forall z, In z (map r_id l) -> ~ In z seen) -> drop_dup seen l = l.
Proof.
  induction l as [|x l IH]; intros seen H Hs; simpl; [reflexivity|].
  simpl in H. inversion H as [|? ? N1 N2]; subst.
  destruct (existsb (Z.eqb (r_id x)) seen) eqn:E; [apply existsb_in in E; exfalso; apply (Hs (r_id x)); simpl; auto|].
  f_equal. apply IH; [auto|]. intros z Hz [<-|K]; [contradiction|]. apply (Hs z); simpl; auto.
Qed.
Lemma drop_dup_len l seen : (length (drop_dup seen l) <= length l)%nat.
Proof. revert seen. induction l as [|x l IH]; intros seen; simpl; [lia|]. destruct (existsb _ _); simpl; [specialize (IH seen)|specialize (IH (r_id x :: seen))]; lia. Qed.
Lemma drop_dup_len_eq l : forall seen, length (drop_dup seen l) = length l -> drop_dup seen l = l.
Proof.
  induction l as [|x l IH]; intros seen H; simpl in *; [reflexivity|].
  destruct (existsb _ _); [pose proof (drop_dup_len l seen); lia|]. simpl in H. f_equal. apply IH. lia.
Qed.
Lemma has_dup_spec l : has_dup l = false <-> NoDup (map r_id l).
Proof.
  unfold has_dup. rewrite negb_false_iff, Nat.eqb_eq. split.
  - intro H. rewrite <- (drop_dup_len_eq l [] H). apply drop_dup_nodup.
  - intro H. now rewrite drop_dup_id.
Qed.
Lemma drop_dup_sorted (R : row -> row -> Prop) l : forall seen, StronglySorted R l -> StronglySorted R (drop_dup seen l).
Proof.
  induction l as [|x l IH]; intros seen H; simpl; [constructor|]. inversion H as [|? ? H1 H2]; subst.
  destruct (existsb _ _); [auto|]. constructor; [auto|]. rewrite Forall_forall in *. intros y Hy. apply H2.
  eapply drop_dup_in; eauto.
Qed.
Lemma drop_dup_first l : forall seen r, In r (drop_dup seen l) -> find (fun x => (r_id x =? r_id r)%Z) l = Some r.
Proof.
  induction l as [|x l IH]; intros seen r H; simpl in H; [destruct H|]. simpl.
  destruct (existsb (Z.eqb (r_id x)) seen) eqn:E.
  - pose proof (drop_dup_in _ _ _ H) as [_ K]. destruct (Z.eqb_spec (r_id x) (r_id r)) as [Ex|]; [|eauto].
    rewrite Ex in E. apply existsb_in in E. contradiction.
  - destruct H as [->|H]; [now rewrite Z.eqb_refl|]. pose proof (drop_dup_in _ _ _ H) as [_ K].
    destruct (Z.eqb_spec (r_id x) (r_id r)) as [Ex|]; [exfalso; apply K; simpl; auto|]. eauto.
Qed.
Lemma find_filter {A} (f : A -> bool) l : find f l = hd_error (filter f l).
Proof. induction l as [|x l IH]; simpl; [reflexivity|]. destruct (f x); simpl; auto. Qed.

(* ---------------------------------------------------------------- sorting by (timestamp, id) *)
Lemma row_le_total a b : row_le a b = false -> row_le b a = true.
Proof. unfold row_le. rewrite orb_false_iff, andb_false_iff, orb_true_iff, andb_true_iff. lia. Qed.
Lemma row_le_trans a b c : row_le a b = true -> row_le b c = true -> row_le a c = true.
Proof. unfold row_le. rewrite !orb_true_iff, !andb_true_iff. lia. Qed.
Lemma row_insert_perm r l : Permutation (r :: l) (row_insert r l).
Proof.
  induction l as [|x l IH]; simpl; [auto|]. destruct (row_le r x); [auto|].
  eapply perm_trans; [apply perm_swap|]. now apply perm_skip.
Qed.
Lemma sort_ts_id_perm l : Permutation l (sort_ts_id l).
Proof. induction l as [|x l IH]; simpl; [auto|]. rewrite <- row_insert_perm. now apply perm_skip. Qed.
Lemma row_insert_sorted r l : StronglySorted (fun a b => row_le a b = true) l -> StronglySorted (fun a b => row_le a b = true) (row_insert r l).
Proof.
  induction l as [|x l IH]; intro H; simpl; [constructor; constructor|].
  inversion H as [|? ? H1 H2]; subst. rewrite Forall_forall in H2. destruct (row_le r x) eqn:E.
  - constructor; [auto|]. apply Forall_forall. intros y [<-|Hy]; [auto|]. eapply row_le_trans; [exact E|auto].
  - constructor; [auto|]. apply Forall_forall. intros y Hy.
    apply (Permutation_in y (Permutation_sym (row_insert_perm r l))) in Hy. destruct Hy as [<-|Hy]; [now apply row_le_total|auto].
Qed.
Lemma sort_ts_id_sorted l : StronglySorted (fun a b => row_le a b = true) (sort_ts_id l).
Proof. induction l as [|x l IH]; simpl; [constructor|]. now apply row_insert_sorted. Qed.
Lemma sorted_asc l : StronglySorted (fun a b => row_le a b = true) l -> ascZ (map r_ts l).
Proof.
  induction 1 as [|x l H IH F]; [intros i j Hij; simpl in Hij; lia|]. simpl. apply ascZ_cons_intro; [auto|].
  intros y Hy. apply in_map_iff in Hy. destruct Hy as [b [<- Hb]]. rewrite Forall_forall in F. specialize (F b Hb).
  unfold row_le in F. rewrite orb_true_iff, andb_true_iff in F. lia.
Qed.

(* ---------------------------------------------------------------- sort_trades *)
Lemma in_ns_conv f rows : convert_ns f rows = in_ns f rows.
Proof. reflexivity. Qed.

Section Sort.
  Variable sort_id : list row -> list row.
  Hypothesis Hsort : sorts_by_id sort_id.
  Variable rows : list row.
  Let u := drop_dup [] (sort_id rows).

  Lemma u_kept : kept_of rows u.
  Proof.
    destruct (Hsort rows) as [P S]. unfold u. repeat split.
    - intros r Hr. apply drop_dup_in in Hr. eapply Permutation_in; [apply Permutation_sym; exact P|tauto].
    - apply drop_dup_nodup.
    - intros z Hz. apply drop_dup_cover; [|tauto]. eapply Permutation_in; [apply Permutation_map; exact P|auto].
  Qed.
  Lemma u_sorted : StronglySorted (fun a b => (r_id a < r_id b)%Z) u.
  Proof.
    destruct (Hsort rows) as [P S]. apply (drop_dup_sorted _ _ []) in S. fold u in S.
    pose proof (drop_dup_nodup (sort_id rows) []) as N. fold u in N. clear P. induction S as [|x l S IH F]; [constructor|].
    simpl in N. inversion N as [|? ? N1 N2]; subst. constructor; [auto|]. rewrite Forall_forall in *. intros y Hy.
    specialize (F y Hy). simpl in F. assert (r_id x <> r_id y) by (intro E; apply N1; rewrite E; now apply in_map). lia.
  Qed.
  Lemma u_first : stable_by_id sort_id -> forall r, In r u -> find (fun x => (r_id x =? r_id r)%Z) rows = Some r.
  Proof.
    intros Hst r Hr. apply drop_dup_first in Hr. rewrite find_filter in *. now rewrite <- Hst.
  Qed.
  Lemma sort_out_perm : Permutation u (fst (sort_trades sort_id rows)).
  Proof. unfold sort_trades. cbv zeta. cbn [fst]. fold u. destruct (check_timestamps_order _); [auto|apply sort_ts_id_perm]. Qed.
  Lemma sort_out_asc : ascZ (map r_ts (fst (sort_trades sort_id rows))).
  Proof.
    unfold sort_trades. cbv zeta. cbn [fst]. fold u. destruct (check_timestamps_order (map r_ts u)) eqn:E.
    - now apply check_order_spec.
    - apply sorted_asc, sort_ts_id_sorted.
  Qed.
  Lemma sort_kept : kept_of rows (fst (sort_trades sort_id rows)).
  Proof.
    pose proof sort_out_perm as P. destruct u_kept as [K1 [K2 K3]]. repeat split.
    - intros r Hr. apply K1. eapply Permutation_in; [apply Permutation_sym; exact P|auto].
    - eapply Permutation_NoDup; [apply Permutation_map; exact P|auto].
    - intros z Hz. eapply Permutation_in; [apply Permutation_map; exact P|auto].
  Qed.
  Lemma dup_iff : has_dup (sort_id rows) = false <-> NoDup (map r_id rows).
  Proof.
    rewrite has_dup_spec. destruct (Hsort rows) as [P _]. split; apply Permutation_NoDup; [apply Permutation_sym|]; now apply Permutation_map.
  Qed.
End Sort.

(** Two lists of rows strictly sorted by id with the same elements are equal. *)
Lemma strict_unique l : forall l', StronglySorted (fun a b => (r_id a < r_id b)%Z) l -> StronglySorted (fun a b => (r_id a < r_id b)%Z) l' ->
  (forall r, In r l <-> In r l') -> l = l'.
Proof.
  induction l as [|x l IH]; intros l' H H' E.
  - destruct l' as [|y l']; [reflexivity|]. exfalso. apply (proj2 (E y)). simpl; auto.
  - destruct l' as [|y l']; [exfalso; apply (proj1 (E x)); simpl; auto|].
    inversion H as [|? ? S1 F1]; inversion H' as [|? ? S2 F2]; subst. rewrite Forall_forall in *.
    assert (x = y).
    { destruct (proj1 (E x) (or_introl eq_refl)) as [->|Hx]; [reflexivity|].
      destruct (proj2 (E y) (or_introl eq_refl)) as [->|Hy]; [reflexivity|].
      specialize (F1 y Hy). specialize (F2 x Hx). lia. }
    subst y. f_equal. apply IH; auto. intro r. split; intro Hr.
    + destruct (proj1 (E r) (or_intror Hr)) as [<-|]; [specialize (F1 _ Hr); lia|auto].
    + destruct (proj2 (E r) (or_intror Hr)) as [<-|]; [specialize (F2 _ Hr); lia|auto].
Qed.
Lemma sort_id_fixed sort_id rows : sorts_by_id sort_id -> StronglySorted (fun a b => (r_id a < r_id b)%Z) rows -> ascZ (map r_ts rows) ->
  fst (sort_trades sort_id rows) = rows.
Proof.
  intros Hs Hr Ha. pose proof (u_sorted sort_id Hs rows) as U.
  assert (N : NoDup (map r_id rows)).
  { clear -Hr. induction Hr as [|x l S IH F]; simpl; constructor; [|auto]. rewrite Forall_forall in F. intro H.
    apply in_map_iff in H. destruct H as [y [E Hy]]. specialize (F y Hy). lia. }
  assert (E : drop_dup [] (sort_id rows) = rows).
  { apply strict_unique; auto. destruct (Hs rows) as [P _]. rewrite drop_dup_id; [|eapply Permutation_NoDup; [apply Permutation_map; exact P|auto]|auto].
    intro r. split; apply Permutation_in; [now apply Permutation_sym|auto]. }
  unfold sort_trades. cbv zeta. cbn [fst]. rewrite E. apply check_order_spec in Ha. now rewrite Ha.
Qed.

(* ---------------------------------------------------------------- validate *)
Definition row0 := mkRow 0 0 0 0.
Definition gap_of (rows : list row) (i : nat) : Z := (r_id (nth (S i) rows row0) - r_id (nth i rows row0) - 1)%Z.
Definition is_gap (rows : list row) (i : nat) : bool := (1 <? r_id (nth (S i) rows row0) - r_id (nth i rows row0))%Z.
Definition is_late (rows : list row) (i : nat) : bool := (60 * 10 ^ 9 <? r_ts (nth (S i) rows row0) - r_ts (nth i rows row0))%Z.
Definition disc_of (rows : list row) (i : nat) : disc :=
  mkDisc (r_id (nth i rows row0)) (r_id (nth (S i) rows row0)) (gap_of rows i) (r_ts (nth i rows row0)) (r_ts (nth (S i) rows row0)).

Lemma gap_fold rows gaps : forall st,
  let r := fold_left (gap_step rows) gaps st in
  v_cum r = (v_cum st + fold_right Z.add 0 (map (gap_of rows) gaps))%Z /\
  v_disc r = v_disc st ++ map (disc_of rows) (filter (is_late rows) gaps) /\
  v_ok r = (v_ok st && (length (filter (is_late rows) gaps) =? 0)%nat)%bool.
Proof.
  induction gaps as [|i gaps IH]; intros st; cbv zeta.
  - simpl. rewrite Z.add_0_r, app_nil_r, andb_true_r. auto.
  - simpl fold_left. specialize (IH (gap_step rows st i)). cbv zeta in IH. destruct IH as [-> [-> ->]].
    unfold gap_step. cbv zeta. fold row0. fold (is_late rows i). simpl filter. destruct (is_late rows i); cbn [v_cum v_disc v_ok length].
    + simpl map. simpl fold_right. rewrite <- app_assoc. simpl. rewrite andb_false_r. unfold gap_of. repeat split. lia.
    + simpl map. simpl fold_right. unfold gap_of. repeat split. lia.
Qed.

Lemma filter_filter {A} (f g : A -> bool) l : filter g (filter f l) = filter (fun x => f x && g x)%bool l.
Proof. induction l as [|x l IH]; simpl; [reflexivity|]. destruct (f x); simpl; [destruct (g x); congruence|auto]. Qed.

Lemma gap_sum rows : StronglySorted (fun a b => (r_id a < r_id b)%Z) rows -> forall n, (S n <= length rows)%nat ->
  fold_right Z.add 0%Z (map (gap_of rows) (filter (is_gap rows) (seq 0 n))) = (r_id (nth n rows row0) - r_id (nth 0 rows row0) - Z.of_nat n)%Z.
Proof.
  intros H n. induction n as [|n IH]; intro Hn; [simpl; lia|].
  rewrite seq_S, filter_app, map_app. simpl (0 + n)%nat. specialize (IH ltac:(lia)).
  assert (A : forall l l', fold_right Z.add 0%Z (l ++ l') = (fold_right Z.add 0 l + fold_right Z.add 0 l')%Z).
  { clear. induction l as [|x l IH]; intro l'; simpl; [lia|]. rewrite IH. lia. }
  rewrite A, IH. simpl filter.
  assert (Hlt : (r_id (nth n rows row0) < r_id (nth (S n) rows row0))%Z).
  { clear -H Hn. revert n Hn. induction H as [|x l S IH F]; intros n Hn; [simpl in Hn; lia|]. simpl in Hn.
    rewrite Forall_forall in F. destruct n as [|n]; simpl; [apply F, nth_In; lia|]. apply IH. lia. }
  unfold is_gap at 1. destruct (Z.ltb_spec 1 (r_id (nth (S n) rows row0) - r_id (nth n rows row0))).
  - simpl. unfold gap_of. lia.
  - simpl. lia.
Qed.

Lemma validate_spec rows ok : StronglySorted (fun a b => (r_id a < r_id b)%Z) rows -> rows <> [] ->
  validate rows ok =
    (let cum := (r_id (nth (length rows - 1) rows row0) - r_id (nth 0 rows row0) - Z.of_nat (length rows - 1))%Z in
     let ds := map (disc_of rows) (filter (fun i => is_gap rows i && is_late rows i)%bool (seq 0 (length rows - 1))) in
     (fst (fst (validate rows ok)), (ok && (length ds =? 0)%nat)%bool, ds)) /\
  fst (fst (validate rows ok)) ==
    inject_Z (r_id (nth (length rows - 1) rows row0) - r_id (nth 0 rows row0) - Z.of_nat (length rows - 1)) / Qnat (length rows) * 100.
Proof.
  intros H Hne. assert (Hn : (S (length rows - 1) <= length rows)%nat) by (destruct rows; [contradiction|simpl; lia]).
  pose proof (gap_sum rows H _ Hn) as G. unfold validate. cbv zeta. fold row0.
  change (fun i => (1 <? r_id (nth (S i) rows row0) - r_id (nth i rows row0))%Z) with (is_gap rows).
  rewrite <- filter_filter, <- G.
  pose proof (gap_fold rows (filter (is_gap rows) (seq 0 (length rows - 1))) (mkV 0 ok [])) as K. cbv zeta in K. simpl v_cum in K. simpl v_ok in K. simpl v_disc in K.
  destruct (filter (is_gap rows) (seq 0 (length rows - 1))) as [|g gs] eqn:E.
  - simpl. rewrite andb_true_r. split; [reflexivity|]. setoid_replace (inject_Z 0) with 0 by reflexivity. unfold Qdiv. ring.
  - destruct K as [K1 [K2 K3]]. cbn [fst]. rewrite K1, K2, K3, Z.add_0_l, map_length. split; reflexivity.
Qed.

(** Number of integers of [lo, hi] not in a duplicate-free list with values in [lo, hi]. *)
Lemma missing_count ids lo hi : NoDup ids -> (forall z, In z ids -> (lo <= z <= hi)%Z) -> (lo <= hi + 1)%Z ->
  Z.of_nat (length (missing_ids ids lo hi)) = (hi + 1 - lo - Z.of_nat (length ids))%Z.
Proof.
  intros N B Hlh. unfold missing_ids.
  assert (Hf : forall (f : Z -> bool) l, (length (filter f l) + length (filter (fun z => negb (f z)) l) = length l)%nat).
  { clear. intros f l. induction l as [|x l IH]; simpl; [reflexivity|]. destruct (f x); simpl; lia. }
  specialize (Hf (fun z => existsb (Z.eqb z) ids) (zrange lo (hi + 1))). rewrite zrange_length in Hf.
  assert (Hz : NoDup (zrange lo (hi + 1))).
  { unfold zrange. apply FinFun.Injective_map_NoDup; [intros a b E; lia|]. apply seq_NoDup. }
  assert (E : length (filter (fun z => existsb (Z.eqb z) ids) (zrange lo (hi + 1))) = length ids).
  { apply Permutation_length. apply NoDup_Permutation; [now apply NoDup_filter|auto|]. intro z. rewrite filter_In, in_zrange, existsb_in.
    split; [tauto|]. intro Hz'. specialize (B z Hz'). split; [lia|auto]. }
  lia.
Qed.

Lemma kept_len rows kept : kept_of rows kept -> length kept = length (nodup Z.eq_dec (map r_id rows)).
Proof.
  intros [K1 [K2 K3]]. rewrite <- (map_length r_id kept). apply Permutation_length, NoDup_Permutation; [auto|apply NoDup_nodup|].
  intro z. rewrite nodup_In. split; [|apply K3]. intro H. apply in_map_iff in H. destruct H as [r [<- H]]. apply in_map. auto.
Qed.

Lemma sorted_ends rows : StronglySorted (fun a b => (r_id a < r_id b)%Z) rows -> forall r, In r rows ->
  (r_id (nth 0 rows row0) <= r_id r <= r_id (nth (length rows - 1) rows row0))%Z.
Proof.
  intro H. assert (A : forall i j, (i <= j < length rows)%nat -> (r_id (nth i rows row0) <= r_id (nth j rows row0))%Z).
  { induction H as [|x l S IH F]; intros i j Hij; simpl in Hij; [lia|]. rewrite Forall_forall in F.
    destruct i as [|i], j as [|j]; simpl; try lia.
    - assert (r_id x < r_id (nth j l row0))%Z by (apply F, nth_In; lia). lia.
    - apply IH. lia. }
  intros r Hr. apply (In_nth _ _ row0) in Hr. destruct Hr as [i [Hi <-]]. split; apply A; lia.
Qed.

(* ---------------------------------------------------------------- preprocess *)
Lemma preprocess_inv sort_id ua proc rows ibm td : preprocess sort_id ua proc rows ibm = Ok td ->
  exists unit f m, unit = (match ua with Some u => u | None => infer_unit (map r_ts rows) end) /\ unit_ns unit = Some f /\
    apply_res unit proc (merge_trades (fst (sort_trades sort_id (in_ns f rows))) ibm) = Ok m /\
    td_rows td = (match ibm with Some _ => m | None => set_sides m (comp_trade_side_vector (map m_px m)) end) /\
    (td_missing td, td_ok td, td_disc td) = snd (sort_trades sort_id (in_ns f rows)).
Proof.
  unfold preprocess. set (unit := match ua with Some u => u | None => _ end). destruct (unit_ns unit) as [f|] eqn:F; [|discriminate].
  rewrite in_ns_conv. destruct (sort_trades sort_id (in_ns f rows)) as [sorted [[pct ok] ds]] eqn:S.
  destruct (apply_res unit proc (merge_trades sorted ibm)) as [m|] eqn:A; [|discriminate]. intro H. injection H as <-.
  exists unit, f, m. cbn [fst snd td_rows td_missing td_ok td_disc]. rewrite S. cbn [fst snd]. auto.
Qed.

Lemma merge_trades_rows rows ibm :
  merge_trades rows ibm = merge_rows (map (in_row (map r_ts rows) (map r_px rows) (map r_am rows) ibm) (seq 0 (length (map r_ts rows)))).
Proof.
  unfold merge_trades. f_equal. rewrite map_length. apply map_ext_in. intros i Hi. apply in_seq in Hi. unfold in_row.
  rewrite (nth_indep _ 0%Z (r_ts row0)), (nth_indep (map r_px rows) 0 (r_px row0)), (nth_indep (map r_am rows) 0 (r_am row0)) by (rewrite map_length; lia).
  rewrite !map_nth. reflexivity.
Qed.

Lemma set_sides_proj m sides : length sides = length m ->
  map m_ts (set_sides m sides) = map m_ts m /\ map m_px (set_sides m sides) = map m_px m /\
  map m_am (set_sides m sides) = map m_am m /\ map m_side (set_sides m sides) = sides.
Proof.
  intro L. unfold set_sides. rewrite !map_map. cbn [m_ts m_px m_am m_side].
  assert (G : forall A (g : mrow -> A), map (fun i => g (nth i m (mkM 0 0 0 0))) (seq 0 (length m)) = map g m).
  { intros A g. rewrite <- (map_map (fun i => nth i m (mkM 0 0 0 0)) g). now rewrite map_nth_seq. }
  rewrite !G. repeat split. rewrite <- L. apply map_nth_seq.
Qed.

(** Projections of the final rows in terms of the sorted rows. *)
Lemma preprocess_rows sort_id ua proc rows ibm td : preprocess sort_id ua proc rows ibm = Ok td ->
  exists unit f, unit = (match ua with Some u => u | None => infer_unit (map r_ts rows) end) /\ unit_ns unit = Some f /\
    let kept := fst (sort_trades sort_id (in_ns f rows)) in
    let m := merge_trades kept ibm in
    map m_px (td_rows td) = map m_px m /\ map m_am (td_rows td) = map m_am m /\
    map m_side (td_rows td) = (match ibm with Some _ => map m_side m | None => comp_trade_side_vector (map m_px m) end) /\
    ((match proc with None => True | Some p => p = unit end /\ map m_ts (td_rows td) = map m_ts m) \/
     (exists p g, proc = Some p /\ p <> unit /\ unit_ns p = Some g /\ map m_ts (td_rows td) = map (fun t => t / g * g)%Z (map m_ts m))).
Proof.
  intro H. apply preprocess_inv in H. destruct H as [unit [f [m' [E [F [A [R _]]]]]]]. exists unit, f. split; [auto|]. split; [auto|].
  cbv zeta. apply apply_res_spec in A. destruct A as [A1 [A2 [A3 A4]]].
  assert (P : map m_ts (td_rows td) = map m_ts m' /\ map m_px (td_rows td) = map m_px m' /\ map m_am (td_rows td) = map m_am m' /\
    map m_side (td_rows td) = (match ibm with Some _ => map m_side m' | None => comp_trade_side_vector (map m_px m') end)).
  { rewrite R. destruct ibm; [auto|]. apply set_sides_proj. rewrite (proj1 (side_vector _)). now rewrite map_length. }
  destruct P as [-> [-> [-> ->]]]. rewrite A1, A2, A3. do 3 (split; [reflexivity|]).
  destruct A4 as [[A4 ->]|A4]; auto.
Qed.

Definition out_ts (unit : tunit) (proc : option tunit) (ts ts' : list Z) : Prop :=
  match proc with
  | None => ts' = ts
  | Some p => (p = unit /\ ts' = ts) \/ (p <> unit /\ exists g, unit_ns p = Some g /\ ts' = map (fun t => t / g * g)%Z ts)
  end.

Lemma api_pre sort_id ua proc rows ibm td : sorts_by_id sort_id -> preprocess sort_id ua proc rows ibm = Ok td ->
  exists unit f kept gs ts' sd',
    unit = (match ua with Some u => u | None => infer_unit (map r_ts rows) end) /\ unit_ns unit = Some f /\
    kept = fst (sort_trades sort_id (in_ns f rows)) /\
    kept_of (in_ns f rows) kept /\ ascZ (map r_ts kept) /\
    grouping (map r_ts kept) (map r_px kept) (map r_am kept) (ibm_side ibm) gs ts' (map m_px (td_rows td)) (map m_am (td_rows td)) sd' /\
    map m_side (td_rows td) = (match ibm with Some _ => sd' | None => comp_trade_side_vector (map m_px (td_rows td)) end) /\
    out_ts unit proc ts' (map m_ts (td_rows td)) /\
    qsum (map m_am (td_rows td)) == qsum (map r_am kept) /\ ascZ (map m_ts (td_rows td)).
Proof.
  intros Hs H. destruct (preprocess_rows _ _ _ _ _ _ H) as [unit [f [E [F K]]]]. cbv zeta in K.
  set (kept := fst (sort_trades sort_id (in_ns f rows))) in *. destruct K as [K1 [K2 [K3 K4]]].
  destruct (grouping_rows (map r_ts kept) (map r_px kept) (map r_am kept) ibm) as [gs G]. rewrite <- merge_trades_rows in G.
  exists unit, f, kept, gs, (map m_ts (merge_trades kept ibm)), (map m_side (merge_trades kept ibm)).
  pose proof (sort_out_asc sort_id (in_ns f rows)) as Asc. fold kept in Asc.
  assert (MA : ascZ (map m_ts (merge_trades kept ibm))).
  { rewrite merge_trades_rows. apply merge_asc. rewrite map_map. unfold in_row. cbn [m_ts]. now rewrite map_nth_seq. }
  split; [auto|]. split; [auto|]. split; [reflexivity|]. split; [now apply sort_kept|]. split; [exact Asc|].
  rewrite K1, K2. split; [exact G|]. split; [exact K3|]. split; [|split].
  - unfold out_ts. destruct K4 as [[K4 ->]|[p [g [-> [K5 [K6 ->]]]]]]; [destruct proc; auto|]. right. eauto.
  - rewrite merge_trades_rows, merge_total, map_map. unfold in_row. cbn [m_am]. rewrite map_length, <- (map_length r_am). now rewrite map_nth_seq.
  - destruct K4 as [[_ ->]|[p [g [_ [_ [K6 ->]]]]]]; [auto|]. apply floor_asc; [eapply unit_pos; eauto|auto].
Qed.

Lemma api_kept_perm rows kept : kept_of rows kept -> NoDup (map r_id rows) -> Permutation kept rows.
Proof.
  intros K N. pose proof (kept_len _ _ K) as L. rewrite nodup_fixed_point, map_length in L by auto.
  destruct K as [K1 [K2 _]]. apply NoDup_Permutation_bis; [eapply NoDup_map_inv; eauto|lia|exact K1].
Qed.

Lemma in_ns_ids f rows : map r_id (in_ns f rows) = map r_id rows.
Proof. unfold in_ns. rewrite map_map. reflexivity. Qed.

Lemma api_sides sort_id ua proc rows b td : sorts_by_id sort_id -> preprocess sort_id ua proc rows (Some b) = Ok td ->
  StronglySorted Z.lt (map r_id rows) ->
  exists unit f, unit = (match ua with Some u => u | None => infer_unit (map r_ts rows) end) /\ unit_ns unit = Some f /\
   (ascZ (map r_ts (in_ns f rows)) ->
    exists gs ts', grouping (map r_ts (in_ns f rows)) (map r_px rows) (map r_am rows) (fun i => if nth i b false then (-1)%Z else 1%Z) gs
      ts' (map m_px (td_rows td)) (map m_am (td_rows td)) (map m_side (td_rows td)) /\ out_ts unit proc ts' (map m_ts (td_rows td))).
Proof.
  intros Hs H Hid. destruct (api_pre _ _ _ _ _ _ Hs H) as [unit [f [kept [gs [ts' [sd' [E [F [K [_ [_ [G [S [O _]]]]]]]]]]]]]].
  exists unit, f. split; [auto|]. split; [auto|]. intro Ha.
  rewrite sort_id_fixed in K; auto.
  - subst kept. exists gs, ts'. split; [|auto]. rewrite S.
    assert (P : map r_px (in_ns f rows) = map r_px rows) by (unfold in_ns; now rewrite map_map).
    assert (A : map r_am (in_ns f rows) = map r_am rows) by (unfold in_ns; now rewrite map_map).
    rewrite P, A in G. exact G.
  - clear -Hid. assert (L : forall l, StronglySorted Z.lt (map r_id l) -> StronglySorted (fun a b => (r_id a < r_id b)%Z) l).
    { induction l as [|x l IH]; intro H; [constructor|]. simpl in H. inversion H as [|? ? H1 H2]; subst. constructor; [auto|].
      rewrite Forall_forall in *. intros y Hy. apply H2. now apply in_map. }
    apply L. now rewrite in_ns_ids.
Qed.

Lemma api_gaps sort_id ua proc rows ibm td : sorts_by_id sort_id -> rows <> [] -> preprocess sort_id ua proc rows ibm = Ok td ->
  exists f byid, kept_of (in_ns f rows) byid /\ StronglySorted (fun a b => (r_id a < r_id b)%Z) byid /\
    unit_ns (match ua with Some u => u | None => infer_unit (map r_ts rows) end) = Some f /\
    (forall d, In d (td_disc td) <-> exists i, (S i < length byid)%nat /\
        let a := nth i byid (mkRow 0 0 0 0) in let b := nth (S i) byid (mkRow 0 0 0 0) in
        (1 < r_id b - r_id a)%Z /\ (60000000000 < r_ts b - r_ts a)%Z /\
        d = mkDisc (r_id a) (r_id b) (r_id b - r_id a - 1) (r_ts a) (r_ts b)) /\
    (td_ok td = true <-> NoDup (map r_id rows) /\ td_disc td = []) /\
    (forall lo hi, In lo (map r_id rows) -> In hi (map r_id rows) -> (forall z, In z (map r_id rows) -> (lo <= z <= hi)%Z) ->
       td_missing td == Qnat (length (missing_ids (map r_id rows) lo hi)) / Qnat (length (nodup Z.eq_dec (map r_id rows))) * 100).
Proof.
  intros Hs Hne H. destruct (preprocess_inv _ _ _ _ _ _ H) as [unit [f [m [E [F [_ [_ V]]]]]]].
  set (byid := drop_dup [] (sort_id (in_ns f rows))). exists f, byid.
  pose proof (u_kept sort_id Hs (in_ns f rows)) as K. fold byid in K. pose proof (u_sorted sort_id Hs (in_ns f rows)) as Srt. fold byid in Srt.
  split; [auto|]. split; [auto|]. split; [now rewrite <- E|].
  assert (Hb : byid <> []).
  { destruct K as [_ [_ K3]]. destruct rows as [|r rows]; [contradiction|]. intro Z0. rewrite Z0 in K3. simpl in K3. apply (K3 (r_id r)). auto. }
  unfold sort_trades in V. cbv zeta in V. cbn [snd] in V. fold byid in V.
  destruct (validate_spec byid (negb (has_dup (sort_id (in_ns f rows)))) Srt Hb) as [V1 V2]. rewrite V1 in V. cbv zeta in V.
  injection V as -> -> ->. split; [|split].
  - intro d. rewrite in_map_iff. split.
    + intros [i [<- Hi]]. apply filter_In in Hi. destruct Hi as [Hi Hc]. apply in_seq in Hi. apply andb_true_iff in Hc. destruct Hc as [C1 C2].
      unfold is_gap, is_late in *. apply Z.ltb_lt in C1, C2. exists i. split; [lia|]. cbv zeta. fold row0. repeat split; auto.
    + intros [i [Hi [C1 [C2 ->]]]]. fold row0 in *. exists i. split; [reflexivity|]. apply filter_In. split; [apply in_seq; lia|].
      apply andb_true_iff. unfold is_gap, is_late. split; apply Z.ltb_lt; auto.
  - rewrite andb_true_iff, negb_true_iff, dup_iff by auto. rewrite in_ns_ids, Nat.eqb_eq, length_zero_iff_nil. reflexivity.
  - intros lo hi Hlo Hhi Hall. rewrite V2. pose proof (kept_len _ _ K) as L. rewrite in_ns_ids in L. rewrite <- L.
    assert (P : forall z, In z (map r_id byid) <-> In z (map r_id rows)).
    { intro z. destruct K as [K1 [_ K3]]. rewrite in_ns_ids in K3. split; [|apply K3]. intro Hz. apply in_map_iff in Hz. destruct Hz as [r [<- Hr]].
      rewrite <- (in_ns_ids f). now apply in_map, K1. }
    assert (Ends : r_id (nth 0 byid row0) = lo /\ r_id (nth (length byid - 1) byid row0) = hi).
    { pose proof (sorted_ends byid Srt) as SE. assert (Hl : (0 < length byid)%nat) by (destruct byid; [contradiction|simpl; lia]).
      assert (I1 : In (r_id (nth 0 byid row0)) (map r_id byid)) by (apply in_map, nth_In; lia).
      assert (I2 : In (r_id (nth (length byid - 1) byid row0)) (map r_id byid)) by (apply in_map, nth_In; lia).
      apply P in I1, I2. apply Hall in I1, I2. apply P in Hlo, Hhi. apply in_map_iff in Hlo, Hhi.
      destruct Hlo as [r1 [<- R1]], Hhi as [r2 [<- R2]]. specialize (SE r1 R1) as S1. specialize (SE r2 R2) as S2. lia. }
    destruct Ends as [-> ->].
    assert (C : Z.of_nat (length (missing_ids (map r_id rows) lo hi)) = (hi - lo - Z.of_nat (length byid - 1))%Z).
    { assert (EQ : missing_ids (map r_id rows) lo hi = missing_ids (map r_id byid) lo hi).
      { unfold missing_ids. apply filter_ext. intro z. f_equal.
        destruct (existsb (Z.eqb z) (map r_id rows)) eqn:E1, (existsb (Z.eqb z) (map r_id byid)) eqn:E2; auto.
        - apply existsb_in, P, existsb_in in E1. congruence.
        - apply existsb_in, P, existsb_in in E2. congruence. }
      rewrite EQ, missing_count; [| |intros z Hz; apply Hall; now apply P|specialize (Hall lo Hlo); lia].
      - rewrite map_length. assert (0 < length byid)%nat by (destruct byid; [contradiction|simpl; lia]). lia.
      - destruct K as [_ [K2 _]]. exact K2. }
    unfold Qnat at 2. rewrite C. reflexivity.
Qed.

Lemma api_errors sort_id ua proc rows ibm :
  (preprocess sort_id ua proc rows ibm = Raise ValueError <->
     (match ua with Some u => u | None => infer_unit (map r_ts rows) end) = U_other \/
     (proc = Some U_other /\ ua <> Some U_other)) /\
  (forall x, preprocess sort_id ua proc rows ibm = Raise x -> x = ValueError).
Proof.
  unfold preprocess. set (unit := match ua with Some u => u | None => _ end).
  assert (IU : infer_unit (map r_ts rows) <> U_other).
  { unfold infer_unit. destruct (map r_ts rows); [discriminate|]. cbv zeta. repeat (destruct (_ <? _)%Z; [discriminate|]). discriminate. }
  assert (UO : unit = U_other <-> ua = Some U_other) by (unfold unit; destruct ua; split; congruence).
  destruct (unit_ns unit) as [f|] eqn:F.
  - assert (Hu : unit <> U_other) by (intro E; rewrite E in F; discriminate).
    destruct (sort_trades _ _) as [sorted [[pct ok] ds]]. unfold apply_res. destruct proc as [p|].
    + destruct (tunit_eqb p unit) eqn:E.
      * apply tunit_eqb_eq in E. subst p. split; [split; [discriminate|]|discriminate]. intros [K|[K _]]; congruence.
      * destruct (unit_ns p) eqn:G; [split; [split; [discriminate|]|discriminate]|].
        -- intros [K|[K _]]; [congruence|]. injection K as ->. discriminate.
        -- split; [split; auto|congruence]. intros _. right. destruct p; try discriminate. split; [reflexivity|]. tauto.
    + split; [split; [discriminate|]|discriminate]. intros [K|[K _]]; congruence.
  - split; [split; auto|congruence]. intros _. left. destruct unit; try discriminate. reflexivity.
Qed.

(* ---------------------------------------------------------------- tick size *)
Lemma ilog10_spec fuel : forall d, (1 <= d < 10 ^ (Z.of_nat fuel + 1))%Z ->
  (0 <= ilog10 fuel d /\ 10 ^ ilog10 fuel d <= d < 10 ^ (ilog10 fuel d + 1))%Z.
Proof.
  induction fuel as [|fuel IH]; intros d Hd; simpl.
  - change (10 ^ (Z.of_nat 0 + 1))%Z with 10%Z in Hd. change (10 ^ 0)%Z with 1%Z. change (10 ^ (0 + 1))%Z with 10%Z. lia.
  - destruct (Z.ltb_spec d 10); [change (10 ^ 0)%Z with 1%Z; change (10 ^ (0 + 1))%Z with 10%Z; lia|].
    assert (E : (10 ^ (Z.of_nat (S fuel) + 1) = 10 * 10 ^ (Z.of_nat fuel + 1))%Z).
    { replace (Z.of_nat (S fuel) + 1)%Z with (Z.of_nat fuel + 1 + 1)%Z by lia. rewrite Z.pow_add_r by lia. change (10 ^ 1)%Z with 10%Z. lia. }
    assert (Hd' : (1 <= d / 10 < 10 ^ (Z.of_nat fuel + 1))%Z).
    { split; [apply Z.div_le_lower_bound; lia|apply Z.div_lt_upper_bound; lia]. }
    destruct (IH _ Hd') as [I0 [I1 I2]]. set (r := ilog10 fuel (d / 10)) in *. split; [lia|].
    replace (1 + r)%Z with (r + 1)%Z by lia. replace (10 ^ (r + 1 + 1))%Z with (10 * 10 ^ (r + 1))%Z by (rewrite (Z.pow_add_r 10 (r + 1) 1) by lia; change (10 ^ 1)%Z with 10%Z; lia).
    replace (10 ^ (r + 1))%Z with (10 * 10 ^ r)%Z in * by (rewrite Z.pow_add_r by lia; change (10 ^ 1)%Z with 10%Z; lia).
    pose proof (Z.div_mod d 10 ltac:(lia)). pose proof (Z.mod_pos_bound d 10 ltac:(lia)). lia.
Qed.
Lemma ilog10_exact d k : (0 <= k)%Z -> (10 ^ k <= d < 10 ^ (k + 1))%Z -> ilog10 (Z.to_nat (Z.log2 d)) d = k.
Proof.
  intros Hk Hd. assert (P0 : (0 < 10 ^ k)%Z) by (apply Z.pow_pos_nonneg; lia).
  assert (B : (1 <= d < 10 ^ (Z.of_nat (Z.to_nat (Z.log2 d)) + 1))%Z).
  { split; [lia|]. pose proof (Z.log2_nonneg d). rewrite Z2Nat.id by auto. pose proof (Z.log2_spec d ltac:(lia)) as [_ L].
    apply Z.lt_le_trans with (1 := L). apply Z.pow_le_mono_l. lia. }
  destruct (ilog10_spec _ _ B) as [R0 [R1 R2]]. set (r := ilog10 _ d) in *.
  assert (r < k + 1)%Z by (apply (Z.pow_lt_mono_r_iff 10); lia).
  assert (k < r + 1)%Z by (apply (Z.pow_lt_mono_r_iff 10); lia). lia.
Qed.

Lemma gcd_loop_pos l : forall t, (0 <= t)%Z -> (forall d, In d l -> (0 < d)%Z) -> (0 <= gcd_loop l t)%Z /\ ((0 < t)%Z \/ l <> [] -> (0 < gcd_loop l t)%Z).
Proof.
  induction l as [|d l IH]; intros t Ht Hl; simpl; [split; [auto|intros [|]; [auto|congruence]]|].
  pose proof (Hl d (or_introl eq_refl)) as Hd. destruct (Z.ltb_spec 0 d); [|lia].
  set (t' := if (t =? 0)%Z then d else Z.gcd t d).
  assert (Ht' : (0 < t')%Z).
  { unfold t'. destruct (Z.eqb_spec t 0); [auto|]. pose proof (Z.gcd_nonneg t d). destruct (Z.eq_dec (Z.gcd t d) 0) as [E|]; [apply Z.gcd_eq_0_l in E; lia|lia]. }
  destruct (Z.eqb_spec t' 1); [lia|]. destruct (IH t' ltac:(lia) ltac:(intros; apply Hl; simpl; auto)) as [I1 I2]. split; [auto|]. intros _. apply I2. auto.
Qed.
Lemma gcd_loop_div l : forall t, (0 <= t)%Z -> (forall d, In d l -> (0 < d)%Z) -> (gcd_loop l t | t)%Z /\ forall d, In d l -> (gcd_loop l t | d)%Z.
Proof.
  induction l as [|d l IH]; intros t Ht Hl; simpl; [split; [apply Z.divide_refl|tauto]|].
  pose proof (Hl d (or_introl eq_refl)) as Hd. destruct (Z.ltb_spec 0 d); [|lia].
  set (t' := if (t =? 0)%Z then d else Z.gcd t d).
  assert (D : (t' | t)%Z /\ (t' | d)%Z).
  { unfold t'. destruct (Z.eqb_spec t 0) as [->|]; [split; [apply Z.divide_0_r|apply Z.divide_refl]|]. split; [apply Z.gcd_divide_l|apply Z.gcd_divide_r]. }
  assert (Hp : (0 <= t')%Z) by (unfold t'; destruct (Z.eqb_spec t 0); [lia|apply Z.gcd_nonneg]).
  destruct (Z.eqb_spec t' 1) as [E1|].
  - rewrite E1. split; [apply Z.divide_1_l|]. intros; apply Z.divide_1_l.
  - destruct (IH t' Hp ltac:(intros; apply Hl; simpl; auto)) as [I1 I2]. split; [eapply Z.divide_trans; [exact I1|tauto]|].
    intros d' [<-|Hd']; [eapply Z.divide_trans; [exact I1|tauto]|auto].
Qed.
Lemma gcd_loop_comb (P : Z -> Prop) l : (forall a b u v, P a -> P b -> P (u * a + v * b)%Z) ->
  forall t, (0 <= t)%Z -> (forall d, In d l -> (0 < d)%Z) -> P t -> (forall d, In d l -> P d) -> P (gcd_loop l t).
Proof.
  intro HP. induction l as [|d l IH]; intros t Ht Hl Pt Pl; simpl; [auto|].
  pose proof (Hl d (or_introl eq_refl)) as Hd. destruct (Z.ltb_spec 0 d); [|lia].
  set (t' := if (t =? 0)%Z then d else Z.gcd t d).
  assert (Pt' : P t').
  { unfold t'. destruct (Z.eqb_spec t 0); [apply Pl; simpl; auto|]. destruct (Z.gcd_bezout t d (Z.gcd t d) eq_refl) as [a [b <-]].
    apply HP; [auto|apply Pl; simpl; auto]. }
  assert (Hp : (0 <= t')%Z) by (unfold t'; destruct (Z.eqb_spec t 0); [lia|apply Z.gcd_nonneg]).
  destruct (Z.eqb_spec t' 1); [auto|]. apply IH; auto; intros; [apply Hl|apply Pl]; simpl; auto.
Qed.

Lemma inj_minus a b : inject_Z (a - b) == inject_Z a - inject_Z b.
Proof. unfold Z.sub, Qminus. now rewrite inject_Z_plus, inject_Z_opp. Qed.
Lemma rhe_int x z : x == inject_Z z -> rhe x = z.
Proof.
  intro E. destruct (rhe_spec x) as [H _].
  set (r := rhe x) in *. clearbody r. rewrite E in H. apply Qabs_Qle_condition in H. destruct H as [H1 H2]. assert (A : (-1 < z - r < 1)%Z).
  { split; rewrite Zlt_Qlt, inj_minus; [change (inject_Z (-1)) with (- (1)); lra|change (inject_Z 1) with 1; lra]. }
  lia.
Qed.
Lemma zdiff_length l : length (zdiff l) = (length l - 1)%nat.
Proof. unfold zdiff. now rewrite map_length, seq_length. Qed.
Lemma zdiff_nth l i : (S i < length l)%nat -> nth i (zdiff l) 0%Z = (nth (S i) l 0 - nth i l 0)%Z.
Proof. intro H. unfold zdiff. now rewrite nth_map_seq by lia. Qed.
Lemma in_zdiff d l : In d (zdiff l) <-> exists i, (S i < length l)%nat /\ d = (nth (S i) l 0 - nth i l 0)%Z.
Proof.
  unfold zdiff. rewrite in_map_iff. split; intros [i [H1 H2]].
  - apply in_seq in H2. exists i. split; [lia|auto].
  - exists i. split; [auto|]. apply in_seq. lia.
Qed.
Lemma zdiff_scale c l : zdiff (map (Z.mul c) l) = map (Z.mul c) (zdiff l).
Proof.
  unfold zdiff. rewrite map_map, map_length. apply map_ext_in. intros i Hi. apply in_seq in Hi.
  rewrite !(nth_indep (map (Z.mul c) l) 0%Z (c * 0)%Z) by (rewrite map_length; lia). rewrite !map_nth. lia.
Qed.
Lemma min_pos_spec l : l <> [] -> (forall d, In d l -> (0 < d)%Z) -> In (min_pos l) l /\ forall d, In d l -> (min_pos l <= d)%Z.
Proof.
  induction l as [|x l IH]; [congruence|]. intros _ Hl. pose proof (Hl x (or_introl eq_refl)) as Hx.
  unfold min_pos in *. simpl. destruct (Z.ltb_spec 0 x); [|lia]. set (m := fold_right _ 0%Z l) in *.
  destruct l as [|y l].
  - simpl in m. subst m. rewrite Z.eqb_refl. split; [auto|]. intros d [<-|[]]. lia.
  - destruct IH as [I1 I2]; [discriminate|intros; apply Hl; simpl; auto|].
    assert (0 < m)%Z by (apply Hl; simpl in *; tauto). destruct (Z.eqb_spec m 0); [lia|]. split.
    + destruct (Z.min_spec x m) as [[_ ->]|[_ ->]]; auto.
    + intros d [<-|Hd]; [lia|]. specialize (I2 d Hd). lia.
Qed.
Lemma ssorted_nth l i j : StronglySorted Z.lt l -> (i < j < length l)%nat -> (nth i l 0 < nth j l 0)%Z.
Proof.
  intro H. revert i j. induction H as [|x l S IH F]; intros i j Hij; simpl in Hij; [lia|]. rewrite Forall_forall in F.
  destruct i as [|i], j as [|j]; simpl; try lia; [apply F, nth_In; lia|apply IH; lia].
Qed.
Lemma divides_tele (g : Z) l : (forall d, In d (zdiff l) -> (g | d)%Z) -> forall i j, (i <= j < length l)%nat -> (g | nth j l 0 - nth i l 0)%Z.
Proof.
  intros H i j [Hij Hj]. induction j as [|j IH].
  - assert (i = 0)%nat by lia. subst. rewrite Z.sub_diag. apply Z.divide_0_r.
  - destruct (Nat.eq_dec i (S j)) as [->|]; [rewrite Z.sub_diag; apply Z.divide_0_r|].
    replace (nth (S j) l 0 - nth i l 0)%Z with ((nth (S j) l 0 - nth j l 0) + (nth j l 0 - nth i l 0))%Z by lia.
    apply Z.divide_add_r; [apply H, in_zdiff; eauto|apply IH; lia].
Qed.

Lemma tick_unfold prices : prices <> [] -> comp_price_tick_size prices =
  let u := zunique (map round12 (firstn (Z.to_nat 10000) prices)) in
  if (length u <=? 1)%nat then Ok 0
  else
    let d := min_pos (zdiff u) in
    let L := ilog10 (Z.to_nat (Z.log2 d)) d in
    let ints := map (fun z => rhe (inject_Z z / inject_Z (10 ^ L))) u in
    Ok (inject_Z (gcd_loop (zdiff ints) 0) * inject_Z (10 ^ L) / inject_Z (10 ^ 12)).
Proof.
  intro Hne. unfold comp_price_tick_size. assert (Hs : firstn (Nat.min (Z.to_nat 10000) (length prices)) prices = firstn (Z.to_nat 10000) prices).
  { destruct (Nat.le_ge_cases (Z.to_nat 10000) (length prices)) as [L|L]; [now rewrite Nat.min_l by auto|].
    rewrite Nat.min_r by auto. now rewrite !firstn_all2 by lia. }
  rewrite Hs. destruct prices; [congruence|reflexivity].
Qed.

Lemma tick_exact prices k :
  let sample := firstn (Z.to_nat 10000) prices in
  let w := inject_Z (10 ^ k) / inject_Z (10 ^ 12) in
  (0 <= k)%Z -> (forall p, In p sample -> exists a, p == inject_Z a * w) ->
  (exists p q, In p sample /\ In q sample /\ 0 < p - q /\ p - q < 10 * w) ->
  exists t, comp_price_tick_size prices = Ok t /\ 0 < t /\
    (forall p q, In p sample -> In q sample -> Qdivides t (p - q)) /\
    (forall s, (forall p q, In p sample -> In q sample -> Qdivides s (p - q)) -> Qdivides s t).
Proof.
  intros sample w Hk Hgrid [p0 [q0 [Hp0 [Hq0 [Hpos Hsmall]]]]].
  assert (K0 : (0 < 10 ^ k)%Z) by (apply Z.pow_pos_nonneg; lia).
  assert (QK : 0 < inject_Z (10 ^ k)) by (change 0 with (inject_Z 0); now rewrite <- Zlt_Qlt).
  assert (QT : 0 < inject_Z (10 ^ 12)) by (change 0 with (inject_Z 0); now rewrite <- Zlt_Qlt).
  assert (Hw : 0 < w) by (unfold w; apply Qlt_shift_div_l; [auto|]; rewrite Qmult_0_l; auto).
  assert (HwT : w * inject_Z (10 ^ 12) == inject_Z (10 ^ k)) by (unfold w; field; lra).
  assert (R : forall p a, p == inject_Z a * w -> round12 p = (10 ^ k * a)%Z).
  { intros p a E. unfold round12. apply rhe_int. rewrite E, inject_Z_mult, <- HwT. ring. }
  rewrite tick_unfold by (intros ->; unfold sample in Hp0; rewrite firstn_nil in Hp0; destruct Hp0). cbv zeta. fold sample. set (u := zunique (map round12 sample)).
  set (b := map (fun z => (z / 10 ^ k)%Z) u).
  assert (Uin : forall z, In z u <-> exists p, In p sample /\ z = round12 p).
  { intro z. unfold u. rewrite zunique_in, in_map_iff. split; intros [p [H1 H2]]; exists p; auto. }
  assert (Ub : u = map (Z.mul (10 ^ k)) b).
  { unfold b. rewrite map_map. rewrite <- (map_id u) at 1. apply map_ext_in. intros z Hz. apply Uin in Hz. destruct Hz as [p [Hp ->]].
    destruct (Hgrid p Hp) as [a Ea]. rewrite (R p a Ea). rewrite (Z.mul_comm _ a), Z.div_mul by lia. lia. }
  assert (Bin : forall z, In z b <-> exists p, In p sample /\ p == inject_Z z * w).
  { intro z. unfold b. rewrite in_map_iff. split.
    - intros [y [<- Hy]]. apply Uin in Hy. destruct Hy as [p [Hp ->]]. destruct (Hgrid p Hp) as [a Ea]. exists p. split; [auto|].
      rewrite (R p a Ea), (Z.mul_comm _ a), Z.div_mul by lia. exact Ea.
    - intros [p [Hp E]]. exists (round12 p). rewrite (R p z E). split; [rewrite (Z.mul_comm _ z), Z.div_mul by lia; reflexivity|].
      apply Uin. exists p. split; [auto|]. now rewrite (R p z E). }
  assert (Su : StronglySorted Z.lt u) by apply zunique_sorted.
  assert (Sb : forall i j, (i < j < length b)%nat -> (nth i b 0 < nth j b 0)%Z).
  { intros i j Hij. assert (Lb : length u = length b) by (unfold b; now rewrite map_length).
    pose proof (ssorted_nth u i j Su ltac:(lia)) as H. rewrite Ub in H.
    rewrite !(nth_indep (map (Z.mul (10 ^ k)) b) 0%Z (10 ^ k * 0)%Z) in H by (rewrite map_length; lia). rewrite !map_nth in H. nia. }
  (* the close pair *)
  assert (Hpair : exists i j, (i < j < length b)%nat /\ (nth j b 0 - nth i b 0 < 10)%Z).
  { destruct (Hgrid p0 Hp0) as [a Ea], (Hgrid q0 Hq0) as [c Ec].
    assert (Ia : In a b) by (apply Bin; eauto). assert (Ic : In c b) by (apply Bin; eauto).
    assert (D : inject_Z (a - c) * w == p0 - q0) by (rewrite Ea, Ec, inj_minus; ring).
    assert (A1 : (c < a)%Z).
    { apply Z.lt_nge. intro L. assert (p0 - q0 <= 0); [|lra]. rewrite <- D. setoid_replace 0 with (0 * w) by ring.
      apply Qmult_le_compat_r; [|lra]. change 0 with (inject_Z 0). rewrite <- Zle_Qle. lia. }
    assert (A2 : (a - c < 10)%Z).
    { apply Z.lt_nge. intro L. assert (10 * w <= p0 - q0); [|lra]. rewrite <- D. apply Qmult_le_compat_r; [|lra].
      change 10 with (inject_Z 10). rewrite <- Zle_Qle. lia. }
    apply (In_nth _ _ 0%Z) in Ia, Ic. destruct Ia as [j [Hj Ja]], Ic as [i [Hi Ic]]. exists i, j. rewrite Ja, Ic. split; [|auto]. split; [|auto].
    destruct (Nat.lt_trichotomy i j) as [|[E|E]]; [auto|subst; lia|]. pose proof (Sb j i ltac:(lia)). lia. }
  destruct Hpair as [i0 [j0 [Hij0 Hd0]]].
  assert (Lu : length u = length b) by (unfold b; now rewrite map_length).
  destruct (Nat.leb_spec (length u) 1); [lia|].
  assert (Dp : forall d, In d (zdiff b) -> (0 < d)%Z).
  { intros d Hd. apply in_zdiff in Hd. destruct Hd as [i [Hi ->]]. pose proof (Sb i (S i) ltac:(lia)). lia. }
  assert (Dn : zdiff b <> []) by (intro E; apply (f_equal (@length Z)) in E; rewrite zdiff_length in E; simpl in E; lia).
  assert (EL : ilog10 (Z.to_nat (Z.log2 (min_pos (zdiff u)))) (min_pos (zdiff u)) = k).
  { apply ilog10_exact; [auto|]. rewrite Ub, zdiff_scale.
    destruct (min_pos_spec (map (Z.mul (10 ^ k)) (zdiff b))) as [M1 M2].
    - intro E. apply map_eq_nil in E. contradiction.
    - intros d Hd. apply in_map_iff in Hd. destruct Hd as [d' [<- Hd]]. specialize (Dp d' Hd). nia.
    - split.
      + apply in_map_iff in M1. destruct M1 as [d' [<- Hd]]. specialize (Dp d' Hd). nia.
      + assert (Hin : In (nth (S i0) b 0 - nth i0 b 0)%Z (zdiff b)) by (apply in_zdiff; exists i0; split; [lia|reflexivity]).
        specialize (M2 _ (in_map _ _ _ Hin)).
        assert (nth (S i0) b 0 <= nth j0 b 0)%Z.
        { destruct (Nat.eq_dec (S i0) j0) as [->|]; [lia|]. pose proof (Sb (S i0) j0 ltac:(lia)). lia. }
        rewrite Z.pow_add_r by lia. change (10 ^ 1)%Z with 10%Z. nia. }
  rewrite EL.
  assert (EI : map (fun z => rhe (inject_Z z / inject_Z (10 ^ k))) u = b).
  { rewrite Ub, map_map. rewrite <- (map_id b) at 2. apply map_ext. intro z. apply rhe_int. rewrite inject_Z_mult. field. lra. }
  rewrite EI. eexists. split; [reflexivity|]. set (g := gcd_loop (zdiff b) 0).
  assert (Hg : (0 < g)%Z) by (apply gcd_loop_pos; auto; lia).
  assert (Et : inject_Z g * inject_Z (10 ^ k) / inject_Z (10 ^ 12) == inject_Z g * w) by (unfold w; field; lra).
  split; [|split].
  - rewrite Et. apply Qmult_lt_0_compat; [|auto]. change 0 with (inject_Z 0). now rewrite <- Zlt_Qlt.
  - intros p q Hp Hq. destruct (Hgrid p Hp) as [a Ea], (Hgrid q Hq) as [c Ec].
    assert (Ia : In a b) by (apply Bin; eauto). assert (Ic : In c b) by (apply Bin; eauto).
    assert (Dv : (g | a - c)%Z).
    { destruct (gcd_loop_div (zdiff b) 0 ltac:(lia) Dp) as [_ G]. fold g in G. pose proof (divides_tele g b G) as T.
      apply (In_nth _ _ 0%Z) in Ia, Ic. destruct Ia as [j [Hj <-]], Ic as [i [Hi <-]].
      destruct (Nat.le_ge_cases i j); [apply T; lia|]. apply Z.divide_opp_r. replace (- (nth j b 0 - nth i b 0))%Z with (nth i b 0 - nth j b 0)%Z by lia. apply T. lia. }
    destruct Dv as [n Hn]. exists n. rewrite Et, Ea, Ec. setoid_replace (inject_Z a * w - inject_Z c * w) with (inject_Z (a - c) * w) by (rewrite inj_minus; ring).
    rewrite Hn, inject_Z_mult. ring.
  - intros s Hs. set (P := fun z : Z => Qdivides s (inject_Z z * w)).
    assert (PP : P g).
    { apply gcd_loop_comb; auto; try lia.
      - intros x y m n [kx Hx] [ky Hy]. exists (m * kx + n * ky)%Z. rewrite !inject_Z_plus, !inject_Z_mult.
        setoid_replace ((inject_Z m * inject_Z x + inject_Z n * inject_Z y) * w) with (inject_Z m * (inject_Z x * w) + inject_Z n * (inject_Z y * w)) by ring.
        rewrite Hx, Hy. ring.
      - exists 0%Z. change (inject_Z 0) with 0. ring.
      - intros d Hd. apply in_zdiff in Hd. destruct Hd as [i [Hi ->]].
        assert (I1 : In (nth (S i) b 0%Z) b) by (apply nth_In; lia). assert (I2 : In (nth i b 0%Z) b) by (apply nth_In; lia).
        apply Bin in I1, I2. destruct I1 as [p [Hp Ep]], I2 as [q [Hq Eq]]. destruct (Hs p q Hp Hq) as [m Hm]. exists m.
        rewrite <- Hm, Ep, Eq, inj_minus. ring. }
    destruct PP as [m Hm]. exists m. rewrite Et. exact Hm.
Qed.

Lemma tick_zero prices : (forall p q, In p (firstn (Z.to_nat 10000) prices) -> In q (firstn (Z.to_nat 10000) prices) -> p == q) -> prices <> [] ->
  comp_price_tick_size prices = Ok 0.
Proof.
  intros H Hne. rewrite tick_unfold by auto. cbv zeta. set (u := zunique _). destruct (Nat.leb_spec (length u) 1) as [|L]; [reflexivity|]. exfalso.
  pose proof (zunique_sorted (map round12 (firstn (Z.to_nat 10000) prices))) as S. fold u in S.
  pose proof (ssorted_nth u 0 1 S ltac:(lia)) as Lt.
  assert (I0 : In (nth 0 u 0%Z) u) by (apply nth_In; lia). assert (I1 : In (nth 1 u 0%Z) u) by (apply nth_In; lia).
  unfold u in I0, I1. rewrite zunique_in, in_map_iff in I0, I1. destruct I0 as [p [Ep Hp]], I1 as [q [Eq Hq]]. fold u in Ep, Eq.
  rewrite <- Ep, <- Eq in Lt. specialize (H p q Hp Hq). unfold round12 in Lt.
  assert (E1 : rhe (p * inject_Z (10 ^ 12)) = rhe (q * inject_Z (10 ^ 12))); [|lia].
  apply Z.le_antisymm; apply rhe_mono; rewrite H; lra.
Qed.

Lemma grouping_sep ts px am side gs ts' px' am' sd' k : grouping ts px am side gs ts' px' am' sd' -> (S k < length gs)%nat ->
  ~ (nth (S k) ts' 0%Z = nth k ts' 0%Z /\ Qabs (nth (S k) px' 0 - nth k px' 0) < 1 # 100000000 /\ nth (S k) sd' 0%Z = nth k sd' 0%Z).
Proof.
  intros [_ [_ [_ [_ [_ [G1 G2]]]]]] Hk [H1 [H2 H3]].
  destruct (nth_error gs k) as [g|] eqn:E; [|apply nth_error_None in E; lia].
  destruct (nth_error gs (S k)) as [g'|] eqn:E'; [|apply nth_error_None in E'; lia].
  apply (G2 k g g' E E'). destruct (G1 _ _ E) as [h [t [-> [A1 [A2 [A3 _]]]]]]. destruct (G1 _ _ E') as [h' [t' [-> [B1 [B2 [B3 _]]]]]].
  simpl. unfold joins. rewrite <- A1, <- A2, <- A3, <- B1, <- B2, <- B3. auto.
Qed.

Lemma api_sep sort_id ua proc rows ibm td k : sorts_by_id sort_id -> preprocess sort_id ua proc rows ibm = Ok td ->
  (proc = None \/ proc = Some (match ua with Some u => u | None => infer_unit (map r_ts rows) end)) ->
  (S k < length (td_rows td))%nat ->
  let a := nth k (td_rows td) (mkM 0 0 0 0) in let b := nth (S k) (td_rows td) (mkM 0 0 0 0) in
  ~ (m_ts b = m_ts a /\ Qabs (m_px b - m_px a) < 1 # 100000000 /\ (ibm <> None -> m_side b = m_side a)).
Proof.
  intros Hs H Hp Hk. cbv zeta. intros [H1 [H2 H3]].
  destruct (api_pre _ _ _ _ _ _ Hs H) as [unit [f [kept [gs [ts' [sd' [E [F [K [_ [_ [G [S [O _]]]]]]]]]]]]]].
  assert (Et : map m_ts (td_rows td) = ts').
  { unfold out_ts in O. destruct proc as [p|]; [|auto]. destruct O as [[_ O]|[O _]]; [auto|]. destruct Hp as [Hp|Hp]; [discriminate|]. congruence. }
  pose proof (grouping_sep _ _ _ _ _ _ _ _ _ k G) as N. destruct G as [_ [_ [L2 [_ [L4 [G1 _]]]]]].
  rewrite map_length in L2. apply N; [lia|]. rewrite <- Et.
  assert (T : forall j, nth j (map m_ts (td_rows td)) 0%Z = m_ts (nth j (td_rows td) (mkM 0 0 0 0))) by (intro; exact (map_nth m_ts _ (mkM 0 0 0 0) _)).
  assert (P : forall j, nth j (map m_px (td_rows td)) 0 = m_px (nth j (td_rows td) (mkM 0 0 0 0))) by (intro; exact (map_nth m_px _ (mkM 0 0 0 0) _)).
  rewrite !T, !P. split; [auto|]. split; [auto|].
  destruct ibm as [b|].
  - rewrite <- S.
    assert (D : forall j, nth j (map m_side (td_rows td)) 0%Z = m_side (nth j (td_rows td) (mkM 0 0 0 0))) by (intro; exact (map_nth m_side _ (mkM 0 0 0 0) _)).
    rewrite !D. apply H3. discriminate.
  - assert (Z0 : forall j, (j < length gs)%nat -> nth j sd' 0%Z = 0%Z).
    { intros j Hj. destruct (nth_error gs j) as [g|] eqn:Eg; [|apply nth_error_None in Eg; lia].
      destruct (G1 _ _ Eg) as [h [t [_ [_ [_ [-> _]]]]]]. reflexivity. }
    rewrite !Z0 by lia. reflexivity.
Qed.
