(** P_backend.v -- lemmas on rolling windows. *)
From Coq Require Import Qpower.
From Verif Require Import Base M_logic M_features S_features P_weights P_features M_transforms M_backend S_backend.
Open Scope Q_scope.

Lemma all_known_some {A} (l : list (option A)) w : all_known l = Some w <-> l = map Some w.
Proof.
  revert w. induction l as [|[a|] l IH]; intro w; cbn [all_known].
  - split; intro H; [injection H as <-; reflexivity|]. destruct w; [reflexivity|discriminate].
  - destruct (all_known l) as [r|]; cbn [option_map]; split; intro H.
    + injection H as <-. cbn [map]. f_equal. now apply IH.
    + destruct w as [|b w]; cbn [map] in H; [discriminate|]. injection H as -> H. f_equal. f_equal. apply IH in H. congruence.
    + discriminate.
    + destruct w as [|b w]; cbn [map] in H; [discriminate|]. injection H as -> H. apply IH in H. discriminate.
  - split; intro H; [discriminate|]. destruct w; discriminate.
Qed.
Lemma all_known_none {A} (l : list (option A)) : all_known l = None <-> In None l.
Proof.
  induction l as [|[a|] l IH]; cbn [all_known].
  - split; [discriminate|intros []].
  - destruct (all_known l); cbn [option_map]; split; intro H; try discriminate.
    + destruct H as [H|H]; [discriminate|]. apply IH in H. discriminate.
    + right. now apply IH.
    + reflexivity.
  - split; auto. intros _. now left.
Qed.
Lemma nth_seq_map {A} (f : nat -> A) a n k d : (k < n)%nat -> nth k (map f (seq a n)) d = f (a + k)%nat.
Proof.
  intro H. rewrite (nth_indep _ d (f 0%nat)) by (rewrite map_length, seq_length; lia).
  rewrite map_nth. now rewrite seq_nth.
Qed.
Lemma skip_win {A} (x : list (option A)) i n : (n <= i + 1)%nat -> (i < length x)%nat ->
  firstn n (skipn (i + 1 - n) x) = map (fun j => nth j x None) (seq (i + 1 - n) n).
Proof.
  intros Hn Hi. apply (nth_ext _ _ None None).
  - rewrite firstn_length, skipn_length, map_length, seq_length. lia.
  - intros k Hk. rewrite firstn_length, skipn_length in Hk. rewrite nth_firstn by lia. rewrite nth_skipn.
    rewrite nth_seq_map by lia. reflexivity.
Qed.
Lemma rolling_full x n i : (i < length x)%nat -> full x i n ->
  rolling x n i = Some (map (val x) (seq (i + 1 - n) n)).
Proof.
  intros Hi [Hn F]. unfold rolling. replace (i + 1 <? n)%nat with false by (symmetry; apply Nat.ltb_ge; lia).
  apply all_known_some. rewrite skip_win by lia. rewrite map_map. apply map_ext_in. intros j Hj. apply in_seq in Hj.
  unfold val. specialize (F j ltac:(lia) ltac:(lia)). destruct (nth j x None); congruence.
Qed.
Lemma rolling_none {A} (x : list (option A)) n i : (i < length x)%nat -> ~ full x i n -> rolling x n i = None.
Proof.
  intros Hi F. unfold rolling. destruct (Nat.ltb_spec (i + 1) n); [reflexivity|].
  destruct (all_known (firstn n (skipn (i + 1 - n) x))) eqn:E; [|reflexivity]. exfalso. apply F. split; [lia|].
  intros j H1 H2 N. apply all_known_some in E. rewrite skip_win in E by lia.
  assert (I : In None (map (fun j => nth j x None) (seq (i + 1 - n) n))) by (apply in_map_iff; exists j; split; [auto|apply in_seq; lia]).
  rewrite E in I. apply in_map_iff in I. destruct I as [y [Y _]]. discriminate.
Qed.
Lemma full_dec {A} (x : list (option A)) i n : {full x i n} + {~ full x i n}.
Proof.
  destruct (le_lt_dec n (i + 1)) as [H|H]; [|right; intros [K _]; lia].
  destruct (existsb (fun j => match nth j x None with None => true | Some _ => false end) (seq (i + 1 - n) n)) eqn:E.
  - right. intros [_ F]. apply existsb_exists in E. destruct E as [j [Hj N]]. apply in_seq in Hj.
    apply (F j); [lia|lia|]. destruct (nth j x None); [discriminate|reflexivity].
  - left. split; [auto|]. intros j H1 H2 N. assert (existsb (fun j => match nth j x None with None => true | Some _ => false end) (seq (i + 1 - n) n) = true); [|congruence].
    apply existsb_exists. exists j. split; [apply in_seq; lia|now rewrite N].
Qed.
Lemma complete_full {A} (x : list (option A)) i n : complete x -> (i < length x)%nat -> (n <= i + 1)%nat -> full x i n.
Proof. intros C Hi Hn. split; [auto|]. intros j H1 H2 N. apply C. rewrite <- N. apply nth_In. lia. Qed.
Lemma complete_map xs : complete (map (@Some Q) xs).
Proof. intro H. apply in_map_iff in H. destruct H as [x [H _]]. discriminate. Qed.
Lemma complete_known (x : list (option Q)) : complete x -> x = map Some (map (val x) (seq 0 (length x))).
Proof.
  intro C. apply (nth_ext _ _ None None); [now rewrite !map_length, seq_length|]. intros k Hk.
  rewrite map_map, nth_seq_map by lia. cbn [plus].
  unfold val. destruct (nth k x None) eqn:E; [reflexivity|]. exfalso. apply C. rewrite <- E. now apply nth_In.
Qed.
Lemma is_mean_unique m m' l : l <> [] -> is_mean m l -> is_mean m' l -> m == m'.
Proof.
  unfold is_mean. intros Hl H1 H2. assert (P : 0 < Qnat (length l)) by (apply Qnat_pos; destruct l; [congruence|cbn; lia]).
  rewrite <- H2 in H1. apply Qmult_inj_r in H1; [auto|lra].
Qed.
