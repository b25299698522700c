(** P_online.v -- a run on the trades so far compared with a run on all trades. *)
From Verif Require Import Base M_logic M_bars M_footprint M_trades M_fpdata M_builder S_logic S_pieces S_causal S_online
  P_logic P_cusumbar P_pieces P_shift P_shift2 P_time P_tbm.
Open Scope Z_scope.

Lemma starts_refl {A} (a : list A) : starts a a.
Proof. exists []. now rewrite app_nil_r. Qed.
Lemma starts_map {A B} (f : A -> B) a b : starts a b -> starts (map f a) (map f b).
Proof. intros [c ->]. exists (map f c). apply map_app. Qed.
Lemma starts_firstn {A} (a b : list A) : starts a b <-> firstn (length a) b = a.
Proof.
  split; [intros [c ->]; rewrite firstn_app, Nat.sub_diag, firstn_O, app_nil_r, firstn_all; reflexivity|].
  intro H. exists (skipn (length a) b). now rewrite <- H at 1; rewrite firstn_skipn.
Qed.
Lemma starts_tl {A} (a b : list A) : a <> [] -> starts a b -> starts (tl a) (tl b).
Proof. intros H [c ->]. exists c. destruct a; [easy|reflexivity]. Qed.
Lemma starts_nth {A} (a b : list A) d i : starts a b -> (i < length a)%nat -> nth i b d = nth i a d.
Proof. intros [c ->] H. now apply app_nth1. Qed.
Lemma starts_length {A} (a b : list A) : starts a b -> (length a <= length b)%nat.
Proof. intros [c ->]. rewrite app_length. lia. Qed.
Lemma starts_combine {A B} (a a' : list A) (b b' : list B) : length a = length b -> starts a a' -> starts b b' -> starts (combine a b) (combine a' b').
Proof.
  intros L [c ->] [d ->]. exists (combine c d). revert b L. induction a as [|x a IH]; intros [|y b] L; cbn in *; try lia; [reflexivity|].
  now rewrite IH by lia.
Qed.
Lemma starts_seq {B} (F G : nat -> B) n m : (n <= m)%nat -> (forall k, (k < n)%nat -> F k = G k) -> starts (map F (seq 0 n)) (map G (seq 0 m)).
Proof.
  intros H E. exists (map G (seq n (m - n))). replace m with (n + (m - n))%nat at 1 by lia. rewrite seq_app, map_app. f_equal.
  apply map_ext_in. intros k Hk. apply in_seq in Hk. symmetry. apply E. lia.
Qed.
Lemma causal_starts {R B} (f : list R -> list B) x y : causal f -> starts x y -> starts (f x) (f y).
Proof. intros C [z ->]. destruct (C x z) as [L E]. apply starts_firstn. now rewrite L. Qed.
Lemma causal_ok_starts {R B} (f : list R -> result (list B)) x y a b : causal_ok f -> starts x y -> f x = Ok a -> f y = Ok b -> starts a b.
Proof. intros C [z ->] Ha Hb. destruct (C x z a b Ha Hb) as [L E]. apply starts_firstn. now rewrite L. Qed.

(** ** Positions *)
Lemma sorted_split m l : StronglySorted lt l -> exists r, l = filter (fun i => i <? m)%nat l ++ r /\ forall i, In i r -> (m <= i)%nat.
Proof.
  intro S. induction S as [|x l S IH F]; [exists []; split; [reflexivity|intros i []]|]. cbn [filter]. destruct (Nat.ltb_spec x m) as [L|L].
  - destruct IH as (r & E & H). exists r. split; [cbn [app]; now f_equal|exact H].
  - exists (x :: l). rewrite Forall_forall in F. rewrite filter_lt_none by (intros i Hi; specialize (F i Hi); lia). split; [reflexivity|].
    intros i [<-|Hi]; [exact L|]. specialize (F i Hi). lia.
Qed.
Lemma filter_bound m l i : In i (filter (fun i => i <? m)%nat l) -> (i < m)%nat.
Proof. intro H. apply filter_In in H. destruct H as [_ H]. now apply Nat.ltb_lt in H. Qed.
Lemma sorted_start {S} (st : S -> nat -> S) idx s0 x a n : (forall s i, idx (st s i) = idx s \/ idx (st s i) = idx s ++ [i]) -> idx s0 = [x] -> (x < a)%nat ->
  StronglySorted lt (idx (fold_left st (seq a n) s0)).
Proof.
  intros Ha E L. destruct (idx_fold_sorted st idx Ha a n s0) as (e & -> & Se & He). rewrite E. cbn [app]. constructor; [exact Se|].
  apply Forall_forall. intros i Hi. specialize (He i Hi). lia.
Qed.
Lemma nonempty_start {S} (st : S -> nat -> S) idx s0 x a n : (forall s i, idx (st s i) = idx s \/ idx (st s i) = idx s ++ [i]) -> idx s0 = [x] ->
  idx (fold_left st (seq a n) s0) <> [].
Proof. intros Ha E. destruct (idx_fold_sorted st idx Ha a n s0) as (e & -> & _). rewrite E. discriminate. Qed.

(** The positions of all trades are those of the trades so far and later ones. *)
Definition grown (n : nat) (a b : list nat) : Prop := a <> [] /\ StronglySorted lt a /\ starts a b /\ forall i, In i a -> (i < n)%nat.
Lemma filter_sorted m l : StronglySorted lt l -> StronglySorted lt (filter (fun i => i <? m)%nat l).
Proof.
  intro S. induction S as [|x l S IH F]; [constructor|]. cbn [filter]. destruct (x <? m)%nat; [|exact IH]. constructor; [exact IH|].
  apply Forall_forall. intros i Hi. apply filter_In in Hi. rewrite Forall_forall in F. now apply F.
Qed.
Lemma grown_of m a b : a <> [] -> StronglySorted lt b -> filter (fun i => i <? m)%nat b = a -> grown m a b.
Proof.
  intros Ha Sb E. destruct (sorted_split m b Sb) as (r & Eb & _). rewrite E in Eb. split; [exact Ha|]. split; [rewrite <- E; now apply filter_sorted|].
  split; [exists r; exact Eb|]. intros i Hi. rewrite <- E in Hi. now apply filter_bound in Hi.
Qed.
Lemma first_app {A} (a b : list A) : firstn (length a) (a ++ b) = a.
Proof. now rewrite firstn_app, Nat.sub_diag, firstn_O, app_nil_r, firstn_all. Qed.

Lemma tick_app thr s i : fst (tick_step thr s i) = fst s \/ fst (tick_step thr s i) = fst s ++ [i].
Proof. destruct s. unfold tick_step. destruct (_ <=? _); cbn; auto. Qed.
Lemma volume_app v thr s i : fst (volume_step v thr s i) = fst s \/ fst (volume_step v thr s i) = fst s ++ [i].
Proof. destruct s. unfold volume_step. destruct (Qleb _ _); cbn; auto. Qed.
Lemma dollar_app p v thr s i : fst (dollar_step p v thr s i) = fst s \/ fst (dollar_step p v thr s i) = fst s ++ [i].
Proof. destruct s. unfold dollar_step. destruct (Qleb _ _); cbn; auto. Qed.

Section Online.
  Variable ln log1p : Q -> Q.
  Variables t u : trades.
  Hypothesis Ht : tidy t.
  Hypothesis Hu : length (t_px u) = length (t_ts u) /\ length (t_am u) = length (t_ts u) /\ exists s, t_side u = Some s /\ length s = length (t_ts u).
  Let n := length (t_ts t).
  Let tu := joined t u.

  Lemma n_pos : (1 <= n)%nat.
  Proof. destruct Ht as [H _]. unfold n. destruct (t_ts t); [easy|cbn; lia]. Qed.
  Lemma tick_grown thr : grown n (tick_bar_indexer n thr) (tick_bar_indexer (length (t_ts tu)) thr).
  Proof.
    pose proof n_pos. apply grown_of; [|unfold tick_bar_indexer; eapply (sorted_start (tick_step thr) fst _ 0%nat); [apply tick_app|reflexivity|lia]|].
    - unfold tick_bar_indexer. eapply nonempty_start; [apply tick_app|reflexivity].
    - apply tick_prefix. unfold tu, joined. cbn [t_ts]. rewrite app_length. fold n. lia.
  Qed.
  Lemma volume_grown thr : grown n (volume_bar_indexer (t_am t) thr) (volume_bar_indexer (t_am tu) thr).
  Proof.
    pose proof n_pos. destruct Ht as (_ & Lp & La & _). apply grown_of; [|unfold volume_bar_indexer; eapply (sorted_start (volume_step _ thr) fst _ 0%nat); [apply volume_app|reflexivity|lia]|].
    - unfold volume_bar_indexer. eapply nonempty_start; [apply volume_app|reflexivity].
    - unfold tu, joined. cbn [t_am]. rewrite volume_prefix by (rewrite app_length, La; fold n; lia). f_equal. unfold n. rewrite <- La. apply first_app.
  Qed.
  Lemma dollar_grown thr : grown n (dollar_bar_indexer (t_px t) (t_am t) thr) (dollar_bar_indexer (t_px tu) (t_am tu) thr).
  Proof.
    pose proof n_pos. destruct Ht as (_ & Lp & La & _). apply grown_of; [|unfold dollar_bar_indexer, dollar_bar_run; eapply (sorted_start (dollar_step _ _ thr) fst _ 0%nat); [apply dollar_app|reflexivity|lia]|].
    - unfold dollar_bar_indexer, dollar_bar_run. eapply nonempty_start; [apply dollar_app|reflexivity].
    - unfold tu, joined. cbn [t_am t_px]. rewrite dollar_prefix by (rewrite app_length, Lp; fold n; lia). f_equal; unfold n; [rewrite <- Lp|rewrite <- La]; apply first_app.
  Qed.
  Lemma known_app s s' f : first_known s f -> (f < length s)%nat -> first_known (s ++ s') f.
  Proof. intros [[x E] H] L. split; [exists x; now rewrite app_nth1|]. intros j Hj. rewrite app_nth1 by lia. now apply H. Qed.
  Lemma cusum_grown s s' flr mult f : length s = n -> length s' = length (t_ts u) -> first_known s f -> (f < length s)%nat ->
    (t_ts u <> [] -> last (t_ts t) 0 <> hd 0 (t_ts u)) ->
    grown n (cusum_bar_indexer ln (t_ts t) (t_px t) s flr mult) (cusum_bar_indexer ln (t_ts tu) (t_px tu) (s ++ s') flr mult).
  Proof.
    intros Ls Ls' Hf Lf Hb. pose proof n_pos. destruct Ht as (_ & Lp & La & _). destruct Hu as (Lpu & _ & _). apply grown_of.
    - unfold cusum_bar_indexer. eapply nonempty_start; [apply cusum_bar_app|reflexivity].
    - unfold cusum_bar_indexer. eapply (sorted_start _ cs_idx _ (first_non_nan (s ++ s'))); [apply cusum_bar_app|reflexivity|lia].
    - unfold tu, joined. cbn [t_ts t_px]. rewrite (cusum_bar_prefix ln _ _ _ flr mult f n).
      + f_equal; unfold n; [|rewrite <- Lp|fold n; rewrite <- Ls]; apply first_app.
      + rewrite !app_length. lia.
      + rewrite !app_length. fold n. lia.
      + now apply known_app.
      + rewrite app_length. fold n. lia.
      + intros [B1 B2]. rewrite app_length in B1. fold n in B1. assert (Nu : t_ts u <> []) by (intro E; rewrite E in B1; cbn in B1; lia). apply (Hb Nu).
        rewrite (last_nth_ (t_ts t) 0) by (intro E; unfold n in *; rewrite E in *; cbn in *; lia). fold n.
        rewrite app_nth1 in B2 by (fold n; lia). rewrite B2. rewrite app_nth2 by (fold n; lia). fold n. replace (n - 1 + 1 - n)%nat with 0%nat by lia.
        destruct (t_ts u); [easy|reflexivity].
  Qed.

  (** The closes as times and positions. *)
  Definition pos_ok (c : list Z) : Prop := c <> [] /\ (forall i, In i c -> 0 <= i < Z.of_nat n) /\ forall k, (S k < length c)%nat -> nth k c 0 <= nth (S k) c 0.
  Lemma gather_grown a b c i c' i' : grown n a b -> gather (t_ts t) a = Ok (c, i) -> gather (t_ts tu) b = Ok (c', i') ->
    starts c c' /\ starts i i' /\ length c = length i /\ pos_ok i.
  Proof.
    intros (Na & Sa & [r ->] & Ba). unfold gather. destruct (forallb _ a); [|discriminate]. destruct (forallb _ (a ++ r)); [|discriminate].
    intros H1 H2. injection H1 as <- <-. injection H2 as <- <-. unfold tu, joined. cbn [t_ts]. split; [|split; [|split]].
    - rewrite map_app. exists (map (fun i => nth i (t_ts t ++ t_ts u) 0) r). f_equal. apply map_ext_in. intros i Hi. apply app_nth1. now apply Ba.
    - rewrite map_app. eexists. reflexivity.
    - now rewrite !map_length.
    - split; [|split].
      + destruct a; [easy|discriminate].
      + intros i Hi. apply in_map_iff in Hi. destruct Hi as (j & <- & Hj). specialize (Ba j Hj). lia.
      + intros k Hk. rewrite map_length in Hk. change 0 with (Z.of_nat 0). rewrite (map_nth Z.of_nat a 0%nat k), (map_nth Z.of_nat a 0%nat (S k)). apply Nat2Z.inj_le. clear -Sa Hk. revert k Hk. induction Sa as [|x l S IH F]; intros k Hk; cbn in Hk; [lia|].
        rewrite Forall_forall in F. destruct k as [|k]; cbn [nth]; [apply Nat.lt_le_incl, F, nth_In; lia|apply IH; lia].
  Qed.
  Lemma closes_grown k k' c i c' i' : same_builder t u k k' ->
    fst (comp_bar_close ln k t) = Ok (c, i) -> fst (comp_bar_close ln k' tu) = Ok (c', i') ->
    starts c c' /\ starts i i' /\ length c = length i /\ pos_ok i.
  Proof.
    intros SB. destruct SB as [m|thr|thr|s s' flr mult f Ls Ls' Hf Lf Hb]; cbn [comp_bar_close fst].
    - apply gather_grown, tick_grown.
    - apply gather_grown, volume_grown.
    - apply gather_grown, dollar_grown.
    - destruct (cusum_len_check (t_ts t) (t_px t) s); [|discriminate]. destruct (cusum_len_check (t_ts tu) (t_px tu) (s ++ s')); [|discriminate].
      cbn [fst]. apply gather_grown. now apply (cusum_grown s s' flr mult f).
  Qed.

  (** ** One bar *)
  Lemma bar_dir_l sa sb s e : length sa = n -> 0 <= s -> e < Z.of_nat n ->
    bar_directional (t_px t ++ t_px u) (t_am t ++ t_am u) (sa ++ sb) s e = bar_directional (t_px t) (t_am t) sa s e.
  Proof.
    intros Ls H1 H2. destruct Ht as (_ & Lp & La & _). fold n in Lp, La. unfold bar_directional. cbv zeta.
    assert (P : (if s + 1 <? e then zget 0 (sa ++ sb) (s + 1 - 1) else 0) = (if s + 1 <? e then zget 0 sa (s + 1 - 1) else 0)).
    { destruct (Z.ltb_spec (s + 1) e); [|reflexivity]. apply zget_l. lia. }
    rewrite P. rewrite (fold_ext_in (d_step (t_px t ++ t_px u) (t_am t ++ t_am u) (sa ++ sb)) (d_step (t_px t) (t_am t) sa)); [reflexivity|].
    intros st j Hj. apply Base.in_zrange in Hj. unfold d_step. rewrite (zget_l 0 sa) by lia. rewrite (zget_l _ (t_px t) _ j), (zget_l _ (t_px t) _ (j - 1)), (zget_l _ (t_am t)) by lia. reflexivity.
  Qed.
  Lemma slice_l {A} (a b : list A) x y : 0 <= x -> y <= Z.of_nat (length a) -> slice (a ++ b) x y = slice a x y.
  Proof.
    intros H0 H. unfold slice. rewrite skipn_app, firstn_app.
    replace (firstn (Z.to_nat (y - x) - length (skipn (Z.to_nat x) a)) (skipn (Z.to_nat x - length a) b)) with (@nil A); [apply app_nil_r|].
    symmetry. rewrite skipn_length. replace (Z.to_nat (y - x) - (length a - Z.to_nat x))%nat with 0%nat by lia. reflexivity.
  Qed.
  Lemma bar_size_l theta mult s e : 0 <= s -> e < Z.of_nat n ->
    bar_size log1p (t_am t ++ t_am u) theta mult s e = bar_size log1p (t_am t) theta mult s e.
  Proof.
    intros H1 H2. destruct Ht as (_ & Lp & La & _). fold n in Lp, La. unfold bar_size. cbv zeta. destruct (e <? s + 1); [reflexivity|].
    destruct (Qeqb theta 0); [reflexivity|]. rewrite slice_l by lia. reflexivity.
  Qed.
  Lemma bar_foot_l sa sb tick lo hi mult s e : length sa = n -> 0 <= s -> e < Z.of_nat n ->
    bar_footprint (t_px t ++ t_px u) (t_am t ++ t_am u) (sa ++ sb) tick lo hi mult s e = bar_footprint (t_px t) (t_am t) sa tick lo hi mult s e.
  Proof.
    intros Ls H1 H2. destruct Ht as (_ & Lp & La & _). fold n in Lp, La. unfold bar_footprint. cbv zeta. destruct (Qeqb tick 0); [reflexivity|].
    destruct (_ <? 0); [reflexivity|]. rewrite (fold_ext_in (fp_step (t_px t ++ t_px u) (t_am t ++ t_am u) (sa ++ sb) tick (rhe (lo / tick)) (rhe (hi / tick) - rhe (lo / tick) + 1))
      (fp_step (t_px t) (t_am t) sa tick (rhe (lo / tick)) (rhe (hi / tick) - rhe (lo / tick) + 1))); [reflexivity|].
    intros st j Hj. apply Base.in_zrange in Hj. unfold fp_step. destruct st; [|reflexivity]. rewrite (zget_l 0 sa) by lia. rewrite (zget_l _ (t_px t)), (zget_l _ (t_am t)) by lia. reflexivity.
  Qed.
  Lemma pos_nth c k : pos_ok c -> (k < length c)%nat -> 0 <= nth k c 0 < Z.of_nat n.
  Proof. intros (_ & H & _) L. apply H, nth_In, L. Qed.

  (** ** The columns *)
  Lemma ohlcv_rows i i' a b : pos_ok i -> starts i i' -> comp_bar_ohlcv (t_px t) (t_am t) i = Ok a -> comp_bar_ohlcv (t_px tu) (t_am tu) i' = Ok b ->
    starts a b /\ length a = (length i - 1)%nat.
  Proof.
    intros PO SI. destruct Ht as (_ & Lp & La & _). fold n in Lp, La. unfold comp_bar_ohlcv. destruct (negb _); [discriminate|]. destruct (_ <? 2)%nat; [discriminate|].
    destruct (negb _); [discriminate|]. destruct (_ <? 2)%nat; [discriminate|]. intros H1 H2. injection H1 as <-. injection H2 as <-.
    rewrite map_length, seq_length. split; [|reflexivity]. apply starts_seq; [pose proof (starts_length _ _ SI); lia|]. intros k Hk.
    rewrite !(starts_nth i i' 0) by (auto; lia). unfold tu, joined. cbn [t_px t_am]. symmetry. pose proof (pos_nth i k PO ltac:(lia)). pose proof (pos_nth i (S k) PO ltac:(lia)).
    destruct PO as (_ & _ & PM). specialize (PM k ltac:(lia)). apply bar_l; lia.
  Qed.
  Lemma dir_rows sa sb i i' : length sa = n -> pos_ok i -> starts i i' ->
    starts (comp_bar_directional (t_px t) (t_am t) sa i) (comp_bar_directional (t_px tu) (t_am tu) (sa ++ sb) i').
  Proof.
    intros Ls PO SI. unfold comp_bar_directional. apply starts_seq; [pose proof (starts_length _ _ SI); lia|]. intros k Hk.
    rewrite !(starts_nth i i' 0) by (auto; lia). unfold tu, joined. cbn [t_px t_am]. symmetry. pose proof (pos_nth i k PO ltac:(lia)). pose proof (pos_nth i (S k) PO ltac:(lia)).
    apply bar_dir_l; lia.
  Qed.
  Lemma size_rows th th' mult i i' a b : pos_ok i -> starts i i' -> starts th th' ->
    comp_bar_size log1p (t_am t) th i mult = Ok a -> comp_bar_size log1p (t_am tu) th' i' mult = Ok b -> starts a b.
  Proof.
    intros PO SI ST. unfold comp_bar_size. destruct (Z.eqb_spec (Z.of_nat (length th)) (Z.of_nat (length i) - 1)) as [E|]; cbn [negb]; [|discriminate]. destruct (negb _); [discriminate|].
    intros H1 H2. injection H1 as <-. injection H2 as <-. apply starts_seq; [pose proof (starts_length _ _ SI); lia|]. intros k Hk.
    rewrite !(starts_nth i i' 0) by (auto; lia). rewrite (starts_nth th th' 0%Q) by (auto; lia). unfold tu, joined. cbn [t_am]. symmetry. pose proof (pos_nth i k PO ltac:(lia)). pose proof (pos_nth i (S k) PO ltac:(lia)).
    apply bar_size_l; lia.
  Qed.
  Lemma run_all_app {A} (f : nat -> result A) a b l : run_all f (a ++ b) = Ok l -> exists l1 l2, l = l1 ++ l2 /\ run_all f a = Ok l1.
  Proof.
    revert l. induction a as [|k a IH]; intros l H; cbn [app run_all] in *; [exists [], l; auto|]. destruct (f k) as [x|]; [|discriminate].
    destruct (run_all f (a ++ b)) as [y|] eqn:E; [|discriminate]. injection H as <-. destruct (IH y eq_refl) as (l1 & l2 & -> & E1). rewrite E1.
    exists (x :: l1), l2. auto.
  Qed.
  Lemma run_all_ext {A} (f g : nat -> result A) a : (forall k, In k a -> f k = g k) -> run_all f a = run_all g a.
  Proof. induction a as [|k a IH]; intro H; cbn [run_all]; [reflexivity|]. rewrite (H k (or_introl eq_refl)), IH; [reflexivity|]. intros; apply H; now right. Qed.
  Lemma foot_rows sa sb tick lo lo' hi hi' mult i i' a b : length sa = n -> pos_ok i -> starts i i' -> starts lo lo' -> starts hi hi' ->
    length lo = (length i - 1)%nat -> length hi = (length i - 1)%nat ->
    comp_bar_footprints (t_px t) (t_am t) i sa tick lo hi mult = Ok a -> comp_bar_footprints (t_px tu) (t_am tu) i' (sa ++ sb) tick lo' hi' mult = Ok b -> starts a b.
  Proof.
    intros Ls PO SI SL SH Ll Lh. unfold comp_bar_footprints. pose proof (starts_length _ _ SI) as LI.
    replace (length i' - 1)%nat with ((length i - 1) + (length i' - length i))%nat by (destruct PO as (N & _); destruct i; [easy|cbn in *; lia]).
    rewrite seq_app. intros H1 H2. destruct (run_all_app _ _ _ _ H2) as (l1 & l2 & -> & E). exists l2. f_equal.
    rewrite (run_all_ext _ (fun k => bar_footprint (t_px t) (t_am t) sa tick (nth k lo 0%Q) (nth k hi 0%Q) mult (nth k i 0) (nth (S k) i 0))) in E; [rewrite H1 in E; now injection E|].
    intros k Hk. apply in_seq in Hk. rewrite !(starts_nth i i' 0) by (auto; lia). rewrite (starts_nth lo lo' 0%Q), (starts_nth hi hi' 0%Q) by (auto; lia).
    unfold tu, joined. cbn [t_px t_am]. pose proof (pos_nth i k PO ltac:(lia)). pose proof (pos_nth i (S k) PO ltac:(lia)). apply bar_foot_l; lia.
  Qed.
  Lemma frame_rows {A} c c' (a b : list A) x y : c <> [] -> starts c c' -> starts a b -> frame c a = Ok x -> frame c' b = Ok y -> starts x y.
  Proof.
    intros N SC SA. unfold frame. destruct (Nat.eqb_spec (length (tl c)) (length a)); [|discriminate]. destruct (_ =? _)%nat; [|discriminate].
    intros H1 H2. injection H1 as <-. injection H2 as <-. apply starts_combine; [assumption| |exact SA]. now apply starts_tl.
  Qed.

  (** ** Every call *)
  Lemma set_close_fresh k v : set_close ln (fresh k v) =
    (fst (comp_bar_close ln k v), mkBd (snd (comp_bar_close ln k v)) v (match fst (comp_bar_close ln k v) with Ok c => Some c | Raise _ => None end) None).
  Proof. unfold set_close, fresh. cbn [bd_close bd_kit bd_tr bd_hl]. destruct (comp_bar_close ln k v) as [[c|e] k1]; reflexivity. Qed.
  Lemma ohlcv_fresh k v f : fst (build_ohlcv ln (fresh k v)) = Ok f -> exists c i a, fst (comp_bar_close ln k v) = Ok (c, i) /\
    comp_bar_ohlcv (t_px v) (t_am v) i = Ok a /\ frame c a = Ok f.
  Proof.
    unfold build_ohlcv. rewrite set_close_fresh. destruct (fst (comp_bar_close ln k v)) as [[c i]|e]; [|discriminate]. cbn [bd_tr bd_kit].
    destruct (comp_bar_ohlcv _ _ i) as [a|] eqn:E; [|discriminate]. destruct (frame c a) as [g|] eqn:G; [|discriminate]. cbn [fst].
    destruct (freq_ok _ _); [|discriminate]. intro H. injection H as <-. exists c, i, a. auto.
  Qed.
  Lemma sides_t : exists sa, t_side t = Some sa /\ length sa = n.
  Proof. destruct Ht as (_ & _ & _ & S). exact S. Qed.
  Lemma sides_tu sa : t_side t = Some sa -> exists sb, t_side tu = Some (sa ++ sb).
  Proof. intro E. destruct Hu as (_ & _ & sb & Eb & _). exists sb. unfold tu, joined. cbn [t_side]. now rewrite E, Eb. Qed.
  Lemma ne_length {A B} (a : list A) (b : list B) : length a = length b -> b <> [] -> a <> [].
  Proof. destruct a, b; cbn; intros; try easy. Qed.

  Lemma need_fresh v hl k1 c i :
    fst (need_hl ln (mkBd k1 v (Some (c, i)) None)) = Ok hl -> exists a, comp_bar_ohlcv (t_px v) (t_am v) i = Ok a /\ hl = (map b_high a, map b_low a).
  Proof.
    unfold need_hl. cbn [bd_hl]. unfold build_ohlcv, set_close. cbn [bd_close bd_tr bd_kit]. destruct (comp_bar_ohlcv _ _ i) as [a|]; [|discriminate].
    intro H. exists a. split; [reflexivity|]. destruct (frame c a) as [g|]; [|discriminate]. cbn [bd_kit bd_hl] in H. destruct (freq_ok _ _); [|discriminate]. cbn in H. now injection H.
  Qed.
  Lemma need_keeps v hl k1 c i b : need_hl ln (mkBd k1 v (Some (c, i)) None) = (Ok hl, b) -> bd_tr b = v.
  Proof.
    unfold need_hl. cbn [bd_hl]. unfold build_ohlcv, set_close. cbn [bd_close bd_tr bd_kit]. destruct (comp_bar_ohlcv _ _ i) as [a|]; [|discriminate].
    destruct (frame c a) as [g|]; [|discriminate]. cbn [bd_kit bd_hl]. destruct (freq_ok _ _); [|discriminate]. intro H. injection H as _ <-. reflexivity.
  Qed.
  Lemma foot_fresh k v q mult fd : fst (build_footprints ln (fresh k v) (Some q) mult) = Ok fd -> exists c i a sd l,
    fst (comp_bar_close ln k v) = Ok (c, i) /\ comp_bar_ohlcv (t_px v) (t_am v) i = Ok a /\ t_side v = Some sd /\
    comp_bar_footprints (t_px v) (t_am v) i sd q (map b_low a) (map b_high a) mult = Ok l /\ fd = to_fpdata (tl c) q l.
  Proof.
    unfold build_footprints. rewrite set_close_fresh. destruct (fst (comp_bar_close ln k v)) as [[c i]|e]; [|discriminate].
    set (k1 := snd (comp_bar_close ln k v)). destruct (need_hl ln (mkBd k1 v (Some (c, i)) None)) as [[[hi lo]|] b] eqn:E; [|discriminate].
    pose proof (need_keeps _ _ _ _ _ _ E) as KB. destruct (need_fresh v (hi, lo) k1 c i) as (a & Ea & EH); [now rewrite E|]. injection EH as -> ->.
    cbv iota. rewrite KB. destruct (t_side v) as [sd|] eqn:ES; [|discriminate]. destruct (comp_bar_footprints _ _ _ _ _ _ _ _) as [l|] eqn:EF; [|discriminate]. cbn [fst].
    intro H. injection H as <-. exists c, i, a, sd, l. auto.
  Qed.

  Theorem online_calls k k' c c' r r' : same_builder t u k k' -> same_call c c' ->
    fst (exec ln log1p (fresh k t) c) = Ok r -> fst (exec ln log1p (fresh k' tu) c') = Ok r' -> starts_reply r r'.
  Proof.
    intros SB SC. destruct SC as [| |th th' mult ST|tick mult| | |]; cbn [exec]; unfold tag; cbn [fst].
    - destruct (fst (build_ohlcv ln (fresh k t))) as [f|] eqn:E1; [|discriminate]. destruct (fst (build_ohlcv ln (fresh k' tu))) as [g|] eqn:E2; [|discriminate].
      intros H1 H2. injection H1 as <-. injection H2 as <-. cbn [starts_reply].
      destruct (ohlcv_fresh _ _ _ E1) as (cc & i & a & C1 & A1 & F1). destruct (ohlcv_fresh _ _ _ E2) as (cc' & i' & b & C2 & A2 & F2).
      destruct (closes_grown k k' cc i cc' i' SB C1 C2) as (S1 & S2 & L & PO). destruct (ohlcv_rows i i' a b PO S2 A1 A2) as [SR _].
      refine (frame_rows cc cc' a b f g _ S1 SR F1 F2). apply (ne_length _ _ L), PO.
    - unfold build_directional. rewrite !set_close_fresh. destruct (fst (comp_bar_close ln k t)) as [[cc i]|] eqn:C1; [|discriminate]. destruct (fst (comp_bar_close ln k' tu)) as [[cc' i']|] eqn:C2; [|discriminate].
      cbn [bd_tr]. destruct sides_t as (sa & Es & Ls). destruct (sides_tu sa Es) as (sb & Es'). rewrite Es, Es'. cbn [fst].
      destruct (closes_grown k k' cc i cc' i' SB C1 C2) as (S1 & S2 & L & PO).
      destruct (frame cc (comp_bar_directional (t_px t) (t_am t) sa i)) as [f|] eqn:F1; [|discriminate].
      destruct (frame cc' (comp_bar_directional (t_px tu) (t_am tu) (sa ++ sb) i')) as [g|] eqn:F2; [|discriminate].
      intros H1 H2. injection H1 as <-. injection H2 as <-. cbn [starts_reply]. refine (frame_rows cc cc' _ _ f g _ S1 (dir_rows sa sb i i' Ls PO S2) F1 F2). apply (ne_length _ _ L), PO.
    - unfold build_size. rewrite !set_close_fresh. destruct (fst (comp_bar_close ln k t)) as [[cc i]|] eqn:C1; [|discriminate]. destruct (fst (comp_bar_close ln k' tu)) as [[cc' i']|] eqn:C2; [|discriminate].
      cbn [bd_tr]. destruct (closes_grown k k' cc i cc' i' SB C1 C2) as (S1 & S2 & L & PO).
      destruct (comp_bar_size log1p (t_am t) th i mult) as [a|] eqn:A1; [|discriminate]. destruct (comp_bar_size log1p (t_am tu) th' i' mult) as [b|] eqn:A2; [|discriminate]. cbn [fst].
      destruct (frame cc a) as [f|] eqn:F1; [|discriminate]. destruct (frame cc' b) as [g|] eqn:F2; [|discriminate].
      intros H1 H2. injection H1 as <-. injection H2 as <-. cbn [starts_reply]. refine (frame_rows cc cc' _ _ f g _ S1 (size_rows th th' mult i i' a b PO S2 ST A1 A2) F1 F2). apply (ne_length _ _ L), PO.
    - destruct (fst (build_footprints ln (fresh k t) (Some tick) mult)) as [fd|] eqn:E1; [|discriminate]. destruct (fst (build_footprints ln (fresh k' tu) (Some tick) mult)) as [fd'|] eqn:E2; [|discriminate].
      intros H1 H2. injection H1 as <-. injection H2 as <-. cbn [starts_reply].
      destruct (foot_fresh _ _ _ _ _ E1) as (cc & i & a & sd & l & C1 & A1 & D1 & F1 & ->). destruct (foot_fresh _ _ _ _ _ E2) as (cc' & i' & b & sd' & l' & C2 & A2 & D2 & F2 & ->).
      destruct (closes_grown k k' cc i cc' i' SB C1 C2) as (S1 & S2 & L & PO). destruct (ohlcv_rows i i' a b PO S2 A1 A2) as [SR LA].
      destruct sides_t as (sa & Es & Ls). destruct (sides_tu sa Es) as (sb & Es'). rewrite Es in D1. injection D1 as <-. rewrite Es' in D2. injection D2 as <-.
      assert (SF : starts l l') by (apply (foot_rows sa sb tick (map b_low a) (map b_low b) (map b_high a) (map b_high b) mult i i'); auto; try (now apply starts_map); now rewrite map_length).
      assert (ST : starts (tl cc) (tl cc')) by (apply starts_tl; [apply (ne_length _ _ L), PO|exact S1]).
      unfold starts_fd, to_fpdata. cbn [fd_tick fd_ts fd_lv fd_bv fd_sv fd_bt fd_st fd_bi fd_si fd_cot fd_sis fd_bis fd_run fd_skew fd_gini starts_opt].
      split; [reflexivity|]. split; [exact ST|]. repeat (split; [now apply starts_map|]). now apply starts_map.
    - rewrite !set_close_fresh. destruct (fst (comp_bar_close ln k t)) as [[cc i]|] eqn:C1; [|discriminate]. destruct (fst (comp_bar_close ln k' tu)) as [[cc' i']|] eqn:C2; [|discriminate].
      cbn [fst]. intros H1 H2. injection H1 as <-. injection H2 as <-. destruct (closes_grown k k' cc i cc' i' SB C1 C2) as (S1 & S2 & L & PO). cbn [starts_reply]. apply starts_tl; [apply PO|exact S2].
    - rewrite !set_close_fresh. destruct (fst (comp_bar_close ln k t)) as [[cc i]|] eqn:C1; [|discriminate]. destruct (fst (comp_bar_close ln k' tu)) as [[cc' i']|] eqn:C2; [|discriminate].
      cbn [fst]. intros H1 H2. injection H1 as <-. injection H2 as <-. destruct (closes_grown k k' cc i cc' i' SB C1 C2) as (S1 & S2 & L & PO). cbn [starts_reply]. apply starts_tl; [apply (ne_length _ _ L), PO|exact S1].
    - unfold get_sigma. destruct SB as [m|thr|thr|s s' flr mult f Ls Ls' Hf Lf Hb]; try (cbn; discriminate).
      pose proof (closes_grown (KCusum s flr mult) (KCusum (s ++ s') flr mult)) as CG. pose proof (sb_cusum t u s s' flr mult f Ls Ls' Hf Lf Hb) as SB.
      cbn [fresh bd_kit]. unfold fresh; cbn [bd_kit]; fold (fresh (KCusum s flr mult) t); fold (fresh (KCusum (s ++ s') flr mult) tu). rewrite !set_close_fresh.
      destruct (fst (comp_bar_close ln (KCusum s flr mult) t)) as [[cc i]|] eqn:C1; [|discriminate].
      destruct (fst (comp_bar_close ln (KCusum (s ++ s') flr mult) tu)) as [[cc' i']|] eqn:C2; [|discriminate].
      destruct (CG cc i cc' i' SB eq_refl eq_refl) as (S1 & S2 & L & PO).
      cbn [comp_bar_close] in C1, C2 |- *. destruct (cusum_len_check (t_ts t) (t_px t) s); [|discriminate]. destruct (cusum_len_check (t_ts tu) (t_px tu) (s ++ s')); [|discriminate].
      cbn [snd bd_kit]. destruct (forallb _ (tl i)); [|discriminate]. destruct (forallb _ (tl i')); [|discriminate]. cbn [fst].
      intros H1 H2. injection H1 as <-. injection H2 as <-. cbn [starts_reply].
      destruct (starts_tl i i' (proj1 PO) S2) as [w Ew]. rewrite Ew, map_app. eexists. f_equal. apply map_ext_in. intros j Hj.
      assert (Hjn : 0 <= j < Z.of_nat n) by (apply PO; destruct i; [destruct Hj|now right]).
      assert (Fn : firstn n (s ++ s') = s) by (replace n with (length s) by exact Ls; apply first_app).
      rewrite <- Fn at 2. symmetry. apply fill_sigma_firstn with f; [now apply known_app|rewrite app_length; unfold n; lia|lia].
  Qed.
End Online.
