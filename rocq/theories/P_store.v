(** P_store.v -- proofs about the trade store. *)
From Verif Require Import Base M_logic M_store S_store P_trades.
Open Scope Z_scope.

Lemma key_eqb_spec a b : reflect (a = b) (key_eqb a b).
Proof.
  revert b. induction a as [|x a IH]; intros [|y b]; simpl; try (constructor; congruence).
  destruct (Z.eqb_spec x y) as [->|N]; simpl; [|constructor; congruence].
  destruct (IH b) as [->|N]; constructor; congruence.
Qed.
Lemma key_eqb_refl a : key_eqb a a = true.
Proof. now destruct (key_eqb_spec a a). Qed.

Lemma key_leb_total a b : key_leb a b = true \/ key_leb b a = true.
Proof.
  revert b. induction a as [|x a IH]; intros [|y b]; simpl; auto.
  destruct (Z.ltb_spec x y); auto. destruct (Z.ltb_spec y x); auto.
Qed.
Lemma key_leb_antisym a b : key_leb a b = true -> key_leb b a = true -> a = b.
Proof.
  revert b. induction a as [|x a IH]; intros [|y b]; simpl; try congruence.
  destruct (Z.ltb_spec x y), (Z.ltb_spec y x); try lia; try discriminate. intros A B. f_equal; [lia|auto].
Qed.
Lemma key_leb_trans a b c : key_leb a b = true -> key_leb b c = true -> key_leb a c = true.
Proof.
  revert b c. induction a as [|x a IH]; intros [|y b] [|z c]; simpl; try congruence.
  destruct (Z.ltb_spec x y), (Z.ltb_spec y z), (Z.ltb_spec x z); try lia; auto;
  destruct (Z.ltb_spec y x), (Z.ltb_spec z y), (Z.ltb_spec z x); try lia; try discriminate; eauto.
Qed.

Lemma kinsert_perm k l : Permutation (k :: l) (kinsert k l).
Proof. induction l as [|x l IH]; simpl; [auto|]. destruct (key_leb k x); [auto|]. eapply perm_trans; [apply perm_swap|]. now apply perm_skip. Qed.
Lemma ksort_perm l : Permutation l (ksort l).
Proof. induction l as [|x l IH]; simpl; [auto|]. rewrite <- kinsert_perm. now apply perm_skip. Qed.
Lemma ksort_sorted l : StronglySorted (fun a b => key_leb a b = true) (ksort l).
Proof.
  induction l as [|x l IH]; simpl; [constructor|]. revert IH. generalize (ksort l) as m. clear. intros m H.
  induction H as [|y m S IH F]; simpl; [constructor; constructor|]. destruct (key_leb x y) eqn:E.
  - constructor; [constructor; auto|]. constructor; [auto|]. eapply Forall_impl; [|exact F]. intros z Hz. eapply key_leb_trans; eauto.
  - constructor; [auto|]. rewrite Forall_forall in *. intros z Hz. apply (Permutation_in z (Permutation_sym (kinsert_perm x m))) in Hz.
    destruct Hz as [<-|Hz]; [|auto]. destruct (key_leb_total x y); [congruence|auto].
Qed.

Lemma ksorted_unique l m : StronglySorted (fun a b => key_leb a b = true) l -> StronglySorted (fun a b => key_leb a b = true) m ->
  Permutation l m -> l = m.
Proof.
  revert m. induction l as [|x l IH]; intros m Hl Hm P.
  - apply Permutation_nil in P. auto.
  - destruct m as [|y m]; [apply Permutation_sym, Permutation_nil in P; discriminate|].
    inversion Hl as [|? ? Sl Fl]; subst. inversion Hm as [|? ? Sm Fm]; subst. rewrite Forall_forall in Fl, Fm.
    assert (E : x = y).
    { assert (Ix : In x (y :: m)) by (eapply Permutation_in; [exact P|now left]).
      assert (Iy : In y (x :: l)) by (eapply Permutation_in; [apply Permutation_sym; exact P|now left]).
      destruct Ix as [->|Ix]; [auto|]. destruct Iy as [->|Iy]; [auto|]. apply key_leb_antisym; auto. }
    subst y. f_equal. apply IH; auto. eapply Permutation_cons_inv; eauto.
Qed.

(** * Maps *)
Lemma kget_in {A} k (m : list (key * A)) a : kget k m = Some a -> In (k, a) m.
Proof. induction m as [|[k' b] m IH]; simpl; [discriminate|]. destruct (key_eqb_spec k k') as [->|N]; [intros [= ->]; auto|auto]. Qed.
Lemma in_kget {A} k (m : list (key * A)) a : NoDup (map fst m) -> In (k, a) m -> kget k m = Some a.
Proof.
  induction m as [|[k' b] m IH]; simpl; [tauto|]. intros N [E|H].
  - injection E as -> ->. now rewrite key_eqb_refl.
  - inversion N as [|? ? Ni N']; subst. destruct (key_eqb_spec k k') as [->|D]; [|auto].
    exfalso. apply Ni. apply in_map_iff. exists (k', a). auto.
Qed.
Lemma kget_none {A} k (m : list (key * A)) : kget k m = None <-> ~ In k (map fst m).
Proof.
  induction m as [|[k' b] m IH]; simpl; [tauto|]. destruct (key_eqb_spec k k') as [->|N].
  - split; [discriminate|tauto].
  - rewrite IH. intuition congruence.
Qed.
Lemma kget_app {A} k (m m' : list (key * A)) : kget k (m ++ m') = match kget k m with Some a => Some a | None => kget k m' end.
Proof. induction m as [|[k' b] m IH]; simpl; [auto|]. destruct (key_eqb k k'); auto. Qed.
Lemma kget_kdel {A} k k' (m : list (key * A)) : kget k' (kdel k m) = if key_eqb k k' then None else kget k' m.
Proof.
  induction m as [|[x b] m IH]; simpl; [now destruct (key_eqb k k')|].
  destruct (key_eqb_spec k x) as [->|N]; simpl.
  - rewrite IH. destruct (key_eqb_spec x k') as [->|N']; [auto|]. destruct (key_eqb_spec k' x); [congruence|auto].
  - destruct (key_eqb_spec k' x) as [->|N']; [destruct (key_eqb_spec k x); [congruence|auto]|auto].
Qed.
Lemma kget_kput {A} k k' a (m : list (key * A)) : kget k' (kput k a m) = if key_eqb k k' then Some a else kget k' m.
Proof.
  unfold kput. rewrite kget_app, kget_kdel. simpl. destruct (key_eqb_spec k k') as [->|N]; [now rewrite key_eqb_refl|].
  destruct (key_eqb_spec k' k); [congruence|]. now destruct (kget k' m).
Qed.
Lemma kdel_keys {A} k (m : list (key * A)) x : In x (map fst (kdel k m)) <-> In x (map fst m) /\ x <> k.
Proof.
  rewrite !in_map_iff. unfold kdel. split.
  - intros [p [<- H]]. apply filter_In in H. destruct H as [H1 H2]. split; [eauto|]. apply negb_true_iff in H2.
    destruct (key_eqb_spec k (fst p)); [discriminate|congruence].
  - intros [[p [<- H]] N]. exists p. split; [auto|]. apply filter_In. split; [auto|]. destruct (key_eqb_spec k (fst p)); [congruence|auto].
Qed.
Lemma NoDup_filter_map {A} (f : key * A -> bool) m : NoDup (map fst m) -> NoDup (map fst (filter f m)).
Proof.
  induction m as [|p m IH]; simpl; [auto|]. intro N. inversion N as [|? ? Ni N']; subst. destruct (f p); simpl; [|auto].
  constructor; [|auto]. intro H. apply Ni. apply in_map_iff in H. destruct H as [q [E H]]. apply filter_In in H. rewrite <- E. apply in_map. tauto.
Qed.
Lemma kput_nodup {A} k a (m : list (key * A)) : NoDup (map fst m) -> NoDup (map fst (kput k a m)).
Proof.
  intro N. unfold kput. rewrite map_app. simpl. apply (Permutation_NoDup (l := k :: map fst (kdel k m))); [apply Permutation_cons_append|].
  constructor; [|now apply NoDup_filter_map]. rewrite kdel_keys. tauto.
Qed.
Lemma kmem_get {A} k (m : list (key * A)) : kmem k m = true <-> exists a, kget k m = Some a.
Proof. unfold kmem. destruct (kget k m); split; try discriminate; eauto. intros [a [=]]. Qed.

(** * One overwriting save *)
Definition consistent (st : store) : Prop :=
  NoDup (map fst (st_rows st)) /\ NoDup (map fst (st_meta st)) /\
  forall k, kmem k (st_rows st) = kmem k (st_meta st).

Definition meta_of (o : hop) (n : Z) : meta :=
  match h_frame o with
  | [] => mkMeta 0 0 0 None 0
  | r :: _ => mkMeta n (meta_ts (h_ok o) (w_ts r)) (meta_ts (h_ok o) (w_ts (last (h_frame o) r))) (h_ok o) (h_missing o)
  end.

Lemma save_ok mkey (trunc ow : bool) o st : h_frame o <> [] -> consistent st ->
  let k := month_of mkey o in
  let st0 := if trunc then empty_store else st in
  let rows := if ow then h_frame o else match kget k (st_rows st0) with Some l => l ++ h_frame o | None => h_frame o end in
  exists st', save_h5 mkey trunc (h_month o) ow (h_frame o) (h_ok o) (h_missing o) (h_disc o) st = (Ok k, st') /\
    consistent st' /\
    (forall k', kget k' (st_rows st') = if key_eqb k k' then Some rows else kget k' (st_rows st0)) /\
    (forall k', kget k' (st_meta st') = if key_eqb k k' then Some (meta_of o (Z.of_nat (length rows))) else kget k' (st_meta st0)) /\
    (forall k', kget k' (st_integ st') = if key_eqb k k' then match h_disc o with [] => if (ow && kmem k (st_rows st0))%bool then None else kget k' (st_integ st0) | d => Some d end else kget k' (st_integ st0)).
Proof.
  intros Hf Hc. cbv zeta. set (k := month_of mkey o).
  assert (Ek : k = match h_month o with Some k => k | None => mkey (w_ts (hd (mkS 0 0 0 None) (h_frame o))) end).
  { unfold k, month_of. destruct (h_month o), (h_frame o); try congruence; reflexivity. }
  unfold save_h5. rewrite <- Ek. set (st0 := if trunc then empty_store else st).
  assert (Hc0 : consistent st0).
  { unfold st0. destruct trunc; [|auto]. split; [constructor|]. split; [constructor|reflexivity]. }
  clearbody st0. clear Ek Hc. clearbody k. unfold meta_of. destruct (h_frame o) as [|r fr] eqn:Ef; [congruence|]. clear Hf.
  destruct Hc0 as [N1 [N2 Hk]].
  replace (match h_month o with Some _ => false | None => false end) with false by (now destruct (h_month o)). cbv iota zeta.
  assert (Hr : forall (rows : list srow) (mt : meta) (R : list (key * list srow)) (M : list (key * meta)) I,
     (forall k', kget k' R = if key_eqb k k' then Some rows else kget k' (st_rows st0)) ->
     (forall k', kget k' M = if key_eqb k k' then Some mt else kget k' (st_meta st0)) -> NoDup (map fst R) -> NoDup (map fst M) ->
     consistent (mkStore R M I)).
  { intros rows mt R M Ig A B C D. split; [exact C|]. split; [exact D|]. intro k'. cbn [st_rows st_meta]. unfold kmem.
    rewrite A, B. destruct (key_eqb k k'); [reflexivity|]. exact (Hk k'). }
  destruct (kmem k (st_rows st0)) eqn:Em.
  - destruct ow; cbn [andb].
    + cbn [st_rows st_meta st_integ]. rewrite <- Hk, Em. cbn [put_rows].
      assert (A : forall k', kget k' (kput k (r :: fr) (kdel k (st_rows st0))) = if key_eqb k k' then Some (r :: fr) else kget k' (st_rows st0)).
      { intro k'. rewrite kget_kput, kget_kdel. now destruct (key_eqb k k'). }
      eexists. split; [reflexivity|]. cbn [st_rows st_meta st_integ].
      assert (B : forall k' mt, kget k' (kput k mt (kdel k (st_meta st0))) = if key_eqb k k' then Some mt else kget k' (st_meta st0)).
      { intros k' mt. rewrite kget_kput, kget_kdel. now destruct (key_eqb k k'). }
      split; [|split; [exact A|split; [intro; apply B|]]].
      * eapply Hr; [exact A|intro; apply B| |]; apply kput_nodup, NoDup_filter_map; auto.
      * intro k'. destruct (h_disc o) as [|d ds]; [rewrite kget_kdel|rewrite kget_kput, kget_kdel]; now destruct (key_eqb k k').
    + cbn [st_rows st_meta st_integ append_rows].
      destruct (kget k (st_rows st0)) as [old|] eqn:Eo; [|unfold kmem in Em; rewrite Eo in Em; discriminate].
      assert (A : forall k', kget k' (kput k (old ++ r :: fr) (st_rows st0)) = if key_eqb k k' then Some (old ++ r :: fr) else kget k' (st_rows st0)).
      { intro k'. now rewrite kget_kput. }
      rewrite (A k), key_eqb_refl.
      eexists. split; [reflexivity|]. cbn [st_rows st_meta st_integ].
      split; [|split; [exact A|split; [intro; now rewrite kget_kput|]]].
      * eapply Hr; [exact A|intro; now rewrite kget_kput| |]; apply kput_nodup; auto.
      * intro k'. destruct (h_disc o) as [|d ds]; [now destruct (key_eqb k k')|rewrite kget_kput; now destruct (key_eqb k k')].
  - cbn [andb]. cbn [st_rows st_meta st_integ put_rows].
    assert (Eo : kget k (st_rows st0) = None) by (unfold kmem in Em; now destruct (kget k (st_rows st0))). rewrite Eo.
    replace (if ow then r :: fr else r :: fr) with (r :: fr) by now destruct ow. rewrite andb_false_r.
    assert (A : forall k', kget k' (kput k (r :: fr) (st_rows st0)) = if key_eqb k k' then Some (r :: fr) else kget k' (st_rows st0)).
    { intro k'. now rewrite kget_kput. }
    eexists. split; [reflexivity|]. cbn [st_rows st_meta st_integ].
    split; [|split; [exact A|split; [intro; now rewrite kget_kput|]]].
    * eapply Hr; [exact A|intro; now rewrite kget_kput| |]; apply kput_nodup; auto.
    * intro k'. destruct (h_disc o) as [|d ds]; [now destruct (key_eqb k k')|rewrite kget_kput; now destruct (key_eqb k k')].
Qed.

(** * Histories *)
Lemma last_save_snoc mkey h k o o' : last_save mkey (h ++ [o']) k o <->
  (month_of mkey o' = k /\ o = o') \/ (month_of mkey o' <> k /\ last_save mkey h k o).
Proof.
  split.
  - intros [h1 [h2 [E [Ek Hn]]]]. destruct h2 as [|z h2' _] using rev_ind.
    + apply app_inj_tail in E. destruct E as [_ ->]. auto.
    + right. rewrite app_comm_cons, app_assoc in E. apply app_inj_tail in E. destruct E as [-> ->].
      split; [apply Hn; apply in_or_app; simpl; auto|]. exists h1, h2'. split; [auto|]. split; [auto|]. intros; apply Hn, in_or_app; auto.
  - intros [[Ek ->]|[Hn [h1 [h2 [-> [Ek H2]]]]]].
    + exists h, []. split; [auto|]. split; [auto|]. simpl; tauto.
    + exists h1, (h2 ++ [o']). rewrite <- app_assoc. split; [auto|]. split; [auto|]. intros x Hx. apply in_app_or in Hx.
      destruct Hx as [Hx|[<-|[]]]; auto.
Qed.

Lemma after_snoc mkey h o : after mkey (h ++ [o]) =
  snd (save_h5 mkey false (h_month o) true (h_frame o) (h_ok o) (h_missing o) (h_disc o) (after mkey h)).
Proof. unfold after. now rewrite fold_left_app. Qed.

Lemma after_inv mkey h : (forall o, In o h -> h_frame o <> []) ->
  consistent (after mkey h) /\
  (forall k o, last_save mkey h k o -> kget k (st_rows (after mkey h)) = Some (h_frame o) /\
     kget k (st_meta (after mkey h)) = Some (meta_of o (Z.of_nat (length (h_frame o))))) /\
  (forall k, never_saved mkey h k -> kget k (st_rows (after mkey h)) = None /\ kget k (st_meta (after mkey h)) = None).
Proof.
  induction h as [|o h IH] using rev_ind; intro Hf.
  - split; [|split].
    + split; [constructor|]. split; [constructor|reflexivity].
    + intros k o [h1 [h2 [E _]]]. destruct h1; discriminate.
    + intros k _. split; reflexivity.
  - assert (Hf' : forall o, In o h -> h_frame o <> []) by (intros; apply Hf, in_or_app; auto).
    destruct (IH Hf') as [C [L N]]. rewrite after_snoc.
    destruct (save_ok mkey false true o (after mkey h) (Hf o ltac:(apply in_or_app; simpl; auto)) C) as [st' [E [C' [R [M _]]]]].
    rewrite E. cbn [snd]. split; [exact C'|]. split.
    + intros k o' H. apply last_save_snoc in H. rewrite R, M. destruct H as [[Ek ->]|[Hn H]].
      * rewrite Ek, key_eqb_refl. auto.
      * destruct (key_eqb_spec (month_of mkey o) k); [congruence|]. now apply L.
    + intros k H. rewrite R, M. destruct (key_eqb_spec (month_of mkey o) k) as [Ek|].
      * exfalso. apply (H o); [apply in_or_app; simpl; auto|auto].
      * apply N. intros x Hx. apply H, in_or_app; auto.
Qed.

Lemma last_save_ex mkey h k : (exists o, last_save mkey h k o) \/ never_saved mkey h k.
Proof.
  induction h as [|o h IH] using rev_ind; [right; intros o []|].
  destruct (key_eqb_spec (month_of mkey o) k) as [E|E].
  - left. exists o. apply last_save_snoc. auto.
  - destruct IH as [[o' H]|H].
    + left. exists o'. apply last_save_snoc. auto.
    + right. intros x Hx. apply in_app_or in Hx. destruct Hx as [Hx|[<-|[]]]; auto.
Qed.

(** * Loading *)
Lemma monotone_spec l : monotone l = true <-> ascZ (map w_ts l).
Proof.
  split.
  - intro H. apply adj_asc. induction l as [|a l IH]; [intros i Hi; simpl in Hi; lia|].
    intros i Hi. destruct l as [|b l]; [simpl in Hi; lia|]. cbn [monotone] in H. apply andb_true_iff in H. destruct H as [H1 H2].
    destruct i as [|i]; [simpl; lia|]. apply (IH H2 i). simpl in *; lia.
  - induction l as [|a l IH]; intro H; [reflexivity|]. destruct l as [|b l]; [reflexivity|].
    cbn [monotone]. apply andb_true_iff. split.
    + apply Z.leb_le. exact (H 0%nat 1%nat ltac:(simpl; lia)).
    + apply IH. exact (ascZ_cons _ _ H).
Qed.

Lemma fold_results st fails s e order acc k : NoDup order -> (forall x, In x order -> kget x acc = None) ->
  kget k (fold_left (fun acc k => match read_group st fails s e k with [] => acc | df => kput k df acc end) order acc) =
  if existsb (key_eqb k) order then match read_group st fails s e k with [] => None | df => Some df end else kget k acc.
Proof.
  revert acc. induction order as [|x order IH]; intros acc N Ha; [reflexivity|].
  inversion N as [|? ? Nx N']; subst. cbn [fold_left existsb].
  set (acc' := match read_group st fails s e x with [] => acc | df => kput x df acc end).
  assert (G : forall y, kget y acc' = if key_eqb x y then match read_group st fails s e x with [] => None | df => Some df end else kget y acc).
  { intro y. unfold acc'. destruct (read_group st fails s e x) as [|a b]; [|now rewrite kget_kput].
    destruct (key_eqb_spec x y) as [<-|]; [apply Ha; now left|reflexivity]. }
  rewrite IH; [|exact N'|].
  - rewrite (G k). destruct (key_eqb_spec k x) as [->|D].
    + rewrite key_eqb_refl. cbn [orb]. now destruct (existsb (key_eqb x) order).
    + destruct (key_eqb_spec x k); [congruence|reflexivity].
  - intros y Hy. rewrite G. destruct (key_eqb_spec x y) as [->|]; [contradiction|]. apply Ha. now right.
Qed.

Lemma existsb_key k l : existsb (key_eqb k) l = true <-> In k l.
Proof.
  rewrite existsb_exists. split; [intros [x [H E]]; now destruct (key_eqb_spec k x) as [->|]|intro H; exists k; split; [auto|apply key_eqb_refl]].
Qed.

Lemma load_par_seq st fails s e keys order : NoDup keys -> Permutation order keys ->
  load_par st fails s e keys order = load_seq st fails s e keys.
Proof.
  intros N P. unfold load_par, load_seq.
  assert (No : NoDup order) by (eapply Permutation_NoDup; [apply Permutation_sym; exact P|exact N]).
  set (res := fold_left _ order []).
  assert (G : forall k, In k keys -> kget k res = match read_group st fails s e k with [] => None | df => Some df end).
  { intros k Hk. unfold res. rewrite fold_results; [|exact No|reflexivity].
    destruct (existsb (key_eqb k) order) eqn:Ex; [reflexivity|]. exfalso.
    assert (existsb (key_eqb k) order = true); [|congruence]. apply existsb_key. eapply Permutation_in; [apply Permutation_sym; exact P|exact Hk]. }
  clearbody res. clear N P No. induction keys as [|k keys IH]; [reflexivity|]. cbn [flat_map map filter].
  rewrite (G k) by now left. rewrite IH by (intros; apply G; now right). destruct (read_group st fails s e k); reflexivity.
Qed.

Lemma keys_nodup st s e : consistent st -> NoDup (keys_for_timerange st s e).
Proof.
  intros [_ [N _]]. unfold keys_for_timerange. eapply Permutation_NoDup; [apply ksort_perm|]. now apply NoDup_filter_map.
Qed.

Definition groups_of st key_arg s e : list key :=
  match key_arg with Some k => [k] | None => keys_for_timerange st s e end.

Lemma load_parallel sort_ix st fails ka s e en pool mg order en' pool' mg' order' : consistent st ->
  Permutation order (groups_of st ka s e) -> Permutation order' (groups_of st ka s e) ->
  load_trades_h5 sort_ix st fails ka s e en pool mg order = load_trades_h5 sort_ix st fails ka s e en' pool' mg' order'.
Proof.
  intros C P P'. unfold load_trades_h5, groups_of in *.
  assert (H : forall en pool mg order keys, NoDup keys -> Permutation order keys ->
    (if (en && (mg <=? Z.of_nat (length keys)) && pool)%bool then load_par st fails s e keys order else load_seq st fails s e keys) = load_seq st fails s e keys).
  { intros en0 pool0 mg0 order0 keys N P0. destruct (_ && pool0)%bool; [now apply load_par_seq|reflexivity]. }
  destruct ka as [k|].
  - destruct (kmem k (st_rows st)); [|reflexivity]. rewrite !H; auto; repeat constructor; simpl; tauto.
  - pose proof (keys_nodup st s e C) as N. destruct (keys_for_timerange st s e) as [|k ks]; [reflexivity|]. rewrite !H; auto.
Qed.

(** Reading without failures: the loaded frames concatenated. *)
Definition no_fail : key -> bool := fun _ => false.

Lemma concat_seq st fails s e keys : concat (load_seq st fails s e keys) = flat_map (read_group st fails s e) keys.
Proof.
  unfold load_seq. induction keys as [|k keys IH]; [reflexivity|]. cbn [map filter flat_map].
  destruct (read_group st fails s e k) eqn:E; [exact IH|]. cbn [concat]. now rewrite IH.
Qed.
Lemma seq_nil st fails s e keys : load_seq st fails s e keys = [] <-> flat_map (read_group st fails s e) keys = [].
Proof.
  unfold load_seq. induction keys as [|k keys IH]; [tauto|]. cbn [map filter flat_map].
  destruct (read_group st fails s e k) eqn:E; [exact IH|]. split; discriminate.
Qed.

Lemma load_unfold sort_ix st fails ka s e en pool mg order : consistent st -> Permutation order (groups_of st ka s e) ->
  load_trades_h5 sort_ix st fails ka s e en pool mg order =
  if match ka with Some k => negb (kmem k (st_rows st)) | None => match keys_for_timerange st s e with [] => true | _ => false end end then Raise KeyError
  else let df := flat_map (read_group st fails s e) (groups_of st ka s e) in
       match df with [] => Raise ValueError | _ => Ok (if monotone df then df else sort_ix df) end.
Proof.
  intros C P. rewrite (load_parallel sort_ix st fails ka s e en pool mg order false false 0 order C P P).
  unfold load_trades_h5, groups_of. cbn [andb].
  assert (H : forall keys, match load_seq st fails s e keys with [] => Raise ValueError
     | _ => Ok (if monotone (concat (load_seq st fails s e keys)) then concat (load_seq st fails s e keys) else sort_ix (concat (load_seq st fails s e keys))) end =
     match flat_map (read_group st fails s e) keys with [] => Raise ValueError
     | _ => Ok (if monotone (flat_map (read_group st fails s e) keys) then flat_map (read_group st fails s e) keys else sort_ix (flat_map (read_group st fails s e) keys)) end).
  { intro keys. rewrite concat_seq. pose proof (seq_nil st fails s e keys) as [A B].
    destruct (load_seq st fails s e keys), (flat_map (read_group st fails s e) keys); auto; [discriminate (A eq_refl)|discriminate (B eq_refl)]. }
  destruct ka as [k|].
  - destruct (kmem k (st_rows st)); [|reflexivity]. cbn [negb]. apply H.
  - destruct (keys_for_timerange st s e) as [|k ks] eqn:E; [reflexivity|]. cbn zeta. apply H.
Qed.

Lemma where_in_range s e rows : where_rows s e rows = filter (fun r => in_rangeb s e (w_ts r)) rows.
Proof. reflexivity. Qed.
Lemma where_none rows : where_rows None None rows = rows.
Proof. unfold where_rows. cbn [andb]. induction rows as [|r rows IH]; [auto|]. cbn [filter]. now rewrite IH. Qed.

Lemma asc_bounds (rows : list srow) r x : ascZ (map w_ts (r :: rows)) -> In x (r :: rows) ->
  w_ts r <= w_ts x <= w_ts (last (r :: rows) r).
Proof.
  intros A H. apply (In_nth _ _ r) in H. destruct H as [i [Hi <-]].
  assert (T : forall j, (j < length (r :: rows))%nat -> nth j (map w_ts (r :: rows)) 0 = w_ts (nth j (r :: rows) r)).
  { intros j Hj. rewrite (nth_indep _ 0 (w_ts r)) by (now rewrite map_length). apply map_nth. }
  assert (L : last (r :: rows) r = nth (length rows) (r :: rows) r).
  { assert (G : forall (l : list srow) (x d : srow), last (x :: l) d = nth (length l) (x :: l) d).
    { induction l as [|y l IH]; intros x d; [reflexivity|]. exact (IH y d). }
    apply G. }
  rewrite L. rewrite <- !T by (simpl in *; lia). split.
  - change (w_ts r) with (nth 0 (map w_ts (r :: rows)) 0). apply A. rewrite map_length. simpl in *; lia.
  - apply A. rewrite map_length. simpl in *; lia.
Qed.

Lemma filter_none {A} (f : A -> bool) l : (forall x, In x l -> f x = false) -> filter f l = [].
Proof. induction l as [|x l IH]; intro H; [auto|]. simpl. rewrite (H x) by now left. apply IH. intros; apply H; now right. Qed.

Lemma flat_map_filter_keys {A} (f : key -> list A) (P : key -> bool) ks : (forall k, In k ks -> P k = false -> f k = []) ->
  flat_map f (filter P ks) = flat_map f ks.
Proof.
  induction ks as [|k ks IH]; intro H; [auto|]. simpl. rewrite <- IH by (intros; apply H; [now right|auto]).
  destruct (P k) eqn:E; [reflexivity|]. rewrite (H k); [reflexivity|now left|auto].
Qed.

Lemma flat_map_perm {A} (f : key -> list A) l m : Permutation l m -> Permutation (flat_map f l) (flat_map f m).
Proof.
  induction 1; simpl; auto.
  - now apply Permutation_app_head.
  - rewrite !app_assoc. apply Permutation_app_tail, Permutation_app_comm.
  - eapply perm_trans; eauto.
Qed.

(** Range query key selection after a history of exact saves. *)
Lemma keys_after mkey h s e ks : (forall o, In o h -> h_frame o <> [] /\ ascZ (map w_ts (h_frame o)) /\ exact_meta o) ->
  NoDup ks -> (forall k, In k ks <-> exists o, In o h /\ month_of mkey o = k) ->
  exists P : key -> bool, Permutation (keys_for_timerange (after mkey h) s e) (filter P ks) /\
    forall k, In k ks -> P k = false -> read_group (after mkey h) no_fail s e k = [].
Proof.
  intros Hh Nk Hk.
  destruct (after_inv mkey h (fun o Ho => proj1 (Hh o Ho))) as [[N1 [N2 Hc]] [L Nv]].
  set (st := after mkey h) in *.
  set (Q := fun p : key * meta => (match e with None => true | Some e => mt_first (snd p) <=? e end) && (match s with None => true | Some s => s <=? mt_last (snd p) end)).
  set (P := fun k => match kget k (st_meta st) with Some m => Q (k, m) | None => false end).
  exists P. split.
  - unfold keys_for_timerange. rewrite <- ksort_perm. fold Q. apply NoDup_Permutation.
    + now apply NoDup_filter_map.
    + now apply NoDup_filter.
    + intro k. rewrite filter_In, in_map_iff. split.
      * intros [[k' m] [E H]]. simpl in E. subst k'. apply filter_In in H. destruct H as [H1 H2]. apply (in_kget _ _ _ N2) in H1. split.
        -- apply Hk. destruct (last_save_ex mkey h k) as [[o [h1 [h2 [-> [Eo _]]]]]|Hn]; [exists o; split; [apply in_or_app; simpl; auto|auto]|].
           destruct (Nv k Hn) as [_ X]. fold st in X. congruence.
        -- unfold P. now rewrite H1.
      * intros [_ H]. unfold P in H. destruct (kget k (st_meta st)) as [m|] eqn:Em; [|discriminate].
        exists (k, m). split; [reflexivity|]. apply filter_In. split; [now apply kget_in|auto].
  - intros k Hin HP. destruct (last_save_ex mkey h k) as [[o Ho]|Hn].
    2:{ apply Hk in Hin. destruct Hin as [o [A B]]. destruct (Hn o A B). }
    destruct (L k o Ho) as [R M]. fold st in R, M. unfold read_group, no_fail. rewrite R, where_in_range.
    apply filter_none. intros x Hx. unfold P in HP. rewrite M in HP. unfold Q in HP. cbn [snd] in HP.
    assert (Io : In o h) by (destruct Ho as [h1 [h2 [-> _]]]; apply in_or_app; simpl; auto).
    destruct (Hh o Io) as [Hf [Ha He]]. unfold meta_of in HP. unfold exact_meta in He. destruct (h_frame o) as [|r fr]; [congruence|].
    pose proof (asc_bounds fr r x Ha Hx) as [B1 B2]. cbn [mt_first mt_last] in HP.
    assert (F1 : meta_ts (h_ok o) (w_ts r) <= w_ts r) by (unfold meta_ts; destruct (h_ok o); [lia|tauto]).
    assert (F2 : w_ts (last (r :: fr) r) <= meta_ts (h_ok o) (w_ts (last (r :: fr) r))) by (unfold meta_ts; destruct (h_ok o); [lia|tauto]).
    unfold in_rangeb. apply not_true_iff_false. intro T. apply not_true_iff_false in HP. apply HP.
    apply andb_true_iff in T. destruct T as [T1 T2]. apply andb_true_iff. split; [destruct e; [lia|reflexivity]|destruct s; [lia|reflexivity]].
Qed.

(** Rows of the last saves, month by month. *)
Lemma read_last mkey h ks stored s e : (forall o, In o h -> h_frame o <> []) ->
  Forall2 (fun k rows => exists o, last_save mkey h k o /\ rows = h_frame o) ks stored ->
  flat_map (read_group (after mkey h) no_fail s e) ks = filter (fun r => in_rangeb s e (w_ts r)) (concat stored).
Proof.
  intros Hh F. destruct (after_inv mkey h Hh) as [_ [L _]].
  induction F as [|k rows ks stored [o [Ho ->]] F IH]; [reflexivity|]. cbn [flat_map concat]. rewrite filter_app, IH. f_equal.
  destruct (L k o Ho) as [R _]. unfold read_group, no_fail. now rewrite R.
Qed.

Theorem range_load sort_ix mkey h ks stored s e en pool mg order : sorts_by_time sort_ix ->
  (forall o, In o h -> h_frame o <> [] /\ ascZ (map w_ts (h_frame o)) /\ exact_meta o) ->
  NoDup ks -> (forall k, In k ks <-> exists o, In o h /\ month_of mkey o = k) ->
  Forall2 (fun k rows => exists o, last_save mkey h k o /\ rows = h_frame o) ks stored ->
  Permutation order (keys_for_timerange (after mkey h) s e) ->
  let want := filter (fun r => in_rangeb s e (w_ts r)) (concat stored) in
  match load_trades_h5 sort_ix (after mkey h) no_fail None s e en pool mg order with
  | Ok l => Permutation l want /\ ascZ (map w_ts l) /\ want <> []
  | Raise x => want = [] /\ (x = KeyError \/ x = ValueError)
  end.
Proof.
  intros Hs Hh Nk Hk F P. cbv zeta.
  destruct (after_inv mkey h (fun o Ho => proj1 (Hh o Ho))) as [C _].
  destruct (keys_after mkey h s e ks Hh Nk Hk) as [S [Ps HS]].
  rewrite (load_unfold sort_ix _ no_fail None s e en pool mg order C P). unfold groups_of.
  set (df := flat_map (read_group (after mkey h) no_fail s e) (keys_for_timerange (after mkey h) s e)).
  assert (D : Permutation df (filter (fun r => in_rangeb s e (w_ts r)) (concat stored))).
  { unfold df. rewrite (flat_map_perm _ _ _ Ps). rewrite flat_map_filter_keys by exact HS.
    rewrite (read_last mkey h ks stored s e (fun o Ho => proj1 (Hh o Ho)) F). reflexivity. }
  destruct (keys_for_timerange (after mkey h) s e) as [|k0 ks0] eqn:Ek.
  - unfold df in D. simpl in D. apply Permutation_nil in D. auto.
  - cbv zeta. clearbody df. destruct df as [|a df].
    + apply Permutation_nil in D. auto.
    + assert (W : filter (fun r => in_rangeb s e (w_ts r)) (concat stored) <> []).
      { intro Z0. rewrite Z0 in D. apply Permutation_sym, Permutation_nil in D. discriminate. }
      destruct (monotone (a :: df)) eqn:Em.
      * split; [exact D|]. split; [now apply monotone_spec|exact W].
      * destruct (Hs (a :: df)) as [P1 A1]. split; [|split; [exact A1|exact W]]. rewrite <- P1. exact D.
Qed.

(** Chronological month keys: the loaded rows are the concatenation in month order, unsorted. *)
Lemma ascZ_app_intro l m : ascZ l -> ascZ m -> (forall x y, In x l -> In y m -> x <= y) -> ascZ (l ++ m).
Proof.
  intros A B H i j Hij. rewrite app_length in Hij.
  destruct (Nat.ltb_spec i (length l)), (Nat.ltb_spec j (length l)); try lia.
  - rewrite !app_nth1 by lia. apply A; lia.
  - rewrite app_nth1, app_nth2 by lia. apply H; apply nth_In; lia.
  - rewrite !app_nth2 by lia. apply B; lia.
Qed.

Lemma asc_StronglySorted l : ascZ l -> StronglySorted Z.le l.
Proof.
  induction l as [|x l IH]; intro H; [constructor|]. constructor; [apply IH; exact (ascZ_cons _ _ H)|].
  rewrite Forall_forall. intros y Hy. apply (In_nth _ _ 0) in Hy. destruct Hy as [i [Hi <-]]. exact (H 0%nat (S i) ltac:(simpl; lia)).
Qed.
Lemma StronglySorted_asc l : StronglySorted Z.le l -> ascZ l.
Proof.
  induction 1 as [|x l S IH F]; [intros i j Hij; simpl in Hij; lia|]. apply (ascZ_app_intro [x] l); [|exact IH|].
  - intros i j Hij. simpl in Hij. assert (i = 0 /\ j = 0)%nat as [-> ->] by lia. simpl. lia.
  - intros a b [<-|[]] Hb. rewrite Forall_forall in F. auto.
Qed.
Lemma filter_asc (f : srow -> bool) l : ascZ (map w_ts l) -> ascZ (map w_ts (filter f l)).
Proof.
  intro H. apply StronglySorted_asc. apply asc_StronglySorted in H.
  induction l as [|x l IH]; [constructor|]. cbn [map] in H. inversion H as [|? ? S F]; subst. cbn [filter].
  destruct (f x); [|auto]. cbn [map]. constructor; [auto|]. rewrite Forall_forall in *. intros y Hy. apply F.
  apply in_map_iff in Hy. destruct Hy as [z [<- Hz]]. apply filter_In in Hz. apply in_map. tauto.
Qed.

Lemma concat_asc (ls : list (list srow)) : (forall l, In l ls -> ascZ (map w_ts l)) ->
  StronglySorted (fun l m => forall x y, In x l -> In y m -> w_ts x <= w_ts y) ls -> ascZ (map w_ts (concat ls)).
Proof.
  induction ls as [|l ls IH]; intros A S; [intros i j Hij; simpl in Hij; lia|].
  inversion S as [|? ? S' F]; subst. cbn [concat]. rewrite map_app. apply ascZ_app_intro.
  - apply A. now left.
  - apply IH; [intros; apply A; now right|auto].
  - intros x y Hx Hy. apply in_map_iff in Hx, Hy. destruct Hx as [a [<- Ha]], Hy as [b [<- Hb]].
    apply in_concat in Hb. destruct Hb as [m [Hm Hb]]. rewrite Forall_forall in F. exact (F m Hm a b Ha Hb).
Qed.

Lemma digit_cmp a b : (digit a <? digit b) = (a <? b).
Proof. unfold digit. destruct (Z.ltb_spec a b), (Z.ltb_spec (48 + a) (48 + b)); lia || reflexivity. Qed.

Lemma fmt_order y m y' m' : 0 <= y < 10000 -> 0 <= y' < 10000 -> 1 <= m <= 12 -> 1 <= m' <= 12 ->
  (key_leb (fmt_month y m) (fmt_month y' m') = true <-> ym_le (y, m) (y', m')).
Proof.
  intros Hy Hy' Hm Hm'. unfold fmt_month, ym_le. cbn [key_leb fst snd]. rewrite !digit_cmp.
  assert (D : forall a, 0 <= a < 10000 -> a = 1000 * (a / 1000) + 100 * (a / 100 mod 10) + 10 * (a / 10 mod 10) + a mod 10 /\
     0 <= a / 100 mod 10 < 10 /\ 0 <= a / 10 mod 10 < 10 /\ 0 <= a mod 10 < 10).
  { intros a Ha. pose proof (Z.div_mod a 10 ltac:(lia)) as E1. pose proof (Z.div_mod (a / 10) 10 ltac:(lia)) as E2.
    pose proof (Z.div_mod (a / 100) 10 ltac:(lia)) as E3.
    rewrite Z.div_div in E2 by lia. change (10 * 10) with 100 in E2. rewrite Z.div_div in E3 by lia. change (100 * 10) with 1000 in E3.
    pose proof (Z.mod_pos_bound a 10 ltac:(lia)). pose proof (Z.mod_pos_bound (a / 10) 10 ltac:(lia)).
    pose proof (Z.mod_pos_bound (a / 100) 10 ltac:(lia)). lia. }
  assert (D2 : forall a, 1 <= a <= 12 -> a = 10 * (a / 10) + a mod 10 /\ 0 <= a mod 10 < 10).
  { intros a Ha. pose proof (Z.div_mod a 10 ltac:(lia)). pose proof (Z.mod_pos_bound a 10 ltac:(lia)). lia. }
  destruct (D y Hy) as [Ey [B1 [B2 B3]]], (D y' Hy') as [Ey' [B1' [B2' B3']]], (D2 m Hm) as [Em Bm], (D2 m' Hm') as [Em' Bm'].
  clear D D2. revert Ey Ey' Em Em' B1 B2 B3 B1' B2' B3' Bm Bm'.
  generalize (y / 1000) (y / 100 mod 10) (y / 10 mod 10) (y mod 10) (m / 10) (m mod 10) (y' / 1000) (y' / 100 mod 10) (y' / 10 mod 10) (y' mod 10) (m' / 10) (m' mod 10).
  intros a b c d p q a' b' c' d' p' q'. intros.
  change (45 <? 45) with false. cbv iota.
  destruct (Z.ltb_spec a a'); [split; [intro; lia|reflexivity]|]. destruct (Z.ltb_spec a' a); [split; [discriminate|intro; lia]|].
  destruct (Z.ltb_spec b b'); [split; [intro; lia|reflexivity]|]. destruct (Z.ltb_spec b' b); [split; [discriminate|intro; lia]|].
  destruct (Z.ltb_spec c c'); [split; [intro; lia|reflexivity]|]. destruct (Z.ltb_spec c' c); [split; [discriminate|intro; lia]|].
  destruct (Z.ltb_spec d d'); [split; [intro; lia|reflexivity]|]. destruct (Z.ltb_spec d' d); [split; [discriminate|intro; lia]|].
  destruct (Z.ltb_spec p p'); [split; [intro; lia|reflexivity]|]. destruct (Z.ltb_spec p' p); [split; [discriminate|intro; lia]|].
  destruct (Z.ltb_spec q q'); [split; [intro; lia|reflexivity]|]. destruct (Z.ltb_spec q' q); [split; [discriminate|intro; lia]|].
  split; [intro; lia|reflexivity].
Qed.

Lemma StronglySorted_filter {A} (R : A -> A -> Prop) f l : StronglySorted R l -> StronglySorted R (filter f l).
Proof.
  induction 1 as [|x l S IH F]; [constructor|]. cbn [filter]. destruct (f x); [|auto]. constructor; [auto|].
  rewrite Forall_forall in *. intros y Hy. apply filter_In in Hy. apply F. tauto.
Qed.

Theorem chronological_load sort_ix (ym : Z -> Z * Z) h ks stored s e en pool mg order :
  let mkey := fun t => fmt_month (fst (ym t)) (snd (ym t)) in
  (forall t, 0 <= fst (ym t) < 10000 /\ 1 <= snd (ym t) <= 12) ->
  (forall t t', t <= t' -> ym_le (ym t) (ym t')) ->
  (forall o, In o h -> h_month o = None /\ h_frame o <> [] /\ ascZ (map w_ts (h_frame o)) /\ exact_meta o /\
     forall a b, In a (h_frame o) -> In b (h_frame o) -> ym (w_ts a) = ym (w_ts b)) ->
  StronglySorted (fun a b => key_leb a b = true) ks -> NoDup ks -> (forall k, In k ks <-> exists o, In o h /\ month_of mkey o = k) ->
  Forall2 (fun k rows => exists o, last_save mkey h k o /\ rows = h_frame o) ks stored ->
  Permutation order (keys_for_timerange (after mkey h) s e) ->
  let want := filter (fun r => in_rangeb s e (w_ts r)) (concat stored) in
  want <> [] ->
  load_trades_h5 sort_ix (after mkey h) no_fail None s e en pool mg order = Ok want.
Proof.
  intros mkey Hb Hm Hh Ss Nk Hk F P want Hw.
  assert (Hh' : forall o, In o h -> h_frame o <> [] /\ ascZ (map w_ts (h_frame o)) /\ exact_meta o) by (intros o Ho; destruct (Hh o Ho) as [_ [A [B [C _]]]]; auto).
  destruct (after_inv mkey h (fun o Ho => proj1 (Hh' o Ho))) as [C _].
  destruct (keys_after mkey h s e ks Hh' Nk Hk) as [S [Ps HS]].
  assert (E : keys_for_timerange (after mkey h) s e = filter S ks).
  { apply ksorted_unique; [apply ksort_sorted|now apply StronglySorted_filter|exact Ps]. }
  rewrite (load_unfold sort_ix _ no_fail None s e en pool mg order C P). unfold groups_of.
  assert (D : flat_map (read_group (after mkey h) no_fail s e) (keys_for_timerange (after mkey h) s e) = want).
  { rewrite E, flat_map_filter_keys by exact HS. exact (read_last mkey h ks stored s e (fun o Ho => proj1 (Hh' o Ho)) F). }
  destruct (keys_for_timerange (after mkey h) s e) as [|k0 ks0] eqn:Ek; [simpl in D; congruence|]. cbv zeta. rewrite D.
  assert (M : monotone want = true).
  { apply monotone_spec. apply filter_asc. clear D Ek P Ps HS E Hw want.
    assert (In_o : forall k o, last_save mkey h k o -> In o h /\ month_of mkey o = k).
    { intros k o [h1 [h2 [-> [Eo _]]]]. split; [apply in_or_app; simpl; auto|auto]. }
    apply concat_asc.
    - intros l Hl. clear - F Hl Hh' In_o. induction F as [|k rows ks stored [o [Ho ->]] F IH]; [destruct Hl|].
      destruct Hl as [<-|Hl]; [|auto]. apply Hh'. eapply In_o, Ho.
    - clear Hk. induction F as [|k rows ks stored [o [Ho ->]] F IH]; [constructor|].
      inversion Ss as [|? ? Ss' Fs]; subst. inversion Nk as [|? ? Nn Nk']; subst.
      constructor; [now apply IH|]. rewrite Forall_forall in *. intros m Hm' x y Hx Hy.
      assert (exists k' o', In k' ks /\ last_save mkey h k' o' /\ m = h_frame o') as [k' [o' [Ik' [Ho' ->]]]].
      { clear - F Hm'. induction F as [|k r ks stored [o [Ho ->]] F IH]; [destruct Hm'|].
        destruct Hm' as [<-|Hm']; [exists k, o; simpl; auto|]. destruct (IH Hm') as [k' [o' [A B]]]. exists k', o'. simpl; auto. }
      assert (Hle := Fs k' Ik'). destruct (In_o _ _ Ho) as [Io Eo], (In_o _ _ Ho') as [Io' Eo'].
      assert (G : forall o x, In o h -> In x (h_frame o) -> month_of mkey o = fmt_month (fst (ym (w_ts x))) (snd (ym (w_ts x)))).
      { intros o0 x0 I0 Hx0. destruct (Hh o0 I0) as [E0 [_ [_ [_ Hs]]]]. unfold month_of. rewrite E0.
        destruct (h_frame o0) as [|r fr] eqn:Ef; [destruct Hx0|]. unfold mkey. rewrite (Hs r x0); [reflexivity|now left|exact Hx0]. }
      destruct (Z.le_gt_cases (w_ts x) (w_ts y)) as [|Hgt]; [auto|]. exfalso.
      assert (Q : ym_le (ym (w_ts y)) (ym (w_ts x))) by (apply Hm; lia).
      assert (Q2 : key_leb k' k = true).
      { rewrite <- Eo, <- Eo', (G o x Io Hx), (G o' y Io' Hy). destruct (Hb (w_ts x)), (Hb (w_ts y)).
        apply fmt_order; auto. }
      apply Nn. rewrite (key_leb_antisym k k' Hle Q2). exact Ik'. }
  rewrite M. destruct want; [congruence|reflexivity].
Qed.

(** Loading one month by key. *)
Theorem key_load sort_ix mkey h k en pool mg : (forall o, In o h -> h_frame o <> []) ->
  (forall o, last_save mkey h k o -> ascZ (map w_ts (h_frame o)) ->
     load_trades_h5 sort_ix (after mkey h) no_fail (Some k) None None en pool mg [k] = Ok (h_frame o)) /\
  (never_saved mkey h k -> load_trades_h5 sort_ix (after mkey h) no_fail (Some k) None None en pool mg [k] = Raise KeyError).
Proof.
  intro Hh. destruct (after_inv mkey h Hh) as [C [L N]]. split.
  - intros o Ho Ha. destruct (L k o Ho) as [R _]. rewrite (load_unfold _ _ _ _ _ _ _ _ _ _ C) by reflexivity.
    unfold kmem, groups_of. rewrite R. cbn [negb]. cbv zeta. cbn [flat_map]. unfold read_group, no_fail. rewrite R, where_none, app_nil_r.
    assert (Hne : h_frame o <> []) by (apply Hh; destruct Ho as [h1 [h2 [-> _]]]; apply in_or_app; simpl; auto).
    apply monotone_spec in Ha. rewrite Ha. destruct (h_frame o); [congruence|reflexivity].
  - intro Hn. destruct (N k Hn) as [R _]. rewrite (load_unfold _ _ _ _ _ _ _ _ _ _ C) by reflexivity. unfold kmem. now rewrite R.
Qed.

(** Appending: rows are kept, the metadata range is that of the appended frame. *)
Theorem append_range sort_ix mkey o1 o2 k s e en pool mg order : h_frame o1 <> [] -> h_frame o2 <> [] ->
  month_of mkey o1 = k -> month_of mkey o2 = k ->
  let st1 := after mkey [o1] in
  let st2 := snd (save_h5 mkey false (h_month o2) false (h_frame o2) (h_ok o2) (h_missing o2) (h_disc o2) st1) in
  let rows := filter (fun r => in_rangeb s e (w_ts r)) (h_frame o1 ++ h_frame o2) in
  let first := meta_ts (h_ok o2) (w_ts (hd (mkS 0 0 0 None) (h_frame o2))) in
  let last_ := meta_ts (h_ok o2) (w_ts (last (h_frame o2) (mkS 0 0 0 None))) in
  Permutation order (keys_for_timerange st2 s e) ->
  kget k (st_rows st2) = Some (h_frame o1 ++ h_frame o2) /\
  load_trades_h5 sort_ix st2 no_fail None s e en pool mg order =
    if ((match e with None => true | Some b => first <=? b end) && (match s with None => true | Some a => a <=? last_ end))%bool
    then match rows with [] => Raise ValueError | _ => Ok (if monotone rows then rows else sort_ix rows) end
    else Raise KeyError.
Proof.
  intros H1 H2 K1 K2 st1 st2 rows first last_ P.
  assert (E1 := after_inv mkey [o1] ltac:(intros o [<-|[]]; exact H1)). fold st1 in E1. destruct E1 as [C1 [L1 N1]].
  assert (Ls : last_save mkey [o1] k o1) by (exists [], []; split; [reflexivity|]; split; [exact K1|intros ? []]).
  destruct (L1 k o1 Ls) as [R1 M1].
  destruct (save_ok mkey false false o2 st1 H2 C1) as [st' [E [C2 [R2 [M2 _]]]]]. cbv zeta in E, R2, M2. rewrite K2, R1 in R2. rewrite K2, R1 in M2.
  assert (Es : st2 = st') by (unfold st2; now rewrite E). rewrite <- Es in *. clear E Es st'.
  assert (Rk : kget k (st_rows st2) = Some (h_frame o1 ++ h_frame o2)) by (now rewrite R2, key_eqb_refl).
  split; [exact Rk|]. rewrite (load_unfold sort_ix st2 no_fail None s e en pool mg order C2 P). unfold groups_of.
  set (b := (_ && _)%bool).
  assert (Mk : forall k', kget k' (st_meta st2) = if key_eqb k k' then Some (meta_of o2 (Z.of_nat (length (h_frame o1 ++ h_frame o2)))) else None).
  { intro k'. rewrite M2. destruct (key_eqb_spec k k') as [->|D]; [reflexivity|].
    apply N1. intros o [<-|[]]. congruence. }
  assert (Ms : st_meta st2 = [(k, meta_of o2 (Z.of_nat (length (h_frame o1 ++ h_frame o2))))]).
  { destruct C2 as [_ [Nm _]]. assert (Mk0 := Mk k). rewrite key_eqb_refl in Mk0. revert Nm Mk Mk0. generalize (st_meta st2) as m.
    intros m Nm Mk Mk0. destruct m as [|[k1 a1] m]; [discriminate|].
    assert (Ek1 : k1 = k).
    { specialize (Mk k1). cbn [kget] in Mk. rewrite key_eqb_refl in Mk. destruct (key_eqb_spec k k1); [auto|discriminate]. }
    rewrite Ek1 in *. clear Ek1 k1. cbn [kget] in Mk0. rewrite key_eqb_refl in Mk0. injection Mk0 as ->.
    destruct m as [|[k2 a2] m]; [reflexivity|]. exfalso. cbn [map fst] in Nm. apply NoDup_cons_iff in Nm. destruct Nm as [Nn Nm'].
    destruct (key_eqb_spec k k2) as [E|D]; [apply Nn; left; auto|].
    specialize (Mk k2). cbn [kget] in Mk. destruct (key_eqb_spec k k2); [congruence|]. destruct (key_eqb_spec k2 k); [congruence|].
    rewrite key_eqb_refl in Mk. discriminate. }
  assert (Ek : keys_for_timerange st2 s e = if b then [k] else []).
  { unfold keys_for_timerange. rewrite Ms. cbn [filter map fst snd].
    assert (F1 : mt_first (meta_of o2 (Z.of_nat (length (h_frame o1 ++ h_frame o2)))) = first).
    { unfold meta_of, first. destruct (h_frame o2); [congruence|reflexivity]. }
    assert (F2 : mt_last (meta_of o2 (Z.of_nat (length (h_frame o1 ++ h_frame o2)))) = last_).
    { unfold meta_of, last_. destruct (h_frame o2) as [|r fr]; [congruence|]. cbn [mt_last]. f_equal. f_equal.
      assert (G : forall (l : list srow) x d d', last (x :: l) d = last (x :: l) d').
      { induction l as [|y l IH]; intros x d d'; [reflexivity|]. exact (IH y d d'). }
      apply G. }
    rewrite F1, F2. fold b. now destruct b. }
  rewrite Ek. destruct b; [|reflexivity]. cbv zeta. cbn [flat_map]. unfold read_group, no_fail. rewrite Rk, where_in_range, app_nil_r.
  fold rows. reflexivity.
Qed.

(** The record count of the metadata is the number of stored rows after any saves. *)
Record sop := mkOp { op_trunc : bool; op_over : bool; op_h : hop }.
Definition after_any (mkey : Z -> key) (ops : list sop) : store :=
  fold_left (fun st o => snd (save_h5 mkey (op_trunc o) (h_month (op_h o)) (op_over o) (h_frame (op_h o)) (h_ok (op_h o)) (h_missing (op_h o)) (h_disc (op_h o)) st)) ops empty_store.

Theorem any_consistent mkey ops : (forall o, In o ops -> h_frame (op_h o) <> []) ->
  consistent (after_any mkey ops) /\
  forall k, match kget k (st_rows (after_any mkey ops)), kget k (st_meta (after_any mkey ops)) with
            | Some rows, Some m => rows <> [] /\ mt_count m = Z.of_nat (length rows)
            | None, None => True
            | _, _ => False
            end.
Proof.
  induction ops as [|o ops IH] using rev_ind; intro Hf.
  - split; [split; [constructor|split; [constructor|reflexivity]]|]. intro k. exact I.
  - destruct IH as [C K]; [intros; apply Hf, in_or_app; auto|].
    unfold after_any in *. rewrite fold_left_app. cbn [fold_left]. set (st := fold_left _ ops empty_store) in *.
    assert (Hne : h_frame (op_h o) <> []) by (apply Hf, in_or_app; simpl; auto).
    destruct (save_ok mkey (op_trunc o) (op_over o) (op_h o) st Hne C) as [st' [E [C' [R [M _]]]]]. cbv zeta in *.
    rewrite E. cbn [snd]. split; [exact C'|]. intro k. rewrite R, M. destruct (key_eqb _ k).
    + unfold meta_of. destruct (h_frame (op_h o)) as [|r fr] eqn:Ef; [congruence|]. cbn [mt_count]. split; [|reflexivity].
      destruct (op_over o); [discriminate|]. destruct (kget _ _) as [l|]; [|discriminate]. destruct l; discriminate.
    + destruct (op_trunc o); [exact I|]. apply K.
Qed.

(** Save outcomes: a non-empty frame is always stored; an empty one always fails. *)
Theorem save_outcome mkey (trunc ow : bool) o st : consistent st ->
  (fst (save_h5 mkey trunc (h_month o) ow (h_frame o) (h_ok o) (h_missing o) (h_disc o) st) = Ok (month_of mkey o) <-> h_frame o <> []) /\
  (h_frame o = [] -> fst (save_h5 mkey trunc (h_month o) ow (h_frame o) (h_ok o) (h_missing o) (h_disc o) st) = Raise IndexError).
Proof.
  intro C.
  assert (E : h_frame o = [] -> fst (save_h5 mkey trunc (h_month o) ow (h_frame o) (h_ok o) (h_missing o) (h_disc o) st) = Raise IndexError).
  { intro Ef. rewrite Ef. unfold save_h5. destruct (h_month o) as [k|]; [|reflexivity]. cbv zeta.
    set (st0 := if trunc then empty_store else st).
    assert (C0 : consistent st0) by (unfold st0; destruct trunc; [split; [constructor|split; [constructor|reflexivity]]|exact C]).
    destruct C0 as [_ [_ Hk]]. cbn [st_rows st_meta st_integ]. rewrite <- Hk.
    destruct (kmem k (st_rows st0)), ow; reflexivity. }
  split; [|exact E]. split.
  - intros H Ef. rewrite (E Ef) in H. discriminate.
  - intro Hf. destruct (save_ok mkey trunc ow o st Hf C) as [st' [H _]]. now rewrite H.
Qed.

(** * View range *)
Lemma view_slice s e rows : ascZ (map w_ts rows) -> s <= e ->
  exists a c, rows = a ++ view_data (Some (s, e)) rows ++ c /\
    (forall r, In r a -> w_ts r < s) /\ (forall r, In r (view_data (Some (s, e)) rows) -> s <= w_ts r <= e) /\ (forall r, In r c -> e < w_ts r).
Proof.
  intros H Hse. apply asc_StronglySorted in H. cbn [view_data].
  induction rows as [|x rows IH]; [exists [], []; simpl; split; [auto|]; repeat split; simpl; tauto|].
  cbn [map] in H. inversion H as [|? ? S F]; subst. destruct (IH S) as [a [c [E [A [B D]]]]]. rewrite Forall_forall in F.
  assert (Fx : forall r, In r rows -> w_ts x <= w_ts r) by (intros; apply F, in_map; auto).
  assert (Bv : forall r l, In r (filter (fun r => (s <=? w_ts r) && (w_ts r <=? e)) l) -> s <= w_ts r <= e).
  { intros r l Hr. apply filter_In in Hr. destruct Hr as [_ Hr]. apply andb_true_iff in Hr. rewrite !Z.leb_le in Hr. exact Hr. }
  cbn [filter]. set (v := filter _ rows) in *.
  destruct (Z.leb_spec s (w_ts x)) as [H1|H1], (Z.leb_spec (w_ts x) e) as [H2|H2]; cbn [andb].
  - exists [], c. assert (a = []) as ->.
    { destruct a as [|y a]; [auto|]. exfalso. assert (w_ts y < s) by (apply A; now left). specialize (Fx y). rewrite E in Fx. simpl in Fx. specialize (Fx (or_introl eq_refl)). lia. }
    simpl in E. simpl. split; [now rewrite E at 1|]. split; [tauto|]. split; [|exact D]. intros r [<-|Hr]; [lia|exact (B r Hr)].
  - exists [], (x :: rows). assert (v = []) as ->.
    { apply filter_none. intros r Hr. specialize (Fx r Hr). destruct (Z.leb_spec (w_ts r) e); [lia|apply andb_false_r]. }
    simpl. split; [auto|]. split; [tauto|]. split; [tauto|]. intros r [<-|Hr]; [lia|]. specialize (Fx r Hr). lia.
  - exists (x :: a), c. simpl. split; [now rewrite E at 1|]. split; [|auto]. intros r [<-|Hr]; [lia|auto].
  - lia.
Qed.
