(** T_download.v -- C195: the downloads of the import script and its main program. *)
From Coq Require Import String Permutation.
From Verif Require Import Base M_logic M_trades S_trades M_store S_store P_store M_tbio M_binance S_binance T_tbio T_trades T_binance T_binance2 T_binance3 M_download S_download P_download.
Open Scope Z_scope.
Open Scope list_scope.

(** A monthly file is stored under its own name, and every market, symbol and month has its own address. *)
Theorem C195_addresses : forall p p' sym sym' m m', market_dir p -> market_dir p' -> ~ In 47 sym -> ~ In 47 sym' -> plain_month m -> plain_month m' ->
  basename (zip_url p sym m) = zip_name sym m /\ (zip_url p sym m = zip_url p' sym' m' -> p = p' /\ sym = sym' /\ m = m').
Proof.
  intros p p' sym sym' m m' Hp Hp' Hs Hs' Hm Hm'. split; [now apply basename_zip|]. intro E.
  assert (N : zip_name sym m = zip_name sym' m') by (rewrite <- (basename_zip p sym m), <- (basename_zip p' sym' m') by assumption; now rewrite E).
  assert (S : sym = sym').
  { pose proof (f_equal (@length Z) N) as L. rewrite !zip_name_length in L. assert (K : length sym = length sym') by lia.
    unfold zip_name in N. apply (f_equal (firstn (length sym))) in N. rewrite firstn_app, firstn_all, Nat.sub_diag, firstn_O, app_nil_r in N.
    rewrite K, firstn_app, firstn_all, Nat.sub_diag, firstn_O, app_nil_r in N. exact N. }
  subst sym'. apply zip_name_inj in N; [|assumption|assumption]. subst m'. split; [|split; reflexivity].
  unfold zip_url in E. apply app_inv_head in E. apply app_inv_tail in E.
  destruct Hp as [-> | [-> | ->]], Hp' as [-> | [-> | ->]]; try reflexivity; vm_compute in E; discriminate.
Qed.

(** A download ends with the first request that does not raise; a file broken off earlier is left over unless the whole file follows. *)
Theorem C195_outcome : forall net n u f w, let r := reply net (w_log w) u in let res := download net n u f w in
  same_but [f] (w_files w) (w_files (snd res)) /\
  (forall i b, (i < n)%nat -> (forall j, (j < i)%nat -> failing (r j)) -> r i = Body b ->
     fst res = Got /\ kget f (w_files (snd res)) = Some b /\ w_log (snd res) = w_log w ++ repeat u (S i)) /\
  (forall i, (i < n)%nat -> (forall j, (j < i)%nat -> failing (r j)) -> r i = NotFound ->
     fst res = Absent /\ left_over r i (kget f (w_files w)) (kget f (w_files (snd res))) /\ w_log (snd res) = w_log w ++ repeat u (S i)) /\
  ((0 < n)%nat -> (forall j, (j < n)%nat -> failing (r j)) ->
     fst res = Failed /\ left_over r n (kget f (w_files w)) (kget f (w_files (snd res))) /\ w_log (snd res) = w_log w ++ repeat u n).
Proof.
  intros net n u f w. cbv zeta. set (r := reply net (w_log w) u). destruct (download_spec net n u f w) as [S H]. fold r in H.
  assert (D : forall i i', (forall j, (j < i)%nat -> failing (r j)) -> ~ failing (r i) -> (forall j, (j < i')%nat -> failing (r j)) -> ~ failing (r i') -> i = i').
  { intros i i' A B A' B'. destruct (Nat.lt_trichotomy i i') as [K|[K|K]]; [elim B; auto|exact K|elim B'; auto]. }
  assert (NB : forall i b, r i = Body b -> ~ failing (r i)) by (intros i b E [F|[q F]]; rewrite E in F; discriminate).
  assert (NN : forall i, r i = NotFound -> ~ failing (r i)) by (intros i E [F|[q F]]; rewrite E in F; discriminate).
  split; [exact S|]. destruct (fst (download net n u f w)).
  - destruct H as [i [b [H1 [H2 [H3 [H4 H5]]]]]]. split; [|split].
    + intros i' b' A B C. assert (i = i') by (apply D; eauto). subst i'. rewrite C in H3. injection H3 as ->. auto.
    + intros i' A B C. assert (i = i') by (apply D; eauto). subst i'. congruence.
    + intros _ A. elim (NB i b H3). apply A. exact H1.
  - destruct H as [[-> H]|[i [H1 [H2 [H3 [H4 H5]]]]]]; [repeat split; lia|]. split; [|split].
    + intros i' b' A B C. assert (i = i') by (apply D; eauto). subst i'. congruence.
    + intros i' A B C. assert (i = i') by (apply D; eauto). subst i'. auto.
    + intros _ A. elim (NN i H3). apply A. exact H1.
  - destruct H as [H1 [H2 [H3 H4]]]. split; [|split].
    + intros i' b' A B C. elim (NB i' b' C). now apply H2.
    + intros i' A B C. elim (NN i' C). now apply H2.
    + auto.
Qed.

Section Months.
  Variables (net : list key -> key -> response) (sha md5 : key -> key).

  (** A month touches its own two files only, with at most nine requests to its own two addresses. *)
  Theorem C195_month_local : forall p sym m w, ~ In 47 sym -> plain_month m ->
    let f := zip_name sym m in let u := zip_url p sym m in let w' := snd (fetch_month net sha md5 p sym m w) in
    same_but [f; f ++ dot_checksum] (w_files w) (w_files w') /\
    exists l, w_log w' = w_log w ++ l /\ (length l <= 9)%nat /\ forall x, In x l -> x = u \/ x = u ++ dot_checksum.
  Proof.
    intros p sym m w Hs Hm. cbv zeta. unfold fetch_month. cbv zeta. rewrite basename_zip by assumption.
    set (f := zip_name sym m). set (c := f ++ dot_checksum). set (u := zip_url p sym m).
    assert (DL : forall n v g w, In g [f; c] -> v = u \/ v = u ++ dot_checksum -> same_but [f; c] (w_files w) (w_files (snd (download net n v g w))) /\
      exists l, w_log (snd (download net n v g w)) = w_log w ++ l /\ (length l <= n)%nat /\ forall x, In x l -> x = u \/ x = u ++ dot_checksum).
    { intros n v g w0 G V. split.
      - destruct (download_spec net n v g w0) as [S _]. eapply same_but_incl; [|exact S]. intros x [<-|[]]. exact G.
      - destruct (download_log net n v g w0) as [k [K1 K2]]. exists (repeat v k). split; [exact K2|]. rewrite repeat_length. split; [exact K1|]. intros x I. apply repeat_spec in I. now subst. }
    assert (If : In f [f; c]) by now left. assert (Ic : In c [f; c]) by (right; now left).
    assert (H1 : exists r w1, (if kmem f (w_files w) then (Got, w) else download net 3 u f w) = (r, w1) /\ same_but [f; c] (w_files w) (w_files w1) /\
      exists l, w_log w1 = w_log w ++ l /\ (length l <= 3)%nat /\ forall x, In x l -> x = u \/ x = u ++ dot_checksum).
    { destruct (kmem f (w_files w)); do 2 eexists; (split; [apply surjective_pairing|]); cbn [snd].
      - split; [apply same_but_refl|]. exists []. rewrite app_nil_r. split; [reflexivity|]. cbn [length]. split; [lia|intros x []].
      - apply DL; [exact If|now left]. }
    destruct H1 as [r [w1 [-> [S1 [l1 [L1 [N1 I1]]]]]]].
    assert (H2 : let w2 := if kmem c (w_files w1) then w1 else snd (download net 3 (u ++ dot_checksum) c w1) in same_but [f; c] (w_files w) (w_files w2) /\
      exists l, w_log w2 = w_log w ++ l /\ (length l <= 6)%nat /\ forall x, In x l -> x = u \/ x = u ++ dot_checksum).
    { cbv zeta. destruct (kmem c (w_files w1)).
      - split; [exact S1|]. exists l1. split; [exact L1|]. split; [lia|exact I1].
      - destruct (DL 3%nat (u ++ dot_checksum) c w1 Ic (or_intror eq_refl)) as [S2 [l2 [L2 [N2 I2]]]]. split; [eapply same_but_trans; eauto|].
        exists (l1 ++ l2). split; [rewrite L2, L1; apply app_assoc_reverse|]. rewrite app_length. split; [lia|]. intros x I. apply in_app_or in I. destruct I; auto. }
    cbv zeta in H2. set (w2 := if kmem c (w_files w1) then w1 else snd (download net 3 (u ++ dot_checksum) c w1)) in *. destruct H2 as [S2 [l2 [L2 [N2 I2]]]].
    destruct r; cbn [snd].
    - destruct (verified sha md5 f c (w_files w2)); cbn [snd].
      + split; [exact S2|]. exists l2. split; [exact L2|]. split; [lia|exact I2].
      + destruct (DL 3%nat u f (mkW (kdel f (w_files w2)) (w_log w2)) If (or_introl eq_refl)) as [S3 [l3 [L3 [N3 I3]]]]. cbn [w_files w_log] in *. split.
        * eapply same_but_trans; [exact S2|]. eapply same_but_trans; [|exact S3]. now apply same_but_del.
        * exists (l2 ++ l3). split; [rewrite L3, L2; apply app_assoc_reverse|]. rewrite app_length. split; [lia|]. intros x I. apply in_app_or in I. destruct I; auto.
    - split; [exact S1|]. exists l1. split; [exact L1|]. split; [lia|exact I1].
    - split; [exact S1|]. exists l1. split; [exact L1|]. split; [lia|exact I1].
  Qed.

  (** A file accepted by the checksum file beside it is not requested again. *)
  Theorem C195_kept : forall p sym m w b k, ~ In 47 sym -> plain_month m -> kget (zip_name sym m) (w_files w) = Some b ->
    kget (zip_name sym m ++ dot_checksum) (w_files w) = Some k -> accepts sha md5 k b -> fetch_month net sha md5 p sym m w = (true, w).
  Proof.
    intros p sym m w b k Hs Hm F C A. unfold fetch_month. cbv zeta. rewrite basename_zip by assumption. unfold kmem. rewrite F, C. unfold verified. rewrite F, C. cbn [option_map].
    unfold accepts in A. now rewrite A.
  Qed.

  Variable data : key -> option key.
  Lemma month_served p sym m w : steady net data -> ~ In 47 sym -> plain_month m -> served sha md5 data p sym (w_files w) m ->
    fst (fetch_month net sha md5 p sym m w) = true /\
    kget (zip_name sym m) (w_files (snd (fetch_month net sha md5 p sym m w))) = data (zip_url p sym m) /\
    (data (zip_url p sym m) <> None -> kget (zip_name sym m ++ dot_checksum) (w_files (snd (fetch_month net sha md5 p sym m w))) = data (zip_url p sym m ++ dot_checksum)) /\
    served sha md5 data p sym (w_files (snd (fetch_month net sha md5 p sym m w))) m.
  Proof.
    intros St Hs Hm Sv. assert (NE : zip_name sym m <> zip_name sym m ++ dot_checksum) by apply zip_not_checksum.
    assert (NE1 : key_eqb (zip_name sym m) (zip_name sym m ++ dot_checksum) = false) by (destruct (key_eqb_spec (zip_name sym m) (zip_name sym m ++ dot_checksum)); congruence).
    assert (NE2 : key_eqb (zip_name sym m ++ dot_checksum) (zip_name sym m) = false) by (destruct (key_eqb_spec (zip_name sym m ++ dot_checksum) (zip_name sym m)); congruence).
    destruct Sv as [[D F]|[b [k [[D [K [A O]]] C]]]].
    - assert (E : fetch_month net sha md5 p sym m w = (true, mkW (w_files w) (w_log w ++ [zip_url p sym m]))).
      { unfold fetch_month. cbv zeta. rewrite basename_zip by assumption. unfold kmem. rewrite F. rewrite (download_steady net data) by (exact St || lia). now rewrite D. }
      rewrite E. cbn [fst snd w_files]. rewrite D. split; [reflexivity|]. split; [exact F|]. split; [congruence|]. left. auto.
    - assert (E : fst (fetch_month net sha md5 p sym m w) = true /\ kget (zip_name sym m) (w_files (snd (fetch_month net sha md5 p sym m w))) = Some b /\
        kget (zip_name sym m ++ dot_checksum) (w_files (snd (fetch_month net sha md5 p sym m w))) = Some k).
      { unfold fetch_month. cbv zeta. rewrite basename_zip by assumption. set (f := zip_name sym m) in *. set (c := f ++ dot_checksum) in *. set (u := zip_url p sym m) in *.
        assert (W1 : exists w1 x, (if kmem f (w_files w) then (Got, w) else download net 3 u f w) = (Got, w1) /\ kget f (w_files w1) = Some x /\
          (accepts sha md5 k x -> x = b) /\ (kget c (w_files w1) = None \/ kget c (w_files w1) = Some k)).
        { unfold kmem. destruct (kget f (w_files w)) as [x|] eqn:F.
          - exists w, x. split; [reflexivity|]. split; [exact F|]. split; [intro Q; now apply (O x)|exact C].
          - exists (mkW (kput f b (w_files w)) (w_log w ++ [u])), b. rewrite (download_steady net data) by (exact St || lia). rewrite D. split; [reflexivity|]. cbn [w_files].
            rewrite kget_kput, key_eqb_refl. split; [reflexivity|]. split; [reflexivity|]. rewrite kget_kput, NE1. exact C. }
        destruct W1 as [w1 [x [-> [F1 [O1 C1]]]]].
        set (w2 := if kmem c (w_files w1) then w1 else snd (download net 3 (u ++ dot_checksum) c w1)).
        assert (W2 : kget f (w_files w2) = Some x /\ kget c (w_files w2) = Some k).
        { unfold w2, kmem. destruct C1 as [C1|C1]; rewrite C1; [|split; [exact F1|exact C1]].
          rewrite (download_steady net data) by (exact St || lia). rewrite K. cbn [snd w_files]. rewrite !kget_kput, NE2, key_eqb_refl. split; [exact F1|reflexivity]. }
        destruct W2 as [F2 C2]. clearbody w2. destruct (verified sha md5 f c (w_files w2)) eqn:V.
        - cbn [fst snd]. split; [reflexivity|]. split; [|exact C2]. rewrite F2. f_equal. apply O1. unfold verified in V. rewrite F2, C2 in V. exact V.
        - cbn [fst snd]. rewrite (download_steady net data) by (exact St || lia). rewrite D. cbn [snd w_files]. split; [reflexivity|]. rewrite !kget_kput, !kget_kdel, NE1, key_eqb_refl. auto. }
      destruct E as [E1 [E2 E3]]. rewrite E1, E2, E3, D, K. split; [reflexivity|]. split; [reflexivity|]. split; [reflexivity|]. right. exists b, k.
      split; [|right; exact E3]. split; [exact D|]. split; [exact K|]. split; [exact A|]. intros y Y _. rewrite E2 in Y. congruence.
  Qed.
  Lemma served_other p sym fs fs' m m' : plain_month m -> plain_month m' -> m <> m' -> same_but [zip_name sym m; zip_name sym m ++ dot_checksum] fs fs' ->
    served sha md5 data p sym fs m' -> served sha md5 data p sym fs' m'.
  Proof.
    intros Hm Hm' N S Sv. unfold served in *. cbv zeta in *. rewrite !S; [exact Sv| |].
    - intros [E|[E|[]]]; [now apply zip_not_checksum in E|apply app_inv_tail in E; now apply zip_name_inj in E].
    - intros [E|[E|[]]]; [now apply zip_name_inj in E|symmetry in E; now apply zip_not_checksum in E].
  Qed.

  Lemma fetch_all_cons p sym m ms w : fst (fetch_month net sha md5 p sym m w) = true ->
    fetch_all net sha md5 p sym (m :: ms) w = fetch_all net sha md5 p sym ms (snd (fetch_month net sha md5 p sym m w)).
  Proof. intro E. cbn [fetch_all]. destruct (fetch_month net sha md5 p sym m w) as [ok w']. cbn [fst] in E. now subst. Qed.
  Lemma not_month_file sym m ms : plain_month m -> (forall x, In x ms -> plain_month x) -> ~ In m ms ->
    ~ In (zip_name sym m) (month_files sym ms) /\ ~ In (zip_name sym m ++ dot_checksum) (month_files sym ms).
  Proof.
    intros Hm Hp N. unfold month_files. split; intro I; apply in_flat_map in I; destruct I as [x [I [E|[E|[]]]]].
    - apply zip_name_inj in E; [now subst|now apply Hp|exact Hm].
    - symmetry in E. now apply zip_not_checksum in E.
    - now apply zip_not_checksum in E.
    - apply app_inv_tail in E. apply zip_name_inj in E; [now subst|now apply Hp|exact Hm].
  Qed.
  (** After a run against a steady and honest server every month's file is the server's, with its checksum file: nothing else has changed. *)
  Theorem C195_run : forall p sym ms w, steady net data -> ~ In 47 sym -> NoDup ms -> (forall m, In m ms -> plain_month m) ->
    (forall m, In m ms -> served sha md5 data p sym (w_files w) m) ->
    let r := fetch_all net sha md5 p sym ms w in
    fst r = true /\ same_but (month_files sym ms) (w_files w) (w_files (snd r)) /\
    forall m, In m ms -> kget (zip_name sym m) (w_files (snd r)) = data (zip_url p sym m) /\
      (data (zip_url p sym m) <> None -> kget (zip_name sym m ++ dot_checksum) (w_files (snd r)) = data (zip_url p sym m ++ dot_checksum)).
  Proof.
    intros p sym ms w St Hs. revert w. induction ms as [|m ms IH]; intros w N Hp Sv; cbv zeta.
    - cbn [fetch_all fst snd]. split; [reflexivity|]. split; [apply same_but_refl|intros m []].
    - inversion N as [|? ? Ni N']; subst. assert (Hm : plain_month m) by (apply Hp; now left).
      destruct (month_served p sym m w St Hs Hm (Sv m (or_introl eq_refl))) as [E1 [E2 [E3 _]]]. rewrite (fetch_all_cons _ _ _ _ _ E1).
      destruct (C195_month_local p sym m w Hs Hm) as [L _]. cbv zeta in L. set (w' := snd (fetch_month net sha md5 p sym m w)) in *. clearbody w'.
      destruct (IH w' N' (fun x I => Hp x (or_intror I))) as [R1 [R2 R3]].
      { intros x I. apply (served_other p sym (w_files w) _ m); [exact Hm|apply Hp; now right|congruence|exact L|apply Sv; now right]. }
      split; [exact R1|]. split.
      + eapply same_but_trans; [eapply same_but_incl; [|exact L]|eapply same_but_incl; [|exact R2]].
        * intros x I. cbn [month_files flat_map]. apply in_or_app. left. exact I.
        * intros x I. cbn [month_files flat_map]. apply in_or_app. right. exact I.
      + destruct (not_month_file sym m ms Hm (fun x I => Hp x (or_intror I)) Ni) as [A B].
        intros x [<-|I]; [|now apply R3]. rewrite (R2 _ A), (R2 _ B). split; [exact E2|exact E3].
  Qed.
  (** A second run asks for the months the server does not have, once each, and for nothing else. *)
  Theorem C195_again : forall p sym ms w, steady net data -> ~ In 47 sym -> NoDup ms -> (forall m, In m ms -> plain_month m) ->
    (forall m, In m ms -> served sha md5 data p sym (w_files w) m) ->
    let w' := snd (fetch_all net sha md5 p sym ms w) in
    fetch_all net sha md5 p sym ms w' =
      (true, mkW (w_files w') (w_log w' ++ map (zip_url p sym) (filter (fun m => match data (zip_url p sym m) with Some _ => false | None => true end) ms))).
  Proof.
    intros p sym ms w St Hs N Hp Sv. destruct (C195_run p sym ms w St Hs N Hp Sv) as [_ [_ R]]. cbv zeta in *. set (w' := snd (fetch_all net sha md5 p sym ms w)) in *.
    assert (G : forall m, In m ms -> (data (zip_url p sym m) = None /\ kget (zip_name sym m) (w_files w') = None) \/
      exists b k, data (zip_url p sym m) = Some b /\ kget (zip_name sym m) (w_files w') = Some b /\ kget (zip_name sym m ++ dot_checksum) (w_files w') = Some k /\ accepts sha md5 k b).
    { intros m I. destruct (R m I) as [R1 R2]. destruct (Sv m I) as [[D _]|[b [k [[D [K [A _]]] _]]]].
      - left. split; [exact D|]. now rewrite R1.
      - right. exists b, k. split; [exact D|]. split; [now rewrite R1|]. split; [rewrite R2; [exact K|congruence]|exact A]. }
    clear R Sv N. clearbody w'. revert w' G. induction ms as [|m ms IH]; intros v G.
    - cbn [fetch_all map filter]. rewrite app_nil_r. now destruct v.
    - assert (Hm : plain_month m) by (apply Hp; now left). destruct (G m (or_introl eq_refl)) as [[D F]|[b [k [D [F [C A]]]]]].
      + assert (E : fetch_month net sha md5 p sym m v = (true, mkW (w_files v) (w_log v ++ [zip_url p sym m]))).
        { unfold fetch_month. cbv zeta. rewrite basename_zip by assumption. unfold kmem. rewrite F. rewrite (download_steady net data) by (exact St || lia). now rewrite D. }
        cbn [fetch_all]. rewrite E. cbn [filter]. rewrite D. cbn [map]. rewrite IH; [|intros x I; apply Hp; now right|intros x I; cbn [w_files]; apply G; now right]. cbn [w_files w_log]. now rewrite <- app_assoc.
      + cbn [fetch_all]. rewrite (C195_kept p sym m v b k Hs Hm F C A). cbn [filter]. rewrite D. apply IH; [intros x I; apply Hp; now right|intros x I; apply G; now right].
  Qed.
End Months.

(* ------------------------------------------------------------------ *)
(** ** From the server to the h5 file *)

Lemma raw_names sha md5 unzip fs x : In x (raw_files sha md5 unzip fs) -> exists b, In (f_name x, b) fs /\ x = mkRaw (f_name x) (kget (f_name x ++ dot_checksum) fs) (Some (sha b)) (Some (md5 b)) (unzip b).
Proof.
  unfold raw_files. intro I. apply in_map_iff in I. destruct I as [[n b] [<- I]]. apply filter_In in I. destruct I as [I _]. exists b. cbn [f_name fst snd]. split; [exact I|reflexivity].
Qed.
Lemma raw_in sha md5 unzip fs sym m b : In (zip_name sym m, b) fs ->
  In (mkRaw (zip_name sym m) (kget (zip_name sym m ++ dot_checksum) fs) (Some (sha b)) (Some (md5 b)) (unzip b)) (raw_files sha md5 unzip fs).
Proof.
  intro I. unfold raw_files. apply in_map_iff. exists (zip_name sym m, b). split; [reflexivity|]. apply filter_In. split; [exact I|]. cbn [fst].
  unfold zip_name. rewrite !app_assoc. rewrite skipn_suffix by reflexivity. apply key_eqb_refl.
Qed.
Lemma available_files sha md5 unzip sym fs ms :
  available sym ms (raw_files sha md5 unzip fs) = filter (fun m => match kget (zip_name sym m) fs with Some _ => true | None => false end) ms.
Proof.
  unfold available. apply filter_ext. intro m. destruct (kget (zip_name sym m) fs) as [b|] eqn:G.
  - apply existsb_exists. eexists. split; [apply raw_in, kget_in, G|]. cbn [f_name]. apply key_eqb_refl.
  - apply not_true_is_false. intro E. apply existsb_exists in E. destruct E as [x [I E]]. destruct (key_eqb_spec (f_name x) (zip_name sym m)) as [Q|]; [|discriminate].
    apply raw_names in I. destruct I as [b [I _]]. apply kget_none in G. apply G. apply in_map_iff. exists (f_name x, b). split; [exact Q|exact I].
Qed.
Lemma range_plain a b ms : plain_month a -> plain_month b -> month_range a b = Ok ms -> NoDup ms /\ forall m, In m ms -> plain_month m.
Proof.
  intros A B E. assert (VA : valid_month a) by (unfold plain_month, valid_month in *; lia). assert (VB : valid_month b) by (unfold plain_month, valid_month in *; lia).
  destruct (C72_range a b VA VB) as [K1 K2]. destruct (Z_lt_le_dec (mnum b) (mnum a)) as [L|L]; [apply K1 in L; congruence|].
  destruct (K2 L) as [l [E' [_ [N I]]]]. rewrite E in E'. injection E' as <-. split; [exact N|]. intros m H. apply I in H. destruct H as [V R].
  unfold plain_month, valid_month, mnum in *. lia.
Qed.

Lemma last_any {A} (l : list A) : forall x d d', last (x :: l) d = last (x :: l) d'.
Proof. induction l as [|y l IH]; intros x d d'; [reflexivity|]. change (last (y :: l) d = last (y :: l) d'). apply IH. Qed.

(** With a steady and honest server, a first import of a symbol stores every month the server has: the trades of its file. *)
Theorem C195_imported : forall net sha md5 unzip data mkey sort sort_id order sym market a b s p label ms,
  sorts_by_id sort_id -> sorts_ctime sort -> (forall l, Permutation l (order l)) ->
  steady net data -> market_path market = Ok p -> market_label market = Ok label ->
  plain_month a -> plain_month b -> month_range a b = Ok ms -> ~ In 47 sym -> s_h5 s = [] ->
  (forall m, In m ms -> served sha md5 data p sym (match kget sym (s_raw s) with Some fs => fs | None => [] end) m) ->
  let r := orchestrate_symbol net sha md5 unzip mkey sort sort_id order sym market a b s in
  let fs := match kget sym (s_raw (snd r)) with Some fs => fs | None => [] end in
  let av := filter (fun m => match data (zip_url p sym m) with Some _ => true | None => false end) ms in
  let task := process_task sort sort_id None (map ym av) in
  av <> [] -> NoDup (map (item_month mkey) (results task (raw_files sha md5 unzip fs))) ->
  fst r = Done /\ exists st, kget (h5_name sym label (yymm (hd a av)) (yymm (last av a))) (s_h5 (snd r)) = Some st /\
    forall m z, In m ms -> data (zip_url p sym m) = Some z ->
      exists k, data (zip_url p sym m ++ dot_checksum) = Some k /\
        forall td, task (mkRaw (zip_name sym m) (Some k) (Some (sha z)) (Some (md5 z)) (unzip z)) = Ok (Some td) ->
          kget (item_month mkey td) (st_rows st) = Some (rows_for td).
Proof.
  intros net sha md5 unzip data mkey sort sort_id order sym market a b s p label ms Hi Hc Ho St Hp Hl Pa Pb Hr Hs H5 Sv. cbv zeta.
  destruct (range_plain a b ms Pa Pb Hr) as [Nd Pl]. unfold orchestrate_symbol. rewrite Hp, Hl, Hr. cbv zeta.
  set (files := match kget sym (s_raw s) with Some fs => fs | None => [] end) in *.
  destruct (C195_run net sha md5 data p sym ms (mkW files (s_log s)) St Hs Nd Pl Sv) as [R1 [R2 R3]].
  destruct (fetch_all net sha md5 p sym ms (mkW files (s_log s))) as [ok w]. cbn [fst snd] in R1, R2, R3. subst ok. cbn [fst snd s_raw s_h5]. rewrite kget_kput, key_eqb_refl, H5.
  set (rs := raw_files sha md5 unzip (w_files w)). set (av := filter (fun m => match data (zip_url p sym m) with Some _ => true | None => false end) ms).
  assert (AV : available sym ms rs = av).
  { unfold rs. rewrite available_files. unfold av. apply filter_ext_in. intros m I. destruct (R3 m I) as [E _]. now rewrite E. }
  intros Ne ND. split; [reflexivity|]. destruct av as [|m0 av'] eqn:Eav; [congruence|]. clear Ne.
  assert (PR : Permutation (results (process_task sort sort_id None (map ym (m0 :: av'))) rs) (results (process_task sort sort_id None (map ym (m0 :: av'))) (order rs)))
    by (unfold results; apply Permutation_flat_map, Ho).
  destruct (C152_target_partial mkey sort sort_id sym label ms rs (order rs) [] m0 av' Hi Hc) as [_ [_ [st [T1 [T2 _]]]]].
  - intros m I. destruct (Pl m I) as [_ Q]. lia.
  - exact AV.
  - split; [constructor|]. cbn. repeat split; try constructor; intros; try tauto; try discriminate; auto.
  - eapply Permutation_NoDup; [apply Permutation_map; exact PR|exact ND].
  - exists st. cbn [hd]. split.
    + replace (last (m0 :: av') a) with (last (m0 :: av') m0); [exact T1|apply last_any].
    + intros m z I D. destruct (R3 m I) as [E1 E2]. destruct (Sv m I) as [[D0 _]|[z' [k [[D' [K _]] _]]]]; [congruence|]. exists k. split; [exact K|]. intros td Q. apply T2.
      exists (mkRaw (zip_name sym m) (Some k) (Some (sha z)) (Some (md5 z)) (unzip z)). split; [|exact Q]. apply (Permutation_in _ (Ho rs)). rewrite <- K, <- E2 by congruence.
      unfold rs. apply raw_in. apply kget_in. now rewrite E1.
Qed.

(* ------------------------------------------------------------------ *)
(** ** The main program *)

Lemma upper_upper x : map upper (map upper x) = map upper x.
Proof.
  rewrite map_map. apply map_ext. intro c. unfold upper. destruct ((97 <=? c) && (c <=? 122)) eqn:E.
  - rewrite andb_true_iff, !Z.leb_le in E. destruct ((97 <=? c - 32) && (c - 32 <=? 122)) eqn:F; [rewrite andb_true_iff, !Z.leb_le in F; lia|reflexivity].
  - now rewrite E.
Qed.
(** Symbols are imported one after the other, in capitals; the first failure ends the program. *)
Theorem C195_symbols : forall net sha md5 unzip mkey sort sort_id order market a b xs ys s,
  let go := import_symbols net sha md5 unzip mkey sort sort_id order market a b in
  (fst (go xs s) = Done -> go (xs ++ ys) s = go ys (snd (go xs s))) /\ (fst (go xs s) <> Done -> go (xs ++ ys) s = go xs s) /\
  go (map (map upper) xs) s = go xs s.
Proof.
  intros net sha md5 unzip mkey sort sort_id order market a b xs ys. induction xs as [|x xs IH]; intro s; cbv zeta.
  - cbn [import_symbols fst snd app map]. split; [reflexivity|]. split; [congruence|reflexivity].
  - cbn [app map import_symbols]. rewrite upper_upper. destruct (orchestrate_symbol net sha md5 unzip mkey sort sort_id order (map upper x) market a b s) as [e s']. destruct (IH s') as [A [B C]]. cbv zeta in A, B, C.
    destruct e; cbn [fst snd]; [auto| |]; (split; [discriminate|]; split; reflexivity).
Qed.
(** An unknown market, an unreadable date or an end before the start: nothing is requested and no h5 file is changed. *)
Theorem C195_refused : forall net sha md5 unzip mkey sort sort_id order today market start stop syms s,
  syms <> [] ->
  (market_path market = Raise ValueError \/ parse_arg today start = Raise ValueError \/ parse_arg today stop = Raise ValueError \/
   exists a b, parse_arg today start = Ok a /\ parse_arg today stop = Ok b /\ valid_month a /\ valid_month b /\ mnum b < mnum a) ->
  let r := import_main net sha md5 unzip mkey sort sort_id order today market start stop syms s in
  fst r = BadArgument /\ s_h5 (snd r) = s_h5 s /\ s_log (snd r) = s_log s.
Proof.
  intros net sha md5 unzip mkey sort sort_id order today market start stop syms s Ne H. cbv zeta. unfold import_main. destruct syms as [|x syms]; [congruence|]. cbn [import_symbols]. unfold orchestrate_symbol.
  destruct H as [H|[H|[H|[a [b [Ha [Hb [Va [Vb L]]]]]]]]].
  - rewrite H. destruct (parse_arg today start), (parse_arg today stop); cbn; auto.
  - rewrite H. cbn. auto.
  - rewrite H. destruct (parse_arg today start); cbn; auto.
  - rewrite Ha, Hb. apply (C72_range a b Va Vb) in L. rewrite L. destruct (market_path market), (market_label market); cbn; auto.
Qed.

(* ------------------------------------------------------------------ *)
(** ** What goes wrong *)

(** Digests of the examples: 64 times a letter given by the first character. *)
Definition ex_digest (x : key) : key := repeat (97 + hd 0 x mod 6) 64.
(** A server with September and October 2021 of the symbol B. *)
Definition ex_data (u : key) : option key :=
  if key_eqb u (zip_url spot_name [66] (2021, 9)) then Some [1]
  else if key_eqb u (zip_url spot_name [66] (2021, 9) ++ dot_checksum) then Some (ex_digest [1])
  else if key_eqb u (zip_url spot_name [66] (2021, 10)) then Some [2]
  else if key_eqb u (zip_url spot_name [66] (2021, 10) ++ dot_checksum) then Some (ex_digest [2])
  else None.
Definition ex_net (h : list key) (u : key) : response := match ex_data u with Some b => Body b | None => NotFound end.
Lemma ex_steady : steady ex_net ex_data.
Proof. intros h u. reflexivity. Qed.

(** A wrong checksum file is never renewed: a sound file is deleted and fetched again in every run, and never accepted. *)
Theorem C195_wrong_checksum_refuted : exists net sha md5 data p sym m w b, steady net data /\ data (zip_url p sym m) = Some b /\
  (exists k, data (zip_url p sym m ++ dot_checksum) = Some k /\ accepts sha md5 k b) /\ kget (zip_name sym m) (w_files w) = Some b /\
  forall n, let v := Nat.iter n (fun v => snd (fetch_month net sha md5 p sym m v)) w in
    kget (zip_name sym m) (w_files v) = Some b /\ verified sha md5 (zip_name sym m) (zip_name sym m ++ dot_checksum) (w_files v) = false /\ length (w_log v) = n.
Proof.
  exists ex_net, ex_digest, ex_digest, ex_data, spot_name, [66], (2021, 9), (mkW [(zip_name [66] (2021, 9), [1]); (zip_name [66] (2021, 9) ++ dot_checksum, ex_digest [2])] []), [1].
  split; [exact ex_steady|]. split; [vm_compute; reflexivity|]. split; [exists (ex_digest [1]); split; vm_compute; reflexivity|]. split; [vm_compute; reflexivity|].
  assert (G : forall n, let v := Nat.iter n (fun v => snd (fetch_month ex_net ex_digest ex_digest spot_name [66] (2021, 9) v))
      (mkW [(zip_name [66] (2021, 9), [1]); (zip_name [66] (2021, 9) ++ dot_checksum, ex_digest [2])] []) in
    kget (zip_name [66] (2021, 9)) (w_files v) = Some [1] /\ kget (zip_name [66] (2021, 9) ++ dot_checksum) (w_files v) = Some (ex_digest [2]) /\ length (w_log v) = n).
  { intro n. cbv zeta. induction n as [|n IH]; [split; [|split]; vm_compute; reflexivity|]. cbn [Nat.iter nat_rect].
    change (nat_rect (fun _ => world) ?a (fun _ => ?f) n) with (Nat.iter n f a). set (v := Nat.iter n _ _) in *. clearbody v. destruct IH as [A [B C]].
    assert (E : fetch_month ex_net ex_digest ex_digest spot_name [66] (2021, 9) v =
      (true, mkW (kput (zip_name [66] (2021, 9)) [1] (kdel (zip_name [66] (2021, 9)) (w_files v))) (w_log v ++ [zip_url spot_name [66] (2021, 9)]))).
    { unfold fetch_month. cbv zeta. rewrite basename_zip by (unfold plain_month; cbn; lia || (cbn; intuition discriminate)). unfold kmem. rewrite A, B. unfold verified. rewrite A, B.
      replace (verify_checksum _ _ _) with false by (vm_compute; reflexivity). rewrite (download_steady ex_net ex_data) by (exact ex_steady || lia).
      replace (ex_data (zip_url spot_name [66] (2021, 9))) with (Some [1]) by (vm_compute; reflexivity). reflexivity. }
    rewrite E. cbn [snd w_files w_log]. rewrite !kget_kput, !kget_kdel, key_eqb_refl, app_length, C. cbn [length].
    replace (key_eqb (zip_name [66] (2021, 9)) (zip_name [66] (2021, 9) ++ dot_checksum)) with false by (vm_compute; reflexivity). split; [reflexivity|]. split; [exact B|lia]. }
  intro n. cbv zeta. destruct (G n) as [A [B C]]. split; [exact A|]. split; [|exact C]. unfold verified. rewrite A, B. vm_compute. reflexivity.
Qed.
(** A file broken off in one run is taken for the whole file in the next if the server has no checksum file. *)
Theorem C195_broken_off_refuted : exists net net' data sha md5 p sym m b part, steady net' data /\ data (zip_url p sym m) = Some b /\ part <> b /\
  let r := fetch_month net sha md5 p sym m (mkW [] []) in let r' := fetch_month net' sha md5 p sym m (snd r) in
  fst r = false /\ fst r' = true /\ kget (zip_name sym m) (w_files (snd r')) = Some part /\ w_log (snd r') = w_log (snd r) ++ [zip_url p sym m ++ dot_checksum].
Proof.
  exists (fun _ _ => Broken [1]), (fun _ u => if key_eqb u (zip_url spot_name [66] (2021, 9)) then Body [1; 1] else NotFound).
  exists (fun u => if key_eqb u (zip_url spot_name [66] (2021, 9)) then Some [1; 1] else None), ex_digest, ex_digest, spot_name, [66], (2021, 9), [1; 1], [1].
  split; [intros h u; now destruct (key_eqb _ _)|]. split; [vm_compute; reflexivity|]. split; [discriminate|]. cbv zeta. repeat split; vm_compute; reflexivity.
Qed.
(** A month reported as not found may still be imported: from what a request broken off before had written. *)
Theorem C195_not_found_refuted : exists net sha md5 unzip p sym m part, fst (download net 3 (zip_url p sym m) (zip_name sym m) (mkW [] [])) = Absent /\
  let r := fetch_all net sha md5 p sym [m] (mkW [] []) in
  fst r = true /\ available sym [m] (raw_files sha md5 unzip (w_files (snd r))) = [m] /\ kget (zip_name sym m) (w_files (snd r)) = Some part.
Proof.
  exists (fun h _ => match h with [] => Broken [1] | _ => NotFound end), ex_digest, ex_digest, (fun _ => []), spot_name, [66], (2021, 9), [1]. cbv zeta. repeat split; vm_compute; reflexivity.
Qed.
(** One month that cannot be reached three times: months downloaded before it are not stored, later symbols are not even asked for. *)
Theorem C195_others_refuted : exists net market syms s, let r := import_main net ex_digest ex_digest (fun _ => []) sep_key csort isort (fun l => l) (2021, 10) market "2021-09" "now" syms s in
  fst r = NetworkError /\ s_h5 (snd r) = [] /\ s_log (snd r) = [zip_url spot_name [66] (2021, 9); zip_url spot_name [66] (2021, 9) ++ dot_checksum] ++ repeat (zip_url spot_name [66] (2021, 10)) 3 /\
  length syms = 2%nat.
Proof.
  exists (fun h u => if key_eqb u (zip_url spot_name [66] (2021, 10)) then Refused else ex_net h u), spot_name, [[98]; [67]], (mkState [] [] []). cbv zeta. repeat split; vm_compute; reflexivity.
Qed.
(** The tables in the files of the examples. *)
Definition ex_unzip (b : key) : list (list cell) := if key_eqb b [1] then f_table ex_sep else if key_eqb b [2] then f_table ex_oct else [].
Definition ex_months : list month := [(2021, 9); (2021, 10); (2021, 11)].
(** A raw directory with a damaged September file. *)
Definition ex_state : state := mkState [([66], [(zip_name [66] (2021, 9), [3; 3])])] [] [].
Lemma ex_served m : In m ex_months -> served ex_digest ex_digest ex_data spot_name [66] (match kget [66] (s_raw ex_state) with Some fs => fs | None => [] end) m.
Proof.
  assert (A : accepts ex_digest ex_digest (ex_digest [1]) [3; 3] -> False) by (intro H; vm_compute in H; discriminate).
  intros [<-|[<-|[<-|[]]]].
  - right. exists [1], (ex_digest [1]). split; [|left; vm_compute; reflexivity]. repeat split; try (vm_compute; reflexivity).
    intros y H. replace (kget _ _) with (Some [3; 3] : option key) in H by (vm_compute; reflexivity). injection H as <-. intro Q. exfalso. exact (A Q).
  - right. exists [2], (ex_digest [2]). split; [|left; vm_compute; reflexivity]. repeat split; try (vm_compute; reflexivity).
    intros y H. replace (kget _ _) with (None : option key) in H by (vm_compute; reflexivity). discriminate.
  - left. split; vm_compute; reflexivity.
Qed.
Example C195_example :
  (market_dir spot_name /\ ~ In 47 [66] /\ plain_month (2021, 9)) /\ steady ex_net ex_data /\
  month_range (2021, 9) (2021, 11) = Ok ex_months /\ (forall m, In m ex_months -> plain_month m) /\ NoDup ex_months /\
  (forall m, In m ex_months -> served ex_digest ex_digest ex_data spot_name [66] (match kget [66] (s_raw ex_state) with Some fs => fs | None => [] end) m) /\
  let r := orchestrate_symbol ex_net ex_digest ex_digest ex_unzip sep_key csort isort (@rev rawfile) [66] spot_name (2021, 9) (2021, 11) ex_state in
  fst r = Done /\ length (s_log (snd r)) = 5%nat /\ map fst (s_h5 (snd r)) = [h5_name [66] (txt "SPOT") (yymm (2021, 9)) (yymm (2021, 10))] /\
  match kget [66] (s_raw (snd r)) with
  | Some fs => NoDup (map (item_month sep_key) (results (process_task csort isort None [ym (2021, 9); ym (2021, 10)]) (raw_files ex_digest ex_digest ex_unzip fs))) /\
               length (results (process_task csort isort None [ym (2021, 9); ym (2021, 10)]) (raw_files ex_digest ex_digest ex_unzip fs)) = 2%nat
  | None => False
  end /\
  fst (import_main ex_net ex_digest ex_digest ex_unzip sep_key csort isort (@rev rawfile) (2021, 11) spot_name "2021-09" "now" [[98]] ex_state) = Done /\
  fst (import_main ex_net ex_digest ex_digest ex_unzip sep_key csort isort (@rev rawfile) (2021, 8) spot_name "2021-09" "now" [[98]] ex_state) = BadArgument.
Proof.
  split; [split; [now left|split; [cbn; intuition discriminate|unfold plain_month; cbn; lia]]|]. split; [exact ex_steady|]. split; [vm_compute; reflexivity|].
  split; [intros m [<-|[<-|[<-|[]]]]; unfold plain_month; cbn; lia|]. split; [repeat constructor; cbn; intuition discriminate|]. split; [exact ex_served|]. cbv zeta.
  split; [vm_compute; reflexivity|]. split; [vm_compute; reflexivity|]. split; [vm_compute; reflexivity|]. split; [vm_compute; split; [repeat constructor; cbn; intuition discriminate|reflexivity]|].
  split; vm_compute; reflexivity.
Qed.
Example C195_outcome_example :
  let net := (fun h (_ : key) => match h with [] => Broken [7] | [_] => Refused | _ => Body [1; 2] end) in
  failing (reply net [] [65] 0) /\ failing (reply net [] [65] 1) /\ reply net [] [65] 2 = Body [1; 2] /\
  download net 3 [65] [66] (mkW [([67], [9])] []) = (Got, mkW [([67], [9]); ([66], [1; 2])] [[65]; [65]; [65]]) /\
  download net 2 [65] [66] (mkW [([67], [9])] []) = (Failed, mkW [([67], [9]); ([66], [7])] [[65]; [65]]).
Proof. cbv zeta. split; [right; exists [7]; reflexivity|]. split; [left; reflexivity|]. repeat split; vm_compute; reflexivity. Qed.

Print Assumptions C195_addresses.
Print Assumptions C195_outcome.
Print Assumptions C195_month_local.
Print Assumptions C195_kept.
Print Assumptions C195_run.
Print Assumptions C195_again.
Print Assumptions C195_imported.
Print Assumptions C195_symbols.
Print Assumptions C195_refused.
Print Assumptions C195_wrong_checksum_refuted.
Print Assumptions C195_broken_off_refuted.
Print Assumptions C195_not_found_refuted.
Print Assumptions C195_others_refuted.
