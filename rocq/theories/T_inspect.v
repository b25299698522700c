(** T_inspect.v -- looking up months of a file, before and after bars are added (bar/io.py). *)
From Coq Require Import String Ascii.
From Verif Require Import Base M_addbar M_inspect T_addbar.
Open Scope Z_scope.

Lemma app_inj_l p a b : append p a = append p b -> a = b.
Proof. induction p as [|c p IH]; cbn; [auto|]. intros [= H]. auto. Qed.

Section File.
  Context {T : Type}.
  Lemma in_keys_spec k (f : file T) : in_keys k f = true <-> In k (map fst f).
  Proof.
    unfold in_keys. rewrite existsb_exists. split.
    - intros [x [I E]]. apply String.eqb_eq in E. now subst.
    - intro I. exists k. split; [exact I|apply String.eqb_refl].
  Qed.
  Lemma norm_abs p m : norm (append (String "/" p) m) = append (String "/" p) m.
  Proof. reflexivity. Qed.
  Lemma fget_keys p m (f : file T) : fget (append (String "/" p) m) f <> None <-> In (append (String "/" p) m) (map fst f).
  Proof.
    induction f as [|[k c] f IH]; cbn [fget map fst In]; [split; [congruence|intros []]|]. rewrite norm_abs.
    destruct (String.eqb_spec (append (String "/" p) m) k) as [E|N].
    - split; [intros _; now left|discriminate].
    - rewrite IH. split; [now right|]. intros [E|H]; [congruence|exact H].
  Qed.
  (** C168, lookup: for a month m, metadata and discontinuities are those stored under "/meta/m" and "/integrity/m";
      KeyError without trades (or, for metadata, without metadata); None for no discontinuities. The short form "m"
      is never found. *)
  Theorem C168_lookup : forall (f : file T) m, no_slash m ->
    (forall c, get_metadata f (append "/trades/" m) = Ok c <-> In (append "/trades/" m) (map fst f) /\ fget (append "/meta/" m) f = Some c) /\
    (get_metadata f (append "/trades/" m) = Raise KeyError <-> ~ In (append "/trades/" m) (map fst f) \/ fget (append "/meta/" m) f = None) /\
    (get_integrity_info f (append "/trades/" m) =
       if in_dec string_dec (append "/trades/" m) (map fst f) then Ok (fget (append "/integrity/" m) f) else Raise KeyError) /\
    ((forall k, In k (map fst f) -> exists r, k = append "/" r) -> get_metadata f m = Raise KeyError /\ get_integrity_info f m = Raise KeyError).
  Proof.
    intros f m N. unfold get_metadata, get_integrity_info. rewrite !replace_head, !replace_id by assumption.
    pose proof (in_keys_spec (append "/trades/" m) f) as I. split; [|split; [|split]].
    - intro c. destruct (in_keys _ f).
      + destruct (fget (append "/meta/" m) f) as [c'|].
        * split; [intros [= <-]; split; [now apply I|reflexivity]|intros [_ [= <-]]; reflexivity].
        * split; [discriminate|intros [_ K]; discriminate].
      + split; [discriminate|]. intros [K _]. apply I in K. discriminate.
    - destruct (in_keys _ f).
      + destruct (fget (append "/meta/" m) f).
        * split; [discriminate|]. intros [K|K]; [exfalso; apply K; now apply I|discriminate].
        * split; [intros _; now right|reflexivity].
      + split; [|reflexivity]. intros _. left. intro K. apply I in K. discriminate.
    - destruct (in_dec string_dec _ _) as [K|K]; destruct (in_keys _ f); try reflexivity.
      + apply I in K. discriminate.
      + exfalso. apply K. now apply I.
    - intro A. assert (K : in_keys m f = false).
      { destruct (in_keys m f) eqn:E; [|reflexivity]. apply in_keys_spec in E. destruct (A _ E) as [r ->]. cbn in N. destruct N as [N _]. congruence. }
      rewrite K. auto.
  Qed.

  (** Keys below "/klines/" and "/klines_meta/". *)
  Definition bar_key (k : string) : Prop := exists m, k = append "/klines/" m \/ k = append "/klines_meta/" m.
  Variable build : T -> result (list Z).
  Lemma keys_put k c (f : file T) x : In x (map fst (fput k c f)) <-> x = norm k \/ In x (map fst f).
  Proof.
    unfold fput, fdel. rewrite map_app, in_app_iff. cbn [map fst In]. split.
    - intros [H|[H|[]]]; [|now left]. right. apply in_map_iff in H. destruct H as [p [E H]]. apply filter_In in H. apply in_map_iff. exists p. tauto.
    - intros [H|H]; [now right; left|]. destruct (String.eqb_spec (norm k) x) as [E|E]; [now right; left|]. left. apply in_map_iff in H. destruct H as [p [E' H]].
      apply in_map_iff. exists p. split; [exact E'|]. apply filter_In. split; [exact H|]. rewrite E'. apply String.eqb_neq in E. now rewrite E.
  Qed.
  Lemma process_key_frame f m ov : no_slash m ->
    let f' := fst (process_key build f (append "/trades/" m) ov) in
    (forall k, ~ bar_key (norm k) -> fget k f' = fget k f) /\ (forall k, ~ bar_key k -> In k (map fst f') <-> In k (map fst f)).
  Proof.
    intro N. cbv zeta. unfold process_key. cbv zeta. rewrite month_full, !replace_head by assumption.
    destruct (_ && _)%bool; [cbn [fst]; split; [reflexivity|tauto]|].
    destruct (fget (append "/trades/" m) f) as [[t| | | |]|]; try (cbn [fst]; split; [reflexivity|tauto]).
    destruct (build t) as [[|b bars]|e]; cbn [fst]; [| |split; [reflexivity|tauto]].
    - split.
      + intros k K. rewrite fget_put. destruct (String.eqb_spec (norm k) (norm (append "/klines/" m))) as [E|]; [|reflexivity].
        exfalso. apply K. exists m. left. exact E.
      + intros k K. rewrite keys_put. split; [|now right]. intros [->|H]; [|exact H]. exfalso. apply K. exists m. now left.
    - split.
      + intros k K. rewrite !fget_put. destruct (String.eqb_spec (norm k) (norm (append "/klines_meta/" m))) as [E|];
          [exfalso; apply K; exists m; right; exact E|].
        destruct (String.eqb_spec (norm k) (norm (append "/klines/" m))) as [E|]; [|reflexivity]. exfalso. apply K. exists m. left. exact E.
      + intros k K. rewrite !keys_put. split; [|tauto]. intros [->|[->|H]]; [exfalso; apply K; exists m; now right|exfalso; apply K; exists m; now left|exact H].
  Qed.
  Lemma not_bar m : ~ bar_key (append "/trades/" m) /\ ~ bar_key (append "/meta/" m) /\ ~ bar_key (append "/integrity/" m).
  Proof. repeat split; intros [r [E|E]]; cbn in E; discriminate E. Qed.
  Lemma process_all_frame ks : (forall k, In k ks -> exists m, no_slash m /\ k = append "/trades/" m) -> forall f ov,
    let f' := fst (process_all build f ks ov) in
    (forall k, ~ bar_key (norm k) -> fget k f' = fget k f) /\ (forall k, ~ bar_key k -> In k (map fst f') <-> In k (map fst f)).
  Proof.
    induction ks as [|k0 ks IH]; intros H f ov; cbn [process_all fst]; [split; [reflexivity|tauto]|].
    destruct (H k0 (or_introl eq_refl)) as [m [N ->]]. destruct (process_key_frame f m ov N) as [P1 P2].
    destruct (IH (fun k K => H k (or_intror K)) (fst (process_key build f (append "/trades/" m) ov)) ov) as [Q1 Q2].
    split; intros k K; [rewrite Q1, P1 by assumption; reflexivity|]. rewrite Q2, P2 by assumption. tauto.
  Qed.
  (** C168, bars: adding bars for months of the file changes nothing the inspector reports: the same months are
      listed, with the same metadata, discontinuities and integrity summary of each. *)
  Theorem C168_add_bars : forall f ks ov, (forall k, In k ks -> exists m, no_slash m /\ k = append "/trades/" m) ->
    let f' := fst (process_all build f ks ov) in
    (forall k, In k (inspector_keys f') <-> In k (inspector_keys f)) /\
    (forall m, no_slash m -> get_metadata f' (append "/trades/" m) = get_metadata f (append "/trades/" m) /\
       get_integrity_info f' (append "/trades/" m) = get_integrity_info f (append "/trades/" m) /\
       summary_of f' (append "/trades/" m) = summary_of f (append "/trades/" m)).
  Proof.
    intros f ks ov H. cbv zeta. destruct (process_all_frame ks H f ov) as [P1 P2]. set (f' := fst (process_all build f ks ov)) in *. clearbody f'. split.
    - intro k. unfold inspector_keys. rewrite !filter_In. destruct (strip "/trades/" k) as [r|] eqn:E; [|split; intros [_ K]; discriminate].
      apply strip_some in E. subst k. rewrite P2 by apply not_bar. tauto.
    - intros m N. destruct (not_bar m) as [B1 [B2 B3]].
      assert (K : in_keys (append "/trades/" m) f' = in_keys (append "/trades/" m) f).
      { pose proof (in_keys_spec (append "/trades/" m) f') as I'. pose proof (in_keys_spec (append "/trades/" m) f) as I. specialize (P2 _ B1).
        destruct (in_keys _ f'), (in_keys _ f); try reflexivity; [symmetry|]; tauto. }
      unfold get_metadata, get_integrity_info, summary_of. rewrite !replace_head, K by assumption. now rewrite !P1 by assumption.
  Qed.
  (** C168, listed bars: afterwards the reader lists the bars it listed before and those of the months processed
      that had trades with a bar list (also an empty one). *)
  Theorem C168_bar_list : forall f m ov, no_slash m ->
    let f' := fst (process_key build f (append "/trades/" m) ov) in
    forall k, In k (bar_keys f') <-> In k (bar_keys f) \/
      (k = append "/klines/" m /\ exists t bars, fget (append "/trades/" m) f = Some (Trades t) /\ build t = Ok bars /\ (fget (append "/klines/" m) f = None \/ ov = true)).
  Proof.
    intros f m ov N. cbv zeta. intro k. unfold bar_keys. rewrite !filter_In. destruct (strip "/klines/" k) as [r|] eqn:E.
    2: { split; [intros [_ K]; discriminate|]. intros [[_ K]|[-> _]]; [discriminate|]. rewrite strip_app in E. discriminate. }
    apply strip_some in E. subst k. unfold process_key. cbv zeta. rewrite month_full, !replace_head by assumption. unfold fmem.
    destruct (fget (append "/klines/" m) f) as [old|] eqn:G.
    - assert (O : forall x, x = append "/klines/" m -> In x (map fst f)) by (intros x ->; apply (fget_keys "klines/"); change (append (String "/" "klines/") m) with (append "/klines/" m); congruence).
      destruct ov; cbn [negb andb].
      + destruct (fget (append "/trades/" m) f) as [[t| | | |]|]; cbn [fst]; try (split; [tauto|]; intros [K|[K (t' & b' & Q & _)]]; [tauto|discriminate Q]).
        destruct (build t) as [[|b bars]|e] eqn:B; cbn [fst].
        * rewrite keys_put, norm_abs. split; [|intros [K|[K _]]; [tauto|split; [right; now apply O|reflexivity]]]. intros [[K|K] _]; [left; split; [now apply O|reflexivity]|tauto].
        * rewrite !keys_put, !norm_abs. split; [|intros [K|[K _]]; [tauto|split; [right; right; now apply O|reflexivity]]].
          intros [[K|[K|K]] _]; [cbn in K; discriminate K|left; split; [now apply O|reflexivity]|tauto].
        * split; [tauto|]. intros [K|[K _]]; [exact K|split; [now apply O|reflexivity]].
      + cbn [fst]. split; [tauto|]. intros [K|[K _]]; [exact K|split; [now apply O|reflexivity]].
    - cbn [andb]. destruct (fget (append "/trades/" m) f) as [[t| | | |]|] eqn:Gt; cbn [fst]; try (split; [tauto|]; intros [K|[K (t' & b' & Q & _)]]; [tauto|discriminate Q]).
      destruct (build t) as [[|b bars]|e] eqn:B; cbn [fst].
      + rewrite keys_put, norm_abs. split.
        * intros [[K|K] _]; [right; split; [exact K|]; exists t, []; auto|tauto].
        * intros [K|[K _]]; [tauto|]. split; [now left|reflexivity].
      + rewrite !keys_put, !norm_abs. split.
        * intros [[K|[K|K]] _]; [cbn in K; discriminate K|right; split; [exact K|]; exists t, (b :: bars); auto|tauto].
        * intros [K|[K _]]; [tauto|]. split; [right; now left|reflexivity].
      + split; [tauto|]. intros [K|[K (t' & b' & Q & Q2 & _)]]; [exact K|]. injection Q as <-. congruence.
  Qed.
End File.
(** C168: "metadata can only be asked for months of trades" is false: the key of the metadata itself, and that of the
    bars of a month, are answered as well. *)
Theorem C168_other_keys_refuted : exists (f : file nat) k c, get_metadata f k = Ok c /\ ~ In k (inspector_keys f).
Proof.
  exists ex_file, "/meta/2024-02"%string, (TMeta (mkTmeta (Some false) (Some 2%Q))). split; [vm_compute; reflexivity|].
  vm_compute. intuition discriminate.
Qed.
Example C168_example : let f' := fst (process_all ex_build ex_file (list_keys ex_file) false) in
  (forall k, In k (list_keys ex_file) -> exists m, no_slash m /\ k = append "/trades/" m) /\
  inspector_keys f' = ["/trades/2024-01"; "/trades/2024-02"]%string /\ bar_keys ex_file = [] /\ bar_keys f' = ["/klines/2024-01"; "/klines/2024-02"]%string /\
  get_metadata f' "/trades/2024-02" = Ok (TMeta (mkTmeta (Some false) (Some 2%Q))) /\ get_metadata f' "/trades/2024-03" = Raise KeyError /\
  get_integrity_info f' "/trades/2024-02" = Ok (Some (Integrity 4)) /\ get_integrity_info f' "/trades/2024-01" = Ok None /\
  (forall k, In k (map fst ex_file) -> exists r, k = append "/" r) /\ get_metadata f' "2024-02" = Raise KeyError.
Proof.
  split; [intros k I; cbn in I; destruct I as [<-|[<-|[]]]; [exists "2024-01"%string|exists "2024-02"%string]; (split; [cbn; repeat split; discriminate|reflexivity])|].
  do 7 (split; [vm_compute; reflexivity|]). split; [|vm_compute; reflexivity].
  intros k I. cbn in I. repeat (destruct I as [<-|I]; [eexists; cbn; reflexivity|]). destruct I.
Qed.

Print Assumptions C168_lookup.
Print Assumptions C168_add_bars.
Print Assumptions C168_bar_list.
Print Assumptions C168_other_keys_refuted.
