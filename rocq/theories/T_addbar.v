(** T_addbar.v -- adding bars to a file, integrity summary (bar/io.py). *)
From Coq Require Import String Ascii.
From Verif Require Import Base M_addbar.
Open Scope Z_scope.

(** Spec: a text without slash, as a month "YYYY-MM" is. *)
Fixpoint no_slash (s : string) : Prop := match s with EmptyString => True | String c s' => c <> "/"%char /\ no_slash s' end.

Lemma strip_app p s : strip p (append p s) = Some s.
Proof. induction p as [|c p IH]; [reflexivity|]. cbn. now rewrite Ascii.eqb_refl. Qed.
Lemma strip_some p s r : strip p s = Some r <-> s = append p r.
Proof.
  revert s. induction p as [|c p IH]; intro s; [cbn; split; congruence|]. destruct s as [|d s]; cbn; [split; discriminate|].
  destruct (Ascii.eqb_spec c d) as [->|N]; [rewrite IH; split; congruence|split; [discriminate|congruence]].
Qed.
Lemma replace_none p new s fuel : no_slash s -> replace_fuel fuel (String "/" p) new s = s.
Proof.
  revert s. induction fuel as [|f IH]; intros s N; [reflexivity|]. cbn [replace_fuel]. destruct s as [|c s]; [reflexivity|].
  destruct N as [N1 N2]. assert (E : strip (String "/" p) (String c s) = None) by (cbn [strip]; destruct (Ascii.eqb_spec "/" c); [congruence|reflexivity]).
  rewrite E. now rewrite IH.
Qed.
Lemma replace_head p new m : no_slash m -> replace (String "/" p) new (append (String "/" p) m) = append new m.
Proof.
  intro N. unfold replace. cbn [append String.length replace_fuel]. change (String "/" (append p m)) with (append (String "/" p) m).
  rewrite strip_app. now rewrite replace_none.
Qed.
Lemma replace_id p new m : no_slash m -> replace (String "/" p) new m = m.
Proof. intro N. apply replace_none, N. Qed.
Lemma after_none m : no_slash m -> after_slash m = None.
Proof. induction m as [|c m IH]; [reflexivity|]. intros [N1 N2]. cbn. rewrite IH by assumption. destruct (Ascii.eqb_spec c "/"); [contradiction|reflexivity]. Qed.
Lemma month_short m : no_slash m -> month_of m = m.
Proof. intro N. unfold month_of. now rewrite after_none. Qed.
Lemma month_full m : no_slash m -> month_of (append "/trades/" m) = m.
Proof. intro N. unfold month_of. cbn. now rewrite (after_none m N). Qed.
Lemma norm_short m : no_slash m -> norm m = append "/" m.
Proof. intro N. destruct m as [|c m]; [reflexivity|]. destruct N as [N _]. unfold norm. destruct c as [[] [] [] [] [] [] [] []]; try reflexivity. exfalso. now apply N. Qed.
Section File.
  Context {T : Type}.
  Lemma norm_norm k : norm (norm k) = norm k.
  Proof. destruct k as [|c k]; [reflexivity|]. unfold norm at 2 3. destruct c as [[] [] [] [] [] [] [] []]; reflexivity. Qed.
  Lemma fget_del k k' (f : file T) : fget k (fdel k' f) = if String.eqb (norm k) (norm k') then None else fget k f.
  Proof.
    induction f as [|[x c] f IH]; cbn [fdel filter fget]; [now destruct (String.eqb _ _)|]. cbn [fst]. fold (fdel k' f).
    destruct (String.eqb_spec (norm k') x) as [E|N]; cbn [negb fget]; rewrite IH.
    - subst x. destruct (String.eqb_spec (norm k) (norm k')); reflexivity.
    - destruct (String.eqb_spec (norm k) x) as [E|N2]; [|reflexivity]. subst x. destruct (String.eqb_spec (norm k) (norm k')); congruence.
  Qed.
  Lemma fget_app k (f g : file T) : fget k (f ++ g) = match fget k f with Some c => Some c | None => fget k g end.
  Proof. induction f as [|[x c] f IH]; [reflexivity|]. cbn. destruct (String.eqb (norm k) x); auto. Qed.
  Lemma fget_put k k' c (f : file T) : fget k (fput k' c f) = if String.eqb (norm k) (norm k') then Some c else fget k f.
  Proof.
    unfold fput. rewrite fget_app, fget_del. cbn. destruct (String.eqb (norm k) (norm k')); [reflexivity|]. now destruct (fget k f).
  Qed.
  Variable build : T -> result (list Z).

  (** C121: given a key "/trades/m" as listed by the file, the bars are stored under
      "/klines/m", their number and range under "/klines_meta/m", and nothing else changes. *)
  Theorem C121_full_key (f : file T) m t b bars ov : no_slash m -> fget (append "/trades/" m) f = Some (Trades t) -> build t = Ok (b :: bars) ->
    (fget (append "/klines/" m) f = None \/ ov = true) ->
    let r := process_key build f (append "/trades/" m) ov in
    snd r = Ok true /\ fget (append "/klines/" m) (fst r) = Some (Bars (b :: bars)) /\
    fget (append "/klines_meta/" m) (fst r) =
      Some (KMeta (mkKmeta (1 + Z.of_nat (length bars)) b (last (b :: bars) 0) (append "/trades/" m))) /\
    forall k, norm k <> append "/klines/" m -> norm k <> append "/klines_meta/" m -> fget k (fst r) = fget k f.
  Proof.
    intros N G B K. unfold process_key. cbv zeta. rewrite month_full, replace_head, replace_head by assumption.
    assert (E : (fmem (append "/klines/" m) f && negb ov)%bool = false) by (unfold fmem; destruct K as [->| ->]; [reflexivity|apply andb_false_r]).
    rewrite E, G, B. cbn [fst snd]. split; [reflexivity|]. rewrite !fget_put.
    assert (X : String.eqb (norm (append "/klines/" m)) (norm (append "/klines_meta/" m)) = false) by (apply String.eqb_neq; cbn; discriminate).
    rewrite X, !String.eqb_refl. split; [reflexivity|]. split; [do 3 f_equal; cbn [length]; lia|].
    intros k K1 K2. rewrite !fget_put. change (norm (append "/klines/" m)) with (append "/klines/" m). change (norm (append "/klines_meta/" m)) with (append "/klines_meta/" m).
    destruct (String.eqb_spec (norm k) (append "/klines_meta/" m)); [contradiction|]. destruct (String.eqb_spec (norm k) (append "/klines/" m)); [contradiction|reflexivity].
  Qed.
  (** C121: existing bars are kept unless overwriting is asked for. *)
  Theorem C121_skip (f : file T) m : no_slash m -> fget (append "/klines/" m) f <> None ->
    process_key build f (append "/trades/" m) false = (f, Ok false).
  Proof.
    intros N G. unfold process_key. cbv zeta. rewrite replace_head by assumption. unfold fmem. destruct (fget (append "/klines/" m) f); [reflexivity|congruence].
  Qed.
  (** C121, the documented short key "m": the bars are written to "/m" and overwritten by
      their own metadata; no key under "/klines" changes, so no reader finds them. *)
  Theorem C121_short_key (f : file T) m t b bars ov : no_slash m -> fget (append "/trades/" m) f = Some (Trades t) -> build t = Ok (b :: bars) ->
    (fget m f = None \/ ov = true) ->
    let r := process_key build f m ov in
    snd r = Ok true /\ (exists km, fget m (fst r) = Some (KMeta km)) /\
    forall k, norm k <> append "/" m -> fget k (fst r) = fget k f.
  Proof.
    intros N G B K. unfold process_key. cbv zeta. rewrite month_short, !replace_id by assumption.
    assert (E : (fmem m f && negb ov)%bool = false) by (unfold fmem; destruct K as [->| ->]; [reflexivity|apply andb_false_r]).
    rewrite E, G, B. cbn [fst snd]. split; [reflexivity|]. split; [rewrite fget_put, String.eqb_refl; eauto|].
    intros k K1. rewrite !fget_put, (norm_short m) by assumption. destruct (String.eqb_spec (norm k) (append "/" m)); [contradiction|reflexivity].
  Qed.
  (** C121: a month whose bars are empty leaves bars without metadata, which no reader
      finds, and which a second run without overwriting skips. *)
  Theorem C121_empty (f : file T) m t ov : no_slash m -> fget (append "/trades/" m) f = Some (Trades t) -> build t = Ok [] ->
    fget (append "/klines/" m) f = None ->
    let r := process_key build f (append "/trades/" m) ov in
    snd r = Raise IndexError /\ fget (append "/klines_meta/" m) (fst r) = fget (append "/klines_meta/" m) f /\
    process_key build (fst r) (append "/trades/" m) false = (fst r, Ok false).
  Proof.
    intros N G B K. assert (R : process_key build f (append "/trades/" m) ov = (fput (append "/klines/" m) (Bars []) f, Raise IndexError)).
    { unfold process_key. cbv zeta. rewrite month_full, replace_head by assumption. unfold fmem. rewrite K, G, B. reflexivity. }
    cbv zeta. rewrite R. cbn [fst snd]. split; [reflexivity|]. split.
    - rewrite fget_put. destruct (String.eqb_spec (norm (append "/klines_meta/" m)) (norm (append "/klines/" m))) as [E|]; [cbn in E; discriminate|reflexivity].
    - apply C121_skip; [assumption|]. rewrite fget_put, String.eqb_refl. discriminate.
  Qed.
  (** C121, [keys]: every key must be listed, so a short key as documented always raises. *)
  Theorem C121_keys (f : file T) ks : ks <> [] ->
    (check_keys f ks = Ok ks <-> forall k, In k ks -> In k (map fst f) /\ exists m, k = append "/trades/" m) /\
    ((exists m, no_slash m /\ In m ks) -> check_keys f ks = Raise KeyError).
  Proof.
    intro Ne. assert (L : forall k, existsb (String.eqb k) (list_keys f) = true <-> In k (map fst f) /\ exists m, k = append "/trades/" m).
    { intro k. rewrite existsb_exists. unfold list_keys. split.
      - intros [x [I E]]. apply String.eqb_eq in E. subst x. apply filter_In in I. destruct I as [I S]. split; [exact I|].
        destruct (strip "/trades/" k) as [r|] eqn:X; [|discriminate]. apply strip_some in X. eauto.
      - intros [I [m ->]]. exists (append "/trades/" m). split; [|apply String.eqb_refl]. apply filter_In. split; [exact I|]. now rewrite strip_app. }
    assert (C : check_keys f ks = if forallb (fun k => existsb (String.eqb k) (list_keys f)) ks then Ok ks else Raise KeyError) by (destruct ks; [congruence|reflexivity]).
    rewrite C. split.
    - destruct (forallb _ ks) eqn:E.
      + split; [|reflexivity]. intros _ k I. rewrite forallb_forall in E. apply L. now apply E.
      + split; [discriminate|]. intro H. assert (forallb (fun k => existsb (String.eqb k) (list_keys f)) ks = true) by (apply forallb_forall; intros k I; apply L; now apply H). congruence.
    - intros [m [N I]]. destruct (forallb _ ks) eqn:E; [|reflexivity]. rewrite forallb_forall in E. specialize (E m I). apply L in E.
      destruct E as [_ [r ->]]. cbn in N. tauto.
  Qed.

  (** C122: the summary lists exactly the months whose flag is False, with their metadata,
      and is None iff there is none. *)
  Theorem C122_summary (f : file T) : (forall k, In k (list_keys f) -> exists m, no_slash m /\ k = append "/trades/" m) ->
    (integrity_summary f = None <-> forall m tm, In (append "/trades/" m) (map fst f) -> fget (append "/meta/" m) f = Some (TMeta tm) -> tm_ok tm <> Some false) /\
    (forall l, integrity_summary f = Some l -> forall m tm d, In (m, (tm, d)) l <->
       In (append "/trades/" m) (map fst f) /\ fget (append "/meta/" m) f = Some (TMeta tm) /\ tm_ok tm = Some false /\
       d = match fget (append "/integrity/" m) f with Some (Integrity n) => Some n | _ => None end).
  Proof.
    intro H.
    assert (LK : forall m, In (append "/trades/" m) (map fst f) <-> In (append "/trades/" m) (list_keys f)).
    { intro m. unfold list_keys. rewrite filter_In, strip_app. tauto. }
    assert (S : forall m tm d, In (m, (tm, d)) (flat_map (summary_of f) (list_keys f)) <->
       In (append "/trades/" m) (map fst f) /\ fget (append "/meta/" m) f = Some (TMeta tm) /\ tm_ok tm = Some false /\
       d = match fget (append "/integrity/" m) f with Some (Integrity n) => Some n | _ => None end).
    { intros m tm d. rewrite in_flat_map. split.
      - intros [k [Ik I]]. destruct (H k Ik) as [m' [N ->]]. unfold summary_of in I. rewrite !replace_head, month_full in I by assumption.
        destruct (fget (append "/meta/" m') f) as [[| | |tm'|]|] eqn:E1; try contradiction. destruct (tm_ok tm') as [[|]|] eqn:E2; try contradiction. destruct I as [I|[]].
        injection I as <- <- <-. split; [now apply LK|]. auto.
      - intros [I [E1 [E2 ->]]]. apply LK in I. exists (append "/trades/" m). split; [exact I|]. destruct (H _ I) as [m' [N E]].
        cbn in E. injection E as <-. unfold summary_of. rewrite !replace_head, month_full by assumption. rewrite E1, E2. now left. }
    unfold integrity_summary. destruct (flat_map (summary_of f) (list_keys f)) as [|x l] eqn:E.
    - split; [|discriminate]. split; [|reflexivity]. intros _ m tm I G F. eapply (proj2 (S m tm _)). eauto.
    - split; [split; [discriminate|]|intros l' [= <-]; exact S]. intro K. destruct x as [m [tm d]]. destruct (proj1 (S m tm d) (or_introl eq_refl)) as [I [G [F _]]].
      exfalso. exact (K m tm I G F).
  Qed.
End File.

(** C122: "None means that every month was checked and is fine" is false: months saved without
    preprocessing have no flag. *)
Theorem C122_checked_refuted : exists f : file nat, integrity_summary f = None /\
  exists m tm, In (append "/trades/" m) (map fst f) /\ fget (append "/meta/" m) f = Some (TMeta tm) /\ tm_ok tm <> Some true.
Proof.
  exists [("/trades/2024-01"%string, Trades 5%nat); ("/meta/2024-01"%string, TMeta (mkTmeta None None))]. split; [reflexivity|].
  exists "2024-01"%string, (mkTmeta None None). split; [now left|]. split; [reflexivity|discriminate].
Qed.
(** C121: "both documented key formats store readable bars" is false. *)
Definition ex_file : file nat :=
  [("/trades/2024-01"%string, Trades 3%nat); ("/meta/2024-01"%string, TMeta (mkTmeta (Some true) (Some 0%Q)));
   ("/trades/2024-02"%string, Trades 2%nat); ("/meta/2024-02"%string, TMeta (mkTmeta (Some false) (Some 2%Q))); ("/integrity/2024-02"%string, Integrity 4)].
Definition ex_build (n : nat) : result (list Z) := Ok (map Z.of_nat (seq 1 n)).
Theorem C121_formats_refuted : exists f m, no_slash m /\ snd (process_key ex_build f m false) = Ok true /\
  snd (process_key ex_build f (append "/trades/" m) false) = Ok true /\
  reader_keys (fst (process_key ex_build f (append "/trades/" m) false)) <> [] /\ reader_keys (fst (process_key ex_build f m false)) = [].
Proof.
  exists ex_file, "2024-01"%string. split; [cbn; repeat split; discriminate|]. split; [reflexivity|]. split; [reflexivity|]. split; [vm_compute; discriminate|reflexivity].
Qed.
Example C121_example :
  no_slash "2024-01" /\ fget "/trades/2024-01" ex_file = Some (Trades 3%nat) /\ ex_build 3 = Ok [1; 2; 3] /\ fget "/klines/2024-01" ex_file = None /\
  reader_keys (fst (process_all ex_build ex_file (list_keys ex_file) false)) = ["/klines/2024-01"; "/klines/2024-02"]%string /\
  snd (process_all ex_build ex_file (list_keys ex_file) false) = [("/trades/2024-01"%string, true); ("/trades/2024-02"%string, true)] /\
  check_keys ex_file ["/trades/2024-01"%string] = Ok ["/trades/2024-01"%string] /\ check_keys ex_file ["2024-01"%string] = Raise KeyError.
Proof. repeat split; vm_compute; try reflexivity; discriminate. Qed.
Example C122_example :
  (forall k, In k (list_keys ex_file) -> exists m, no_slash m /\ k = append "/trades/" m) /\
  integrity_summary ex_file = Some [("2024-02"%string, (mkTmeta (Some false) (Some 2%Q), Some 4%nat))].
Proof.
  split; [|reflexivity]. intros k I. cbn in I. destruct I as [<-|[<-|[]]]; [exists "2024-01"%string|exists "2024-02"%string]; (split; [cbn; repeat split; discriminate|reflexivity]).
Qed.

Print Assumptions C121_full_key.
Print Assumptions C121_skip.
Print Assumptions C121_short_key.
Print Assumptions C121_empty.
Print Assumptions C121_keys.
Print Assumptions C122_summary.
Print Assumptions C122_checked_refuted.
Print Assumptions C121_formats_refuted.
