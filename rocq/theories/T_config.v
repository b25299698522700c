(** T_config.v -- saving and loading features (feature/utils.py, feature/kit.py). *)
From Coq Require Import String Ascii DecimalString DecimalZ Qround.
From Verif Require Import Base M_features S_features P_weights P_features P_features2 M_transforms M_kit S_kit M_graph T_kit T_graph M_config.
Open Scope Z_scope.

(* ------------------------------------------------------------------ *)
(** ** Parameters of leaf transforms *)
(** Spec: every parameter of the class is an input column parameter or stored. *)
Definition complete (k : kls) : bool :=
  forallb (fun p => (String.eqb (fst p) "input_col" || String.eqb (fst p) "input_cols" || mem (fst p) (k_stored k))%bool) (k_sig k).

Lemma construct_pget sig given a : construct sig given = Ok a -> NoDup (map fst sig) ->
  (forall n v, pget a n = Some v -> In n (map fst sig)) /\
  (forall n d, In (n, d) sig -> exists v, pget a n = Some v /\ Some v = match pget given n with Some v => Some v | None => d end).
Proof.
  revert a. induction sig as [|[n d] sig IH]; intros a H ND; cbn [construct] in H.
  - injection H as <-. split; [discriminate|intros ? ? []].
  - destruct (match pget given n with Some v => Some v | None => d end) as [v|] eqn:E; [|discriminate].
    destruct (construct sig given) as [r|] eqn:Er; [|discriminate]. injection H as <-. cbn [map fst] in ND. inversion ND as [|? ? N1 N2]; subst.
    destruct (IH r eq_refl N2) as [A B]. cbn [pget map fst]. split.
    + intros m w. destruct (String.eqb_spec n m) as [->|]; [now left|]. intro. right. eauto.
    + intros m d' [[= -> ->]|I]; [rewrite String.eqb_refl; exists v; split; [auto|now symmetry]|].
      destruct (String.eqb_spec n m) as [->|]; [exfalso; apply N1; now apply (in_map fst) in I|auto].
Qed.
Lemma construct_ok sig given : (forall n d, In (n, d) sig -> pget given n <> None) -> exists a, construct sig given = Ok a.
Proof.
  induction sig as [|[n d] sig IH]; intro H; cbn [construct]; [eauto|].
  destruct (pget given n) eqn:E; [|exfalso; apply (H n d); [now left|auto]]. destruct IH as [a ->]; [intros; eapply H; right; eauto|]. eauto.
Qed.
Lemma pget_map f a n : pget (map (fun p => (fst p, f (snd p))) a) n = option_map f (pget a n).
Proof. induction a as [|[m v] a IH]; [reflexivity|]. cbn. destruct (String.eqb m n); auto. Qed.
Lemma pget_app a c n : pget (a ++ c) n = match pget a n with Some v => Some v | None => pget c n end.
Proof. induction a as [|[m v] a IH]; [reflexivity|]. cbn. destruct (String.eqb m n); auto. Qed.
(** Value saved for a parameter. *)
Definition saved_value (k : kls) (a : bindings) (n : string) : option pval :=
  if String.eqb n "input_col" then Some (PStr (hd EmptyString (requires k a)))
  else if String.eqb n "input_cols" then Some (PList (requires k a))
  else if mem n (k_stored k) then pget a n else None.
Lemma saved_get k a n : pget (saved_params k a) n = if mem n (map fst (k_sig k)) then saved_value k a n else None.
Proof.
  unfold saved_params. induction (k_sig k) as [|[m d] sig IH]; [reflexivity|]. cbn [flat_map fst map mem existsb]. fold (mem n (map fst sig)).
  rewrite pget_app. cbv beta zeta. cbn [fst].
  assert (E : pget (if String.eqb m "input_col" then [(m, PStr (hd EmptyString (requires k a)))]
      else if String.eqb m "input_cols" then [(m, PList (requires k a))]
      else if mem m (k_stored k) then match pget a m with Some v => [(m, v)] | None => [] end else []) n = if String.eqb n m then saved_value k a n else None).
  { unfold saved_value. destruct (String.eqb_spec n m) as [->|N].
    - destruct (String.eqb m "input_col"); [cbn; now rewrite String.eqb_refl|]. destruct (String.eqb m "input_cols"); [cbn; now rewrite String.eqb_refl|].
      destruct (mem m (k_stored k)); [|reflexivity]. destruct (pget a m); [cbn; now rewrite String.eqb_refl|reflexivity].
    - assert (N' : String.eqb m n = false) by (apply String.eqb_neq; congruence).
      destruct (String.eqb m "input_col"); [cbn; now rewrite N'|]. destruct (String.eqb m "input_cols"); [cbn; now rewrite N'|].
      destruct (mem m (k_stored k)); [|reflexivity]. destruct (pget a m); [cbn; now rewrite N'|reflexivity]. }
  match goal with |- match pget ?l n with _ => _ end = _ => replace (pget l n) with (if String.eqb n m then saved_value k a n else None) by (symmetry; exact E) end.
  rewrite IH. destruct (String.eqb_spec n m) as [->|]; cbn [orb]; [|reflexivity].
  destruct (saved_value k a m); [reflexivity|]. now destruct (mem m (map fst sig)).
Qed.
(** A class that stores all its parameters is rebuilt with the same parameters and the same
    input columns. *)
Theorem C68_class_partial : forall tos ofs k given a,
  construct (k_sig k) given = Ok a -> NoDup (map fst (k_sig k)) -> complete k = true ->
  (forall n v, pget a n = Some v -> n <> "input_cols"%string -> reload tos ofs v = v) ->
  (forall v, pget a "input_col" = Some v -> exists s, v = PStr s) ->
  exists a', reload_class tos ofs k a = Some a' /\ requires k a' = requires k a /\
    forall n, n <> "input_cols"%string -> pget a' n = pget a n.
Proof.
  intros tos ofs k given a H ND C Hr Hi. destruct (construct_pget _ _ _ H ND) as [A B]. unfold reload_class.
  set (P := map (fun p => (fst p, reload tos ofs (snd p))) (saved_params k a)).
  assert (GP : forall n, pget P n = option_map (reload tos ofs) (if mem n (map fst (k_sig k)) then saved_value k a n else None)).
  { intro n. unfold P. now rewrite pget_map, saved_get. }
  assert (SV : forall n d, In (n, d) (k_sig k) -> exists v, saved_value k a n = Some v /\ (n <> "input_cols"%string -> pget a n = Some v)).
  { intros n d I. unfold complete in C. rewrite forallb_forall in C. specialize (C _ I). cbn [fst] in C. destruct (B n d I) as [v [Ev _]].
    unfold saved_value. destruct (String.eqb_spec n "input_col") as [->|N1].
    - destruct (Hi v Ev) as [s ->]. exists (PStr s). split; [unfold requires; now rewrite Ev|auto].
    - destruct (String.eqb_spec n "input_cols") as [->|N2]; [exists (PList (requires k a)); split; [auto|congruence]|].
      cbn [orb] in C. rewrite C. eauto. }
  assert (MI : forall n d, In (n, d) (k_sig k) -> mem n (map fst (k_sig k)) = true) by (intros n d I; apply mem_iff; now apply (in_map fst) in I).
  destruct (construct_ok (k_sig k) P) as [a' Ea'].
  { intros n d I. rewrite GP, (MI n d I). destruct (SV n d I) as [v [-> _]]. discriminate. }
  rewrite Ea'. exists a'. split; [auto|]. destruct (construct_pget _ _ _ Ea' ND) as [A' B'].
  assert (Eq : forall n, n <> "input_cols"%string -> pget a' n = pget a n).
  { intros n N. destruct (in_dec string_dec n (map fst (k_sig k))) as [I|I].
    - apply in_map_iff in I. destruct I as [[m d] [E I]]. cbn in E. subst m. destruct (B' n d I) as [v [Ev Ew]]. rewrite GP, (MI n d I) in Ew.
      destruct (SV n d I) as [w [Es Ha]]. rewrite Es in Ew. cbn [option_map] in Ew. rewrite Ev, Ew, (Ha N). f_equal. apply (Hr n w); auto.
    - destruct (pget a' n) eqn:E1; [exfalso; eauto|]. destruct (pget a n) eqn:E2; [exfalso; eauto|auto]. }
  split; [|exact Eq]. unfold requires at 1. rewrite Eq by discriminate. unfold requires at 1.
  destruct (pget a "input_col") as [v|] eqn:Ec; [destruct (Hi v eq_refl) as [s ->]; reflexivity|].
  destruct (in_dec string_dec "input_cols"%string (map fst (k_sig k))) as [I|I].
  - apply in_map_iff in I. destruct I as [[m d] [E I]]. cbn in E. subst m. destruct (B' _ d I) as [v [Ev Ew]]. rewrite GP, (MI _ d I) in Ew.
    cbn in Ew. injection Ew as ->. rewrite Ev. unfold requires. rewrite Ec. reflexivity.
  - destruct (pget a' "input_cols") eqn:E1; [exfalso; eauto|]. destruct (pget a "input_cols") eqn:E2; [exfalso; eauto|reflexivity].
Qed.
(** Of the transform classes exactly four do not store all their parameters. *)
Theorem C68_class_table : map k_name (filter (fun k => negb (complete k)) classes) = ["ReturnT"; "PctChange"; "EWMST"; "BarRate"]%string /\
  forall k, In k classes -> NoDup (map fst (k_sig k)).
Proof.
  split; [vm_compute; reflexivity|]. apply Forall_forall. unfold classes.
  repeat (apply Forall_cons; [cbn; repeat constructor; cbn; intuition discriminate|]). apply Forall_nil.
Qed.
(** ReturnT comes back with its default window of one microsecond, whatever it was. *)
Theorem C68_returnt : forall tos ofs k a, In k classes -> k_name k = "ReturnT"%string ->
  exists a', reload_class tos ofs k a = Some a' /\ pget a' "window" = Some (PTd 1000).
Proof.
  intros tos ofs k a I N. unfold classes in I. repeat (destruct I as [<-|I]; [cbn in N; try discriminate N; clear N|]); [|destruct I].
  unfold reload_class, saved_params. cbn. destruct (pget a "is_log"); cbn; eexists; split; reflexivity.
Qed.
Theorem C68_returnt_refuted : exists k given a a', In k classes /\ construct (k_sig k) given = Ok a /\
  pget a "window" = Some (PTd 60000000000) /\
  reload_class (fun ns => inject_Z ns / 1000000000)%Q (fun q => Qfloor (q * 1000000000)) k a = Some a' /\ pget a' "window" = Some (PTd 1000).
Proof.
  exists (nth 2 classes (mkKls "" [] [] [])), [("window"%string, PTd 60000000000)]. do 2 eexists. split; [cbn; auto|].
  split; [vm_compute; reflexivity|]. split; [reflexivity|]. split; [vm_compute; reflexivity|]. reflexivity.
Qed.
(** PctChange, EWMST and BarRate cannot be reconstructed at all: an object without the
    attributes it needs is returned. *)
Theorem C68_shallow : forall tos ofs k a, In k classes -> In (k_name k) ["PctChange"; "EWMST"; "BarRate"]%string -> reload_class tos ofs k a = None.
Proof.
  intros tos ofs k a I N. unfold classes in I.
  repeat (destruct I as [<-|I]; [cbn in N; first [reflexivity|exfalso; intuition discriminate]|]). destruct I.
Qed.
Example C68_class_example :
  let k := nth 20 classes (mkKls "" [] [] []) in
  k_name k = "ATR"%string /\
  construct (k_sig k) [("window", PInt 20); ("normalize", PBool true)]%string =
    Ok [("window", PInt 20); ("ema_based", PBool false); ("normalize", PBool true); ("input_cols", PNone)]%string /\
  reload_class (fun _ => 0%Q) (fun _ => 0) k [("window", PInt 20); ("ema_based", PBool false); ("normalize", PBool true); ("input_cols", PNone)]%string =
    Some [("window", PInt 20); ("ema_based", PBool false); ("normalize", PBool true); ("input_cols", PList ["high"; "low"; "close"])]%string.
Proof. vm_compute. auto. Qed.

(* ------------------------------------------------------------------ *)
(** ** Operators and methods *)
Lemma py_int_str n : py_int (py_str n) = Some n.
Proof.
  unfold py_int, py_str. rewrite NilZero.isi.
  - cbn. now rewrite DecimalZ.of_to.
  - intro H. assert (K := DecimalZ.of_to n). rewrite H in K. cbn in K. subst n. discriminate H.
  - intro H. assert (K := DecimalZ.of_to n). rewrite H in K. cbn in K. subst n. discriminate H.
Qed.
(** Spec: text without underscore. *)
Fixpoint no_us (s : string) : Prop := match s with EmptyString => True | String c s' => c <> "_"%char /\ no_us s' end.
Lemma split_app a c : no_us a -> split_us (a ++ String "_"%char c) = a :: split_us c.
Proof.
  induction a as [|x a IH]; intro H; cbn; [reflexivity|]. destruct H as [H1 H2]. destruct (Ascii.eqb_spec x "_"%char); [contradiction|]. now rewrite (IH H2).
Qed.
Lemma split_none a : no_us a -> split_us a = [a].
Proof.
  induction a as [|x a IH]; intro H; cbn; [reflexivity|]. destruct H as [H1 H2]. destruct (Ascii.eqb_spec x "_"%char); [contradiction|]. now rewrite (IH H2).
Qed.

Section Ops.
  Variables np_log np_log1p np_exp np_sqrt : ext -> ext.
  Variables r_mean r_std r_sum r_shift : Z -> series -> series.
  Variable ewm : Z -> bool -> series -> series.
  Variable pyfloat : string -> option Q.
  Variable reload_leaf : core -> result core.
  Let mu := maybe_unary np_log np_log1p np_exp np_sqrt r_mean r_std r_sum r_shift ewm pyfloat.
  Let mf := mfun np_log np_log1p np_exp np_sqrt r_mean r_std r_sum r_shift ewm.
  Let from := from_config np_log np_log1p np_exp np_sqrt r_mean r_std r_sum r_shift ewm pyfloat reload_leaf.

  (** Spec: the printed bound reads back as its value. *)
  Definition good_bound (o : option bound) : Prop :=
    match o with Some x => no_us (b_str x) /\ b_str x <> ""%string /\ pyfloat (b_str x) = Some (b_val x) | None => True end.
  (** Methods whose saved name determines them. *)
  Definition good_method (m : method) : Prop :=
    match m with MEma _ adjust => adjust = true | MClip lo up => good_bound lo /\ good_bound up | _ => True end.
  (** Transforms made by the operators and methods of Feature over leaves that survive. *)
  Fixpoint standard (t : trans) : Prop :=
    match t with
    | Leaf c => reload_leaf c = Ok c
    | Binary l r op g => standard l /\ standard r /\ op_binary op = Some g
    | MinMax l r op g => standard l /\ standard r /\ op_minmax op = Some g
    | Const u _ op g => standard u /\ op_const op = Some g
    | Unary u op g _ => standard u /\ ((op = "abs"%string /\ g = map eabs) \/ exists m, good_method m /\ op = suffix m /\ g = mf m)
    | Compose f rest => reload_leaf f = Ok f /\ forall c, In c rest -> reload_leaf c = Ok c
    end.
  (** The transform without the names set by [apply]. *)
  Fixpoint unname (t : trans) : trans :=
    match t with
    | Binary l r op g => Binary (unname l) (unname r) op g
    | MinMax l r op g => MinMax (unname l) (unname r) op g
    | Const u c op g => Const (unname u) c op g
    | Unary u op g _ => Unary (unname u) op g None
    | _ => t
    end.

  Lemma bound_ok o : good_bound o -> clip_bound pyfloat (Some (bound_text o)) = option_map b_val o.
  Proof.
    destruct o as [x|]; cbn; [|reflexivity]. intros [_ [N E]]. apply String.eqb_neq in N. now rewrite N.
  Qed.
  Lemma bound_us o : good_bound o -> no_us (bound_text o).
  Proof. destruct o as [x|]; cbn; [tauto|auto]. Qed.
  (** The name of a method determines its function. *)
  Theorem C68_method : forall m, good_method m -> mu (suffix m) = Some (mf m).
  Proof.
    intros m G. unfold mu, mf. destruct m as [lo up| | | | | |n|n adj|n|n|n]; cbn [good_method] in G; try (cbn; reflexivity).
    - destruct G as [G1 G2]. unfold maybe_unary. cbn [suffix mfun]. change (strip_prefix "clip_" ("clip_" ++ bound_text lo ++ "_" ++ bound_text up)) with (Some (bound_text lo ++ "_" ++ bound_text up)%string).
      cbv zeta. assert (E : split_us ("clip_" ++ bound_text lo ++ "_" ++ bound_text up) = ["clip"%string; bound_text lo; bound_text up]).
      { change ("clip_" ++ bound_text lo ++ "_" ++ bound_text up)%string with ("clip" ++ String "_"%char (bound_text lo ++ String "_"%char (bound_text up)))%string.
        rewrite split_app by (cbn; repeat split; discriminate). rewrite split_app by now apply bound_us. now rewrite split_none by now apply bound_us. }
      rewrite E. cbn [nth_error]. now rewrite !bound_ok.
    - unfold maybe_unary. cbn [suffix mfun]. cbn. now rewrite py_int_str.
    - subst adj. unfold maybe_unary. cbn [suffix mfun]. cbn. now rewrite py_int_str.
    - unfold maybe_unary. cbn [suffix mfun]. cbn. now rewrite py_int_str.
    - unfold maybe_unary. cbn [suffix mfun]. cbn. now rewrite py_int_str.
    - unfold maybe_unary. cbn [suffix mfun]. cbn. now rewrite py_int_str.
  Qed.
  (** Loading a saved standard transform gives the same tree; only names set by [apply] are
      lost. *)
  Theorem C68_roundtrip_partial : forall t, standard t -> from (to_config t) = Ok (unname t).
  Proof.
    unfold from. induction t as [c|l IHl q IHq op g|l IHl q IHq op g|u IHu c op g|u IHu op g rn|f rest]; intro S; cbn [to_config from_config unname standard] in *.
    - now rewrite S.
    - destruct S as [S1 [S2 S3]]. now rewrite (IHl S1), (IHq S2), S3.
    - destruct S as [S1 [S2 S3]]. now rewrite (IHl S1), (IHq S2), S3.
    - destruct S as [S1 S2]. now rewrite (IHu S1), S2.
    - destruct S as [S1 S2]. rewrite (IHu S1). destruct S2 as [[-> ->]|[m [G [-> ->]]]]; [reflexivity|].
      pose proof (C68_method m G) as E. unfold mu in E. now rewrite E.
    - destruct S as [S1 S2]. rewrite S1.
      assert (E : collect (map reload_leaf rest) = Ok rest).
      { clear S1. induction rest as [|c rest IH]; [reflexivity|]. cbn [map collect]. rewrite (S2 c) by now left. rewrite IH by (intros; apply S2; now right). reflexivity. }
      now rewrite E.
  Qed.
  Lemma unname_den b x t : den b x (unname t) = den b x t.
  Proof. induction t; cbn [unname den]; rewrite ?IHt, ?IHt1, ?IHt2; reflexivity. Qed.
  (** Spec: no column of the frame has the name of an operand of t, or of t itself. *)
  Definition uncached (x : frame) (t : trans) : Prop :=
    forall u, In u (nodes t) -> match u with Compose _ _ => True | _ => get x (out_name u) = None end.
  Definition no_pipeline (t : trans) : Prop := forall f rest, ~ In (Compose f rest) (nodes t).
  Lemma call_den b x t : uncached x t -> no_pipeline t -> call b x t = den b x t.
  Proof.
    induction t as [c|l IHl q IHq op g|l IHl q IHq op g|u IHu c op g|u IHu op g rn|f rest]; intros U N.
    - reflexivity.
    - assert (Ul : uncached x l) by (intros w W; apply U; right; apply in_or_app; auto).
      assert (Uq : uncached x q) by (intros w W; apply U; right; apply in_or_app; auto).
      assert (Nl : no_pipeline l) by (intros f r K; apply (N f r); right; apply in_or_app; auto).
      assert (Nq : no_pipeline q) by (intros f r K; apply (N f r); right; apply in_or_app; auto).
      cbn [call den]. pose proof (U _ (or_introl eq_refl)) as E. cbv beta iota in E. rewrite E.
      assert (El : get x (out_name l) = None) by (pose proof (Ul l (nodes_self l)) as K; destruct l; try exact K; exfalso; apply (Nl first rest); now left).
      assert (Eq : get x (out_name q) = None) by (pose proof (Uq q (nodes_self q)) as K; destruct q; try exact K; exfalso; apply (Nq first rest); now left).
      rewrite El, Eq, (IHl Ul Nl), (IHq Uq Nq). destruct (den b x l), (den b x q); reflexivity.
    - assert (Ul : uncached x l) by (intros w W; apply U; right; apply in_or_app; auto).
      assert (Uq : uncached x q) by (intros w W; apply U; right; apply in_or_app; auto).
      assert (Nl : no_pipeline l) by (intros f r K; apply (N f r); right; apply in_or_app; auto).
      assert (Nq : no_pipeline q) by (intros f r K; apply (N f r); right; apply in_or_app; auto).
      cbn [call den]. pose proof (U _ (or_introl eq_refl)) as E. cbv beta iota in E. rewrite E.
      assert (El : get x (out_name l) = None) by (pose proof (Ul l (nodes_self l)) as K; destruct l; try exact K; exfalso; apply (Nl first rest); now left).
      assert (Eq : get x (out_name q) = None) by (pose proof (Uq q (nodes_self q)) as K; destruct q; try exact K; exfalso; apply (Nq first rest); now left).
      rewrite El, Eq, (IHl Ul Nl), (IHq Uq Nq). destruct (den b x l), (den b x q); reflexivity.
    - assert (Uu : uncached x u) by (intros w W; apply U; now right).
      assert (Nu : no_pipeline u) by (intros f r K; apply (N f r); now right).
      cbn [call den]. pose proof (U _ (or_introl eq_refl)) as E. cbv beta iota in E. rewrite E.
      assert (El : get x (out_name u) = None) by (pose proof (Uu u (nodes_self u)) as K; destruct u; try exact K; exfalso; apply (Nu first rest); now left).
      now rewrite El, (IHu Uu Nu).
    - assert (Uu : uncached x u) by (intros w W; apply U; now right).
      assert (Nu : no_pipeline u) by (intros f r K; apply (N f r); now right).
      cbn [call den]. pose proof (U _ (or_introl eq_refl)) as E. cbv beta iota in E. rewrite E.
      assert (El : get x (out_name u) = None) by (pose proof (Uu u (nodes_self u)) as K; destruct u; try exact K; exfalso; apply (Nu first rest); now left).
      now rewrite El, (IHu Uu Nu).
    - exfalso. apply (N f rest). now left.
  Qed.
  (** Spec: does a transform carry a name set by [apply]? *)
  Fixpoint renamed (t : trans) : bool :=
    match t with
    | Binary l r _ _ | MinMax l r _ _ => renamed l || renamed r
    | Const u _ _ _ => renamed u
    | Unary u _ _ (Some _) => true
    | Unary u _ _ None => renamed u
    | _ => false
    end.
  (** A loaded feature keeps its name and computes the same values on every frame without
      cached columns; without [apply] names it is the very same transform. *)
  Theorem C68_values : forall b x f, standard (f_t f) -> no_pipeline (f_t f) -> uncached x (f_t f) -> uncached x (unname (f_t f)) ->
    exists f', reload_feat np_log np_log1p np_exp np_sqrt r_mean r_std r_sum r_shift ewm pyfloat reload_leaf f = Ok f' /\
      f_name f' = f_name f /\ call b x (f_t f') = call b x (f_t f) /\ (renamed (f_t f) = false -> f' = f).
  Proof.
    intros b x f S N U U'. unfold reload_feat. pose proof (C68_roundtrip_partial (f_t f) S) as E. unfold from in E. rewrite E.
    eexists. split; [reflexivity|]. cbn [f_name f_t]. split; [reflexivity|]. split.
    - assert (N' : no_pipeline (unname (f_t f))).
      { clear -N. intros g rest H. apply (N g rest). clear N. induction (f_t f) as [c|l IHl q IHq op h|l IHl q IHq op h|u IHu c op h|u IHu op h rn|f0 r0]; cbn [unname nodes] in *.
        - exact H.
        - destruct H as [H|H]; [discriminate|]. right. apply in_app_or in H. apply in_or_app. tauto.
        - destruct H as [H|H]; [discriminate|]. right. apply in_app_or in H. apply in_or_app. tauto.
        - destruct H as [H|H]; [discriminate|]. right. auto.
        - destruct H as [H|H]; [discriminate|]. right. auto.
        - exact H. }
      rewrite !call_den by auto. apply unname_den.
    - intro R. assert (K : unname (f_t f) = f_t f).
      { clear -R. induction (f_t f) as [c|l IHl q IHq op h|l IHl q IHq op h|u IHu c op h|u IHu op h rn|f0 r0]; cbn [unname renamed] in *; try reflexivity.
        - apply Bool.orb_false_iff in R. destruct R. now rewrite IHl, IHq.
        - apply Bool.orb_false_iff in R. destruct R. now rewrite IHl, IHq.
        - now rewrite IHu.
        - destruct rn; [discriminate|]. now rewrite IHu. }
      rewrite K. now destruct f.
  Qed.
  (** Features written with operators are standard. *)
  Theorem C68_expressions : forall e, (forall c, part_of (FCore c) e -> reload_leaf c = Ok c) ->
    (forall a suf g, part_of (FApply a suf g) e -> exists m, good_method m /\ suf = suffix m /\ g = mf m) -> standard (build e).
  Proof.
    induction e; intros Hc Ha; cbn [build standard];
      repeat match goal with
      | |- _ /\ _ => split
      | |- standard (build ?a) => match goal with IH : _ -> _ -> standard (build a) |- _ => apply IH; intros; [apply Hc|eapply Ha]; (eapply part_down; [|eassumption]; cbn; auto) end
      end; try reflexivity; try (apply Hc; constructor).
    - left. split; reflexivity.
    - right. eapply Ha. constructor.
  Qed.
End Ops.

(* ------------------------------------------------------------------ *)
(** ** What is lost *)
(** pandas [ewm(span, adjust).mean()] for finite values (spec for the example). *)
Fixpoint ewm_go (adj : bool) (al num den : Q) (s : list Q) : list Q :=
  match s with
  | [] => []
  | v :: s' => let num' := if adj then ((1 - al) * num + v)%Q else ((1 - al) * num + al * v)%Q in
               let den' := if adj then ((1 - al) * den + 1)%Q else 1%Q in
               Qred (num' / den') :: ewm_go adj al num' den' s'
  end.
Definition ex_ewm (span : Z) (adj : bool) (s : series) : series :=
  let q := map (fun e => match e with Fin v => v | _ => 0%Q end) s in
  let al := (2 / (inject_Z span + 1))%Q in
  match q with
  | [] => []
  | v :: q' => Fin v :: map Fin (ewm_go adj al v 1 q')
  end.
Definition ex_from := from_config (fun e => e) (fun e => e) (fun e => e) (fun e => e) (fun _ s => s) (fun _ s => s) (fun _ s => s) (fun _ s => s) ex_ewm
  (fun s => if String.eqb s "-0.5" then Some (-(1#2))%Q else if String.eqb s "2" then Some 2%Q else None) (fun c => Ok c).
Definition ex_leaf (n : string) : core := mkCore false [n] n (fun _ cols => Ok (hd [] cols)).
(** The ema with adjust = False is loaded as the adjusted one. *)
Theorem C68_ema_refuted : exists b x t t' s s', t = build (FApply (FCore (ex_leaf "close")) (suffix (MEma 3 false)) (ex_ewm 3 false)) /\
  ex_from (to_config t) = Ok t' /\ call b x t = Ok s /\ call b x t' = Ok s' /\ s <> s'.
Proof.
  exists NB, [("close"%string, [Fin 0; Fin 1])]. do 4 eexists. split; [reflexivity|]. split; [vm_compute; reflexivity|].
  split; [vm_compute; reflexivity|]. split; [vm_compute; reflexivity|]. discriminate.
Qed.
(** [apply] of another function with a known name -- here np.log, whose value at 0 is -inf --
    is silently replaced by the library's own function of that name. *)
Theorem C68_apply_refuted : exists b x t t' s s', t = build (FApply (FCore (ex_leaf "close")) "log" (map (fun v => match v with Fin q => if Qeq_bool q 0 then NInf else v | _ => v end))) /\
  ex_from (to_config t) = Ok t' /\ call b x t = Ok s /\ call b x t' = Ok s' /\ s <> s'.
Proof.
  exists NB, [("close"%string, [Fin 0])]. do 4 eexists. split; [reflexivity|]. split; [vm_compute; reflexivity|].
  split; [vm_compute; reflexivity|]. split; [vm_compute; reflexivity|]. discriminate.
Qed.
(** A fractional span or an unknown suffix cannot be loaded. *)
Theorem C68_unknown_name : forall np_log np_log1p np_exp np_sqrt r_mean r_std r_sum r_shift ewm pyfloat reload_leaf u u' g rn,
  from_config np_log np_log1p np_exp np_sqrt r_mean r_std r_sum r_shift ewm pyfloat reload_leaf (to_config u) = Ok u' ->
  forall op, In op ["ema2.5"; "absolute"; "<lambda>"; "lagging"; "tanh"]%string ->
  from_config np_log np_log1p np_exp np_sqrt r_mean r_std r_sum r_shift ewm pyfloat reload_leaf (to_config (Unary u op g rn)) = Raise ValueError.
Proof.
  intros np_log np_log1p np_exp np_sqrt r_mean r_std r_sum r_shift ewm pyfloat reload_leaf u u' g rn H op I. cbn [to_config from_config]. rewrite H.
  repeat (destruct I as [<-|I]; [reflexivity|]). destruct I.
Qed.
(** A kit in which one feature reads the output of another one's [log] can be built, but
    not after saving and loading: the loaded column has another name. *)
Definition ex_log : trans := build (FApply (FCore (ex_leaf "close")) (suffix MLog) (map (fun v => if eltb (Fin 0) v then v else NaN))).
Theorem C68_dependent_refuted : exists b x f1 f2 f1' r,
  f_t f1 = ex_log /\ f_name f1 = out_name ex_log /\ kit_build b [] x [f1; f2] = Ok r /\
  ex_from (to_config (f_t f1)) = Ok (f_t f1') /\ f_name f1' = f_name f1 /\ ex_from (to_config (f_t f2)) = Ok (f_t f2) /\
  kit_build b [] x [f1'; f2] = Raise ValueError.
Proof.
  exists NB, [("close"%string, [Fin 1; Fin 2])], (mkFeat (out_name ex_log) ex_log), (mkFeat "close_log" (Leaf (ex_leaf "close_log"))),
    (mkFeat (out_name ex_log) (unname ex_log)). eexists.
  split; [reflexivity|]. split; [reflexivity|]. split; [vm_compute; reflexivity|]. split; [vm_compute; reflexivity|].
  split; [reflexivity|]. split; [vm_compute; reflexivity|]. vm_compute. reflexivity.
Qed.
(** clip(-0.5, 2) of max(|a| * 3, b): saved, loaded and evaluated. *)
Definition ex_expr : fexpr := FApply (FMax (FMulC (FAbs (FCore (ex_leaf "a"))) (mkConst (Fin 3) "3")) (FCore (ex_leaf "b")))
  (suffix (MClip (Some (mkBound (-(1#2)) "-0.5")) (Some (mkBound 2 "2")))) (map (eclip (Some (-(1#2))%Q) (Some 2%Q))).
Example C68_example :
  standard (fun e => e) (fun e => e) (fun e => e) (fun e => e) (fun _ s => s) (fun _ s => s) (fun _ s => s) (fun _ s => s) ex_ewm
    (fun s => if String.eqb s "-0.5" then Some (-(1#2))%Q else if String.eqb s "2" then Some 2%Q else None) (fun c => Ok c) (build ex_expr) /\
  out_name (build ex_expr) = "max(mul(abs(a),3),b)_clip_-0.5_2"%string /\
  ex_from (to_config (build ex_expr)) = Ok (unname (build ex_expr)) /\
  out_name (unname (build ex_expr)) = "clip_-0.5_2(max(mul(abs(a),3),b))"%string /\
  let x := [("a", [Fin (-1); Fin 0; NaN]); ("b", [Fin 1; Fin 1; Fin 1])]%string in
  call NB x (build ex_expr) = Ok [Fin 2; Fin 1; NaN] /\ call NB x (unname (build ex_expr)) = Ok [Fin 2; Fin 1; NaN].
Proof.
  split; [|vm_compute; auto]. cbn [build ex_expr standard]. repeat split; try reflexivity; [left; split; reflexivity|].
  right. exists (MClip (Some (mkBound (-(1#2)) "-0.5")) (Some (mkBound 2 "2"))). split; [|split; reflexivity].
  cbn. repeat split; discriminate.
Qed.

Print Assumptions C68_class_partial.
Print Assumptions C68_class_table.
Print Assumptions C68_returnt.
Print Assumptions C68_returnt_refuted.
Print Assumptions C68_shallow.
Print Assumptions C68_method.
Print Assumptions C68_roundtrip_partial.
Print Assumptions C68_values.
Print Assumptions C68_expressions.
Print Assumptions C68_ema_refuted.
Print Assumptions C68_apply_refuted.
Print Assumptions C68_unknown_name.
Print Assumptions C68_dependent_refuted.
