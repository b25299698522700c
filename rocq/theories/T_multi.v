(** T_multi.v -- features with several outputs and external functions (C144, C145). *)
From Coq Require Import String.
From Verif Require Import Base M_features M_transforms M_kit M_multi S_kit S_multi T_kit.
Open Scope Q_scope.

(* ------------------------------------------------------------------ *)
(** ** The value of a transform depends only on the columns it looks at *)
Definition agree (ns : list string) (x y : frame) : Prop := forall n, In n ns -> get x n = get y n.
Lemma agree_sub ms ns x y : (forall n, In n ms -> In n ns) -> agree ns x y -> agree ms x y.
Proof. intros H A n Hn. auto. Qed.
Lemma columns_agree x y ns : agree ns x y -> columns x ns = columns y ns.
Proof. intro A. unfold columns. f_equal. apply map_ext_in. intros n Hn. now rewrite (A n Hn). Qed.
Lemma core_agree b x y c : agree (c_req c) x y -> core_call b x c = core_call b y c.
Proof. intro A. unfold core_call. fold (columns x (c_req c)). fold (columns y (c_req c)). now rewrite (columns_agree x y). Qed.
Lemma loop_agree b x y rest : agree (flat_map (fun c => [c_prod c; hd EmptyString (c_req c)]) rest) x y ->
  forall cur, compose_loop b x cur rest = compose_loop b y cur rest.
Proof.
  induction rest as [|c rest IH]; intros A cur; [reflexivity|]. cbn [compose_loop]. unfold compose_step.
  rewrite (A (c_prod c)) by (cbn; auto). rewrite (A (hd EmptyString (c_req c))) by (cbn; auto).
  assert (A' : agree (flat_map (fun c => [c_prod c; hd EmptyString (c_req c)]) rest) x y) by (intros n Hn; apply A; cbn; auto).
  destruct (get y (c_prod c)); [now apply IH|]. destruct (get y (hd EmptyString (c_req c))); (destruct (core_call b _ c); [now apply IH|reflexivity]).
Qed.
Lemma call_agree b x y t : agree (looks_at t) x y -> call b x t = call b y t.
Proof.
  induction t as [c|l IHl r IHr op g|l IHl r IHr op g|u IHu k op g|u IHu op g rn|f rest]; intro A.
  - now apply core_agree.
  - cbn [call looks_at] in *. rewrite (A (out_name (Binary l r op g))) by (now left). rewrite (A (out_name l)) by (right; now left).
    rewrite (A (out_name r)) by (right; right; now left). rewrite IHl, IHr; [reflexivity| |]; intros n Hn; apply A; right; right; right; apply in_or_app; auto.
  - cbn [call looks_at] in *. rewrite (A (out_name (MinMax l r op g))) by (now left). rewrite (A (out_name l)) by (right; now left).
    rewrite (A (out_name r)) by (right; right; now left). rewrite IHl, IHr; [reflexivity| |]; intros n Hn; apply A; right; right; right; apply in_or_app; auto.
  - cbn [call looks_at] in *. rewrite (A (out_name (Const u k op g))) by (now left). rewrite (A (out_name u)) by (right; now left).
    rewrite IHu; [reflexivity|]. intros n Hn. apply A. now right; right.
  - cbn [call looks_at] in *. rewrite (A (out_name (Unary u op g rn))) by (now left). rewrite (A (out_name u)) by (right; now left).
    rewrite IHu; [reflexivity|]. intros n Hn. apply A. now right; right.
  - cbn [call looks_at] in *. unfold compose_call. rewrite (A (hd EmptyString (c_req f))) by (right; now left).
    rewrite (A (out_name (Compose f rest))) by (now left). unfold compose_step.
    rewrite (A (c_prod f)) by (right; right; apply in_or_app; right; now left).
    rewrite (core_agree b x y f) by (intros n Hn; apply A; right; right; apply in_or_app; now left).
    assert (L : forall cur, compose_loop b x cur rest = compose_loop b y cur rest).
    { apply loop_agree. intros n Hn. apply A. right. right. apply in_or_app. right. now right. }
    destruct (get y (hd EmptyString (c_req f))); [|reflexivity]. destruct (get y (out_name (Compose f rest))); [reflexivity|].
    destruct (get y (c_prod f)); [apply L|]. destruct (core_call b y f); [apply L|reflexivity].
Qed.
Lemma mcall_agree b x y t : agree (mlooks_at t) x y -> mcall b x t = mcall b y t.
Proof.
  intro A. destruct t as [t|c|e]; cbn [mcall mlooks_at] in *.
  - rewrite (call_agree b x y); [reflexivity|]. intros n Hn. apply A. now right.
  - unfold multi_call. now rewrite (columns_agree x y (m_req c) A).
  - unfold ext_call. rewrite (columns_agree x y (e_req e)); [reflexivity|]. intros n Hn. apply A. apply in_or_app. now right.
Qed.
(** The result of a feature depends only on the columns its transform looks at. *)
Theorem C144_local : forall b x y f, (forall n, In n (mlooks_at (mf_t f)) -> get x n = get y n) ->
  mfeat_call b x f = mfeat_call b y f.
Proof.
  intros b x y f A. unfold mfeat_call. rewrite (mcall_agree b x y (mf_t f) A). destruct (mf_t f) as [t|c|e]; cbn [mout mlooks_at] in *; [|reflexivity|].
  - now rewrite (A (out_name t)) by (now left).
  - destruct (e_prod e) as [|n [|m l]] eqn:E; try reflexivity. rewrite (A n); [reflexivity|]. now left.
Qed.
Lemma put_all_other x l n : ~ In n (map fst l) -> get (put_all x l) n = get x n.
Proof.
  revert x. induction l as [|[m s] l IH]; intros x H; [reflexivity|]. cbn [put_all map fst] in *. cbn [In] in H. rewrite IH by tauto. rewrite get_put.
  destruct (String.eqb_spec m n); [tauto|reflexivity].
Qed.
Lemma put_all_in x y l n : In n (map fst l) -> get (put_all x l) n = get (put_all y l) n.
Proof.
  revert x y. induction l as [|[m s] l IH]; intros x y H; [destruct H|]. cbn [put_all map fst] in *.
  destruct (in_dec string_dec n (map fst l)) as [I|I]; [now apply IH|]. rewrite !put_all_other by auto. rewrite !get_put.
  destruct (String.eqb_spec m n); [reflexivity|]. destruct H; contradiction.
Qed.
Lemma fst_combine {A B} (l : list A) (m : list B) : length l = length m -> map fst (combine l m) = l.
Proof. revert m. induction l; intros [|b m] E; cbn in *; try discriminate; f_equal; auto. Qed.
Lemma snd_combine {A B} (l : list A) (m : list B) : length l = length m -> map snd (combine l m) = m.
Proof. revert m. induction l; intros [|b m] E; cbn in *; try discriminate; f_equal; auto. Qed.
Lemma collect_len {A} (l : list (result A)) r : collect l = Ok r -> length r = length l.
Proof.
  revert r. induction l as [|[a|e] l IH]; intros r H; cbn [collect] in H; [injection H as <-; reflexivity| |discriminate].
  destruct (collect l) as [r'|]; [|discriminate]. injection H as <-. cbn. f_equal. now apply IH.
Qed.
Lemma m_names_len c : length (m_names c) = length (m_prod c).
Proof. unfold m_names. destruct (m_prefixed c); [apply map_length|reflexivity]. Qed.
(** Names in the tuple of a several-output result. *)
Lemma several_names b x t l : mcall b x t = Ok (Several l) -> map fst l = caches t /\ forall u, t <> TOne u.
Proof.
  destruct t as [t|c|e]; cbn [mcall caches]; intro H.
  - destruct (call b x t); discriminate.
  - split; [|discriminate]. unfold multi_call in H. destruct (columns x (m_req c)) as [cols|]; [|discriminate]. destruct (m_fun c b cols) as [ys|]; [|discriminate].
    destruct (Nat.eqb_spec (length ys) (length (m_prod c))) as [E|]; [|discriminate]. injection H as <-. apply fst_combine. now rewrite m_names_len.
  - split; [|discriminate]. unfold ext_call in H. destruct (columns x (e_req e)) as [[|c0 cs]|]; try discriminate. destruct (e_fun e (c0 :: cs)) as [[i|items]|]; try discriminate.
    + destruct (to_column (length c0) i); discriminate.
    + destruct (Nat.eqb_spec (length items) (length (e_prod e))) as [E|]; [|discriminate]. destruct (collect (map (to_column (length c0)) items)) as [ss|] eqn:C; [|discriminate].
      injection H as <-. apply fst_combine. rewrite (collect_len _ _ C), map_length. auto.
Qed.
Lemma mfeat_several b x f l : mfeat_call b x f = Ok (Several l) -> mcall b x (mf_t f) = Ok (Several l).
Proof. unfold mfeat_call. destruct (mout (mf_t f)) as [n|]; [|auto]. destruct (get x n); [discriminate|auto]. Qed.
(** One step of the build: what it does to the two frames. *)
Lemma mstep_effect b out df f o d : mstep b out df f = Ok (o, d) ->
  exists l k, o = put_all out l /\ d = put_all df k /\ (forall n, In n (map fst k) -> In n (caches (mf_t f))) /\
    (forall n, In n (map fst l) -> In n (adds f)) /\
    forall out' df', (forall n, In n (mlooks_at (mf_t f)) -> get df n = get df' n) -> mstep b out' df' f = Ok (put_all out' l, put_all df' k).
Proof.
  unfold mstep. intro H. destruct (mfeat_call b df f) as [[s|l]|e] eqn:C; [| |discriminate].
  - destruct (mf_name f) as [n|] eqn:En; [|discriminate]. destruct (mout (mf_t f)) as [m|] eqn:Em; [|discriminate]. injection H as <- <-.
    exists [(n, s)], [(m, s)]. split; [reflexivity|]. split; [reflexivity|]. split; [|split].
    + intros k [<-|[]]. cbn [fst]. destruct (mf_t f) as [t|c|e]; cbn [mout caches] in *; [injection Em as <-; now left|discriminate|].
      destruct (e_prod e) as [|a [|a' l]]; try discriminate. injection Em as <-. now left.
    + intros k [<-|[]]. cbn [fst]. unfold adds. rewrite En. destruct (mf_t f) as [t|c|e]; cbn [mout] in *; [| discriminate |]; apply in_or_app; right; now left.
    + intros out' df' A. rewrite (C144_local b df df' f A) in C. rewrite C. reflexivity.
  - injection H as <- <-. exists l, l. split; [reflexivity|]. split; [reflexivity|]. destruct (several_names b df (mf_t f) l (mfeat_several _ _ _ _ C)) as [E N]. split; [|split].
    + intros k Hk. now rewrite <- E.
    + intros k Hk. rewrite E in Hk. unfold adds. destruct (mf_t f) as [t|c|e]; [exfalso; now apply (N t)| |]; [exact Hk|]. apply in_or_app. now left.
    + intros out' df' A. rewrite (C144_local b df df' f A) in C. rewrite C. reflexivity.
Qed.
(** Features which do not look at columns cached by features before them and add no column
    of another feature: each gets the columns it has when it is built alone, retained
    columns are kept. *)
Theorem C144_independent : forall b retain df fs,
  (forall n, In n retain -> get df n <> None) ->
  (forall i j f g n, (i < j)%nat -> nth_error fs i = Some f -> nth_error fs j = Some g -> In n (caches (mf_t f)) -> ~ In n (mlooks_at (mf_t g))) ->
  (forall i j f g n, (i < j)%nat -> nth_error fs i = Some f -> nth_error fs j = Some g -> In n (adds f) -> ~ In n (adds g)) ->
  (forall f, In f fs -> exists r, mkit_build b [] df [f] = Ok r) ->
  exists r, mkit_build b retain df fs = Ok r /\
    (forall f rf n s, In f fs -> mkit_build b [] df [f] = Ok rf -> get rf n = Some s -> get r n = Some s) /\
    (forall n, In n retain -> (forall f, In f fs -> ~ In n (adds f)) -> get r n = get df n) /\
    (forall n, ~ In n retain -> (forall f rf, In f fs -> mkit_build b [] df [f] = Ok rf -> get rf n = None) -> get r n = None).
Proof.
  intros b retain df fs Hret H1 H2 H3. destruct (retained_ok df retain Hret) as [out0 E0].
  assert (G0 : forall n, ~ In n retain -> get out0 n = None).
  { clear - E0. revert out0 E0. induction retain as [|m ns IH]; intros out0 H n Hn; cbn [retained] in H; [injection H as <-; reflexivity|].
    destruct (get df m); [|discriminate]. destruct (retained df ns) as [r|]; [|discriminate]. injection H as <-. cbn [get]. cbn [In] in Hn.
    destruct (String.eqb_spec m n); [tauto|]. now apply IH; auto. }
  assert (L : forall out d, (forall g n, In g fs -> In n (mlooks_at (mf_t g)) -> get d n = get df n) ->
    exists r, mbuild_loop b out d fs = Ok r /\
    (forall f rf n s, In f fs -> mkit_build b [] df [f] = Ok rf -> get rf n = Some s -> get r n = Some s) /\
    (forall n, (forall f rf, In f fs -> mkit_build b [] df [f] = Ok rf -> get rf n = None) -> get r n = get out n)).
  { clear - H1 H2 H3. induction fs as [|f fs IH]; intros out d A.
    - exists out. split; [reflexivity|]. split; [intros f rf n s []|auto].
    - destruct (H3 f (or_introl eq_refl)) as [rf Ef]. pose proof Ef as Ef'. unfold mkit_build in Ef'. cbn [retained mbuild_loop] in Ef'.
      destruct (mstep b [] df f) as [[o d']|] eqn:M; [|discriminate]. injection Ef' as ->.
      destruct (mstep_effect _ _ _ _ _ _ M) as [l [k [El [Ek [Ck [Al Ext]]]]]].
      cbn [mbuild_loop]. rewrite (Ext out d) by (intros n Hn; symmetry; apply A with (g := f); auto; now left).
      destruct (IH) with (out := put_all out l) (d := put_all d k) as [r [Er [R1 R2]]].
      + intros i j f1 g n Hij Hi Hj. apply (H1 (S i) (S j)); auto; lia.
      + intros i j f1 g n Hij Hi Hj. apply (H2 (S i) (S j)); auto; lia.
      + intros g Hg. apply H3. now right.
      + intros g n Hg Hn. rewrite put_all_other; [apply A with (g := g); auto; now right|]. intro K.
        destruct (In_nth_error _ _ Hg) as [j Hj]. apply (H1 0%nat (S j) f g n); auto; lia.
      + exists r. split; [exact Er|].
        assert (Hl : forall n s, get rf n = Some s -> In n (map fst l)).
        { intros n s Hn. destruct (in_dec string_dec n (map fst l)) as [I|I]; [exact I|]. rewrite El, put_all_other in Hn by auto. discriminate. }
        split.
        * intros g rg n s [<-|Hg] Eg Hn; [|eapply R1; eauto]. rewrite Ef in Eg. injection Eg as <-. rewrite R2.
          -- rewrite <- Hn, El. apply put_all_in. eapply Hl; eauto.
          -- intros g rg Hg Eg. destruct (get rg n) as [v|] eqn:V; [|reflexivity]. exfalso. destruct (In_nth_error _ _ Hg) as [j Hj].
             apply (H2 0%nat (S j) f g n); auto; [lia|apply Al; eapply Hl; eauto|].
             unfold mkit_build in Eg. cbn [retained mbuild_loop] in Eg. destruct (mstep b [] df g) as [[o2 d2]|] eqn:M2; [|discriminate]. injection Eg as ->.
             destruct (mstep_effect _ _ _ _ _ _ M2) as [l2 [k2 [El2 [_ [_ [Al2 _]]]]]]. apply Al2.
             destruct (in_dec string_dec n (map fst l2)) as [I|I]; [exact I|]. rewrite El2, put_all_other in V by auto. discriminate.
        * intros n Hn. rewrite R2 by (intros g rg Hg; apply Hn; now right). apply put_all_other. intro K.
          assert (N : get rf n = None) by (apply (Hn f); auto; now left). rewrite El in N.
          clear - K N. assert (G : forall x, get (put_all x l) n = None -> False); [|exact (G _ N)]. clear N. induction l as [|[m s] l IHl]; [destruct K|].
          intros x N. cbn [put_all map fst] in *. destruct (in_dec string_dec n (map fst l)) as [I|I]; [exact (IHl I _ N)|].
          rewrite put_all_other in N by auto. rewrite get_put in N. destruct (String.eqb_spec m n); [discriminate|]. destruct K; contradiction. }
  destruct (L out0 df) as [r [Er [R1 R2]]]; [reflexivity|]. exists r. unfold mkit_build. rewrite E0. split; [exact Er|]. split; [exact R1|]. split.
  - intros n Hn Ha. rewrite R2; [eapply retained_get; eauto|]. intros f rf Hf Ef. destruct (get rf n) as [v|] eqn:V; [|reflexivity]. exfalso. apply (Ha f Hf).
    unfold mkit_build in Ef. cbn [retained mbuild_loop] in Ef. destruct (mstep b [] df f) as [[o2 d2]|] eqn:M2; [|discriminate]. injection Ef as ->.
    destruct (mstep_effect _ _ _ _ _ _ M2) as [l2 [k2 [El2 [_ [_ [Al2 _]]]]]]. apply Al2.
    destruct (in_dec string_dec n (map fst l2)) as [I|I]; [exact I|]. rewrite El2, put_all_other in V by auto. discriminate.
  - intros n Hn Ha. rewrite R2 by exact Ha. now apply G0.
Qed.
Lemma put_all_fresh x l : NoDup (map fst l) -> (forall n, In n (map fst l) -> get x n = None) -> put_all x l = x ++ l.
Proof.
  assert (P : forall x n s, get x n = None -> put x n s = x ++ [(n, s)]).
  { clear. induction x as [|[m v] x IH]; intros n s H; [reflexivity|]. cbn [get put] in *. destruct (String.eqb m n); [discriminate|]. cbn. f_equal. now apply IH. }
  revert x. induction l as [|[n s] l IH]; intros x ND H; [now rewrite app_nil_r|]. cbn [put_all map fst] in *. inversion ND; subst. rewrite IH; auto.
  - rewrite P by (apply H; now left). now rewrite <- app_assoc.
  - intros m Hm. rewrite get_put. destruct (String.eqb_spec n m); [congruence|]. apply H. now right.
Qed.
(** A several-output feature alone: one column per produced name, in that order, holding
    the outputs of the computation; ValueError if a column is missing or the number of
    outputs is not the number of names. *)
Theorem C144_outputs : forall b df c nm, NoDup (m_names c) ->
  let r := mkit_build b [] df [mkMF nm (TMany c)] in
  ((exists n, In n (m_req c) /\ get df n = None) -> r = Raise ValueError) /\
  forall cols, map (get df) (m_req c) = map Some cols ->
    (forall e, m_fun c b cols = Raise e -> r = Raise e) /\
    forall ys, m_fun c b cols = Ok ys ->
      (length ys <> length (m_prod c) -> r = Raise ValueError) /\
      (length ys = length (m_prod c) -> exists out, r = Ok out /\ map fst out = m_names c /\ map snd out = ys).
Proof.
  intros b df c nm ND r. unfold r, mkit_build. cbn [retained mbuild_loop]. unfold mstep, mfeat_call. cbn [mf_t mout mcall]. unfold multi_call. split.
  - intros [n [Hn Hg]]. assert (E : columns df (m_req c) = Raise ValueError).
    { unfold columns. clear - Hn Hg. induction (m_req c) as [|m l IH]; [destruct Hn|]. cbn [map collect]. destruct (get df m) as [s|] eqn:G; [|reflexivity].
      destruct Hn as [->|Hn]; [congruence|]. now rewrite (IH Hn). }
    now rewrite E.
  - intros cols Hc. assert (E : columns df (m_req c) = Ok cols).
    { unfold columns. clear - Hc. revert cols Hc. induction (m_req c) as [|m l IH]; intros [|s cols] H; try discriminate; [reflexivity|]. cbn [map collect] in *.
      injection H as H1 H2. rewrite H1, (IH cols H2). reflexivity. }
    rewrite E. split; [intros e He; now rewrite He|]. intros ys Hy. rewrite Hy. split.
    + intro N. apply Nat.eqb_neq in N. now rewrite N.
    + intro Ey. rewrite (proj2 (Nat.eqb_eq _ _) Ey). assert (L : length (m_names c) = length ys) by (rewrite m_names_len; auto).
      rewrite put_all_fresh; [|now rewrite fst_combine|reflexivity]. eexists. split; [reflexivity|]. cbn [app]. rewrite fst_combine, snd_combine; auto.
Qed.
(** The name given to a several-output feature has no influence on what is built. *)
Theorem C144_name_ignored : forall b retain df before after c nm nm',
  mkit_build b retain df (before ++ mkMF nm (TMany c) :: after) = mkit_build b retain df (before ++ mkMF nm' (TMany c) :: after).
Proof.
  intros b retain df before after c nm nm'. unfold mkit_build. destruct (retained df retain) as [out|]; [|reflexivity]. revert out df.
  induction before as [|f fs IH]; intros out df.
  - cbn [app mbuild_loop]. assert (E : mstep b out df (mkMF nm (TMany c)) = mstep b out df (mkMF nm' (TMany c))).
    { unfold mstep, mfeat_call. cbn [mf_t mout mcall]. destruct (multi_call b df c) as [l|]; reflexivity. }
    now rewrite E.
  - cbn [app mbuild_loop]. destruct (mstep b out df f) as [[o d]|]; [apply IH|reflexivity].
Qed.
(** The setter accepts a name for a name and as many names as before for several; it changes
    nothing else. *)
Theorem C144_rename : forall f nm,
  (forall g, rename f nm = Some g -> mf_name g = nm /\ mf_t g = mf_t f) /\
  ((exists g, rename f nm = Some g) <->
   (exists a b, mf_name f = NStr a /\ nm = NStr b) \/ (exists l k, mf_name f = NList l /\ nm = NList k /\ length k = length l)).
Proof.
  intros [old t] nm. unfold rename. cbn [mf_name mf_t]. split.
  - intros g. destruct old as [a|l], nm as [b|k]; try discriminate; [intros [= <-]; auto|]. destruct (length k =? length l)%nat; intros [= <-]; auto.
  - split.
    + intros [g E]. destruct old as [a|l], nm as [b|k]; try discriminate; [left; eauto|right]. destruct (length k =? length l)%nat eqn:L; [|discriminate]. apply Nat.eqb_eq in L. eauto.
    + intros [[a [b [-> ->]]]|[l [k [-> [-> L]]]]]; [eauto|]. apply Nat.eqb_eq in L. rewrite L. eauto.
Qed.
Example C144_rename_example : exists g, rename (mkMF (NList ["a"; "b"]%string) (TExt (mkX [] [] (fun _ => Ok (RMany []))))) (NList ["c"; "d"]%string) = Some g /\ mf_name g = NList ["c"; "d"]%string.
Proof. eexists. split; reflexivity. Qed.
(** So a renamed several-output feature does not appear under its names, although the
    setter accepted them. *)
Theorem C144_renamed_refuted : exists b df c new f r, rename (feature (TMany c)) (NList new) = Some f /\ mf_name f = NList new /\
  mkit_build b [] df [f] = Ok r /\ (forall n, In n new -> get r n = None) /\ new <> [] /\ map fst r = m_names c.
Proof.
  exists NB, [("high"%string, [Fin 3; Fin 5]); ("low"%string, [Fin 1; Fin 2])],
    (mkM ["high"%string; "low"%string] ["orb_long"%string; "orb_short"%string] false (fun _ l => Ok l)),
    ["my_long"%string; "my_short"%string].
  eexists. eexists. split; [reflexivity|]. split; [reflexivity|]. split; [reflexivity|]. split; [|split; [discriminate|reflexivity]].
  intros n [<-|[<-|[]]]; reflexivity.
Qed.
(** A several-output feature whose names are those of an earlier one replaces all its
    columns: the result is that of the later feature alone. *)
Theorem C144_overwritten : forall b retain df c1 c2 nm1 nm2 r r2, m_names c1 = m_names c2 ->
  (forall n, In n (m_names c1) -> ~ In n (m_req c2)) ->
  mkit_build b retain df [mkMF nm1 (TMany c1); mkMF nm2 (TMany c2)] = Ok r ->
  mkit_build b retain df [mkMF nm2 (TMany c2)] = Ok r2 -> forall n, get r n = get r2 n.
Proof.
  intros b retain df c1 c2 nm1 nm2 r r2 En Hn H H2 n. unfold mkit_build in *. destruct (retained df retain) as [out|]; [|discriminate].
  cbn [mbuild_loop] in *. unfold mstep, mfeat_call in *. cbn [mf_t mout mcall] in *.
  destruct (multi_call b df c1) as [l1|] eqn:M1; [|discriminate]. destruct (multi_call b df c2) as [l2|] eqn:M2; [|discriminate]. injection H2 as <-.
  assert (N : forall c l, multi_call b df c = Ok l -> map fst l = m_names c).
  { intros c l E. apply (several_names b df (TMany c) l). cbn [mcall]. now rewrite E. }
  pose proof (N _ _ M1) as N1. pose proof (N _ _ M2) as N2.
  assert (E : multi_call b (put_all df l1) c2 = Ok l2).
  { rewrite <- M2. unfold multi_call. rewrite (columns_agree (put_all df l1) df (m_req c2)); [reflexivity|]. intros m Hm. apply put_all_other. rewrite N1. intro K. now apply (Hn m). }
  rewrite E in H. injection H as <-. destruct (in_dec string_dec n (map fst l2)) as [I|I]; [now apply put_all_in|].
  rewrite !put_all_other; auto. rewrite N1, En, <- N2. exact I.
Qed.
(** Two CUSUM tests with the same window on different columns have the same output names
    (the input column is not part of them), so the first one is lost. *)
Theorem C144_collision_refuted : exists b df f1 f2 r r1 n s, f1 <> f2 /\ mlooks_at (mf_t f1) = ["close"%string] /\ mlooks_at (mf_t f2) = ["vwap"%string] /\ mkit_build b [] df [f1] = Ok r1 /\ get r1 n = Some s /\ mkit_build b [] df [f1; f2] = Ok r /\ length r = 6%nat /\ ~ In s (map snd r).
Proof.
  pose (six := fun (_ : backend) (l : list series) => Ok (repeat (hd [] l) 6)).
  exists NB, [("close"%string, [Fin 1; Fin 2]); ("vwap"%string, [Fin 3; Fin 4])],
    (feature (TMany (cusum_core "50" "close" six))), (feature (TMany (cusum_core "50" "vwap" six))).
  eexists. eexists. exists "cumote_up50_flag"%string. eexists. split; [intro E; apply (f_equal (fun f => mlooks_at (mf_t f))) in E; discriminate|].
  split; [reflexivity|]. split; [reflexivity|]. split; [reflexivity|]. split; [reflexivity|]. split; [reflexivity|]. split; [reflexivity|].
  intro K. cbn in K. intuition discriminate.
Qed.
(** A kit with single- and several-output features and a retained column. *)
Definition ex_df : frame := [("open"%string, [Fin 1; Fin 2]); ("high"%string, [Fin 3; Fin 5]); ("low"%string, [Fin 1; Fin 2])].
Definition ex_many : mcore := mkM ["high"%string; "low"%string] ["range"%string; "mid"%string] false
  (fun _ l => match l with [h; w] => Ok [zipw esub h w; map (fun v => edivide v (Fin 2)) (zipw eadd h w)] | _ => Raise ValueError end).
Definition ex_fs : list mfeat := [feature (TMany ex_many); mkMF (NStr "o2") (TOne (Leaf (dbl "open"))); feature (TMany (cusum_core "9" "low" (fun _ l => Ok (repeat (hd [] l) 6))))].
Example C144_example :
  (forall n, In n ["open"%string] -> get ex_df n <> None) /\ (forall i j f g n, (i < j)%nat -> nth_error ex_fs i = Some f -> nth_error ex_fs j = Some g -> In n (caches (mf_t f)) -> ~ In n (mlooks_at (mf_t g))) /\ (forall i j f g n, (i < j)%nat -> nth_error ex_fs i = Some f -> nth_error ex_fs j = Some g -> In n (adds f) -> ~ In n (adds g)) /\ (forall f, In f ex_fs -> exists r, mkit_build NB [] ex_df [f] = Ok r) /\ (exists r, mkit_build NB ["open"%string] ex_df ex_fs = Ok r /\ get r "range" = Some [Fin 2; Fin 3] /\ get r "open" = Some [Fin 1; Fin 2] /\ get r "o2" = Some [Fin 2; Fin 4] /\    map fst r = ["open"; "range"; "mid"; "o2"; "cumote_up9_score"; "cumote_down9_score"; "cumote_up9_flag"; "cumote_down9_flag"; "cumote_up9_age"; "cumote_down9_age"]%string).
Proof.
  split; [intros n [<-|[]]; discriminate|]. split; [|split; [|split]].
  - intros [|[|[|i]]] [|[|[|j]]] f g n Hij Hi Hj; try lia; try (destruct j; discriminate); try (destruct i; discriminate); injection Hi as <-; injection Hj as <-; cbn; intuition (subst; discriminate).
  - intros [|[|[|i]]] [|[|[|j]]] f g n Hij Hi Hj; try lia; try (destruct j; discriminate); try (destruct i; discriminate); injection Hi as <-; injection Hj as <-; cbn; intuition (subst; discriminate).
  - intros f [<-|[<-|[<-|[]]]]; eexists; reflexivity.
  - eexists. repeat split.
Qed.
Example C144_outputs_example : NoDup (m_names ex_many) /\ map (get ex_df) (m_req ex_many) = map Some [[Fin 3; Fin 5]; [Fin 1; Fin 2]] /\ exists ys, m_fun ex_many NB [[Fin 3; Fin 5]; [Fin 1; Fin 2]] = Ok ys /\ length ys = length (m_prod ex_many).
Proof. split; [repeat constructor; cbn; intuition discriminate|]. split; [reflexivity|]. eexists. split; reflexivity. Qed.
Example C144_overwritten_example : let f := fun (_ : backend) (l : list series) => Ok (repeat (hd [] l) 6) in
  m_names (cusum_core "9" "low" f) = m_names (cusum_core "9" "high" f) /\ (forall n, In n (m_names (cusum_core "9" "low" f)) -> ~ In n (m_req (cusum_core "9" "high" f))) /\ exists r, mkit_build NB [] ex_df [feature (TMany (cusum_core "9" "low" f)); feature (TMany (cusum_core "9" "high" f))] = Ok r /\ get r "cumote_up9_age" = Some [Fin 3; Fin 5].
Proof. split; [reflexivity|]. split; [|eexists; split; reflexivity]. cbn. intros n H [<-|[]]. intuition discriminate. Qed.

(* ------------------------------------------------------------------ *)
(** ** C145: external functions *)
(** [i] as a column over [n] rows, independent of the model. *)
Definition column_of (n : nat) (i : item) (s : series) : Prop :=
  match i with ISeries c => s = c | IArray l => length l = n /\ s = l | IScalar v => length s = n /\ forall w, In w s -> w = v end.
Lemma to_column_spec n i s : to_column n i = Ok s -> column_of n i s.
Proof.
  destruct i as [c|l|v]; cbn [to_column column_of]; intro H; [now injection H| |].
  - destruct (Nat.eqb_spec (length l) n); [|discriminate]. injection H as <-. auto.
  - injection H as <-. split; [apply repeat_length|]. intros w Hw. eapply repeat_spec; eauto.
Qed.
Lemma column_ex n i : (forall l, i = IArray l -> length l = n) -> exists s, to_column n i = Ok s.
Proof. destruct i as [c|l|v]; cbn [to_column]; intro H; try (eexists; reflexivity). rewrite (H l eq_refl), Nat.eqb_refl. eexists. reflexivity. Qed.
Lemma collect_map_spec {A B} (f : A -> result B) l : (forall a, In a l -> exists b, f a = Ok b) -> exists r, collect (map f l) = Ok r /\ Forall2 (fun a b => f a = Ok b) l r.
Proof.
  induction l as [|a l IH]; intro H; [exists []; split; [reflexivity|constructor]|]. destruct (H a (or_introl eq_refl)) as [b Hb]. destruct IH as [r [E F]]; [intros; apply H; now right|].
  exists (b :: r). cbn [map collect]. rewrite Hb, E. split; [reflexivity|]. now constructor.
Qed.
Lemma columns_ok x ns cols : map (get x) ns = map Some cols -> columns x ns = Ok cols.
Proof.
  unfold columns. revert cols. induction ns as [|m l IH]; intros [|s cols] H; try discriminate; [reflexivity|]. cbn [map collect] in *.
  injection H as H1 H2. now rewrite H1, (IH cols H2).
Qed.
(** The feature of an external function, alone: the function gets the required columns in
    order; a single result becomes the single declared column; a tuple or list must have
    one item per declared name, each becomes the column of that name. *)
Theorem C145_call : forall b df e c0 cols reply, map (get df) (e_req e) = map Some (c0 :: cols) -> NoDup (e_prod e) ->
  (forall n, e_prod e = [n] -> get df n = None) -> e_fun e (c0 :: cols) = Ok reply ->
  let r := mkit_build b [] df [feature (TExt e)] in
  match reply with
  | ROne i => forall n, e_prod e = [n] -> (forall l, i = IArray l -> length l = length c0) -> exists s, r = Ok [(n, s)] /\ column_of (length c0) i s
  | RMany items => length items = length (e_prod e) -> (forall l, In (IArray l) items -> length l = length c0) ->
      exists out, r = Ok out /\ map fst out = e_prod e /\ Forall2 (column_of (length c0)) items (map snd out)
  end.
Proof.
  intros b df e c0 cols reply Hc ND Hn Hf r. unfold r, mkit_build. cbn [retained mbuild_loop]. unfold mstep.
  assert (C : mfeat_call b df (feature (TExt e)) = ext_call df e).
  { unfold mfeat_call, feature. cbn [mf_t mout]. destruct (e_prod e) as [|n [|m l]] eqn:E; try reflexivity. now rewrite (Hn n eq_refl). }
  rewrite C. unfold ext_call. rewrite (columns_ok df (e_req e) (c0 :: cols) Hc), Hf. destruct reply as [i|items].
  - intros n En Hl. destruct (column_ex (length c0) i Hl) as [s Es]. rewrite Es. cbn [feature mf_name mf_t mout]. rewrite En. exists s. split; [reflexivity|]. now apply to_column_spec.
  - intros Hlen Hl. rewrite (proj2 (Nat.eqb_eq _ _) Hlen).
    destruct (collect_map_spec (to_column (length c0)) items) as [ss [Ec F]]. { intros i Hi. apply column_ex. intros l ->. auto. }
    rewrite Ec. assert (L : length (e_prod e) = length ss) by (rewrite (collect_len _ _ Ec), map_length; auto).
    rewrite put_all_fresh; [|now rewrite fst_combine|reflexivity]. exists (combine (e_prod e) ss). split; [reflexivity|]. rewrite fst_combine, snd_combine by auto. split; [reflexivity|].
    clear - F. induction F; constructor; auto. now apply to_column_spec.
Qed.
(** Errors: a missing column, a tuple of another size, an array of another length, or a
    single result although several (or no) names are declared. *)
Theorem C145_errors : forall b df e,
  (forall n, e_prod e = [n] -> get df n = None) ->
  let r := mkit_build b [] df [feature (TExt e)] in
  ((exists n, In n (e_req e) /\ get df n = None) -> r = Raise ValueError) /\ (e_req e = [] -> r = Raise IndexError) /\
  forall c0 cols, map (get df) (e_req e) = map Some (c0 :: cols) ->
    (forall er, e_fun e (c0 :: cols) = Raise er -> r = Raise er) /\
    (forall items, e_fun e (c0 :: cols) = Ok (RMany items) -> length items <> length (e_prod e) -> r = Raise ValueError) /\
    (forall items l, e_fun e (c0 :: cols) = Ok (RMany items) -> In (IArray l) items -> length l <> length c0 -> r = Raise ValueError) /\
    (forall l, e_fun e (c0 :: cols) = Ok (ROne (IArray l)) -> length l <> length c0 -> r = Raise ValueError) /\
    (forall i, e_fun e (c0 :: cols) = Ok (ROne i) -> length (e_prod e) <> 1%nat -> r = Raise ValueError).
Proof.
  intros b df e Hn r. unfold r, mkit_build. cbn [retained mbuild_loop]. unfold mstep.
  assert (C : mfeat_call b df (feature (TExt e)) = ext_call df e).
  { unfold mfeat_call, feature. cbn [mf_t mout]. destruct (e_prod e) as [|n [|m l]] eqn:E; try reflexivity. now rewrite (Hn n eq_refl). }
  rewrite C. unfold ext_call. split.
  - intros [n [In_ Hg]]. assert (E : columns df (e_req e) = Raise ValueError).
    { unfold columns. clear - In_ Hg. induction (e_req e) as [|m l IH]; [destruct In_|]. cbn [map collect]. destruct (get df m) as [s|] eqn:G; [|reflexivity].
      destruct In_ as [->|In_]; [congruence|]. now rewrite (IH In_). }
    now rewrite E.
  - split; [intros ->; reflexivity|]. intros c0 cols Hc. rewrite (columns_ok df (e_req e) (c0 :: cols) Hc). split; [intros er ->; reflexivity|]. split; [|split; [|split]].
    + intros items -> N. apply Nat.eqb_neq in N. now rewrite N.
    + intros items l -> Hin N. destruct (length items =? length (e_prod e))%nat; [|reflexivity].
      assert (E : collect (map (to_column (length c0)) items) = Raise ValueError).
      { clear - Hin N. induction items as [|i items IH]; [destruct Hin|]. cbn [map collect]. destruct (to_column (length c0) i) as [s|er] eqn:T.
        - destruct Hin as [->|Hin]; [cbn [to_column] in T; apply Nat.eqb_neq in N; rewrite N in T; discriminate|]. now rewrite (IH Hin).
        - destruct i as [c|l'|v]; cbn [to_column] in T; try discriminate. destruct (length l' =? length c0)%nat; [discriminate|]. now injection T as <-. }
      now rewrite E.
    + intros l -> N. cbn [to_column]. apply Nat.eqb_neq in N. now rewrite N.
    + intros i -> N. destruct (to_column (length c0) i) as [s|er] eqn:T.
      * cbn [feature mf_name mf_t mout]. destruct (e_prod e) as [|n [|m l]]; try reflexivity. cbn in N. lia.
      * destruct i as [c|l'|v]; cbn [to_column] in T; try discriminate. destruct (length l' =? length c0)%nat; [discriminate|]. now injection T as <-.
Qed.
(** A function that returns its column as a plain list of values (one per row) is refused
    whenever there is more than one row, and with one declared name per row each value
    silently becomes a whole column. *)
Theorem C145_plain_list_refuted :
  (forall b df e c0 cols vs n, map (get df) (e_req e) = map Some (c0 :: cols) -> e_prod e = [n] -> get df n = None ->
     length c0 <> 1%nat -> length vs = length c0 -> e_fun e (c0 :: cols) = Ok (RMany (map IScalar vs)) ->
     mkit_build b [] df [feature (TExt e)] = Raise ValueError) /\
  exists b df e r, e_fun e [[Fin 1; Fin 2]] = Ok (RMany [IScalar (Fin 1); IScalar (Fin 2)]) /\ e_prod e = ["u"%string; "v"%string] /\
     get df "x" = Some [Fin 1; Fin 2] /\ mkit_build b [] df [feature (TExt e)] = Ok r /\ get r "u" = Some [Fin 1; Fin 1] /\ get r "v" = Some [Fin 2; Fin 2].
Proof.
  split.
  - intros b df e c0 cols vs n Hc En Hn N L Hf. destruct (C145_errors b df e) as [_ [_ H]]; [intros m E; rewrite En in E; injection E as <-; auto|].
    destruct (H c0 cols Hc) as [_ [H2 _]]. apply (H2 _ Hf). rewrite map_length, En. cbn. lia.
  - exists NB, [("x"%string, [Fin 1; Fin 2])], (mkX ["x"%string] ["u"%string; "v"%string] (fun l => Ok (RMany (map IScalar (hd [] l))))).
    eexists. repeat split; reflexivity.
Qed.
(** Without declared names the output is named after the function only: a second feature of
    the same function on another column is not computed but gets the values of the first. *)
Theorem C145_default_name_refuted : forall b df func c1 c2 col1 col2 f g nm v,
  let e1 := mkX [col1] (default_prod func None) f in let e2 := mkX [col2] (default_prod func None) g in
  get df col1 = Some c1 -> get df col2 = Some c2 -> get df ("ext_" ++ func)%string = None -> f [c1] = Ok (ROne (ISeries v)) ->
  exists r, mkit_build b [] df [feature (TExt e1); mkMF (NStr nm) (TExt e2)] = Ok r /\ get r nm = Some v.
Proof.
  intros b df func c1 c2 col1 col2 f g nm v e1 e2 G1 G2 G3 Hf. unfold mkit_build. cbn [retained mbuild_loop].
  assert (M1 : mstep b [] df (feature (TExt e1)) = Ok ([(("ext_" ++ func)%string, v)], put df ("ext_" ++ func)%string v)).
  { unfold mstep, mfeat_call. cbn [feature mf_t mf_name mout e1 e_prod default_prod mcall]. rewrite G3. unfold ext_call, columns, e1. cbn [e_req e_fun map collect].
    rewrite G1, Hf. reflexivity. }
  rewrite M1. unfold mstep, mfeat_call. cbn [mf_t mf_name mout e2 e_prod default_prod]. rewrite get_put, String.eqb_refl.
  eexists. split; [reflexivity|]. rewrite get_put, String.eqb_refl. reflexivity.
Qed.
Example C145_default_name_example : let f := fun l => Ok (ROne (ISeries (map eneg (hd [] l)))) in
  let e1 := mkX ["open"%string] (default_prod "neg" None) f in let e2 := mkX ["high"%string] (default_prod "neg" None) f in
  get ex_df "ext_neg" = None /\ mkit_build NB [] ex_df [mkMF (NStr "neg_high") (TExt e2)] = Ok [("neg_high"%string, [Fin (-3); Fin (-5)])] /\
  mkit_build NB [] ex_df [mkMF (NStr "neg_open") (TExt e1); mkMF (NStr "neg_high") (TExt e2)] =
    Ok [("neg_open"%string, [Fin (-1); Fin (-2)]); ("neg_high"%string, [Fin (-1); Fin (-2)])].
Proof. repeat split. Qed.
Definition ex_ext : extfun := mkX ["high"%string; "low"%string] ["diff"%string; "one"%string]
  (fun l => match l with [h; w] => Ok (RMany [IArray (zipw esub h w); IScalar (Fin 1)]) | _ => Raise TypeError end).
Example C145_example : map (get ex_df) (e_req ex_ext) = map Some [[Fin 3; Fin 5]; [Fin 1; Fin 2]] /\ NoDup (e_prod ex_ext) /\
  (forall n, e_prod ex_ext = [n] -> get ex_df n = None) /\
  e_fun ex_ext [[Fin 3; Fin 5]; [Fin 1; Fin 2]] = Ok (RMany [IArray [Fin 2; Fin 3]; IScalar (Fin 1)]) /\
  mkit_build PD [] ex_df [feature (TExt ex_ext)] = Ok [("diff"%string, [Fin 2; Fin 3]); ("one"%string, [Fin 1; Fin 1])].
Proof. split; [reflexivity|]. split; [repeat constructor; cbn; intuition discriminate|]. split; [discriminate|]. split; reflexivity. Qed.

Print Assumptions C144_local.
Print Assumptions C144_independent.
Print Assumptions C144_outputs.
Print Assumptions C144_name_ignored.
Print Assumptions C144_rename.
Print Assumptions C144_renamed_refuted.
Print Assumptions C144_overwritten.
Print Assumptions C144_collision_refuted.
Print Assumptions C145_call.
Print Assumptions C145_errors.
Print Assumptions C145_plain_list_refuted.
Print Assumptions C145_default_name_refuted.
