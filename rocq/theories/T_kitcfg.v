(** T_kitcfg.v -- saving and loading a whole FeatureKit (feature/kit.py L953-980). *)
From Coq Require Import String.
From Verif Require Import Base M_features M_transforms M_kit S_kit M_graph M_config M_kitcfg T_kit T_config.
Open Scope Z_scope.

Section Reload.
  Variables np_log np_log1p np_exp np_sqrt : ext -> ext.
  Variables r_mean r_std r_sum r_shift : Z -> series -> series.
  Variable ewm : Z -> bool -> series -> series.
  Variable pyfloat : string -> option Q.
  Variable reload_leaf : core -> result core.
  Let std := standard np_log np_log1p np_exp np_sqrt r_mean r_std r_sum r_shift ewm pyfloat reload_leaf.
  Let rl := reload_kit np_log np_log1p np_exp np_sqrt r_mean r_std r_sum r_shift ewm pyfloat reload_leaf.
  Let rf := reload_feat np_log np_log1p np_exp np_sqrt r_mean r_std r_sum r_shift ewm pyfloat reload_leaf.
  Let from := kit_from_dict np_log np_log1p np_exp np_sqrt r_mean r_std r_sum r_shift ewm pyfloat reload_leaf.

  Lemma feat_reload f : feat_from_config np_log np_log1p np_exp np_sqrt r_mean r_std r_sum r_shift ewm pyfloat reload_leaf (feat_to_config f) = rf f.
  Proof. reflexivity. Qed.

  (** C167, outcome: loading a saved kit loads its features one by one; it gives a kit with the same retained columns
      iff every feature loads, and otherwise the exception of the first feature that does not. *)
  Theorem C167_outcome : forall k,
    (forall k', rl k = Ok k' <-> kt_retain k' = kt_retain k /\ Forall2 (fun f f' => rf f = Ok f') (kt_features k) (kt_features k')) /\
    (forall e, rl k = Raise e <-> exists before f after, kt_features k = before ++ f :: after /\ rf f = Raise e /\ forall g, In g before -> exists g', rf g = Ok g').
  Proof.
    intros [fs ret]. unfold rl, reload_kit, kit_from_dict, kit_to_config. cbn [kt_features kt_retain kc_features kc_retain].
    rewrite map_map. change (map (fun x => feat_from_config np_log np_log1p np_exp np_sqrt r_mean r_std r_sum r_shift ewm pyfloat reload_leaf (feat_to_config x)) fs) with (map rf fs).
    assert (C : (forall l, collect (map rf fs) = Ok l <-> Forall2 (fun f f' => rf f = Ok f') fs l) /\
                (forall e, collect (map rf fs) = Raise e <-> exists before f after, fs = before ++ f :: after /\ rf f = Raise e /\ forall g, In g before -> exists g', rf g = Ok g')).
    { induction fs as [|f fs [IH1 IH2]]; cbn [map collect]; split.
      - intro l. split; [intros [= <-]; constructor|intro H; inversion H; reflexivity].
      - intro e. split; [discriminate|]. intros (b & f & a & H & _). destruct b; discriminate.
      - intro l. destruct (rf f) as [f'|e] eqn:E.
        + destruct (collect (map rf fs)) as [l'|e'] eqn:El.
          * split; [intros [= <-]; constructor; [exact E|now apply IH1]|]. intro H. inversion H as [|? y ? ys H1 H2]; subst. rewrite E in H1. injection H1 as ->.
            apply IH1 in H2. injection H2 as ->. reflexivity.
          * split; [discriminate|]. intro H. inversion H as [|? y ? ys H1 H2]; subst. apply IH1 in H2. discriminate.
        + split; [discriminate|]. intro H. inversion H; subst. congruence.
      - intro e. destruct (rf f) as [f'|e0] eqn:E.
        + destruct (collect (map rf fs)) as [l'|e'] eqn:El.
          * split; [discriminate|]. intros (b & g & a & H & Hg & Hb). destruct b as [|x b]; [injection H as <- _; congruence|]. injection H as <- H.
            assert (K : Ok l' = Raise e) by (apply IH2; exists b, g, a; split; [exact H|]; split; [exact Hg|]; intros; apply Hb; now right). discriminate.
          * split.
            -- intros [= <-]. destruct (proj1 (IH2 e') eq_refl) as (b & g & a & H & Hg & Hb). exists (f :: b), g, a. split; [now rewrite H|]. split; [exact Hg|].
               intros x [<-|Hx]; [eauto|auto].
            -- intros (b & g & a & H & Hg & Hb). destruct b as [|x b]; [injection H as <- _; congruence|]. injection H as <- H.
               assert (K : @Raise (list feat) e' = Raise e) by (apply IH2; exists b, g, a; split; [exact H|]; split; [exact Hg|]; intros; apply Hb; now right). now injection K as <-.
        + split.
          * intros [= <-]. exists [], f, fs. split; [reflexivity|]. split; [exact E|]. intros g [].
          * intros (b & g & a & H & Hg & Hb). destruct b as [|x b]; [injection H as <- _; congruence|]. injection H as <- H. destruct (Hb f (or_introl eq_refl)) as [g' Hg']. congruence. }
    destruct C as [C1 C2]. destruct (collect (map rf fs)) as [l|e] eqn:E.
    - split.
      + intros [fs' ret']. cbn [kt_features kt_retain new_kit]. split.
        * intros [= <- <-]. split; [reflexivity|]. now apply C1.
        * intros [-> H]. apply C1 in H. now injection H as ->.
      + intro e. split; [discriminate|]. intro H. apply C2 in H. discriminate.
    - split.
      + intro k'. split; [discriminate|]. intros [_ H]. apply C1 in H. discriminate.
      + intro e'. split.
        * intros [= <-]. now apply C2.
        * intro H. apply C2 in H. now injection H as ->.
  Qed.

  (** The kit as it comes back: same names, transforms without the names set by [apply]. *)
  Definition unnamed (f : feat) : feat := mkFeat (f_name f) (unname (f_t f)).
  Lemma reload_standard k : (forall f, In f (kt_features k) -> std (f_t f)) -> rl k = Ok (mkKit (map unnamed (kt_features k)) (kt_retain k)).
  Proof.
    intro S. apply (proj1 (C167_outcome k)). cbn [kt_features kt_retain]. split; [reflexivity|].
    induction (kt_features k) as [|f fs IH]; [constructor|]. cbn [map]. constructor.
    - unfold rf, reload_feat. rewrite C68_roundtrip_partial by (apply S; now left). reflexivity.
    - apply IH. intros g Hg. apply S. now right.
  Qed.
  Lemma unname_unname t : unname (unname t) = unname t.
  Proof. induction t; cbn [unname]; rewrite ?IHt, ?IHt1, ?IHt2; reflexivity. Qed.
  Lemma unname_standard t : std t -> std (unname t).
  Proof. unfold std. induction t; cbn [unname standard]; tauto. Qed.
  Lemma unname_same t : renamed t = false -> unname t = t.
  Proof.
    induction t as [c|l IHl q IHq op h|l IHl q IHq op h|u IHu c op h|u IHu op h rn|f0 r0]; cbn [unname renamed]; intro R; try reflexivity.
    - apply Bool.orb_false_iff in R. destruct R. now rewrite IHl, IHq.
    - apply Bool.orb_false_iff in R. destruct R. now rewrite IHl, IHq.
    - now rewrite IHu.
    - destruct rn; [discriminate|]. now rewrite IHu.
  Qed.
  (** C167, names: a kit of standard features loads; the features keep their number, order and names, the retained
      columns stay, and loading a second time changes nothing more. *)
  Theorem C167_names : forall k, (forall f, In f (kt_features k) -> std (f_t f)) ->
    exists k', rl k = Ok k' /\ rl k' = Ok k' /\ kt_retain k' = kt_retain k /\ map f_name (kt_features k') = map f_name (kt_features k).
  Proof.
    intros k S. eexists. split; [now apply reload_standard|]. cbn [kt_retain kt_features]. split; [|split; [reflexivity|]].
    - rewrite reload_standard.
      + cbn [kt_features kt_retain]. f_equal. f_equal. rewrite map_map. apply map_ext. intro f. unfold unnamed. cbn [f_name f_t]. now rewrite unname_unname.
      + cbn [kt_features]. intros f H. apply in_map_iff in H. destruct H as [g [<- H]]. cbn [unnamed f_t]. now apply unname_standard, S.
    - rewrite map_map. now apply map_ext.
  Qed.
  (** C167, same: without names set by [apply] the loaded kit is the saved one, so frames, graph and orders agree. *)
  Theorem C167_same : forall k, (forall f, In f (kt_features k) -> std (f_t f) /\ renamed (f_t f) = false) -> rl k = Ok k.
  Proof.
    intros k S. rewrite reload_standard by (intros f H; now apply S). f_equal. destruct k as [fs ret]. cbn [kt_features kt_retain] in *. f_equal.
    induction fs as [|f fs IH]; [reflexivity|]. cbn [map]. rewrite IH by (intros g Hg; apply S; now right). f_equal.
    unfold unnamed. rewrite unname_same by (apply S; now left). now destruct f.
  Qed.

  (** Spec: output names determine the computation in a kit on a frame (as in C65). *)
  Definition faithful (b : backend) (df : frame) (fs : list feat) : Prop :=
    let part t := exists f, In f fs /\ In t (nodes (f_t f)) in
    (forall t u s, part t -> part u -> out_name t = out_name u -> den b df t = Ok s -> den b df u = Ok s) /\
    (forall t s, part t -> get df (out_name t) = Some s -> den b df t = Ok s) /\
    (forall t n f, part t -> In n (compose_names t) -> In f fs -> n = out_name (f_t f) -> get df n <> None).
  (** Spec: the retained columns followed by the features one after another. *)
  Fixpoint columns_of (b : backend) (df out : frame) (fs : list feat) : frame :=
    match fs with
    | [] => out
    | f :: fs' => columns_of b df (put out (f_name f) (match den b df (f_t f) with Ok s => s | Raise _ => [] end)) fs'
    end.
  Lemma build_columns b df fs : faithful b df fs -> (forall f, In f fs -> exists s, den b df (f_t f) = Ok s) ->
    forall out, build_loop b out df fs = Ok (columns_of b df out fs).
  Proof.
    intros (Hs & Hr & Hc) Ht.
    set (part := fun t => exists f, In f fs /\ In t (nodes (f_t f))) in *.
    assert (Ns : forall t u, part t -> In u (nodes t) -> part u).
    { intros t u [f [Hf Hft]] Hu. exists f. split; [auto|]. eapply nodes_trans; eauto. }
    set (names := map (fun f => out_name (f_t f)) fs).
    assert (Cl : forall t n, part t -> In n (compose_names t) -> In n names -> get df n <> None).
    { intros t n Pt Hn Hnm. apply in_map_iff in Hnm. destruct Hnm as [f [E Hf]]. eapply Hc; eauto. }
    assert (G : forall l, incl l fs -> forall out x, reached b df part names x -> build_loop b out x l = Ok (columns_of b df out l)).
    { induction l as [|f l IH]; intros I out x R; [reflexivity|]. cbn [build_loop columns_of].
      assert (If : In f fs) by (apply I; now left). destruct (Ht f If) as [s D]. assert (Pf : part (f_t f)) by (exists f; split; [exact If|apply nodes_self]).
      rewrite (feat_call_reached b df part names Ns Hs Hr Cl x f s R Pf D), D. apply IH; [intros g Hg; apply I; now right|].
      eapply reached_put; eauto. unfold names. apply in_map_iff. eauto. }
    intro out. apply G; [apply incl_refl|]. split; intros n v; auto.
  Qed.
  Lemma columns_unnamed b df fs : forall out, columns_of b df out (map unnamed fs) = columns_of b df out fs.
  Proof. induction fs as [|f fs IH]; intro out; [reflexivity|]. cbn [map columns_of unnamed f_name f_t]. now rewrite unname_den, IH. Qed.
  (** C167, build: where names determine the computation before and after, the loaded kit builds the very same frame. *)
  Theorem C167_build : forall b df k k', (forall f, In f (kt_features k) -> std (f_t f)) -> rl k = Ok k' ->
    faithful b df (kt_features k) -> faithful b df (kt_features k') -> (forall f, In f (kt_features k) -> exists s, den b df (f_t f) = Ok s) ->
    kit_build b (kt_retain k') df (kt_features k') = kit_build b (kt_retain k) df (kt_features k).
  Proof.
    intros b df k k' S R F F' V. rewrite reload_standard in R by exact S. injection R as <-. cbn [kt_features kt_retain] in *.
    unfold kit_build. destruct (retained df (kt_retain k)) as [out|]; [|reflexivity].
    rewrite (build_columns b df _ F V), (build_columns b df _ F').
    - f_equal. apply columns_unnamed.
    - intros f H. apply in_map_iff in H. destruct H as [g [<- H]]. cbn [unnamed f_t]. rewrite unname_den. now apply V.
  Qed.
  (** C167, missing keys: a dictionary without "features" or "retain" counts as having empty lists. *)
  Theorem C167_missing_keys : from (mkKcfg None None) = Ok (mkKit [] []) /\
    (forall ret, from (mkKcfg ret None) = Ok (mkKit [] (match ret with Some l => l | None => [] end))) /\
    (forall l, from (mkKcfg None l) = from (mkKcfg (Some []) l)).
  Proof. repeat split. Qed.
End Reload.

(* ------------------------------------------------------------------ *)
(** ** A kit *)
(** The log of close made by [apply], and its sum with another column. *)
Definition ex_pf (s : string) : option Q := if String.eqb s "-0.5" then Some (-(1#2))%Q else None.
Definition ex_reload : kit -> result kit :=
  reload_kit (fun e => e) (fun e => e) (fun e => e) (fun e => e) (fun _ s => s) (fun _ s => s) (fun _ s => s) (fun _ s => s) ex_ewm ex_pf (fun c => Ok c).
Definition ex_plus (t : trans) : trans := Binary t (Leaf (ex_leaf "vol")) "add" (zipw eadd).
Definition ex_kit : kit := new_kit [mkFeat "lg" ex_log; mkFeat "both" (ex_plus ex_log)] (Some ["vol"%string]).
Definition ex_frame : frame := [("close"%string, [Fin 1; Fin 2]); ("vol"%string, [Fin 5; NaN])].
Example C167_example :
  (forall f, In f (kt_features ex_kit) ->
    standard (fun e => e) (fun e => e) (fun e => e) (fun e => e) (fun _ s => s) (fun _ s => s) (fun _ s => s) (fun _ s => s) ex_ewm ex_pf (fun c => Ok c) (f_t f)) /\
  (exists k', ex_reload ex_kit = Ok k' /\ kt_retain k' = ["vol"%string] /\ map f_name (kt_features k') = ["lg"; "both"]%string /\
     map (fun f => out_name (f_t f)) (kt_features k') = ["log(close)"; "add(log(close),vol)"]%string /\
     faithful NB ex_frame (kt_features k') /\
     kit_build NB (kt_retain k') ex_frame (kt_features k') = Ok [("vol", [Fin 5; NaN]); ("lg", [Fin 1; Fin 2]); ("both", [Fin 6; NaN])]%string) /\
  map (fun f => out_name (f_t f)) (kt_features ex_kit) = ["close_log"; "add(close_log,vol)"]%string /\
  faithful NB ex_frame (kt_features ex_kit) /\
  (forall f, In f (kt_features ex_kit) -> exists s, den NB ex_frame (f_t f) = Ok s) /\
  kit_build NB (kt_retain ex_kit) ex_frame (kt_features ex_kit) = Ok [("vol", [Fin 5; NaN]); ("lg", [Fin 1; Fin 2]); ("both", [Fin 6; NaN])]%string.
Proof.
  assert (F : forall l, (l = ex_log \/ l = unname ex_log) -> faithful NB ex_frame [mkFeat "lg" l; mkFeat "both" (ex_plus l)]).
  { intros l Hl.
    assert (P : forall t, (exists f, In f [mkFeat "lg" l; mkFeat "both" (ex_plus l)] /\ In t (nodes (f_t f))) ->
       t = l \/ t = Leaf (ex_leaf "close") \/ t = ex_plus l \/ t = Leaf (ex_leaf "vol")).
    { intros t [f [[<-|[<-|[]]] Ht]]; destruct Hl as [-> | ->]; cbn in Ht; intuition auto. }
    assert (D : map (fun t => (out_name t, den NB ex_frame t, get ex_frame (out_name t))) [Leaf (ex_leaf "close"); Leaf (ex_leaf "vol")] =
      [("close"%string, Ok [Fin 1; Fin 2], Some [Fin 1; Fin 2]); ("vol"%string, Ok [Fin 5; NaN], Some [Fin 5; NaN])]) by reflexivity.
    split; [|split].
    - intros t u s Pt Pu E Dt. apply P in Pt. apply P in Pu.
      destruct Hl as [-> | ->]; destruct Pt as [->|[->|[->| ->]]]; destruct Pu as [->|[->|[->| ->]]]; try exact Dt; vm_compute in E; discriminate E.
    - intros t s Pt E. apply P in Pt. destruct Hl as [-> | ->]; destruct Pt as [->|[->|[->| ->]]]; vm_compute in E; try discriminate E; injection E as <-; reflexivity.
    - intros t n f Pt In_ If En. apply P in Pt. destruct Hl as [-> | ->]; destruct Pt as [->|[->|[->| ->]]]; destruct In_. }
  split; [|split; [|split; [reflexivity|split; [apply F; now left|split; [|vm_compute; reflexivity]]]]].
  - intros f [<-|[<-|[]]]; cbn [f_t ex_plus ex_log build standard].
    + split; [reflexivity|]. right. exists MLog. cbn. auto.
    + split; [|split; reflexivity]. split; [reflexivity|]. right. exists MLog. cbn. auto.
  - eexists. split; [vm_compute; reflexivity|]. split; [reflexivity|]. split; [reflexivity|]. split; [reflexivity|]. split; [exact (F _ (or_intror eq_refl))|vm_compute; reflexivity].
  - intros f [<-|[<-|[]]]; eexists; vm_compute; reflexivity.
Qed.
(** C167: "the loaded kit has the same dependency graph" is false: the sum read the feature close_log by name, the
    loaded sum does not, so that the computation order may change. *)
Theorem C167_graph_refuted : exists k k', ex_reload k = Ok k' /\ map f_name (kt_features k') = map f_name (kt_features k) /\
  In "both"%string (g_succ (feature_graph (kt_features k)) "close_log") /\ ~ In "both"%string (g_succ (feature_graph (kt_features k')) "close_log") /\
  map f_name (topo_feats (feature_graph (kt_features k)) ["both"; "close_log"]%string (kt_features k)) = ["close_log"; "both"]%string /\
  map f_name (topo_feats (feature_graph (kt_features k')) ["both"; "close_log"]%string (kt_features k')) = ["both"; "close_log"]%string.
Proof.
  exists (mkKit [mkFeat "both" (ex_plus ex_log); mkFeat "close_log" ex_log] []). eexists. split; [vm_compute; reflexivity|]. split; [reflexivity|].
  split; [vm_compute; auto|]. split; [vm_compute; intuition discriminate|]. split; vm_compute; reflexivity.
Qed.

Print Assumptions C167_outcome.
Print Assumptions C167_names.
Print Assumptions C167_same.
Print Assumptions C167_build.
Print Assumptions C167_missing_keys.
Print Assumptions C167_graph_refuted.
