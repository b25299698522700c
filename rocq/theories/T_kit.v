(** T_kit.v -- operator transforms, feature kit and pipelines (feature/base.py,
    feature/kit.py). *)
From Coq Require Import String.
From Verif Require Import Base M_features S_features P_weights P_features P_features2 M_transforms M_kit S_kit.
Open Scope Q_scope.

(* ------------------------------------------------------------------ *)
(** ** C64: operators *)
Lemma zipw_map (g : ext -> ext -> ext) (f h : nat -> ext) l : zipw g (map f l) (map h l) = map (fun i => g (f i) (h i)) l.
Proof. unfold zipw. induction l; [reflexivity|]. cbn. f_equal. exact IHl. Qed.
Lemma nth_all (s : series) n : length s = n -> s = map (fun i => nth i s NaN) (seq 0 n).
Proof.
  intro E. apply (nth_ext _ _ NaN NaN); [now rewrite map_length, seq_length|]. intros i Hi.
  rewrite nth_map_seq by lia. reflexivity.
Qed.
(** Evaluating a feature gives the value of its expression in every row, whenever columns
    of the frame that bear the name of a part of the expression hold that part. *)
Theorem C64_pointwise : forall b x n leaf e,
  (forall c, part_of (FCore c) e -> core_call b x c = Ok (map (leaf c) (seq 0 n))) ->
  (forall a suf g s, part_of (FApply a suf g) e -> length s = n -> length (g s) = n) ->
  (forall u s, part_of u e -> get x (out_name (build u)) = Some s -> s = map (row_val n leaf u) (seq 0 n)) ->
  call b x (build e) = Ok (map (row_val n leaf e) (seq 0 n)).
Proof.
  intros b x n leaf e Hc Ha Hn.
  assert (D : forall u a, In a (operands u) -> forall v, part_of v a -> part_of v u) by (intros; eapply part_down; eauto).
  assert (O : forall a, (forall s, get x (out_name (build a)) = Some s -> s = map (row_val n leaf a) (seq 0 n)) ->
     call b x (build a) = Ok (map (row_val n leaf a) (seq 0 n)) ->
     (match get x (out_name (build a)) with Some s => Ok s | None => call b x (build a) end) = Ok (map (row_val n leaf a) (seq 0 n))).
  { intros a H1 H2. destruct (get x (out_name (build a))) as [s|]; [f_equal; now apply H1|exact H2]. }
  induction e;
    try (assert (IH1 : call b x (build e1) = Ok (map (row_val n leaf e1) (seq 0 n)))
           by (apply IHe1; [intros c Hp; apply Hc; apply (D _ e1); cbn; auto|intros a0 suf0 g0 s0 Hp; apply (Ha a0 suf0 g0 s0); apply (D _ e1); cbn; auto|intros u s Hp; apply Hn; apply (D _ e1); cbn; auto]);
         assert (IH2 : call b x (build e2) = Ok (map (row_val n leaf e2) (seq 0 n)))
           by (apply IHe2; [intros c Hp; apply Hc; apply (D _ e2); cbn; auto|intros a0 suf0 g0 s0 Hp; apply (Ha a0 suf0 g0 s0); apply (D _ e2); cbn; auto|intros u s Hp; apply Hn; apply (D _ e2); cbn; auto]);
         apply O in IH1; [|intros s; apply Hn; apply (D _ e1); [cbn; auto|constructor]];
         apply O in IH2; [|intros s; apply Hn; apply (D _ e2); [cbn; auto|constructor]]);
    try (assert (IH1 : call b x (build e) = Ok (map (row_val n leaf e) (seq 0 n)))
           by (apply IHe; [intros c0 Hp; apply Hc; apply (D _ e); cbn; auto|intros a0 suf0 g0 s0 Hp; apply (Ha a0 suf0 g0 s0); apply (D _ e); cbn; auto|intros u s Hp; apply Hn; apply (D _ e); cbn; auto]);
         apply O in IH1; [|intros s; apply Hn; apply (D _ e); [cbn; auto|constructor]]);
    match goal with |- call b x (build ?E) = _ => pose proof (fun s => Hn E s (part_self E)) as HE end.
  1: { apply Hc. constructor. }
  all: cbn [build] in HE |- *; cbn [call] in *; 
    match type of HE with forall s, get _ ?nm = Some s -> _ => destruct (get x nm) as [s|]; [f_equal; now apply HE|] end;
    rewrite IH1; try rewrite IH2; f_equal; cbn [row_val].
  all: try apply zipw_map.
  all: try apply map_map.
  apply nth_all. apply (Ha e suffix g); [constructor|]. now rewrite map_length, seq_length.
Qed.
(** Missing operands give a missing result, for every operator. *)
Fixpoint arith (e : fexpr) : bool :=
  match e with
  | FCore _ => true
  | FAdd a b | FSub a b | FMul a b | FDiv a b | FMin a b | FMax a b => arith a && arith b
  | FAddC a _ | FSubC a _ | FMulC a _ | FDivC a _ | FRSub _ a | FRDiv _ a | FMinC a _ | FMaxC a _ | FAbs a => arith a
  | FApply _ _ _ => false
  end%bool.
Lemma nan_add a b : a = NaN \/ b = NaN -> eadd a b = NaN.
Proof. intros [->| ->]; [reflexivity|]. destruct a; reflexivity. Qed.
Lemma nan_sub a b : a = NaN \/ b = NaN -> esub a b = NaN.
Proof. intros [->| ->]; apply nan_add; auto. Qed.
Lemma nan_mul a b : a = NaN \/ b = NaN -> emul a b = NaN.
Proof. intros [->| ->]; [reflexivity|]. destruct a; reflexivity. Qed.
Lemma nan_div a b : a = NaN \/ b = NaN -> edivide a b = NaN.
Proof. intros [->| ->]; [reflexivity|]. destruct a; reflexivity. Qed.
Lemma nan_min a b : a = NaN \/ b = NaN -> emin a b = NaN.
Proof. intros [->| ->]; [reflexivity|]. destruct a; reflexivity. Qed.
Lemma nan_max a b : a = NaN \/ b = NaN -> emax2 a b = NaN.
Proof. intros [->| ->]; [reflexivity|]. destruct a; reflexivity. Qed.
Theorem C64_nan : forall n leaf e c i, arith e = true -> part_of (FCore c) e -> leaf c i = NaN -> row_val n leaf e i = NaN.
Proof.
  intros n leaf e c i. revert e.
  assert (G : forall e, arith e = true -> part_of (FCore c) e -> leaf c i = NaN -> row_val n leaf e i = NaN).
  { induction e; intros A P L; inversion P as [? E|u a e' I Q E1 E2]; subst; try (exact L); try (destruct I; fail);
      cbn in A; try discriminate; rewrite ?Bool.andb_true_r in A; try (apply andb_prop in A; destruct A as [A1 A2]);
      cbn [operands In] in I; cbn [row_val].
    all: try (apply nan_add; destruct I as [<-|[<-|[]]]; auto; fail).
    all: try (apply nan_sub; destruct I as [<-|[<-|[]]]; auto; fail).
    all: try (apply nan_mul; destruct I as [<-|[<-|[]]]; auto; fail).
    all: try (apply nan_div; destruct I as [<-|[<-|[]]]; auto; fail).
    all: try (apply nan_min; destruct I as [<-|[<-|[]]]; auto; fail).
    all: try (apply nan_max; destruct I as [<-|[<-|[]]]; auto; fail).
    all: destruct I as [<-|[]]; try rewrite (IHe A Q L).
    all: try (apply nan_add; auto; fail). all: try (apply nan_sub; auto; fail). all: try (apply nan_mul; auto; fail).
    all: try (apply nan_div; auto; fail). all: try (apply nan_min; auto; fail). all: try (apply nan_max; auto; fail).
    reflexivity. }
  exact G.
Qed.
(** On finite values the operators are rational arithmetic. *)
Definition fin_is (a : ext) (q : Q) : Prop := exists v, a = Fin v /\ v == q.
Lemma fin_min x y : fin_is (emin (Fin x) (Fin y)) (Qmin x y).
Proof. cbn. destruct (Qltb_spec y x) as [L|L]; (eexists; split; [reflexivity|]); destruct (Q.min_spec x y) as [[M1 M2]|[M1 M2]]; rewrite M2; lra. Qed.
Lemma fin_max x y : fin_is (emax2 (Fin x) (Fin y)) (Qmax x y).
Proof. cbn. destruct (Qltb_spec x y) as [L|L]; (eexists; split; [reflexivity|]); destruct (Q.max_spec x y) as [[M1 M2]|[M1 M2]]; rewrite M2; lra. Qed.
Lemma fin_div x y q : qdivide x y = Some q -> fin_is (edivide (Fin x) (Fin y)) q.
Proof.
  unfold qdivide. destruct (Qeq_bool y 0) eqn:E; [discriminate|]. intro H. injection H as <-. cbn. unfold ediv.
  apply Qeq_bool_neq in E. destruct (Qeqb_spec y 0); [contradiction|]. eexists. split; reflexivity.
Qed.
Lemma lift2_some g a b q : lift2 g a b = Some q -> exists x y, a = Some x /\ b = Some y /\ g x y = Some q.
Proof. destruct a, b; try discriminate. cbn. eauto. Qed.
Lemma kq_fin c q : kq c = Some q -> k_val c = Fin q.
Proof. unfold kq. destruct (k_val c); try discriminate. congruence. Qed.
Lemma qdivide_compat x y x' y' q : x' == x -> y' == y -> qdivide x y = Some q -> exists q', qdivide x' y' = Some q' /\ q' == q.
Proof.
  unfold qdivide. intros Ex Ey. destruct (Qeq_bool y 0) eqn:E; [discriminate|]. intro H. injection H as <-. apply Qeq_bool_neq in E.
  destruct (Qeq_bool y' 0) eqn:E'; [apply Qeq_bool_eq in E'; rewrite Ey in E'; contradiction|]. eexists. split; [reflexivity|]. now rewrite Ex, Ey.
Qed.
Theorem C64_rational : forall n leaf lq e i q,
  (forall c, part_of (FCore c) e -> fin_is (leaf c i) (lq c)) -> q_val lq e = Some q -> fin_is (row_val n leaf e i) q.
Proof.
  intros n leaf lq e i.
  assert (D : forall u a, In a (operands u) -> forall v, part_of v a -> part_of v u) by (intros; eapply part_down; eauto).
  assert (A : forall a b x y (f : ext -> ext -> ext) g q, fin_is a x -> fin_is b y -> (forall u v, f (Fin u) (Fin v) = Fin (g u v)) ->
     (forall u v u' v', u' == u -> v' == v -> g u' v' == g u v) -> some2 g x y = Some q -> fin_is (f a b) q).
  { intros a b x y f g q [u [-> Eu]] [v [-> Ev]] Hf Hg H. injection H as <-. rewrite Hf. eexists. split; [reflexivity|]. now apply Hg. }
  assert (M : forall a b x y f g q, fin_is a x -> fin_is b y -> (forall u v, fin_is (f (Fin u) (Fin v)) (g u v)) ->
     (forall u v u' v', u' == u -> v' == v -> g u' v' == g u v) -> some2 g x y = Some q -> fin_is (f a b) q).
  { intros a b x y f g q [u [-> Eu]] [v [-> Ev]] Hf Hg H. injection H as <-. destruct (Hf u v) as [w [-> Ew]].
    eexists. split; [reflexivity|]. rewrite Ew. now apply Hg. }
  assert (V : forall a b x y q, fin_is a x -> fin_is b y -> qdivide x y = Some q -> fin_is (edivide a b) q).
  { intros a b x y q [u [-> Eu]] [v [-> Ev]] H. destruct (qdivide_compat x y u v q Eu Ev H) as [q' [H' E']].
    destruct (fin_div u v q' H') as [w [-> Ew]]. eexists. split; [reflexivity|]. now rewrite Ew. }
  assert (F : forall q, fin_is (Fin q) q) by (intro q; exists q; split; reflexivity).
  assert (Cp : forall u v u' v', u' == u -> v' == v -> u' + v' == u + v) by (intros; now rewrite H, H0).
  assert (Cm : forall u v u' v', u' == u -> v' == v -> u' - v' == u - v) by (intros; now rewrite H, H0).
  assert (Ct : forall u v u' v', u' == u -> v' == v -> u' * v' == u * v) by (intros; now rewrite H, H0).
  assert (Ci : forall u v u' v', u' == u -> v' == v -> Qmin u' v' == Qmin u v) by (intros; now rewrite H, H0).
  assert (Ca : forall u v u' v', u' == u -> v' == v -> Qmax u' v' == Qmax u v) by (intros; now rewrite H, H0).
  induction e; intros q Hl Hq; cbn [q_val] in Hq; cbn [row_val].
  all: try (apply lift2_some in Hq; destruct Hq as [x [y [H1 [H2 Hq]]]]; try apply kq_fin in H1; try apply kq_fin in H2; try rewrite H1; try rewrite H2).
  all: try (assert (I1 : fin_is (row_val n leaf e1 i) x) by (apply IHe1; [intros c Hp; apply Hl; apply (D _ e1); cbn; auto|auto]);
            assert (I2 : fin_is (row_val n leaf e2 i) y) by (apply IHe2; [intros c Hp; apply Hl; apply (D _ e2); cbn; auto|auto])).
  all: try (assert (I1 : fin_is (row_val n leaf e i) x) by (apply IHe; [intros c0 Hp; apply Hl; apply (D _ e); cbn; auto|auto])).
  all: try (assert (I1 : fin_is (row_val n leaf e i) y) by (apply IHe; [intros c0 Hp; apply Hl; apply (D _ e); cbn; auto|auto])).
  1: { injection Hq as <-. apply Hl. constructor. }
  all: try (apply (A _ _ x y eadd Qplus); [exact I1 || apply F|exact I2 || exact I1 || apply F|reflexivity|assumption|exact Hq]).
  all: try (apply (A _ _ x y esub Qminus); [exact I1 || apply F|exact I2 || exact I1 || apply F|reflexivity|assumption|exact Hq]).
  all: try (apply (A _ _ x y emul Qmult); [exact I1 || apply F|exact I2 || exact I1 || apply F|reflexivity|assumption|exact Hq]).
  all: try (eapply V; eauto; fail).
  all: try (apply (M _ _ x y emin Qmin); [exact I1 || apply F|exact I2 || exact I1 || apply F|intros; apply fin_min|assumption|exact Hq]).
  all: try (apply (M _ _ x y emax2 Qmax); [exact I1 || apply F|exact I2 || exact I1 || apply F|intros; apply fin_max|assumption|exact Hq]).
  - destruct (q_val lq e) as [v|] eqn:E; [|discriminate]. injection Hq as <-.
    destruct (IHe v) as [w [Ew Hw]]; [intros c Hp; apply Hl; apply (D _ e); cbn; auto|auto|].
    rewrite Ew. cbn. eexists. split; [reflexivity|]. now rewrite Hw.
  - discriminate.
Qed.
(** A column of the frame that happens to bear the name of an operator feature replaces the
    computation. *)
Theorem C64_shadow : forall b x e s, (forall c, e <> FCore c) -> get x (out_name (build e)) = Some s -> call b x (build e) = Ok s.
Proof.
  intros b x e s He Hg. destruct e; [now destruct (He c)|..]; cbn [build] in *; cbn [call]; now rewrite Hg.
Qed.
(** Leaves used by the examples: a column itself, and a column doubled. *)
Definition col1 (n : string) : core := mkCore false [n] n (fun _ l => Ok (hd [] l)).
Definition dbl (n : string) : core := mkCore true [n] "x2" (fun _ l => Ok (map (fun v => emul v (Fin 2)) (hd [] l))).
Example C64_example :
  let x := [("a"%string, [Fin 1; NaN; Fin 3]); ("b"%string, [Fin 4; Fin 5; Fin 0])] in
  let e := FMaxC (FDiv (FAdd (FCore (col1 "a")) (FCore (dbl "b"))) (FCore (col1 "b"))) (mkConst (Fin (5 # 2)) "2.5") in
  out_name (build e) = "max(div(add(a,b_x2),b),2.5)"%string /\
  call NB x (build e) = Ok [Fin (5 # 2); NaN; PInf] /\
  q_val (fun c => if String.eqb (c_prod c) "a" then 1 else if String.eqb (c_prod c) "b" then 4 else 8) e = Some (5 # 2).
Proof. vm_compute. auto. Qed.
(** The same expression on a frame that happens to hold a column named add(a,b_x2). *)
Example C64_shadow_example :
  let x := [("a"%string, [Fin 1]); ("b"%string, [Fin 4]); ("add(a,b_x2)"%string, [Fin 0])] in
  call NB x (build (FAdd (FCore (col1 "a")) (FCore (dbl "b")))) = Ok [Fin 0].
Proof. reflexivity. Qed.

(* ------------------------------------------------------------------ *)
(** ** C65: feature kit *)
Lemma get_put x n s m : get (put x n s) m = if String.eqb n m then Some s else get x m.
Proof.
  induction x as [|[k v] x IH]; cbn.
  - destruct (String.eqb n m); reflexivity.
  - destruct (String.eqb_spec k n) as [->|N]; cbn.
    + destruct (String.eqb n m); reflexivity.
    + rewrite IH. destruct (String.eqb_spec k m) as [->|N2]; [|reflexivity].
      destruct (String.eqb_spec n m) as [->|]; [contradiction|reflexivity].
Qed.
Lemma nodes_self t : In t (nodes t).
Proof. destruct t; cbn; auto. Qed.
Lemma nodes_trans t u v : In u (nodes t) -> In v (nodes u) -> In v (nodes t).
Proof.
  revert u v. induction t; intros u v Hu Hv; cbn [nodes] in Hu; destruct Hu as [<-|Hu]; auto; try (destruct Hu; fail).
  - apply in_app_or in Hu. cbn [nodes]. right. apply in_or_app. destruct Hu; eauto.
  - apply in_app_or in Hu. cbn [nodes]. right. apply in_or_app. destruct Hu; eauto.
  - cbn [nodes]. right. eauto.
  - cbn [nodes]. right. eauto.
Qed.
Lemma collect_get x req cols : collect (map (fun n => match get x n with Some s => Ok s | None => Raise ValueError end) req) = Ok cols ->
  forall n, In n req -> get x n <> None.
Proof.
  revert cols. induction req as [|r req IH]; intros cols H n Hn; [destruct Hn|].
  cbn [map collect] in H. destruct (get x r) as [s|] eqn:E; [|discriminate]. destruct (collect _) as [l|]; [|discriminate].
  destruct Hn as [<-|Hn]; [congruence|]. eapply IH; eauto.
Qed.
Definition extends (x0 x : frame) : Prop := forall n s, get x0 n = Some s -> get x n = Some s.
Lemma core_call_ext b x0 x c s : extends x0 x -> core_call b x0 c = Ok s -> core_call b x c = Ok s.
Proof.
  intros He H. unfold core_call in *. destruct (collect (map (fun n => match get x0 n with Some s => Ok s | None => Raise ValueError end) (c_req c))) as [cols|] eqn:E; [|discriminate].
  assert (E2 : map (fun n => match get x n with Some s => Ok s | None => Raise ValueError end) (c_req c) =
               map (fun n => match get x0 n with Some s => Ok s | None => Raise ValueError end) (c_req c)).
  { apply map_ext_in. intros n Hn. pose proof (collect_get x0 _ _ E n Hn) as K. destruct (get x0 n) as [v|] eqn:G; [|congruence]. now rewrite (He n v G). }
  rewrite E2, E. exact H.
Qed.
Section Kit.
  Variable b : backend.
  Variable x0 : frame.
  Variable N : trans -> Prop.                     (* the transforms of the kit and their parts *)
  Variable names : list string.                   (* output names of the features *)
  Hypothesis Nsub : forall t u, N t -> In u (nodes t) -> N u.
  Hypothesis same : forall t u s, N t -> N u -> out_name t = out_name u -> den b x0 t = Ok s -> den b x0 u = Ok s.
  Hypothesis raw : forall t s, N t -> get x0 (out_name t) = Some s -> den b x0 t = Ok s.
  Hypothesis clear : forall t n, N t -> In n (compose_names t) -> In n names -> get x0 n <> None.
  (** A frame reached while building: raw columns plus correct feature columns. *)
  Definition reached (x : frame) : Prop :=
    extends x0 x /\ forall n s, get x n = Some s -> get x0 n = Some s \/ (In n names /\ exists t, N t /\ out_name t = n /\ den b x0 t = Ok s).
  Lemma reached_name x t s s' : reached x -> N t -> den b x0 t = Ok s -> get x (out_name t) = Some s' -> s' = s.
  Proof.
    intros [_ H] Nt D G. destruct (H _ _ G) as [K|[_ [u [Nu [Eu Du]]]]].
    - pose proof (raw t s' Nt K). congruence.
    - pose proof (same u t s' Nu Nt Eu Du). congruence.
  Qed.
  Lemma reached_clear x t n : reached x -> N t -> In n (compose_names t) -> get x n = get x0 n.
  Proof.
    intros [He H] Nt Hn. destruct (get x n) as [s|] eqn:E.
    - destruct (H _ _ E) as [K|[K _]]; [now rewrite K|]. pose proof (clear t n Nt Hn K) as C. destruct (get x0 n) as [s0|] eqn:E0; [|congruence].
      rewrite (He _ _ E0) in E. congruence.
    - destruct (get x0 n) as [s0|] eqn:E0; [|reflexivity]. rewrite (He _ _ E0) in E. discriminate.
  Qed.
  Lemma compose_loop_ext x rest : (forall c, In c rest -> get x (c_prod c) = get x0 (c_prod c) /\ get x (hd EmptyString (c_req c)) = get x0 (hd EmptyString (c_req c))) ->
    forall cur, compose_loop b x cur rest = compose_loop b x0 cur rest.
  Proof.
    induction rest as [|c rest IH]; intros H cur; [reflexivity|]. cbn [compose_loop]. unfold compose_step.
    destruct (H c (or_introl eq_refl)) as [-> ->]. destruct (get x0 (c_prod c)) as [s|]; [apply IH; intros; apply H; now right|].
    destruct (get x0 (hd EmptyString (c_req c))); (destruct (core_call _ _ c); [apply IH; intros; apply H; now right|reflexivity]).
  Qed.
  Lemma call_reached x t s : reached x -> N t -> den b x0 t = Ok s -> call b x t = Ok s.
  Proof.
    intro R. revert s. induction t as [c|l IHl r IHr op g|l IHl r IHr op g|u IHu k op g|u IHu op g rn|f rest]; intros s Nt D.
    - cbn in *. destruct R as [He _]. eapply core_call_ext; eauto.
    - cbn [call]. destruct (get x (out_name (Binary l r op g))) as [s'|] eqn:G; [f_equal; eapply reached_name; eauto|].
      cbn [den] in D. destruct (den b x0 l) as [a|] eqn:Dl; [|discriminate]. destruct (den b x0 r) as [v|] eqn:Dr; [|discriminate].
      assert (Nl : N l) by (eapply Nsub; [exact Nt|]; cbn; right; apply in_or_app; left; apply nodes_self).
      assert (Nr : N r) by (eapply Nsub; [exact Nt|]; cbn; right; apply in_or_app; right; apply nodes_self).
      assert (Ol : match get x (out_name l) with Some s => Ok s | None => call b x l end = Ok a).
      { destruct (get x (out_name l)) as [s'|] eqn:Gl; [now rewrite (reached_name x l a s' R Nl Dl Gl)|exact (IHl a Nl eq_refl)]. }
      assert (Or : match get x (out_name r) with Some s => Ok s | None => call b x r end = Ok v).
      { destruct (get x (out_name r)) as [s'|] eqn:Gr; [now rewrite (reached_name x r v s' R Nr Dr Gr)|exact (IHr v Nr eq_refl)]. }
      rewrite Ol, Or. exact D.
    - cbn [call]. destruct (get x (out_name (MinMax l r op g))) as [s'|] eqn:G; [f_equal; eapply reached_name; eauto|].
      cbn [den] in D. destruct (den b x0 l) as [a|] eqn:Dl; [|discriminate]. destruct (den b x0 r) as [v|] eqn:Dr; [|discriminate].
      assert (Nl : N l) by (eapply Nsub; [exact Nt|]; cbn; right; apply in_or_app; left; apply nodes_self).
      assert (Nr : N r) by (eapply Nsub; [exact Nt|]; cbn; right; apply in_or_app; right; apply nodes_self).
      assert (Ol : match get x (out_name l) with Some s => Ok s | None => call b x l end = Ok a).
      { destruct (get x (out_name l)) as [s'|] eqn:Gl; [now rewrite (reached_name x l a s' R Nl Dl Gl)|exact (IHl a Nl eq_refl)]. }
      assert (Or : match get x (out_name r) with Some s => Ok s | None => call b x r end = Ok v).
      { destruct (get x (out_name r)) as [s'|] eqn:Gr; [now rewrite (reached_name x r v s' R Nr Dr Gr)|exact (IHr v Nr eq_refl)]. }
      rewrite Ol, Or. exact D.
    - cbn [call]. destruct (get x (out_name (Const u k op g))) as [s'|] eqn:G; [f_equal; eapply reached_name; eauto|].
      cbn [den] in D. destruct (den b x0 u) as [a|] eqn:Du; [|discriminate].
      assert (Nu : N u) by (eapply Nsub; [exact Nt|]; cbn; right; apply nodes_self).
      assert (Ou : match get x (out_name u) with Some s => Ok s | None => call b x u end = Ok a).
      { destruct (get x (out_name u)) as [s'|] eqn:Gl; [now rewrite (reached_name x u a s' R Nu Du Gl)|exact (IHu a Nu eq_refl)]. }
      rewrite Ou. exact D.
    - cbn [call]. destruct (get x (out_name (Unary u op g rn))) as [s'|] eqn:G; [f_equal; eapply reached_name; eauto|].
      cbn [den] in D. destruct (den b x0 u) as [a|] eqn:Du; [|discriminate].
      assert (Nu : N u) by (eapply Nsub; [exact Nt|]; cbn; right; apply nodes_self).
      assert (Ou : match get x (out_name u) with Some s => Ok s | None => call b x u end = Ok a).
      { destruct (get x (out_name u)) as [s'|] eqn:Gl; [now rewrite (reached_name x u a s' R Nu Du Gl)|exact (IHu a Nu eq_refl)]. }
      rewrite Ou. exact D.
    - pose proof D as D0. cbn [call]. cbn [den] in D. unfold compose_call in *. destruct (get x0 (hd EmptyString (c_req f))) as [v|] eqn:E0; [|discriminate].
      rewrite (proj1 R _ _ E0). destruct (get x (out_name (Compose f rest))) as [s'|] eqn:G.
      + f_equal. eapply reached_name; eauto.
      + destruct (get x0 (out_name (Compose f rest))) as [s0|] eqn:G0; [rewrite (proj1 R _ _ G0) in G; discriminate|].
        unfold compose_step in *. rewrite (reached_clear x (Compose f rest) (c_prod f) R Nt) by (cbn; auto).
        assert (Hl : forall cur, compose_loop b x cur rest = compose_loop b x0 cur rest).
        { apply compose_loop_ext. intros c Hc. split; apply (reached_clear x (Compose f rest)); auto; cbn [compose_names In]; right; apply in_flat_map; exists c; cbn; auto. }
        destruct (get x0 (c_prod f)) as [s1|]; [now rewrite Hl|].
        destruct (core_call b x0 f) as [s1|] eqn:C; [|discriminate]. rewrite (core_call_ext b x0 x f s1 (proj1 R) C). now rewrite Hl.
  Qed.
  Lemma feat_call_reached x f s : reached x -> N (f_t f) -> den b x0 (f_t f) = Ok s -> feat_call b x f = Ok s.
  Proof.
    intros R Nt D. unfold feat_call. destruct (get x (out_name (f_t f))) as [s'|] eqn:G; [f_equal; eapply reached_name; eauto|eapply call_reached; eauto].
  Qed.
  Lemma reached_put x f s : reached x -> N (f_t f) -> In (out_name (f_t f)) names -> den b x0 (f_t f) = Ok s -> reached (put x (out_name (f_t f)) s).
  Proof.
    intros R Nt I D. split.
    - intros n v G. rewrite get_put. destruct (String.eqb_spec (out_name (f_t f)) n) as [E|]; [|apply R; auto].
      subst n. pose proof (raw _ _ Nt G). congruence.
    - intros n v G. rewrite get_put in G. destruct (String.eqb_spec (out_name (f_t f)) n) as [E|].
      + injection G as <-. right. rewrite <- E. split; [auto|]. eauto.
      + apply R. exact G.
  Qed.
  Lemma build_loop_ok fs : (forall f, In f fs -> N (f_t f) /\ In (out_name (f_t f)) names /\ exists s, den b x0 (f_t f) = Ok s) ->
    forall out x, reached x -> exists r, build_loop b out x fs = Ok r /\
      (forall n, ~ In n (map f_name fs) -> get r n = get out n) /\
      (NoDup (map f_name fs) -> forall f s, In f fs -> den b x0 (f_t f) = Ok s -> get r (f_name f) = Some s).
  Proof.
    induction fs as [|f fs IH]; intros H out x R.
    - exists out. cbn. repeat split; auto. intros _ f s [].
    - destruct (H f (or_introl eq_refl)) as [Nt [I [s D]]]. cbn [build_loop]. rewrite (feat_call_reached x f s R Nt D).
      destruct (IH (fun g Hg => H g (or_intror Hg)) (put out (f_name f) s) (put x (out_name (f_t f)) s) (reached_put x f s R Nt I D)) as [r [E [H1 H2]]].
      exists r. split; [exact E|]. split.
      + intros n Hn. cbn in Hn. rewrite H1 by tauto. rewrite get_put. destruct (String.eqb_spec (f_name f) n); [tauto|reflexivity].
      + intros ND g v Hg Dg. cbn [map] in ND. inversion ND as [|? ? N1 N2]; subst. destruct Hg as [<-|Hg]; [|apply H2; auto].
        rewrite H1 by auto. rewrite get_put, String.eqb_refl. congruence.
  Qed.
End Kit.
Lemma retained_get df ns r : retained df ns = Ok r -> forall n, In n ns -> get r n = get df n.
Proof.
  revert r. induction ns as [|m ns IH]; intros r H n Hn; [destruct Hn|]. cbn [retained] in H.
  destruct (get df m) as [s|] eqn:E; [|discriminate]. destruct (retained df ns) as [r'|]; [|discriminate]. injection H as <-. cbn [get].
  destruct (String.eqb_spec m n) as [->|N]; [congruence|]. apply IH; auto. destruct Hn; [contradiction|auto].
Qed.
Lemma retained_ok df ns : (forall n, In n ns -> get df n <> None) -> exists r, retained df ns = Ok r.
Proof.
  induction ns as [|m ns IH]; intro H; [eexists; reflexivity|]. cbn [retained]. destruct (get df m) as [s|] eqn:E; [|exfalso; apply (H m); auto; now left].
  destruct IH as [r ->]; [intros; apply H; now right|]. eexists. reflexivity.
Qed.
(** Each feature gets the value it has alone on the raw frame, if output names determine
    the computation: transforms (of the kit) with equal names have equal values, raw
    columns named like a transform hold its values, and pipelines look up no column that is
    added by the kit. *)
Theorem C65_independent_partial : forall b retain df fs,
  let part t := exists f, In f fs /\ In t (nodes (f_t f)) in
  (forall t u s, part t -> part u -> out_name t = out_name u -> den b df t = Ok s -> den b df u = Ok s) ->
  (forall t s, part t -> get df (out_name t) = Some s -> den b df t = Ok s) ->
  (forall t n f, part t -> In n (compose_names t) -> In f fs -> n = out_name (f_t f) -> get df n <> None) ->
  (forall f, In f fs -> exists s, den b df (f_t f) = Ok s) ->
  (forall n, In n retain -> get df n <> None) -> NoDup (map f_name fs) ->
  exists r, kit_build b retain df fs = Ok r /\
    (forall f, In f fs -> exists s, den b df (f_t f) = Ok s /\ get r (f_name f) = Some s /\
       kit_build b [] df [f] = Ok [(f_name f, s)]) /\
    (forall n, In n retain -> ~ In n (map f_name fs) -> get r n = get df n).
Proof.
  intros b retain df fs part Hs Hr Hc Ht Hret ND. unfold kit_build. destruct (retained_ok df retain Hret) as [out Eo]. rewrite Eo.
  assert (Ns : forall t u, part t -> In u (nodes t) -> part u).
  { intros t u [f [Hf Hft]] Hu. exists f. split; [auto|]. eapply nodes_trans; eauto. }
  set (names := map (fun f => out_name (f_t f)) fs).
  assert (Cl : forall t n, part t -> In n (compose_names t) -> In n names -> get df n <> None).
  { intros t n Pt Hn Hnm. apply in_map_iff in Hnm. destruct Hnm as [f [E Hf]]. eapply Hc; eauto. }
  assert (R0 : reached b df part names df) by (split; [intros n s; auto|intros n s; auto]).
  assert (Hf : forall f, In f fs -> part (f_t f) /\ In (out_name (f_t f)) names /\ exists s, den b df (f_t f) = Ok s).
  { intros f Hf. split; [exists f; split; [auto|apply nodes_self]|]. split; [unfold names; apply in_map_iff; eauto|auto]. }
  destruct (build_loop_ok b df part names Ns Hs Hr Cl fs Hf out df R0) as [r [E [H1 H2]]].
  exists r. split; [exact E|]. split.
  - intros f If. destruct (Hf f If) as [Pf [_ [s D]]]. exists s. split; [auto|]. split; [apply H2; auto|].
    cbn [retained build_loop]. rewrite (feat_call_reached b df part names Ns Hs Hr Cl df f s R0 Pf D). reflexivity.
  - intros n Hn Hnf. rewrite H1 by auto. eapply retained_get; eauto.
Qed.
(** So the order of the features does not matter. *)
Theorem C65_order : forall b retain df fs fs' r r',
  let part t := exists f, In f fs /\ In t (nodes (f_t f)) in
  (forall t u s, part t -> part u -> out_name t = out_name u -> den b df t = Ok s -> den b df u = Ok s) ->
  (forall t s, part t -> get df (out_name t) = Some s -> den b df t = Ok s) ->
  (forall t n f, part t -> In n (compose_names t) -> In f fs -> n = out_name (f_t f) -> get df n <> None) ->
  (forall f, In f fs -> exists s, den b df (f_t f) = Ok s) ->
  (forall n, In n retain -> get df n <> None) -> NoDup (map f_name fs) -> Permutation fs fs' ->
  kit_build b retain df fs = Ok r -> kit_build b retain df fs' = Ok r' ->
  forall n, In n (map f_name fs) \/ In n retain -> get r n = get r' n.
Proof.
  intros b retain df fs fs' r r' part Hs Hr Hc Ht Hret ND P E E' n Hn.
  assert (P' : forall f, In f fs' <-> In f fs). { intro f. split; apply Permutation_in; [now apply Permutation_sym|auto]. }
  destruct (C65_independent_partial b retain df fs Hs Hr Hc Ht Hret ND) as [q [Eq [H1 H2]]].
  destruct (C65_independent_partial b retain df fs') as [q' [Eq' [H1' H2']]]; auto.
  - intros t u s [f [If Hf]] [g [Ig Hg]]. apply Hs; [exists f|exists g]; split; auto; now apply P'.
  - intros t s [f [If Hf]]. apply Hr. exists f; split; auto; now apply P'.
  - intros t m f [g [Ig Hg]] Hm If. apply Hc with (t := t); auto; [exists g; split; auto|]; now apply P'.
  - intros f If. apply Ht. now apply P'.
  - eapply Permutation_NoDup; [|exact ND]. now apply Permutation_map.
  - rewrite E in Eq. rewrite E' in Eq'. injection Eq as <-. injection Eq' as <-.
    destruct (in_dec string_dec n (map f_name fs)) as [I|I].
    + apply in_map_iff in I. destruct I as [f [<- If]]. destruct (H1 f If) as [s [D [G _]]]. destruct (H1' f (proj2 (P' f) If)) as [s' [D' [G' _]]]. congruence.
    + destruct Hn as [Hn|Hn]; [contradiction|]. rewrite H2 by auto. rewrite H2'; auto. intro K. apply I. eapply Permutation_in; [|exact K]. apply Permutation_map. now apply Permutation_sym.
Qed.
(** Simple and log return of the same lag have the same output name (transforms.py L131):
    the second feature silently receives the values of the first one. *)
Definition ret_core (f : ext -> ext) : core := mkCore true ["close"%string] "ret1" (fun _ l => Ok (map f (hd [] l))).
Theorem C65_collision_refuted : exists b df f1 f2 s s2, f_name f1 <> f_name f2 /\
  kit_build b [] df [f2] = Ok [(f_name f2, s2)] /\ s2 <> s /\
  exists r, kit_build b [] df [f1; f2] = Ok r /\ get r (f_name f1) = Some s /\ get r (f_name f2) = Some s.
Proof.
  exists NB, [("close"%string, [Fin 1; Fin 3])], (mkFeat "simple" (Leaf (ret_core (fun v => esub v (Fin 1))))), (mkFeat "log" (Leaf (ret_core (fun v => emul v (Fin 5))))),
    [Fin 0; Fin 2], [Fin 5; Fin 15].
  split; [discriminate|]. split; [reflexivity|]. split; [discriminate|]. eexists. split; [reflexivity|]. split; reflexivity.
Qed.
Example C65_example :
  let x := [("a"%string, [Fin 1; Fin 2]); ("b"%string, [Fin 4; Fin 5])] in
  let s := FAdd (FCore (dbl "a")) (FCore (dbl "b")) in
  let fs := [mkFeat "sum" (build s); mkFeat "a2" (Leaf (dbl "a")); mkFeat "ratio" (build (FDiv s (FCore (dbl "a"))))] in
  kit_build NB ["b"%string] x fs = Ok [("b"%string, [Fin 4; Fin 5]); ("sum"%string, [Fin 10; Fin 14]); ("a2"%string, [Fin 2; Fin 4]); ("ratio"%string, [Fin (10 / 2); Fin (14 / 4)])].
Proof. vm_compute. reflexivity. Qed.

(* ------------------------------------------------------------------ *)
(** ** C67: composition *)
Theorem C67_compose_partial : forall b x f rest v s0,
  get x (hd EmptyString (c_req f)) = Some v -> get x (out_name (Compose f rest)) = None ->
  (forall n, In n (compose_names (Compose f rest)) -> get x n = None) ->
  (forall c, In c rest -> exists r, c_req c = [r]) ->
  core_call b x f = Ok s0 ->
  call b x (Compose f rest) = pipeline b s0 rest.
Proof.
  intros b x f rest v s0 Hv Hn Hc Hr Hf. cbn [call]. unfold compose_call. rewrite Hv, Hn. unfold compose_step. rewrite Hc by (cbn; auto). rewrite Hf.
  assert (Hc' : forall c, In c rest -> get x (c_prod c) = None /\ get x (hd EmptyString (c_req c)) = None).
  { intros c Ic. split; apply Hc; cbn [compose_names In]; right; apply in_flat_map; exists c; cbn; auto. }
  clear Hc Hn Hf Hv. revert s0. induction rest as [|c rest IH]; intro s0; [reflexivity|].
  cbn [compose_loop pipeline]. unfold compose_step. destruct (Hc' c (or_introl eq_refl)) as [-> ->].
  destruct (Hr c (or_introl eq_refl)) as [r Er]. unfold core_call. rewrite Er. cbn [hd map]. cbn [get]. rewrite String.eqb_refl. cbn [collect].
  destruct (c_fun c b [s0]); [|reflexivity]. apply IH; intros; [apply Hr|apply Hc']; now right.
Qed.
(** If the frame has the required column of the last step, the steps before it have no
    influence on the result (as long as they do not fail). *)
Theorem C67_earlier_steps_ignored : forall b x f mid c r v w s,
  get x (hd EmptyString (c_req f)) = Some v -> get x (out_name (Compose f (mid ++ [c]))) = None ->
  get x (c_prod c) = None -> c_req c = [r] -> get x r = Some w ->
  call b x (Compose f (mid ++ [c])) = Ok s -> c_fun c b [w] = Ok s.
Proof.
  intros b x f mid c r v w s Hv Hn Hp Hq Hw H. cbn [call] in H. unfold compose_call in H. rewrite Hv, Hn in H.
  destruct (compose_step b x None f) as [s0|]; [|discriminate]. clear Hn Hv. revert s0 H. induction mid as [|m mid IH]; intros s0 H.
  - cbn [app compose_loop] in H. unfold compose_step in H. rewrite Hp, Hq in H. cbn [hd] in H. rewrite Hw in H.
    unfold core_call in H. rewrite Hq in H. cbn [map get] in H. rewrite String.eqb_refl in H. cbn [collect] in H.
    destruct (c_fun c b [w]); [exact H|discriminate].
  - cbn [app compose_loop] in H. destruct (compose_step b x (Some s0) m) as [s1|]; [|discriminate]. eapply IH. exact H.
Qed.
(** Compose(Return(close), Lag(close)) on a frame with a close column: the composed values
    are the lagged closes. *)
Theorem C67_default_columns_refuted : exists b x f c s0 s, core_call b x f = Ok s0 /\ pipeline b s0 [c] = Ok s /\
  call b x (Compose f [c]) <> Ok s /\ call b x (Compose f [c]) = core_call b x c.
Proof.
  exists NB, [("close"%string, [Fin 1; Fin 3])], (ret_core (fun v => esub v (Fin 1))), (mkCore true ["close"%string] "lag1" (fun _ l => Ok (NaN :: firstn 1 (hd [] l)))),
    [Fin 0; Fin 2], [NaN; Fin 0].
  split; [reflexivity|]. split; [reflexivity|]. split; [discriminate|reflexivity].
Qed.
Example C67_example :
  let x := [("close"%string, [Fin 1; Fin 3])] in
  let lag := mkCore true ["ret"%string] "lag1" (fun _ l => Ok (NaN :: firstn 1 (hd [] l))) in
  out_name (Compose (ret_core (fun v => esub v (Fin 1))) [lag]) = "close_ret1_lag1"%string /\
  call NB x (Compose (ret_core (fun v => esub v (Fin 1))) [lag]) = Ok [NaN; Fin 0].
Proof. split; reflexivity. Qed.

Print Assumptions C64_pointwise.
Print Assumptions C64_nan.
Print Assumptions C64_rational.
Print Assumptions C64_shadow.
Print Assumptions C65_independent_partial.
Print Assumptions C65_order.
Print Assumptions C65_collision_refuted.
Print Assumptions C67_compose_partial.
Print Assumptions C67_earlier_steps_ignored.
Print Assumptions C67_default_columns_refuted.
