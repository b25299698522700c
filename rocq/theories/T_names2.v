(** T_names2.v -- C154: names of features built with operators. *)
From Coq Require Import String Ascii.
From Verif Require Import Base M_features M_transforms M_kit M_names S_kit S_names T_kit T_names.
Open Scope string_scope.

(* ------------------------------------------------------------------ *)
(** ** Names as trees *)
Inductive tr := TW (w : string) | T1 (op : string) (a : tr) | T2 (op : string) (a b : tr).
Fixpoint show (t : tr) : string :=
  match t with
  | TW w => w
  | T1 op a => op ++ "(" ++ show a ++ ")"
  | T2 op a b => op ++ "(" ++ show a ++ "," ++ show b ++ ")"
  end.
Fixpoint texts (t : tr) : list string :=
  match t with TW w => [w] | T1 op a => op :: texts a | T2 op a b => op :: texts a ++ texts b end.
Definition special (c : ascii) : Prop := c = "("%char \/ c = ")"%char \/ c = ","%char.
Definition closing (c : ascii) : Prop := c = ")"%char \/ c = ","%char.
Lemma simple_special s : simple_text s -> forall z, In z (chars s) -> ~ special z.
Proof. intros [A [B C]] z Hz [-> | [-> | ->]]; auto. Qed.
(** A name followed by a closing character can be read in one way only. *)
Lemma show_inj : forall t u x r y q, (forall s, In s (texts t) -> simple_text s) -> (forall s, In s (texts u) -> simple_text s) ->
  closing x -> closing y -> (chars (show t) ++ x :: r = chars (show u) ++ y :: q)%list -> t = u /\ x = y /\ r = q.
Proof.
  assert (CS : forall c, closing c -> special c) by (intros c [-> | ->]; unfold special; auto).
  assert (OS : special "("%char) by (now left).
  assert (OC : forall c, closing c -> c = "("%char -> False) by (intros c [-> | ->]; discriminate).
  assert (SS : forall s l, (forall v, In v l -> simple_text v) -> In s l -> forall z, In z (chars s) -> ~ special z) by (intros s l K I0; apply simple_special; auto).
  assert (C1 : closing ")"%char) by (now left). assert (C2 : closing ","%char) by (now right).
  induction t as [w|op a IHa|op a IHa b IHb]; intros [w'|op' a'|op' a' b'] x r y q Ht Hu Cx Cy E; cbn [show] in E; cbn [texts] in Ht, Hu;
    rewrite ?chars_app in E; cbn [chars app] in E; rewrite <- ?app_assoc in E; cbn [app] in E; rewrite ?chars_app in E; cbn [chars app] in E; rewrite <- ?app_assoc in E; cbn [app] in E.
  - apply split_first with (P := special) in E; auto; try (eapply SS; [exact Ht|now left]); try (eapply SS; [exact Hu|now left]).
    destruct E as [E [-> ->]]. apply chars_inj in E. subst. auto.
  - apply split_first with (P := special) in E; auto; try (eapply SS; [exact Ht|now left]); try (eapply SS; [exact Hu|now left]). destruct E as [_ [E _]]. exfalso. eauto.
  - apply split_first with (P := special) in E; auto; try (eapply SS; [exact Ht|now left]); try (eapply SS; [exact Hu|now left]). destruct E as [_ [E _]]. exfalso. eauto.
  - apply split_first with (P := special) in E; auto; try (eapply SS; [exact Ht|now left]); try (eapply SS; [exact Hu|now left]). destruct E as [_ [E _]]. exfalso. eauto.
  - apply split_first with (P := special) in E; auto; try (eapply SS; [exact Ht|now left]); try (eapply SS; [exact Hu|now left]). destruct E as [Eo [_ E]]. apply chars_inj in Eo. subst op'.
    rewrite ?chars_app in E; cbn [chars app] in E; rewrite <- ?app_assoc in E; cbn [app] in E.
    apply IHa in E; auto; [|intros; apply Ht; now right|intros; apply Hu; now right]. destruct E as [-> [_ E]]. injection E as -> ->. auto.
  - apply split_first with (P := special) in E; auto; try (eapply SS; [exact Ht|now left]); try (eapply SS; [exact Hu|now left]). destruct E as [Eo [_ E]].
    rewrite ?chars_app in E; cbn [chars app] in E; rewrite <- ?app_assoc in E; cbn [app] in E.
    apply IHa in E; auto; [|intros; apply Ht; now right|intros; apply Hu; right; apply in_or_app; now left]. destruct E as [_ [E _]]. discriminate.
  - apply split_first with (P := special) in E; auto; try (eapply SS; [exact Ht|now left]); try (eapply SS; [exact Hu|now left]). destruct E as [_ [E _]]. exfalso. eauto.
  - apply split_first with (P := special) in E; auto; try (eapply SS; [exact Ht|now left]); try (eapply SS; [exact Hu|now left]). destruct E as [Eo [_ E]].
    rewrite ?chars_app in E; cbn [chars app] in E; rewrite <- ?app_assoc in E; cbn [app] in E.
    apply IHa in E; auto; [|intros; apply Ht; right; apply in_or_app; now left|intros; apply Hu; now right]. destruct E as [_ [E _]]. discriminate.
  - apply split_first with (P := special) in E; auto; try (eapply SS; [exact Ht|now left]); try (eapply SS; [exact Hu|now left]). destruct E as [Eo [_ E]]. apply chars_inj in Eo. subst op'.
    rewrite ?chars_app in E; cbn [chars app] in E; rewrite <- ?app_assoc in E; cbn [app] in E.
    apply IHa in E; auto; [|intros; apply Ht; right; apply in_or_app; now left|intros; apply Hu; right; apply in_or_app; now left]. destruct E as [-> [_ E]].
    rewrite ?chars_app in E; cbn [chars app] in E; rewrite <- ?app_assoc in E; cbn [app] in E.
    apply IHb in E; auto; [|intros; apply Ht; right; apply in_or_app; now right|intros; apply Hu; right; apply in_or_app; now right].
    destruct E as [-> [_ E]]. injection E as -> ->. auto.
Qed.
Fixpoint tree (e : fexpr) : tr :=
  match e with
  | FCore c => TW (c_out c)
  | FAdd a b => T2 "add" (tree a) (tree b) | FSub a b => T2 "sub" (tree a) (tree b)
  | FMul a b => T2 "mul" (tree a) (tree b) | FDiv a b => T2 "div" (tree a) (tree b)
  | FMin a b => T2 "min" (tree a) (tree b) | FMax a b => T2 "max" (tree a) (tree b)
  | FAddC a k => T2 "add" (tree a) (TW (k_str k)) | FSubC a k => T2 "sub" (tree a) (TW (k_str k))
  | FMulC a k => T2 "mul" (tree a) (TW (k_str k)) | FDivC a k => T2 "div" (tree a) (TW (k_str k))
  | FRSub k a => T2 "rsub" (tree a) (TW (k_str k)) | FRDiv k a => T2 "rdiv" (tree a) (TW (k_str k))
  | FMinC a k => T2 "min" (tree a) (TW (k_str k)) | FMaxC a k => T2 "max" (tree a) (TW (k_str k))
  | FAbs a => T1 "abs" (tree a)
  | FApply a s _ => TW ""
  end.
Lemma tree_show e : no_apply e = true -> out_name (build e) = show (tree e).
Proof.
  induction e; cbn [no_apply build out_name tree show]; intro H; try discriminate; try apply andb_prop in H as [H1 H2];
    rewrite ?IHe1, ?IHe2, ?IHe by assumption; reflexivity.
Qed.
Definition clean (e : fexpr) : Prop := (forall c, In c (leaves e) -> simple_text (c_out c)) /\ (forall k, In k (constants e) -> simple_text (k_str k)).
Lemma op_simple s : existsb (fun c => Ascii.eqb c "("%char || Ascii.eqb c ")"%char || Ascii.eqb c ","%char) (chars s) = false -> simple_text s.
Proof.
  intro F. assert (K : forall z, In z (chars s) -> (Ascii.eqb z "("%char || Ascii.eqb z ")"%char || Ascii.eqb z ","%char = false)%bool).
  { intros z Hz. destruct (Ascii.eqb z "("%char || Ascii.eqb z ")"%char || Ascii.eqb z ","%char)%bool eqn:E; [|reflexivity].
    rewrite <- F. symmetry. apply existsb_exists. eauto. }
  repeat split; intro Hz; specialize (K _ Hz); discriminate.
Qed.
Lemma tree_texts e : no_apply e = true -> clean e -> forall s, In s (texts (tree e)) -> simple_text s.
Proof.
  induction e; cbn [no_apply tree texts]; intros H [L C] s Hs; cbn [leaves constants] in L, C; try discriminate;
    try (apply andb_prop in H as [H1 H2]; destruct Hs as [<-|Hs]; [now apply op_simple|apply in_app_or in Hs; destruct Hs as [Hs|Hs];
      [apply IHe1|apply IHe2]; auto; (split; intros; [apply L|apply C]; apply in_or_app; auto)]);
    try (destruct Hs as [<-|Hs]; [now apply op_simple|apply in_app_or in Hs; destruct Hs as [Hs|[<-|[]]];
      [apply IHe; auto; split; intros; [apply L; auto|apply C; now right]|apply C; now left]]).
  - destruct Hs as [<-|[]]. apply L. now left.
  - destruct Hs as [<-|Hs]; [now apply op_simple|]. apply IHe; auto. now split.
Qed.
Lemma tree_alike : forall e e', no_apply e = true -> no_apply e' = true ->
  (forall c k, In c (leaves e ++ leaves e') -> In k (constants e ++ constants e') -> c_out c <> k_str k) ->
  tree e = tree e' -> alike e e'.
Proof.
  assert (TWC : forall e w, no_apply e = true -> tree e = TW w -> exists c, In c (leaves e) /\ c_out c = w).
  { intros e w H E. destruct e; cbn [tree no_apply] in *; try discriminate. injection E as E. exists c. split; [now left|exact E]. }
  induction e; intros e' H H' D E; cbn [no_apply] in H; try discriminate H; destruct e'; cbn [no_apply] in H'; try discriminate H'; cbn [tree] in E; try discriminate E;
    try (apply andb_prop in H as [H1 H2]); try (apply andb_prop in H' as [H1' H2']); cbn [leaves constants] in D.
  all: try (injection E as E; constructor; solve [auto]).
  all: try (injection E as E1 E2; constructor; [apply IHe1|apply IHe2]; auto; intros; apply D; rewrite !in_app_iff in *; tauto).
  all: try (injection E as E1 E2; constructor; [apply IHe; auto; intros ? ? Q1 Q2; apply D; [exact Q1|]; rewrite in_app_iff in Q2 |- *; cbn [In]; tauto|exact E2]).
  all: try (injection E as E1 E2; exfalso; destruct (TWC _ _ H2 E2) as [u [Iu Eu]]; eapply (D u); [rewrite !in_app_iff; left; right; exact Iu|apply in_or_app; right; left; reflexivity|exact Eu]).
  all: try (injection E as E1 E2; exfalso; symmetry in E2; destruct (TWC _ _ H2' E2) as [u [Iu Eu]]; eapply (D u); [rewrite !in_app_iff; right; right; exact Iu|apply in_or_app; left; left; reflexivity|exact Eu]).
Qed.

(* ------------------------------------------------------------------ *)
(** ** C154 *)
(** Two expressions with the same output name apply the same operators to leaves of the
    same names and constants printed alike, provided no leaf is named like a constant. *)
Theorem C154_expression : forall e e', no_apply e = true -> no_apply e' = true ->
  (forall c, In c (leaves e ++ leaves e') -> simple_text (c_out c)) ->
  (forall k, In k (constants e ++ constants e') -> simple_text (k_str k)) ->
  (forall c k, In c (leaves e ++ leaves e') -> In k (constants e ++ constants e') -> c_out c <> k_str k) ->
  out_name (build e) = out_name (build e') -> alike e e'.
Proof.
  intros e e' H H' L C D E. apply tree_alike; auto. rewrite !tree_show in E by assumption.
  assert (K : (chars (show (tree e)) ++ [")"%char] = chars (show (tree e')) ++ [")"%char])%list) by now rewrite E.
  apply show_inj in K; [tauto| | |now left|now left]; apply tree_texts; auto; split; intros; try apply L; try apply C; apply in_or_app; auto.
Qed.
Lemma alike_same e e' : alike e e' -> (forall c d, In c (leaves e) -> In d (leaves e') -> c_out c = c_out d -> c = d) ->
  (forall k l, In k (constants e) -> In l (constants e') -> k_str k = k_str l -> k = l) -> e = e'.
Proof.
  induction 1; cbn [leaves constants]; intros L C;
    try (rewrite IHalike1, IHalike2; [reflexivity|intros; apply L; auto; apply in_or_app; auto|intros; apply C; auto; apply in_or_app; auto|
         intros; apply L; auto; apply in_or_app; auto|intros; apply C; auto; apply in_or_app; auto]);
    try (rewrite (C k k') by (cbn; auto); rewrite IHalike; [reflexivity|auto|intros; apply C; cbn; auto]).
  - rewrite (L c d) by (cbn; auto). reflexivity.
  - rewrite IHalike; auto.
Qed.
(** The parts of a built expression are built expressions. *)
Lemma build_nodes e : no_apply e = true -> forall t, In t (nodes (build e)) -> exists e0, no_apply e0 = true /\ t = build e0 /\
  incl (leaves e0) (leaves e) /\ incl (constants e0) (constants e).
Proof.
  assert (SELF : forall e, no_apply e = true -> exists e0, no_apply e0 = true /\ build e = build e0 /\ incl (leaves e0) (leaves e) /\ incl (constants e0) (constants e)).
  { intros e0 H. exists e0. repeat split; auto using incl_refl. }
  induction e; intros H t Ht; cbn [build nodes] in Ht; destruct Ht as [<-|Ht]; try (apply (SELF _ H)); cbn [no_apply] in H; try discriminate H;
    try contradiction; try (apply andb_prop in H as [H1 H2]; apply in_app_or in Ht; destruct Ht as [Ht|Ht];
      [destruct (IHe1 H1 t Ht) as [e0 [A [B [L C]]]]|destruct (IHe2 H2 t Ht) as [e0 [A [B [L C]]]]]; exists e0; (split; [exact A|split; [exact B|]]);
      cbn [leaves constants]; split; auto using incl_appl, incl_appr);
    destruct (IHe H t Ht) as [e0 [A [B [L C]]]]; exists e0; (split; [exact A|split; [exact B|]]); cbn [leaves constants]; split; auto using incl_tl.
Qed.

(** A kit of such features: every column is what its expression denotes on the frame. *)
Theorem C154_kit : forall b df es,
  (forall e, In e es -> no_apply e = true /\ exists s, den b df (build e) = Ok s) -> NoDup es ->
  let ls := flat_map leaves es in let ks := flat_map constants es in
  (forall c d, In c ls -> In d ls -> c_out c = c_out d -> c = d) ->
  (forall k l, In k ks -> In l ks -> k_str k = k_str l -> k = l) ->
  (forall c k, In c ls -> In k ks -> c_out c <> k_str k) ->
  (forall c, In c ls -> simple_text (c_out c)) -> (forall k, In k ks -> simple_text (k_str k)) ->
  (forall n s, get df n = Some s -> simple_text n) ->
  (forall c s, In c ls -> get df (c_out c) = Some s -> core_call b df c = Ok s) ->
  exists r, kit_build b [] df (map (fun e => mkFeat (out_name (build e)) (build e)) es) = Ok r /\
    forall e s, In e es -> den b df (build e) = Ok s -> get r (out_name (build e)) = Some s.
Proof.
  intros b df es HE ND ls ks HL HK HD SL SK SN HC.
  assert (IL : forall e, In e es -> incl (leaves e) ls) by (intros e Ie c Hc; apply in_flat_map; eauto).
  assert (IK : forall e, In e es -> incl (constants e) ks) by (intros e Ie c Hc; apply in_flat_map; eauto).
  assert (UN : forall e e', no_apply e = true -> no_apply e' = true -> incl (leaves e) ls -> incl (leaves e') ls -> incl (constants e) ks -> incl (constants e') ks ->
             out_name (build e) = out_name (build e') -> e = e').
  { intros e e' A A' L L' C C' E. apply alike_same; auto. apply C154_expression; auto.
    - intros c Hc. apply SL. apply in_app_or in Hc. destruct Hc; auto.
    - intros k Hc. apply SK. apply in_app_or in Hc. destruct Hc; auto.
    - intros c k Hc Hk. apply in_app_or in Hc. apply in_app_or in Hk. apply HD; [destruct Hc; auto|destruct Hk; auto]. }
  set (fs := map (fun e => mkFeat (out_name (build e)) (build e)) es).
  assert (PT : forall w, (exists f, In f fs /\ In w (nodes (f_t f))) -> exists e0, no_apply e0 = true /\ w = build e0 /\ incl (leaves e0) ls /\ incl (constants e0) ks).
  { intros w [f [If Hw]]. apply in_map_iff in If. destruct If as [e [<- Ie]]. cbn [f_t] in Hw. destruct (HE e Ie) as [A _].
    destruct (build_nodes e A w Hw) as [e0 [B [-> [L C]]]]. exists e0. repeat split; auto; eapply incl_tran; eauto. }
  assert (NO : forall e, no_apply e = true -> incl (leaves e) ls -> forall s, get df (out_name (build e)) = Some s -> exists c, e = FCore c /\ In c ls).
  { intros e A L s G. apply SN in G. rewrite tree_show in G by assumption. destruct G as [G _].
    destruct e; cbn [tree show] in G; try discriminate A; try (exfalso; apply G; rewrite chars_app; apply in_or_app; right; now left).
    exists c. split; [reflexivity|apply L; now left]. }
  destruct (C65_independent_partial b [] df fs) as [r [E [H1 _]]].
  - intros w u s Pw Pu En D. destruct (PT w Pw) as [e0 [A [-> [L C]]]]. destruct (PT u Pu) as [e1 [A1 [-> [L1 C1]]]]. now rewrite <- (UN e0 e1).
  - intros w s Pw G. destruct (PT w Pw) as [e0 [A [-> [L C]]]]. destruct (NO e0 A L s G) as [c [-> Ic]]. cbn [build den]. apply HC; auto.
  - intros w n f Pw Hn. destruct (PT w Pw) as [e0 [A [-> [L C]]]]. destruct e0; cbn in Hn; contradiction.
  - intros f If. apply in_map_iff in If. destruct If as [e [<- Ie]]. exact (proj2 (HE e Ie)).
  - intros n [].
  - unfold fs. rewrite map_map. cbn [f_name]. clear -ND UN HE IL IK. clearbody ls ks. induction ND as [|e es Hn ND IH]; cbn [map]; constructor.
    + intro K. apply in_map_iff in K. destruct K as [u [Eu Iu]]. assert (u = e); [|now subst].
      apply UN; auto; try (apply IL; cbn; auto); try (apply IK; cbn; auto); apply HE; cbn; auto.
    + apply IH; intros; [apply HE|apply IL|apply IK]; now right.
  - exists r. split; [exact E|]. intros e s Ie D. destruct (H1 (mkFeat (out_name (build e)) (build e))) as [s' [D' [G _]]].
    + unfold fs. apply in_map_iff. eauto.
    + cbn [f_t f_name] in D', G. congruence.
Qed.
Example C154_example :
  let d n := FCore (dbl n) in
  let df := [("a", [Fin 1; Fin 2]); ("b", [Fin 4; Fin 5])] in
  let es := [FSub (d "a") (d "b"); FSub (d "b") (d "a"); FAbs (FSub (d "a") (d "b")); FAddC (d "a") (mkConst (Fin 1) "1"); FRSub (mkConst (Fin 1) "1") (d "a")] in
  map (fun e => out_name (build e)) es = ["sub(a_x2,b_x2)"; "sub(b_x2,a_x2)"; "abs(sub(a_x2,b_x2))"; "add(a_x2,1)"; "rsub(a_x2,1)"] /\
  NoDup (map (fun e => out_name (build e)) es) /\
  kit_build NB [] df (map (fun e => mkFeat (out_name (build e)) (build e)) es) = Ok [("sub(a_x2,b_x2)", [Fin (-6); Fin (-6)]); ("sub(b_x2,a_x2)", [Fin 6; Fin 6]);
    ("abs(sub(a_x2,b_x2))", [Fin 6; Fin 6]); ("add(a_x2,1)", [Fin 3; Fin 5]); ("rsub(a_x2,1)", [Fin (-1); Fin (-3)])].
Proof.
  split; [vm_compute; reflexivity|]. split; [|vm_compute; reflexivity].
  vm_compute. repeat constructor; cbn; intros H; repeat (destruct H as [H|H]; [discriminate|]); contradiction.
Qed.

(** [apply] shows the name of the function but not its arguments (kit.py L250-259; so does
    [ema] with [adjust], L400): the second power and the third power in one kit both hold
    the second power. *)
Theorem C154_apply_refuted : exists df c g h s v, c_out c = "a_x2" /\
  let e := FApply (FCore c) "power" g in let e' := FApply (FCore c) "power" h in
  out_name (build e) = out_name (build e') /\
  kit_build NB [] df [mkFeat "cube" (build e')] = Ok [("cube", v)] /\ v <> s /\
  kit_build NB [] df [mkFeat "square" (build e); mkFeat "cube" (build e')] = Ok [("square", s); ("cube", s)].
Proof.
  exists [("a", [Fin 1; Fin 2])], (dbl "a"), (map (fun v => emul v v)), (map (fun v => emul v (emul v v))), [Fin 4; Fin 16], [Fin 8; Fin 64].
  split; [reflexivity|]. split; [reflexivity|]. split; [vm_compute; reflexivity|]. split; [discriminate|]. vm_compute. reflexivity.
Qed.
(** The name of an applied function is glued to the name of its operand with an underscore,
    so it can coincide with that of a transform of a column of that name. *)
Theorem C154_glue_refuted : exists e e', no_apply e' = true /\ ~ alike e e' /\ out_name (build e) = out_name (build e') /\ out_name (build e) = "a_b_x2".
Proof.
  exists (FApply (FCore (col1 "a_b")) "x2" (map (fun v => emul v v))), (FCore (dbl "a_b")).
  split; [reflexivity|]. split; [intro K; inversion K|]. split; vm_compute; reflexivity.
Qed.

Print Assumptions C154_expression.
Print Assumptions C154_kit.
Print Assumptions C154_apply_refuted.
Print Assumptions C154_glue_refuted.
