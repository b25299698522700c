(** T_names.v -- C153: output names of transform objects. *)
From Coq Require Import String Ascii DecimalString.
From Verif Require Import Base M_features M_transforms M_kit M_config M_names S_kit S_names T_config T_kit.
Open Scope string_scope.

(* ------------------------------------------------------------------ *)
(** ** Text *)
Lemma chars_app a b : chars (a ++ b) = (chars a ++ chars b)%list.
Proof. induction a as [|c a IH]; cbn [append chars app]; [reflexivity|now rewrite IH]. Qed.
Lemma chars_inj a b : chars a = chars b -> a = b.
Proof. revert b. induction a as [|c a IH]; intros [|d b] E; cbn [chars] in E; try discriminate; [reflexivity|]. injection E as -> E. f_equal. auto. Qed.
(** Splitting at the last occurrence of a character. *)
Lemma split_last {A} (x : A) a b p q : ~ In x p -> ~ In x q -> (a ++ x :: p = b ++ x :: q)%list -> a = b /\ p = q.
Proof.
  intros Hp Hq. revert b. induction a as [|u a IH]; intros [|v b] E; cbn [app] in E.
  - injection E as E. auto.
  - injection E as <- E. exfalso. apply Hp. rewrite E. apply in_or_app. right. left. reflexivity.
  - injection E as -> E. exfalso. apply Hq. rewrite <- E. apply in_or_app. right. left. reflexivity.
  - injection E as -> E. destruct (IH b E) as [-> ->]. auto.
Qed.
(** Splitting at the first character of a kind. *)
Lemma split_first {A} (P : A -> Prop) p x a q y b : (forall z, In z p -> ~ P z) -> (forall z, In z q -> ~ P z) -> P x -> P y ->
  (p ++ x :: a = q ++ y :: b)%list -> p = q /\ x = y /\ a = b.
Proof.
  revert q. induction p as [|u p IH]; intros [|v q] Hp Hq Px Py E; cbn [app] in E.
  - injection E as -> ->. auto.
  - injection E as -> E. exfalso. apply (Hq v); [left; reflexivity|assumption].
  - injection E as -> E. exfalso. apply (Hp y); [left; reflexivity|assumption].
  - injection E as -> E. destruct (IH q) as [-> H]; auto; [intros; apply Hp; now right|intros; apply Hq; now right].
Qed.

(* ------------------------------------------------------------------ *)
(** ** Printed integers *)
Lemma py_str_inj a b : py_str a = py_str b -> a = b.
Proof. intro E. pose proof (py_int_str a) as H. rewrite E, py_int_str in H. congruence. Qed.
Lemma uint_chars d : Forall numeric (chars (NilEmpty.string_of_uint d)).
Proof. induction d; cbn [NilEmpty.string_of_uint chars]; constructor; auto; unfold numeric; cbn; tauto. Qed.
Lemma uint0_chars d : Forall numeric (chars (NilZero.string_of_uint d)) /\ chars (NilZero.string_of_uint d) <> [].
Proof.
  unfold NilZero.string_of_uint. destruct d; cbn [chars NilEmpty.string_of_uint]; (split; [|discriminate]); constructor; try apply uint_chars;
    try (unfold numeric; cbn; tauto); constructor.
Qed.
Lemma py_str_chars n : Forall numeric (chars (py_str n)) /\ chars (py_str n) <> [].
Proof.
  unfold py_str, NilZero.string_of_int. destruct (Z.to_int n); [apply uint0_chars|].
  cbn [chars]. split; [|discriminate]. constructor; [unfold numeric; cbn; tauto|apply uint0_chars].
Qed.
Lemma numeric_us c : numeric c -> c <> "_"%char.
Proof. unfold numeric. cbn. intros H E. subst c. repeat (destruct H as [H|H]; [discriminate|]). contradiction. Qed.
Lemma py_str_us n : ~ In "_"%char (chars (py_str n)).
Proof. intro H. destruct (py_str_chars n) as [F _]. rewrite Forall_forall in F. now apply (numeric_us "_"%char (F _ H)). Qed.
Lemma py_str_head n : exists c r, chars (py_str n) = c :: r /\ numeric c.
Proof. destruct (py_str_chars n) as [F NE]. destruct (chars (py_str n)) as [|c r]; [contradiction|]. inversion F. eauto. Qed.

(* ------------------------------------------------------------------ *)
(** ** C153 *)
Section Names.
Variable flt : Type.
Variable frepr : flt -> string.
Variable above_micro : flt -> bool.
Variable minutes : flt -> flt.
Variable whole : flt -> bool.
Notation produced := (produced flt frepr above_micro minutes whole).
Notation core_of := (core_of flt frepr above_micro minutes whole).
Notation feat_of := (feat_of flt frepr above_micro minutes whole).
(** Prefix and rest of the produced name of a plain object. *)
Definition pre (t : tobj flt) : string :=
  match t with
  | TLag _ _ => "lag" | TROC _ _ => "roc" | TPctChange _ _ => "pctc" | TRSI _ _ => "rsiw" | TEWMST _ _ => "ewms" | TBurst _ _ => "burst"
  | TSMA _ _ => "sma" | TEWMA _ _ => "ewma" | THurst _ _ => "hurst" | _ => ""
  end.
Definition rest (t : tobj flt) : string :=
  match t with
  | TLag n _ | TROC n _ | TPctChange n _ | TRSI n _ | TBurst n _ | TSMA n _ | TEWMA n _ | THurst n _ => py_str n
  | TEWMST s _ => frepr s ++ "s"
  | _ => ""
  end.
Lemma plain_parts t : prints frepr -> plain t = true -> produced t = pre t ++ rest t /\
  (forall z, In z (chars (pre t)) -> ~ numeric z) /\ ~ In "_"%char (chars (pre t)) /\ ~ In "_"%char (chars (rest t)) /\
  exists c r, chars (rest t) = c :: r /\ numeric c.
Proof.
  intros [_ [Hn Hu]] P.
  assert (L : forall s, forallb (fun z => negb (existsb (Ascii.eqb z) (chars "0123456789-"))) (chars s) = true -> forall z, In z (chars s) -> ~ numeric z).
  { intros s F z Hz K. rewrite forallb_forall in F. specialize (F z Hz). apply negb_true_iff in F. unfold numeric in K.
    enough (existsb (Ascii.eqb z) (chars "0123456789-") = true) by congruence. apply existsb_exists. exists z. split; [exact K|apply Ascii.eqb_refl]. }
  assert (U : forall s, existsb (Ascii.eqb "_"%char) (chars s) = false -> ~ In "_"%char (chars s)).
  { intros s F Hz. enough (existsb (Ascii.eqb "_"%char) (chars s) = true) by congruence. apply existsb_exists. exists "_"%char. split; [exact Hz|reflexivity]. }
  destruct t; try discriminate P; cbn [M_names.produced pre rest];
    (split; [reflexivity|split; [apply L; reflexivity|split; [apply U; reflexivity|]]]);
    try (split; [apply py_str_us|apply py_str_head]).
  split.
  - rewrite chars_app. intro H. apply in_app_or in H. destruct H as [H|H]; [exact (Hu _ H)|]. cbn in H. destruct H as [H|[]]. discriminate.
  - destruct (Hn half_life_sec) as [c [r [E N]]]. rewrite chars_app, E. exists c, (r ++ chars "s")%list. split; [reflexivity|exact N].
Qed.
Lemma plain_siso (t : tobj flt) : plain t = true -> siso t = true.
Proof. now destruct t. Qed.

(** Among objects of the plain classes the output name determines class, parameter and column. *)
Theorem C153_distinct : forall compute t u, prints frepr -> plain t = true -> plain u = true ->
  out_name (Leaf (core_of compute t)) = out_name (Leaf (core_of compute u)) -> t = u.
Proof.
  intros compute t u F Pt Pu E. cbn [out_name] in E. unfold c_out, M_names.core_of in E. cbn [c_siso c_req c_prod] in E.
  rewrite (plain_siso t Pt), (plain_siso u Pu) in E. apply (f_equal chars) in E. rewrite !chars_app in E. cbn [chars app] in E.
  destruct (plain_parts t F Pt) as [Et [A1 [A2 [A3 [c [r [A4 A5]]]]]]]. destruct (plain_parts u F Pu) as [Eu [B1 [B2 [B3 [d [s [B4 B5]]]]]]].
  apply split_last in E; [|rewrite Et, chars_app; intro K; apply in_app_or in K; tauto|rewrite Eu, chars_app; intro K; apply in_app_or in K; tauto].
  destruct E as [Ec E]. rewrite Et, Eu, !chars_app in E. rewrite A4, B4 in E. apply split_first with (P := numeric) in E; auto.
  destruct E as [E1 [E2 E3]]. assert (ER : rest t = rest u) by (apply chars_inj; rewrite A4, B4; congruence).
  apply chars_inj in E1. apply chars_inj in Ec. clear A1 A2 A3 A4 A5 B1 B2 B3 B4 B5 E2 E3 Et Eu. destruct F as [Fi _].
  destruct t; try discriminate Pt; destruct u; try discriminate Pu; cbn [pre] in E1; try discriminate E1; cbn [rest] in ER; cbn [req_cols hd] in Ec; subst;
    try (apply py_str_inj in ER; now subst).
  apply (f_equal chars) in ER. rewrite !chars_app in ER. apply app_inv_tail in ER. apply chars_inj in ER. apply Fi in ER. now subst.
Qed.

(** Shared shape of the other classes with one column. *)
Lemma siso_inj (a B b : string) c d x y : ~ In "_"%char (chars B) -> ~ In "_"%char (chars b) -> ~ In "_"%char (chars x) -> ~ In "_"%char (chars y) ->
  (c ++ a ++ "_" ++ B ++ x ++ b) = (d ++ a ++ "_" ++ B ++ y ++ b) -> c = d /\ x = y.
Proof.
  intros HB Hb Hx Hy E. apply (f_equal chars) in E. rewrite !chars_app in E. cbn [chars app] in E. rewrite !app_assoc in E.
  apply split_last in E; try (intro K; apply in_app_or in K; destruct K as [K|K]; [apply in_app_or in K|]; tauto).
  destruct E as [E1 E2]. apply app_inv_tail in E1. apply app_inv_tail in E2. apply app_inv_head in E2. split; now apply chars_inj.
Qed.
Lemma str_assoc (a b c : string) : (a ++ b) ++ c = a ++ b ++ c.
Proof. apply chars_inj. now rewrite !chars_app, app_assoc. Qed.
Lemma str_nil (a : string) : a ++ "" = a.
Proof. apply chars_inj. rewrite chars_app. cbn [chars]. apply app_nil_r. Qed.
Lemma str_inv_head (a b c : string) : a ++ b = a ++ c -> b = c.
Proof. intro E. apply (f_equal chars) in E. rewrite !chars_app in E. apply app_inv_head in E. now apply chars_inj. Qed.
Lemma str_inv_tail (a b c : string) : b ++ a = c ++ a -> b = c.
Proof. intro E. apply (f_equal chars) in E. rewrite !chars_app in E. apply app_inv_tail in E. now apply chars_inj. Qed.
(** Number at the end. *)
Lemma siso_num (a B : string) c d n m : ~ In "_"%char (chars B) ->
  (c ++ a ++ "_" ++ B ++ py_str n) = (d ++ a ++ "_" ++ B ++ py_str m) -> n = m /\ c = d.
Proof.
  intros HB E. destruct (siso_inj a B "" c d (py_str n) (py_str m)) as [E1 E2]; auto using py_str_us; [now rewrite !str_nil|].
  split; [now apply py_str_inj|auto].
Qed.

(** Within one class with a single column, the name determines the column and the number
    shown in it; so it determines the object of the classes without further parameters. *)
Theorem C153_same_class : forall compute,
  let same t u := out_name (Leaf (core_of compute t)) = out_name (Leaf (core_of compute u)) in
  (forall n m c d, same (TKurt n c) (TKurt m d) \/ same (TTrend n c) (TTrend m d) \/ same (TMRZ n c) (TMRZ m d) \/
     same (TBiPower n c) (TBiPower m d) \/ same (TDurEwma n c) (TDurEwma m d) \/ same (TDur n c) (TDur m d) -> n = m /\ c = d) /\
  (forall n m r s c d, same (TFlow n r c) (TFlow m s d) -> n = m /\ r = s /\ c = d) /\
  (forall c d, same (TGap c) (TGap d) \/ same (TRunLen c) (TRunLen d) \/ same (TIdentity c) (TIdentity d) -> c = d) /\
  (forall n m c d x y, same (TReturn n c x) (TReturn m d y) -> n = m /\ c = d) /\
  (forall n m c d x y, same (TZScore n c x) (TZScore m d y) -> n = m /\ c = d) /\
  (forall n m c d x y, same (TRealVol n x c) (TRealVol m y d) -> n = m /\ c = d) /\
  (forall n m c d x y, same (TBoll n x c) (TBoll m y d) -> n = m /\ c = d) /\
  (forall n m c d x y x' y', same (TVarRatio n c x y) (TVarRatio m d x' y') -> n = m /\ c = d) /\
  (forall n m c d x y x' y', same (TApEn n x y c) (TApEn m x' y' d) -> n = m /\ c = d).
Proof.
  intros compute same. unfold same. cbn [out_name]. unfold c_out, M_names.core_of. cbn [c_siso c_req c_prod siso req_cols hd].
  assert (U : forall s, existsb (Ascii.eqb "_"%char) (chars s) = false -> ~ In "_"%char (chars s)).
  { intros s F Hz. enough (existsb (Ascii.eqb "_"%char) (chars s) = true) by congruence. apply existsb_exists. exists "_"%char. split; [exact Hz|reflexivity]. }
  split; [|split; [|split; [|split; [|split; [|split; [|split; [|split]]]]]]].
  - intros n m c d H. repeat destruct H as [H|H]; cbn [M_names.produced] in H.
    + apply (siso_num "_kurt" "" c d n m); [now apply U|exact H].
    + apply (siso_num "_trend_slope" "" c d n m); [now apply U|exact H].
    + apply (siso_num "_mr_z" "" c d n m); [now apply U|exact H].
    + apply (siso_num "_bv" "" c d n m); [now apply U|exact H].
    + apply (siso_num "_dur" "ewma" c d n m); [now apply U|exact H].
    + destruct (siso_inj "_dur" "" "bar" c d (py_str n) (py_str m)) as [E1 E2]; auto using py_str_us. split; [now apply py_str_inj|auto].
  - intros n m r s c d H. cbn [M_names.produced] in H.
    destruct (siso_num "" "" (c ++ "_flowacc_" ++ py_str n) (d ++ "_flowacc_" ++ py_str m) r s) as [E1 E2]; [now apply U|rewrite !str_assoc; exact H|].
    destruct (siso_num "_flowacc" "" c d n m) as [E3 E4]; [now apply U|exact E2|]. auto.
  - intros c d H. repeat destruct H as [H|H]; cbn [M_names.produced] in H; [now apply str_inv_tail in H|now apply str_inv_tail in H|exact H].
  - intros n m c d x y H. apply (siso_num "" "ret" c d n m); [now apply U|exact H].
  - intros n m c d x y H. apply (siso_num "" "z" c d n m); [now apply U|exact H].
  - intros n m c d x y H. apply (siso_num "" "rv" c d n m); [now apply U|exact H].
  - intros n m c d x y H. apply (siso_num "" "bollb" c d n m); [now apply U|exact H].
  - intros n m c d x y x' y' H. apply (siso_num "_var_ratio_1_4" "" c d n m); [now apply U|exact H].
  - intros n m c d x y x' y' H. apply (siso_num "" "apen" c d n m); [now apply U|exact H].
Qed.

(** The classes with several columns show their numbers and options, but not the columns. *)
Theorem C153_several_columns : forall compute,
  let same t u := out_name (Leaf (core_of compute t)) = out_name (Leaf (core_of compute u)) in
  (forall n m c d, same (TStochK n c) (TStochK m d) \/ same (TPVCorr n c) (TPVCorr m d) \/ same (TVPIN n c) (TVPIN m d) \/
     same (TADX n c) (TADX m d) <-> n = m) /\
  (forall n m x y c d, same (TVWAPD n x c) (TVWAPD m y d) <-> n = m) /\
  (forall n m e f x y c d, same (TATR n e x c) (TATR m f y d) <-> n = m /\ e = f /\ x = y).
Proof.
  intros compute same. unfold same. cbn [out_name]. unfold c_out, M_names.core_of. cbn [c_siso c_req c_prod siso req_cols hd M_names.produced].
  split; [|split].
  - intros n m c d. split.
    + intros H. repeat destruct H as [H|H]; apply str_inv_head in H; now apply py_str_inj.
    + intros ->. auto.
  - intros n m x y c d. split; [|now intros ->]. intros H. apply str_inv_head in H; now apply py_str_inj.
  - intros n m e f x y c d. split; [|intros (-> & -> & ->); reflexivity]. intros H. apply str_inv_head in H. apply (f_equal chars) in H. rewrite !chars_app in H.
    pose proof (py_str_us n) as Un. pose proof (py_str_us m) as Um.
    assert (N : forall z, In z (chars (py_str n)) -> ~ (z = "_"%char)) by (intros z Hz ->; auto).
    assert (M : forall z, In z (chars (py_str m)) -> ~ (z = "_"%char)) by (intros z Hz ->; auto).
    assert (L : forall s, (chars (py_str n) ++ "_"%char :: s = chars (py_str m))%list -> False).
    { intros s K. apply Um. rewrite <- K. apply in_or_app. right. now left. }
    assert (L' : forall s, (chars (py_str n) = chars (py_str m) ++ "_"%char :: s)%list -> False).
    { intros s K. apply Un. rewrite K. apply in_or_app. right. now left. }
    destruct e, f, x, y; cbn [chars app] in H; rewrite ?app_nil_r in H;
      try (exfalso; solve [eapply L; exact H|eapply L'; exact H]);
      try (apply split_first with (P := fun z => z = "_"%char) in H; auto; destruct H as [H [_ K]]; try discriminate K);
      (split; [apply py_str_inj; now apply chars_inj|auto]).
Qed.

(** A kit of different plain objects computes each of them on its own column. *)
Theorem C153_kit : forall compute b df ts, prints frepr -> (forall t, In t ts -> plain t = true) -> NoDup ts ->
  (forall t, In t ts -> get df (out_name (Leaf (core_of compute t))) = None) ->
  (forall t, In t ts -> exists s v, get df (hd EmptyString (req_cols t)) = Some s /\ compute t b [s] = Ok v) ->
  exists r, kit_build b [] df (map (feat_of compute) ts) = Ok r /\
    forall t s v, In t ts -> get df (hd EmptyString (req_cols t)) = Some s -> compute t b [s] = Ok v ->
      get r (out_name (Leaf (core_of compute t))) = Some v.
Proof.
  intros compute b df ts F P ND HN HV.
  assert (RC : forall t : tobj flt, plain t = true -> req_cols t = [hd EmptyString (req_cols t)]) by (intros t Pt; now destruct t).
  assert (DV : forall t s v, plain t = true -> get df (hd EmptyString (req_cols t)) = Some s -> compute t b [s] = Ok v -> den b df (Leaf (core_of compute t)) = Ok v).
  { intros t s v Pt G C. cbn [den]. unfold core_call, M_names.core_of. cbn [c_req c_fun]. rewrite (RC t Pt). cbn [map collect hd]. now rewrite G. }
  assert (PT : forall w, (exists f, In f (map (feat_of compute) ts) /\ In w (nodes (f_t f))) -> exists t, In t ts /\ w = Leaf (core_of compute t)).
  { intros w [f [If Hw]]. apply in_map_iff in If. destruct If as [t [<- It]]. exists t. split; [auto|]. cbn in Hw. destruct Hw as [<-|[]]. reflexivity. }
  destruct (C65_independent_partial b [] df (map (feat_of compute) ts)) as [r [E [H1 _]]].
  - intros w u s Pw Pu En D. destruct (PT w Pw) as [t [It ->]]. destruct (PT u Pu) as [t' [It' ->]]. apply C153_distinct in En; auto. now subst t'.
  - intros w s Pw G. destruct (PT w Pw) as [t [It ->]]. rewrite HN in G by auto. discriminate.
  - intros w n f Pw Hn. destruct (PT w Pw) as [t [It ->]]. destruct Hn.
  - intros f If. apply in_map_iff in If. destruct If as [t [<- It]]. destruct (HV t It) as [s [v [G C]]]. exists v. cbn [f_t M_names.feat_of]. eapply DV; eauto.
  - intros n [].
  - assert (NDn : NoDup (map (fun t => out_name (Leaf (core_of compute t))) ts)).
    { clear -F P ND. induction ND as [|t ts Hn ND IH]; cbn [map]; constructor.
      - intro K. apply in_map_iff in K. destruct K as [u [Eu Iu]]. apply C153_distinct in Eu; [now subst|auto|apply P; now right|apply P; now left].
      - apply IH. intros u Iu. apply P. now right. }
    rewrite map_map. exact NDn.
  - exists r. split; [exact E|]. intros t s v It G C. destruct (H1 (feat_of compute t) (in_map _ _ _ It)) as [s' [D [Gr _]]].
    cbn [f_t M_names.feat_of] in D. rewrite (DV t s v (P t It) G C) in D. injection D as <-. exact Gr.
Qed.
(** The columns a transform of several columns is computed from: those given, in their order, or
    the default ones. *)
Theorem C153_columns : forall compute b df,
  let name t := out_name (Leaf (core_of compute t)) in
  let uses t cols := forall ss v, get df (name t) = None -> Forall2 (fun c s => get df c = Some s) cols ss -> compute t b ss = Ok v ->
     kit_build b [] df [feat_of compute t] = Ok [(name t, v)] in
  forall n x y l,
    uses (TStochK n (Some l)) l /\ uses (TATR n x y (Some l)) l /\ uses (TADX n (Some l)) l /\
    uses (TVWAPD n x (Some l)) l /\ uses (TPVCorr n (Some l)) l /\ uses (TPark (Some l)) l /\ uses (TVPIN n (Some l)) l /\
    uses (TStochK n None) ["high"; "low"; "close"] /\ uses (TATR n x y None) ["high"; "low"; "close"] /\ uses (TADX n None) ["high"; "low"; "close"] /\
    uses (TVWAPD n x None) ["close"; "volume"] /\ uses (TPVCorr n None) ["close"; "volume"] /\
    uses (TPark None) ["high"; "low"] /\ uses (TVPIN n None) ["volume_buy"; "volume_sell"].
Proof.
  intros compute b df name uses.
  assert (U : forall t, uses t (req_cols t)).
  { intros t ss v HN G C. unfold kit_build, M_names.feat_of. cbn [retained build_loop f_t f_name].
    assert (K : collect (map (fun c => match get df c with Some s => Ok s | None => Raise ValueError end) (req_cols t)) = Ok ss).
    { clear C. induction G as [|c s l ss Hc G IH]; cbn [map collect]; [reflexivity|]. now rewrite Hc, IH. }
    unfold feat_call. cbn [f_t]. change (out_name (Leaf (core_of compute t))) with (name t). rewrite HN. cbn [call]. unfold core_call, M_names.core_of.
    cbn [c_req c_fun]. rewrite K, C. reflexivity. }
  intros n x y l. repeat split; apply U.
Qed.
End Names.

(* ------------------------------------------------------------------ *)
(** ** Examples and failures *)

Local Open Scope Z_scope.
Local Open Scope string_scope.
(** An instance: floats counted in tenths, printed like "12.5". *)
Definition tenths (k : Z) : string := py_str (k / 10) ++ "." ++ py_str (k mod 10).
Lemma tenths_prints : prints tenths.
Proof.
  assert (D : forall n z, In z (chars (py_str n)) -> z <> "."%char).
  { intros n z Hz ->. destruct (py_str_chars n) as [F _]. rewrite Forall_forall in F. specialize (F _ Hz). unfold numeric in F. cbn in F.
    repeat (destruct F as [F|F]; [discriminate|]). contradiction. }
  split; [|split].
  - intros a b E. unfold tenths in E. apply (f_equal chars) in E. rewrite !chars_app in E. cbn [chars app] in E.
    apply split_first with (P := fun z => z = "."%char) in E; auto; try (intros; eapply D; eauto).
    destruct E as [E1 [_ E2]]. apply chars_inj, py_str_inj in E1. apply chars_inj, py_str_inj in E2.
    rewrite (Z.div_mod a 10), (Z.div_mod b 10) by lia. now rewrite E1, E2.
  - intro a. destruct (py_str_head (a / 10)) as [c [r [E N]]]. unfold tenths. rewrite chars_app, E. exists c. eexists. split; [reflexivity|exact N].
  - intro a. unfold tenths. rewrite !chars_app. intro H. apply in_app_or in H. destruct H as [H|H]; [now apply py_str_us in H|].
    cbn [chars app] in H. destruct H as [H|H]; [discriminate|now apply py_str_us in H].
Qed.
(** The computations of VWAPDistance and BarRate (M_features.v, M_transforms.v) on finite
    values; bars at the given times. SMA and Lag as sum of the values and as they are, for
    illustration. *)
Definition fins (s : series) : list Q := map (fun v => match v with Fin q => Qred q | _ => 0%Q end) s.
Definition demo (ts : list Z) (t : tobj Z) (b : backend) (cols : list series) : result series :=
  match t with
  | TVWAPD n l _ => vwap_distance (fun x => x) (fins (nth 0 cols [])) (fins (nth 1 cols [])) (Z.to_nat n) l
  | TBarRate s _ => Ok (map Fin (bar_rate ts (s * 100000000)))
  | TSMA n _ => Ok (map (fun v => match v with Some q => Fin (Qred q) | None => NaN end) (sma (fins (nth 0 cols [])) (Z.to_nat n)))
  | TLag n _ => Ok (map (fun v => match v with Some q => Fin q | None => NaN end) (shift (map Some (fins (nth 0 cols []))) n))
  | _ => Ok (nth 0 cols [])
  end.
Definition demo_core ts := core_of Z tenths (fun k => 0 <? k)%Z (fun k => k / 60)%Z (fun k => k mod 10 =? 0)%Z (demo ts).
Definition demo_feat ts := feat_of Z tenths (fun k => 0 <? k)%Z (fun k => k / 60)%Z (fun k => k mod 10 =? 0)%Z (demo ts).
(** Kits refer to the columns by output name: four plain objects on two columns. *)
Example C153_kit_example :
  let ts := [TSMA 2 "close"; TSMA 3 "close"; TLag 1 "close"; TLag 1 "open"] in
  let df := [("close", [Fin 4; Fin 6; Fin 8]); ("open", [Fin 1; Fin 2; Fin 3])] in
  prints tenths /\ forallb plain ts = true /\ NoDup ts /\
  map (fun t => out_name (Leaf (demo_core [] t))) ts = ["close_sma2"; "close_sma3"; "close_lag1"; "open_lag1"] /\
  kit_build NB [] df (map (demo_feat []) ts) = Ok [("close_sma2", [NaN; Fin 5; Fin 7]); ("close_sma3", [NaN; NaN; Fin 6]);
     ("close_lag1", [NaN; Fin 4; Fin 6]); ("open_lag1", [NaN; Fin 1; Fin 2])].
Proof.
  split; [apply tenths_prints|]. split; [reflexivity|]. split; [|split; vm_compute; reflexivity].
  repeat constructor; cbn; intros H; repeat (destruct H as [H|H]; [discriminate|]); contradiction.
Qed.
Example C153_example : map (fun t => out_name (Leaf (demo_core [] t)))
    [TEWMST 600 "y"; TFlow 10 3 "volume"; TDur 2 "close"; TKurt 32 "ret1"; TATR 14 true true None; TBarRate 450 "close"; TReturnT 0 false "close"; TVarRatio 32 "close" "log" 1]
  = ["y_ewms60.0s"; "volume_flowacc_10_3"; "close_dur_2bar"; "ret1_kurt_32"; "atr14_ema_norm"; "close_rate_0.7m"; "close_ret1"; "close_var_ratio_1_4_32"].
Proof. vm_compute. reflexivity. Qed.

Example C153_columns_example :
  let df := [("close", [Fin 3; Fin 5]); ("open", [Fin 2; Fin 3]); ("volume", [Fin 1; Fin 1])] in
  Forall2 (fun c s => get df c = Some s) ["open"; "volume"] [[Fin 2; Fin 3]; [Fin 1; Fin 1]] /\
  get df (out_name (Leaf (demo_core [] (TVWAPD 2 false (Some ["open"; "volume"]))))) = None /\
  (exists v, demo [] (TVWAPD 2 false (Some ["open"; "volume"])) NB [[Fin 2; Fin 3]; [Fin 1; Fin 1]] = Ok v).
Proof. cbv zeta. split; [repeat constructor|]. split; [vm_compute; reflexivity|]. eexists. vm_compute. reflexivity. Qed.

(** Parameters the name does not show: objects that differ in the kind of return, the
    degrees of freedom, the sample correction, the band width, the order and tolerance of
    the entropy; and two classes that share a name. *)
Theorem C153_options_refuted :
  let same t u := out_name (Leaf (demo_core [] t)) = out_name (Leaf (demo_core [] u)) in
  exists l : list (tobj Z * tobj Z), length l = 10%nat /\ Forall (fun p => fst p <> snd p /\ req_cols (fst p) = req_cols (snd p) /\ same (fst p) (snd p)) l /\
  (exists t u, req_cols t <> req_cols u /\ plain u = true /\ same t u).
Proof.
  intro same. exists [(TReturn 1 "close" false, TReturn 1 "close" true); (TReturnT 50 false "close", TReturnT 50 true "close");
    (TZScore 20 "x" 0, TZScore 20 "x" 1); (TRealVol 10 false "ret", TRealVol 10 true "ret"); (TBoll 20 20 "close", TBoll 20 30 "close");
    (TVWAPD 5 false None, TVWAPD 5 true None); (TVarRatio 32 "close" "log" 0, TVarRatio 32 "close" "simple" 1); (TApEn 24 2 2 "ret1", TApEn 24 3 5 "ret1");
    (TBarRate 600 "close", TBarRate 36000 "close"); (TReturnT 0 true "close", TReturn 1 "close" false)].
  split; [reflexivity|]. split.
  - repeat constructor; cbn [fst snd]; try discriminate; vm_compute; reflexivity.
  - exists (TDurEwma 20 "close"), (TEWMA 20 "close_dur"). split; [discriminate|]. split; [reflexivity|]. vm_compute. reflexivity.
Qed.
(** The names of transforms of several columns do not show the columns: in one kit, the
    VWAP distance of the open price receives the values of that of the close price. *)
Theorem C153_columns_refuted : exists df t u s v,
  req_cols t <> req_cols u /\ kit_build NB [] df [mkFeat "of_open" (Leaf (demo_core [] u))] = Ok [("of_open", v)] /\ s <> v /\
  kit_build NB [] df [mkFeat "of_close" (Leaf (demo_core [] t)); mkFeat "of_open" (Leaf (demo_core [] u))] = Ok [("of_close", s); ("of_open", s)].
Proof.
  exists [("close", [Fin 3; Fin 5]); ("open", [Fin 2; Fin 3]); ("volume", [Fin 1; Fin 1])], (TVWAPD 2 false None), (TVWAPD 2 false (Some ["open"; "volume"])),
    [NaN; Fin ((5 # 1) / ((8 # 1) / (2 # 1)) - 1)], [NaN; Fin ((3 # 1) / ((5 # 1) / (2 # 1)) - 1)].
  split; [discriminate|]. split; [vm_compute; reflexivity|]. split; [discriminate|]. vm_compute. reflexivity.
Qed.
(** Bar rates over any whole number of minutes share one name: over one minute and over one
    hour, the second feature receives the values of the first. *)
Theorem C153_rate_refuted : exists ts df t u s v,
  kit_build NB [] df [mkFeat "hour" (Leaf (demo_core ts u))] = Ok [("hour", v)] /\ Forall2 (fun a b => exists p q, a = Fin p /\ b = Fin q /\ ~ p == q) s v /\
  kit_build NB [] df [mkFeat "minute" (Leaf (demo_core ts t)); mkFeat "hour" (Leaf (demo_core ts u))] = Ok [("minute", s); ("hour", s)].
Proof.
  exists [0; 600000000000]%Z, [("close", [Fin 3; Fin 5])], (TBarRate 600 "close"), (TBarRate 36000 "close").
  eexists. eexists. split; [vm_compute; reflexivity|]. split; [|vm_compute; reflexivity].
  repeat constructor; eexists; eexists; (split; [reflexivity|split; [reflexivity|]]); intro K; vm_compute in K; discriminate.
Qed.

Print Assumptions C153_distinct.
Print Assumptions C153_same_class.
Print Assumptions C153_several_columns.
Print Assumptions C153_kit.
Print Assumptions C153_columns.
Print Assumptions C153_options_refuted.
Print Assumptions C153_columns_refuted.
Print Assumptions C153_rate_refuted.
