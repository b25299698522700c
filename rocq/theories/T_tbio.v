(** T_tbio.v -- stored time bars: resampling, reading, gaps; months (bar/io.py,
    scripts/binance2h5.py). *)
From Coq Require Import String Ascii Sorting.Sorted.
From Verif Require Import Base M_logic T_logic M_tbio.
Open Scope Z_scope.

(* ------------------------------------------------------------------ *)
(** ** Spec *)
(** Bars in the order of their labels. *)
Definition sorted_bars (df : list bar) : Prop := StronglySorted (fun a b => b_ts a <= b_ts b) df.
(** Volumes are not negative; a bar without open has no prices, volume or trades. *)
Definition valid_bar (b : bar) : Prop :=
  (0 <= b_vol b)%Q /\
  (b_open b = None -> b_high b = None /\ b_low b = None /\ b_close b = None /\ (b_vol b == 0)%Q /\ b_trades b = 0).
(** Equal optional numbers. *)
Definition oeq (a b : option Q) : Prop := match a, b with Some x, Some y => (x == y)%Q | None, None => True | _, _ => False end.
(** Equal bars, the median size left out. *)
Definition bar_eq (a b : bar) : Prop :=
  b_ts a = b_ts b /\ b_open a = b_open b /\ oeq (b_high a) (b_high b) /\ oeq (b_low a) (b_low b) /\ b_close a = b_close b /\
  (b_vol a == b_vol b)%Q /\ b_trades a = b_trades b /\ oeq (b_vwap a) (b_vwap b).

(* ------------------------------------------------------------------ *)
(** ** Grouping *)
Lemma floor_bounds tf t : 0 < tf -> floor_to tf t <= t < floor_to tf t + tf.
Proof. intro H. unfold floor_to. pose proof (Z.div_mod t tf ltac:(lia)). pose proof (Z.mod_pos_bound t tf H). nia. Qed.
Lemma floor_mono tf a b : 0 < tf -> a <= b -> floor_to tf a <= floor_to tf b.
Proof. intros H L. unfold floor_to. pose proof (Z.div_le_mono a b tf H L). nia. Qed.
Lemma floor_floor tf m t : 0 < tf -> 0 < m -> floor_to (m * tf) (floor_to tf t) = floor_to (m * tf) t.
Proof.
  intros H M. unfold floor_to. f_equal. rewrite (Z.mul_comm m tf). rewrite <- !Z.div_div by lia. now rewrite Z.div_mul by lia.
Qed.
Lemma floor_unique tf t k : 0 < tf -> (tf | k) -> k <= t < k + tf -> floor_to tf t = k.
Proof.
  intros H [q ->] B. unfold floor_to. f_equal. symmetry. apply Z.div_unique with (r := t - q * tf); lia.
Qed.
Lemma uniq_In l x : In x (uniq l) <-> In x l.
Proof.
  induction l as [|k l IH]; [tauto|]. cbn. rewrite filter_In, Bool.negb_true_iff, Z.eqb_neq, IH. destruct (Z.eq_dec k x) as [->|]; intuition.
Qed.
Lemma uniq_NoDup l : NoDup (uniq l).
Proof.
  induction l as [|k l IH]; [constructor|]. cbn. constructor; [|now apply NoDup_filter].
  rewrite filter_In, Bool.negb_true_iff, Z.eqb_neq. tauto.
Qed.
Lemma filter_all {A} (p : A -> bool) l : (forall x, In x l -> p x = true) -> filter p l = l.
Proof. induction l as [|x l IH]; intro H; [reflexivity|]. cbn. rewrite H by now left. f_equal. apply IH. intros; apply H; now right. Qed.
Lemma filter_nil {A} (p : A -> bool) l : (forall x, In x l -> p x = false) -> filter p l = [].
Proof. induction l as [|x l IH]; intro H; [reflexivity|]. cbn. rewrite H by now left. apply IH. intros; apply H; now right. Qed.
Section Blocks.
  Variable A : Type.
  Variable f : A -> Z.
  Let grp (l : list A) (k : Z) := filter (fun b => f b =? k) l.
  Lemma grp_skip b l ks : (forall k, In k ks -> k <> f b) -> map (grp (b :: l)) ks = map (grp l) ks.
  Proof.
    intro H. apply map_ext_in. intros k Hk. unfold grp. cbn. destruct (Z.eqb_spec (f b) k) as [E|]; [|reflexivity]. exfalso. apply (H k Hk). auto.
  Qed.
  Lemma grp_none l k : ~ In k (map f l) -> grp l k = [].
  Proof. intro H. apply filter_nil. intros x Hx. apply Z.eqb_neq. intro E. apply H. rewrite <- E. now apply in_map. Qed.
  Lemma blocks_perm l : Permutation (concat (map (grp l) (uniq (map f l)))) l.
  Proof.
    induction l as [|b l IH]; [constructor|]. cbn [map uniq]. cbn [map concat].
    set (R := filter (fun x => negb (x =? f b)) (uniq (map f l))).
    rewrite grp_skip by (intros k Hk; apply filter_In in Hk; destruct Hk as [_ Hk]; apply Bool.negb_true_iff, Z.eqb_neq in Hk; auto).
    unfold grp at 1. cbn [filter]. rewrite Z.eqb_refl. cbn [app]. apply perm_skip. fold (grp l (f b)).
    destruct (in_dec Z.eq_dec (f b) (uniq (map f l))) as [I|I].
    - assert (P : Permutation (uniq (map f l)) (f b :: R)).
      { apply NoDup_Permutation; [apply uniq_NoDup|constructor; [|apply NoDup_filter, uniq_NoDup]|].
        - unfold R. rewrite filter_In, Bool.negb_true_iff, Z.eqb_neq. tauto.
        - intro x. unfold R. cbn. rewrite filter_In, Bool.negb_true_iff, Z.eqb_neq. destruct (Z.eq_dec (f b) x) as [<-|]; intuition. }
      apply (Permutation_map (grp l)) in P. etransitivity; [|exact IH]. symmetry. rewrite <- !flat_map_concat_map.
      rewrite (flat_map_concat_map (grp l) (uniq (map f l))). clear -P.
      assert (Q : forall (u v : list (list A)), Permutation u v -> Permutation (concat u) (concat v)).
      { induction 1; cbn; [constructor|now apply Permutation_app_head|rewrite !app_assoc; apply Permutation_app_tail, Permutation_app_comm|etransitivity; eauto]. }
      rewrite flat_map_concat_map. apply (Q _ _ P).
    - assert (E : R = uniq (map f l)).
      { apply filter_all. intros x Hx. apply Bool.negb_true_iff, Z.eqb_neq. intros ->. contradiction. }
      rewrite E, grp_none by (intro K; apply I; now apply uniq_In). exact IH.
  Qed.
  Lemma blocks_sorted l : StronglySorted (fun a b => f a <= f b) l -> concat (map (grp l) (uniq (map f l))) = l.
  Proof.
    induction l as [|b l IH]; intro S; [reflexivity|]. inversion S as [|? ? S1 S2]; subst. specialize (IH S1). cbn [map uniq]. cbn [map concat].
    rewrite grp_skip by (intros k Hk; apply filter_In in Hk; destruct Hk as [_ Hk]; apply Bool.negb_true_iff, Z.eqb_neq in Hk; auto).
    unfold grp at 1. cbn [filter]. rewrite Z.eqb_refl. cbn [app]. f_equal. fold (grp l (f b)).
    destruct l as [|c l]; [reflexivity|]. cbn [map uniq] in *. rewrite Forall_forall in S2.
    destruct (Z.eq_dec (f c) (f b)) as [E|N].
    - rewrite <- E. cbn [filter]. rewrite Z.eqb_refl. cbn [negb].
      rewrite filter_all; [cbn [map concat] in IH; exact IH|]. intros x Hx. now apply filter_In in Hx.
    - rewrite grp_none, filter_all; [exact IH|..].
      + intros x Hx. apply Bool.negb_true_iff, Z.eqb_neq. intros ->.
        assert (In (f b) (f c :: map f l)) as K by (destruct Hx as [Hx|Hx]; [now left|apply filter_In in Hx; right; apply uniq_In; tauto]).
        destruct K as [K|K]; [congruence|]. apply in_map_iff in K. destruct K as [d [Ed Hd]].
        inversion S1 as [|? ? _ S3]; subst. rewrite Forall_forall in S3. specialize (S3 d Hd). specialize (S2 c (or_introl eq_refl)). lia.
      + intro K. destruct K as [K|K]; [congruence|]. apply in_map_iff in K. destruct K as [d [Ed Hd]].
        inversion S1 as [|? ? _ S3]; subst. rewrite Forall_forall in S3. specialize (S3 d Hd). specialize (S2 c (or_introl eq_refl)). lia.
  Qed.
End Blocks.
Lemma filter_sorted {A} (R : A -> A -> Prop) p l : StronglySorted R l -> StronglySorted R (filter p l).
Proof.
  induction 1 as [|x l S IH F]; [constructor|]. cbn. destruct (p x); [|auto]. constructor; [auto|]. rewrite Forall_forall in *. intros y Hy. apply F. now apply filter_In in Hy.
Qed.
Lemma map_sorted {A B} (R : A -> A -> Prop) (S : B -> B -> Prop) (f : A -> B) l :
  (forall a b, In a l -> In b l -> R a b -> S (f a) (f b)) -> StronglySorted R l -> StronglySorted S (map f l).
Proof.
  intros H L. induction L as [|x l L IH F]; [constructor|]. cbn. constructor; [apply IH; intros; apply H; cbn; auto|].
  rewrite Forall_forall in *. intros y Hy. apply in_map_iff in Hy. destruct Hy as [z [<- Hz]]. apply H; cbn; auto.
Qed.
Lemma uniq_sorted l : StronglySorted Z.le l -> StronglySorted Z.lt (uniq l).
Proof.
  induction 1 as [|x l S IH F]; [constructor|]. cbn. constructor; [now apply filter_sorted|]. rewrite Forall_forall in *. intros y Hy.
  apply filter_In in Hy. destruct Hy as [Hy N]. apply (proj1 (uniq_In l y)) in Hy. apply Bool.negb_true_iff, Z.eqb_neq in N. specialize (F y Hy). lia.
Qed.
Lemma sorted_eq l l' : StronglySorted Z.lt l -> StronglySorted Z.lt l' -> (forall x, In x l <-> In x l') -> l = l'.
Proof.
  intro S. revert l'. induction S as [|x l S IH F]; intros l' S' H.
  - destruct l' as [|y l']; [reflexivity|]. exfalso. apply (H y). now left.
  - inversion S' as [|y l2 S2 F2]; subst; [exfalso; apply (H x); now left|]. rewrite Forall_forall in *.
    assert (E : x = y).
    { destruct (proj1 (H x) (or_introl eq_refl)) as [E|I]; [auto|]. destruct (proj2 (H y) (or_introl eq_refl)) as [E|J]; [auto|].
      specialize (F y J). specialize (F2 x I). lia. }
    subst y. f_equal. apply IH; [auto|]. intro z. split; intro I.
    + destruct (proj1 (H z) (or_intror I)) as [E|J]; [|auto]. subst z. specialize (F x I). lia.
    + destruct (proj2 (H z) (or_intror I)) as [E|J]; [|auto]. subst z. specialize (F2 x I). lia.
Qed.

(* ------------------------------------------------------------------ *)
(** ** Aggregation *)
Lemma first_app l r : first_val (l ++ r) = match first_val l with Some q => Some q | None => first_val r end.
Proof. induction l as [|[q|] l IH]; cbn; auto. Qed.
Lemma last_app l r : last_val (l ++ r) = match last_val r with Some q => Some q | None => last_val l end.
Proof. unfold last_val. rewrite rev_app_distr. apply first_app. Qed.
Lemma first_none l : first_val l = None <-> forall o, In o l -> o = None.
Proof.
  induction l as [|[q|] l IH]; cbn.
  - split; [intros _ o []|auto].
  - split; [discriminate|]. intro H. specialize (H (Some q) (or_introl eq_refl)). discriminate.
  - rewrite IH. split; [intros H o [<-|I]; auto|auto].
Qed.
Lemma last_none l : last_val l = None <-> forall o, In o l -> o = None.
Proof. unfold last_val. rewrite first_none. split; intros H o I; apply H; [now apply in_rev in I|now apply in_rev]. Qed.
Lemma first_some l q : first_val l = Some q <-> exists pre post, l = pre ++ Some q :: post /\ forall o, In o pre -> o = None.
Proof.
  split.
  - induction l as [|[p|] l IH]; cbn; [discriminate|..].
    + intros [= ->]. exists [], l. split; [auto|intros o []].
    + intro H. destruct (IH H) as [pre [post [-> F]]]. exists (None :: pre), post. split; [auto|]. intros o [<-|I]; auto.
  - intros [pre [post [-> F]]]. rewrite first_app. apply first_none in F. now rewrite F.
Qed.
Lemma last_some l q : last_val l = Some q <-> exists pre post, l = pre ++ Some q :: post /\ forall o, In o post -> o = None.
Proof.
  unfold last_val. rewrite first_some. split; intros [pre [post [E F]]].
  - exists (rev post), (rev pre). split.
    + rewrite <- (rev_involutive l), E, rev_app_distr. cbn. now rewrite <- app_assoc.
    + intros o I. apply F. now apply in_rev in I.
  - exists (rev post), (rev pre). split.
    + rewrite E, rev_app_distr. cbn. now rewrite <- app_assoc.
    + intros o I. apply F. now apply in_rev in I.
Qed.
(** Properties of a selecting binary operation (Qmax, Qmin). *)
Record selector (g : Q -> Q -> Q) (R : Q -> Q -> Prop) : Prop := {
  s_l : forall x y, R x (g x y); s_r : forall x y, R y (g x y);
  s_case : forall x y, g x y = x \/ g x y = y;
  s_trans : forall x y z, R x y -> R y z -> R x z; s_refl : forall x, R x x;
  s_anti : forall x y, R x y -> R y x -> (x == y)%Q }.
Lemma max_selector : selector Qmax Qle.
Proof.
  constructor; intros.
  - apply Q.le_max_l.
  - apply Q.le_max_r.
  - unfold Qmax, GenericMinMax.gmax. destruct (x ?= y)%Q; auto.
  - eapply Qle_trans; eauto.
  - apply Qle_refl.
  - now apply Qle_antisym.
Qed.
Lemma min_selector : selector Qmin (fun x y => (y <= x)%Q).
Proof.
  constructor; intros.
  - apply Q.le_min_l.
  - apply Q.le_min_r.
  - unfold Qmin, GenericMinMax.gmin. destruct (x ?= y)%Q; auto.
  - eapply Qle_trans; eauto.
  - apply Qle_refl.
  - now apply Qle_antisym.
Qed.
(** Spec of an extreme: attained and not exceeded. *)
Definition extreme (R : Q -> Q -> Prop) (l : list (option Q)) (o : option Q) : Prop :=
  match o with Some m => In (Some m) l /\ forall q, In (Some q) l -> R q m | None => forall q, ~ In (Some q) l end.
Lemma pick_fold g R l : selector g R -> forall a, extreme R (a :: l) (fold_left (pick g) l a).
Proof.
  intro S. induction l as [|o l IH]; intro a; cbn [fold_left].
  - destruct a as [x|]; cbn; [split; [auto|]|intuition discriminate]. intros q [[= ->]|[]]. now apply (s_refl g R S).
  - specialize (IH (pick g a o)). destruct a as [x|], o as [y|]; cbn [pick] in *.
    + destruct (fold_left (pick g) l (Some (g x y))) as [m|]; cbn in *.
      * destruct IH as [I B]. split.
        -- destruct I as [[= E]|I]; [|auto]. destruct (s_case g R S x y) as [E2|E2]; rewrite <- E, E2; auto.
        -- pose proof (B _ (or_introl eq_refl)) as B0. intros q [[= <-]|[[= <-]|H]]; [eapply (s_trans g R S); [apply (s_l g R S)|exact B0]|eapply (s_trans g R S); [apply (s_r g R S)|exact B0]|auto].
      * exfalso. apply (IH (g x y)). now left.
    + destruct (fold_left (pick g) l (Some x)) as [m|]; cbn in *; [|intros q H; apply (IH q); intuition discriminate].
      destruct IH as [I B]. split; [tauto|]. intros q [E|[E|H]]; [auto|discriminate|auto].
    + destruct (fold_left (pick g) l (Some y)) as [m|]; cbn in *; [|intros q H; apply (IH q); intuition discriminate].
      destruct IH as [I B]. split; [tauto|]. intros q [E|[E|H]]; [discriminate|auto|auto].
    + destruct (fold_left (pick g) l None) as [m|]; cbn in *; [|intros q H; apply (IH q); intuition discriminate].
      destruct IH as [I B]. split; [tauto|]. intros q [E|[E|H]]; [discriminate|discriminate|auto].
Qed.
Lemma extreme_drop R l o : extreme R (None :: l) o <-> extreme R l o.
Proof.
  destruct o as [m|]; cbn.
  - split; intros [I B]; (split; [intuition discriminate|]); intros q H; apply B; [auto|intuition discriminate].
  - split; intros H q K; apply (H q); intuition discriminate.
Qed.
Lemma max_extreme l : extreme Qle l (max_val l).
Proof. apply extreme_drop. apply (pick_fold Qmax Qle l max_selector None). Qed.
Lemma min_extreme l : extreme (fun x y => (y <= x)%Q) l (min_val l).
Proof. apply extreme_drop. apply (pick_fold Qmin (fun x y => (y <= x)%Q) l min_selector None). Qed.
Lemma extreme_unique g R l l' o o' : selector g R -> extreme R l o -> extreme R l' o' -> (forall q, In (Some q) l' -> In (Some q) l) ->
  (forall q, In (Some q) l -> exists q', In (Some q') l' /\ R q q') -> oeq o o'.
Proof.
  intros S E E' H1 H2. destruct o as [m|], o' as [m'|]; cbn in *.
  - destruct E as [I B], E' as [I' B']. destruct (H2 m I) as [q [Iq Rq]]. apply (s_anti g R S).
    + eapply (s_trans g R S); [exact Rq|auto].
    + apply B, H1, I'.
  - destruct E as [I B]. destruct (H2 m I) as [q [Iq _]]. now apply (E' q).
  - destruct E' as [I B]. apply (E m'). auto.
  - exact Logic.I.
Qed.

(** Sums over groups. *)
Lemma zsum_app l r : zsum (l ++ r) = zsum l + zsum r.
Proof. unfold zsum. induction l as [|x l IH]; cbn; lia. Qed.
Lemma zsum_perm l r : Permutation l r -> zsum l = zsum r.
Proof. unfold zsum. induction 1; cbn; lia. Qed.
Lemma zsum_zero l : (forall x, In x l -> x = 0) -> zsum l = 0.
Proof. induction l as [|x l IH]; intro H; [reflexivity|]. cbn. rewrite (H x) by now left. apply IH. intros; apply H; now right. Qed.
Lemma qsum_zero l : (forall x, In x l -> (x == 0)%Q) -> (qsum l == 0)%Q.
Proof. induction l as [|x l IH]; intro H; [reflexivity|]. rewrite qsum_cons, (H x) by now left. rewrite IH by (intros; apply H; now right). reflexivity. Qed.
Lemma no_open g : first_val (map b_open g) = None -> forall b, In b g -> b_open b = None.
Proof. intros H b I. pose proof (proj1 (first_none _) H) as K. apply K. now apply in_map. Qed.
Lemma group_In tf df k b : In b (group tf df k) <-> In b df /\ floor_to tf (b_ts b) = k.
Proof. unfold group. rewrite filter_In, Z.eqb_eq. tauto. Qed.
Section Two.
  Variable sort : list bar -> list bar.
  (** One level of aggregation against the concatenated groups. *)
  Section Level.
    Variable G : Z -> list bar.
    Let A (k : Z) := agg sort k (G k).
    Hypothesis GV : forall k b, In b (G k) -> valid_bar b.
    Lemma level_open L : first_val (map b_open (filter has_open (map A L))) = first_val (map b_open (concat (map G L))).
    Proof.
      induction L as [|k L IH]; [reflexivity|]. cbn [map concat filter]. rewrite map_app, first_app.
      unfold has_open at 1, A at 1. cbn [agg b_open]. destruct (first_val (map b_open (G k))) as [q|] eqn:E; [|exact IH].
      cbn [map]. unfold A at 1. cbn [agg b_open]. rewrite E. reflexivity.
    Qed.
    Lemma level_close L : last_val (map b_close (filter has_open (map A L))) = last_val (map b_close (concat (map G L))).
    Proof.
      induction L as [|k L IH]; [reflexivity|]. cbn [map concat filter]. rewrite map_app, last_app, <- IH.
      unfold has_open at 1, A at 1. cbn [agg b_open]. destruct (first_val (map b_open (G k))) as [q|] eqn:E.
      - cbn [map]. change (b_close (A k) :: map b_close (filter has_open (map A L))) with ([b_close (A k)] ++ map b_close (filter has_open (map A L))).
        rewrite last_app. destruct (last_val (map b_close (filter has_open (map A L)))); [reflexivity|].
        unfold A. cbn [agg b_close]. unfold last_val at 1. cbn. destruct (last_val (map b_close (G k))); reflexivity.
      - assert (N : last_val (map b_close (G k)) = None).
        { apply last_none. intros o I. apply in_map_iff in I. destruct I as [b [<- I]]. apply (GV k b I). now apply (no_open _ E). }
        rewrite N. destruct (last_val (map b_close (filter has_open (map A L)))); reflexivity.
    Qed.
    Lemma level_vol L : (qsum (map b_vol (filter has_open (map A L))) == qsum (map b_vol (concat (map G L))))%Q.
    Proof.
      induction L as [|k L IH]; [reflexivity|]. cbn [map concat filter]. rewrite map_app, qsum_app, <- IH.
      unfold has_open at 1, A at 1. cbn [agg b_open]. destruct (first_val (map b_open (G k))) as [q|] eqn:E.
      - cbn [map]. rewrite qsum_cons. reflexivity.
      - rewrite (qsum_zero (map b_vol (G k))); [ring|]. intros o I. apply in_map_iff in I. destruct I as [b [<- I]]. apply (GV k b I). now apply (no_open _ E).
    Qed.
    Lemma level_trades L : zsum (map b_trades (filter has_open (map A L))) = zsum (map b_trades (concat (map G L))).
    Proof.
      induction L as [|k L IH]; [reflexivity|]. cbn [map concat filter]. rewrite map_app, zsum_app, <- IH.
      unfold has_open at 1, A at 1. cbn [agg b_open]. destruct (first_val (map b_open (G k))) as [q|] eqn:E.
      - reflexivity.
      - rewrite (zsum_zero (map b_trades (G k))); [lia|]. intros o I. apply in_map_iff in I. destruct I as [b [<- I]]. apply (GV k b I). now apply (no_open _ E).
    Qed.
    Lemma traded_zero b : (b_vol b == 0)%Q -> (traded b == 0)%Q.
    Proof. intro H. unfold traded. destruct (b_vwap b); [rewrite H; ring|reflexivity]. Qed.
    Lemma traded_agg k : (traded (A k) == qsum (map traded (G k)))%Q.
    Proof.
      unfold traded at 1, A. cbn [agg b_vwap b_vol]. unfold vwap_of. destruct (Qeq_bool (qsum (map b_vol (G k))) 0) eqn:E.
      - apply Qeq_bool_iff in E. symmetry. apply qsum_zero. intros o I. apply in_map_iff in I. destruct I as [b [<- I]]. apply traded_zero.
        assert (P : forall y, In y (map b_vol (G k)) -> (0 <= y)%Q) by (intros y Hy; apply in_map_iff in Hy; destruct Hy as [c [<- Hc]]; apply (GV k c Hc)).
        apply (qsum_zero_all _ P); [rewrite E; apply Qle_refl|now apply in_map].
      - cbv zeta. field. apply Qeq_bool_neq in E. exact E.
    Qed.
    Lemma level_traded L : (qsum (map traded (filter has_open (map A L))) == qsum (map traded (concat (map G L))))%Q.
    Proof.
      induction L as [|k L IH]; [reflexivity|]. cbn [map concat filter]. rewrite map_app, qsum_app, <- IH, <- traded_agg.
      unfold has_open at 1, A at 1. cbn [agg b_open]. destruct (first_val (map b_open (G k))) as [q|] eqn:E.
      - cbn [map]. rewrite qsum_cons. reflexivity.
      - rewrite traded_zero; [ring|]. unfold A. cbn [agg b_vol]. apply qsum_zero.
        intros o I. apply in_map_iff in I. destruct I as [b [<- I]]. apply (GV k b I). now apply (no_open _ E).
    Qed.
    Lemma level_vwap L : oeq (vwap_of (filter has_open (map A L))) (vwap_of (concat (map G L))).
    Proof.
      unfold vwap_of. pose proof (level_vol L) as V. pose proof (level_traded L) as T. cbv zeta.
      destruct (Qeq_bool (qsum (map b_vol (filter has_open (map A L)))) 0) eqn:E1, (Qeq_bool (qsum (map b_vol (concat (map G L)))) 0) eqn:E2; cbn.
      - exact I.
      - apply Qeq_bool_iff in E1. apply Qeq_bool_neq in E2. rewrite V in E1. contradiction.
      - apply Qeq_bool_iff in E2. apply Qeq_bool_neq in E1. rewrite <- V in E2. contradiction.
      - now rewrite V, T.
    Qed.
    Lemma level_ext (R : Q -> Q -> Prop) g (sel : bar -> option Q) (val : list (option Q) -> option Q) L :
      selector g R -> (forall l, extreme R l (val l)) -> (forall k, sel (A k) = val (map sel (G k))) ->
      (forall b, valid_bar b -> b_open b = None -> sel b = None) ->
      oeq (val (map sel (filter has_open (map A L)))) (val (map sel (concat (map G L)))).
    Proof.
      intros S X HA HV.
      assert (P : forall o o', oeq o o' -> oeq o' o) by (intros [x|] [y|]; cbn; auto; intro; now symmetry).
      apply P. eapply (extreme_unique g R); [exact S|apply X|apply X|..].
      - intros q I. apply in_map_iff in I. destruct I as [r [Er Ir]]. apply filter_In in Ir. destruct Ir as [Ir _]. apply in_map_iff in Ir. destruct Ir as [k [<- Ik]].
        rewrite HA in Er. pose proof (X (map sel (G k))) as Xk. rewrite Er in Xk. cbn in Xk. destruct Xk as [Xk _].
        rewrite concat_map, map_map. apply in_concat. exists (map sel (G k)). split; [|exact Xk]. now apply (in_map (fun x => map sel (G x))).
      - intros q I. apply in_map_iff in I. destruct I as [b [Eb Ib]]. apply in_concat in Ib. destruct Ib as [l [Il Ib]].
        apply in_map_iff in Il. destruct Il as [k [<- Ik]].
        assert (O : has_open (A k) = true).
        { unfold has_open, A. cbn [agg b_open]. destruct (first_val (map b_open (G k))) eqn:E; [reflexivity|].
          rewrite (HV b (GV k b Ib) (no_open _ E b Ib)) in Eb. discriminate. }
        pose proof (X (map sel (G k))) as Xk. rewrite <- HA in Xk. destruct (sel (A k)) as [m|] eqn:E; cbn in Xk.
        + exists m. split; [|apply Xk; rewrite <- Eb; now apply in_map]. apply in_map_iff. exists (A k). split; [exact E|].
          apply filter_In. split; [now apply in_map|exact O].
        + exfalso. apply (Xk q). rewrite <- Eb. now apply in_map.
    Qed.
    Lemma level K L : bar_eq (agg sort K (filter has_open (map A L))) (agg sort K (concat (map G L))).
    Proof.
      unfold bar_eq. cbn [agg b_ts b_open b_high b_low b_close b_vol b_trades b_vwap]. repeat split.
      - apply level_open.
      - apply (level_ext Qle Qmax b_high max_val L max_selector max_extreme); [reflexivity|]. intros b [_ V] O. now apply V.
      - apply (level_ext (fun x y => (y <= x)%Q) Qmin b_low min_val L min_selector min_extreme); [reflexivity|]. intros b [_ V] O. now apply V.
      - apply level_close.
      - apply level_vol.
      - apply level_trades.
      - apply level_vwap.
    Qed.
  End Level.

  (** C69: the totals are those of the bars. *)
  Theorem C69_totals tf df : (forall b, In b df -> valid_bar b) ->
    (qsum (map b_vol (resample sort tf df)) == qsum (map b_vol df))%Q /\ zsum (map b_trades (resample sort tf df)) = zsum (map b_trades df).
  Proof.
    intro V. assert (GV : forall k b, In b (group tf df k) -> valid_bar b) by (intros k b I; apply V; now apply group_In in I).
    pose proof (blocks_perm bar (fun b => floor_to tf (b_ts b)) df) as P.
    unfold resample. split.
    - rewrite (level_vol (group tf df) GV). apply qsum_perm, Permutation_map. exact P.
    - rewrite (level_trades (group tf df) GV). apply zsum_perm, Permutation_map. exact P.
  Qed.

  (** C69: a row per period that has an open, labelled with the start of the period; its
      fields against the bars of the period. *)
  Theorem C69_rows tf df : 0 < tf -> NoDup (map b_ts (resample sort tf df)) /\
    forall k, In k (map b_ts (resample sort tf df)) <-> (tf | k) /\ exists b, In b df /\ k <= b_ts b < k + tf /\ b_open b <> None.
  Proof.
    intro T. unfold resample. set (A := fun k => agg sort k (group tf df k)). set (U := uniq (map (fun b => floor_to tf (b_ts b)) df)).
    assert (E : map b_ts (filter has_open (map A U)) = filter (fun k => has_open (A k)) U).
    { generalize U. intro u. induction u as [|k u IH]; [reflexivity|]. cbn [map filter]. destruct (has_open (A k)); [|exact IH]. cbn [map]. f_equal. exact IH. }
    rewrite E. split; [apply NoDup_filter, uniq_NoDup|]. intro k. rewrite filter_In. unfold U. rewrite uniq_In. split.
    - intros [I O]. unfold has_open, A in O. cbn [agg b_open] in O. destruct (first_val (map b_open (group tf df k))) as [q|] eqn:F; [|discriminate].
      apply in_map_iff in I. destruct I as [b [<- Ib]]. split; [exists (b_ts b / tf); reflexivity|].
      apply first_some in F. destruct F as [pre [post [F _]]].
      assert (Iq : In (Some q) (map b_open (group tf df (floor_to tf (b_ts b))))) by (rewrite F; apply in_or_app; right; now left).
      apply in_map_iff in Iq. destruct Iq as [c [Ec Ic]]. apply group_In in Ic. destruct Ic as [Ic Fc]. exists c. rewrite <- Fc.
      split; [exact Ic|]. split; [now apply floor_bounds|]. rewrite Ec. discriminate.
    - intros [D [b [Ib [B O]]]]. pose proof (floor_unique tf (b_ts b) k T D B) as F. split.
      + apply in_map_iff. now exists b.
      + unfold has_open, A. cbn [agg b_open]. destruct (first_val (map b_open (group tf df k))) as [q|] eqn:E2; [reflexivity|].
        exfalso. apply O. apply (no_open _ E2). apply group_In. auto.
  Qed.
  Theorem C69_fields tf df r : 0 < tf -> In r (resample sort tf df) ->
    exists g, g = filter (fun b => (b_ts r <=? b_ts b) && (b_ts b <? b_ts r + tf))%bool df /\
      (exists o pre post, b_open r = Some o /\ map b_open g = pre ++ Some o :: post /\ forall x, In x pre -> x = None) /\
      extreme Qle (map b_high g) (b_high r) /\ extreme (fun x y => (y <= x)%Q) (map b_low g) (b_low r) /\
      (match b_close r with
       | Some c => exists pre post, map b_close g = pre ++ Some c :: post /\ forall x, In x post -> x = None
       | None => forall x, In x (map b_close g) -> x = None end) /\
      (b_vol r == qsum (map b_vol g))%Q /\ b_trades r = zsum (map b_trades g) /\
      (match b_vwap r with
       | Some v => ~ (b_vol r == 0)%Q /\ (v * b_vol r == qsum (map (fun b => match b_vwap b with Some w => w * b_vol b | None => 0 end) g))%Q
       | None => (b_vol r == 0)%Q end).
  Proof.
    intros T H. unfold resample in H. apply filter_In in H. destruct H as [H O]. apply in_map_iff in H. destruct H as [k [<- Ik]].
    cbn [agg b_ts b_open b_high b_low b_close b_vol b_trades b_vwap]. exists (group tf df k).
    assert (D : (tf | k)) by (apply uniq_In, in_map_iff in Ik; destruct Ik as [b [<- _]]; exists (b_ts b / tf); reflexivity).
    split; [|split; [|split; [apply max_extreme|split; [apply min_extreme|split; [|split; [reflexivity|split; [reflexivity|]]]]]]].
    - unfold group. apply filter_ext. intro b. destruct (Z.eqb_spec (floor_to tf (b_ts b)) k) as [E|N].
      + pose proof (floor_bounds tf (b_ts b) T). symmetry. apply andb_true_iff. rewrite Z.leb_le, Z.ltb_lt. lia.
      + symmetry. apply andb_false_iff. rewrite Z.leb_gt, Z.ltb_ge. destruct (Z.lt_ge_cases (b_ts b) k); [auto|].
        destruct (Z.lt_ge_cases (b_ts b) (k + tf)); [|auto]. exfalso. apply N. apply floor_unique; auto.
    - unfold has_open in O. cbn [agg b_open] in O. destruct (first_val (map b_open (group tf df k))) as [o|] eqn:E; [|discriminate].
      apply first_some in E. destruct E as [pre [post [E F]]]. exists o, pre, post. auto.
    - destruct (last_val (map b_close (group tf df k))) as [c|] eqn:E; [exact (proj1 (last_some _ _) E)|exact (proj1 (last_none _) E)].
    - unfold vwap_of. cbv zeta. destruct (Qeq_bool (qsum (map b_vol (group tf df k))) 0) eqn:E; [now apply Qeq_bool_iff|].
      apply Qeq_bool_neq in E. split; [exact E|]. unfold traded. field. exact E.
  Qed.

  (** C69: resampling to tf and then to m*tf gives the bars of resampling to m*tf. *)
  Theorem C69_two_steps tf m df : 0 < tf -> 0 < m -> sorted_bars df -> (forall b, In b df -> valid_bar b) ->
    Forall2 bar_eq (resample sort (m * tf) (resample sort tf df)) (resample sort (m * tf) df).
  Proof.
    intros T M S V. unfold sorted_bars in S.
    set (f := fun b => floor_to tf (b_ts b)). set (F := fun t => floor_to (m * tf) t).
    set (U := uniq (map f df)). set (A := fun k => agg sort k (group tf df k)).
    set (R := filter has_open (map A U)). assert (ER : resample sort tf df = R) by reflexivity. rewrite ER.
    assert (GV : forall k b, In b (group tf df k) -> valid_bar b) by (intros k b I; apply V; now apply group_In in I).
    assert (Sf : StronglySorted (fun a b => f a <= f b) df).
    { rewrite <- (map_id df). eapply map_sorted; [|exact S]. intros a b _ _ L. now apply floor_mono. }
    assert (SU : StronglySorted Z.lt U).
    { apply uniq_sorted. eapply map_sorted; [|exact Sf]. cbn. auto. }
    assert (GF : forall K, group (m * tf) df K = concat (map (group tf df) (filter (fun k => F k =? K) U))).
    { intro K. unfold group at 1. rewrite <- (blocks_sorted bar f df Sf) at 1. fold U.
      change (fun k => filter (fun b => f b =? k) df) with (group tf df).
      assert (HU : forall u, (filter (fun b => floor_to (m * tf) (b_ts b) =? K) (concat (map (group tf df) u))) = concat (map (group tf df) (filter (fun k => F k =? K) u))).
      { induction u as [|k u IH]; [reflexivity|]. cbn [map concat filter]. rewrite filter_app, IH.
        assert (Hk : forall b, In b (group tf df k) -> (floor_to (m * tf) (b_ts b) =? K) = (F k =? K)).
        { intros b I. apply group_In in I. destruct I as [_ <-]. unfold F. now rewrite floor_floor. }
        destruct (F k =? K) eqn:E.
        - cbn [map concat]. f_equal. apply filter_all. intros b I. now apply Hk.
        - rewrite filter_nil; [reflexivity|]. intros b I. now apply Hk. }
      apply HU. }
    assert (GR : forall K, group (m * tf) R K = filter has_open (map A (filter (fun k => F k =? K) U))).
    { intro K. unfold R, group. generalize U. intro u. induction u as [|k u IH]; [reflexivity|]. cbn [map filter].
      destruct (has_open (A k)) eqn:O; cbn [filter].
      - change (floor_to (m * tf) (b_ts (A k))) with (F k). destruct (F k =? K); [|exact IH]. cbn [map filter]. rewrite O. f_equal. exact IH.
      - destruct (F k =? K); [|exact IH]. cbn [map filter]. rewrite O. exact IH. }
    assert (EQ : forall K, bar_eq (agg sort K (group (m * tf) R K)) (agg sort K (group (m * tf) df K))).
    { intro K. rewrite GR, GF. apply level. exact GV. }
    unfold resample.
    assert (OK : forall K, has_open (agg sort K (group (m * tf) R K)) = has_open (agg sort K (group (m * tf) df K))).
    { intro K. destruct (EQ K) as [_ [E _]]. unfold has_open. now rewrite E. }
    set (KR := uniq (map (fun b => floor_to (m * tf) (b_ts b)) R)). set (KD := uniq (map (fun b => floor_to (m * tf) (b_ts b)) df)).
    assert (FM : forall (G : Z -> list bar) ks, filter has_open (map (fun k => agg sort k (G k)) ks) = map (fun k => agg sort k (G k)) (filter (fun k => has_open (agg sort k (G k))) ks)).
    { intros G ks. induction ks as [|k ks IH]; [reflexivity|]. cbn [map filter]. destruct (has_open (agg sort k (G k))); [|exact IH]. cbn [map]. now rewrite IH. }
    rewrite !FM.
    assert (EK : filter (fun k => has_open (agg sort k (group (m * tf) R k))) KR = filter (fun k => has_open (agg sort k (group (m * tf) df k))) KD).
    { rewrite (filter_ext _ _ OK). apply sorted_eq.
      - apply filter_sorted, uniq_sorted. apply (map_sorted (fun a b : bar => b_ts a <= b_ts b)).
        + intros a b _ _ L. now apply floor_mono; [nia|].
        + unfold R. apply filter_sorted. eapply map_sorted; [|exact SU]. intros a b _ _ L. cbn. lia.
      - apply filter_sorted, uniq_sorted. eapply map_sorted; [|exact S]. intros a b _ _ L. now apply floor_mono; [nia|].
      - intro K. rewrite !filter_In. unfold KR, KD. rewrite !uniq_In.
        assert (H1 : In K (map (fun b => floor_to (m * tf) (b_ts b)) df) -> has_open (agg sort K (group (m * tf) df K)) = true ->
                     In K (map (fun b => floor_to (m * tf) (b_ts b)) R)).
        { intros _ O. rewrite <- OK in O. unfold has_open in O. cbn [agg b_open] in O.
          destruct (first_val (map b_open (group (m * tf) R K))) as [q|] eqn:E; [|discriminate].
          destruct (group (m * tf) R K) as [|r l] eqn:G; [discriminate|]. assert (I : In r (group (m * tf) R K)) by (rewrite G; now left).
          apply group_In in I. apply in_map_iff. exists r. tauto. }
        assert (H2 : In K (map (fun b => floor_to (m * tf) (b_ts b)) R) -> In K (map (fun b => floor_to (m * tf) (b_ts b)) df)).
        { intro I. apply in_map_iff in I. destruct I as [r [<- Ir]]. apply filter_In in Ir. destruct Ir as [Ir _]. apply in_map_iff in Ir.
          destruct Ir as [k [<- Ik]]. apply uniq_In, in_map_iff in Ik. destruct Ik as [b [<- Ib]]. apply in_map_iff. exists b. split; [|exact Ib].
          cbn. unfold f. now rewrite floor_floor. }
        tauto. }
    rewrite EK. generalize (filter (fun k => has_open (agg sort k (group (m * tf) df k))) KD). intro ks.
    induction ks as [|K ks IH]; constructor; auto.
  Qed.

  (** C69: the median size is the weighted lower median of the sizes of the period. *)
  Lemma reach_spec w s : StronglySorted (fun a b => (b_med a <= b_med b)%Q) s -> (forall b, In b s -> 0 <= b_trades b) ->
    forall acc cutoff, (acc < cutoff)%Q -> (cutoff <= acc + qsum (map w s))%Q -> (forall b, In b s -> w b = inject_Z (b_trades b)) ->
    exists b, In b s /\ reach acc cutoff s = b_med b /\
      (acc + qsum (map w (filter (fun c => Qltb (b_med c) (b_med b)) s)) < cutoff)%Q /\ (cutoff <= acc + qsum (map w (filter (fun c => Qleb (b_med c) (b_med b)) s)))%Q.
  Proof.
    induction 1 as [|b s S IH F]; intros N acc cutoff L U W; [cbn in U; exfalso; lra|].
    cbn [reach]. rewrite <- (W b) by now left. rewrite Forall_forall in F.
    assert (Nn : forall l, (forall c, In c l -> In c (b :: s)) -> (0 <= qsum (map w l))%Q).
    { intros l Hl. apply qsum_nonneg. intros x Hx. apply in_map_iff in Hx. destruct Hx as [c [<- Hc]]. rewrite W by auto.
      change 0%Q with (inject_Z 0). rewrite <- Zle_Qle. auto. }
    destruct (Qleb cutoff (acc + w b)) eqn:C.
    - apply Qleb_iff in C. exists b. split; [now left|]. split; [reflexivity|]. split.
      + rewrite filter_nil; [cbn; lra|]. intros c [<-|I]; (destruct (Qltb _ _) eqn:E; [|reflexivity]); apply Qltb_iff in E; [lra|]. specialize (F c I). lra.
      + cbn [filter]. assert (E : Qleb (b_med b) (b_med b) = true) by (apply Qleb_iff; lra). rewrite E. cbn [map]. rewrite qsum_cons.
        pose proof (Nn (filter (fun c => Qleb (b_med c) (b_med b)) s)) as P. assert (0 <= qsum (map w (filter (fun c => Qleb (b_med c) (b_med b)) s)))%Q by (apply P; intros c I; apply filter_In in I; right; tauto). lra.
    - assert (C2 : (acc + w b < cutoff)%Q) by (apply Qnot_le_lt; intro K; apply Qleb_iff in K; congruence).
      cbn [map] in U. rewrite qsum_cons in U.
      destruct (IH ltac:(intros; apply N; now right) (acc + w b)%Q cutoff C2 ltac:(lra) ltac:(intros; apply W; now right)) as [c [I [E [X Y]]]].
      exists c. split; [now right|]. split; [exact E|]. split.
      + cbn [filter]. destruct (Qltb (b_med b) (b_med c)); cbn [map]; [rewrite qsum_cons; lra|].
        assert (0 <= w b)%Q by (rewrite W by (now left); change 0%Q with (inject_Z 0); rewrite <- Zle_Qle; apply N; now left). lra.
      + cbn [filter]. assert (K : Qleb (b_med b) (b_med c) = true) by (apply Qleb_iff; auto). rewrite K. cbn [map]. rewrite qsum_cons. lra.
  Qed.
  Theorem C69_median g : Permutation (sort g) g -> StronglySorted (fun a b => (b_med a <= b_med b)%Q) (sort g) ->
    (forall b, In b g -> 0 <= b_trades b) -> 0 < zsum (map b_trades g) ->
    exists b, In b g /\ w_median sort g = b_med b /\
      2 * zsum (map b_trades (filter (fun c => Qltb (b_med c) (b_med b)) g)) < zsum (map b_trades g) /\
      zsum (map b_trades g) <= 2 * zsum (map b_trades (filter (fun c => Qleb (b_med c) (b_med b)) g)).
  Proof.
    intros P S N T. set (w := fun b => inject_Z (b_trades b)).
    assert (Z2 : forall l, (qsum (map w l) == inject_Z (zsum (map b_trades l)))%Q).
    { induction l as [|b l IH]; [reflexivity|]. cbn [map]. rewrite qsum_cons, IH. cbn. rewrite inject_Z_plus. reflexivity. }
    assert (PF : forall p (l l' : list bar), Permutation l l' -> Permutation (filter p l) (filter p l')).
    { intros p l l'. induction 1 as [|x l l' Q IH|x y l|]; cbn; [constructor|destruct (p x); [now constructor|auto]|destruct (p x), (p y); try constructor; apply Permutation_refl|etransitivity; eauto]. }
    assert (T2 : (0 < qsum (map w (sort g)))%Q).
    { rewrite Z2. change 0%Q with (inject_Z 0). rewrite <- Zlt_Qlt. rewrite (zsum_perm _ (map b_trades g)); [exact T|now apply Permutation_map]. }
    destruct (reach_spec w (sort g) S) with (acc := 0%Q) (cutoff := (qsum (map w (sort g)) * (1 # 2))%Q) as [b [I [E [X Y]]]].
    - intros b I. apply N. eapply Permutation_in; eauto.
    - lra.
    - lra.
    - reflexivity.
    - exists b. split; [eapply Permutation_in; eauto|]. split; [exact E|].
      rewrite !Z2 in X, Y.
      rewrite (zsum_perm _ _ (Permutation_map b_trades P)) in X, Y.
      rewrite (zsum_perm _ _ (Permutation_map b_trades (PF _ _ _ P))) in X.
      rewrite (zsum_perm _ _ (Permutation_map b_trades (PF _ _ _ P))) in Y.
      revert X Y. generalize (zsum (map b_trades g)) (zsum (map b_trades (filter (fun c => Qltb (b_med c) (b_med b)) g))) (zsum (map b_trades (filter (fun c => Qleb (b_med c) (b_med b)) g))).
      intros t x y X Y. unfold Qlt, Qle, Qplus, Qmult, inject_Z in X, Y. cbn in X, Y. lia.
  Qed.
End Two.

(* ------------------------------------------------------------------ *)
(** ** Examples and the median in two steps *)
(** Insertion by size: one order [np.argsort] may give. *)
Fixpoint ins_med (b : bar) (l : list bar) : list bar :=
  match l with [] => [b] | c :: l' => if Qleb (b_med b) (b_med c) then b :: l else c :: ins_med b l' end.
Definition sort_med (l : list bar) : list bar := fold_right ins_med [] l.
Lemma ins_perm b l : Permutation (ins_med b l) (b :: l).
Proof.
  induction l as [|c l IH]; cbn; [apply Permutation_refl|]. destruct (Qleb (b_med b) (b_med c)); [apply Permutation_refl|].
  etransitivity; [apply perm_skip, IH|apply perm_swap].
Qed.
Lemma sort_perm l : Permutation (sort_med l) l.
Proof. induction l as [|b l IH]; cbn; [constructor|]. etransitivity; [apply ins_perm|now apply perm_skip]. Qed.
Lemma ins_sorted b l : StronglySorted (fun a b => (b_med a <= b_med b)%Q) l -> StronglySorted (fun a b => (b_med a <= b_med b)%Q) (ins_med b l).
Proof.
  induction 1 as [|c l S IH F]; cbn; [repeat constructor|]. destruct (Qleb (b_med b) (b_med c)) eqn:E.
  - apply Qleb_iff in E. constructor; [now constructor|]. constructor; [exact E|]. rewrite Forall_forall in *. intros x I. specialize (F x I). cbv beta in F. lra.
  - constructor; [exact IH|]. rewrite Forall_forall in *. intros x I. apply (Permutation_in _ (ins_perm b l)) in I. destruct I as [<-|I]; [|auto].
    assert (~ (b_med b <= b_med c)%Q) by (intro K; apply Qleb_iff in K; congruence). lra.
Qed.
Lemma sort_sorted l : StronglySorted (fun a b => (b_med a <= b_med b)%Q) (sort_med l).
Proof. induction l as [|b l IH]; cbn; [constructor|now apply ins_sorted]. Qed.
(** Seven bars over two periods of length 6 (periods of 2 inside), one of them empty. *)
Definition ex_df : list bar :=
  [mkBar 0 (Some 10) (Some 12) (Some 9) (Some 11) 2 1 (Some 10) 2;
   mkBar 1 (Some 11) (Some 11) (Some 8) (Some 8) 3 2 (Some 9) 1;
   mkBar 2 None None None None 0 0 None 0;
   mkBar 3 None None None None 0 0 None 0;
   mkBar 4 (Some 8) (Some 15) (Some 8) (Some 14) 5 3 (Some 12) 3;
   mkBar 7 (Some 14) (Some 14) (Some 13) (Some 13) 1 1 (Some 14) 1;
   mkBar 8 None None None None 0 0 None 0]%Q.
Definition opens_of (l : list bar) := map (fun b => (b_ts b, b_open b, b_high b, b_low b, b_close b)) l.
Lemma ex_df_ok : sorted_bars ex_df /\ forall b, In b ex_df -> valid_bar b.
Proof.
  split; [repeat constructor; cbn; discriminate|]. intros b I.
  cbn in I. repeat (destruct I as [<-|I]; [split; [vm_compute; discriminate|]; cbn; intro K; (discriminate || (repeat split))|]). destruct I.
Qed.
Example C69_example :
  sorted_bars ex_df /\ (forall b, In b ex_df -> valid_bar b) /\
  opens_of (resample sort_med 6 ex_df) = [(0%Z, Some 10, Some 15, Some 8, Some 14); (6%Z, Some 14, Some 14, Some 13, Some 13)]%Q /\
  map b_ts (resample sort_med 2 ex_df) = [0; 4; 6] /\
  map b_trades (resample sort_med 6 ex_df) = [6; 1] /\ map (fun b => Qred (b_vol b)) (resample sort_med 6 ex_df) = [10; 1]%Q /\
  map (fun b => option_map Qred (b_vwap b)) (resample sort_med 6 ex_df) = [Some (107 # 10); Some 14]%Q /\
  map (fun b => option_map Qred (b_vwap b)) (resample sort_med 6 (resample sort_med 2 ex_df)) = [Some (107 # 10); Some 14]%Q /\
  Permutation (sort_med ex_df) ex_df /\ StronglySorted (fun a b => (b_med a <= b_med b)%Q) (sort_med ex_df) /\ w_median sort_med ex_df = 2%Q.
Proof.
  split; [apply ex_df_ok|]. split; [apply ex_df_ok|]. do 6 (split; [vm_compute; reflexivity|]).
  split; [apply sort_perm|]. split; [apply sort_sorted|]. vm_compute. reflexivity.
Qed.
(** C69, the median size: the median of medians is another number, for every sort. *)
Definition med_bar (t n : Z) (q : Q) : bar := mkBar t (Some 1%Q) (Some 1%Q) (Some 1%Q) (Some 1%Q) 1%Q n (Some 1%Q) q.
Theorem C69_median_two_steps_refuted : exists tf m df, 0 < tf /\ 0 < m /\ sorted_bars df /\ (forall b, In b df -> valid_bar b) /\
  map b_med (resample sort_med (m * tf) (resample sort_med tf df)) <> map b_med (resample sort_med (m * tf) df).
Proof.
  exists 2, 2, [med_bar 0 3 1; med_bar 1 2 2; med_bar 2 2 2; med_bar 3 3 3]. split; [lia|]. split; [lia|]. split; [repeat constructor; cbn; lia|]. split.
  - intros b I. cbn in I. repeat (destruct I as [<-|I]; [split; [vm_compute; discriminate|]; cbn; discriminate|]). destruct I.
  - vm_compute. discriminate.
Qed.

(* ------------------------------------------------------------------ *)
(** ** C118: the period a trade is put into *)
(** A bar labelled c holds the trades of (c - s, c].  Resampled, a trade at x is counted in
    its own period unless it is in the last s nanoseconds of it, then in the next one. *)
Theorem C118_period s tf x c : 0 < s -> (s | tf) -> 0 < tf -> (s | c) -> c - s < x <= c ->
  floor_to tf c = if x <=? floor_to tf x + tf - s then floor_to tf x else floor_to tf x + tf.
Proof.
  intros Hs [q ->] Ht [r ->] B. set (tf := q * s) in *. pose proof (floor_bounds tf x Ht) as F. set (P := floor_to tf x) in *.
  assert (DP : exists p, P = p * s) by (exists (x / tf * q); unfold P, floor_to, tf; ring). destruct DP as [p EP].
  assert (DT : (tf | P)) by (exists (x / tf); reflexivity).
  destruct (Z.leb_spec x (P + tf - s)) as [L|L].
  - apply floor_unique; [exact Ht|exact DT|]. assert (r * s <= P + tf - s); [|nia].
    rewrite EP in *. unfold tf in *. assert (r - 1 < p + q - 1) by nia. nia.
  - apply floor_unique; [exact Ht|destruct DT as [d ->]; exists (d + 1); ring|]. rewrite EP in *. unfold tf in *.
    assert (p + q - 1 < r) by (apply (Zmult_lt_reg_r _ _ s Hs); lia). assert (r - 1 < p + q) by (apply (Zmult_lt_reg_r _ _ s Hs); lia).
    replace r with (p + q) by lia. lia.
Qed.
(** With the bars of the bar builder (C01): a trade of bar k. *)
Theorem C118_bars ts s tf k j a N : ascZ ts -> 0 < s -> (s | tf) -> 0 < tf ->
  fst (time_bar_indexer ts s) = map (fun i => (a + Z.of_nat i) * s) (seq 0 N) -> (S k < N)%nat -> (j < length ts)%nat ->
  nth k (snd (time_bar_indexer ts s)) 0 < Z.of_nat j <= nth (S k) (snd (time_bar_indexer ts s)) 0 ->
  let x := nth j ts 0 in
  let label := nth (S k) (fst (time_bar_indexer ts s)) 0 in
  floor_to tf label = if x <=? floor_to tf x + tf - s then floor_to tf x else floor_to tf x + tf.
Proof.
  intros A Hs D Ht C K J B x label. unfold label.
  assert (L : length (fst (time_bar_indexer ts s)) = N) by (rewrite C, map_length, seq_length; reflexivity).
  pose proof (C01_bar_of_trade ts s k j A) as T. cbv zeta in T. rewrite L in T. specialize (T K J). apply T in B. fold x in B.
  assert (Hn : forall i, (i < N)%nat -> nth i (fst (time_bar_indexer ts s)) 0 = (a + Z.of_nat i) * s).
  { intros i Hi. rewrite C. rewrite (nth_indep _ 0 ((a + Z.of_nat 0) * s)) by (rewrite map_length, seq_length; lia).
    rewrite (map_nth (fun i => (a + Z.of_nat i) * s)), seq_nth by lia. reflexivity. }
  rewrite !Hn in * by lia. apply C118_period; auto.
  - exists (a + Z.of_nat (S k)). reflexivity.
  - rewrite Nat2Z.inj_succ in *. nia.
Qed.
(** "The period of a bar is the period of its trades" is false. *)
Definition ex_sec : Z := 1000000000.
Definition ex_min : Z := 60 * ex_sec.
Definition ex_trades : list Z := [1600000018000001000; 1600000019300000000; 1600000021200000000].
Theorem C118_same_period_refuted : exists ts k j, ascZ ts /\ (S k < length (fst (time_bar_indexer ts ex_sec)))%nat /\ (j < length ts)%nat /\
  nth k (snd (time_bar_indexer ts ex_sec)) 0 < Z.of_nat j <= nth (S k) (snd (time_bar_indexer ts ex_sec)) 0 /\
  floor_to ex_min (nth (S k) (fst (time_bar_indexer ts ex_sec)) 0) <> floor_to ex_min (nth j ts 0).
Proof.
  exists ex_trades, 1%nat, 1%nat. split.
  { intros i j Hij. simpl length in Hij. destruct i as [|[|[|i]]], j as [|[|[|j]]]; simpl; lia. }
  split; [vm_compute; lia|]. split; [vm_compute; lia|]. split; [vm_compute; split; [reflexivity|discriminate]|]. vm_compute. discriminate.
Qed.
Example C118_example :
  ascZ ex_trades /\ fst (time_bar_indexer ex_trades ex_sec) = map (fun i => (1600000018 + Z.of_nat i) * ex_sec) (seq 0 5) /\
  nth 0 (snd (time_bar_indexer ex_trades ex_sec)) 0 < 0 <= nth 1 (snd (time_bar_indexer ex_trades ex_sec)) 0 /\
  floor_to ex_min (nth 1 (fst (time_bar_indexer ex_trades ex_sec)) 0) = 1599999960 * ex_sec /\
  floor_to ex_min (nth 2 (fst (time_bar_indexer ex_trades ex_sec)) 0) = 1600000020 * ex_sec.
Proof.
  split; [intros i j Hij; simpl length in Hij; destruct i as [|[|[|i]]], j as [|[|[|j]]]; simpl; lia|].
  split; [vm_compute; reflexivity|]. split; [vm_compute; split; [reflexivity|discriminate]|]. split; vm_compute; reflexivity.
Qed.

(* ------------------------------------------------------------------ *)
(** ** C119, C71: reading a range *)
(** Metadata that bounds the bars of each partition loses none of them. *)
Theorem C119_no_bar_lost store s e : (forall p b, In p store -> In b (p_bars p) -> p_first p <= b_ts b <= p_last p) ->
  read_bars store s e = filter (fun b => match s with Some x => x <=? b_ts b | None => true end && match e with Some x => b_ts b <=? x | None => true end)%bool
                               (concat (map p_bars store)).
Proof.
  intro H. unfold read_bars. change (fun b => _) with (in_range s e) at 1. induction store as [|p store IH]; [reflexivity|].
  cbn [filter map concat]. rewrite filter_app, <- IH by (intros; eapply H; eauto; now right). destruct (relevant s e p) eqn:R.
  - cbn [map concat]. now rewrite filter_app.
  - rewrite (filter_nil (in_range s e) (p_bars p)); [reflexivity|]. intros b I. specialize (H p b (or_introl eq_refl) I).
    unfold relevant in R. unfold in_range. destruct s as [x|], e as [y|]; cbn in *;
      repeat match goal with |- context [?a <=? ?b] => destruct (Z.leb_spec a b) | _ : context [?a <=? ?b] |- _ => destruct (Z.leb_spec a b) end; cbn in *; try reflexivity; try discriminate; lia.
Qed.
(** A range that ends before it starts reads nothing (no error). *)
Theorem C119_reversed store s e : e < s -> read_bars store (Some s) (Some e) = [].
Proof.
  intro H. unfold read_bars. apply filter_nil. intros b _. unfold in_range. apply andb_false_iff. rewrite !Z.leb_gt. lia.
Qed.
(** An end without time of day takes in the bars up to the last microsecond of that day. *)
Theorem C119_end_day e t : e mod day_ns = 0 -> (1000 | t) -> (t <= end_of e <-> t < e + day_ns).
Proof.
  intros E [q ->]. unfold end_of, is_date. rewrite E. cbn [Z.ltb Z.compare].
  assert (D : e = day_ns * (e / day_ns)) by (pose proof (Z.div_mod e day_ns ltac:(discriminate)); lia).
  set (d := e / day_ns) in *. clearbody d. subst e. unfold day_ns in *. lia.
Qed.
(** The metadata written with the bars (io.py L500-511: labels of the first and last bar)
    bounds them. *)
Definition written (bars : list bar) : part := mkPart (hd 0 (map b_ts bars)) (last (map b_ts bars) 0) bars.
Lemma sorted_last l z x : sorted_bars (l ++ [z]) -> In x l -> b_ts x <= b_ts z.
Proof.
  induction l as [|c l IH]; intros S I; [destruct I|]. inversion S as [|? ? S1 F]; subst. rewrite Forall_forall in F.
  destruct I as [<-|I]; [apply F; apply in_or_app; right; now left|now apply IH].
Qed.
Theorem C119_written bars b : sorted_bars bars -> In b bars -> p_first (written bars) <= b_ts b <= p_last (written bars).
Proof.
  intros S I. cbn [written p_first p_last]. split.
  - destruct S as [|c l S F]; [destruct I|]. rewrite Forall_forall in F. cbn. destruct I as [<-|I]; [lia|]. now apply F.
  - destruct (exists_last (l := bars)) as [l [z E]]; [intro; subst; destruct I|]. rewrite E in *. rewrite map_app. cbn [map]. rewrite last_last.
    apply in_app_or in I. destruct I as [I|[<-|[]]]; [now apply (sorted_last l)|lia].
Qed.
Definition ex_store : list part :=
  [mkPart 0 7 (firstn 6 ex_df); mkPart 8 8 (skipn 6 ex_df); mkPart 20 30 [med_bar 20 1 1; med_bar 30 1 1]].
Example C119_example : (forall p b, In p ex_store -> In b (p_bars p) -> p_first p <= b_ts b <= p_last p) /\
  map b_ts (read_bars ex_store (Some 4) (Some 20)) = [4; 7; 8; 20].
Proof.
  split; [|vm_compute; reflexivity]. intros p b I J.
  cbn in I. repeat (destruct I as [<-|I]; [cbn in J; repeat (destruct J as [<-|J]; [cbn; lia|]); destruct J|]). destruct I.
Qed.

(** C71: with an end date and a daily timeframe no row of the end date (or later) is given:
    the rows are those that start at least a day before it. *)
Theorem C71_daily sort store s e t : e mod day_ns = 0 -> tf_day t = true ->
  read sort store s (Some e) (Some t) =
    filter (fun b => b_ts b <=? e - day_ns) (resample sort (tf_ns t) (read_bars store s (Some (e + day_ns - 1000)))) /\
  forall b, In b (read sort store s (Some e) (Some t)) -> b_ts b < e.
Proof.
  intros E D. assert (K : is_date e = true) by (unfold is_date; rewrite E; reflexivity).
  assert (H : read sort store s (Some e) (Some t) = filter (fun b => b_ts b <=? e - day_ns) (resample sort (tf_ns t) (read_bars store s (Some (e + day_ns - 1000))))).
  { unfold read. cbn [option_map]. unfold end_of. rewrite K, D. reflexivity. }
  split; [exact H|]. rewrite H. intros b I. apply filter_In in I. destruct I as [_ I]. apply Z.leb_le in I. unfold day_ns in I. lia.
Qed.
(** C71: "the bar of the end date is in the result" is false, also for a complete day. *)
Theorem C71_end_inclusive_refuted : exists store e, e mod day_ns = 0 /\
  (forall p b, In p store -> In b (p_bars p) -> p_first p <= b_ts b <= p_last p) /\
  (exists b, In b (concat (map p_bars store)) /\ e <= b_ts b < e + day_ns /\ b_open b <> None) /\
  forall b, In b (read sort_med store None (Some e) (Some (mkTf day_ns true))) -> b_ts b <> e.
Proof.
  exists [mkPart 0 (3 * day_ns) [med_bar 0 1 1; med_bar day_ns 1 1; med_bar (2 * day_ns - 1000000000) 1 1; med_bar (3 * day_ns) 1 1]], day_ns.
  split; [reflexivity|]. split; [|split].
  - intros p b [<-|[]] J. cbn in J. repeat (destruct J as [<-|J]; [vm_compute; split; discriminate|]). destruct J.
  - exists (med_bar day_ns 1 1). split; [right; now left|]. split; [vm_compute; split; [discriminate|reflexivity]|discriminate].
  - vm_compute. intros b [<-|[]]. vm_compute. discriminate.
Qed.
(** C71: any other timeframe keeps the rows of the end date. *)
Theorem C71_other sort store s e t : e mod day_ns = 0 -> tf_day t = false -> (forall b, In b (concat (map p_bars store)) -> (1000 | b_ts b)) ->
  (forall p b, In p store -> In b (p_bars p) -> p_first p <= b_ts b <= p_last p) -> 0 < tf_ns t -> (tf_ns t | day_ns) ->
  forall k b, In b (concat (map p_bars store)) -> match s with Some x => x <= b_ts b | None => True end -> e <= b_ts b < e + day_ns -> b_open b <> None ->
    k = floor_to (tf_ns t) (b_ts b) -> e <= k < e + day_ns /\ In k (map b_ts (read sort store s (Some e) (Some t))).
Proof.
  intros E D M P T Dv k b I Hs B O ->. pose proof (floor_bounds (tf_ns t) (b_ts b) T) as F.
  assert (De : (tf_ns t | e)).
  { destruct Dv as [q Hq]. pose proof (Z.div_mod e day_ns ltac:(discriminate)) as Z. rewrite E, Z.add_0_r in Z. rewrite Z. exists (q * (e / day_ns)). rewrite Hq at 1. ring. }
  split.
  - split; [|lia]. unfold floor_to. destruct De as [r ->].
    assert (r <= b_ts b / tf_ns t) by (apply Z.div_le_lower_bound; lia). nia.
  - unfold read. cbn [option_map]. rewrite D. cbn [andb]. apply (proj2 (C69_rows sort (tf_ns t) _ T)). split; [exists (b_ts b / tf_ns t); reflexivity|].
    exists b. split; [|split; [exact F|exact O]]. rewrite (C119_no_bar_lost _ _ _ P). apply filter_In. split; [exact I|].
    apply andb_true_iff. split; [destruct s; [now apply Z.leb_le|reflexivity]|]. apply Z.leb_le. apply (C119_end_day e (b_ts b) E (M b I)). lia.
Qed.
Example C71_example :
  let st := [mkPart 0 (3 * day_ns) [med_bar 0 1 1; med_bar day_ns 1 1; med_bar (2 * day_ns - 1000000000) 1 1; med_bar (3 * day_ns) 1 1]] in
  map b_ts (read sort_med st None (Some day_ns) (Some (mkTf day_ns true))) = [0] /\
  map b_ts (read sort_med st None (Some day_ns) (Some (mkTf (day_ns / 24) false))) = [0; day_ns; 2 * day_ns - day_ns / 24].
Proof. split; vm_compute; reflexivity. Qed.

(* ------------------------------------------------------------------ *)
(** ** C70: gaps *)
Lemma gaps_from_iff g l p t d : In (t, d) (gaps_from p g l) <->
  exists i, (i < length l)%nat /\ t = nth (S i) (p :: l) 0 /\ d = nth (S i) (p :: l) 0 - nth i (p :: l) 0 /\ g < d.
Proof.
  revert p. induction l as [|x l IH]; intro p; cbn [gaps_from].
  - split; [intros []|intros [i [H _]]; cbn in H; lia].
  - rewrite in_app_iff, IH. split.
    + intros [H|[i [L [A [B C]]]]].
      * destruct (Z.ltb_spec g (x - p)) as [H1|]; [|destruct H]. destruct H as [[= <- <-]|[]]. exists 0%nat. cbn. repeat split; try lia.
      * exists (S i). cbn [length]. repeat split; auto; lia.
    + intros [[|i] [L [A [B C]]]]; cbn in A, B.
      * left. destruct (Z.ltb_spec g (x - p)); [left; congruence|lia].
      * right. exists i. cbn [length] in L. repeat split; auto; lia.
Qed.
(** The reports are exactly the places where consecutive times differ by more than g. *)
Theorem C70_exact g ts t d : In (t, d) (find_gaps g ts) <->
  exists i, (S i < length ts)%nat /\ t = nth (S i) ts 0 /\ d = nth (S i) ts 0 - nth i ts 0 /\ g < d.
Proof.
  destruct ts as [|p l]; cbn [find_gaps]; [split; [intros []|intros [i [H _]]; cbn in H; lia]|]. rewrite gaps_from_iff.
  split; intros [i [L R]]; exists i; cbn [length] in *; (split; [lia|exact R]).
Qed.
(** In order of position, one report per gap. *)
Theorem C70_positions g ts : find_gaps g ts =
  map (fun i => (nth (S i) ts 0, nth (S i) ts 0 - nth i ts 0)) (filter (fun i => g <? nth (S i) ts 0 - nth i ts 0) (seq 0 (length ts - 1))).
Proof.
  destruct ts as [|p l]; [reflexivity|]. cbn [find_gaps length]. replace (S (length l) - 1)%nat with (length l) by lia.
  revert p. induction l as [|x l IH]; intro p; [reflexivity|]. cbn [gaps_from length seq filter]. rewrite IH, <- seq_shift.
  assert (E : forall n, filter (fun i => g <? nth (S i) (p :: x :: l) 0 - nth i (p :: x :: l) 0) (map S n) =
              map S (filter (fun i => g <? nth (S i) (x :: l) 0 - nth i (x :: l) 0) n)).
  { induction n as [|i n IHn]; [reflexivity|]. cbn [map filter].
    change (nth (S (S i)) (p :: x :: l) 0 - nth (S i) (p :: x :: l) 0) with (nth (S i) (x :: l) 0 - nth i (x :: l) 0).
    destruct (g <? _); cbn [map]; now rewrite IHn. }
  rewrite E. cbn [nth]. destruct (g <? x - p); cbn [map app]; rewrite map_map; reflexivity.
Qed.
Theorem C70_none g ts : find_gaps g ts = [] <-> forall i, (S i < length ts)%nat -> nth (S i) ts 0 - nth i ts 0 <= g.
Proof.
  split; intro H.
  - intros i L. apply Z.nlt_ge. intro K. assert (In (nth (S i) ts 0, nth (S i) ts 0 - nth i ts 0) (find_gaps g ts)) as J by (apply C70_exact; exists i; auto).
    rewrite H in J. destruct J.
  - destruct (find_gaps g ts) as [|[t d] l] eqn:E; [reflexivity|]. assert (In (t, d) (find_gaps g ts)) as J by (rewrite E; now left).
    apply C70_exact in J. destruct J as [i [L [_ [-> K]]]]. specialize (H i L). lia.
Qed.
(** Gaps between two partitions are not reported: the file is inspected month by month. *)
Theorem C70_file_refuted : exists g store, find_gaps g (concat (map snd store)) <> [] /\ forall k l, In (k, l) (inspect_gaps g store) -> l = [].
Proof.
  exists 10, [("/trades/2024-01"%string, [1; 2; 3]); ("/trades/2024-02"%string, [90; 95])]. split; [vm_compute; discriminate|].
  vm_compute. intros k l [[= <- <-]|[[= <- <-]|[]]]; reflexivity.
Qed.
Example C70_example : find_gaps 10 [1; 5; 20; 30; 45; 45] = [(20, 15); (45, 15)].
Proof. reflexivity. Qed.

(* ------------------------------------------------------------------ *)
(** ** C72: months *)
Definition valid_month (a : month) : Prop := 1 <= snd a <= 12.
(** Months since year 0. *)
Definition mnum (a : month) : Z := 12 * fst a + snd a.
Lemma month_leb_num a b : valid_month a -> valid_month b -> month_leb a b = true <-> mnum a <= mnum b.
Proof.
  destruct a as [y m], b as [y' m']. unfold valid_month, mnum, month_leb. cbn [fst snd]. intros A B.
  rewrite orb_true_iff, andb_true_iff, Z.ltb_lt, Z.eqb_eq, Z.leb_le. lia.
Qed.
Lemma next_month_num a : valid_month a -> valid_month (next_month a) /\ mnum (next_month a) = mnum a + 1.
Proof. destruct a as [y m]. unfold valid_month, mnum, next_month. cbn [fst snd]. intro A. destruct (Z.eqb_spec m 12); cbn [fst snd]; lia. Qed.
Lemma mnum_inj a b : valid_month a -> valid_month b -> mnum a = mnum b -> a = b.
Proof. destruct a as [y m], b as [y' m']. unfold valid_month, mnum. cbn [fst snd]. intros A B E. f_equal; lia. Qed.
Lemma months_loop_num b : valid_month b -> forall fuel a, valid_month a -> mnum b - mnum a + 1 <= Z.of_nat fuel ->
  map mnum (months_loop fuel a b) = map (fun i => mnum a + Z.of_nat i) (seq 0 (Z.to_nat (mnum b - mnum a + 1))) /\ forall c, In c (months_loop fuel a b) -> valid_month c.
Proof.
  intro B. induction fuel as [|f IH]; intros a A L.
  - replace (Z.to_nat (mnum b - mnum a + 1)) with 0%nat by lia. split; [reflexivity|intros c []].
  - cbn [months_loop]. pose proof (month_leb_num a b A B) as K. destruct (month_leb a b) eqn:E.
    + assert (mnum a <= mnum b) by now apply K. destruct (next_month_num a A) as [A' N]. destruct (IH (next_month a) A' ltac:(lia)) as [I1 I2]. split.
      * cbn [map]. rewrite I1, N. replace (Z.to_nat (mnum b - mnum a + 1)) with (S (Z.to_nat (mnum b - (mnum a + 1) + 1))) by lia.
        cbn [seq map]. rewrite Z.add_0_r. f_equal. rewrite <- seq_shift, map_map. apply map_ext. intro i. lia.
      * intros c [<-|I]; auto.
    + assert (~ mnum a <= mnum b) by (intro Q; apply K in Q; discriminate). replace (Z.to_nat (mnum b - mnum a + 1)) with 0%nat by lia. split; [reflexivity|intros c []].
Qed.
(** It fails iff the end is before the start; otherwise it lists the months from the first
    to the last, each exactly once and in order. *)
Theorem C72_range a b : valid_month a -> valid_month b ->
  (month_range a b = Raise ValueError <-> mnum b < mnum a) /\
  (mnum a <= mnum b -> exists l, month_range a b = Ok l /\
     map mnum l = map (fun i => mnum a + Z.of_nat i) (seq 0 (Z.to_nat (mnum b - mnum a + 1))) /\ NoDup l /\
     forall c, In c l <-> valid_month c /\ mnum a <= mnum c <= mnum b).
Proof.
  intros A B. unfold month_range. pose proof (month_leb_num a b A B) as K. split.
  - destruct (month_leb a b); cbn [negb]; (split; [intro H|intro H]); try discriminate; try reflexivity.
    + assert (mnum a <= mnum b) by now apply K. lia.
    + apply Z.nle_gt. intro Q. apply K in Q. discriminate.
  - intro L. assert (E : month_leb a b = true) by now apply K. rewrite E. cbn [negb]. eexists. split; [reflexivity|].
    destruct (months_loop_num b B (Z.to_nat (12 * (fst b - fst a + 1) + 1)) a A) as [M V].
    { unfold mnum, valid_month in *. lia. }
    split; [exact M|]. split.
    + apply (NoDup_map_inv mnum). rewrite M. apply FinFun.Injective_map_NoDup; [intros x y; lia|apply seq_NoDup].
    + intro c. split.
      * intro I. split; [now apply V|]. apply (in_map mnum) in I. rewrite M in I. apply in_map_iff in I. destruct I as [i [I J]]. apply in_seq in J. lia.
      * intros [Vc R]. assert (I : In (mnum c) (map mnum (months_loop (Z.to_nat (12 * (fst b - fst a + 1) + 1)) a b))).
        { rewrite M. apply in_map_iff. exists (Z.to_nat (mnum c - mnum a)). split; [lia|apply in_seq; lia]. }
        apply in_map_iff in I. destruct I as [d [Ed Id]]. apply mnum_inj in Ed; [now subst|now apply V|exact Vc].
Qed.
Example C72_example : valid_month (2023, 11) /\ valid_month (2024, 2) /\
  month_range (2023, 11) (2024, 2) = Ok [(2023, 11); (2023, 12); (2024, 1); (2024, 2)] /\ month_range (2024, 2) (2023, 11) = Raise ValueError.
Proof. repeat split; cbn; lia || reflexivity. Qed.

(* ------------------------------------------------------------------ *)
(** ** C120: reading a month *)
(** Decimal text: digits of a two- or four-digit number. *)
Definition dig (n : Z) : ascii := ascii_of_nat (Z.to_nat (48 + n)).
Definition two (n : Z) : list ascii := [dig (n / 10); dig (n mod 10)].
Definition four (n : Z) : list ascii := two (n / 100) ++ two (n mod 100).
Lemma digit_dig n : 0 <= n <= 9 -> digit_val (dig n) = Some n.
Proof.
  intro H. assert (n = 0 \/ n = 1 \/ n = 2 \/ n = 3 \/ n = 4 \/ n = 5 \/ n = 6 \/ n = 7 \/ n = 8 \/ n = 9) as K by lia.
  repeat (destruct K as [->|K]; [vm_compute; reflexivity|]). subst. vm_compute. reflexivity.
Qed.
Lemma sep_dig n : 0 <= n <= 9 -> is_sep (dig n) = false.
Proof.
  intro H. assert (n = 0 \/ n = 1 \/ n = 2 \/ n = 3 \/ n = 4 \/ n = 5 \/ n = 6 \/ n = 7 \/ n = 8 \/ n = 9) as K by lia.
  repeat (destruct K as [->|K]; [vm_compute; reflexivity|]). subst. vm_compute. reflexivity.
Qed.
Lemma digits_two acc n l : 0 <= n <= 99 -> digits_val acc (two n ++ l) = digits_val (100 * acc + n) l.
Proof.
  intro H. unfold two. cbn [app digits_val]. pose proof (Z.mod_pos_bound n 10 ltac:(lia)).
  rewrite (digit_dig (n / 10)) by (split; [apply Z.div_pos|apply Z.lt_succ_r, Z.div_lt_upper_bound]; lia). rewrite digit_dig by lia. f_equal. pose proof (Z.div_mod n 10 ltac:(lia)). lia.
Qed.
(** Year and month round trip, with each separator or none; a year alone is January. *)
Theorem C120_round_trip y m sep : 0 <= y <= 9999 -> 1 <= m <= 12 -> In sep [[]; ["-"%char]; ["."%char]; ["/"%char]] ->
  parse_ym (four y ++ sep ++ two m) = Ok (y, m) /\ parse_ym (four y) = Ok (y, 1).
Proof.
  intros Y M S.
  assert (Y1 : 0 <= y / 100 <= 99) by (split; [apply Z.div_pos|apply Z.lt_succ_r, Z.div_lt_upper_bound]; lia).
  assert (Y2 : 0 <= y mod 100 <= 99) by (pose proof (Z.mod_pos_bound y 100); lia).
  assert (F : digits_val 0 [dig (y / 100 / 10); dig ((y / 100) mod 10); dig (y mod 100 / 10); dig ((y mod 100) mod 10)] = Some y).
  { change [dig (y / 100 / 10); dig ((y / 100) mod 10); dig (y mod 100 / 10); dig ((y mod 100) mod 10)] with (two (y / 100) ++ two (y mod 100) ++ []).
    rewrite !digits_two by assumption. cbn. f_equal. pose proof (Z.div_mod y 100 ltac:(lia)). lia. }
  assert (T : digits_val 0 (two m) = Some m) by (rewrite <- (app_nil_r (two m)), digits_two by lia; cbn; f_equal; lia).
  assert (R : ((m <? 1) || (12 <? m))%bool = false) by (apply orb_false_iff; rewrite !Z.ltb_ge; lia).
  assert (D1 : is_sep (dig (m / 10)) = false) by (apply sep_dig; split; [apply Z.div_pos|apply Z.lt_succ_r, Z.div_lt_upper_bound]; lia).
  split.
  - unfold four, two at 1 2. cbn [app parse_ym]. rewrite F. cbv zeta.
    unfold two in T |- *. set (d1 := dig (m / 10)) in *. set (d2 := dig (m mod 10)) in *. clearbody d1 d2.
    destruct S as [<-|[<-|[<-|[<-|[]]]]]; cbn [app]; [rewrite D1|..]; cbv iota.
    all: try change (is_sep "-") with true; try change (is_sep ".") with true; try change (is_sep "/") with true; cbv iota; rewrite T, R; reflexivity.
  - unfold four, two. cbn [app parse_ym]. rewrite F. reflexivity.
Qed.
(** What is accepted is a valid month. *)
Theorem C120_valid s y m : parse_ym s = Ok (y, m) -> 1 <= m <= 12.
Proof.
  unfold parse_ym. destruct s as [|a [|b [|c [|d rest]]]]; try discriminate. destruct (digits_val 0 [a; b; c; d]) as [y'|]; [|discriminate]. cbv zeta.
  match goal with |- context [match ?o with Some m0 => if _ then _ else _ | None => _ end] => destruct o as [m'|] end; [|discriminate].
  destruct ((m' <? 1) || (12 <? m'))%bool eqn:E; [discriminate|]. intros [= <- <-]. apply orb_false_iff in E. rewrite !Z.ltb_ge in E. lia.
Qed.
(** A month outside 1..12 is an error. *)
Theorem C120_bad_month y m : 0 <= y <= 9999 -> (m = 0 \/ 13 <= m <= 99) -> parse_ym (four y ++ "-"%char :: two m) = Raise ValueError.
Proof.
  intros Y M.
  assert (Y1 : 0 <= y / 100 <= 99) by (split; [apply Z.div_pos|apply Z.lt_succ_r, Z.div_lt_upper_bound]; lia).
  assert (Y2 : 0 <= y mod 100 <= 99) by (pose proof (Z.mod_pos_bound y 100); lia).
  assert (F : digits_val 0 [dig (y / 100 / 10); dig ((y / 100) mod 10); dig (y mod 100 / 10); dig ((y mod 100) mod 10)] = Some y).
  { change [dig (y / 100 / 10); dig ((y / 100) mod 10); dig (y mod 100 / 10); dig ((y mod 100) mod 10)] with (two (y / 100) ++ two (y mod 100) ++ []).
    rewrite !digits_two by assumption. cbn. f_equal. pose proof (Z.div_mod y 100 ltac:(lia)). lia. }
  assert (T : digits_val 0 (two m) = Some m) by (rewrite <- (app_nil_r (two m)), digits_two by lia; cbn; f_equal; lia).
  assert (R : ((m <? 1) || (12 <? m))%bool = true) by (apply orb_true_iff; rewrite !Z.ltb_lt; lia).
  unfold four, two at 1 2. cbn [app parse_ym]. rewrite F. cbv zeta. change (is_sep "-") with true. cbv iota. unfold two in T |- *. now rewrite T, R.
Qed.
Example C120_example : parse_ym (list_ascii_of_string "2024-03") = Ok (2024, 3) /\ parse_ym (list_ascii_of_string "2024.3") = Ok (2024, 3) /\
  parse_ym (list_ascii_of_string "202412") = Ok (2024, 12) /\ parse_ym (list_ascii_of_string "2024") = Ok (2024, 1) /\
  parse_ym (list_ascii_of_string "2024-13") = Raise ValueError /\ parse_ym (list_ascii_of_string "24-01") = Raise ValueError.
Proof. repeat split; vm_compute; reflexivity. Qed.

Print Assumptions C69_totals.
Print Assumptions C69_rows.
Print Assumptions C69_fields.
Print Assumptions C69_two_steps.
Print Assumptions C69_median.
Print Assumptions C69_median_two_steps_refuted.
Print Assumptions C118_period.
Print Assumptions C118_bars.
Print Assumptions C118_same_period_refuted.
Print Assumptions C119_no_bar_lost.
Print Assumptions C119_reversed.
Print Assumptions C119_end_day.
Print Assumptions C119_written.
Print Assumptions C71_daily.
Print Assumptions C71_end_inclusive_refuted.
Print Assumptions C71_other.
Print Assumptions C70_exact.
Print Assumptions C70_positions.
Print Assumptions C70_none.
Print Assumptions C70_file_refuted.
Print Assumptions C72_range.
Print Assumptions C120_round_trip.
Print Assumptions C120_valid.
Print Assumptions C120_bad_month.
