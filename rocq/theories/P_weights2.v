(** P_weights2.v -- return attribution, time decay, class balance, final weights. *)
From Verif Require Import Base M_weights S_weights P_weights.
Open Scope Q_scope.

(** ** Return attribution *)
Section Attr.
  Variable ln : Q -> option Q.
  Variables (events touches : list nat) (close : list Q) (conc : list Z).

  Definition attr_term (j : nat) : Q :=
    match log_ret ln close j with
    | Some r => if (0 <? nth j conc 0)%Z then r / inject_Z (nth j conc 0%Z) else 0
    | None => 0
    end.
  Lemma attr_fold l a : fold_left (attr_step ln close conc) l a == a + qsum (map attr_term l).
  Proof.
    revert a. induction l as [|j l IH]; intro a; simpl; [ring|].
    rewrite IH. unfold attr_step, attr_term. destruct (log_ret ln close j); [|ring].
    destruct (0 <? _)%Z; ring.
  Qed.
  Lemma attr_raw_spec s e : attr_raw ln close conc s e == Qabs (ssum attr_term s (S e)).
  Proof.
    unfold attr_raw. apply Qabs_wd. rewrite attr_fold. unfold ssum.
    replace (S e - s)%nat with (e + 1 - s)%nat by lia. ring.
  Qed.
  Lemma attr_raw_nonneg s e : 0 <= attr_raw ln close conc s e.
  Proof. apply Qabs_nonneg. Qed.

  Lemma qsum_map_mul_r {A} c (f : A -> Q) l : qsum (map (fun x => f x * c) l) == qsum (map f l) * c.
  Proof. induction l as [|x l IH]; simpl; [ring|rewrite IH; ring]. Qed.

  Let raws := map (fun i => attr_raw ln close conc (nth i events 0%nat) (nth i touches 0%nat)) (seq 0 (length events)).
  Lemma raws_nonneg : 0 <= qsum raws.
  Proof. apply qsum_nonneg. intros x Hx. apply in_map_iff in Hx. destruct Hx as [i [<- _]]. apply attr_raw_nonneg. Qed.

  Lemma attr_plain : return_attribution ln events touches close conc false = Ok raws.
  Proof. reflexivity. Qed.
  Lemma attr_norm ws : return_attribution ln events touches close conc true = Ok ws ->
    length ws = length events /\ qsum ws == Qnat (length events) /\
    exists s, 0 < s /\ forall i, (i < length events)%nat -> nth i ws 0 * s == Qnat (length events) * nth i raws 0.
  Proof.
    unfold return_attribution. fold raws. destruct (Qleb_spec (qsum raws) 0); [discriminate|].
    intro E; inversion E; subst. clear E.
    assert (Hl : length raws = length events) by (unfold raws; now rewrite map_length, seq_length).
    split; [now rewrite map_length|]. split.
    - rewrite (qsum_map_mul_r _ (fun w => w)), map_id. field. lra.
    - exists (qsum raws). split; [auto|]. intros i Hi.
      rewrite (nth_indep _ 0 (0 * (Qnat (length events) / qsum raws))) by (rewrite map_length; lia).
      rewrite (map_nth (fun w => w * (Qnat (length events) / qsum raws))). field. lra.
  Qed.
  Lemma attr_raise : (exists e, return_attribution ln events touches close conc true = Raise e) <->
    forall i, (i < length events)%nat -> nth i raws 0 == 0.
  Proof.
    unfold return_attribution. fold raws. destruct (Qleb_spec (qsum raws) 0) as [H|H].
    - split; [|intro; eexists; reflexivity]. intros _ i Hi.
      apply (qsum_zero_all raws); [|exact H|].
      + intros x Hx. apply in_map_iff in Hx. destruct Hx as [k [<- _]]. apply attr_raw_nonneg.
      + apply nth_In. unfold raws. now rewrite map_length, seq_length.
    - split; [intros [e He]; discriminate|]. intro Hz. exfalso.
      assert (qsum raws == 0); [|lra].
      assert (E : qsum raws == qsum (map (fun _ => 0) raws)).
      { transitivity (qsum (map (fun x => x) raws)); [now rewrite map_id|].
        apply qsum_map_ext. intros x Hx. destruct (In_nth _ _ 0 Hx) as [i [Hi <-]]. apply Hz.
        unfold raws in Hi. now rewrite map_length, seq_length in Hi. }
      rewrite E, qsum_map_const. ring.
  Qed.
End Attr.

(** ** Time decay *)
Lemma cumsum_from_length a l : length (cumsum_from a l) = length l.
Proof. revert a. induction l; simpl; auto. Qed.
Lemma cumsum_from_nth a l k : (k < length l)%nat -> nth k (cumsum_from a l) 0 == a + qsum (firstn (S k) l).
Proof.
  revert a k. induction l as [|x l IH]; intros a k Hk; simpl in Hk; [lia|].
  destruct k as [|k]; [cbn; ring|]. cbn [cumsum_from nth]. rewrite IH by lia.
  rewrite (firstn_cons (S k)). rewrite (qsum_cons x (firstn (S k) l)). ring.
Qed.
Lemma cumsum_nth l k : (k < length l)%nat -> nth k (cumsum l) 0 == qsum (firstn (S k) l).
Proof. intro H. unfold cumsum. rewrite cumsum_from_nth by auto. ring. Qed.
Lemma cumsum_length l : length (cumsum l) = length l.
Proof. apply cumsum_from_length. Qed.

Lemma rev_cumsum u : match rev (cumsum u) with
  | [] => u = []
  | t :: _ => u <> [] /\ t == qsum u end.
Proof.
  destruct (rev (cumsum u)) as [|t r] eqn:E.
  - assert (length (rev (cumsum u)) = 0)%nat by (rewrite E; reflexivity).
    rewrite rev_length, cumsum_length in H. destruct u; [auto|discriminate].
  - assert (E' : cumsum u = rev r ++ [t]) by (rewrite <- (rev_involutive (cumsum u)), E; reflexivity).
    assert (Hl : length u = S (length r)).
    { rewrite <- cumsum_length, E', app_length, rev_length. simpl. lia. }
    split; [intros ->; discriminate|].
    assert (nth (length r) (cumsum u) 0 = t).
    { rewrite E', app_nth2; rewrite rev_length; [|lia]. rewrite Nat.sub_diag. reflexivity. }
    rewrite <- H, cumsum_nth by lia. rewrite <- Hl, firstn_all. reflexivity.
Qed.

Section Decay.
  Variables (u : list Q) (lw : Q).
  Lemma td_raises : u <> [] ->
    (time_decay u lw = Raise ValueError <-> lw < -1 \/ 1 < lw \/ qsum u == 0) /\
    (time_decay u lw = Raise ZeroDivisionError <-> lw == -1 /\ ~ qsum u == 0) /\
    (forall e, time_decay u lw = Raise e -> e = ValueError \/ e = ZeroDivisionError).
  Proof.
    intro Hu. unfold time_decay. pose proof (rev_cumsum u) as Hr.
    destruct (Qleb_spec (-1) lw), (Qleb_spec lw 1); cbn [negb andb].
    2:{ split; [split; [intro; lra|reflexivity]|]. split; [split; [discriminate|intros; lra]|]. intros e He; inversion He; auto. }
    2:{ split; [split; [intro; lra|reflexivity]|]. split; [split; [discriminate|intros; lra]|]. intros e He; inversion He; auto. }
    2:{ split; [split; [intro; lra|reflexivity]|]. split; [split; [discriminate|intros; lra]|]. intros e He; inversion He; auto. }
    destruct (rev (cumsum u)) as [|t r]; [contradiction|]. destruct Hr as [_ Ht].
    destruct (Qeqb_spec t 0) as [E|E]; rewrite Ht in E.
    { split; [split; auto|]. split; [split; [discriminate|intros; tauto]|]. intros e He; inversion He; auto. }
    destruct (Qleb_spec 0 lw); cbn [negb andb].
    { split; [split; [discriminate|intros; lra]|]. split; [split; [discriminate|intros; lra]|]. intros e He; inversion He. }
    destruct (Qeqb_spec ((lw + 1) * t) 0) as [E2|E2].
    - split; [split; [discriminate|intros; lra]|]. split; [|intros e He; inversion He; auto].
      split; [|reflexivity]. intros _. split; [|auto]. destruct (Qmult_integral _ _ E2) as [E3|E3]; lra.
    - split; [split; [discriminate|intros; lra]|]. split; [|intros e He; inversion He].
      split; [discriminate|]. intros [E3 _]. exfalso. apply E2. setoid_replace (lw + 1) with 0 by lra. ring.
  Qed.

  Definition share (k : nat) : Q := qsum (firstn (S k) u) / qsum u.
  Lemma td_value ws : time_decay u lw = Ok ws ->
    length ws = length u /\ -1 < lw <= 1 /\ ~ qsum u == 0 /\
    forall k, (k < length u)%nat ->
      nth k ws 0 == if Qleb 0 lw then lw + (1 - lw) * share k
                    else Qmax ((share k + lw) / (1 + lw)) 0.
  Proof.
    unfold time_decay. pose proof (rev_cumsum u) as Hr.
    destruct (Qleb_spec (-1) lw), (Qleb_spec lw 1); cbn [negb andb]; try discriminate.
    destruct (rev (cumsum u)) as [|t r]; [discriminate|]. destruct Hr as [_ Ht].
    destruct (Qeqb_spec t 0) as [E|E]; [discriminate|].
    assert (E' : ~ qsum u == 0) by (now rewrite <- Ht).
    destruct (Qleb_spec 0 lw) as [Hp|Hp]; cbn [negb andb].
    - destruct (Qltb_spec lw 0); [lra|]. intro Hws. inversion Hws; subst ws; clear Hws.
      split; [now rewrite map_length, cumsum_length|]. split; [lra|]. split; [auto|]. intros k Hk.
      set (f := fun c => _). rewrite (nth_indep _ 0 (f 0)) by (rewrite map_length, cumsum_length; lia).
      rewrite map_nth. unfold f. rewrite cumsum_nth by auto. unfold share. rewrite Ht. field. auto.
    - destruct (Qeqb_spec ((lw + 1) * t) 0) as [E2|E2]; [discriminate|].
      destruct (Qltb_spec lw 0); [|lra]. intro Hws. inversion Hws; subst ws; clear Hws.
      assert (Hne : ~ lw + 1 == 0). { intro Hz. apply E2. rewrite Hz. ring. }
      split; [now rewrite !map_length, cumsum_length|]. split; [lra|]. split; [auto|]. intros k Hk.
      set (f := fun c => 1 - _ + _). rewrite map_map.
      set (g := fun c => pmax (f c) 0). rewrite (nth_indep _ 0 (g 0)) by (rewrite map_length, cumsum_length; lia).
      rewrite (map_nth g). unfold g, f. rewrite cumsum_nth by auto.
      setoid_replace (1 - 1 / ((lw + 1) * t) * t + 1 / ((lw + 1) * t) * qsum (firstn (S k) u))
        with ((share k + lw) / (1 + lw)).
      + unfold pmax. destruct (Qltb_spec ((share k + lw) / (1 + lw)) 0); symmetry; [apply Q.max_r|apply Q.max_l]; lra.
      + unfold share. rewrite Ht. field. repeat split; auto. intro Hz. apply Hne. rewrite <- Hz. ring.
  Qed.

  Hypothesis Hpos : forall x, In x u -> 0 < x.
  Lemma firstn_sum_pos k : (k < length u)%nat -> 0 < qsum (firstn (S k) u).
  Proof.
    destruct u as [|x v]; simpl; intro Hk; [lia|].
    assert (0 < x) by (apply Hpos; simpl; auto).
    assert (0 <= qsum (firstn k v)).
    { apply qsum_nonneg. intros y Hy. apply Qlt_le_weak, Hpos. right. rewrite <- (firstn_skipn k v). apply in_or_app; auto. }
    lra.
  Qed.
  Lemma sum_split k : qsum u == qsum (firstn k u) + qsum (skipn k u).
  Proof. rewrite <- qsum_app, firstn_skipn. reflexivity. Qed.
  Lemma skipn_nonneg k : 0 <= qsum (skipn k u).
  Proof. apply qsum_nonneg. intros y Hy. apply Qlt_le_weak, Hpos. rewrite <- (firstn_skipn k u). apply in_or_app; auto. Qed.
  Lemma share_range k : (k < length u)%nat -> 0 < share k <= 1.
  Proof.
    intro Hk. pose proof (firstn_sum_pos k Hk). pose proof (sum_split (S k)). pose proof (skipn_nonneg (S k)).
    unfold share. split; [apply Qlt_shift_div_l; lra|apply Qle_shift_div_r; lra].
  Qed.
  Lemma share_mono i j : (i <= j < length u)%nat -> share i <= share j.
  Proof.
    intro H. pose proof (firstn_sum_pos i ltac:(lia)). pose proof (sum_split (S i)). pose proof (skipn_nonneg (S i)).
    unfold share. unfold Qdiv. apply Qmult_le_compat_r.
    2:{ apply Qinv_le_0_compat. lra. }
    replace (S j) with (S i + (j - i))%nat by lia. rewrite firstn_add, qsum_app.
    assert (0 <= qsum (firstn (j - i) (skipn (S i) u))); [|lra].
    apply qsum_nonneg. intros y Hy. apply Qlt_le_weak, Hpos. rewrite <- (firstn_skipn (S i) u).
    apply in_or_app. right. rewrite <- (firstn_skipn (j - i) (skipn (S i) u)). apply in_or_app; auto.
  Qed.
  Lemma share_last : u <> [] -> share (length u - 1) == 1.
  Proof.
    intro H. assert (0 < length u)%nat by (destruct u; [contradiction|simpl; lia]).
    pose proof (firstn_sum_pos (length u - 1) ltac:(lia)) as Hs. unfold share.
    replace (S (length u - 1)) with (length u) in * by lia. rewrite firstn_all in *. field. lra.
  Qed.
  Lemma td_shape ws : time_decay u lw = Ok ws ->
    nth (length u - 1) ws 0 == 1 /\
    (forall i j, (i <= j < length u)%nat -> nth i ws 0 <= nth j ws 0) /\
    (forall k, (k < length u)%nat -> Qmax lw 0 <= nth k ws 0 <= 1) /\
    (lw < 0 -> forall k, (k < length u)%nat -> (nth k ws 0 == 0 <-> share k <= - lw)) /\
    (lw == 1 -> forall k, (k < length u)%nat -> nth k ws 0 == 1).
  Proof.
    intro H. destruct (td_value ws H) as [Hl [Hlw [Hs Hv]]].
    assert (Hu : u <> []) by (intros ->; apply Hs; reflexivity).
    assert (Hn : (0 < length u)%nat) by (destruct u; [contradiction|simpl; lia]).
    pose proof (share_last Hu) as Hlast.
    assert (Hdiv : forall a b, a <= b -> lw < 0 -> a / (1 + lw) <= b / (1 + lw)).
    { intros a b Hab _. unfold Qdiv. apply Qmult_le_compat_r; auto. apply Qinv_le_0_compat. lra. }
    destruct (Qleb_spec 0 lw) as [Hp|Hp].
    - split; [rewrite Hv by lia; rewrite Hlast; ring|]. split.
      { intros i j Hij. rewrite !Hv by lia. pose proof (share_mono i j Hij).
        assert (0 <= (1 - lw) * (share j - share i)) by (apply Qmult_le_0_compat; lra). lra. }
      split.
      { intros k Hk. rewrite !Hv by lia. pose proof (share_range k Hk).
        assert (0 <= (1 - lw) * share k) by (apply Qmult_le_0_compat; lra).
        assert (0 <= (1 - lw) * (1 - share k)) by (apply Qmult_le_0_compat; lra).
        split; [|lra]. apply Q.max_lub; lra. }
      split; [intros; lra|]. intros E k Hk. rewrite Hv by lia. rewrite E. ring.
    - assert (Hf : forall k, (k < length u)%nat -> (share k + lw) / (1 + lw) <= 1).
      { intros k Hk. pose proof (share_range k Hk). apply Qle_shift_div_r; lra. }
      split.
      { rewrite Hv by lia. rewrite Hlast. rewrite Q.max_l; [field; lra|]. apply Qle_shift_div_l; lra. }
      split.
      { intros i j Hij. rewrite !Hv by lia. pose proof (share_mono i j Hij).
        apply Q.max_le_compat_r. apply Hdiv; [lra|auto]. }
      split.
      { intros k Hk. rewrite !Hv by lia. rewrite (Q.max_r lw 0) by lra. split; [apply Q.le_max_r|].
        apply Q.max_lub; [auto|lra]. }
      split; [|intros; lra]. intros _ k Hk. rewrite Hv by lia. split.
      + intro E. destruct (Qlt_le_dec (- lw) (share k)) as [G|G]; [|auto]. exfalso.
        assert (0 < (share k + lw) / (1 + lw)) by (apply Qlt_shift_div_l; lra).
        rewrite Q.max_l in E by lra. lra.
      + intro G. rewrite Q.max_r; [reflexivity|]. apply Qle_shift_div_r; lra.
  Qed.
End Decay.

(** ** Class balance *)
Lemma uinsert_in x y l : In y (uinsert x l) <-> y = x \/ In y l.
Proof.
  induction l as [|a l IH]; simpl; [intuition congruence|].
  destruct (Z.ltb_spec x a); simpl; [intuition congruence|].
  destruct (Z.eqb_spec x a); simpl; [subst; intuition congruence|]. rewrite IH. intuition congruence.
Qed.
Lemma uinsert_sorted x l : StronglySorted Z.lt l -> StronglySorted Z.lt (uinsert x l).
Proof.
  induction l as [|a l IH]; simpl; intro H.
  - repeat constructor.
  - inversion H as [|? ? Hs Hf]; subst. destruct (Z.ltb_spec x a).
    + constructor; [auto|]. constructor; [lia|]. rewrite Forall_forall in *. intros z Hz. specialize (Hf z Hz). lia.
    + destruct (Z.eqb_spec x a); [auto|]. constructor; [auto|]. rewrite Forall_forall in *. intros z Hz.
      apply uinsert_in in Hz. destruct Hz as [->|Hz]; [lia|auto].
Qed.
Lemma zunique_in y l : In y (zunique l) <-> In y l.
Proof. induction l as [|x l IH]; simpl; [tauto|]. rewrite uinsert_in, IH. intuition congruence. Qed.
Lemma zunique_sorted l : StronglySorted Z.lt (zunique l).
Proof. induction l as [|x l IH]; simpl; [constructor|]. now apply uinsert_sorted. Qed.
Lemma ssort_nodup l : StronglySorted Z.lt l -> NoDup l.
Proof.
  induction 1 as [|x l Hs IH Hf]; constructor; auto. intro Hx. rewrite Forall_forall in Hf. specialize (Hf x Hx). lia.
Qed.
Lemma ss_left_in l x : StronglySorted Z.lt l -> In x l -> (ss_left l x < length l)%nat /\ nth (ss_left l x) l 0%Z = x.
Proof.
  induction 1 as [|a l Hs IH Hf]; simpl; [tauto|]. intros [->|Hx].
  - rewrite Z.ltb_irrefl. simpl. split; [lia|auto].
  - rewrite Forall_forall in Hf. pose proof (Hf x Hx). destruct (Z.ltb_spec a x); [|lia].
    destruct (IH Hx). simpl. split; [lia|auto].
Qed.

Lemma add_at_length l i x : length (add_at l i x) = length l.
Proof. unfold add_at. now rewrite map_length, seq_length. Qed.
Lemma add_at_nth l i x j : (j < length l)%nat ->
  nth j (add_at l i x) 0 = if (j =? i)%nat then nth j l 0 + x else nth j l 0.
Proof. intro H. unfold add_at. now rewrite nth_map_seq. Qed.

Lemma nth_map_eq (l : list Q) : map (fun j => nth j l 0) (seq 0 (length l)) = l.
Proof.
  apply (nth_ext _ _ 0 0); [now rewrite map_length, seq_length|].
  intros k Hk. rewrite map_length, seq_length in Hk. now rewrite nth_map_seq.
Qed.
Lemma qsum_indicator n i x : (i < n)%nat -> qsum (map (fun j => if (j =? i)%nat then x else 0) (seq 0 n)) == x.
Proof.
  intro H. pose proof (seg_as_filter (fun _ => x) i i n H) as E.
  rewrite (qsum_map_ext _ (fun j => if ((i <=? j) && (j <=? i))%nat%bool then x else 0)).
  - rewrite <- E, ssum_const. replace (S i - i)%nat with 1%nat by lia. change (Qnat 1) with 1. ring.
  - intros j _. destruct (Nat.eqb_spec j i), (Nat.leb_spec i j), (Nat.leb_spec j i); simpl; try reflexivity; lia.
Qed.
Lemma add_at_sum l i x : (i < length l)%nat -> qsum (add_at l i x) == qsum l + x.
Proof.
  intro H. unfold add_at.
  rewrite (qsum_map_ext _ (fun j => nth j l 0 + (if (j =? i)%nat then x else 0))).
  - rewrite qsum_map_plus, nth_map_eq, qsum_indicator by auto. reflexivity.
  - intros j _. destruct (j =? i)%nat; ring.
Qed.

Section Balance.
  Variables (labels : list Z) (base : list Q).
  Hypothesis Hlen : length base = length labels.
  Let uniq := zunique labels.
  Let k := length uniq.
  Let idx i := ss_left uniq (nth i labels 0%Z).
  Let N := length labels.

  Lemma idx_ok i : (i < N)%nat -> (idx i < k)%nat /\ nth (idx i) uniq 0%Z = nth i labels 0%Z.
  Proof.
    intro H. apply ss_left_in; [apply zunique_sorted|]. apply zunique_in. apply nth_In. exact H.
  Qed.
  Lemma idx_eq i c : (i < N)%nat -> (c < k)%nat -> ((c =? idx i)%nat = (nth i labels 0 =? nth c uniq 0)%Z).
  Proof.
    intros Hi Hc. destruct (idx_ok i Hi) as [H1 H2].
    destruct (Nat.eqb_spec c (idx i)) as [->|Hne].
    - symmetry. apply Z.eqb_eq. auto.
    - symmetry. apply Z.eqb_neq. intro E. apply Hne.
      assert (NoDup uniq) by (apply ssort_nodup, zunique_sorted).
      apply (proj1 (NoDup_nth uniq 0%Z)); auto. congruence.
  Qed.

  Let sums := fold_left (fun acc i => add_at acc (idx i) (nth i base 0)) (seq 0 N) (repeat 0 k).
  Lemma sums_inv m : (m <= N)%nat ->
    let s := fold_left (fun acc i => add_at acc (idx i) (nth i base 0)) (seq 0 m) (repeat 0 k) in
    length s = k /\ qsum s == qsum (firstn m base) /\
    forall c, (c < k)%nat -> nth c s 0 ==
      qsum (map (fun i => nth i base 0) (filter (fun i => (nth i labels 0 =? nth c uniq 0)%Z) (seq 0 m))).
  Proof.
    induction m as [|m IH]; intro Hm.
    - simpl. split; [apply repeat_length|]. split.
      + generalize k. induction k0; simpl; [reflexivity|rewrite IHk0; ring].
      + intros c Hc. rewrite nth_repeat. reflexivity.
    - specialize (IH ltac:(lia)). cbv zeta in *. rewrite fold_left_seq_S. cbn [plus].
      set (s := fold_left _ _ _) in *. destruct IH as [I1 [I2 I3]].
      destruct (idx_ok m ltac:(lia)) as [H1 H2].
      split; [now rewrite add_at_length|]. split.
      + rewrite add_at_sum by lia. rewrite I2. replace (S m) with (m + 1)%nat by lia.
        rewrite firstn_add, qsum_app. rewrite (skipn_nth_cons 0 base m) by lia. cbn. ring.
      + intros c Hc. rewrite add_at_nth by lia. rewrite seq_S, filter_app, map_app, qsum_app.
        cbn [plus filter]. rewrite (idx_eq m c ltac:(lia) Hc). pose proof (I3 c Hc) as I3c.
        destruct (nth m labels 0 =? nth c uniq 0)%Z; rewrite I3c; cbn; ring.
  Qed.

  Let b := class_balance_weights labels base.
  Lemma bal_len : length (bal_final b) = N.
  Proof. unfold b, class_balance_weights. cbn [bal_final]. now rewrite map_length, seq_length. Qed.

  Lemma final_nth i : (i < N)%nat ->
    nth i (bal_final b) 0 ==
      nth i base 0 * (let t := class_total labels base (nth i labels 0%Z) in
                      if Qltb 0 t then qsum base / (Qnat k * t) else 0).
  Proof.
    intro Hi. unfold b, class_balance_weights. cbn [bal_final]. cbv zeta.
    rewrite nth_map_seq by exact Hi. fold uniq. change (length uniq) with k.
    change (ss_left uniq (nth i labels 0%Z)) with (idx i).
    change (fold_left (fun (acc : list Q) (i0 : nat) => add_at acc (ss_left uniq (nth i0 labels 0%Z)) (nth i0 base 0)) (seq 0 (length labels)) (repeat 0 k)) with sums.
    destruct (idx_ok i Hi) as [H1 H2]. rewrite nth_map_seq by exact H1.
    destruct (sums_inv N (le_n _)) as [I1 [I2 I3]]. fold sums in I1, I2, I3.
    assert (Et : nth (idx i) sums 0 == class_total labels base (nth i labels 0%Z)).
    { rewrite I3 by auto. rewrite H2. reflexivity. }
    assert (Es : qsum sums == qsum base).
    { rewrite I2. replace N with (length base) by exact Hlen. rewrite firstn_all. reflexivity. }
    rewrite Et. destruct (Qltb_spec 0 (class_total labels base (nth i labels 0%Z))); [|reflexivity].
    rewrite Et, Es. reflexivity.
  Qed.

  Lemma k_distinct : n_distinct labels k.
  Proof.
    exists uniq. split; [apply ssort_nodup, zunique_sorted|]. split; [reflexivity|]. intro c. apply zunique_in.
  Qed.
  Lemma distinct_unique k' : n_distinct labels k' -> k' = k.
  Proof.
    intros [l [Hnd [Hl Hi]]]. subst k'. unfold k. apply Nat.le_antisymm; apply NoDup_incl_length; auto.
    - intros x Hx. apply zunique_in. now apply Hi.
    - apply ssort_nodup, zunique_sorted.
    - intros x Hx. apply Hi. now apply zunique_in.
  Qed.

  Lemma class_final c : In c labels ->
    class_total labels (bal_final b) c ==
      if Qltb 0 (class_total labels base c) then qsum base / Qnat k else 0.
  Proof.
    intro Hc. unfold class_total at 1. set (t := class_total labels base c).
    rewrite (qsum_map_ext _ (fun i => nth i base 0 * (if Qltb 0 t then qsum base / (Qnat k * t) else 0))).
    - rewrite qsum_map_mul_r. change (qsum (map (fun x => nth x base 0) (filter (fun i => (nth i labels 0 =? c)%Z) (seq 0 (length labels))))) with t.
      destruct (Qltb_spec 0 t); [|ring].
      assert (0 < Qnat k).
      { apply Qnat_pos. assert (In c uniq) by now apply zunique_in. unfold k. destruct uniq; [contradiction|simpl; lia]. }
      field. split; lra.
    - intros i Hi. apply filter_In in Hi. destruct Hi as [Hi E]. apply in_seq in Hi. apply Z.eqb_eq in E.
      rewrite final_nth by (unfold N; lia). rewrite E. reflexivity.
  Qed.

  Lemma class_total_sum (w : list Q) : length w = N ->
    qsum w == qsum (map (class_total labels w) uniq).
  Proof.
    intro Hw. transitivity (qsum (map (fun i => nth i w 0) (seq 0 N))).
    { rewrite <- Hw, nth_map_eq. reflexivity. }
    unfold class_total.
    rewrite (qsum_map_ext (fun c => qsum (map (fun i => nth i w 0) (filter (fun i => (nth i labels 0 =? c)%Z) (seq 0 (length labels)))))
      (fun c => qsum (map (fun i => if (nth i labels 0 =? c)%Z then nth i w 0 else 0) (seq 0 N)))).
    2:{ intros c _. now rewrite qsum_filter_map. }
    rewrite qsum_exchange. apply qsum_map_ext. intros i Hi. apply in_seq in Hi.
    rewrite <- (map_id uniq).
    assert (E : map (fun c : Z => if (nth i labels 0 =? c)%Z then nth i w 0 else 0) (map (fun x => x) uniq) =
                map (fun j => if (j =? idx i)%nat then nth i w 0 else 0) (seq 0 k)).
    { rewrite map_id. apply (nth_ext _ _ 0 0).
      - rewrite !map_length, seq_length. reflexivity.
      - intros c Hcl. rewrite map_length in Hcl. rewrite nth_map_seq by exact Hcl.
        rewrite (idx_eq i c ltac:(lia) Hcl).
        set (f := fun c0 : Z => _). rewrite (nth_indep _ 0 (f 0%Z)) by (rewrite map_length; auto). rewrite map_nth. reflexivity. }
    rewrite E, qsum_indicator; [reflexivity|]. apply idx_ok. lia.
  Qed.

  Lemma bal_total : (forall c, In c labels -> 0 < class_total labels base c) ->
    labels <> [] -> qsum (bal_final b) == qsum base.
  Proof.
    intros H Hne. rewrite (class_total_sum (bal_final b) bal_len).
    rewrite (qsum_map_ext _ (fun _ => qsum base / Qnat k)).
    - rewrite qsum_map_const. change (inject_Z (Z.of_nat (length uniq))) with (Qnat k).
      assert (0 < Qnat k).
      { apply Qnat_pos. assert (H0 : (0 < N)%nat) by (unfold N; destruct labels; [contradiction|simpl; lia]).
        pose proof (idx_ok 0 H0). lia. }
      field. lra.
    - intros c Hc. apply (proj1 (zunique_in c labels)) in Hc. pose proof (class_final c Hc) as Ef. cbv beta zeta in Ef |- *. rewrite Ef. specialize (H c Hc).
      destruct (Qltb_spec 0 (class_total labels base c)); [reflexivity|lra].
  Qed.

  Lemma bal_prop i j : (i < N)%nat -> (j < N)%nat -> nth i labels 0%Z = nth j labels 0%Z ->
    nth i (bal_final b) 0 * nth j base 0 == nth j (bal_final b) 0 * nth i base 0.
  Proof. intros Hi Hj E. rewrite !final_nth by auto. rewrite E. cbv zeta. ring. Qed.

  Lemma bal_nonneg i : (forall x, In x base -> 0 <= x) -> (i < N)%nat -> 0 <= nth i (bal_final b) 0.
  Proof.
    intros Hb Hi. rewrite final_nth by auto. apply Qmult_le_0_compat.
    - apply Hb. apply nth_In. unfold N in Hi. lia.
    - cbv zeta. destruct (Qltb_spec 0 (class_total labels base (nth i labels 0%Z))); [|lra].
      assert (0 < Qnat k). { apply Qnat_pos. pose proof (idx_ok i Hi). lia. }
      assert (0 < Qnat k * class_total labels base (nth i labels 0%Z)) by (apply Qmult_lt_0_compat; auto).
      apply Qle_shift_div_l; auto. rewrite Qmult_0_l. now apply qsum_nonneg.
  Qed.
End Balance.
