(** P_weights4.v -- weights of chosen, reordered, doubled and joined events; scales of the weights. *)
From Coq Require Import Permutation.
From Verif Require Import Base M_weights S_weights S_weights2 P_weights P_weights2 P_weights3.
Open Scope Q_scope.

Lemma pick_length {A} (d : A) p l : length (pick d p l) = length p.
Proof. apply map_length. Qed.
Lemma pick_nth {A} (d d' : A) p l a : (a < length p)%nat -> nth a (pick d p l) d' = nth (nth a p 0%nat) l d.
Proof.
  intro H. unfold pick. rewrite (nth_indep _ d' (nth 0 l d)) by now rewrite map_length.
  now rewrite (map_nth (fun k => nth k l d)).
Qed.
Lemma reorders_chooses p n : reorders p n -> chooses p n.
Proof. intros [A B]. split; [exact A|]. intros k Hk. now apply B. Qed.
Lemma reorders_perm p n : reorders p n -> Permutation p (seq 0 n).
Proof. intros [A B]. apply NoDup_Permutation; [exact A|apply seq_NoDup|]. intro k. rewrite B, in_seq. lia. Qed.
Lemma reorders_length p n : reorders p n -> length p = n.
Proof. intro H. apply reorders_perm, Permutation_length in H. now rewrite seq_length in H. Qed.
Lemma map_seq_nth {A B} (d : A) (f : A -> B) l : map (fun a => f (nth a l d)) (seq 0 (length l)) = map f l.
Proof.
  induction l as [|x l IH]; [reflexivity|]. cbn [length seq map nth]. f_equal. rewrite <- seq_shift, map_map. exact IH.
Qed.
Lemma filter_seq_nth {A} (d : A) (f : A -> bool) l : length (filter (fun a => f (nth a l d)) (seq 0 (length l))) = length (filter f l).
Proof.
  induction l as [|x l IH]; [reflexivity|]. cbn [length seq filter]. change (nth 0 (x :: l) d) with x.
  assert (E : length (filter (fun a => f (nth a (x :: l) d)) (seq 1 (length l))) = length (filter f l)).
  { rewrite <- seq_shift. rewrite <- IH. generalize (seq 0 (length l)). intro l0. clear IH. induction l0 as [|y l0 I]; [reflexivity|]. cbn [map filter]. change (nth (S y) (x :: l) d) with (nth y l d). destruct (f (nth y l d)); cbn [length]; [f_equal|]; exact I. }
  destruct (f x); cbn [length]; now rewrite E.
Qed.
Lemma filter_perm {A} (f : A -> bool) l m : Permutation l m -> Permutation (filter f l) (filter f m).
Proof.
  induction 1; cbn [filter]; [constructor| | |now transitivity (filter f l')].
  - destruct (f x); [now constructor|assumption].
  - destruct (f x), (f y); try apply Permutation_refl. apply perm_swap.
Qed.

(** ** Overlaps of chosen events *)
Section Choice.
  Variables (events touches p : list nat).
  Let E' := pick 0%nat p events.
  Let T' := pick 0%nat p touches.
  Lemma overlap_pick j : overlap E' T' j = length (filter (covers_b events touches j) p).
  Proof.
    unfold overlap. rewrite <- (filter_seq_nth 0%nat (covers_b events touches j) p). unfold E' at 2. rewrite pick_length.
    f_equal. apply filter_ext_in. intros a Ha. apply in_seq in Ha. unfold covers_b, E', T'. now rewrite !pick_nth by lia.
  Qed.
  Lemma covers_pick a j : (a < length p)%nat -> (covers E' T' a j <-> covers events touches (nth a p 0%nat) j).
  Proof. intro H. unfold covers, E', T'. now rewrite !pick_nth by lia. Qed.
  Lemma overlap_chosen j : chooses p (length events) -> (overlap E' T' j <= overlap events touches j)%nat.
  Proof.
    intros [N I]. rewrite overlap_pick. unfold overlap. apply NoDup_incl_length; [now apply NoDup_filter|].
    intros k Hk. apply filter_In in Hk. destruct Hk as [A B]. apply filter_In. split; [apply in_seq; specialize (I k A); lia|exact B].
  Qed.
  Lemma overlap_chosen_eq j : chooses p (length events) ->
    (overlap E' T' j = overlap events touches j <-> forall k, (k < length events)%nat -> covers events touches k j -> In k p).
  Proof.
    intros [N I]. rewrite overlap_pick. unfold overlap. split.
    - intros E k Hk Hc. assert (W : incl (filter (covers_b events touches j) (seq 0 (length events))) (filter (covers_b events touches j) p)).
      { apply NoDup_length_incl; [now apply NoDup_filter|lia|]. intros x Hx. apply filter_In in Hx. destruct Hx as [A B]. apply filter_In. split; [apply in_seq; specialize (I x A); lia|exact B]. }
      assert (K : In k (filter (covers_b events touches j) p)) by (apply W, filter_In; split; [apply in_seq; lia|now apply covers_iff]).
      now apply filter_In in K.
    - intro H. apply Permutation_length, NoDup_Permutation; [now apply NoDup_filter|apply NoDup_filter, seq_NoDup|].
      intro k. rewrite !filter_In, in_seq, covers_iff. split; intros [A B]; (split; [|exact B]); [specialize (I k A); lia|apply H; [lia|exact B]].
  Qed.
End Choice.
Lemma au_ok n events touches : length events = length touches -> exists ws conc, average_uniqueness n events touches = Ok (ws, conc).
Proof. intro H. unfold average_uniqueness. rewrite H, Nat.eqb_refl. cbn [negb]. cbv zeta. eexists _, _. reflexivity. Qed.
Lemma au_reorder n events touches p ws conc : average_uniqueness n events touches = Ok (ws, conc) -> reorders p (length events) ->
  average_uniqueness n (pick 0%nat p events) (pick 0%nat p touches) = Ok (pick NaN p ws, conc).
Proof.
  intros H R. pose proof (reorders_length _ _ R) as Lp. assert (L : length (pick 0%nat p events) = length (pick 0%nat p touches)) by now rewrite !pick_length.
  destruct (au_ok n _ _ L) as (ws' & conc' & E). rewrite E. pose proof (au_conc _ _ _ _ _ E) as C'. pose proof (au_conc _ _ _ _ _ H) as C.
  assert (EC : conc' = conc).
  { subst. apply (nth_ext _ _ 0%Z 0%Z); [now rewrite !conc_length|]. intros j Hj. rewrite conc_length in Hj. rewrite !conc_nth by exact Hj. do 2 f_equal.
    apply overlap_chosen_eq; [now apply reorders_chooses|]. intros k Hk _. now apply R. }
  f_equal. f_equal; [|exact EC]. rewrite (au_ws _ _ _ _ _ E), (au_ws _ _ _ _ _ H), EC. rewrite pick_length.
  apply (nth_ext _ _ NaN NaN); [now rewrite map_length, seq_length, pick_length|]. intros a Ha. rewrite map_length, seq_length in Ha.
  rewrite nth_map_seq, !pick_nth by lia. rewrite nth_map_seq; [reflexivity|]. apply R, nth_In. lia.
Qed.
Lemma au_choice n events touches p ws conc : average_uniqueness n events touches = Ok (ws, conc) -> chooses p (length events) ->
  (Z.of_nat (length events) < 32768)%Z -> (forall i, (i < length events)%nat -> (nth i events 0 <= nth i touches 0 < n)%nat) ->
  exists ws' conc', average_uniqueness n (pick 0%nat p events) (pick 0%nat p touches) = Ok (ws', conc') /\
    length ws' = length p /\ length conc' = n /\
    (forall j, (j < n)%nat -> (nth j conc' 0 <= nth j conc 0)%Z) /\
    forall a, (a < length p)%nat -> exists u u', nth (nth a p 0%nat) ws NaN = Fin u /\ nth a ws' NaN = Fin u' /\ u <= u' /\
      (u == u' <-> forall k j, (k < length events)%nat -> covers events touches k j -> covers events touches (nth a p 0%nat) j -> In k p).
Proof.
  intros H P B V. assert (L : length (pick 0%nat p events) = length (pick 0%nat p touches)) by now rewrite !pick_length.
  destruct (au_ok n _ _ L) as (ws' & conc' & E). exists ws', conc'. split; [exact E|]. destruct (au_concurrency _ _ _ _ _ E) as (E1 & E2 & _).
  rewrite pick_length in E1. split; [exact E1|]. split; [exact E2|].
  set (e' := pick 0%nat p events) in *. set (t' := pick 0%nat p touches) in *.
  assert (O : forall j, (Z.of_nat (overlap events touches j) < 32768)%Z) by (intro j; pose proof (overlap_le events touches j); lia).
  assert (OC : forall j, (overlap e' t' j <= overlap events touches j)%nat) by (intro j; now apply overlap_chosen).
  assert (O' : forall j, (Z.of_nat (overlap e' t' j) < 32768)%Z) by (intro j; specialize (O j); specialize (OC j); lia).
  split.
  - intros j Hj. rewrite (au_exact _ _ _ _ _ E j Hj (O' j)), (au_exact _ _ _ _ _ H j Hj (O j)). specialize (OC j). lia.
  - intros a Ha. assert (Hk : (nth a p 0 < length events)%nat) by (apply P, nth_In; exact Ha). destruct (V _ Hk) as [V1 V2].
    destruct (au_val _ _ _ _ _ H _ Hk V1 V2 (fun j _ => O j)) as (u & U1 & U2).
    assert (La : (a < length e')%nat) by (unfold e'; now rewrite pick_length).
    assert (S1 : nth a e' 0%nat = nth (nth a p 0%nat) events 0%nat) by (apply pick_nth; exact Ha). assert (S2 : nth a t' 0%nat = nth (nth a p 0%nat) touches 0%nat) by (apply pick_nth; exact Ha).
    destruct (au_val _ _ _ _ _ E a La ltac:(rewrite S1, S2; exact V1) ltac:(rewrite S2; exact V2) (fun j _ => O' j)) as (u' & W1 & W2).
    exists u, u'. split; [exact U1|]. split; [exact W1|]. rewrite S1, S2 in W2. set (s := nth (nth a p 0%nat) events 0%nat) in *. set (e := nth (nth a p 0%nat) touches 0%nat) in *.
    assert (Hl : 0 < Qnat (S e - s)) by (apply Qnat_pos; lia).
    assert (POS : forall j, (s <= j <= e)%nat -> (0 < overlap e' t' j)%nat).
    { intros j Hj. apply (overlap_pos e' t' a); [exact La|]. apply covers_pick; [exact Ha|exact Hj]. }
    assert (TERM : forall j, (s <= j < S e)%nat -> 1 / Qnat (overlap events touches j) <= 1 / Qnat (overlap e' t' j)).
    { intros j Hj. pose proof (Qnat_pos _ (POS j ltac:(lia))) as P1. pose proof (Qnat_le _ _ (OC j)) as P2. apply Qle_shift_div_l; [exact P1|].
      setoid_replace (1 / Qnat (overlap events touches j) * Qnat (overlap e' t' j)) with (Qnat (overlap e' t' j) / Qnat (overlap events touches j)) by (field; lra). apply Qle_shift_div_r; lra. }
    assert (LE : u <= u').
    { rewrite U2, W2. unfold Qdiv. apply Qmult_le_compat_r; [|apply Qinv_le_0_compat; lra]. apply (ssum_le_k n events touches (nth a p 0%nat) Hk V1 V2); exact TERM. }
    split; [exact LE|]. split.
    + intros EQ k j Hke Hc Hca. destruct (in_dec Nat.eq_dec k p) as [I|I]; [exact I|]. exfalso.
      assert (NE : overlap e' t' j <> overlap events touches j) by (intro X; apply I; exact (proj1 (overlap_chosen_eq events touches p j P) X k Hke Hc)).
      assert (Hj : (s <= j <= e)%nat) by exact Hca. assert (LT : (overlap e' t' j < overlap events touches j)%nat) by (specialize (OC j); lia).
      assert (ST : ssum (fun j => 1 / Qnat (overlap events touches j)) s (S e) < ssum (fun j => 1 / Qnat (overlap e' t' j)) s (S e)).
      { apply (ssum_lt n events touches (nth a p 0%nat) Hk V1 V2 _ _ s (S e) j TERM ltac:(lia)). pose proof (Qnat_pos _ (POS j Hj)) as P1. assert (P2 : Qnat (overlap e' t' j) < Qnat (overlap events touches j)) by (unfold Qnat; rewrite <- Zlt_Qlt; lia).
        apply Qlt_shift_div_l; [exact P1|]. setoid_replace (1 / Qnat (overlap events touches j) * Qnat (overlap e' t' j)) with (Qnat (overlap e' t' j) / Qnat (overlap events touches j)) by (field; lra). apply Qlt_shift_div_r; lra. }
      rewrite U2, W2 in EQ. assert (ssum (fun j => 1 / Qnat (overlap events touches j)) s (S e) == ssum (fun j => 1 / Qnat (overlap e' t' j)) s (S e)); [|lra].
      set (x := ssum _ _ _) in *. set (y := ssum _ _ _) in *. setoid_replace x with (x / Qnat (S e - s) * Qnat (S e - s)) by (field; lra). rewrite EQ. field. lra.
    + intro HH. rewrite U2, W2. assert (EQ : ssum (fun j => 1 / Qnat (overlap events touches j)) s (S e) == ssum (fun j => 1 / Qnat (overlap e' t' j)) s (S e)).
      { apply ssum_ext. intros j Hj. assert (X : overlap e' t' j = overlap events touches j); [|now rewrite X].
        apply overlap_chosen_eq; [exact P|]. intros k Hke Hc. apply (HH k j Hke Hc). unfold covers. fold s e. lia. }
      now rewrite EQ.
Qed.

(** ** Events of one stretch of data after another *)
Lemma overlap_app e1 t1 e2 t2 j : length e1 = length t1 -> overlap (e1 ++ e2) (t1 ++ t2) j = (overlap e1 t1 j + overlap e2 t2 j)%nat.
Proof.
  intro L. unfold overlap. rewrite app_length, seq_app, filter_app, app_length. f_equal.
  - f_equal. apply filter_ext_in. intros a Ha. apply in_seq in Ha. unfold covers_b. now rewrite !app_nth1 by lia.
  - rewrite Nat.add_0_l. rewrite <- (Nat.add_0_l (length e1)). generalize 0%nat as k. induction (length e2) as [|m IH]; intro k; [reflexivity|]. cbn [seq filter].
    assert (E : covers_b (e1 ++ e2) (t1 ++ t2) j (k + length e1) = covers_b e2 t2 j k).
    { unfold covers_b. rewrite !app_nth2 by lia. rewrite <- L. replace (k + length e1 - length e1)%nat with k by lia. reflexivity. }
    rewrite E. change (S (k + length e1)) with (S k + length e1)%nat. specialize (IH (S k)). destruct (covers_b e2 t2 j k); cbn [length]; now rewrite IH.
Qed.
Lemma overlap_none e t j : (forall i, (i < length e)%nat -> ~ covers e t i j) -> overlap e t j = 0%nat.
Proof.
  intro H. unfold overlap. destruct (filter _ _) as [|x l] eqn:E; [reflexivity|]. exfalso. assert (K : In x (filter (covers_b e t j) (seq 0 (length e)))) by (rewrite E; now left).
  apply filter_In in K. destruct K as [A B]. apply in_seq in A. apply covers_iff in B. apply (H x); [lia|exact B].
Qed.
Lemma overlap_shift e t n j : length e = length t -> overlap (map (fun k => n + k)%nat e) (map (fun k => n + k)%nat t) (n + j) = overlap e t j.
Proof.
  intro L. unfold overlap. rewrite map_length. f_equal. apply filter_ext_in. intros a Ha. apply in_seq in Ha. unfold covers_b.
  rewrite (nth_indep (map _ e) 0%nat (n + 0)%nat), (nth_indep (map _ t) 0%nat (n + 0)%nat) by (rewrite map_length; lia). rewrite !(map_nth (fun k => n + k)%nat).
  set (x := nth a e 0%nat). set (y := nth a t 0%nat). f_equal; [destruct (Nat.leb_spec (n + x) (n + j)), (Nat.leb_spec x j)|destruct (Nat.leb_spec (n + j) (n + y)), (Nat.leb_spec j y)]; try reflexivity; lia.
Qed.
Lemma skipn_app_r {A} n (l m : list A) : length l = n -> forall k, skipn (n + k) (l ++ m) = skipn k m.
Proof. intros E k. rewrite skipn_app, skipn_all2 by lia. cbn [app]. f_equal. lia. Qed.
Lemma au_join n1 e1 t1 w1 c1 n2 e2 t2 w2 c2 :
  average_uniqueness n1 e1 t1 = Ok (w1, c1) -> average_uniqueness n2 e2 t2 = Ok (w2, c2) ->
  (forall i, (i < length e1)%nat -> (nth i e1 0 <= nth i t1 0 < n1)%nat) ->
  average_uniqueness (n1 + n2) (e1 ++ map (fun k => n1 + k)%nat e2) (t1 ++ map (fun k => n1 + k)%nat t2) = Ok (w1 ++ w2, c1 ++ c2).
Proof.
  intros H1 H2 V. pose proof (au_len _ _ _ _ _ H1) as L1. pose proof (au_len _ _ _ _ _ H2) as L2.
  set (f := fun k => (n1 + k)%nat). assert (L : length (e1 ++ map f e2) = length (t1 ++ map f t2)) by (rewrite !app_length, !map_length; lia).
  destruct (au_ok (n1 + n2) _ _ L) as (w & c & E). etransitivity; [exact E|]. pose proof (au_conc _ _ _ _ _ H1) as C1. pose proof (au_conc _ _ _ _ _ H2) as C2. pose proof (au_conc _ _ _ _ _ E) as C.
  assert (M1 : length c1 = n1) by (subst c1; apply conc_length). assert (M2 : length c2 = n2) by (subst c2; apply conc_length).
  assert (EC : c = c1 ++ c2).
  { apply (nth_ext _ _ 0%Z 0%Z); [rewrite C, conc_length, app_length; lia|]. intros j Hj. rewrite C, conc_length in Hj. rewrite C, conc_nth, overlap_app by assumption.
    destruct (lt_dec j n1) as [J|J].
    - rewrite app_nth1 by lia. rewrite C1, conc_nth by exact J. replace (overlap (map f e2) (map f t2) j) with 0%nat; [now rewrite Nat.add_0_r|]. symmetry. apply overlap_none.
      intros i Hi [K _]. rewrite map_length in Hi. rewrite (nth_indep _ 0%nat (f 0%nat)) in K by (rewrite map_length; exact Hi). rewrite map_nth in K. unfold f in K. lia.
    - rewrite app_nth2 by lia. rewrite C2, conc_nth by lia. rewrite M1. replace j with (n1 + (j - n1))%nat at 2 by lia. unfold f. rewrite overlap_shift by exact L2. rewrite (overlap_none e1 t1); [reflexivity|].
      intros i Hi [_ K]. specialize (V i Hi). lia. }
  f_equal. f_equal; [|exact EC]. rewrite (au_ws _ _ _ _ _ E), (au_ws _ _ _ _ _ H1), (au_ws _ _ _ _ _ H2), EC. rewrite app_length, map_length.
  rewrite seq_app, map_app. f_equal.
  - apply map_ext_in. intros i Hi. apply in_seq in Hi. rewrite !app_nth1 by lia. specialize (V i ltac:(lia)). f_equal. rewrite skipn_app, firstn_app.
    rewrite skipn_length. replace (nth i t1 0 + 1 - nth i e1 0 - (length c1 - nth i e1 0))%nat with 0%nat by lia. cbn [firstn]. now rewrite app_nil_r.
  - rewrite Nat.add_0_l. apply (nth_ext _ _ NaN NaN); [now rewrite !map_length, !seq_length|]. intros a Ha. rewrite map_length, seq_length in Ha.
    rewrite nth_map_seq by exact Ha. set (g := fun i => _). rewrite (nth_indep _ NaN (g 0%nat)) by (now rewrite map_length, seq_length). rewrite map_nth, seq_nth by exact Ha. unfold g.
    rewrite !app_nth2 by lia. rewrite <- L1. replace (length e1 + a - length e1)%nat with a by lia.
    rewrite (nth_indep (map f t2) 0%nat (f 0%nat)), (nth_indep (map f e2) 0%nat (f 0%nat)) by (rewrite map_length; lia). rewrite !map_nth. unfold f. rewrite (skipn_app_r n1) by exact M1. f_equal. f_equal. lia.
Qed.

(** ** Attribution *)
Section Attr.
  Variable ln : Q -> option Q.
  Variables (events touches : list nat) (close : list Q) (conc : list Z) (p : list nat).
  Lemma raw_pick : chooses p (length events) -> forall raw, return_attribution ln events touches close conc false = Ok raw ->
    return_attribution ln (pick 0%nat p events) (pick 0%nat p touches) close conc false = Ok (pick 0 p raw).
  Proof.
    intros [_ C] raw H. inversion H as [Er]. unfold return_attribution. f_equal. rewrite pick_length. apply (nth_ext _ _ 0 0); [now rewrite map_length, seq_length, pick_length|].
    intros a Ha. rewrite map_length, seq_length in Ha. rewrite nth_map_seq by exact Ha. rewrite !pick_nth by exact Ha. rewrite nth_map_seq by (apply C, nth_In; exact Ha). reflexivity.
  Qed.
End Attr.
Lemma pick_perm l p : reorders p (length l) -> Permutation (pick 0 p l) l.
Proof.
  intro R. apply reorders_perm in R. unfold pick. apply (Permutation_map (fun k => nth k l 0)) in R. rewrite R. rewrite nth_map_eq. reflexivity.
Qed.
Lemma attr_reorder ln events touches close conc p ws : return_attribution ln events touches close conc true = Ok ws -> reorders p (length events) ->
  exists ws', return_attribution ln (pick 0%nat p events) (pick 0%nat p touches) close conc true = Ok ws' /\ length ws' = length events /\
    forall a, (a < length events)%nat -> nth a ws' 0 == nth (nth a p 0%nat) ws 0.
Proof.
  intros H R. pose proof (reorders_length _ _ R) as Lp.
  destruct (return_attribution ln events touches close conc false) as [raw|] eqn:Er; [|discriminate Er].
  pose proof (raw_pick ln events touches close conc p (reorders_chooses _ _ R) raw Er) as Ep.
  unfold return_attribution in H, Er, Ep |- *. injection Er as Er. injection Ep as Ep. rewrite Er in H. rewrite Ep. destruct (Qleb_spec (qsum raw) 0) as [|P]; [discriminate|]. injection H as H.
  assert (Lr : length raw = length events) by (rewrite <- Er, map_length, seq_length; reflexivity).
  assert (S : qsum (pick 0 p raw) == qsum raw) by (apply qsum_perm, pick_perm; now rewrite Lr).
  destruct (Qleb_spec (qsum (pick 0 p raw)) 0) as [B|B]; [lra|]. eexists. split; [reflexivity|]. rewrite !pick_length. split; [rewrite map_length, pick_length; exact Lp|].
  intros a Ha. subst ws. assert (Ha' : (a < length p)%nat) by lia. assert (Hk : (nth a p 0 < length raw)%nat) by (rewrite Lr; apply R, nth_In; exact Ha').
  set (f := fun w => w * (Qnat (length p) / qsum (pick 0 p raw))). set (g := fun w => w * (Qnat (length events) / qsum raw)).
  rewrite (nth_indep _ 0 (f 0)) by (rewrite map_length, pick_length; exact Ha'). rewrite (nth_indep (map g raw) 0 (g 0)) by (rewrite map_length; exact Hk). rewrite !map_nth, pick_nth by exact Ha'.
  unfold f, g. rewrite S, Lp. reflexivity.
Qed.

(** ** Class balance *)
Lemma class_total_pick labels w c p : length w = length labels -> reorders p (length labels) -> class_total (pick 0%Z p labels) (pick 0 p w) c == class_total labels w c.
Proof.
  intros L R. unfold class_total. rewrite !qsum_filter_map. rewrite pick_length.
  rewrite (qsum_map_ext _ (fun a => (fun k => if (nth k labels 0 =? c)%Z then nth k w 0 else 0) (nth a p 0%nat))).
  - rewrite (map_seq_nth 0%nat (fun k => if (nth k labels 0 =? c)%Z then nth k w 0 else 0) p). apply qsum_perm, Permutation_map, reorders_perm, R.
  - intros a Ha. apply in_seq in Ha. rewrite !pick_nth by lia. reflexivity.
Qed.
Lemma classes_pick labels p : reorders p (length labels) -> length (zunique (pick 0%Z p labels)) = length (zunique labels).
Proof.
  intro R. apply Permutation_length, NoDup_Permutation; [apply ssort_nodup, zunique_sorted|apply ssort_nodup, zunique_sorted|]. intro c. rewrite !zunique_in.
  split; intro H.
  - unfold pick in H. apply in_map_iff in H. destruct H as (k & <- & Hk). apply nth_In. now apply R.
  - destruct (In_nth _ _ 0%Z H) as (k & Hk & <-). unfold pick. apply in_map_iff. exists k. split; [reflexivity|now apply R].
Qed.
Lemma balance_reorder labels base p : length base = length labels -> reorders p (length labels) ->
  forall a, (a < length labels)%nat -> nth a (bal_final (class_balance_weights (pick 0%Z p labels) (pick 0 p base))) 0 == nth (nth a p 0%nat) (bal_final (class_balance_weights labels base)) 0.
Proof.
  intros L R a Ha. pose proof (reorders_length _ _ R) as Lp. assert (Ha' : (a < length p)%nat) by lia. assert (Hk : (nth a p 0 < length labels)%nat) by (apply R, nth_In; exact Ha').
  rewrite !final_nth by (rewrite ?pick_length; assumption || reflexivity). cbv zeta. rewrite !pick_nth by exact Ha'. rewrite (class_total_pick labels base _ p L R), (classes_pick labels p R).
  assert (S : qsum (pick 0 p base) == qsum base) by (apply qsum_perm, pick_perm; now rewrite L). destruct (Qltb _ _); [|reflexivity]. rewrite S. rewrite class_total_pick by assumption. reflexivity.
Qed.
(** Base weights in another unit. *)
Lemma class_total_scale labels w w' c k : (forall i, (i < length labels)%nat -> nth i w' 0 == k * nth i w 0) -> class_total labels w' c == k * class_total labels w c.
Proof.
  intro H. unfold class_total. rewrite (qsum_map_ext _ (fun i => nth i w 0 * k)); [rewrite qsum_map_mul_r; ring|]. intros i Hi. apply filter_In in Hi. destruct Hi as [Hi _]. apply in_seq in Hi. rewrite H by lia. ring.
Qed.
Lemma qsum_nth_scale w w' k : length w' = length w -> (forall i, (i < length w)%nat -> nth i w' 0 == k * nth i w 0) -> qsum w' == k * qsum w.
Proof.
  intros L H. rewrite <- (nth_map_eq w), <- (nth_map_eq w'), L. rewrite (qsum_map_ext _ (fun i => nth i w 0 * k)); [rewrite qsum_map_mul_r; ring|]. intros i Hi. apply in_seq in Hi. rewrite H by lia. ring.
Qed.
Lemma balance_scale labels base base' k : 0 < k -> length base = length labels -> length base' = length labels -> (forall i, (i < length labels)%nat -> nth i base' 0 == k * nth i base 0) ->
  forall i, (i < length labels)%nat -> nth i (bal_final (class_balance_weights labels base')) 0 == k * nth i (bal_final (class_balance_weights labels base)) 0.
Proof.
  intros Hk L L' H i Hi. rewrite !final_nth by assumption. cbv zeta. rewrite (H i Hi). pose proof (class_total_scale labels base base' (nth i labels 0%Z) k H) as T.
  pose proof (qsum_nth_scale base base' k ltac:(lia) ltac:(rewrite L; exact H)) as S. set (t := class_total labels base _) in *. set (t' := class_total labels base' _) in *. clearbody t t'.
  destruct (Qltb_spec 0 t') as [A|A], (Qltb_spec 0 t) as [B|B]; [|exfalso; nra|exfalso; nra|ring].
  assert (K : 0 < Qnat (length (zunique labels))).
  { apply Qnat_pos. assert (I : In (nth i labels 0%Z) (zunique labels)) by (apply zunique_in, nth_In; exact Hi). destruct (zunique labels); [contradiction|cbn [length]; lia]. }
  rewrite S, T. field. repeat split; lra.
Qed.
(** Balancing twice. *)
Lemma balance_idem labels base : length base = length labels -> (forall c, In c labels -> 0 < class_total labels base c) ->
  forall i, (i < length labels)%nat -> let b := bal_final (class_balance_weights labels base) in nth i (bal_final (class_balance_weights labels b)) 0 == nth i b 0.
Proof.
  intros L P i Hi b. assert (Lb : length b = length labels) by apply bal_len. rewrite (final_nth labels b Lb) by exact Hi. cbv zeta.
  assert (Ic : In (nth i labels 0%Z) labels) by (apply nth_In; exact Hi). assert (N : labels <> []) by (intro E; rewrite E in Ic; contradiction).
  assert (T : class_total labels b (nth i labels 0%Z) == qsum base / Qnat (length (zunique labels))).
  { unfold b. rewrite class_final by assumption. specialize (P _ Ic). destruct (Qltb_spec 0 (class_total labels base (nth i labels 0%Z))); [reflexivity|lra]. }
  assert (S : qsum b == qsum base) by (apply bal_total; assumption).
  assert (K : 0 < Qnat (length (zunique labels))).
  { apply Qnat_pos. assert (I : In (nth i labels 0%Z) (zunique labels)) by now apply zunique_in. destruct (zunique labels); [contradiction|cbn [length]; lia]. }
  assert (SB : 0 < qsum base).
  { rewrite (class_total_sum labels base L base L). assert (NN : forall x, In x (map (class_total labels base) (zunique labels)) -> 0 <= x).
    { intros x Hx. apply in_map_iff in Hx. destruct Hx as (c & <- & Hc). specialize (P c (proj1 (zunique_in c labels) Hc)). lra. }
    assert (IZ : In (nth i labels 0%Z) (zunique labels)) by now apply zunique_in. specialize (P _ Ic). revert IZ NN. clear T K. induction (zunique labels) as [|c l IH]; [contradiction|].
    intros [->|I] NN; cbn [map qsum fold_right]; fold (qsum (map (class_total labels base) l)).
    - assert (0 <= qsum (map (class_total labels base) l)) by (apply qsum_nonneg; intros x Hx; apply NN; now right). lra.
    - assert (0 <= class_total labels base c) by (apply NN; now left). specialize (IH I ltac:(intros x Hx; apply NN; now right)). lra. }
  set (t := class_total labels b _) in *. clearbody t. assert (Pt : 0 < t) by (rewrite T; apply Qlt_shift_div_l; lra). destruct (Qltb_spec 0 t); [|lra]. rewrite S, T. field. split; lra.
Qed.
(** Other names for the classes. *)
Lemma balance_rename labels base (f : Z -> Z) : length base = length labels -> (forall c d, In c labels -> In d labels -> f c = f d -> c = d) ->
  forall i, (i < length labels)%nat -> nth i (bal_final (class_balance_weights (map f labels) base)) 0 == nth i (bal_final (class_balance_weights labels base)) 0.
Proof.
  intros L J i Hi. rewrite !final_nth by (rewrite ?map_length; assumption). cbv zeta.
  assert (N : forall k, (k < length labels)%nat -> nth k (map f labels) 0%Z = f (nth k labels 0%Z)) by (intros k Hk; rewrite (nth_indep _ 0%Z (f 0%Z)) by (now rewrite map_length); apply map_nth).
  assert (T : class_total (map f labels) base (nth i (map f labels) 0%Z) = class_total labels base (nth i labels 0%Z)).
  { unfold class_total. rewrite map_length. do 2 f_equal. apply filter_ext_in. intros k Hk. apply in_seq in Hk. rewrite !N by lia.
    destruct (Z.eqb_spec (f (nth k labels 0%Z)) (f (nth i labels 0%Z))) as [E|E], (Z.eqb_spec (nth k labels 0%Z) (nth i labels 0%Z)) as [F|F]; try reflexivity; [|congruence].
    exfalso. apply F, J; [apply nth_In; lia|apply nth_In; exact Hi|exact E]. }
  rewrite T. assert (K : length (zunique (map f labels)) = length (zunique labels)).
  { rewrite <- (map_length f (zunique labels)). apply Permutation_length, NoDup_Permutation; [apply ssort_nodup, zunique_sorted| |].
    - assert (NU := ssort_nodup _ (zunique_sorted labels)). assert (IU : incl (zunique labels) labels) by (intros c Hc; now apply zunique_in).
      induction (zunique labels) as [|c l IH]; [constructor|]. inversion NU; subst. cbn [map]. constructor.
      + intro X. apply in_map_iff in X. destruct X as (d & E & Hd). assert (d = c) by (apply J; [apply IU; now right|apply IU; now left|exact E]). subst. contradiction.
      + apply IH; [assumption|]. intros x Hx. apply IU. now right.
    - intro c. rewrite zunique_in, !in_map_iff. split; intros (d & E & Hd); exists d; (split; [exact E|]); now apply zunique_in. }
  rewrite K. reflexivity.
Qed.
