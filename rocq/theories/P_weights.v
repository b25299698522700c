(** P_weights.v -- proofs about sample weights. *)
From Verif Require Import Base M_weights S_weights.
Open Scope Q_scope.

(** ** Concurrency *)
Lemma bump_length c s e : length (bump c s e) = length c.
Proof. unfold bump. now rewrite map_length, seq_length. Qed.
Lemma nth_map_seq {A} (d : A) (f : nat -> A) n j : (j < n)%nat -> nth j (map f (seq 0 n)) d = f j.
Proof.
  intro H. rewrite (nth_indep _ d (f 0%nat)) by (rewrite map_length, seq_length; auto).
  rewrite map_nth, seq_nth; auto.
Qed.
Lemma bump_nth c s e j : (j < length c)%nat ->
  nth j (bump c s e) 0%Z = if ((s <=? j) && (j <=? e))%nat%bool then wraps 16 (nth j c 0 + 1)%Z else nth j c 0%Z.
Proof. intro H. unfold bump. now rewrite nth_map_seq. Qed.

Lemma wraps_idem b z k : (0 < b)%Z -> wraps b (wraps b z + k)%Z = wraps b (z + k)%Z.
Proof.
  intro Hb. unfold wraps. f_equal.
  replace ((z + 2 ^ (b - 1)) mod 2 ^ b - 2 ^ (b - 1) + k + 2 ^ (b - 1))%Z
    with ((z + 2 ^ (b - 1)) mod 2 ^ b + k)%Z by lia.
  rewrite Zplus_mod_idemp_l. f_equal. lia.
Qed.

Section Conc.
  Variables (n : nat) (events touches : list nat).
  Let stepc := (fun c i => bump c (nth i events 0%nat) (nth i touches 0%nat)).
  Definition cnt (m j : nat) := length (filter (covers_b events touches j) (seq 0 m)).
  Lemma conc_inv m : let c := fold_left stepc (seq 0 m) (repeat 0%Z n) in
    length c = n /\ forall j, (j < n)%nat -> nth j c 0%Z = wraps 16 (Z.of_nat (cnt m j)).
  Proof.
    induction m as [|m [IHl IH]].
    - simpl. split; [apply repeat_length|]. intros j Hj. rewrite nth_repeat. reflexivity.
    - cbv zeta. rewrite fold_left_seq_S. set (c := fold_left _ _ _) in *. simpl plus.
      split; [unfold stepc; now rewrite bump_length|]. intros j Hj.
      unfold stepc. rewrite bump_nth by lia. rewrite (IH j Hj).
      unfold cnt. rewrite seq_S, filter_app, app_length. simpl filter. simpl plus.
      change ((nth m events 0 <=? j) && (j <=? nth m touches 0))%nat%bool with (covers_b events touches j m).
      destruct (covers_b events touches j m); simpl length.
      + rewrite wraps_idem by lia. rewrite Nat2Z.inj_add. reflexivity.
      + rewrite Nat.add_0_r. reflexivity.
  Qed.
End Conc.

Lemma conc_nth n events touches j : (j < n)%nat ->
  nth j (concurrency_of n events touches) 0%Z = wraps 16 (Z.of_nat (overlap events touches j)).
Proof. intro H. apply (conc_inv n events touches (length events)); auto. Qed.
Lemma conc_length n events touches : length (concurrency_of n events touches) = n.
Proof. apply (conc_inv n events touches (length events)). Qed.

Lemma overlap_le events touches j : (overlap events touches j <= length events)%nat.
Proof.
  unfold overlap. rewrite <- (seq_length (length events) 0) at 2.
  generalize (seq 0 (length events)). induction l as [|x l IH]; simpl; [lia|]. destruct (covers_b _ _ _ _); simpl; lia.
Qed.

Lemma covers_iff events touches j i : covers_b events touches j i = true <-> covers events touches i j.
Proof. unfold covers_b, covers. rewrite andb_true_iff, !Nat.leb_le. tauto. Qed.

Lemma overlap_pos events touches i j : (i < length events)%nat -> covers events touches i j ->
  (0 < overlap events touches j)%nat.
Proof.
  intros Hi Hc. unfold overlap. assert (In i (filter (covers_b events touches j) (seq 0 (length events)))).
  { apply filter_In. split; [apply in_seq; lia|]. now apply covers_iff. }
  destruct (filter _ _); [contradiction|simpl; lia].
Qed.

(** exactly one event covers j iff no other covers it *)
Lemma overlap_one events touches i j : (i < length events)%nat -> covers events touches i j ->
  (overlap events touches j = 1%nat <->
   forall k, (k < length events)%nat -> k <> i -> ~ covers events touches k j).
Proof.
  intros Hi Hc. unfold overlap. remember (filter (covers_b events touches j) (seq 0 (length events))) as l eqn:El.
  assert (Hin : In i l). { subst l. apply filter_In. split; [apply in_seq; lia|]. now apply covers_iff. }
  assert (Hnd : NoDup l) by (subst l; apply NoDup_filter, seq_NoDup).
  split.
  - intros H1 k Hk Hne Hck. assert (In k l). { subst l. apply filter_In. split; [apply in_seq; lia|]. now apply covers_iff. }
    destruct l as [|a [|b l']]; simpl in *; lia.
  - intro H. destruct l as [|a l']; [contradiction|]. destruct l' as [|b l']; [reflexivity|]. exfalso.
    assert (Ha : forall x, In x (a :: b :: l') -> x = i).
    { intros x Hx. destruct (Nat.eq_dec x i); auto. exfalso.
      assert (Hx' : In x (filter (covers_b events touches j) (seq 0 (length events)))) by (rewrite <- El; exact Hx).
      apply filter_In in Hx'. destruct Hx' as [Hs Hb]. apply in_seq in Hs. apply covers_iff in Hb.
      apply (H x); auto. lia. }
    rewrite (Ha a), (Ha b) in Hnd by (simpl; auto). inversion Hnd. subst. simpl in *. tauto.
Qed.

Definition inv_of (c : nat) : Q := 1 / Qnat c.

Lemma firstn_skipn_map {A} (d : A) l s k : (s + k <= length l)%nat ->
  firstn k (skipn s l) = map (fun j => nth j l d) (seq s k).
Proof.
  revert s. induction k as [|k IH]; intros s H; [reflexivity|].
  rewrite (skipn_nth_cons d) by lia. cbn [firstn seq map]. f_equal. apply IH. lia.
Qed.

Lemma mean_inverse_spec (f : nat -> nat) s k : (0 < k)%nat ->
  (forall j, (s <= j < s + k)%nat -> (0 < f j)%nat) ->
  mean_inverse (map (fun j => Z.of_nat (f j)) (seq s k)) =
  Fin (qsum (map (fun c => 1 / inject_Z c) (map (fun j => Z.of_nat (f j)) (seq s k))) / Qnat k).
Proof.
  intros Hk Hp. unfold mean_inverse. rewrite map_length, seq_length.
  destruct (Nat.eqb_spec k 0); [lia|].
  replace (existsb _ _) with false; [reflexivity|]. symmetry. apply not_true_iff_false.
  rewrite existsb_exists. intros [x [Hx Hz]]. apply in_map_iff in Hx. destruct Hx as [j [<- Hj]].
  apply in_seq in Hj. specialize (Hp j). lia.
Qed.

Section AU.
  Variables (n : nat) (events touches : list nat) (ws : list ext) (conc : list Z).
  Hypothesis Hok : average_uniqueness n events touches = Ok (ws, conc).

  Lemma au_len : length events = length touches.
  Proof. unfold average_uniqueness in Hok. destruct (Nat.eqb_spec (length events) (length touches)); [auto|discriminate]. Qed.
  Lemma au_conc : conc = concurrency_of n events touches.
  Proof. unfold average_uniqueness in Hok. destruct (negb _); [discriminate|]. inversion Hok. reflexivity. Qed.
  Lemma au_ws : ws = map (fun i => mean_inverse (firstn (nth i touches 0 + 1 - nth i events 0)%nat
        (skipn (nth i events 0)%nat conc))) (seq 0 (length events)).
  Proof. unfold average_uniqueness in Hok. destruct (negb _); [discriminate|]. inversion Hok. reflexivity. Qed.

  Lemma au_concurrency : length ws = length events /\ length conc = n /\
    forall j, (j < n)%nat -> nth j conc 0%Z = wraps 16 (Z.of_nat (overlap events touches j)).
  Proof.
    rewrite au_ws, map_length, seq_length, au_conc, conc_length. split; [auto|]. split; [auto|].
    intros. now apply conc_nth.
  Qed.
  Lemma au_exact j : (j < n)%nat -> (Z.of_nat (overlap events touches j) < 32768)%Z ->
    nth j conc 0%Z = Z.of_nat (overlap events touches j).
  Proof.
    intros Hj Ho. rewrite au_conc, conc_nth by auto. apply wraps_id; [lia|].
    change (2 ^ (16 - 1))%Z with 32768%Z. lia.
  Qed.

  Section Event.
    Variable i : nat.
    Hypothesis Hi : (i < length events)%nat.
    Let s := nth i events 0%nat.
    Let e := nth i touches 0%nat.
    Hypothesis Hse : (s <= e)%nat.
    Hypothesis Hen : (e < n)%nat.
    Hypothesis Hov : forall j, (s <= j <= e)%nat -> (Z.of_nat (overlap events touches j) < 32768)%Z.
    Let u := ssum (fun j => 1 / Qnat (overlap events touches j)) s (S e) / Qnat (S e - s).

    Lemma au_val : exists v, nth i ws NaN = Fin v /\ v == u.
    Proof.
      rewrite au_ws. rewrite nth_map_seq by auto. fold s e.
      rewrite (firstn_skipn_map 0%Z) by (rewrite au_conc, conc_length; lia).
      rewrite (map_ext_in _ (fun j => Z.of_nat (overlap events touches j))).
      2:{ intros j Hj. apply in_seq in Hj. apply au_exact; [lia|]. apply Hov. lia. }
      rewrite mean_inverse_spec; [eexists; split; [reflexivity|]|lia|].
      - unfold u, ssum. replace (S e - s)%nat with (e + 1 - s)%nat by lia.
        rewrite map_map. reflexivity.
      - intros j Hj. apply (overlap_pos events touches i); auto. unfold covers. fold s e. lia.
    Qed.

    Lemma term_range j : (s <= j <= e)%nat -> 0 < 1 / Qnat (overlap events touches j) <= 1.
    Proof.
      intro Hj. assert (0 < overlap events touches j)%nat.
      { apply (overlap_pos events touches i); auto. }
      pose proof (Qnat_pos _ H) as Hp. pose proof (Qnat_le 1 _ H) as H1. change (Qnat 1) with 1 in H1.
      split; [apply Qlt_shift_div_l; lra|apply Qle_shift_div_r; lra].
    Qed.

    Lemma ssum_le_k f g a b : (forall k, (a <= k < b)%nat -> f k <= g k) -> ssum f a b <= ssum g a b.
    Proof. intro H. unfold ssum. apply qsum_le. intros x Hx. apply in_seq in Hx. apply H. lia. Qed.
    Lemma ssum_const c a b : ssum (fun _ => c) a b == c * Qnat (b - a).
    Proof. unfold ssum. rewrite qsum_map_const, seq_length. reflexivity. Qed.
    Lemma ssum_lt f g a b k : (forall k, (a <= k < b)%nat -> f k <= g k) -> (a <= k < b)%nat -> f k < g k ->
      ssum f a b < ssum g a b.
    Proof.
      intros H Hk Hlt. rewrite (ssum_split f a k b), (ssum_split g a k b) by lia.
      rewrite (ssum_cons f k b), (ssum_cons g k b) by lia.
      assert (ssum f a k <= ssum g a k) by (apply ssum_le_k; intros; apply H; lia).
      assert (ssum f (S k) b <= ssum g (S k) b) by (apply ssum_le_k; intros; apply H; lia). lra.
    Qed.
    Lemma u_range : 0 < u <= 1.
    Proof.
      assert (Hk : 0 < Qnat (S e - s)) by (apply Qnat_pos; lia). unfold u. split.
      - apply Qlt_shift_div_l; [auto|]. rewrite Qmult_0_l.
        assert (ssum (fun _ => 0) s (S e) < ssum (fun j => 1 / Qnat (overlap events touches j)) s (S e)).
        { apply (ssum_lt _ _ s (S e) s); [|lia|].
          - intros k Hk2. pose proof (term_range k). lra || (assert (s <= k <= e)%nat by lia; intuition lra).
          - pose proof (term_range s ltac:(lia)). lra. }
        rewrite ssum_const in H. lra.
      - apply Qle_shift_div_r; [auto|].
        assert (ssum (fun j => 1 / Qnat (overlap events touches j)) s (S e) <= ssum (fun _ => 1) s (S e)).
        { apply ssum_le_k. intros k Hk2. pose proof (term_range k ltac:(lia)). lra. }
        rewrite ssum_const in H. lra.
    Qed.
    Lemma u_one : u == 1 <-> forall k j, (k < length events)%nat -> k <> i ->
        ~ (covers events touches i j /\ covers events touches k j).
    Proof.
      assert (Hk : 0 < Qnat (S e - s)) by (apply Qnat_pos; lia). split.
      - intros Hu k j Hkl Hne [Hci Hck].
        assert (Hj : (s <= j <= e)%nat) by exact Hci.
        assert (Hn1 : overlap events touches j <> 1%nat).
        { intro H1. apply (overlap_one events touches i j Hi Hci) with (k := k) in H1; auto. }
        pose proof (overlap_pos events touches i j Hi Hci) as Hp.
        assert (ssum (fun j => 1 / Qnat (overlap events touches j)) s (S e) < ssum (fun _ => 1) s (S e)).
        { apply (ssum_lt _ _ s (S e) j).
          - intros q Hq. pose proof (term_range q ltac:(lia)). lra.
          - lia.
          - assert (H2 : (2 <= overlap events touches j)%nat) by lia. apply Qnat_le in H2.
            change (Qnat 2) with 2 in H2. apply Qlt_shift_div_r; lra. }
        rewrite ssum_const in H.
        assert (u < 1) by (unfold u; apply Qlt_shift_div_r; lra). lra.
      - intro H. unfold u.
        assert (E : ssum (fun j => 1 / Qnat (overlap events touches j)) s (S e) == ssum (fun _ => 1) s (S e)).
        { apply ssum_ext. intros j Hj. assert (Hci : covers events touches i j) by (unfold covers; fold s e; lia).
          assert (E : overlap events touches j = 1%nat).
          { apply (overlap_one events touches i j Hi Hci). intros k Hkl Hne Hck. apply (H k j Hkl Hne). auto. }
          rewrite E. reflexivity. }
        rewrite E, ssum_const. field. lra.
    Qed.
  End Event.
End AU.

(** Exchange of summation. *)
Lemma qsum_exchange {A B} (f : A -> B -> Q) (la : list A) (lb : list B) :
  qsum (map (fun a => qsum (map (f a) lb)) la) == qsum (map (fun b => qsum (map (fun a => f a b) la)) lb).
Proof.
  induction la as [|a la IH]; simpl.
  - induction lb as [|b lb IHb]; simpl; [reflexivity|]. rewrite <- IHb. ring.
  - rewrite IH. rewrite <- qsum_map_plus. reflexivity.
Qed.

Lemma qsum_filter_map {A} (p : A -> bool) (f : A -> Q) l :
  qsum (map f (filter p l)) == qsum (map (fun x => if p x then f x else 0) l).
Proof.
  induction l as [|x l IH]; simpl; [reflexivity|]. destruct (p x); simpl; rewrite IH; ring.
Qed.

Lemma seg_as_filter (f : nat -> Q) s e n : (e < n)%nat ->
  ssum f s (S e) == qsum (map (fun j => if ((s <=? j) && (j <=? e))%nat%bool then f j else 0) (seq 0 n)).
Proof.
  intro H. destruct (le_lt_dec s (S e)) as [Hs|Hs].
  2:{ rewrite ssum_nil by lia. symmetry. rewrite (qsum_map_ext _ (fun _ => 0)).
      - rewrite qsum_map_const. ring.
      - intros j _. destruct (Nat.leb_spec s j), (Nat.leb_spec j e); simpl; try reflexivity. lia. }
  set (g := fun j => _). change (qsum (map g (seq 0 n))) with (qsum (map g (seq 0 (n - 0)))) || idtac.
  replace n with (n - 0)%nat by lia. change (qsum (map g (seq 0 (n - 0)))) with (ssum g 0 n).
  rewrite (ssum_split g 0 s n) by lia. rewrite (ssum_split g s (S e) n) by lia.
  rewrite (ssum_ext g (fun _ => 0) 0 s), (ssum_ext g (fun _ => 0) (S e) n), (ssum_ext g f s (S e)).
  - rewrite !ssum_const. ring.
  - intros j Hj. unfold g. destruct (Nat.leb_spec s j), (Nat.leb_spec j e); simpl; try reflexivity; lia.
  - intros j Hj. unfold g. destruct (Nat.leb_spec s j), (Nat.leb_spec j e); simpl; try reflexivity; lia.
  - intros j Hj. unfold g. destruct (Nat.leb_spec s j), (Nat.leb_spec j e); simpl; try reflexivity; lia.
Qed.

Definition efin (x : ext) : Q := match x with Fin q => q | _ => 0 end.

Lemma au_total n events touches ws conc :
  average_uniqueness n events touches = Ok (ws, conc) ->
  (forall i, (i < length events)%nat -> (nth i events 0 <= nth i touches 0 < n)%nat) ->
  (Z.of_nat (length events) < 32768)%Z ->
  qsum (map (fun i => Qnat (S (nth i touches 0%nat) - nth i events 0%nat) * efin (nth i ws NaN)) (seq 0 (length events)))
  == Qnat (covered events touches n).
Proof.
  intros Hok Hr Hn.
  assert (Hov : forall j, (Z.of_nat (overlap events touches j) < 32768)%Z) by (intro; pose proof (overlap_le events touches j); lia).
  rewrite (qsum_map_ext _ (fun i => qsum (map (fun j => if covers_b events touches j i then 1 / Qnat (overlap events touches j) else 0) (seq 0 n)))).
  2:{ intros i Hi. apply in_seq in Hi. destruct (Hr i ltac:(lia)) as [H1 H2].
      destruct (au_val n events touches ws conc Hok i ltac:(lia) H1 H2 ltac:(intros; apply Hov)) as [v [-> Hv]].
      simpl efin. rewrite Hv.
      pose proof (seg_as_filter (fun j => 1 / Qnat (overlap events touches j)) (nth i events 0%nat) (nth i touches 0%nat) n H2) as Es.
      unfold covers_b. rewrite <- Es.
      field. assert (0 < Qnat (S (nth i touches 0%nat) - nth i events 0%nat)) by (apply Qnat_pos; lia). lra. }
  rewrite qsum_exchange. unfold covered.
  transitivity (qsum (map (fun _ : nat => 1) (filter (fun j => existsb (covers_b events touches j) (seq 0 (length events))) (seq 0 n)))).
  2:{ rewrite qsum_map_const. unfold Qnat. ring. }
  rewrite qsum_filter_map. apply qsum_map_ext. intros j Hj.
  rewrite <- qsum_filter_map. rewrite qsum_map_const.
  transitivity (1 / Qnat (overlap events touches j) * Qnat (overlap events touches j)); [reflexivity|].
  destruct (existsb _ _) eqn:E.
  - apply existsb_exists in E. destruct E as [i [Hi Hc]]. apply in_seq in Hi. apply covers_iff in Hc.
    assert (0 < Qnat (overlap events touches j)) by (apply Qnat_pos, (overlap_pos _ _ i); auto; lia). field. lra.
  - assert (E0 : overlap events touches j = 0%nat).
    { unfold overlap. destruct (filter _ _) as [|i l] eqn:F; [reflexivity|]. exfalso.
      assert (In i (filter (covers_b events touches j) (seq 0 (length events)))) by (rewrite F; simpl; auto).
      apply filter_In in H. destruct H as [H1 H2]. apply not_true_iff_false in E. apply E. apply existsb_exists. eauto. }
    rewrite E0. change (Qnat 0) with 0. ring.
Qed.

(** m labels over position 0. *)
Lemma overlap_all m : overlap (repeat 0%nat m) (repeat 0%nat m) 0 = m.
Proof.
  unfold overlap. rewrite repeat_length. rewrite <- (seq_length m 0) at 4.
  induction (seq 0 m) as [|x l IH]; simpl; [reflexivity|].
  unfold covers_b at 1. rewrite !nth_repeat. simpl. now rewrite IH.
Qed.

Lemma overflow_witness m : Z.of_nat m = 32768%Z ->
  exists ws conc u, average_uniqueness 1 (repeat 0%nat m) (repeat 0%nat m) = Ok (ws, conc) /\
    nth 0 ws NaN = Fin u /\ u < 0.
Proof.
  intro Hm. destruct (average_uniqueness 1 (repeat 0%nat m) (repeat 0%nat m)) as [[ws conc]|e] eqn:E.
  2:{ exfalso. unfold average_uniqueness in E. rewrite Nat.eqb_refl in E. discriminate. }
  exists ws, conc.
  assert (Ec : conc = [(-32768)%Z]).
  { destruct (au_concurrency _ _ _ _ _ E) as [_ [L H]]. specialize (H 0%nat ltac:(lia)).
    rewrite overlap_all, Hm in H. change (wraps 16 32768) with (-32768)%Z in H.
    destruct conc as [|c [|? ?]]; try discriminate. cbn [nth] in H. now rewrite H. }
  exists (qsum (map (fun c => 1 / inject_Z c) [(-32768)%Z]) / Qnat 1).
  split; [reflexivity|]. split; [|reflexivity].
  rewrite (au_ws _ _ _ _ _ E), Ec. rewrite nth_map_seq by (rewrite repeat_length; lia).
  rewrite !nth_repeat. reflexivity.
Qed.
