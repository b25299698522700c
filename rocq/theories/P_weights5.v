(** P_weights5.v -- final sample weights of reordered events and of weights in another unit. *)
From Coq Require Import Permutation.
From Verif Require Import Base M_weights S_weights S_weights2 P_weights P_weights2 P_weights3 P_weights4.
Open Scope Q_scope.

Lemma td_ok u c : -1 < c <= 1 -> ~ qsum u == 0 -> exists td, time_decay u c = Ok td.
Proof.
  intros Hc Hs. assert (N : u <> []) by (intros ->; apply Hs; reflexivity). destruct (td_raises u c N) as (A & B & C). destruct (time_decay u c) as [td|e]; [now exists td|].
  exfalso. destruct (C e eq_refl) as [->| ->].
  - pose proof (proj1 A eq_refl) as [K|[K|K]]; [lra|lra|contradiction].
  - pose proof (proj1 B eq_refl) as [K _]. lra.
Qed.
(** Success of [compute_final_weights]. *)
Lemma final_ok u c attr vert labels td : time_decay u c = Ok td ->
  (forall a, attr = Some a -> length a = length u /\ 0 < qsum a) -> (forall v, vert = Some v -> length v = length u) -> (forall l, labels = Some l -> length l = length u) ->
  (forall v i, vert = Some v -> (i < length u)%nat -> nth i v None <> None) ->
  0 < qsum (map (fun i => nth i td 0 * info_part u attr i * vert_part vert i) (seq 0 (length u))) ->
  exists ws, compute_final_weights u c attr vert labels = Ok ws.
Proof.
  intros Htd Ga Gv Gl Hnan HS. set (raw := fun i => nth i td 0 * info_part u attr i * vert_part vert i) in *.
  destruct (td_value u c td Htd) as (_ & Hc & _). unfold compute_final_weights.
  replace (Qleb (-1) c && Qleb c 1)%bool with true by (destruct (Qleb_spec (-1) c), (Qleb_spec c 1); cbn [andb]; reflexivity || lra). cbn [negb].
  replace (match attr with Some a => negb (length a =? length u)%nat | None => false end) with false by (destruct attr as [a|]; [destruct (Ga a eq_refl) as [-> _]; now rewrite Nat.eqb_refl|reflexivity]).
  replace (match vert with Some a => negb (length a =? length u)%nat | None => false end) with false by (destruct vert as [a|]; [rewrite (Gv a eq_refl); now rewrite Nat.eqb_refl|reflexivity]).
  replace (match labels with Some a => negb (length a =? length u)%nat | None => false end) with false by (destruct labels as [a|]; [rewrite (Gl a eq_refl); now rewrite Nat.eqb_refl|reflexivity]).
  rewrite Htd.
  replace (match attr with Some a => Qleb (qsum a) 0 | None => false end) with false by (destruct attr as [a|]; [destruct (Ga a eq_refl) as [_ K]; destruct (Qleb_spec (qsum a) 0); [lra|reflexivity]|reflexivity]).
    set (info := match attr with Some a => map (fun x => x * Qnat (length u) / qsum a) a | None => u end) in *.
    set (comb0 := map (fun i => nth i td 0 * nth i info 0) (seq 0 (length u))) in *.
    set (comb := match vert with Some v => map (fun i => omul (Some (nth i comb0 0)) (nth i v None)) (seq 0 (length u))
                 | None => map Some comb0 end) in *.
    assert (Hn : 0 < Qnat (length u)) by (apply Qnat_pos, (td_nonempty u c td Htd)).
    assert (Hinfo : exists J, 0 < J /\ forall i, (i < length u)%nat -> nth i info 0 == info_part u attr i * J).
    { unfold info, info_part. destruct attr as [a|].
      - destruct (Ga a eq_refl) as [La Sa]. exists (Qnat (length u) / qsum a).
        split; [apply Qlt_shift_div_l; lra|]. intros i Hi.
        set (f := fun x => _). rewrite (nth_indep _ 0 (f 0)) by (rewrite map_length; lia). rewrite map_nth. unfold f.
        field. lra.
      - exists 1. split; [lra|]. intros; ring. }
    destruct Hinfo as [J [HJ Hinfo]].
    assert (Hc0 : forall i, (i < length u)%nat -> nth i comb0 0 == nth i td 0 * info_part u attr i * J).
    { intros i Hi. unfold comb0. rewrite nth_map_seq by auto. rewrite Hinfo by auto. ring. }
    assert (Lc : length comb = length u).
    { unfold comb. destruct vert; rewrite ?map_length, ?seq_length; auto. unfold comb0. now rewrite map_length, seq_length. }
    assert (Hc1 : forall i, (i < length u)%nat -> exists x, nth i comb None = Some x /\ x == raw i * J).
    { intros i Hi. unfold comb, raw, vert_part. destruct vert as [v|].
      - rewrite nth_map_seq by auto. destruct (nth i v None) as [y|] eqn:Ey.
        + exists (nth i comb0 0 * y). split; [reflexivity|]. rewrite Hc0 by auto. simpl oval. ring.
        + exfalso. apply (Hnan v i); auto.
      - exists (nth i comb0 0). split.
        + rewrite (nth_indep _ None (Some 0)) by (rewrite map_length; unfold comb0; rewrite map_length, seq_length; auto).
          now rewrite map_nth.
        + rewrite Hc0 by auto. ring. }
    destruct (osum_some comb) as [s [Es Hs]].
    { intros x Hx. destruct (In_nth _ _ None Hx) as [i [Hi <-]]. destruct (Hc1 i ltac:(lia)) as [y [-> _]]. discriminate. }
    rewrite Es. assert (ES : s == qsum (map raw (seq 0 (length u))) * J).
    { rewrite Hs. rewrite <- qsum_map_mul_r. rewrite <- (map_seq_nth None (fun c0 => match c0 with Some x => x | None => 0 end) comb), Lc. apply qsum_map_ext. intros i Hi. apply in_seq in Hi.
      destruct (Hc1 i ltac:(lia)) as (x & -> & Ex). exact Ex. }
    assert (Sp : 0 < s) by (rewrite ES; apply Qmult_lt_0_compat; [exact HS|exact HJ]).
    assert (Mp : 0 < s / Qnat (length u)) by (apply Qlt_shift_div_l; lra).
    destruct (Qleb_spec (s / Qnat (length u)) 0) as [|Hm]; [lra|]. destruct labels; eexists; reflexivity.
Qed.
(** Two calls whose raw weights are proportional, the second on reordered events. *)
Lemma final_same u c attr vert labels ws td u' c' attr' vert' td' p k :
  compute_final_weights u c attr vert labels = Ok ws -> time_decay u c = Ok td -> time_decay u' c' = Ok td' ->
  (forall v i, vert = Some v -> (i < length u)%nat -> nth i v None <> None) -> length u' = length u -> reorders p (length u) ->
  (forall a, attr' = Some a -> length a = length u /\ 0 < qsum a) -> (forall v, vert' = Some v -> length v = length u) ->
  (forall v i, vert' = Some v -> (i < length u)%nat -> nth i v None <> None) -> 0 < k ->
  (forall a, (a < length u)%nat -> nth a td' 0 * info_part u' attr' a * vert_part vert' a ==
     k * (nth (nth a p 0%nat) td 0 * info_part u attr (nth a p 0%nat) * vert_part vert (nth a p 0%nat))) ->
  exists ws', compute_final_weights u' c' attr' vert' (option_map (pick 0%Z p) labels) = Ok ws' /\ length ws' = length u /\
    forall a, (a < length u)%nat -> exists w w', nth (nth a p 0%nat) ws None = Some w /\ nth a ws' None = Some w' /\ w' == w.
Proof.
  intros H Td Td' Nv Lu R Ga' Gv' Nv' Hk Hraw. pose proof (reorders_length _ _ R) as Lp.
  set (raw := fun i => nth i td 0 * info_part u attr i * vert_part vert i). set (raw' := fun i => nth i td' 0 * info_part u' attr' i * vert_part vert' i).
  destruct (final_base u c attr vert labels ws H td Td Nv) as (K & base & PK & Lb & Vb & Sb & Eb). change (forall i, (i < length u)%nat -> nth i base 0 == raw i / K) in Vb. destruct (guards u c attr vert labels ws H) as (_ & _ & Gl & _).
  pose proof (td_nonempty u c td Td) as Nu. pose proof (Qnat_pos _ Nu) as Pn.
  assert (Hp : forall a, (a < length u)%nat -> (nth a p 0 < length u)%nat) by (intros a Ha; apply R, nth_In; lia).
  assert (SR : qsum (map raw (seq 0 (length u))) == Qnat (length u) * K).
  { rewrite <- Sb. rewrite <- (nth_map_eq base), Lb. rewrite <- qsum_map_mul_r. apply qsum_map_ext. intros i Hi. apply in_seq in Hi. cbv beta. rewrite Vb by lia. generalize (raw i). intro r. field. lra. }
  assert (SR' : qsum (map raw' (seq 0 (length u))) == k * qsum (map raw (seq 0 (length u)))).
  { rewrite (qsum_map_ext _ (fun a => raw (nth a p 0%nat) * k)); [|intros a Ha; apply in_seq in Ha; unfold raw'; rewrite Hraw by lia; unfold raw; ring].
    rewrite qsum_map_mul_r. rewrite <- Lp at 1. rewrite (map_seq_nth 0%nat raw p). rewrite (qsum_perm _ _ (Permutation_map raw (reorders_perm _ _ R))). ring. }
  assert (PR : 0 < Qnat (length u) * K) by (apply Qmult_lt_0_compat; lra).
  assert (PR' : 0 < k * qsum (map raw (seq 0 (length u)))) by (rewrite SR; apply Qmult_lt_0_compat; lra).
  destruct (final_ok u' c' attr' vert' (option_map (pick 0%Z p) labels) td' Td') as [ws' H'].
  { rewrite Lu. exact Ga'. } { rewrite Lu. exact Gv'. } { intros l E. destruct labels as [l0|]; [|discriminate]. injection E as <-. rewrite pick_length. lia. } { rewrite Lu. exact Nv'. }
  { rewrite Lu. change (0 < qsum (map raw' (seq 0 (length u)))). rewrite SR'. exact PR'. }
  rewrite <- Lu in Nv'. destruct (final_base u' c' attr' vert' _ ws' H' td' Td' Nv') as (K' & base' & PK' & Lb' & Vb' & Sb' & Eb'). change (forall i, (i < length u')%nat -> nth i base' 0 == raw' i / K') in Vb'. rewrite Lu in Lb', Vb', Sb'.
  assert (SK' : qsum (map raw' (seq 0 (length u))) == Qnat (length u) * K').
  { rewrite <- Sb'. rewrite <- (nth_map_eq base'), Lb'. rewrite <- qsum_map_mul_r. apply qsum_map_ext. intros i Hi. apply in_seq in Hi. cbv beta. rewrite Vb' by lia. generalize (raw' i). intro r. field. lra. }
  assert (KK : K' == k * K).
  { rewrite SR', SR in SK'. assert (X : Qnat (length u) * K' == Qnat (length u) * (k * K)) by (rewrite <- SK'; ring). apply (Qmult_inj_l K' (k * K) (Qnat (length u))); [lra|exact X]. }
  assert (BB : forall a, (a < length u)%nat -> nth a base' 0 == nth (nth a p 0%nat) base 0).
  { intros a Ha. rewrite Vb' by exact Ha. rewrite Vb by (apply Hp; exact Ha). rewrite (Hraw a Ha : raw' a == k * raw (nth a p 0%nat)). rewrite KK. generalize (raw (nth a p 0%nat)). intro r. field. split; lra. }
  exists ws'. split; [exact H'|]. destruct labels as [l|]; cbn [option_map] in Eb'.
  - pose proof (Gl l eq_refl) as Ll. assert (Lf : length (bal_final (class_balance_weights l base)) = length u) by (rewrite bal_len; exact Ll).
    assert (Lf' : length (bal_final (class_balance_weights (pick 0%Z p l) base')) = length u) by (rewrite bal_len, pick_length; exact Lp).
    split; [rewrite Eb', map_length; exact Lf'|]. intros a Ha. exists (nth (nth a p 0%nat) (bal_final (class_balance_weights l base)) 0), (nth a (bal_final (class_balance_weights (pick 0%Z p l) base')) 0).
    split; [rewrite Eb, (nth_indep _ None (Some 0)) by (rewrite map_length, Lf; now apply Hp); apply map_nth|]. split; [rewrite Eb', (nth_indep _ None (Some 0)) by (rewrite map_length, Lf'; exact Ha); apply map_nth|].
    assert (Lpl : length (pick 0%Z p l) = length u) by (rewrite pick_length; exact Lp).
    pose proof (balance_scale (pick 0%Z p l) (pick 0 p base) base' 1 ltac:(lra) ltac:(now rewrite !pick_length) ltac:(lia)
      ltac:(intros i Hi; rewrite Lpl in Hi; rewrite (pick_nth 0) by lia; rewrite BB by exact Hi; ring) a ltac:(lia)) as X. rewrite X, Qmult_1_l.
    apply balance_reorder; [lia|rewrite Ll; exact R|lia].
  - split; [rewrite Eb', map_length; exact Lb'|]. intros a Ha. exists (nth (nth a p 0%nat) base 0), (nth a base' 0).
    split; [rewrite Eb, (nth_indep _ None (Some 0)) by (rewrite map_length, Lb; now apply Hp); apply map_nth|]. split; [rewrite Eb', (nth_indep _ None (Some 0)) by (rewrite map_length, Lb'; exact Ha); apply map_nth|]. now apply BB.
Qed.
Lemma reorders_id n : reorders (seq 0 n) n.
Proof. split; [apply seq_NoDup|]. intro k. rewrite in_seq. lia. Qed.
Lemma pick_id {A} (d : A) l : pick d (seq 0 (length l)) l = l.
Proof. unfold pick. rewrite (map_seq_nth d (fun x => x)). apply map_id. Qed.
