(** T_weights2.v -- property C181: which events there are, their order, and the scales of the weights. *)
From Coq Require Import Permutation.
From Verif Require Import Base M_weights S_weights S_weights2 P_weights P_weights2 P_weights3 P_weights4 P_weights5.
Open Scope Q_scope.

(** * C181  Fewer events *)
(** Without some of the events no label is less unique, and it is as unique as before exactly
    if no event that was left out overlaps it. *)
Theorem C181_fewer : forall n events touches p ws conc,
  average_uniqueness n events touches = Ok (ws, conc) -> chooses p (length events) ->
  (Z.of_nat (length events) < 32768)%Z -> (forall i, (i < length events)%nat -> (nth i events 0 <= nth i touches 0 < n)%nat) ->
  exists ws' conc', average_uniqueness n (pick 0%nat p events) (pick 0%nat p touches) = Ok (ws', conc') /\
    length ws' = length p /\ length conc' = n /\
    (forall j, (j < n)%nat -> (nth j conc' 0 <= nth j conc 0)%Z) /\
    forall a, (a < length p)%nat -> exists u u', nth (nth a p 0%nat) ws NaN = Fin u /\ nth a ws' NaN = Fin u' /\ u <= u' /\
      (u == u' <-> forall k j, (k < length events)%nat -> covers events touches k j -> covers events touches (nth a p 0%nat) j -> In k p).
Proof. exact au_choice. Qed.
Definition c181_e : list nat := [0; 1; 4; 2]%nat.
Definition c181_t : list nat := [2; 3; 5; 2]%nat.
Example C181_fewer_example : chooses [2; 0]%nat (length c181_e) /\ (forall i, (i < 4)%nat -> (nth i c181_e 0 <= nth i c181_t 0 < 6)%nat) /\
  exists ws ws', average_uniqueness 6 c181_e c181_t = Ok (ws, [1; 2; 3; 1; 1; 1]%Z) /\
    map (fun w => match w with Fin q => Qred q | _ => 0 end) ws = [11 # 18; 11 # 18; 1; 1 # 3] /\
    average_uniqueness 6 (pick 0%nat [2; 0]%nat c181_e) (pick 0%nat [2; 0]%nat c181_t) = Ok (ws', [1; 1; 1; 0; 1; 1]%Z) /\
    map (fun w => match w with Fin q => Qred q | _ => 0 end) ws' = [1; 1].
Proof.
  split; [split; [repeat constructor; cbn [In]; intuition discriminate|intros k [<-|[<-|[]]]; cbn; lia]|].
  split; [intros i Hi; destruct i as [|[|[|[|i]]]]; cbn; lia|]. eexists _, _. split; [vm_compute; reflexivity|]. split; [vm_compute; reflexivity|]. split; vm_compute; reflexivity.
Qed.

(** * C181  Order of events *)
Theorem C181_order : forall n events touches p ws conc,
  average_uniqueness n events touches = Ok (ws, conc) -> reorders p (length events) ->
  average_uniqueness n (pick 0%nat p events) (pick 0%nat p touches) = Ok (pick NaN p ws, conc).
Proof. exact au_reorder. Qed.
Theorem C181_attribution_order : forall ln events touches close conc p ws,
  return_attribution ln events touches close conc true = Ok ws -> reorders p (length events) ->
  exists ws', return_attribution ln (pick 0%nat p events) (pick 0%nat p touches) close conc true = Ok ws' /\ length ws' = length events /\
    forall a, (a < length events)%nat -> nth a ws' 0 == nth (nth a p 0%nat) ws 0.
Proof. exact attr_reorder. Qed.
Theorem C181_balance_order : forall labels base p, length base = length labels -> reorders p (length labels) ->
  forall a, (a < length labels)%nat ->
    nth a (bal_final (class_balance_weights (pick 0%Z p labels) (pick 0 p base))) 0 ==
    nth (nth a p 0%nat) (bal_final (class_balance_weights labels base)) 0.
Proof. exact balance_reorder. Qed.
(** Final weights without time decay. *)
Theorem C181_final_order : forall u attr vert labels ws p,
  compute_final_weights u 1 attr vert labels = Ok ws -> reorders p (length u) ->
  (forall v i, vert = Some v -> (i < length u)%nat -> nth i v None <> None) ->
  exists ws', compute_final_weights (pick 0 p u) 1 (option_map (pick 0 p) attr) (option_map (pick None p) vert) (option_map (pick 0%Z p) labels) = Ok ws' /\
    length ws' = length u /\
    forall a, (a < length u)%nat -> exists w w', nth (nth a p 0%nat) ws None = Some w /\ nth a ws' None = Some w' /\ w' == w.
Proof.
  intros u attr vert labels ws p H R Nv. destruct (guards u 1 attr vert labels ws H) as (Ga & Gv & _ & td & Td). pose proof (reorders_length _ _ R) as Lp.
  destruct (td_value u 1 td Td) as (Ltd & _ & Su & Vtd).
  assert (Su' : ~ qsum (pick 0 p u) == 0) by (rewrite (qsum_perm _ _ (pick_perm u p R)); exact Su).
  destruct (td_ok (pick 0 p u) 1 ltac:(lra) Su') as [td' Td']. destruct (td_value _ 1 td' Td') as (Ltd' & _ & _ & Vtd'). rewrite pick_length, Lp in Vtd'.
  assert (Hp : forall a, (a < length u)%nat -> (nth a p 0 < length u)%nat) by (intros a Ha; apply R, nth_In; lia).
  assert (One : forall k, (k < length u)%nat -> nth k td 0 == 1) by (intros k Hk; rewrite Vtd by exact Hk; cbn [Qleb]; change (Qleb 0 1) with true; cbv iota; ring).
  assert (One' : forall k, (k < length u)%nat -> nth k td' 0 == 1) by (intros k Hk; rewrite Vtd' by exact Hk; change (Qleb 0 1) with true; cbv iota; ring).
  apply (final_same u 1 attr vert labels ws td (pick 0 p u) 1 _ _ td' p 1 H Td Td' Nv); [rewrite pick_length; exact Lp|exact R| | | |lra|].
  - intros a E. destruct attr as [x|]; [|discriminate]. injection E as <-. destruct (Ga x eq_refl) as [Lx Px]. split; [rewrite pick_length; exact Lp|]. rewrite (qsum_perm _ _ (pick_perm x p ltac:(rewrite Lx; exact R))). exact Px.
  - intros v E. destruct vert as [x|]; [|discriminate]. injection E as <-. rewrite pick_length. exact Lp.
  - intros v i E Hi. destruct vert as [x|]; [|discriminate]. injection E as <-. rewrite pick_nth by lia. apply (Nv x); [reflexivity|now apply Hp].
  - intros a Ha. rewrite One' by exact Ha. rewrite One by (now apply Hp).
    assert (I : info_part (pick 0 p u) (option_map (pick 0 p) attr) a = info_part u attr (nth a p 0%nat)) by (unfold info_part; destruct attr; cbn [option_map]; apply pick_nth; lia).
    assert (V : vert_part (option_map (pick None p) vert) a = vert_part vert (nth a p 0%nat)) by (unfold vert_part; destruct vert; cbn [option_map]; [rewrite pick_nth by lia|]; reflexivity).
    rewrite I, V. ring.
Qed.
Lemma ex_reorders : reorders [2; 0; 1]%nat 3.
Proof.
  split; [repeat constructor; cbn [In]; intuition discriminate|]. intro k. cbn [In]. split; [intuition lia|]. intro H. assert (K : k = 0%nat \/ k = 1%nat \/ k = 2%nat) by lia. intuition.
Qed.
Example C181_order_example : exists ws ws', reorders [2; 0; 1]%nat 3 /\
  compute_final_weights [1; 1 # 2; 1 # 2] 1 (Some [1; 3; 2]) (Some [Some 1; Some 1; Some (1 # 2)]) (Some [1; 0; 1]%Z) = Ok ws /\
  compute_final_weights [1 # 2; 1; 1 # 2] 1 (Some [2; 1; 3]) (Some [Some (1 # 2); Some 1; Some 1]) (Some [1; 1; 0]%Z) = Ok ws' /\
  map (option_map Qred) ws = [Some (3 # 4); Some (3 # 2); Some (3 # 4)] /\ map (option_map Qred) ws' = [Some (3 # 4); Some (3 # 4); Some (3 # 2)].
Proof. eexists _, _. split; [exact ex_reorders|]. split; [vm_compute; reflexivity|]. split; [vm_compute; reflexivity|]. split; vm_compute; reflexivity. Qed.
(** With time decay the order counts. *)
Theorem C181_decay_order_refuted : exists u c ws ws' p, reorders p (length u) /\ (forall x, In x u -> 0 < x <= 1) /\ 0 <= c <= 1 /\
  compute_final_weights u c None None None = Ok ws /\ compute_final_weights (pick 0 p u) c None None None = Ok ws' /\
  exists a w w', (a < length u)%nat /\ nth (nth a p 0%nat) ws None = Some w /\ nth a ws' None = Some w' /\ ~ w' == w.
Proof.
  exists [1; 1 # 2; 1 # 2], (1 # 2). eexists _, _. exists [2; 0; 1]%nat. split; [exact ex_reorders|]. split; [intros x [<-|[<-|[<-|[]]]]; lra|]. split; [lra|].
  split; [vm_compute; reflexivity|]. split; [vm_compute; reflexivity|]. exists 0%nat. eexists _, _. split; [cbn [length]; lia|]. split; [reflexivity|]. split; [reflexivity|]. vm_compute. discriminate.
Qed.
(** Return attribution can fall when an event is left out: the returns 1 and -1 of a label cancel
    in full, but only by half while another event shares the second. *)
Theorem C181_attribution_fewer_refuted : exists ln n events touches close p ws conc ws' conc' raw raw',
  chooses p (length events) /\ (forall i, (i < length events)%nat -> (nth i events 0 <= nth i touches 0 < n)%nat) /\ length close = n /\
  average_uniqueness n events touches = Ok (ws, conc) /\ return_attribution ln events touches close conc false = Ok raw /\
  average_uniqueness n (pick 0%nat p events) (pick 0%nat p touches) = Ok (ws', conc') /\
  return_attribution ln (pick 0%nat p events) (pick 0%nat p touches) close conc' false = Ok raw' /\
  nth 0 raw' 0 < nth (nth 0 p 0%nat) raw 0.
Proof.
  exists (fun x => if Qltb x 1 then Some (-1) else Some 1), 3%nat, [0; 2]%nat, [2; 2]%nat, [1; 2; 1], [0%nat]. eexists _, _, _, _, _, _.
  split; [split; [repeat constructor; cbn [In]; tauto|intros k [<-|[]]; cbn [length]; lia]|]. split; [intros i Hi; destruct i as [|[|i]]; cbn [nth length] in *; lia|]. split; [reflexivity|].
  split; [vm_compute; reflexivity|]. split; [vm_compute; reflexivity|]. split; [vm_compute; reflexivity|]. split; [vm_compute; reflexivity|]. vm_compute. reflexivity.
Qed.

(** * C181  One stretch of data after another *)
Theorem C181_join : forall n1 e1 t1 w1 c1 n2 e2 t2 w2 c2,
  average_uniqueness n1 e1 t1 = Ok (w1, c1) -> average_uniqueness n2 e2 t2 = Ok (w2, c2) ->
  (forall i, (i < length e1)%nat -> (nth i e1 0 <= nth i t1 0 < n1)%nat) ->
  average_uniqueness (n1 + n2) (e1 ++ map (fun k => n1 + k)%nat e2) (t1 ++ map (fun k => n1 + k)%nat t2) = Ok (w1 ++ w2, c1 ++ c2).
Proof. exact au_join. Qed.
Example C181_join_example : exists w1 w2, average_uniqueness 6 c181_e c181_t = Ok (w1, [1; 2; 3; 1; 1; 1]%Z) /\ average_uniqueness 2 [0; 0]%nat [1; 0]%nat = Ok (w2, [2; 1]%Z) /\
  average_uniqueness 8 (c181_e ++ [6; 6]%nat) (c181_t ++ [7; 6]%nat) = Ok (w1 ++ w2, [1; 2; 3; 1; 1; 1; 2; 1]%Z).
Proof. eexists _, _. split; [vm_compute; reflexivity|]. split; [vm_compute; reflexivity|]. vm_compute. reflexivity. Qed.

(** * C181  Scales *)
(** Final weights do not depend on the scale of uniqueness, attribution and vertical weights,
    so neither on whether the attribution was normalised. *)
Theorem C181_scale : forall u c attr vert labels ws u' attr' vert' ku ka kv,
  compute_final_weights u c attr vert labels = Ok ws -> 0 < ku -> 0 < ka -> 0 < kv ->
  (forall v i, vert = Some v -> (i < length u)%nat -> nth i v None <> None) ->
  length u' = length u -> (forall i, (i < length u)%nat -> nth i u' 0 == ku * nth i u 0) ->
  match attr, attr' with
  | Some a, Some a' => length a' = length a /\ forall i, (i < length a)%nat -> nth i a' 0 == ka * nth i a 0
  | None, None => True | _, _ => False end ->
  match vert, vert' with
  | Some v, Some v' => length v' = length v /\ forall i, (i < length v)%nat -> exists x x', nth i v None = Some x /\ nth i v' None = Some x' /\ x' == kv * x
  | None, None => True | _, _ => False end ->
  exists ws', compute_final_weights u' c attr' vert' labels = Ok ws' /\ length ws' = length ws /\
    forall i, (i < length u)%nat -> exists w w', nth i ws None = Some w /\ nth i ws' None = Some w' /\ w' == w.
Proof.
  intros u c attr vert labels ws u' attr' vert' ku ka kv H Pu Pa Pv Nv Lu Hu Ha Hv. destruct (guards u c attr vert labels ws H) as (Ga & Gv & Gl & td & Td).
  destruct (td_value u c td Td) as (Ltd & Hc & Su & Vtd). pose proof (qsum_nth_scale u u' ku Lu Hu) as Squ.
  assert (Su' : ~ qsum u' == 0) by (rewrite Squ; intro E; apply Su; destruct (Qmult_integral _ _ E); [lra|assumption]).
  destruct (td_ok u' c Hc Su') as [td' Td']. destruct (td_value u' c td' Td') as (Ltd' & _ & _ & Vtd').
  assert (TD : forall i, (i < length u)%nat -> nth i td' 0 == nth i td 0).
  { intros i Hi. rewrite Vtd' by lia. rewrite Vtd by exact Hi.
    assert (F : qsum (firstn (S i) u') == ku * qsum (firstn (S i) u)).
    { apply qsum_nth_scale; [rewrite !firstn_length; lia|]. intros j Hj. rewrite firstn_length in Hj. rewrite !nth_firstn by lia. apply Hu. lia. }
    assert (SH : qsum (firstn (S i) u') / qsum u' == qsum (firstn (S i) u) / qsum u) by (rewrite F, Squ; field; split; [exact Su|lra]).
    destruct (Qleb 0 c); rewrite SH; reflexivity. }
  assert (LW : length ws = length u).
  { destruct (final_base u c attr vert labels ws H td Td Nv) as (K & base & _ & Lb & _ & _ & ->). rewrite map_length. destruct labels as [l|]; [rewrite bal_len; now apply Gl|exact Lb]. }
  pose proof (reorders_id (length u)) as R.
  assert (IDL : option_map (pick 0%Z (seq 0 (length u))) labels = labels).
  { destruct labels as [l|]; [|reflexivity]. cbn [option_map]. f_equal. rewrite <- (Gl l eq_refl). apply pick_id. }
  assert (IDN : forall a, (a < length u)%nat -> nth a (seq 0 (length u)) 0%nat = a) by (intros a Ha'; rewrite seq_nth; lia).
  destruct (final_same u c attr vert labels ws td u' c attr' vert' td' (seq 0 (length u)) ((match attr with Some _ => ka | None => ku end) * match vert with Some _ => kv | None => 1 end) H Td Td' Nv Lu R) as (ws' & E' & L' & V').
  - intros a' ->. destruct attr as [a|]; [|contradiction]. destruct Ha as [La Va]. destruct (Ga a eq_refl) as [La2 Sa]. split; [lia|]. rewrite (qsum_nth_scale a a' ka La Va). apply Qmult_lt_0_compat; assumption.
  - intros v' ->. destruct vert as [v|]; [|contradiction]. destruct Hv as [Lv _]. rewrite Lv. now apply Gv.
  - intros v' i -> Hi. destruct vert as [v|]; [|contradiction]. destruct Hv as [Lv Vv]. destruct (Vv i ltac:(rewrite (Gv v eq_refl); exact Hi)) as (x & x' & _ & -> & _). discriminate.
  - apply Qmult_lt_0_compat; [destruct attr; assumption|destruct vert; [assumption|lra]].
  - intros a Ha'. rewrite IDN by exact Ha'. rewrite TD by exact Ha'.
    assert (I : info_part u' attr' a == match attr with Some _ => ka | None => ku end * info_part u attr a).
    { unfold info_part. destruct attr as [x|], attr' as [x'|]; try contradiction; [destruct Ha as [_ Va]; apply Va; destruct (Ga x eq_refl); lia|now apply Hu]. }
    assert (V : vert_part vert' a == match vert with Some _ => kv | None => 1 end * vert_part vert a).
    { unfold vert_part. destruct vert as [x|], vert' as [x'|]; try contradiction; [|ring]. destruct Hv as [_ Vv]. destruct (Vv a ltac:(rewrite (Gv x eq_refl); exact Ha')) as (y & y' & -> & -> & E). exact E. }
    rewrite I, V. ring.
  - rewrite IDL in E'. exists ws'. split; [exact E'|]. split; [lia|]. intros i Hi. specialize (V' i Hi). rewrite IDN in V' by exact Hi. exact V'.
Qed.
Example C181_scale_example : exists ws ws',
  compute_final_weights [1; 1 # 2] (1 # 2) (Some [1; 3]) (Some [Some 1; Some (1 # 2)]) None = Ok ws /\
  compute_final_weights [3; 3 # 2] (1 # 2) (Some [1 # 2; 3 # 2]) (Some [Some 2; Some 1]) None = Ok ws' /\
  map (option_map Qred) ws = map (option_map Qred) ws' /\ ~ nth 0 ws None = nth 1 ws None.
Proof. eexists _, _. split; [vm_compute; reflexivity|]. split; [vm_compute; reflexivity|]. split; [vm_compute; reflexivity|vm_compute; discriminate]. Qed.
Theorem C181_balance : forall labels base, length base = length labels ->
  (forall base' k, 0 < k -> length base' = length labels -> (forall i, (i < length labels)%nat -> nth i base' 0 == k * nth i base 0) ->
     forall i, (i < length labels)%nat -> nth i (bal_final (class_balance_weights labels base')) 0 == k * nth i (bal_final (class_balance_weights labels base)) 0) /\
  (forall f, (forall c d, In c labels -> In d labels -> f c = f d -> c = d) ->
     forall i, (i < length labels)%nat -> nth i (bal_final (class_balance_weights (map f labels) base)) 0 == nth i (bal_final (class_balance_weights labels base)) 0) /\
  ((forall c, In c labels -> 0 < class_total labels base c) ->
     forall i, (i < length labels)%nat -> let b := bal_final (class_balance_weights labels base) in nth i (bal_final (class_balance_weights labels b)) 0 == nth i b 0).
Proof.
  intros labels base L. split; [|split].
  - intros base' k Hk L' H. now apply balance_scale.
  - intros f J. now apply balance_rename.
  - intros P. now apply balance_idem.
Qed.
Example C181_balance_example : map Qred (bal_final (class_balance_weights [1; -1; 1]%Z [1; 2; 3])) = [3 # 4; 3; 9 # 4] /\
  map Qred (bal_final (class_balance_weights [1; -1; 1]%Z [3 # 4; 3; 9 # 4])) = [3 # 4; 3; 9 # 4] /\
  map Qred (bal_final (class_balance_weights [1; 7; 1]%Z [1; 2; 3])) = [3 # 4; 3; 9 # 4] /\
  (forall c, In c [1; -1; 1]%Z -> 0 < class_total [1; -1; 1]%Z [1; 2; 3] c).
Proof. split; [vm_compute; reflexivity|]. split; [vm_compute; reflexivity|]. split; [vm_compute; reflexivity|]. intros c [<-|[<-|[<-|[]]]]; vm_compute; reflexivity. Qed.
(** A class of total weight 0 loses its share: the balanced weights are not balanced again. *)
Theorem C181_balance_zero_refuted : exists labels base, length base = length labels /\ (forall x, In x base -> 0 <= x) /\
  exists i, (i < length labels)%nat /\ let b := bal_final (class_balance_weights labels base) in ~ nth i (bal_final (class_balance_weights labels b)) 0 == nth i b 0.
Proof. exists [1; 0]%Z, [1; 0]. split; [reflexivity|]. split; [intros x [<-|[<-|[]]]; lra|]. exists 0%nat. split; [cbn [length]; lia|]. vm_compute. discriminate. Qed.

Print Assumptions C181_fewer.
Print Assumptions C181_order.
Print Assumptions C181_attribution_order.
Print Assumptions C181_balance_order.
Print Assumptions C181_final_order.
Print Assumptions C181_decay_order_refuted.
Print Assumptions C181_attribution_fewer_refuted.
Print Assumptions C181_join.
Print Assumptions C181_scale.
Print Assumptions C181_balance.
Print Assumptions C181_balance_zero_refuted.
