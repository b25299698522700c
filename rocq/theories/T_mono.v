(** T_mono.v -- what a larger threshold, barrier, horizon, share or limit does (C174). *)
From Verif Require Import Base M_logic M_sampling M_tbm M_volume M_footprint M_tbio M_float
  S_logic S_volume S_tbm S_mirror S_mono P_mono P_mono2.
Open Scope Q_scope.

(* ================================================================== *)
(** * C174  A larger parameter means fewer and later reports *)

(** Tick bars. *)
Theorem C174_tick : forall (n : nat) (t t' : Z), (t <= t')%Z -> not_earlier (tick_bar_indexer n t) (tick_bar_indexer n t').
Proof. exact tick_mono. Qed.
Example C174_tick_example : tick_bar_indexer 10 3 = [0; 2; 5; 8]%nat /\ tick_bar_indexer 10 4 = [0; 3; 7]%nat /\
  not_earlier [0; 2; 5; 8]%nat [0; 3; 7]%nat.
Proof. split; [vm_compute; reflexivity|]. split; [vm_compute; reflexivity|]. exact (C174_tick 10 3 4 ltac:(lia)). Qed.

(** Volume bars, in exact arithmetic and in float64. *)
Theorem C174_volume : forall (v : list Q) (t t' : Q), (forall i, 0 <= nth i v 0) -> t <= t' ->
  not_earlier (volume_bar_indexer v t) (volume_bar_indexer v t').
Proof. exact volume_mono. Qed.
Theorem C174_volume_float : forall (v : list Q) (t t' : Q), (forall i, 0 <= nth i v 0) -> t <= t' ->
  not_earlier (volume_bar_indexer_f v t) (volume_bar_indexer_f v t').
Proof. exact volume_f_mono. Qed.
Definition ex_v : list Q := [1; 2; 0; 3; 1; 1; 4; 2; 1; 1].
Lemma ex_v_ok i : 0 <= nth i ex_v 0.
Proof. do 10 (destruct i as [|i]; [cbn; lra|]). destruct i; cbn; lra. Qed.
Example C174_volume_example :
  volume_bar_indexer ex_v 3 = [0; 1; 3; 6; 7 + 1]%nat /\ volume_bar_indexer ex_v 4 = [0; 3; 6; 9]%nat /\
  not_earlier (volume_bar_indexer ex_v 3) (volume_bar_indexer ex_v 4) /\
  not_earlier (volume_bar_indexer_f ex_v 3) (volume_bar_indexer_f ex_v 4).
Proof.
  split; [vm_compute; reflexivity|]. split; [vm_compute; reflexivity|]. split.
  - apply C174_volume; [exact ex_v_ok|lra].
  - apply C174_volume_float; [exact ex_v_ok|lra].
Qed.
(** A larger threshold does not give a subset of the closes. *)
Theorem C174_volume_subset_refuted : exists (v : list Q) (t t' : Q) (i : nat), (forall i, 0 < nth i v 1) /\ t <= t' /\
  In i (volume_bar_indexer v t') /\ ~ In i (volume_bar_indexer v t).
Proof.
  exists [1; 1; 1; 1; 1; 1; 1], 2, 3, 2%nat. split; [do 7 (intros [|i]; [cbn; lra|revert i]); intros [|i]; cbn; lra|].
  split; [lra|]. split; [vm_compute; auto|]. vm_compute. intuition discriminate.
Qed.

(** Dollar bars: whatever the amounts. *)
Theorem C174_dollar : forall (p v : list Q) (t t' : Q), t <= t' -> not_earlier (dollar_bar_indexer p v t) (dollar_bar_indexer p v t').
Proof. exact dollar_mono. Qed.
Example C174_dollar_example : let p := [2; 3; 2; 3; 4; 3; 2; 1] in
  dollar_bar_indexer p [1; 1; 2; 5; 0; 0; 1; 4] 6 = [0; 2; 3; 4; 5; 7]%nat /\
  dollar_bar_indexer p [1; 1; 2; 5; 0; 0; 1; 4] 8 = [0; 2; 3; 4]%nat /\
  not_earlier (dollar_bar_indexer p [1; 1; 2; 5; 0; 0; 1; 4] 6) (dollar_bar_indexer p [1; 1; 2; 5; 0; 0; 1; 4] 8).
Proof. intro p. split; [vm_compute; reflexivity|]. split; [vm_compute; reflexivity|]. apply C174_dollar. lra. Qed.
(** In float64 the amount carried over can be rounded up for the larger threshold: one bar more. *)
Theorem C174_dollar_float_refuted : exists (p v : list Q) (t t' : Q), t < t' /\ (forall i, 0 < nth i p 1 /\ 0 < nth i v 1) /\
  (length (fst (dollar_bar_run_f p v t)) < length (fst (dollar_bar_run_f p v t')))%nat.
Proof.
  exists (repeat 1 11),
    [1 # 2; 1 # 2; 7 + (12 # 2 ^ 52); 1 # 2 ^ 80; 1 # 2 ^ 80; 1 # 2 ^ 80; 1 # 2 ^ 80; 1 # 2 ^ 80; 1 # 2 ^ 80; 1 # 2 ^ 80; 1 - (13 # 2 ^ 52)], 1, (1 + (1 # 2 ^ 52)).
  split; [reflexivity|]. split; [|vm_compute; lia].
  intro i. do 11 (destruct i as [|i]; [split; reflexivity|]). destruct i; split; reflexivity.
Qed.

(** The CUSUM filter: each threshold at least as large (or unknown), the smaller ones known, not negative and
    never less than half of an earlier one. *)
Theorem C174_filter : forall (ln : Q -> Q) (xs : list Q) (thr thr' : list (option Q)) (t : nat -> Q),
  (forall i, (1 <= i < length xs)%nat -> nth i (expand_threshold (length xs) thr) None = Some (t i) /\ 0 <= t i) ->
  steady (length xs) t ->
  (forall i u, (1 <= i < length xs)%nat -> nth i (expand_threshold (length xs) thr') None = Some u -> t i <= u) ->
  (length thr = 1%nat \/ length thr = length xs) -> (length thr' = 1%nat \/ length thr' = length xs) -> (1 < length xs)%nat ->
  exists a b, cusum_filter ln xs thr = Ok a /\ cusum_filter ln xs thr' = Ok b /\ not_earlier a b.
Proof. exact filter_mono. Qed.
Theorem C174_filter_constant : forall (ln : Q -> Q) (xs : list Q) (t t' : Q), 0 <= t -> t <= t' -> (1 < length xs)%nat ->
  exists a b, cusum_filter ln xs [Some t] = Ok a /\ cusum_filter ln xs [Some t'] = Ok b /\ not_earlier a b.
Proof.
  intros ln xs t t' H1 H2 L.
  assert (E : forall x i, (1 <= i < length xs)%nat -> nth i (expand_threshold (length xs) [Some x]) None = Some x).
  { intros x i Hi. cbn [expand_threshold]. rewrite (nth_indep _ None (Some x)) by (rewrite repeat_length; lia). apply nth_repeat. }
  apply (C174_filter ln xs [Some t] [Some t'] (fun _ => t)); auto.
  - intros i j _ _. lra.
  - intros i u Hi. rewrite E by exact Hi. intros [= <-]. exact H2.
Qed.
Definition lin (x : Q) : Q := x - 1.
Example C174_filter_example : let xs := [1; 2; 4; 3; 2; 5; 1; 1; 3; 1] in
  cusum_filter lin xs [Some (1 # 2)] = Ok [1; 2; 4; 5; 6; 8; 9]%nat /\ cusum_filter lin xs [Some 1] = Ok [2; 5; 8]%nat /\
  (exists a b, cusum_filter lin xs [Some (1 # 2)] = Ok a /\ cusum_filter lin xs [Some 1] = Ok b /\ not_earlier a b).
Proof. intro xs. split; [vm_compute; reflexivity|]. split; [vm_compute; reflexivity|]. apply C174_filter_constant; [lra|lra|cbn; lia]. Qed.
(** Thresholds that drop: larger ones everywhere, and one event more. *)
Theorem C174_filter_falling_refuted : exists (ln : Q -> Q) (xs : list Q) (thr thr' : list Q),
  length thr = length xs /\ length thr' = length xs /\ (forall i, (i < length xs)%nat -> 0 < nth i thr 0 <= nth i thr' 0) /\
  cusum_filter ln xs (map Some thr) = Ok [2]%nat /\ cusum_filter ln xs (map Some thr') = Ok [2; 3]%nat.
Proof.
  exists lin, [1; 142 # 100; 1136 # 1000; (1136 # 1000) * (91 # 100)], [1; 1; 15 # 100; 20 # 100], [1; 1; 21 # 100; 25 # 100].
  split; [reflexivity|]. split; [reflexivity|]. split; [|split; vm_compute; reflexivity].
  intros i Hi. cbn in Hi. do 4 (destruct i as [|i]; [cbn; lra|]). lia.
Qed.

(** CUSUM bars: a larger floor and a larger multiplier of a sigma that is not negative. *)
Theorem C174_bars : forall (ln : Q -> Q) (xs : list Q) (ts : list Z) (sigma : list (option Q)) (floor floor' mult mult' : Q) (f : nat),
  first_known sigma f -> length sigma = length xs -> 0 < floor -> floor <= floor' -> mult <= mult' ->
  (forall i s, nth i sigma None = Some s -> 0 <= s) ->
  (forall i, (f < i)%nat -> (i + 1 < length xs)%nat -> nth i ts 0%Z <> nth (i + 1) ts 0%Z) ->
  (forall i j a b, (i <= j)%nat -> nth i sigma None = Some a -> nth j sigma None = Some b ->
     Qmax (mult * a) floor <= 2 * Qmax (mult * b) floor) ->
  not_earlier (cusum_bar_indexer ln ts xs sigma floor mult) (cusum_bar_indexer ln ts xs sigma floor' mult').
Proof. exact bars_mono. Qed.
Example C174_bars_example : let xs := [1; 2; 4; 3; 2; 5; 1; 1; 3; 1] in let ts := [1; 2; 3; 4; 5; 6; 7; 8; 9; 10]%Z in
  let sg := [None; Some (1 # 2); None; Some (3 # 4); Some (1 # 2); None; Some (1 # 2); Some 1; Some (1 # 2); Some (1 # 2)] in
  cusum_bar_indexer lin ts xs sg (1 # 4) 1 = [1; 2; 4; 5; 6; 8; 9]%nat /\
  cusum_bar_indexer lin ts xs sg (1 # 2) 2 = [1; 2; 5; 8]%nat /\
  not_earlier (cusum_bar_indexer lin ts xs sg (1 # 4) 1) (cusum_bar_indexer lin ts xs sg (1 # 2) 2).
Proof.
  intros xs ts sg. split; [vm_compute; reflexivity|]. split; [vm_compute; reflexivity|].
  assert (V : forall i s, nth i sg None = Some s -> 1 # 2 <= s <= 1).
  { intros i s. do 10 (destruct i as [|i]; [cbn; intros [= <-] || discriminate; try lra|]). destruct i; discriminate. }
  apply (C174_bars lin xs ts sg (1 # 4) (1 # 2) 1 2 1%nat); try lra; try reflexivity.
  - split; [exists (1 # 2); reflexivity|]. intros [|j] Hj; [reflexivity|lia].
  - intros i s H. apply V in H. lra.
  - intros i _ Hi. cbn in Hi. do 9 (destruct i as [|i]; [cbn; lia|]). lia.
  - intros i j a b _ Ha Hb. apply V in Ha. apply V in Hb.
    assert (X : forall y, 1 # 2 <= y -> Qmax (1 * y) (1 # 4) == y) by (intros y Hy; rewrite Q.max_l; lra).
    rewrite !X by lra. lra.
Qed.
(** Trades with one time stamp are not looked at one by one: the larger threshold can give one bar more. *)
Theorem C174_block_refuted : exists (ln : Q -> Q) (xs : list Q) (ts : list Z) (floor floor' : Q),
  0 < floor <= floor' /\ ascZ ts /\
  cusum_bar_indexer ln ts xs (repeat (Some 1) 5) floor 0 = [0; 3]%nat /\ cusum_bar_indexer ln ts xs (repeat (Some 1) 5) floor' 0 = [0; 3; 4]%nat.
Proof.
  exists lin, [1; 1; 142 # 100; (142 # 100) * (78 # 100); (142 # 100) * (78 # 100) * (109 # 100)], [1; 2; 3; 3; 4]%Z, (15 # 100), (21 # 100).
  split; [lra|]. split; [|split; vm_compute; reflexivity].
  intros i j Hij. cbn in Hij. destruct i as [|[|[|[|[|i]]]]], j as [|[|[|[|[|j]]]]]; cbn; lia.
Qed.

(** Triple barrier: wider barriers, a longer horizon and a later first exit never close an event earlier. *)
Theorem C174_barriers : forall (ln : Q -> Q) (rnd : Z -> Z) ts close events targets bo bo' top top' vert vert' mc mc' sides mr mr' l l',
  monotone rnd -> (forall k, 0 <= nth k targets 0) -> wider bo bo' -> wider top top' -> longer vert vert' -> (mc <= mc')%Z ->
  triple_barrier ln rnd ts close events targets bo top vert mc sides mr = Ok l ->
  triple_barrier ln rnd ts close events targets bo' top' vert' mc' sides mr' = Ok l' ->
  Forall2 touches_later l l'.
Proof.
  intros ln rnd ts close events targets bo bo' top top' vert vert' mc mc' sides mr mr' l l' Hr Ht Hb Hp Hv Hm.
  unfold triple_barrier. intros E E'.
  repeat match type of E with (if ?c then _ else _) = _ => destruct c; [discriminate|] end.
  repeat match type of E' with (if ?c then _ else _) = _ => destruct c; [discriminate|] end.
  injection E as <-. injection E' as <-. induction (seq 0 (length events)) as [|k ks IH]; cbn [map]; constructor; [|exact IH].
  apply event_later; auto.
Qed.
Example C174_barriers_example : let ts := [10; 20; 30; 40; 50; 60; 70; 80]%Z in let cl := [1; 2; 3; 2; 4; 1; 5; 6] in
  exists l l', triple_barrier lin (fun z => z) ts cl [0; 2; 3; 6]%nat [1; 1; 1; 1] (Fin 1) (Fin 1) (Some 30%Z) 0 None 0 = Ok l /\
    triple_barrier lin (fun z => z) ts cl [0; 2; 3; 6]%nat [1; 1; 1; 1] PInf (Fin 2) (Some 50%Z) 15 None 0 = Ok l' /\
    map tb_touch l = [Some 1; Some 3; Some 4; Some 7]%nat /\ map tb_touch l' = [Some 2; Some 6; Some 6; Some 7]%nat /\ Forall2 touches_later l l'.
Proof.
  intros ts cl. do 2 eexists. split; [reflexivity|]. split; [reflexivity|]. split; [reflexivity|]. split; [reflexivity|].
  eapply (C174_barriers lin (fun z => z) ts cl [0; 2; 3; 6]%nat [1; 1; 1; 1] (Fin 1) PInf (Fin 1) (Fin 2) (Some 30%Z) (Some 50%Z) 0 15 None 0 0);
    try reflexivity; try exact I; try (cbn; lra); try (cbn; lia); try (intros x y H; exact H).
  intro k. do 4 (destruct k as [|k]; [cbn; lra|]). destruct k; cbn; lra.
Qed.
(** Only the events that reached the horizon can change with it. *)
Theorem C174_horizon : forall (ln : Q -> Q) (rnd : Z -> Z) ts close e tgt bo top vert vert' mc meta side mr b i,
  monotone rnd -> ascZ ts -> longer vert vert' -> window_end rnd ts e vert b ->
  tb_touch (tbm_event ln rnd ts close e tgt bo top vert mc meta side mr) = Some i -> (i < b)%nat ->
  tbm_event ln rnd ts close e tgt bo top vert' mc meta side mr = tbm_event ln rnd ts close e tgt bo top vert mc meta side mr.
Proof. exact event_horizon. Qed.
Example C174_horizon_example : let ts := [10; 20; 30; 40; 50; 60; 70; 80]%Z in let cl := [1; 2; 3; 2; 4; 1; 5; 6] in
  let ev v := tbm_event lin (fun z => z) ts cl 2 1 (Fin 2) (Fin 1) v 0 false 1 0 in
  tb_touch (ev (Some 30%Z)) = Some 4%nat /\ ev None = ev (Some 30%Z).
Proof.
  intros ts cl ev. split; [reflexivity|].
  apply (C174_horizon lin (fun z => z) ts cl 2 1 (Fin 2) (Fin 1) (Some 30%Z) None 0 false 1 0 5%nat 4%nat);
    [intros x y H; exact H| |exact I| |reflexivity|lia].
  - intros i j Hij. cbn in Hij. do 8 (destruct i as [|i]; [do 8 (destruct j as [|j]; [cbn; lia|]); lia|]). lia.
  - split; [cbn; lia|]. cbn [nth ts]. split; [cbn; lia|]. intros j Hj. cbn in Hj. do 8 (destruct j as [|j]; [cbn; try lia|]). lia.
Qed.
(** A larger minimum return: the same touches, returns and weights, and no label of 0 becomes 1. *)
Theorem C174_min_ret : forall (ln : Q -> Q) (rnd : Z -> Z) ts close e tgt bo top vert mc meta side mr mr', mr <= mr' ->
  let a := tbm_event ln rnd ts close e tgt bo top vert mc meta side mr in
  let b := tbm_event ln rnd ts close e tgt bo top vert mc meta side mr' in
  tb_touch b = tb_touch a /\ tb_ret b = tb_ret a /\ tb_weight b = tb_weight a /\ (tb_label b <= tb_label a)%Z /\
  (meta = false -> tb_label b = tb_label a).
Proof.
  intros ln rnd ts close e tgt bo top vert mc meta side mr mr' H a b. unfold a, b, tbm_event. cbv zeta.
  destruct (_ <=? _)%Z; [repeat split; reflexivity || (cbn; lia)|]. destruct (tbm_scan _ _ _ _ _ _ _ _ _ _ _ _ _ _) as [[[t r] mu] ml].
  cbn [tb_touch tb_ret tb_weight tb_label]. split; [reflexivity|]. split; [reflexivity|]. split; [reflexivity|].
  unfold tbm_label. destruct meta; [|split; [lia|reflexivity]]. split; [|discriminate].
  destruct (Qleb_spec mr r), (Qleb_spec mr' r); first [lia|exfalso; lra].
Qed.
Example C174_min_ret_example : let ev := tbm_event lin (fun z => z) [10; 20; 30]%Z [1; 2; 4] 0 1 (Fin 1) (Fin 2) None 0 true 1 in
  tb_label (ev 1) = 1%Z /\ tb_label (ev 4) = 0%Z /\ tb_touch (ev 1) = tb_touch (ev 4) /\ tb_touch (ev 1) = Some 2%nat.
Proof.
  intro ev. split; [reflexivity|]. split; [reflexivity|]. split; [|reflexivity]. symmetry.
  apply (C174_min_ret lin (fun z => z) [10; 20; 30]%Z [1; 2; 4] 0 1 (Fin 1) (Fin 2) None 0 true 1 1 4). lra.
Qed.

(** The value area of a larger share of the volume contains that of a smaller one. *)
Theorem C174_value_area : forall (lv : list Z) (vols : list Q) (pct pct' : Q), vols <> [] -> length lv = length vols -> incr lv ->
  (forall i, (i < length vols)%nat -> 0 <= nth i vols 0) -> 0 <= pct -> pct <= pct' -> pct' <= 100 ->
  exists p h l h' l', comp_poc_hva_lva lv vols pct = Ok (Some (p, h, l)) /\ comp_poc_hva_lva lv vols pct' = Ok (Some (p, h', l')) /\
    (l' <= l)%Z /\ (h <= h')%Z.
Proof. exact area_mono. Qed.
Example C174_value_area_example :
  comp_poc_hva_lva [10; 11; 12; 13; 14; 15]%Z [1; 2; 5; 3; 2; 1] 50 = Ok (Some (12, 14, 12))%Z /\
  comp_poc_hva_lva [10; 11; 12; 13; 14; 15]%Z [1; 2; 5; 3; 2; 1] 90 = Ok (Some (12, 14, 10))%Z /\
  exists p h l h' l', comp_poc_hva_lva [10; 11; 12; 13; 14; 15]%Z [1; 2; 5; 3; 2; 1] 50 = Ok (Some (p, h, l)) /\
    comp_poc_hva_lva [10; 11; 12; 13; 14; 15]%Z [1; 2; 5; 3; 2; 1] 90 = Ok (Some (p, h', l')) /\ (l' <= l)%Z /\ (h <= h')%Z.
Proof.
  split; [vm_compute; reflexivity|]. split; [vm_compute; reflexivity|]. apply C174_value_area; try reflexivity; try lra; try discriminate.
  - intros i j Hij. cbn in Hij. do 6 (destruct i as [|i]; [do 6 (destruct j as [|j]; [cbn; lia|]); lia|]). lia.
  - intros i Hi. cbn in Hi. do 6 (destruct i as [|i]; [cbn; lra|]). lia.
Qed.

(** A larger imbalance multiplier raises fewer flags. *)
Theorem C174_flags : forall (lv : list Z) (bv sv : list Q) (m m' : Q) x y,
  (forall i, 0 <= nth i bv 0) -> (forall i, 0 <= nth i sv 0) -> m <= m' ->
  comp_footprint_features lv bv sv m = Ok x -> comp_footprint_features lv bv sv m' = Ok y ->
  fewer_flags (ff_bi x) (ff_bi y) /\ fewer_flags (ff_si x) (ff_si y).
Proof. exact flags_mono. Qed.
Example C174_flags_example : exists x y,
  comp_footprint_features [10; 11; 12]%Z [3; 9; 9] [5; 4; 1] (1 # 2) = Ok x /\ comp_footprint_features [10; 11; 12]%Z [3; 9; 9] [5; 4; 1] 2 = Ok y /\
  ff_bi x = [false; true; true] /\ ff_bi y = [false; false; true] /\ ff_si x = [true; false; false] /\ ff_si y = [false; false; false] /\
  fewer_flags (ff_bi x) (ff_bi y) /\ fewer_flags (ff_si x) (ff_si y).
Proof.
  do 2 eexists. split; [vm_compute; reflexivity|]. split; [vm_compute; reflexivity|]. do 4 (split; [reflexivity|]).
  apply (C174_flags [10; 11; 12]%Z [3; 9; 9] [5; 4; 1] (1 # 2) 2); try (vm_compute; reflexivity); try lra;
    intro i; do 3 (destruct i as [|i]; [cbn; lra|]); destruct i; cbn; lra.
Qed.

(** The gaps reported with a larger limit are those larger ones among the gaps reported with the smaller limit. *)
Theorem C174_gaps : forall (g g' : Z) (ts : list Z), (g <= g')%Z ->
  find_gaps g' ts = filter (fun td => (g' <? snd td)%Z) (find_gaps g ts).
Proof.
  intros g g' ts H. destruct ts as [|t l]; [reflexivity|]. cbn [find_gaps]. revert t.
  induction l as [|x l IH]; intro t; [reflexivity|]. cbn [gaps_from]. rewrite filter_app, <- IH. f_equal.
  destruct (Z.ltb_spec g' (x - t)), (Z.ltb_spec g (x - t)); cbn [filter snd]; try lia; try reflexivity.
  - replace (g' <? x - t)%Z with true by (symmetry; apply Z.ltb_lt; lia). reflexivity.
  - replace (g' <? x - t)%Z with false by (symmetry; apply Z.ltb_ge; lia). reflexivity.
Qed.
Example C174_gaps_example : find_gaps 5 [0; 3; 10; 30; 36]%Z = [(10, 7); (30, 20); (36, 6)]%Z /\ find_gaps 10 [0; 3; 10; 30; 36]%Z = [(30, 20)]%Z /\
  find_gaps 10 [0; 3; 10; 30; 36]%Z = filter (fun td => (10 <? snd td)%Z) (find_gaps 5 [0; 3; 10; 30; 36]%Z).
Proof. split; [reflexivity|]. split; [reflexivity|]. apply C174_gaps. lia. Qed.

Print Assumptions C174_tick.
Print Assumptions C174_volume.
Print Assumptions C174_volume_float.
Print Assumptions C174_volume_subset_refuted.
Print Assumptions C174_dollar.
Print Assumptions C174_dollar_float_refuted.
Print Assumptions C174_filter.
Print Assumptions C174_filter_constant.
Print Assumptions C174_filter_falling_refuted.
Print Assumptions C174_bars.
Print Assumptions C174_block_refuted.
Print Assumptions C174_barriers.
Print Assumptions C174_horizon.
Print Assumptions C174_min_ret.
Print Assumptions C174_value_area.
Print Assumptions C174_flags.
Print Assumptions C174_gaps.
