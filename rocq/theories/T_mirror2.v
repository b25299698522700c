(** T_mirror2.v -- sampling, sides and labels of the market upside down (C173). *)
From Verif Require Import Base M_logic M_sampling M_trades M_volume M_tbm S_logic S_units S_mirror P_mirror P_mirror2 P_mirror3.
Open Scope Q_scope.

(* ================================================================== *)
(** * C173  Rises and falls are treated alike *)

(** A stand-in for the logarithm in the examples: [lg (1 / x) = - lg x]. *)
Definition lg (x : Q) : Q := x - 1 / x.
Definition recip (p : list Q) : list Q := map (fun x => 1 / x) p.

(** The CUSUM filter: the same events for returns of the opposite sign, for thresholds that are known, not negative,
    and never less than half of an earlier one.  (A single threshold is such.) *)
Theorem C173_filter : forall (ln : Q -> Q) (xs xs' : list Q) (thr : list (option Q)) (t : nat -> Q),
  opposite_returns ln xs xs' ->
  (forall i, (1 <= i < length xs)%nat -> nth i (expand_threshold (length xs) thr) None = Some (t i) /\ 0 <= t i) ->
  steady (length xs) t ->
  cusum_filter ln xs' thr = cusum_filter ln xs thr.
Proof. intros. eapply cusum_filter_mirror; eauto. Qed.
Theorem C173_constant : forall (ln : Q -> Q) (xs xs' : list Q) (t : Q),
  opposite_returns ln xs xs' -> 0 <= t -> cusum_filter ln xs' [Some t] = cusum_filter ln xs [Some t].
Proof.
  intros ln xs xs' t H Ht. apply (C173_filter ln xs xs' [Some t] (fun _ => t) H).
  - intros i Hi. cbn [expand_threshold]. split; [|exact Ht].
    rewrite (nth_indep _ None (Some t)) by (rewrite repeat_length; lia). apply nth_repeat.
  - intros i j _ _. lra.
Qed.
Example C173_filter_example : let xs := [1; 2; 4; 3; 2; 5; 1; 1; 3] in
  let thr := map Some [1; 1; 3; 3; 2; 2; 2; 3 # 2; 2] in
  opposite_returns lg xs (recip xs) /\
  cusum_filter lg xs thr = Ok [1; 5; 6; 8]%nat /\ cusum_filter lg (recip xs) thr = Ok [1; 5; 6; 8]%nat /\
  cusum_filter lg (recip xs) thr = cusum_filter lg xs thr.
Proof.
  intros xs thr. assert (O : opposite_returns lg xs (recip xs)).
  { split; [reflexivity|]. intros i Hi. cbn in Hi. do 9 (destruct i as [|i]; [try lia; vm_compute; reflexivity|]). lia. }
  split; [exact O|]. split; [vm_compute; reflexivity|]. split; [vm_compute; reflexivity|].
  apply (C173_filter lg xs (recip xs) thr (fun i => match nth i thr None with Some t => t | None => 0 end) O).
  - intros i Hi. cbn in Hi. do 9 (destruct i as [|i]; [first [lia|split; [reflexivity|cbn; lra]]|]). lia.
  - intros i j Hij Hj. cbn in Hj.
    do 9 (destruct i as [|i]; [first [lia|do 9 (destruct j as [|j]; [first [lia|cbn; lra]|]); lia]|]). lia.
Qed.
(** With a threshold that falls further, a rise and a fall can be due at the same moment; the fall is reported first and
    only its sum starts again, so the events differ. *)
Theorem C173_falling_refuted : exists (ln : Q -> Q) (xs xs' : list Q) (thr : list (option Q)),
  opposite_returns ln xs xs' /\ (forall i, (i < length xs)%nat -> exists t, nth i thr None = Some t /\ 0 < t) /\
  cusum_filter ln xs thr = Ok [7]%nat /\ cusum_filter ln xs' thr = Ok [7; 8]%nat.
Proof.
  exists lg, [1; 2; 4; 8; 16; 8; 4; 4; 2], (recip [1; 2; 4; 8; 16; 8; 4; 4; 2]), (map Some [9; 9; 9; 9; 9; 9; 9; 3 # 2; 15 # 4]).
  split; [|split; [|vm_compute; auto]].
  - split; [reflexivity|]. intros i Hi. cbn in Hi. do 9 (destruct i as [|i]; [try lia; vm_compute; reflexivity|]). lia.
  - intros i Hi. cbn in Hi. do 9 (destruct i as [|i]; [eexists; split; [reflexivity|lra]|]). lia.
Qed.
(** The same while the threshold is unknown. *)
Theorem C173_unknown_refuted : exists (ln : Q -> Q) (xs xs' : list Q) (thr : list (option Q)),
  opposite_returns ln xs xs' /\ (forall i t, nth i thr None = Some t -> t = 11 # 4) /\
  cusum_filter ln xs thr = Ok [7]%nat /\ cusum_filter ln xs' thr = Ok [7; 8]%nat.
Proof.
  exists lg, [1; 2; 4; 8; 16; 8; 4; 4; 2], (recip [1; 2; 4; 8; 16; 8; 4; 4; 2]), (repeat None 7 ++ [Some (11 # 4); Some (11 # 4)]).
  split; [|split; [|vm_compute; auto]].
  - split; [reflexivity|]. intros i Hi. cbn in Hi. do 9 (destruct i as [|i]; [try lia; vm_compute; reflexivity|]). lia.
  - intros i t H. do 9 (destruct i as [|i]; [cbn in H; congruence|]). cbn in H. destruct i; discriminate.
Qed.

(** CUSUM bars: the same, for a positive floor and no two neighbouring trades with the same time stamp. *)
Theorem C173_bars : forall (ln : Q -> Q) (xs xs' : list Q) (ts : list Z) (sigma : list (option Q)) (floor mult : Q) (f : nat),
  opposite_returns ln xs xs' -> first_known sigma f -> length sigma = length xs -> 0 < floor ->
  (forall i, (f < i)%nat -> (i + 1 < length xs)%nat -> nth i ts 0%Z <> nth (i + 1) ts 0%Z) ->
  (forall i j a b, (i <= j)%nat -> nth i sigma None = Some a -> nth j sigma None = Some b ->
     Qmax (mult * a) floor <= 2 * Qmax (mult * b) floor) ->
  cusum_bar_indexer ln ts xs' sigma floor mult = cusum_bar_indexer ln ts xs sigma floor mult.
Proof. intros. eapply cusum_bars_mirror; eauto. Qed.
Example C173_bars_example : let xs := [1; 2; 4; 3; 2; 5; 1; 1; 3] in
  let sigma := [None; Some 2; None; Some 3; None; Some 2; Some 2; Some (3 # 2); Some 2] in
  opposite_returns lg xs (recip xs) /\
  cusum_bar_indexer lg [1; 2; 3; 4; 5; 6; 7; 8; 9]%Z xs sigma (1 # 2) 1 = [1; 5; 6; 8]%nat /\
  cusum_bar_indexer lg [1; 2; 3; 4; 5; 6; 7; 8; 9]%Z (recip xs) sigma (1 # 2) 1 =
  cusum_bar_indexer lg [1; 2; 3; 4; 5; 6; 7; 8; 9]%Z xs sigma (1 # 2) 1.
Proof.
  intros xs sigma. assert (O : opposite_returns lg xs (recip xs)).
  { split; [reflexivity|]. intros i Hi. cbn in Hi. do 9 (destruct i as [|i]; [try lia; vm_compute; reflexivity|]). lia. }
  split; [exact O|]. split; [vm_compute; reflexivity|].
  apply (C173_bars lg xs (recip xs) _ sigma (1 # 2) 1 1 O).
  - split; [exists 2; reflexivity|]. intros i Hi. destruct i; [reflexivity|lia].
  - reflexivity.
  - lra.
  - intros i Hi Hn. cbn in Hn. do 9 (destruct i as [|i]; [try lia; cbn; lia|]). lia.
  - intros i j a b _ Ha Hb.
    assert (Va : a <= 3). { do 9 (destruct i as [|i]; [cbn in Ha; try discriminate; injection Ha as <-; lra|]). cbn in Ha. destruct i; discriminate. }
    assert (Vb : 3 # 2 <= b). { do 9 (destruct j as [|j]; [cbn in Hb; try discriminate; injection Hb as <-; lra|]). cbn in Hb. destruct j; discriminate. }
    assert (X : Qmax (1 * a) (1 # 2) <= 3) by (apply Q.max_lub; lra). pose proof (Q.le_max_l (1 * b) (1 # 2)). lra.
Qed.
(** Trades with the same time stamp are tested once, at the last of them: a rise and a fall can be due together. *)
Theorem C173_block_refuted : exists (ln : Q -> Q) (xs xs' : list Q) (ts : list Z) (sigma : list (option Q)),
  opposite_returns ln xs xs' /\ (forall i, (i < length xs)%nat -> nth i sigma None = Some 1) /\
  cusum_bar_indexer ln ts xs sigma (57 # 20) 1 = [0; 6; 7]%nat /\ cusum_bar_indexer ln ts xs' sigma (57 # 20) 1 = [0; 6]%nat.
Proof.
  exists lg, [1; 2; 4; 8; 16; 8; 4; 2], (recip [1; 2; 4; 8; 16; 8; 4; 2]), [0; 1; 1; 1; 1; 1; 1; 2]%Z, (repeat (Some 1) 8).
  split; [|split; [|vm_compute; auto]].
  - split; [reflexivity|]. intros i Hi. cbn in Hi. do 8 (destruct i as [|i]; [try lia; vm_compute; reflexivity|]). lia.
  - intros i Hi. cbn in Hi. do 8 (destruct i as [|i]; [reflexivity|]). lia.
Qed.

(** The tick rule: prices upside down give the opposite sides. *)
Theorem C173_tick_rule : forall (p p' : list Q) (c : Q), length p' = length p ->
  (forall i, (i < length p)%nat -> nth i p' 0 == c - nth i p 0) ->
  comp_trade_side_vector p' = flipped (comp_trade_side_vector p).
Proof. exact trade_sides_mirror. Qed.
Example C173_tick_rule_example :
  comp_trade_side_vector [3; 3; 4; 4; 2; 2; 5] = [0; 0; 1; 1; -1; -1; 1]%Z /\
  comp_trade_side_vector [7; 7; 6; 6; 8; 8; 5] = flipped (comp_trade_side_vector [3; 3; 4; 4; 2; 2; 5]).
Proof.
  split; [vm_compute; reflexivity|]. apply (C173_tick_rule _ _ 10); [reflexivity|].
  intros i Hi. cbn in Hi. do 7 (destruct i as [|i]; [reflexivity|]). lia.
Qed.

(** VPIN does not depend on which side is called buy. *)
Theorem C173_vpin : forall (buy sell : list (option Q)) (window : nat), length sell = length buy ->
  Forall2 oq_same (vpin buy sell window) (vpin sell buy window).
Proof. exact vpin_mirror. Qed.
Example C173_vpin_example : let b := [Some 3; Some 1; None; Some 4; Some 0] in let s := [Some 1; Some 1; Some 2; Some 0; Some 2] in
  Forall2 oq_same (vpin b s 2) (vpin s b 2) /\ vpin b s 2 = [None; Some (2 # 6); None; None; Some (6 # 6)].
Proof. intros b s. split; [now apply C173_vpin|vm_compute; reflexivity]. Qed.

(** Triple-barrier labels: log prices upside down and the two barriers exchanged give the same touches, the opposite
    returns, and, when the return is not 0, the opposite labels with the same weights. *)
Theorem C173_labels : forall (ln : Q -> Q) (rnd : Z -> Z) (ts : list Z) (close close' : list Q) (events : list nat)
    (targets : list Q) (bottom top : ext) (vert : option Z) (min_close : Z) (min_ret : Q),
  opposite_logs ln close close' ->
  both (Forall2 label_reversed) (triple_barrier ln rnd ts close events targets bottom top vert min_close None min_ret)
       (triple_barrier ln rnd ts close' events targets top bottom vert min_close None min_ret).
Proof. intros. now apply labels_reversed. Qed.
(** With the side given, turning over the prices and the sides changes nothing. *)
Theorem C173_meta_labels : forall (ln : Q -> Q) (rnd : Z -> Z) (ts : list Z) (close close' : list Q) (events : list nat)
    (targets : list Q) (bottom top : ext) (vert : option Z) (min_close : Z) (sides : list Z) (min_ret : Q),
  opposite_logs ln close close' ->
  both (Forall2 label_same) (triple_barrier ln rnd ts close events targets bottom top vert min_close (Some sides) min_ret)
       (triple_barrier ln rnd ts close' events targets bottom top vert min_close (Some (flipped sides)) min_ret).
Proof. intros. now apply meta_labels_same. Qed.
Example C173_labels_example : let cl := [1; 2; 4; 3; 2; 5; 1; 3] in let ts := [0; 1; 2; 3; 4; 5; 6; 7]%Z in
  let a := triple_barrier lg (fun z => z) ts cl [0; 1; 2]%nat [1; 2; 1] (Fin 1) (Fin 2) (Some 4%Z) 0 None 0 in
  let b := triple_barrier lg (fun z => z) ts (recip cl) [0; 1; 2]%nat [1; 2; 1] (Fin 2) (Fin 1) (Some 4%Z) 0 None 0 in
  let m := triple_barrier lg (fun z => z) ts cl [0; 1; 2]%nat [1; 2; 1] (Fin 1) (Fin 2) (Some 4%Z) 0 (Some [1; -1; 1]%Z) 0 in
  let w := triple_barrier lg (fun z => z) ts (recip cl) [0; 1; 2]%nat [1; 2; 1] (Fin 1) (Fin 2) (Some 4%Z) 0 (Some [-1; 1; -1]%Z) 0 in
  opposite_logs lg cl (recip cl) /\ both (Forall2 label_reversed) a b /\ both (Forall2 label_same) m w /\
  (exists l l', a = Ok l /\ b = Ok l' /\ map tb_label l = [1; 1; -1]%Z /\ map tb_label l' = [-1; -1; 1]%Z /\ map tb_touch l = map tb_touch l').
Proof.
  intros cl ts a b m w. assert (O : opposite_logs lg cl (recip cl)).
  { split; [reflexivity|]. exists 0. intros i Hi. cbn in Hi. do 8 (destruct i as [|i]; [vm_compute; reflexivity|]). lia. }
  split; [exact O|]. split; [now apply C173_labels|]. split; [apply (C173_meta_labels _ _ _ _ _ _ _ _ _ _ _ [1; -1; 1]%Z); exact O|].
  eexists. eexists. split; [vm_compute; reflexivity|]. split; [vm_compute; reflexivity|]. vm_compute. auto.
Qed.
(** A return of exactly 0 is labelled 1 both ways, and its weight belongs to the lower barrier both ways. *)
Theorem C173_flat_refuted : exists (ln : Q -> Q) (close close' : list Q) l l',
  opposite_logs ln close close' /\
  triple_barrier ln (fun z => z) [0; 1; 2]%Z close [0]%nat [1] (Fin 2) (Fin 2) (Some 5%Z) 0 None 0 = Ok l /\
  triple_barrier ln (fun z => z) [0; 1; 2]%Z close' [0]%nat [1] (Fin 2) (Fin 2) (Some 5%Z) 0 None 0 = Ok l' /\
  map tb_label l = [1]%Z /\ map tb_label l' = [1]%Z /\
  (exists w w', map tb_weight l = [Some w] /\ map tb_weight l' = [Some w'] /\ w == 0 /\ w' == 3 # 4).
Proof.
  exists lg, [1; 2; 1], (recip [1; 2; 1]). eexists. eexists. split.
  { split; [reflexivity|]. exists 0. intros i Hi. cbn in Hi. do 3 (destruct i as [|i]; [vm_compute; reflexivity|]). lia. }
  split; [vm_compute; reflexivity|]. split; [vm_compute; reflexivity|]. split; [reflexivity|]. split; [reflexivity|].
  eexists. eexists. split; [reflexivity|]. split; [reflexivity|]. split; reflexivity.
Qed.

Print Assumptions C173_filter.
Print Assumptions C173_constant.
Print Assumptions C173_falling_refuted.
Print Assumptions C173_unknown_refuted.
Print Assumptions C173_bars.
Print Assumptions C173_block_refuted.
Print Assumptions C173_tick_rule.
Print Assumptions C173_vpin.
Print Assumptions C173_labels.
Print Assumptions C173_meta_labels.
Print Assumptions C173_flat_refuted.
