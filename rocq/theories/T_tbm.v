(** T_tbm.v -- property theorems C35-C38, C73, C74 (finmlkit/label/tbm.py). *)
From Verif Require Import Base M_logic M_tbm S_tbm P_tbm.
Open Scope Q_scope.

(** The real conversion (IEEE binary64, round to nearest even) is one of the
    conversions the theorems below range over. *)
Theorem C35_float64_monotone : monotone f64.
Proof. exact f64_mono. Qed.

(** * C35  Labels use the first touch within the window *)
Theorem C35_first_touch : forall (ln : Q -> Q) (rnd : Z -> Z), monotone rnd ->
  forall ts close events targets bottom top vert min_close sides min_ret outs k,
  ascZ ts ->
  triple_barrier ln rnd ts close events targets bottom top vert min_close sides min_ret = Ok outs ->
  (k < length events)%nat ->
  let e := nth k events 0%nat in
  let tgt := nth k targets 0 in
  let side := match sides with Some l => inject_Z (nth k l 0%Z) | None => 1 end in
  let out := nth k outs dflt in
  let touch := barrier_touch ln rnd ts close e tgt bottom top min_close side in
  (e < length ts)%nat -> 0 < tgt -> number_or_inf bottom -> number_or_inf top ->
  forall b, window_end rnd ts e vert b ->
  exists i r, tb_touch out = Some i /\ tb_ret out = Some r /\
    (first_such touch e b i \/ ((forall j, (e < j <= b)%nat -> ~ touch j) /\ i = b)) /\
    (eligible rnd ts e min_close i -> r = signed_ret ln close e side i) /\
    (~ eligible rnd ts e min_close i -> r = 0).
Proof. exact first_touch. Qed.

(** An event without any later record inside its vertical barrier is skipped: label 0,
    no return, no weight, and the touch index is never written. *)
Theorem C35_skipped : forall (ln : Q -> Q) (rnd : Z -> Z), monotone rnd ->
  forall ts close events targets bottom top vert min_close sides min_ret outs k,
  ascZ ts ->
  triple_barrier ln rnd ts close events targets bottom top vert min_close sides min_ret = Ok outs ->
  (k < length events)%nat ->
  let e := nth k events 0%nat in
  (e < length ts)%nat ->
  (forall b, ~ window_end rnd ts e vert b) -> nth k outs dflt = mkTbm 0 None None None.
Proof.
  intros ln rnd Hr ts close events targets bottom top vert mc sides min_ret outs k Ha Hok Hk.
  exact (skipped ln rnd Hr ts close events targets bottom top vert mc sides min_ret outs k Ha Hok Hk).
Qed.

(** Concrete run: one-second records, 5 s vertical barrier, ln replaced by x-1. *)
Definition ex_tb_ts : list Z := [0; 1000000000; 2000000000; 3000000000; 4000000000; 9000000000]%Z.
Definition ex_tb_close : list Q := [1; 105 # 100; 98 # 100; 111 # 100; 1; 2].
Definition ex_tb := triple_barrier (fun x => x - 1) f64 ex_tb_ts ex_tb_close [0; 2; 5]%nat
   [1 # 10; 1 # 10; 1 # 10] (Fin 1) (Fin 1) (Some 5000000000%Z) 0 None 0.
Example C35_example :
  ascZ ex_tb_ts /\ number_or_inf (Fin 1) /\ window_end f64 ex_tb_ts 0 (Some 5000000000%Z) 4 /\
  match ex_tb with Ok outs => map tb_touch outs = [Some 3; Some 3; None]%nat /\ map tb_label outs = [1; 1; 0]%Z
                 | Raise _ => False end.
Proof.
  split.
  { intros i j Hij. simpl length in Hij.
    destruct i as [|[|[|[|[|[|i]]]]]], j as [|[|[|[|[|[|j]]]]]]; simpl; lia. }
  split; [right; eexists; reflexivity|]. split; [|vm_compute; split; reflexivity].
  split; [simpl; lia|]. split; [vm_compute; discriminate|].
  intros j Hj. simpl length in Hj. assert (j = 5)%nat by lia. subst. vm_compute. reflexivity.
Qed.

(** * C36  Nothing after the vertical barrier matters *)
Theorem C36_no_lookahead : forall (ln : Q -> Q) (rnd : Z -> Z), monotone rnd ->
  forall ts ts' close close' e tgt bottom top v min_close is_meta side min_ret m,
  ascZ ts -> ascZ ts' -> (e < m)%nat -> (m <= length ts)%nat -> (m <= length ts')%nat ->
  firstn m ts = firstn m ts' -> firstn m close = firstn m close' ->
  (forall j, (m <= j < length ts)%nat -> (rnd (rnd (nth e ts 0) + v) < rnd (nth j ts 0))%Z) ->
  (forall j, (m <= j < length ts')%nat -> (rnd (rnd (nth e ts 0) + v) < rnd (nth j ts' 0))%Z) ->
  tbm_event ln rnd ts close e tgt bottom top (Some v) min_close is_meta side min_ret =
  tbm_event ln rnd ts' close' e tgt bottom top (Some v) min_close is_meta side min_ret.
Proof. exact event_causal. Qed.

(** ... and an event's outputs depend on no other event. *)
Theorem C36_events_independent : forall ln rnd ts close events targets bottom top vert min_close sides min_ret outs k,
  triple_barrier ln rnd ts close events targets bottom top vert min_close sides min_ret = Ok outs ->
  length outs = length events /\
  ((k < length events)%nat ->
   triple_barrier ln rnd ts close [nth k events 0%nat] [nth k targets 0] bottom top vert min_close
     (option_map (fun l => [nth k l 0%Z]) sides) min_ret = Ok [nth k outs dflt]).
Proof.
  intros ln rnd ts close events targets bottom top vert mc sides min_ret outs k H.
  destruct (tb_nth _ _ _ _ _ _ _ _ _ _ _ _ _ k dflt H) as [Hl Hn]. split; [exact Hl|].
  intro Hk. rewrite (Hn Hk). unfold triple_barrier in H.
  destruct (match vert with Some v => (v <=? 0)%Z | None => false end) eqn:E1; [discriminate|].
  destruct (Qltb min_ret 0) eqn:E2; [discriminate|].
  destruct (negb (length ts =? length close)%nat) eqn:E3; [discriminate|].
  unfold triple_barrier. rewrite E1, E2, E3. destruct sides; reflexivity.
Qed.
Example C36_example :
  firstn 5 ex_tb_ts = firstn 5 (firstn 5 ex_tb_ts ++ [8000000000; 12000000000]%Z) /\
  (forall j, (5 <= j < length ex_tb_ts)%nat ->
     (f64 (f64 (nth 0 ex_tb_ts 0) + 5000000000) < f64 (nth j ex_tb_ts 0))%Z).
Proof.
  split; [reflexivity|]. intros j Hj. simpl length in Hj. assert (j = 5)%nat by lia. subst. vm_compute. reflexivity.
Qed.

(** * C37  Labels and weights *)
Theorem C37_labels_weights : forall (ln : Q -> Q) (rnd : Z -> Z), monotone rnd ->
  forall ts close events targets bottom top vert min_close sides min_ret outs k,
  ascZ ts ->
  triple_barrier ln rnd ts close events targets bottom top vert min_close sides min_ret = Ok outs ->
  (k < length events)%nat ->
  let e := nth k events 0%nat in
  let out := nth k outs dflt in
  (e < length ts)%nat ->
  forall b, window_end rnd ts e vert b ->
  exists i r, tb_touch out = Some i /\ tb_ret out = Some r /\
    (sides = None -> (r < 0 -> tb_label out = (-1)%Z) /\ (0 <= r -> tb_label out = 1%Z)) /\
    (sides <> None -> (min_ret <= r -> tb_label out = 1%Z) /\ (r < min_ret -> tb_label out = 0%Z)) /\
    ((i < b)%nat -> tb_weight out = Some 1) /\
    (forall w, tb_weight out = Some w -> 0 <= w <= 1).
Proof.
  intros ln rnd Hr ts close events targets bottom top vert mc sides min_ret outs k Ha Hok Hk.
  exact (label_weight ln rnd Hr ts close events targets bottom top vert mc sides min_ret outs k Ha Hok Hk).
Qed.
Example C37_example :
  match ex_tb with Ok outs => map tb_weight outs = [Some 1; Some 1; None] /\
                              map tb_ret outs <> [None; None; None] | Raise _ => False end.
Proof. vm_compute. split; [reflexivity|discriminate]. Qed.

(** * C38  "If a barrier is hit, the weight is 1.0" *)
Theorem C38_touched_weight_refuted : exists ln ts close e tgt bottom top vert,
  let out := tbm_event ln f64 ts close e tgt bottom top (Some vert) 0 false 1 0 in
  exists b w, tb_touch out = Some b /\ barrier_touch ln f64 ts close e tgt bottom top 0 1 b /\
    tb_weight out = Some w /\ w < 1.
Proof.
  exists (fun x => x - 1), [0; 1000000000; 2000000000]%Z, [1; 96 # 100; 11 # 10], 0%nat, (1 # 10), (Fin 1), (Fin 1), 2000000000%Z.
  intro out. exists 2%nat. eexists. split; [vm_compute; reflexivity|]. split.
  { split; [vm_compute; discriminate|]. left. vm_compute. discriminate. }
  split; [vm_compute; reflexivity|]. vm_compute. reflexivity.
Qed.

(** What holds: the exact weight of an event that ends at the vertical barrier index.
    U and L are the greatest approaches (0 if none) to the two barriers.
    (Touches strictly before that index have weight 1, C37.) *)
Theorem C38_vertical_weight_partial : forall (ln : Q -> Q) (rnd : Z -> Z), monotone rnd ->
  forall ts close events targets bottom top vert min_close sides min_ret outs k,
  ascZ ts ->
  triple_barrier ln rnd ts close events targets bottom top vert min_close sides min_ret = Ok outs ->
  (k < length events)%nat ->
  let e := nth k events 0%nat in
  let tgt := nth k targets 0 in
  let side := match sides with Some l => inject_Z (nth k l 0%Z) | None => 1 end in
  let out := nth k outs dflt in
  let sr := signed_ret ln close e side in
  (e < length ts)%nat -> number_or_inf bottom -> number_or_inf top ->
  forall b, window_end rnd ts e vert b -> tb_touch out = Some b ->
  exists r, tb_ret out = Some r /\
    (forall m, top = Fin m -> ~ tgt * m == 0 -> 0 < r ->
       forall m', bottom = Fin m' -> ~ tgt * m' == 0 ->
       exists U L w, tb_weight out = Some w /\ w == Qmin (U / (1 + L)) 1 /\
         running_max (fun j => sr j / (tgt * m)) (fun j => eligible rnd ts e min_close j /\ 0 < sr j) e b U /\
         running_max (fun j => sr j / (- tgt * m')) (fun j => eligible rnd ts e min_close j /\ sr j < 0) e b L) /\
    (forall m, top = Fin m -> ~ tgt * m == 0 -> r <= 0 ->
       forall m', bottom = Fin m' -> ~ tgt * m' == 0 ->
       exists U L w, tb_weight out = Some w /\ w == Qmin (L / (1 + U)) 1 /\
         running_max (fun j => sr j / (tgt * m)) (fun j => eligible rnd ts e min_close j /\ 0 < sr j) e b U /\
         running_max (fun j => sr j / (- tgt * m')) (fun j => eligible rnd ts e min_close j /\ sr j < 0) e b L) /\
    (0 < r -> top = PInf -> tb_weight out = None) /\
    (r <= 0 -> bottom = PInf -> tb_weight out = None).
Proof.
  intros ln rnd Hr ts close events targets bottom top vert mc sides min_ret outs k Ha Hok Hk.
  exact (weight_formula ln rnd Hr ts close events targets bottom top vert mc sides min_ret outs k Ha Hok Hk).
Qed.
Example C38_example :
  let out := tbm_event (fun x => x - 1) f64 [0; 1000000000; 2000000000]%Z [1; 96 # 100; 105 # 100]
     0 (1 # 10) (Fin 1) (Fin 1) (Some 2000000000%Z) 0 false 1 0 in
  tb_touch out = Some 2%nat /\ exists w, tb_weight out = Some w /\ w == (1 # 2) / (1 + (4 # 10)).
Proof. split; [vm_compute; reflexivity|]. eexists. split; vm_compute; reflexivity. Qed.

(** * C73  Infinite multipliers *)
(** The documentation offers -inf to disable a barrier.  With it, the event ends at
    the first position that may close it, whatever the prices do. *)
Theorem C73_negative_infinity : forall (ln : Q -> Q) (rnd : Z -> Z), monotone rnd ->
  forall ts close e tgt bottom top vert min_close is_meta side min_ret b,
  ascZ ts -> (e < length ts)%nat -> 0 < tgt -> (bottom = NInf \/ top = NInf) ->
  window_end rnd ts e vert b -> (exists j, (e < j <= b)%nat /\ eligible rnd ts e min_close j) ->
  exists i, tb_touch (tbm_event ln rnd ts close e tgt bottom top vert min_close is_meta side min_ret) = Some i /\
            first_such (eligible rnd ts e min_close) e b i.
Proof. exact neg_inf_touch. Qed.
Theorem C73_negative_infinity_disables_refuted : exists ln ts close e tgt top vert b i,
  window_end f64 ts e (Some vert) b /\ (i < b)%nat /\
  tb_touch (tbm_event ln f64 ts close e tgt NInf top (Some vert) 0 false 1 0) = Some i /\
  (forall j, (e < j <= b)%nat -> ~ reaches_top tgt top (signed_ret ln close e 1 j)).
Proof.
  exists (fun x => x - 1), ex_tb_ts, ex_tb_close, 0%nat, (1 # 1), (Fin 1), 5000000000%Z, 4%nat, 1%nat.
  split; [apply C35_example|]. split; [lia|]. split; [vm_compute; reflexivity|].
  intros j Hj. assert (j = 1 \/ j = 2 \/ j = 3 \/ j = 4)%nat as [->|[->|[->| ->]]] by lia;
    vm_compute; intro H; apply H; reflexivity.
Qed.
Example C73_example : (exists j, (0 < j <= 4)%nat /\ eligible f64 ex_tb_ts 0 0 j) /\ 0 < 1 # 10.
Proof. split; [exists 1%nat; split; [lia|vm_compute; discriminate]|reflexivity]. Qed.

(** * C74  Argument checks *)
Theorem C74_value_errors : forall ln rnd ts close events targets bottom top vert min_close sides min_ret,
  (triple_barrier ln rnd ts close events targets bottom top vert min_close sides min_ret = Raise ValueError <->
   (exists v, vert = Some v /\ (v <= 0)%Z) \/ min_ret < 0 \/ length ts <> length close \/
   length events <> length targets \/ events = [] \/
   (exists l, sides = Some l /\ length l <> length events)).
Proof. exact tb_raise_iff. Qed.
Theorem C74_no_other_error : forall ln rnd ts close events targets bottom top vert min_close sides min_ret e,
  triple_barrier ln rnd ts close events targets bottom top vert min_close sides min_ret = Raise e -> e = ValueError.
Proof. exact tb_only_value_error. Qed.
Example C74_example :
  triple_barrier (fun x => x) f64 [1%Z] [1] [0%nat] [1] (Fin 1) (Fin 1) (Some (-1)%Z) 0 None 0 = Raise ValueError /\
  triple_barrier (fun x => x) f64 [1%Z] [1] [0%nat] [1] (Fin 1) (Fin 1) None 0 (Some [1; 1]%Z) 0 = Raise ValueError.
Proof. split; reflexivity. Qed.

Print Assumptions C35_float64_monotone.
Print Assumptions C35_first_touch.
Print Assumptions C35_skipped.
Print Assumptions C36_no_lookahead.
Print Assumptions C36_events_independent.
Print Assumptions C37_labels_weights.
Print Assumptions C38_touched_weight_refuted.
Print Assumptions C38_vertical_weight_partial.
Print Assumptions C73_negative_infinity.
Print Assumptions C73_negative_infinity_disables_refuted.
Print Assumptions C74_value_errors.
Print Assumptions C74_no_other_error.
