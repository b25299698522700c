(** T_weights.v -- property theorems C39-C44 and C75-C78
    (finmlkit/label/weights.py, finmlkit/label/kit.py). *)
From Verif Require Import Base M_logic M_weights S_weights P_weights P_weights2 P_weights3.
From Verif Require Import M_tbm S_tbm P_tbm M_labelkit P_labelkit.
Open Scope Q_scope.

(** * C39  Concurrency and average uniqueness *)
Theorem C39_concurrency : forall n events touches ws conc,
  average_uniqueness n events touches = Ok (ws, conc) ->
  length events = length touches /\ length ws = length events /\ length conc = n /\
  forall j, (j < n)%nat -> (Z.of_nat (overlap events touches j) < 32768)%Z ->
    nth j conc 0%Z = Z.of_nat (overlap events touches j).
Proof.
  intros n events touches ws conc H. split; [exact (au_len _ _ _ _ _ H)|].
  destruct (au_concurrency _ _ _ _ _ H) as [H1 [H2 _]]. split; [exact H1|]. split; [exact H2|].
  exact (au_exact _ _ _ _ _ H).
Qed.
Theorem C39_uniqueness : forall n events touches ws conc i,
  average_uniqueness n events touches = Ok (ws, conc) -> (i < length events)%nat ->
  (nth i events 0 <= nth i touches 0)%nat -> (nth i touches 0 < n)%nat ->
  (forall j, (nth i events 0 <= j <= nth i touches 0)%nat -> (Z.of_nat (overlap events touches j) < 32768)%Z) ->
  exists u, nth i ws NaN = Fin u /\
    u == ssum (fun j => 1 / Qnat (overlap events touches j)) (nth i events 0%nat) (S (nth i touches 0%nat))
         / Qnat (S (nth i touches 0%nat) - nth i events 0%nat) /\
    0 < u <= 1 /\
    (u == 1 <-> forall k j, (k < length events)%nat -> k <> i ->
                  ~ (covers events touches i j /\ covers events touches k j)).
Proof.
  intros n events touches ws conc i H Hi Hse Hen Hov.
  destruct (au_val n events touches ws conc H i Hi Hse Hen Hov) as [v [E Ev]]. exists v. split; [exact E|].
  split; [exact Ev|]. split.
  - pose proof (u_range n events touches i Hi Hse Hen) as R. rewrite Ev. exact R.
  - pose proof (u_one n events touches i Hi Hse Hen) as R. rewrite Ev. exact R.
Qed.
Theorem C39_total : forall n events touches ws conc,
  average_uniqueness n events touches = Ok (ws, conc) ->
  (forall i, (i < length events)%nat -> (nth i events 0 <= nth i touches 0 < n)%nat) ->
  (Z.of_nat (length events) < 32768)%Z ->
  qsum (map (fun i => Qnat (S (nth i touches 0%nat) - nth i events 0%nat)
                      * match nth i ws NaN with Fin q => q | _ => 0 end) (seq 0 (length events)))
  == Qnat (covered events touches n).
Proof. exact au_total. Qed.
(** The int16 counter wraps: 32768 labels over one position get a negative uniqueness. *)
Theorem C39_overflow_refuted : exists n events touches ws conc u,
  (forall i, (i < length events)%nat -> (nth i events 0 <= nth i touches 0 < n)%nat) /\
  average_uniqueness n events touches = Ok (ws, conc) /\ nth 0 ws NaN = Fin u /\ u < 0.
Proof.
  assert (Hm : exists m, Z.of_nat m = 32768%Z) by (exists (Z.to_nat 32768); apply Z2Nat.id; lia).
  destruct Hm as [m Hm].
  destruct (overflow_witness m Hm) as [ws [conc [u [H1 [H2 H3]]]]].
  exists 1%nat, (repeat 0%nat m), (repeat 0%nat m), ws, conc, u.
  split; [intros i _; rewrite !nth_repeat; lia|]. split; [exact H1|]. split; [exact H2|exact H3].
Qed.
Example C39_example : exists ws conc, average_uniqueness 5 [0; 1; 4]%nat [2; 2; 4]%nat = Ok (ws, conc) /\
  conc = [1; 2; 2; 0; 1]%Z /\ overlap [0; 1; 4]%nat [2; 2; 4]%nat 1 = 2%nat /\
  exists u0 u1 u2, ws = [Fin u0; Fin u1; Fin u2] /\ u0 == 2 # 3 /\ u1 == 1 # 2 /\ u2 == 1.
Proof. do 2 eexists. split; [reflexivity|]. split; [reflexivity|]. split; [reflexivity|]. do 3 eexists. repeat split. Qed.

(** * C40  Return attribution *)
Theorem C40_attribution : forall (ln : Q -> option Q) events touches close conc ws i,
  return_attribution ln events touches close conc false = Ok ws -> (i < length events)%nat ->
  nth i ws 0 == Qabs (ssum (fun j =>
      match (if (0 <? j)%nat && negb (Qeqb (nth (j - 1) close 0) 0)
             then ln (nth j close 0 / nth (j - 1) close 0) else None) with
      | Some r => if (0 <? nth j conc 0)%Z then r / inject_Z (nth j conc 0%Z) else 0
      | None => 0
      end) (nth i events 0%nat) (S (nth i touches 0%nat))).
Proof.
  intros ln events touches close conc ws i H Hi. inversion H; subst.
  rewrite nth_map_seq by exact Hi. rewrite attr_raw_spec. apply Qabs_wd. apply ssum_ext. intros j _.
  unfold attr_term, log_ret. destruct j as [|j]; [reflexivity|]. cbn [Nat.ltb Nat.leb andb].
  replace (S j - 1)%nat with j by lia. destruct (Qeqb (nth j close 0) 0); reflexivity.
Qed.
Theorem C40_normalised : forall (ln : Q -> option Q) events touches close conc ws raw,
  return_attribution ln events touches close conc true = Ok ws ->
  return_attribution ln events touches close conc false = Ok raw ->
  length ws = length events /\ qsum ws == Qnat (length events) /\
  exists s, 0 < s /\ forall i, (i < length events)%nat -> nth i ws 0 * s == Qnat (length events) * nth i raw 0.
Proof. intros ln events touches close conc ws raw H Hr. inversion Hr; subst. exact (attr_norm ln events touches close conc ws H). Qed.
Theorem C40_raises : forall (ln : Q -> option Q) events touches close conc raw,
  return_attribution ln events touches close conc false = Ok raw ->
  ((exists e, return_attribution ln events touches close conc true = Raise e) <->
   forall i, (i < length events)%nat -> nth i raw 0 == 0).
Proof. intros ln events touches close conc raw Hr. inversion Hr; subst. exact (attr_raise ln events touches close conc). Qed.
Example C40_example : exists ws raw,
  return_attribution (fun x => Some (x - 1)) [0; 1]%nat [1; 2]%nat [1; 2; 1] [1; 2; 1]%Z false = Ok raw /\
  return_attribution (fun x => Some (x - 1)) [0; 1]%nat [1; 2]%nat [1; 2; 1] [1; 2; 1]%Z true = Ok ws /\
  qsum ws == 2 /\ nth 0 raw 0 == 1 # 2 /\ nth 1 raw 0 == 0.
Proof. do 2 eexists. split; [reflexivity|]. split; [reflexivity|]. repeat split. Qed.

(** * C41  Time decay.  [share k] is the cumulative uniqueness share of events 0..k. *)
Theorem C41_formula : forall u c ws, time_decay u c = Ok ws ->
  length ws = length u /\
  forall k, (k < length u)%nat ->
    let share := qsum (firstn (S k) u) / qsum u in
    (0 <= c -> nth k ws 0 == c + (1 - c) * share) /\
    (c < 0 -> nth k ws 0 == Qmax ((share + c) / (1 + c)) 0).
Proof.
  intros u c ws H. destruct (td_value u c ws H) as [Hl [_ [_ Hv]]]. split; [exact Hl|]. intros k Hk.
  specialize (Hv k Hk). destruct (Qleb_spec 0 c); split; intro; try exact Hv; lra.
Qed.
Theorem C41_shape : forall u c ws, (forall x, In x u -> 0 < x) -> time_decay u c = Ok ws ->
  nth (length u - 1) ws 0 == 1 /\
  (forall i j, (i <= j < length u)%nat -> nth i ws 0 <= nth j ws 0) /\
  (forall k, (k < length u)%nat -> Qmax c 0 <= nth k ws 0 <= 1) /\
  (c < 0 -> forall k, (k < length u)%nat -> (nth k ws 0 == 0 <-> qsum (firstn (S k) u) / qsum u <= - c)) /\
  (c == 1 -> forall k, (k < length u)%nat -> nth k ws 0 == 1).
Proof. intros u c ws Hp H. exact (td_shape u c Hp ws H). Qed.
Theorem C41_raises : forall u c, u <> [] ->
  (time_decay u c = Raise ValueError <-> c < -1 \/ 1 < c \/ qsum u == 0) /\
  (time_decay u c = Raise ZeroDivisionError <-> c == -1 /\ ~ qsum u == 0) /\
  (forall e, time_decay u c = Raise e -> e = ValueError \/ e = ZeroDivisionError).
Proof. exact td_raises. Qed.
(** "Newest observation assigned with 1.0 and oldest with last_weight": the oldest event's
    weight is above last_weight whenever there is decay. *)
Theorem C41_oldest_weight_refuted : exists u c ws, (forall x, In x u -> 0 < x) /\ 0 <= c /\
  time_decay u c = Ok ws /\ ~ nth 0 ws 0 == c.
Proof.
  exists [1; 1], 0. eexists. split; [intros x [<-|[<-|[]]]; lra|]. split; [lra|]. split; [reflexivity|].
  vm_compute. discriminate.
Qed.
(** [last_weight = -1] passes the range check and fails with a division by zero. *)
Theorem C41_minus_one_refuted : exists u, (forall x, In x u -> 0 < x) /\ u <> [] /\
  time_decay u (-1) = Raise ZeroDivisionError.
Proof. exists [1]. split; [intros x [<-|[]]; lra|]. split; [discriminate|reflexivity]. Qed.
Example C41_example : (forall x, In x [1; 1 # 2; 1 # 2] -> 0 < x) /\
  exists ws, time_decay [1; 1 # 2; 1 # 2] (-1 # 2) = Ok ws /\ nth 0 ws 0 == 0 /\ nth 1 ws 0 == 1 # 2 /\ nth 2 ws 0 == 1.
Proof. split; [intros x [<-|[<-|[<-|[]]]]; lra|]. eexists. split; [reflexivity|]. repeat split. Qed.

(** * C42  Class balancing *)
Theorem C42_class_totals : forall labels base k c, length base = length labels ->
  n_distinct labels k -> In c labels ->
  let final := bal_final (class_balance_weights labels base) in
  (0 < class_total labels base c -> class_total labels final c == qsum base / Qnat k) /\
  (class_total labels base c <= 0 -> class_total labels final c == 0).
Proof.
  intros labels base k c Hl Hk Hc final. pose proof (distinct_unique labels k Hk) as ->.
  pose proof (class_final labels base Hl c Hc) as E. cbv zeta in E.
  destruct (Qltb_spec 0 (class_total labels base c)); split; intro; try exact E; lra.
Qed.
Theorem C42_total_and_proportions : forall labels base, length base = length labels ->
  let final := bal_final (class_balance_weights labels base) in
  length final = length labels /\
  (labels <> [] -> (forall c, In c labels -> 0 < class_total labels base c) -> qsum final == qsum base) /\
  (forall i j, (i < length labels)%nat -> (j < length labels)%nat -> nth i labels 0%Z = nth j labels 0%Z ->
     nth i final 0 * nth j base 0 == nth j final 0 * nth i base 0) /\
  ((forall x, In x base -> 0 <= x) -> forall i, (i < length labels)%nat -> 0 <= nth i final 0).
Proof.
  intros labels base Hl final. split; [exact (bal_len labels base)|].
  split; [intros Hne H; exact (bal_total labels base Hl H Hne)|].
  split; [exact (bal_prop labels base Hl)|]. intros H i Hi. exact (bal_nonneg labels base Hl i H Hi).
Qed.
(** The reported classes are the distinct labels in ascending order. *)
Theorem C42_classes : forall labels base,
  StronglySorted Z.lt (bal_classes (class_balance_weights labels base)) /\
  forall c, In c (bal_classes (class_balance_weights labels base)) <-> In c labels.
Proof. intros labels base. split; [apply zunique_sorted|intro c; apply zunique_in]. Qed.
Example C42_example :
  n_distinct [1; -1; 1]%Z 2 /\ class_total [1; -1; 1]%Z [1; 2; 3] 1 == 4 /\
  let b := class_balance_weights [1; -1; 1]%Z [1; 2; 3] in
  bal_classes b = [-1; 1]%Z /\ class_total [1; -1; 1]%Z (bal_final b) 1 == 3 /\ qsum (bal_final b) == 6.
Proof.
  split.
  { exists [-1; 1]%Z. split; [repeat constructor; simpl; intuition lia|]. split; [reflexivity|].
    intro c. simpl. intuition. }
  vm_compute. repeat split.
Qed.

(** * C43  Final weights.  raw = time decay * information weight * vertical weight *)
Theorem C43_mean_one : forall u c attr vert ws td,
  compute_final_weights u c attr vert None = Ok ws -> time_decay u c = Ok td ->
  (forall v i, vert = Some v -> (i < length u)%nat -> nth i v None <> None) ->
  let raw := fun i => nth i td 0 * match attr with Some a => nth i a 0 | None => nth i u 0 end
      * match vert with Some v => match nth i v None with Some x => x | None => 0 end | None => 1 end in
  length ws = length u /\
  exists K, 0 < K /\
    (forall i, (i < length u)%nat -> exists w, nth i ws None = Some w /\ w == raw i / K) /\
    qsum (map (fun x => match x with Some q => q | None => 0 end) ws) == Qnat (length u).
Proof. intros u c attr vert ws td H Htd Hn. exact (final_unlabelled u c attr vert None ws H td Htd Hn eq_refl). Qed.
Theorem C43_balanced : forall u c attr vert l ws td,
  compute_final_weights u c attr vert (Some l) = Ok ws -> time_decay u c = Ok td ->
  (forall v i, vert = Some v -> (i < length u)%nat -> nth i v None <> None) ->
  let raw := fun i => nth i td 0 * match attr with Some a => nth i a 0 | None => nth i u 0 end
      * match vert with Some v => match nth i v None with Some x => x | None => 0 end | None => 1 end in
  let rawl := map raw (seq 0 (length u)) in
  length ws = length u /\ (forall i, (i < length u)%nat -> nth i ws None <> None) /\
  let wl := map (fun x => match x with Some q => q | None => 0 end) ws in
  (forall k cl, n_distinct l k -> In cl l ->
     class_total l wl cl == if Qltb 0 (class_total l rawl cl) then Qnat (length u) / Qnat k else 0) /\
  ((forall cl, In cl l -> 0 < class_total l rawl cl) -> qsum wl == Qnat (length u)) /\
  (forall i j, (i < length u)%nat -> (j < length u)%nat -> nth i l 0%Z = nth j l 0%Z ->
     nth i wl 0 * raw j == nth j wl 0 * raw i).
Proof. intros u c attr vert l ws td H Htd Hn. exact (final_labelled u c attr vert (Some l) ws H td Htd Hn l eq_refl). Qed.
Example C43_example : exists ws,
  compute_final_weights [1; 1 # 2] (1 # 2) (Some [1; 3]) (Some [Some 1; Some (1 # 2)]) (Some [1; -1]%Z) = Ok ws /\
  qsum (map (fun x => match x with Some q => q | None => 0 end) ws) == 2.
Proof. eexists. split; [reflexivity|]. vm_compute. reflexivity. Qed.

(** * C75  One NaN vertical weight makes every final weight NaN *)
Theorem C75_nan_poisons : forall u c attr v labels ws i,
  compute_final_weights u c attr (Some v) labels = Ok ws ->
  (i < length u)%nat -> nth i v None = None -> ws = repeat None (length u).
Proof.
  intros u c attr v labels ws i H Hi Hn. destruct (guards u c attr (Some v) labels ws H) as [_ [_ [_ [td Htd]]]].
  apply (nan_poison u c attr (Some v) labels ws H td Htd). exists v, i. auto.
Qed.
(** ... and triple_barrier produces such weights: here for a disabled (+inf) upper barrier. *)
Theorem C75_kit_weights_finite_refuted : exists ts price tgt out,
  triple_barrier (fun x => x - 1) f64 ts price [0%nat] [tgt] (Fin 1) PInf (Some 2%Z) 0 None 0 = Ok [out] /\
  tb_touch out <> None /\ tb_weight out = None /\
  compute_final_weights [1] 1 None (Some [tb_weight out]) None = Ok [None].
Proof. exists [0; 1; 2]%Z, [1; 1; 2], 1. eexists. split; [vm_compute; reflexivity|]. repeat split. discriminate. Qed.
Example C75_example : compute_final_weights [1; 1] 1 None (Some [Some 1; None]) None = Ok [None; None].
Proof. reflexivity. Qed.

(** * C44  Event selection of the label kit *)
Theorem C44_kept_events : forall ln rnd ts price times targets bottom top vert min_close sides min_ret outs,
  compute_labels ln rnd ts price times targets bottom top vert min_close sides min_ret = Ok outs ->
  ascZ ts ->
  StronglySorted lt (map (fun o => fst (fst o)) outs) /\
  (forall k, In k (map (fun o => fst (fst o)) outs) <->
     (k < length times)%nat /\ (nth k times 0 + vert <= last ts 0)%Z) /\
  (forall k e o, In (k, e, o) outs ->
     (e < length ts)%nat /\ (nth k times 0 <= nth e ts 0)%Z /\ forall j, (j < e)%nat -> (nth j ts 0 < nth k times 0)%Z).
Proof.
  intros ln rnd ts price times targets bottom top vert mc sides min_ret outs H Ha.
  exact (cl_main ln rnd ts price times targets bottom top vert mc sides min_ret outs H Ha).
Qed.
Definition ex_lk := compute_labels (fun x => x - 1) f64 [0; 10; 20; 30; 40]%Z [1; 2; 1; 2; 1] [5; 20; 39]%Z
  [1 # 2; 1 # 2; 1 # 2] (Fin 1) (Fin 1) 15 0 None 0.
Example C44_example : ascZ [0; 10; 20; 30; 40]%Z /\
  match ex_lk with Ok outs => map (fun o => (fst o, tb_touch (snd o))) outs = [(0, 1, Some 2); (1, 2, Some 3)]%nat | Raise _ => False end.
Proof.
  split; [|vm_compute; reflexivity]. intros i j H. simpl length in H.
  destruct i as [|[|[|[|[|i]]]]], j as [|[|[|[|[|j]]]]]; simpl; lia.
Qed.

(** * C76  Which kept events get a label *)
Theorem C76_labelled_iff_partial : forall ln rnd, monotone rnd ->
  forall ts price times targets bottom top vert min_close sides min_ret outs,
  compute_labels ln rnd ts price times targets bottom top vert min_close sides min_ret = Ok outs -> ascZ ts ->
  forall k e o, In (k, e, o) outs ->
  (tb_touch o <> None <->
   exists j, (e < j < length ts)%nat /\ (rnd (nth j ts 0) <= rnd (rnd (nth e ts 0) + vert))%Z).
Proof.
  intros ln rnd Hr ts price times targets bottom top vert mc sides min_ret outs H Ha.
  exact (cl_labelled ln rnd Hr ts price times targets bottom top vert mc sides min_ret outs H Ha).
Qed.
Theorem C76_every_kept_event_labelled_refuted : exists ts price times targets vert k e o outs,
  ascZ ts /\ compute_labels (fun x => x - 1) f64 ts price times targets (Fin 1) (Fin 1) vert 0 None 0 = Ok outs /\
  In (k, e, o) outs /\ tb_touch o = None.
Proof.
  exists [0; 100]%Z, [1; 1], [0]%Z, [1], 50%Z. do 4 eexists. split.
  { intros i j H. simpl length in H. destruct i as [|[|i]], j as [|[|j]]; simpl; lia. }
  split; [vm_compute; reflexivity|]. split; [left; reflexivity|reflexivity].
Qed.

(** * C78  The evaluation window of kept events lies inside the data *)
Theorem C78_window_inside_data_refuted : exists ts price times targets vert outs k e o,
  ascZ ts /\ compute_labels (fun x => x - 1) f64 ts price times targets (Fin 1) (Fin 1) vert 0 None 0 = Ok outs /\
  In (k, e, o) outs /\ (last ts 0 < nth e ts 0 + vert)%Z.
Proof.
  exists [0; 10; 12; 14]%Z, [1; 1; 1; 1], [1]%Z, [1], 10%Z. do 4 eexists. split.
  { intros i j H. simpl length in H. destruct i as [|[|[|[|i]]]], j as [|[|[|[|j]]]]; simpl; lia. }
  split; [vm_compute; reflexivity|]. split; [left; reflexivity|vm_compute; reflexivity].
Qed.
(** It does when the event time is the time of a trade. *)
Theorem C78_window_inside_data_partial : forall ln rnd ts price times targets bottom top vert min_close sides min_ret outs k e o,
  compute_labels ln rnd ts price times targets bottom top vert min_close sides min_ret = Ok outs -> ascZ ts ->
  In (k, e, o) outs -> In (nth k times 0%Z) ts ->
  nth e ts 0%Z = nth k times 0%Z /\ (nth e ts 0 + vert <= last ts 0)%Z.
Proof.
  intros ln rnd ts price times targets bottom top vert mc sides min_ret outs k e o H Ha Hin Ht.
  destruct (C44_kept_events _ _ _ _ _ _ _ _ _ _ _ _ _ H Ha) as [_ [Hk He]].
  destruct (He k e o Hin) as [H1 [H2 H3]].
  assert (E : nth e ts 0%Z = nth k times 0%Z).
  { destruct (In_nth _ _ 0%Z Ht) as [j [Hj Ej]]. assert (~ (j < e)%nat) by (intro G; specialize (H3 j G); lia).
    pose proof (Ha e j ltac:(lia)). lia. }
  split; [exact E|]. rewrite E. apply Hk. apply in_map_iff. exists (k, e, o). auto.
Qed.
Example C78_example : match ex_lk with Ok outs => In (1, 2, snd (nth 1 outs (0%nat, 0%nat, dflt)))%nat outs | Raise _ => False end
  /\ In 20%Z [0; 10; 20; 30; 40]%Z.
Proof. split; [vm_compute; right; left; reflexivity|simpl; auto]. Qed.

(** * C77  Event preprocessing *)
Theorem C77_rows_kept : forall cols target min_ret bottom top kept,
  preprocess_features cols target min_ret bottom top = Ok kept ->
  StronglySorted lt kept /\ kept <> [] /\
  forall i, In i kept <-> (i < length target)%nat /\ started cols i /\
    (exists x, nth i target None = Some x /\ q_le_ext min_ret (emulq (Qabs x) (emax bottom top)) = true).
Proof.
  intros cols target min_ret bottom top kept H. destruct (preprocess_ok _ _ _ _ _ _ H) as [H1 [H2 H3]].
  split; [exact H1|]. split; [exact H2|]. intro i. rewrite H3. unfold target_ok.
  split; intros [A [B C]]; (split; [exact A|split; [exact B|]]).
  - destruct (nth i target None) as [x|]; [eauto|discriminate].
  - destruct C as [x [-> C]]. exact C.
Qed.
(** The only failures are "nothing but NaN" and "nothing left": the NaN check that follows
    the filter can never fire. *)
Theorem C77_raises : forall cols target min_ret bottom top e,
  preprocess_features cols target min_ret bottom top = Raise e ->
  e = ValueError /\
  ((forall c i, In c cols -> (i < length c)%nat -> nth i c None = None) \/
   forall i x, (i < length target)%nat -> started cols i -> nth i target None = Some x ->
     q_le_ext min_ret (emulq (Qabs x) (emax bottom top)) = false).
Proof.
  intros cols target min_ret bottom top e H. destruct (preprocess_raise _ _ _ _ _ _ H) as [H1 H2].
  split; [exact H1|]. destruct H2 as [H2|H2]; [left; exact H2|right].
  intros i x Hi Hs Hx. specialize (H2 i Hi Hs). rewrite Hx in H2. exact H2.
Qed.
Example C77_example : preprocess_features [[None; Some 1; None; Some 2]; [Some 1; Some 1; Some 3; Some 1]]
    [None; Some 1; None; Some 2] 2 (Fin 1) (Fin 1) = Ok [3]%nat.
Proof. reflexivity. Qed.

Print Assumptions C39_concurrency.
Print Assumptions C39_uniqueness.
Print Assumptions C39_total.
Print Assumptions C39_overflow_refuted.
Print Assumptions C40_attribution.
Print Assumptions C40_normalised.
Print Assumptions C40_raises.
Print Assumptions C41_formula.
Print Assumptions C41_shape.
Print Assumptions C41_raises.
Print Assumptions C41_oldest_weight_refuted.
Print Assumptions C41_minus_one_refuted.
Print Assumptions C42_class_totals.
Print Assumptions C42_total_and_proportions.
Print Assumptions C42_classes.
Print Assumptions C43_mean_one.
Print Assumptions C43_balanced.
Print Assumptions C75_nan_poisons.
Print Assumptions C75_kit_weights_finite_refuted.
Print Assumptions C44_kept_events.
Print Assumptions C76_labelled_iff_partial.
Print Assumptions C76_every_kept_event_labelled_refuted.
Print Assumptions C78_window_inside_data_refuted.
Print Assumptions C78_window_inside_data_partial.
Print Assumptions C77_rows_kept.
Print Assumptions C77_raises.
