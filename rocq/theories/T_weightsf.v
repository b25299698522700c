(** T_weightsf.v -- property theorems C184 (finmlkit/label/weights.py and SampleWeights.compute_final_weights in
    float64). *)
From Verif Require Import Base M_weights S_weights P_weights P_weights2 M_float M_float2 M_float6 S_float S_sumf P_float P_float9 P_float12 P_sumf P_weightsf P_weightsf2 P_weightsf3.
Open Scope Q_scope.

(** * C184  Sample weights in float64 *)
(** Uniqueness: whatever the order of the additions in np.mean, m + 2 roundings for a label over m positions; the
    value stays in (0, 1] and is 1 exactly for the labels that overlap with no other. *)
Theorem C184_uniqueness : forall sumf n events touches ws conc, sums_somehow sumf ->
  average_uniqueness n events touches = Ok (ws, conc) ->
  exists wsf, average_uniqueness_f sumf n events touches = Ok (wsf, conc) /\ length wsf = length events /\
  forall i, (i < length events)%nat -> (nth i events 0 <= nth i touches 0)%nat -> (nth i touches 0 < n)%nat ->
    (forall j, (nth i events 0 <= j <= nth i touches 0)%nat -> (Z.of_nat (overlap events touches j) < 32768)%Z) ->
    let m := (S (nth i touches 0) - nth i events 0)%nat in
    exists u uf, nth i ws NaN = Fin u /\ nth i wsf NaN = Fin uf /\ within u53 (m + 2) uf u /\
      ((Z.of_nat m <= 2 ^ 52)%Z -> 0 < uf <= 1 /\ (uf == 1 <-> u == 1)).
Proof. exact uniqueness_f. Qed.

(** Return attribution: the contribution of position j, with the logarithm float64 computes of the rounded quotient. *)
Definition attr_part (lnf : Q -> option Q) (close : list Q) (conc : list Z) (j : nat) : Q :=
  match (if (0 <? j)%nat && negb (Qeqb (nth (j - 1) close 0) 0) then lnf (r53 (nth j close 0 / nth (j - 1) close 0)) else None) with
  | Some r => if (0 <? nth j conc 0)%Z then r / inject_Z (nth j conc 0%Z) else 0
  | None => 0
  end.
Lemma attr_part_term lnf close conc j : attr_part lnf close conc j = attr_term (fun q => lnf (r53 q)) close conc j.
Proof.
  unfold attr_part, attr_term, log_ret. destruct j as [|j]; [reflexivity|]. cbn [Nat.ltb Nat.leb andb].
  replace (S j - 1)%nat with j by lia. destruct (Qeqb (nth j close 0) 0); reflexivity.
Qed.
Theorem C184_attribution : forall sumf lnf events touches close conc ws,
  return_attribution_f sumf lnf events touches close conc false = Ok ws ->
  length ws = length events /\
  forall i, (i < length events)%nat ->
    let s := nth i events 0%nat in let e := nth i touches 0%nat in
    0 <= nth i ws 0 /\
    Qabs (nth i ws 0 - Qabs (ssum (attr_part lnf close conc) s (S e)))
      <= ee (S (S e - s)) * ssum (fun j => Qabs (attr_part lnf close conc j)) s (S e).
Proof.
  intros sumf lnf events touches close conc ws H. inversion H; subst; clear H. split; [now rewrite map_length, seq_length|].
  intros i Hi s e. rewrite nth_map_seq by exact Hi. fold s e. split; [apply Qabs_nonneg|].
  pose proof (attr_raw_near lnf close conc s e) as N. apply near_ee in N. destruct N as [_ N].
  assert (E1 : attr_raw (fun q => lnf (r53 q)) close conc s e == Qabs (ssum (attr_part lnf close conc) s (S e))).
  { rewrite attr_raw_spec. apply Qabs_wd. apply ssum_ext. intros j _. now rewrite attr_part_term. }
  assert (E2 : ssum (fun j => Qabs (attr_part lnf close conc j)) s (S e) == ssum (fun j => Qabs (attr_term (fun q => lnf (r53 q)) close conc j)) s (S e)).
  { apply ssum_ext. intros j _. now rewrite attr_part_term. }
  rewrite E2, <- E1. exact N.
Qed.
(** Normalised: in proportion to the raw weights and with total n up to 2 n + 2 roundings; an exception exactly when
    every raw weight is 0. *)
Theorem C184_normalised : forall sumf lnf events touches close conc raw, sums_somehow sumf ->
  return_attribution_f sumf lnf events touches close conc false = Ok raw ->
  let n := length events in
  ((exists e, return_attribution_f sumf lnf events touches close conc true = Raise e) <-> forall i, (i < n)%nat -> nth i raw 0 == 0) /\
  forall ws, return_attribution_f sumf lnf events touches close conc true = Ok ws ->
    length ws = n /\ within u53 (2 * n + 2) (qsum ws) (Qnat n) /\
    forall i, (i < n)%nat -> 0 <= nth i ws 0 /\ within u53 (2 * n + 2) (nth i ws 0) (nth i raw 0 * Qnat n / qsum raw).
Proof.
  intros sumf lnf events touches close conc raw HS H n. injection H as E. fold n in E.
  destruct (attr_norm_f sumf HS lnf events touches close conc) as [A B]. fold n in A, B. rewrite E in A, B.
  assert (NN : forall x, In x raw -> 0 <= x) by (rewrite <- E; apply (raw_f_nonneg lnf events touches close conc)).
  assert (LR : length raw = n) by (rewrite <- E; now rewrite map_length, seq_length).
  split.
  - split.
    + intros [e He] i Hi. destruct (Qlt_le_dec 0 (qsum raw)) as [P|P]; [destruct (A P) as (w & Hw & _); rewrite Hw in He; discriminate|]. apply (qsum_zero_all raw NN P). apply nth_In. lia.
    + intro Hz. exists ValueError. apply B. assert (X : qsum raw == 0); [|lra]. rewrite qsum_nth. rewrite LR. transitivity (qsum (map (fun _ : nat => 0) (seq 0 n))); [apply qsum_map_ext; intros i Hi; apply in_seq in Hi; apply Hz; lia|]. rewrite qsum_map_const. ring.
  - intros ws Hw. destruct (Qlt_le_dec 0 (qsum raw)) as [P|P]; [|rewrite (B P) in Hw; discriminate]. destruct (A P) as (w & Hw' & L & W & T). rewrite Hw in Hw'. injection Hw' as <-. auto.
Qed.

(** Time decay: for every float64 last_weight above -1 the newest weight is exactly 1, the weights are in order and in
    [0, 1]; with no decay all are exactly 1; the error is that of 3 n + 8 roundings of the intercept and the span. *)
Theorem C184_decay : forall u lw, (forall x, In x u -> 0 <= x) -> 0 < qsum u -> fl 53 lw -> -1 < lw <= 1 ->
  let n := length u in
  exists ws wsf, time_decay u lw = Ok ws /\ time_decay_f u lw = Ok wsf /\ length wsf = n /\ nth (n - 1) wsf 0 == 1 /\
    (forall i j, (i <= j < n)%nat -> 0 <= nth i wsf 0 /\ nth i wsf 0 <= nth j wsf 0 /\ nth j wsf 0 <= 1) /\
    (lw == 1 -> forall k, (k < n)%nat -> nth k wsf 0 == 1) /\
    (forall k, (k < n)%nat -> Qabs (nth k wsf 0 - nth k ws 0)
       <= ee (3 * n + 8) * (1 + 2 * (if Qleb 0 lw then 1 - lw else 1 / (1 + lw)))).
Proof. exact decay_f_thm. Qed.
(** The oldest events that a negative last_weight is to erase: an event at the boundary keeps a positive weight. *)
Theorem C184_erased_refuted : exists u lw ws wsf, (forall x, In x u -> 0 < x <= 1) /\ fl 53 lw /\ -1 < lw < 0 /\
  time_decay u lw = Ok ws /\ time_decay_f u lw = Ok wsf /\ nth 0 ws 0 == 0 /\ 0 < nth 0 wsf 0.
Proof.
  exists [1 # 2; 1 # 2; 1], (- (1 # 4)). do 2 eexists. split; [intros x [<-|[<-|[<-|[]]]]; lra|]. split; [exists (-1)%Z, (-2)%Z; split; [vm_compute; reflexivity|reflexivity]|].
  split; [lra|]. split; [vm_compute; reflexivity|]. split; [vm_compute; reflexivity|]. split; vm_compute; reflexivity.
Qed.

(** Class balance: the classes are the same; every weight and every class total is that of 4 n + 4 roundings. *)
Theorem C184_balance : forall sumf labels base, sums_somehow sumf -> length base = length labels -> (forall x, In x base -> 0 <= x) ->
  let n := length labels in
  let bf := class_balance_weights_f sumf labels base in
  let b := class_balance_weights labels base in
  bal_classes bf = bal_classes b /\ length (bal_final bf) = n /\
  (forall i, (i < n)%nat -> 0 <= nth i (bal_final bf) 0 /\ within u53 (4 * n + 4) (nth i (bal_final bf) 0) (nth i (bal_final b) 0)) /\
  forall k c, n_distinct labels k -> In c labels ->
    (0 < class_total labels base c -> within u53 (4 * n + 4) (class_total labels (bal_final bf) c) (qsum base / Qnat k)) /\
    (class_total labels base c <= 0 -> class_total labels (bal_final bf) c == 0).
Proof.
  intros sumf labels base HS Hl Hb n bf b. split; [reflexivity|]. split; [apply bal_f_len|]. split.
  - intros i Hi. destruct (bal_f_nth sumf HS labels base Hl Hb i Hi) as [P W]. split; [exact (within_nonneg u53 u53_bounds _ _ _ W P)|exact W].
  - intros k c Hk Hc. rewrite (distinct_unique labels k Hk). now apply (bal_f_total sumf HS labels base Hl Hb c Hc).
Qed.

(** Final weights: in proportion to decay * information * vertical weight and with mean 1, up to 8 n + 15 roundings;
    with labels every class has an equal share, up to 12 n + 19. *)
Theorem C184_final : forall sumf u lw attr vert td, sums_somehow sumf ->
  (forall x, In x u -> 0 <= x) -> 0 < qsum u -> fl 53 lw -> -1 < lw <= 1 ->
  (forall a, attr = Some a -> length a = length u /\ 0 < qsum a /\ forall x, In x a -> 0 <= x) ->
  (forall v, vert = Some v -> length v = length u /\ forall x, In x v -> 0 <= x) ->
  time_decay_f u lw = Ok td ->
  let n := length u in
  let raw i := nth i td 0 * match attr with Some a => nth i a 0 | None => nth i u 0 end * match vert with Some v => nth i v 0 | None => 1 end in
  let rawl := map raw (seq 0 n) in
  (0 < match attr with Some a => nth (n - 1) a 0 | None => nth (n - 1) u 0 end -> (forall v, vert = Some v -> 0 < nth (n - 1) v 0) -> 0 < qsum rawl) /\
  (qsum rawl <= 0 -> forall labels, (forall l, labels = Some l -> length l = n) -> compute_final_weights_f sumf u lw attr vert labels = Raise ValueError) /\
  (0 < qsum rawl ->
    (exists ws, compute_final_weights_f sumf u lw attr vert None = Ok ws /\ length ws = n /\ within u53 (8 * n + 15) (qsum ws) (Qnat n) /\
      forall i, (i < n)%nat -> 0 <= nth i ws 0 /\ within u53 (8 * n + 15) (nth i ws 0) (raw i * Qnat n / qsum rawl)) /\
    forall l, length l = n -> exists ws, compute_final_weights_f sumf u lw attr vert (Some l) = Ok ws /\ length ws = n /\
      forall k c, n_distinct l k -> In c l ->
        (0 < class_total l rawl c -> within u53 (12 * n + 19) (class_total l ws c) (Qnat n / Qnat k)) /\
        (class_total l rawl c <= 0 -> class_total l ws c == 0)).
Proof.
  intros sumf u lw attr vert td HS Hu HT Fl Hlw Ha Hv Htd n raw rawl. split; [|split].
  - exact (newest_gives_pos sumf u lw attr vert Hu HT Fl Hlw Ha Hv td Htd).
  - intros H labels Hl. exact (final_raises sumf HS u lw attr vert Hu HT Fl Hlw Ha Hv td Htd labels Hl H).
  - intro H. split.
    + destruct (final_plain sumf HS u lw attr vert Hu HT Fl Hlw Ha Hv td Htd H) as (ws & E & L & W & T). exists ws. auto.
    + exact (final_classes sumf HS u lw attr vert Hu HT Fl Hlw Ha Hv td Htd H).
Qed.

(** Adding from the left is one of the orders, adding in pairs another, and they differ. *)
Definition pairs_first (l : list Q) : Q :=
  match l with [a; b; c; d] => r53 (r53 (a + b) + r53 (c + d)) | _ => fsum l end.
Lemma fsum_somehow : sums_somehow fsum.
Proof. intro l. apply fsum_some_order. Qed.
Lemma pairs_somehow : sums_somehow pairs_first.
Proof.
  intro l. unfold pairs_first. destruct l as [|a [|b [|c [|d [|e l]]]]]; try apply fsum_some_order.
  change [a; b; c; d] with ([a; b] ++ [c; d]). apply so_add; [discriminate|discriminate| |]; [change [a; b] with ([a] ++ [b])|change [c; d] with ([c] ++ [d])]; apply so_add; try discriminate; apply so_one.
Qed.
Definition ex_u : list Q := [1; 1 # 3; 1 # 3; 1 # 3].
Example C184_example :
  ~ pairs_first (map (fun x => r53 x) ex_u) == fsum (map (fun x => r53 x) ex_u) /\
  (exists ws, average_uniqueness_f pairs_first 5 [0; 1; 4]%nat [3; 3; 4]%nat = Ok (ws, [1; 2; 2; 2; 1]%Z) /\
     nth 1 ws NaN = Fin (r53 (1 # 2)) /\ nth 2 ws NaN = Fin (r53 1)) /\
  (exists ws, return_attribution_f fsum (fun x => Some (x - 1)) [0; 1]%nat [1; 2]%nat [3; 4; 3] [1; 2; 1]%Z true = Ok ws /\
     0 < nth 0 ws 0 /\ 0 < nth 1 ws 0 /\ ~ qsum ws == 0) /\
  (exists ws, time_decay_f (map r53 ex_u) (r53 (1 # 10)) = Ok ws /\ nth 3 ws 0 == 1 /\ 0 < nth 0 ws 0 /\ nth 0 ws 0 < nth 1 ws 0) /\
  (exists ws, time_decay_f (map r53 ex_u) (- (1 - two (-53))) = Ok ws /\ nth 3 ws 0 == 1 /\ nth 2 ws 0 == 0) /\
  (exists ws, compute_final_weights_f pairs_first (map r53 ex_u) (r53 (1 # 10)) (Some [1; 2; 3; 4]) (Some [1; 1; 1; r53 (1 # 3)]) (Some [1; -1; 1; -1]%Z) = Ok ws /\
     Qabs (qsum ws - 4) <= ee 67 * 4 /\ 0 < nth 0 ws 0).
Proof.
  split; [vm_compute; discriminate|]. split; [eexists; split; [vm_compute; reflexivity|split; vm_compute; reflexivity]|].
  split; [eexists; split; [vm_compute; reflexivity|repeat split; vm_compute; congruence]|].
  split; [eexists; split; [vm_compute; reflexivity|repeat split; vm_compute; congruence]|].
  split; [eexists; split; [vm_compute; reflexivity|repeat split; vm_compute; congruence]|].
  eexists. split; [vm_compute; reflexivity|]. split; vm_compute; congruence.
Qed.

Print Assumptions C184_uniqueness.
Print Assumptions C184_attribution.
Print Assumptions C184_normalised.
Print Assumptions C184_decay.
Print Assumptions C184_erased_refuted.
Print Assumptions C184_balance.
Print Assumptions C184_final.
