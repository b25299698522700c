(** T_volat2.v -- realised volatility, Bollinger bands, ATR, variance ratio
    (feature/core/volatility.py). *)
From Coq Require Import Qpower.
From Verif Require Import Base M_features S_features P_weights P_features P_features2 M_volat S_volat P_volat T_volat.
Open Scope Q_scope.

(* ------------------------------------------------------------------ *)
(** ** C102: realised volatility *)
Lemma sq_vals l : qsum (map (fun x => match x with Some v => v * v | None => 0 end) l) == qsum (map (fun x => x * x) (vals l)).
Proof.
  induction l as [|[x|] l IH]; cbn [map]; [reflexivity| |]; rewrite qsum_cons, IH.
  - change (vals (Some x :: l)) with (x :: vals l). cbn [map]. now rewrite qsum_cons.
  - change (vals (None :: l)) with (vals l). ring.
Qed.
Theorem C102_realized_vol : forall sqrt r n smp i, (1 <= n)%nat -> (i < length r)%nat ->
  let w := vals (window (fun j => nth j r None) i n) in
  let out := realized_vol sqrt r n smp in
  length out = length r /\
  (nth i out None = None <-> (i + 1 < n)%nat \/ (length w < 2)%nat) /\
  ((n <= i + 1)%nat -> (2 <= length w)%nat -> exists v, nth i out None = Some (sqrt v) /\ 0 <= v /\
     v * (Qnat (length w) - (if smp then 1 else 0)) == qsum (map (fun x => x * x) w)).
Proof.
  intros sqrt r n smp i Hn Hi w out. unfold out, realized_vol. rewrite map_length, seq_length. split; [auto|].
  rewrite nth_map_seq by auto. destruct (Nat.ltb_spec (i + 1) n) as [K|K].
  { split; [split; auto|]. intros; lia. }
  cbv zeta. rewrite olast_window by lia. fold w.
  destruct (valid_sum_eq (window (fun j => nth j r None) i n)) as [E1 _]. fold w in E1. rewrite E1.
  destruct (Nat.ltb_spec 1 (length w)) as [K2|K2].
  2:{ split; [split; auto; intros _; right; lia|]. intros; lia. }
  split; [split; [discriminate|lia]|]. intros _ _. eexists. split; [reflexivity|]. rewrite sq_vals. fold w.
  assert (N : 0 <= qsum (map (fun x => x * x) w)).
  { apply qsum_nonneg. intros y Hy. apply in_map_iff in Hy. destruct Hy as [x [<- _]]. destruct (Qlt_le_dec x 0); nra. }
  set (S_ := qsum _) in *. clearbody S_.
  assert (D : Qnat (if smp then (length w - 1)%nat else length w) == Qnat (length w) - (if smp then 1 else 0)).
  { destruct smp; [|ring]. assert (E : Qnat (length w) == Qnat (length w - 1) + 1).
    { rewrite <- Qnat_S. replace (S (length w - 1)) with (length w) by lia. reflexivity. } rewrite E. ring. }
  assert (P : 0 < Qnat (if smp then (length w - 1)%nat else length w)) by (apply Qnat_pos; destruct smp; lia).
  split; [apply Qle_shift_div_l; lra|]. rewrite <- D. field. lra.
Qed.
Example C102_example : map (option_map Qred) (realized_vol (fun q => q) [Some 1; Some 2; None; None; Some 3; Some 1] 3 true) =
    [None; None; Some 5; None; None; Some 10] /\
  map (option_map Qred) (realized_vol (fun q => q) [Some 1; Some 2; Some 2] 3 false) = [None; None; Some 3].
Proof. vm_compute. auto. Qed.

(* ------------------------------------------------------------------ *)
(** ** C103: Bollinger percent b *)
Lemma bb_first (close : list Q) : forall l a b,
  let s := fold_left (fun s j => (fst s + qn close j, snd s + qn close j * qn close j)) l (a, b) in
  fst s == a + qsum (map (at_ close) l) /\ snd s == b + qsum (map (fun j => at_ close j * at_ close j) l).
Proof.
  induction l as [|j l IH]; intros a b; cbv zeta; cbn [fold_left map].
  - change (qsum []) with 0. cbn [fst snd]. split; ring.
  - cbn [fst snd]. destruct (IH (a + qn close j) (b + qn close j * qn close j)) as [-> ->]. rewrite !qsum_cons.
    change (qn close j) with (at_ close j). split; ring.
Qed.
Lemma bb_sums_eq close n k : (1 <= n)%nat ->
  fst (bb_sums close n k) == qsum (window (at_ close) (n - 1 + k) n) /\
  snd (bb_sums close n k) == qsum (window (fun j => at_ close j * at_ close j) (n - 1 + k) n).
Proof.
  intro Hn. induction k as [|k [I1 I2]].
  - cbn [bb_sums]. destruct (bb_first close (seq 0 n) 0 0) as [-> ->]. unfold window.
    replace (n - 1 + 0 + 1 - n)%nat with 0%nat by lia. split; ring.
  - cbn [bb_sums fst snd]. replace (n - 1 + S k)%nat with (n + k)%nat by lia. rewrite !window_slide by auto. rewrite I1, I2.
    replace (n + k - n)%nat with k by lia. change (qn close) with (at_ close). split; ring.
Qed.
Theorem C103_percent_b : forall sqrt close n k i, (2 <= n)%nat -> (i < length close)%nat ->
  exists out, bollinger_percent_b sqrt close n k = Ok out /\ length out = length close /\
  ((i + 1 < n)%nat -> nth i out None = None) /\
  ((n <= i + 1)%nat ->
     let xs := window (at_ close) i n in
     exists m v, is_mean m xs /\ is_var v xs 1 /\ 0 <= v /\
       (k * sqrt v <= 0 -> nth i out None = None) /\
       (0 < k * sqrt v -> exists p, nth i out None = Some p /\
          p * ((m + k * sqrt v) - (m - k * sqrt v)) == at_ close i - (m - k * sqrt v) /\
          (p == 1 # 2 <-> at_ close i == m) /\ (p < 0 <-> at_ close i < m - k * sqrt v) /\ (1 < p <-> m + k * sqrt v < at_ close i))).
Proof.
  intros sqrt close n k i Hn Hi. unfold bollinger_percent_b.
  destruct (Nat.ltb_spec (length close) n) as [K|K].
  { eexists. split; [reflexivity|]. rewrite repeat_length. split; [auto|]. split; [intros _; apply nth_repeat|]. intro. lia. }
  destruct (Nat.eqb_spec n 1); [lia|]. eexists. split; [reflexivity|]. rewrite map_length, seq_length. split; [auto|].
  rewrite nth_map_seq by auto. destruct (Nat.ltb_spec (i + 1) n) as [K2|K2]; [split; [auto|intro; lia]|].
  split; [intro; lia|]. intros _. cbv zeta. set (xs := window (at_ close) i n). destruct (bb_sums_eq close n (i + 1 - n) ltac:(lia)) as [E1 E2].
  replace (n - 1 + (i + 1 - n))%nat with i in E1, E2 by lia. fold xs in E1.
  assert (E3 : qsum (window (fun j => at_ close j * at_ close j) i n) == qsum (map (fun x => x * x) xs)).
  { unfold xs, window. rewrite map_map. reflexivity. }
  rewrite E3 in E2. set (s := bb_sums close n (i + 1 - n)) in *. clearbody s.
  assert (Lx : length xs = n) by (unfold xs; apply window_length).
  assert (Hne : xs <> []) by (intro H; rewrite H in Lx; simpl in Lx; lia).
  assert (Pn : 0 < Qnat n) by (apply Qnat_pos; lia).
  assert (Pn1 : 0 < Qnat n - 1). { assert (Qnat 2 <= Qnat n) by (apply Qnat_le; auto). change (Qnat 2) with 2 in H. lra. }
  unfold bb_value. set (m := fst s / Qnat n). set (v := (snd s - Qnat n * m * m) / (Qnat n - 1)).
  assert (Em : m == qsum xs / Qnat (length xs)) by (unfold m; rewrite E1, Lx; reflexivity).
  destruct (is_var_formula xs 1 v Hne ltac:(lia)) as [Hv Nv].
  { rewrite <- Em. unfold v. rewrite E2, Lx. assert (EZ : inject_Z (Z.of_nat n - 1) == Qnat n - 1).
    { unfold Qnat, Z.sub. rewrite inject_Z_plus. reflexivity. } rewrite EZ. field. lra. }
  cbv zeta. rewrite pmax_zero_r by auto. set (ks := k * sqrt v). clearbody v. clear E1.
  exists m, v. split; [apply (is_mean_compat _ _ _ (Qeq_sym _ _ Em)), mean_div; auto|]. split; [auto|]. split; [auto|].
  fold ks. clearbody ks m. split; intro H.
  - destruct (Qltb_spec (m - ks) (m + ks)); [lra|auto].
  - destruct (Qltb_spec (m - ks) (m + ks)); [|lra]. eexists. split; [reflexivity|].
    change (qn close i) with (at_ close i). set (c := at_ close i). clearbody c.
    set (p := (c - (m - ks)) / (m + ks - (m - ks))).
    assert (Ep : p * (2 * ks) == c - (m - ks)) by (unfold p; field; lra). clearbody p.
    split; [rewrite <- Ep; ring|]. split; [|split]; split; intro G; try nra.
Qed.
Theorem C103_window_one : forall sqrt close k, close <> [] -> bollinger_percent_b sqrt close 1 k = Raise ZeroDivisionError.
Proof. intros sqrt close k H. unfold bollinger_percent_b. destruct close; [contradiction|reflexivity]. Qed.
Example C103_example : match bollinger_percent_b (fun q => q / 4) [1; 5; 3; 7; 7; 7] 3 2 with Ok o => map (option_map Qred) o | _ => [] end =
    [None; None; Some (1 # 2); Some 1; Some (3 # 4); None].
Proof. vm_compute. reflexivity. Qed.

(* ------------------------------------------------------------------ *)
(** ** C104: average true range *)
Lemma atr_ok high low close tr n ema nrm : true_range high low close = Ok tr ->
  exists out, atr high low close n ema nrm = Ok out /\ length out = length high /\
    forall i, (i < length high)%nat -> nth i out None =
      (let a := if ((length high <? n) || (i + 1 <? n))%nat%bool then None
                else if ema then atr_ema tr n (i + 1 - n) else atr_sma high low close tr n i in
       if nrm then atr_norm high low i a else a).
Proof.
  intro E. unfold atr. rewrite E. eexists. split; [reflexivity|]. rewrite map_length, seq_length. split; [auto|].
  intros i Hi. now rewrite nth_map_seq by auto.
Qed.
(** Simple average: mean of the valid true ranges of the window, except for index 2. *)
Theorem C104_sma_partial : forall high low close tr n i, true_range high low close = Ok tr -> (1 <= n)%nat -> (i < length high)%nat ->
  exists out, atr high low close n false false = Ok out /\
  let w := vals (window (fun j => nth j tr None) i n) in
  ((i + 1 < n)%nat -> nth i out None = None) /\
  ((n <= i + 1)%nat -> (i = 2%nat -> nth i high None <> None \/ nth i low None <> None \/ nth i close None <> None) ->
     (nth i out None = None <-> w = []) /\ (forall a, nth i out None = Some a -> is_mean a w)).
Proof.
  intros high low close tr n i E Hn Hi. destruct (atr_ok high low close tr n false false E) as [out [E2 [_ H]]].
  assert (Lt : length tr = length high).
  { unfold true_range in E. destruct (_ && _)%bool; [|discriminate]. injection E as <-. now rewrite map_length, seq_length. }
  exists out. split; [auto|]. cbv zeta. rewrite (H i Hi). cbv zeta.
  destruct (Nat.ltb_spec (length high) n) as [K|K]; cbn [orb].
  { split; [auto|]. intro. lia. }
  destruct (Nat.ltb_spec (i + 1) n) as [K2|K2]; [split; [auto|intro; lia]|]. split; [intro; lia|]. intros _ Hs.
  assert (EA : atr_sma high low close tr n i = valid_mean (olast tr i n)).
  { unfold atr_sma, known. destruct (Nat.eqb_spec i 2) as [E3|E3]; [|destruct (nth i high None), (nth i low None), (nth i close None); auto].
    specialize (Hs E3). destruct (nth i high None), (nth i low None), (nth i close None); auto.
    destruct Hs as [?|[?|?]]; contradiction. }
  rewrite EA, olast_window by lia. apply valid_mean_spec.
Qed.
(** The special case: at index 2 a completely missing bar gives NaN although the
    window holds valid true ranges, at any other index it does not. *)
Theorem C104_index_two_refuted : exists high low close tr out,
  true_range high low close = Ok tr /\ atr high low close 2 false false = Ok out /\
  vals (window (fun j => nth j tr None) 2 2) <> [] /\ nth 2 out None = None /\
  vals (window (fun j => nth j tr None) 5 2) <> [] /\ nth 5 high None = None /\ nth 5 low None = None /\ nth 5 close None = None /\
  nth 5 out None <> None.
Proof.
  exists [Some 5; Some 6; None; Some 6; Some 7; None], [Some 3; Some 5; None; Some 4; Some 5; None], [Some 4; Some 5; None; Some 5; Some 6; None].
  eexists. eexists. split; [reflexivity|]. split; [reflexivity|]. vm_compute. repeat split; discriminate.
Qed.
(** Wilder average: closed form while all true ranges are valid; one NaN is kept for good. *)
Lemma atr_ema_some tr n (x : nat -> Q) k a0 : (1 <= n)%nat -> valid_mean (firstn n tr) = Some a0 ->
  (forall j, (1 <= j <= k)%nat -> nth (n - 1 + j) tr None = Some (x j)) ->
  exists v, atr_ema tr n k = Some v /\
    let r := (Qnat n - 1) / Qnat n in
    v == r ^ Z.of_nat k * a0 + qsum (map (fun j => r ^ Z.of_nat (k - j) * (x j / Qnat n)) (seq 1 k)).
Proof.
  intros Hn E0. assert (Pn : 0 < Qnat n) by now apply Qnat_pos. induction k as [|k IH]; intro Hx.
  - exists a0. split; [exact E0|]. cbv zeta. cbn [seq map]. change (qsum []) with 0. change (Z.of_nat 0) with 0%Z. change (((Qnat n - 1) / Qnat n) ^ 0) with 1. ring.
  - destruct IH as [v [E Hv]]; [intros; apply Hx; lia|]. cbn [atr_ema]. unfold known. rewrite (Hx (S k)) by lia. rewrite E.
    eexists. split; [reflexivity|]. cbv zeta in *. set (r := (Qnat n - 1) / Qnat n) in *.
    rewrite seq_S, map_app, qsum_app. cbn [map]. rewrite qsum_cons. change (qsum []) with 0. replace (1 + k)%nat with (S k) by lia.
    rewrite Nat.sub_diag. change (Z.of_nat 0) with 0%Z. change (r ^ 0) with 1.
    rewrite (qsum_map_ext _ (fun j => r * (r ^ Z.of_nat (k - j) * (x j / Qnat n)))).
    2:{ intros j Hj. apply in_seq in Hj. replace (S k - j)%nat with (S (k - j)) by lia. rewrite pow_S. ring. }
    rewrite qsum_map_scal, pow_S. rewrite Hv. set (G := qsum _). clearbody G. set (R := r ^ Z.of_nat k). clearbody R.
    unfold r. field. lra.
Qed.
Theorem C104_ema : forall high low close tr n i, true_range high low close = Ok tr -> (1 <= n)%nat -> (i < length high)%nat ->
  exists out, atr high low close n true false = Ok out /\
  (nth i out None = None <-> (i + 1 < n)%nat \/ vals (firstn n tr) = [] \/ exists j, (n <= j <= i)%nat /\ nth j tr None = None) /\
  (forall v x, nth i out None = Some v -> (forall j, (n <= j <= i)%nat -> nth j tr None = Some (x j)) ->
     let r := (Qnat n - 1) / Qnat n in
     let k := (i + 1 - n)%nat in
     exists a0, is_mean a0 (vals (firstn n tr)) /\
       v == r ^ Z.of_nat k * a0 + qsum (map (fun j => r ^ Z.of_nat (k - j) * (x (n - 1 + j)%nat / Qnat n)) (seq 1 k))).
Proof.
  intros high low close tr n i E Hn Hi. destruct (atr_ok high low close tr n true false E) as [out [E2 [_ H]]].
  exists out. split; [auto|]. rewrite (H i Hi). cbv zeta.
  destruct (Nat.ltb_spec (length high) n) as [K|K]; cbn [orb].
  { split; [split; auto; intros _; left; lia|discriminate]. }
  destruct (Nat.ltb_spec (i + 1) n) as [K2|K2]; [split; [split; auto|discriminate]|].
  assert (HN : forall k, atr_ema tr n k = None <-> vals (firstn n tr) = [] \/ exists j, (n <= j <= n - 1 + k)%nat /\ nth j tr None = None).
  { induction k as [|k IH]; cbn [atr_ema].
    - destruct (valid_mean_spec (firstn n tr)) as [-> _]. split; [auto|]. intros [?|[j [? _]]]; [auto|lia].
    - unfold known. destruct (nth (n - 1 + S k) tr None) as [y|] eqn:Ey.
      + destruct (atr_ema tr n k) as [a|] eqn:Ea.
        * split; [discriminate|]. intros [Hv|[j [Hj1 Hj2]]]; exfalso.
          -- destruct IH as [_ IH]. specialize (IH (or_introl Hv)). discriminate.
          -- destruct (Nat.eq_dec j (n - 1 + S k)) as [->|]; [congruence|].
             destruct IH as [_ IH]. assert (F : Some a = None) by (apply IH; right; exists j; split; [lia|auto]). discriminate F.
        * split; [|auto]. intros _. destruct IH as [IH _]. destruct (IH eq_refl) as [?|[j [? ?]]]; [auto|]. right. exists j. split; [lia|auto].
      + split; [|auto]. intros _. right. exists (n - 1 + S k)%nat. split; [lia|auto]. }
  split.
  - rewrite HN. replace (n - 1 + (i + 1 - n))%nat with i by lia. split; [auto|]. intros [?|?]; [lia|auto].
  - intros v x Ev Hx. destruct (valid_mean (firstn n tr)) as [a0|] eqn:E0.
    + destruct (atr_ema_some tr n (fun j => x (n - 1 + j)%nat) (i + 1 - n) a0 Hn E0) as [v' [Ev' Hv']].
      { intros j Hj. apply Hx. lia. }
      rewrite Ev in Ev'. injection Ev' as <-. exists a0. split; [|exact Hv'].
      apply (valid_mean_spec (firstn n tr)). auto.
    + exfalso. assert (N : atr_ema tr n (i + 1 - n) = None) by (apply HN; left; apply (valid_mean_spec (firstn n tr)); auto). congruence.
Qed.
Example C104_example :
  match atr [Some 5; Some 6; Some 8; Some 7] [Some 3; Some 5; Some 6; Some 5] [Some 4; Some 5; Some 7; Some 6] 2 false false with
  | Ok o => map (option_map Qred) o | _ => [] end = [None; Some 2; Some (5 # 2); Some (5 # 2)] /\
  match atr [Some 5; Some 6; Some 8; Some 7] [Some 3; Some 5; Some 6; Some 5] [Some 4; Some 5; Some 7; Some 6] 2 true false with
  | Ok o => map (option_map Qred) o | _ => [] end = [None; Some 2; Some (5 # 2); Some (9 # 4)].
Proof. vm_compute. auto. Qed.

(* ------------------------------------------------------------------ *)
(** ** C105: normalised ATR *)
Theorem C105_normalised : forall high low close n ema o0 i, atr high low close n ema false = Ok o0 -> (i < length high)%nat ->
  exists o1, atr high low close n ema true = Ok o1 /\
  (nth i o1 None = None <-> nth i o0 None = None) /\
  (forall a h l, nth i o0 None = Some a -> nth i high None = Some h -> nth i low None = Some l -> 0 < (h + l) / 2 ->
     exists v, nth i o1 None = Some v /\ v * ((h + l) / 2) == a) /\
  ((nth i high None = None \/ nth i low None = None \/ exists h l, nth i high None = Some h /\ nth i low None = Some l /\ (h + l) / 2 <= 0) ->
     nth i o1 None = nth i o0 None).
Proof.
  intros high low close n ema o0 i E Hi. destruct (true_range high low close) as [tr|e] eqn:Et.
  2:{ unfold atr in E. rewrite Et in E. discriminate. }
  destruct (atr_ok high low close tr n ema true Et) as [o1 [E1 [_ H1]]].
  destruct (atr_ok high low close tr n ema false Et) as [o0' [E0 [_ H0]]].
  rewrite E in E0. injection E0 as <-. exists o1. split; [auto|]. rewrite (H1 i Hi). specialize (H0 i Hi). cbv zeta in *. rewrite H0.
  set (a := if ((length high <? n) || (i + 1 <? n))%nat%bool then None
            else if ema then atr_ema tr n (i + 1 - n) else atr_sma high low close tr n i). clearbody a. clear H0 H1. unfold atr_norm, known. cbv zeta.
  destruct a as [a|]; destruct (nth i high None) as [h|], (nth i low None) as [l|].
  - destruct (Qltb_spec 0 ((h + l) / 2)) as [K|K]; (split; [split; intro; discriminate|]); split.
    + intros a' h' l' Ea Eh El Hp. injection Ea as <-. injection Eh as <-. injection El as <-. eexists. split; [reflexivity|]. field.
      intro Z0. assert (Z1 : (h + l) / 2 == 0) by (rewrite Z0; reflexivity). lra.
    + intros [?|[?|[h' [l' [Eh [El Hp]]]]]]; try discriminate. injection Eh as <-. injection El as <-. lra.
    + intros a' h' l' Ea Eh El Hp. injection Eh as <-. injection El as <-. lra.
    + auto.
  - split; [split; intro; discriminate|]. split; [intros; discriminate|auto].
  - split; [split; intro; discriminate|]. split; [intros; discriminate|auto].
  - split; [split; intro; discriminate|]. split; [intros; discriminate|auto].
  - split; [split; auto|]. split; [intros; discriminate|auto].
  - split; [split; auto|]. split; [intros; discriminate|auto].
  - split; [split; auto|]. split; [intros; discriminate|auto].
  - split; [split; auto|]. split; [intros; discriminate|auto].
Qed.
(** A missing bar inside the window leaves one value unnormalised between normalised ones. *)
Theorem C105_all_normalised_refuted : exists high low close o0 o1,
  atr high low close 2 false false = Ok o0 /\ atr high low close 2 false true = Ok o1 /\
  nth 3 o1 None <> None /\ nth 3 o1 None = nth 3 o0 None /\ nth 2 o1 None <> nth 2 o0 None /\
  (forall h, In (Some h) high -> 50 < h) /\ (forall l, In (Some l) low -> 50 < l).
Proof.
  exists [Some 105; Some 106; Some 104; None; Some 107], [Some 103; Some 105; Some 101; None; Some 105], [Some 104; Some 105; Some 102; None; Some 106].
  eexists. eexists. split; [reflexivity|]. split; [reflexivity|]. vm_compute. repeat split; try discriminate.
  - intros h H. repeat (destruct H as [H|H]; [try discriminate H; injection H as <-; reflexivity|]). destruct H.
  - intros h H. repeat (destruct H as [H|H]; [try discriminate H; injection H as <-; reflexivity|]). destruct H.
Qed.
Example C105_example : match atr [Some 5; Some 6; Some 8] [Some 3; Some 5; Some 6] [Some 4; Some 5; Some 7] 2 false true with
  | Ok o => map (option_map Qred) o | _ => [] end = [None; Some (4 # 11); Some (5 # 14)].
Proof. vm_compute. reflexivity. Qed.

(* ------------------------------------------------------------------ *)
(** ** C106: rolling variance *)
Theorem C106_rolling_variance : forall series n ddof mp i, (1 <= n)%nat -> (0 <= ddof)%Z -> (i < length series)%nat ->
  let w := vals (window (fun j => nth j series None) i n) in
  let out := nth i (rolling_variance series n ddof mp) None in
  (out = None <-> (i + 1 < n)%nat \/ (Z.of_nat (length w) < mp)%Z \/ (Z.of_nat (length w) <= ddof)%Z) /\
  (forall v, out = Some v -> is_var v w ddof /\ 0 <= v).
Proof. exact rolling_variance_spec. Qed.
Example C106_example : map (option_map Qred) (rolling_variance [Some 1; Some 3; None; Some 5; Some 5] 3 1 1) =
    [None; None; Some 2; Some 2; Some 0] /\
  map (option_map Qred) (rolling_variance [Some 1; Some 3; None; Some 5; Some 5] 3 0 3) = [None; None; None; None; None].
Proof. vm_compute. auto. Qed.

(* ------------------------------------------------------------------ *)
(** ** C107: variance ratio *)
(** One-bar return of bar j: simple or logarithmic, missing if a price is missing or
    not positive where it must be. *)
Definition ret_spec (ln : Q -> Q) (price : list (option Q)) (is_log : bool) (j : nat) (r : option Q) : Prop :=
  match r with
  | Some x => (0 < j)%nat /\ exists a b, nth j price None = Some a /\ nth (j - 1) price None = Some b /\ 0 < b /\
      if is_log then 0 < a /\ x = ln (a / b) else (1 + x) * b == a
  | None => j = 0%nat \/ nth j price None = None \/ nth (j - 1) price None = None \/
      (exists b, nth (j - 1) price None = Some b /\ b <= 0) \/
      (is_log = true /\ exists a, nth j price None = Some a /\ a <= 0)
  end.
Lemma vr_ret1_spec ln price lg j : ret_spec ln price lg j (vr_ret1 ln price lg j).
Proof.
  unfold ret_spec, vr_ret1, known. destruct j as [|j]; [auto|]. replace (S j - 1)%nat with j by lia.
  destruct (nth (S j) price None) as [a|] eqn:Ea; [|auto]. destruct (nth j price None) as [b|] eqn:Eb; [|auto].
  destruct (Qleb_spec b 0) as [K|K]; [right; right; right; left; eauto|]. destruct lg.
  - destruct (Qleb_spec a 0) as [K2|K2].
    + right; right; right; right. eauto.
    + split; [lia|]. exists a, b. auto.
  - split; [lia|]. exists a, b. repeat split; auto. field. lra.
Qed.
Theorem C107_ratio : forall ln price n ddof lg i, (1 <= n)%nat -> (0 <= ddof)%Z -> (n + 4 <= length price)%nat -> (i < length price)%nat ->
  exists r1 r4 : list (option Q), length r1 = length price /\ length r4 = length price /\
  (forall j, (j < length price)%nat -> ret_spec ln price lg j (nth j r1 None)) /\
  (forall j, (j < length price)%nat ->
     match nth j r4 None with
     | Some x => (4 <= j)%nat /\ exists a b c d, nth j r1 None = Some a /\ nth (j - 1) r1 None = Some b /\
                   nth (j - 2) r1 None = Some c /\ nth (j - 3) r1 None = Some d /\ x == a + b + c + d
     | None => (j < 4)%nat \/ exists k, (j - 3 <= k <= j)%nat /\ nth k r1 None = None
     end) /\
  let w1 := vals (window (fun j => nth j r1 None) i n) in
  let w4 := vals (window (fun j => nth j r4 None) i n) in
  let out := nth i (variance_ratio ln price n ddof lg) None in
  (forall v, out = Some v -> (n <= i + 1)%nat /\ exists v1 v4, is_var v1 w1 ddof /\ is_var v4 w4 ddof /\ 0 < v4 /\ v * v4 == 4 * v1) /\
  (out = None -> (i + 1 < n)%nat \/ (Z.of_nat (length w1) <= Z.max 0 ddof)%Z \/ (Z.of_nat (length w4) <= Z.max 0 ddof)%Z \/ is_var 0 w4 ddof).
Proof.
  intros ln price n ddof lg i Hn Hd Hl Hi. set (N := length price) in *.
  set (r1 := map (vr_ret1 ln price lg) (seq 0 N)). set (r4 := map (vr_ret4 r1) (seq 0 N)).
  assert (L1 : length r1 = N) by (unfold r1; now rewrite map_length, seq_length).
  assert (L4 : length r4 = N) by (unfold r4; now rewrite map_length, seq_length).
  exists r1, r4. split; [auto|]. split; [auto|]. split; [|split].
  - intros j Hj. unfold r1. rewrite nth_map_seq by auto. apply vr_ret1_spec.
  - intros j Hj. unfold r4. rewrite nth_map_seq by auto. unfold vr_ret4, known. destruct (Nat.ltb_spec j 4) as [K|K]; [auto|].
    destruct (nth j r1 None) as [a|] eqn:Ea; [|right; exists j; split; [lia|auto]].
    destruct (nth (j - 1) r1 None) as [b|] eqn:Eb; [|right; exists (j - 1)%nat; split; [lia|auto]].
    destruct (nth (j - 2) r1 None) as [c|] eqn:Ec; [|right; exists (j - 2)%nat; split; [lia|auto]].
    destruct (nth (j - 3) r1 None) as [d|] eqn:Ed; [|right; exists (j - 3)%nat; split; [lia|auto]].
    split; [auto|]. exists a, b, c, d. repeat split; auto.
  - intros w1 w4 out. unfold out, variance_ratio. fold N. destruct (Nat.ltb_spec N (n + 4)); [lia|]. cbv zeta.
    rewrite nth_map_seq by auto. fold r1. fold r4. unfold known.
    destruct (rolling_variance_spec r1 n ddof 1 i Hn Hd) as [A1 A2]; [lia|].
    destruct (rolling_variance_spec r4 n ddof 1 i Hn Hd) as [B1 B2]; [lia|]. cbv zeta in A1, A2, B1, B2. fold w1 in A1, A2. fold w4 in B1, B2.
    destruct (nth i (rolling_variance r1 n ddof 1) None) as [v1|].
    + destruct (nth i (rolling_variance r4 n ddof 1) None) as [v4|].
      * destruct (A2 v1 eq_refl) as [V1 N1]. destruct (B2 v4 eq_refl) as [V4 N4].
        destruct (Qltb_spec 0 v4) as [P|P].
        -- split; [|discriminate]. intros v Ev. injection Ev as <-. split.
           { destruct (Nat.lt_ge_cases (i + 1) n) as [Q0|Q0]; [|lia]. exfalso.
             assert (F : Some v1 = None) by (apply A1; auto). discriminate F. }
           exists v1, v4. repeat split; auto. field. lra.
        -- split; [discriminate|]. intros _. right. right. right. destruct V4 as [m [M1 M2]]. exists m. split; [auto|].
           assert (Z4 : v4 == 0) by lra. rewrite Z4 in M2. exact M2.
      * split; [discriminate|]. intros _. destruct (proj1 B1 eq_refl) as [?|[?|?]]; [auto|right; right; left; lia|right; right; left; lia].
    + split; [discriminate|]. intros _. destruct (proj1 A1 eq_refl) as [?|[?|?]]; [auto|right; left; lia|right; left; lia].
Qed.
(** The documented quantity, var(1 bar) / var(4 bars) with 0.25 for a random walk, is
    not what is returned: the result is four times as large. *)
Theorem C107_documented_refuted : exists price n ddof v v1 v4,
  nth 8 (variance_ratio (fun q => q) price n ddof false) None = Some v /\
  nth 8 (rolling_variance (map (vr_ret1 (fun q => q) price false) (seq 0 (length price))) n ddof 1) None = Some v1 /\
  nth 8 (rolling_variance (map (vr_ret4 (map (vr_ret1 (fun q => q) price false) (seq 0 (length price)))) (seq 0 (length price))) n ddof 1) None = Some v4 /\
  0 < v1 /\ 0 < v4 /\ ~ v == v1 / v4 /\ v == 4 * (v1 / v4).
Proof.
  exists [Some 1; Some 2; Some 2; Some 4; Some 4; Some 4; Some 8; Some 8; Some 16], 4%nat, 1%Z.
  do 3 eexists. split; [vm_compute; reflexivity|]. split; [vm_compute; reflexivity|]. split; [vm_compute; reflexivity|].
  repeat split; vm_compute; try discriminate; try reflexivity.
Qed.
Example C107_example : map (option_map Qred) (variance_ratio (fun q => q) [Some 1; Some 2; Some 2; Some 4; Some 4; Some 4; Some 8; Some 8; Some 16] 4 1 false) =
    [None; None; None; None; None; Some 2; Some 4; Some 3; Some 4].
Proof. vm_compute. reflexivity. Qed.

(* ------------------------------------------------------------------ *)
(** ** C108: the half-life parameter is a time constant *)
(** A step of exactly [hl] seconds multiplies the weight of every older observation by
    exp(-1). *)
Theorem C108_time_constant : forall exp ts hl i j, ~ hl == 0 -> (forall x x', x == x' -> exp x == exp x') -> (j <= i)%nat ->
  inject_Z (nth (S i) ts 0%Z - nth i ts 0%Z) == hl * 1000000000 ->
  wt (step_decay exp ts hl) (S i) j == exp (-(1)) * wt (step_decay exp ts hl) i j.
Proof.
  intros exp ts hl i j Hh Hc Hj E. rewrite wt_step by auto. unfold step_decay at 1. replace (S i - 1)%nat with i by lia.
  rewrite (Hc _ (-(1))); [reflexivity|]. rewrite E. field. auto.
Qed.
(** So the weight does not halve after [half_life], for any exponential function with
    exp(-1) different from 1/2 (for example exp(-1) < 0.37). *)
Theorem C108_half_life_refuted : forall exp, (forall x x', x == x' -> exp x == exp x') -> 0 < exp (-(1)) < 1 -> ~ exp (-(1)) == 1 # 2 ->
  exists ts hl, 0 < hl /\ inject_Z (nth 2 ts 0%Z - nth 1 ts 0%Z) == hl * 1000000000 /\
    0 < wt (step_decay exp ts hl) 1 1 /\
    ~ wt (step_decay exp ts hl) 2 1 == (1 # 2) * wt (step_decay exp ts hl) 1 1.
Proof.
  intros exp Hc He Hn. exists [0; 60000000000; 120000000000]%Z, 60. split; [lra|]. split; [reflexivity|].
  assert (E1 : wt (step_decay exp [0; 60000000000; 120000000000]%Z 60) 1 1 == 1 - exp (-(1))).
  { rewrite wt_last. unfold step_decay. rewrite (Hc _ (-(1))); reflexivity. }
  split; [rewrite E1; lra|]. rewrite (C108_time_constant exp _ 60 1 1); auto; try discriminate; try reflexivity.
  intro F. rewrite E1 in F. apply Qmult_inj_r in F; [contradiction|]. lra.
Qed.
Example C108_example : wt (step_decay (fun x => 1 # 3) [0; 60000000000; 120000000000]%Z 60) 2 1 == 2 # 9 /\
  wt (step_decay (fun x => 1 # 3) [0; 60000000000; 120000000000]%Z 60) 1 1 == 2 # 3.
Proof. vm_compute. split; reflexivity. Qed.

(* ------------------------------------------------------------------ *)
(** ** C109: Parkinson range *)
Theorem C109_parkinson : forall ln high low, ~ ln 2 == 0 ->
  ((exists i, (i < length high)%nat /\ nth i low 0 == 0) -> exists e, parkinson_range ln high low = Raise e) /\
  ((forall i, (i < length high)%nat -> ~ nth i low 0 == 0) ->
     exists out, parkinson_range ln high low = Ok out /\ length out = length high /\
       forall i, (i < length high)%nat ->
         nth i out 0 * (4 * ln 2) == ln (nth i high 0 / nth i low 0) * ln (nth i high 0 / nth i low 0) /\
         (0 < ln 2 -> 0 <= nth i out 0)).
Proof.
  intros ln high low H2. unfold parkinson_range. split.
  - intros [i [Hi E]]. destruct (collect _) as [out|e] eqn:C; [|eauto]. exfalso.
    destruct (collect_ok _ _ 0 C) as [L Hn]. rewrite map_length, seq_length in L, Hn. specialize (Hn i Hi).
    rewrite (nth_map_seq _ _ _ _ Hi) in Hn. unfold qn in Hn. destruct (Qeqb_spec (nth i low 0) 0); [discriminate|contradiction].
  - intro Hz. destruct (collect_exists (map (fun i => if Qeqb (qn low i) 0 then Raise ZeroDivisionError
                           else let x := ln (qn high i / qn low i) in Ok (x * x / (ln 2 * 4))) (seq 0 (length high)))) as [out C].
    { intros x Hx. apply in_map_iff in Hx. destruct Hx as [i [<- Hi]]. apply in_seq in Hi. unfold qn.
      destruct (Qeqb_spec (nth i low 0) 0) as [K|K]; [exfalso; apply (Hz i); auto; lia|eauto]. }
    exists out. split; [exact C|]. destruct (collect_ok _ _ 0 C) as [L Hn]. rewrite map_length, seq_length in L, Hn. split; [auto|].
    intros i Hi. specialize (Hn i Hi). rewrite (nth_map_seq _ _ _ _ Hi) in Hn. unfold qn in Hn.
    destruct (Qeqb_spec (nth i low 0) 0) as [K|K]; [discriminate|]. cbv zeta in Hn. injection Hn as Hn. rewrite <- Hn.
    set (x := ln (nth i high 0 / nth i low 0)). split; [field; auto|]. intro P. apply Qle_shift_div_l; [lra|].
    destruct (Qlt_le_dec x 0); nra.
Qed.
Example C109_example : exists out, parkinson_range (fun q => q - 1) [4; 3] [2; 3] = Ok out /\ map Qred out = [1 # 4; 0].
Proof. eexists. split; [reflexivity|]. vm_compute. reflexivity. Qed.

Print Assumptions C102_realized_vol.
Print Assumptions C103_percent_b.
Print Assumptions C103_window_one.
Print Assumptions C104_sma_partial.
Print Assumptions C104_index_two_refuted.
Print Assumptions C104_ema.
Print Assumptions C105_normalised.
Print Assumptions C105_all_normalised_refuted.
Print Assumptions C106_rolling_variance.
Print Assumptions C107_ratio.
Print Assumptions C107_documented_refuted.
Print Assumptions C108_time_constant.
Print Assumptions C108_half_life_refuted.
Print Assumptions C109_parkinson.
