(** T_tbmf.v -- property C183: the triple barrier method in float64.
    [rnd p] is the rounding characterised in C137_rounding. *)
From Verif Require Import Base M_logic M_tbm M_float M_float5 S_tbm S_float S_tbmf P_tbm P_float P_float9 P_float12 P_tbmf.
Open Scope Q_scope.

Section Event.
  Variables (ln lnf : Q -> Q) (cv : Z -> Z).
  Hypothesis Hcv : monotone cv.
  Variables (ts : list Z) (close : list Q) (e : nat) (tgt : Q) (bottom top : ext) (vert : option Z) (mc : Z) (meta : bool) (side mr R d : Q).
  Hypothesis Ha : ascZ ts.
  Hypothesis He : (e < length ts)%nat.
  Hypothesis Hd : 0 <= d.
  Hypothesis HR0 : 0 <= R.
  Hypothesis Hs : side == 1 \/ side == 0 \/ side == - (1).
  Hypothesis Hln : forall b j, window_end cv ts e vert b -> (e <= j <= b)%nat -> Qabs (lnf (nth j close 0) - ln (nth j close 0)) <= d.
  Hypothesis HR : forall b j, window_end cv ts e vert b -> (e < j <= b)%nat -> eligible cv ts e mc j ->
    Qabs (ln (nth j close 0) - ln (nth e close 0)) <= R /\ barrier_clear tgt bottom top (ret_error R d) (signed_ret ln close e side j).
  Let out := tbm_event ln cv ts close e tgt bottom top vert mc meta side mr.
  Let out' := tbm_event_f lnf cv ts close e tgt bottom top vert mc meta side mr.

  Lemma ret_error_nonneg : 0 <= ret_error R d.
  Proof. unfold ret_error. pose proof u53_small. assert (0 <= d * (1 + u53)) by (apply Qmult_le_0_compat; lra). assert (0 <= u53 * R) by (apply Qmult_le_0_compat; lra). lra. Qed.
  Lemma event_sync (P : Q * Q -> Q * Q -> Prop) : P (0, 0) (0, 0) ->
    (forall x x' m m', Qabs x <= R -> Qabs (x' - x) <= ret_error R d -> P m m' ->
       P (upd (emulq tgt top) (emulq (- tgt) bottom) x (fst m) (snd m)) (upd_f (emulq_f tgt top) (emulq_f (- tgt) bottom) x' (fst m') (snd m'))) ->
    (out = mkTbm 0 None None None /\ out' = mkTbm 0 None None None /\ forall b, ~ window_end cv ts e vert b) \/
    exists b i r r' m m', window_end cv ts e vert b /\ Qabs (r' - r) <= ret_error R d /\ P m m' /\
      ((forall j, (e < j <= b)%nat -> ~ eligible cv ts e mc j) -> r = 0 /\ r' = 0 /\ m = (0, 0) /\ m' = (0, 0)) /\
      out = mkTbm (tbm_label meta mr r) (Some i) (Some r) (tbm_weight (i =? b)%nat r (fst m) (snd m) (emulq tgt top) (emulq (- tgt) bottom)) /\
      out' = mkTbm (tbm_label meta mr r') (Some i) (Some r') (tbm_weight_f (i =? b)%nat r' (fst m') (snd m') (emulq_f tgt top) (emulq_f (- tgt) bottom)).
  Proof.
    intros P0 PS. unfold out, out', tbm_event, tbm_event_f. cbv zeta. destruct (Z.leb_spec (tbm_t1_idx cv ts e vert) (Z.of_nat e)) as [K|K].
    - left. split; [reflexivity|]. split; [reflexivity|]. intros b W. apply (t1_idx_window cv Hcv ts e vert b Ha He) in W. lia.
    - right. set (b := Z.to_nat (tbm_t1_idx cv ts e vert)). assert (W : window_end cv ts e vert b) by (apply (t1_idx_window cv Hcv ts e vert b Ha He); unfold b; lia).
      assert (Heb : (e < b)%nat) by (unfold b; lia).
      assert (SW : same_way ln lnf cv ts close e side mc (emulq tgt top) (emulq (- tgt) bottom) (emulq_f tgt top) (emulq_f (- tgt) bottom) (ret_error R d) P (seq (S e) (b - e))).
      { intros j Hj Ej. apply in_seq in Hj. assert (Hj' : (e < j <= b)%nat) by lia. destruct (HR b j W Hj' Ej) as [R1 R2].
        assert (N : Qabs (r53 (r53 (lnf (nth j close 0) - lnf (nth e close 0)) * side) - (ln (nth j close 0) - ln (nth e close 0)) * side) <= ret_error R d) by (apply ret_near; [exact Hs|apply (Hln b); [exact W|lia]|apply (Hln b); [exact W|lia]|exact R1]).
        split; [exact N|]. destruct (clear_same tgt bottom top (ret_error R d) _ _ N R2) as [C1 C2]. split; [exact C1|]. split; [exact C2|]. intros m m'. apply PS; [|exact N].
        rewrite Qabs_Qmult. pose proof (Qabs_nonneg (ln (nth j close 0) - ln (nth e close 0))) as N0. destruct Hs as [S|[S|S]]; rewrite S; [change (Qabs 1) with 1|change (Qabs 0) with 0|change (Qabs (- (1))) with 1]; lra. }
      pose proof (scan_sync ln lnf cv ts close e side mc _ _ _ _ _ P _ SW 0 0 (0, 0) (0, 0) ret_error_nonneg P0) as SY. cbv zeta in SY. cbn [fst snd] in SY.
      pose proof (scan_none ln lnf cv ts close e side mc (emulq tgt top) (emulq (- tgt) bottom) (emulq_f tgt top) (emulq_f (- tgt) bottom) (seq (S e) (b - e)) 0 0 0) as SN.
      destruct (tbm_scan ln cv ts close _ _ side mc _ _ (seq (S e) (b - e)) 0 0 0) as [[[i r] mu] ml]. destruct (tbm_scan_f lnf cv ts close _ _ side mc _ _ (seq (S e) (b - e)) 0 0 0) as [[[i' r'] mu'] ml'].
      cbn [fst snd] in SY. destruct SY as (S1 & S2 & S3). subst i'. exists b, (match i with Some j => j | None => b end), r, r', (mu, ml), (mu', ml').
      split; [exact W|]. split; [exact S2|]. split; [exact S3|]. split; [|split; reflexivity].
      intro NE. destruct SN as [N1 N2]; [intros j Hj; apply in_seq in Hj; apply NE; lia|]. inversion N1; inversion N2; subst. repeat split; reflexivity.
  Qed.
End Event.

Lemma tb_f_ok ln lnf cv ts close events targets bottom top vert mc sides mr outs :
  triple_barrier ln cv ts close events targets bottom top vert mc sides mr = Ok outs ->
  length outs = length events /\
  exists outs', triple_barrier_f lnf cv ts close events targets bottom top vert mc sides mr = Ok outs' /\ length outs' = length outs /\
  forall k, (k < length events)%nat ->
    let meta := match sides with Some _ => true | None => false end in let side := match sides with Some l => inject_Z (nth k l 0%Z) | None => 1 end in
    (match sides with Some l => length l = length events | None => True end) /\
    nth k outs dflt = tbm_event ln cv ts close (nth k events 0%nat) (nth k targets 0) bottom top vert mc meta side mr /\
    nth k outs' dflt = tbm_event_f lnf cv ts close (nth k events 0%nat) (nth k targets 0) bottom top vert mc meta side mr.
Proof.
  unfold triple_barrier, triple_barrier_f. destruct (match vert with Some v => (v <=? 0)%Z | None => false end); [discriminate|]. destruct (Qltb mr 0); [discriminate|].
  destruct (negb (length ts =? length close)%nat); [discriminate|]. destruct (negb (length events =? length targets)%nat); [discriminate|]. destruct (length events =? 0)%nat; [discriminate|].
  destruct (match sides with Some l => negb (length events =? length l)%nat | None => false end) eqn:L; [discriminate|]. intro H. injection H as <-.
  rewrite map_length, seq_length. split; [reflexivity|]. eexists. split; [reflexivity|]. rewrite map_length, seq_length. split; [reflexivity|]. intros k Hk. cbv zeta. split; [|split].
  - destruct sides; [|exact I]. apply negb_false_iff, Nat.eqb_eq in L. now symmetry.
  - rewrite nth_map_seq0 by exact Hk. reflexivity.
  - rewrite nth_map_seq0 by exact Hk. reflexivity.
Qed.
Lemma side_cases (sides : option (list Z)) n k : (k < n)%nat -> match sides with Some l => length l = n | None => True end -> (forall l s, sides = Some l -> In s l -> (-1 <= s <= 1)%Z) ->
  let side := match sides with Some l => inject_Z (nth k l 0%Z) | None => 1 end in side == 1 \/ side == 0 \/ side == - (1).
Proof.
  intros Hk HL HS. destruct sides as [l|]; cbv zeta; [|now left]. specialize (HS l (nth k l 0%Z) eq_refl ltac:(apply nth_In; lia)). assert (H : (nth k l 0 = 1 \/ nth k l 0 = 0 \/ nth k l 0 = -1)%Z) by lia.
  destruct H as [->|[->| ->]]; [left|right; left|right; right]; reflexivity.
Qed.

(** * C183  The same barrier is touched, and the label is the same *)
Theorem C183_touch : forall (ln lnf : Q -> Q) (cv : Z -> Z), monotone cv ->
  forall ts close events targets bottom top vert min_close sides min_ret outs, ascZ ts ->
  triple_barrier ln cv ts close events targets bottom top vert min_close sides min_ret = Ok outs ->
  (forall l s, sides = Some l -> In s l -> (-1 <= s <= 1)%Z) ->
  exists outs', triple_barrier_f lnf cv ts close events targets bottom top vert min_close sides min_ret = Ok outs' /\ length outs' = length outs /\
  forall k R d, (k < length events)%nat -> 0 <= R -> 0 <= d ->
  let e := nth k events 0%nat in let tgt := nth k targets 0 in
  let side := match sides with Some l => inject_Z (nth k l 0%Z) | None => 1 end in
  let out := nth k outs dflt in let out' := nth k outs' dflt in
  (e < length ts)%nat ->
  (forall b j, window_end cv ts e vert b -> (e <= j <= b)%nat -> Qabs (lnf (nth j close 0) - ln (nth j close 0)) <= d) ->
  (forall b j, window_end cv ts e vert b -> (e < j <= b)%nat -> eligible cv ts e min_close j ->
     Qabs (ln (nth j close 0) - ln (nth e close 0)) <= R /\ barrier_clear tgt bottom top (ret_error R d) (signed_ret ln close e side j)) ->
  tb_touch out' = tb_touch out /\
  match tb_ret out, tb_ret out' with Some r, Some r' => Qabs (r' - r) <= ret_error R d | None, None => True | _, _ => False end /\
  ((forall r, tb_ret out = Some r -> ret_error R d < Qabs (r - match sides with Some _ => min_ret | None => 0 end)) \/
   (forall b j, window_end cv ts e vert b -> (e < j <= b)%nat -> ~ eligible cv ts e min_close j) ->
   tb_label out' = tb_label out).
Proof.
  intros ln lnf cv Hcv ts close events targets bottom top vert mc sides mr outs Ha Hok HS. destruct (tb_f_ok ln lnf cv _ _ _ _ _ _ _ _ _ _ _ Hok) as (L & outs' & Hok' & L' & HN).
  exists outs'. split; [exact Hok'|]. split; [exact L'|]. intros k R d Hk HR Hd. cbv zeta. intros He Hln HC. destruct (HN k Hk) as (H0 & H1 & H2). cbv zeta in H1, H2.
  pose proof (side_cases sides _ k Hk H0 HS) as Hside. cbv zeta in Hside.
  destruct (event_sync ln lnf cv Hcv ts close _ (nth k targets 0) bottom top vert mc (match sides with Some _ => true | None => false end) _ mr R d Ha He Hd HR Hside Hln HC (fun _ _ => True) I (fun _ _ _ _ _ _ _ => I)) as [(E1 & E2 & _)|(b & i & r & r' & m & m' & W & N & _ & NE & E1 & E2)].
  - rewrite H1, H2, E1, E2. cbn [tb_touch tb_ret tb_label]. repeat split.
  - rewrite H1, H2, E1, E2. cbn [tb_touch tb_ret tb_label]. split; [reflexivity|]. split; [exact N|]. intros [K|K].
    + apply label_same with (E := ret_error R d); [exact N|]. specialize (K r eq_refl). destruct sides; exact K.
    + destruct (NE (fun j => K b j W)) as (-> & -> & _). reflexivity.
Qed.

(** * C183  Weights *)
Theorem C183_weight : forall (ln lnf : Q -> Q) (cv : Z -> Z), monotone cv ->
  forall ts close events targets bottom top vert min_close sides min_ret outs, ascZ ts ->
  triple_barrier ln cv ts close events targets bottom top vert min_close sides min_ret = Ok outs ->
  (forall l s, sides = Some l -> In s l -> (-1 <= s <= 1)%Z) ->
  exists outs', triple_barrier_f lnf cv ts close events targets bottom top vert min_close sides min_ret = Ok outs' /\ length outs' = length outs /\
  forall k R d rho eta, (k < length events)%nat -> 0 <= R -> 0 <= d -> 0 <= rho -> 0 <= eta ->
  let e := nth k events 0%nat in let tgt := nth k targets 0 in
  let side := match sides with Some l => inject_Z (nth k l 0%Z) | None => 1 end in
  let out := nth k outs dflt in let out' := nth k outs' dflt in
  (e < length ts)%nat -> 0 < tgt -> wide tgt top R rho (ret_error R d) eta -> wide tgt bottom R rho (ret_error R d) eta ->
  (forall b j, window_end cv ts e vert b -> (e <= j <= b)%nat -> Qabs (lnf (nth j close 0) - ln (nth j close 0)) <= d) ->
  (forall b j, window_end cv ts e vert b -> (e < j <= b)%nat -> eligible cv ts e min_close j ->
     Qabs (ln (nth j close 0) - ln (nth e close 0)) <= R /\ barrier_clear tgt bottom top (ret_error R d) (signed_ret ln close e side j)) ->
  (forall r, tb_ret out = Some r -> ret_error R d < Qabs r) \/ (forall b j, window_end cv ts e vert b -> (e < j <= b)%nat -> ~ eligible cv ts e min_close j) ->
  let D := eta + 3 * u53 * (rho + eta) in
  match tb_weight out, tb_weight out' with Some w, Some w' => Qabs (w' - w) <= (1 + rho) * D + 3 * u53 * (rho + D) | None, None => True | _, _ => False end.
Proof.
  intros ln lnf cv Hcv ts close events targets bottom top vert mc sides mr outs Ha Hok HS. destruct (tb_f_ok ln lnf cv _ _ _ _ _ _ _ _ _ _ _ Hok) as (L & outs' & Hok' & L' & HN).
  exists outs'. split; [exact Hok'|]. split; [exact L'|]. intros k R d rho eta Hk HR Hd Hrho Heta. cbv zeta. intros He Ht Wt Wb Hln HC HL. destruct (HN k Hk) as (H0 & H1 & H2). cbv zeta in H1, H2.
  pose proof (side_cases sides _ k Hk H0 HS) as Hside. cbv zeta in Hside. set (D := eta + 3 * u53 * (rho + eta)). pose proof u53_small as [U0 U1].
  assert (D0 : 0 <= D) by (unfold D; assert (0 <= u53 * (rho + eta)) by (apply Qmult_le_0_compat; lra); lra).
  assert (P0 : pnear D rho (0, 0) (0, 0)) by (split; (split; [cbn [fst snd]; lra|]); (split; [cbn [fst snd]; lra|]); exact D0).
  destruct (event_sync ln lnf cv Hcv ts close _ (nth k targets 0) bottom top vert mc (match sides with Some _ => true | None => false end) _ mr R d Ha He Hd HR Hside Hln HC (pnear D rho) P0
     (fun x x' m m' Hx He Hm => upd_near _ bottom top R rho _ eta x x' m m' Ht Hrho Heta Wt Wb Hx He Hm)) as [(E1 & E2 & _)|(b & i & r & r' & m & m' & W & N & [(A1 & A2 & A3) (B1 & B2 & B3)] & NE & E1 & E2)].
  - rewrite H1, H2, E1, E2. cbn [tb_weight]. exact I.
  - rewrite H1, E1 in HL. cbn [tb_ret] in HL. rewrite H1, H2, E1, E2. cbn [tb_weight]. unfold tbm_weight, tbm_weight_f.
    assert (T0 : 0 <= (1 + rho) * D + 3 * u53 * (rho + D)) by (assert (0 <= (1 + rho) * D) by (apply Qmult_le_0_compat; lra); assert (0 <= u53 * (rho + D)) by (apply Qmult_le_0_compat; lra); lra).
    destruct (i =? b)%nat; [|exact T0].
    assert (VT : barrier_valid (emulq_f (nth k targets 0) top) = barrier_valid (emulq (nth k targets 0) top)) by (unfold emulq_f; destruct (emulq (nth k targets 0) top); try reflexivity; apply r53_valid).
    assert (VB : barrier_valid (emulq_f (- nth k targets 0) bottom) = barrier_valid (emulq (- nth k targets 0) bottom)) by (unfold emulq_f; destruct (emulq (- nth k targets 0) bottom); try reflexivity; apply r53_valid).
    rewrite VT, VB. assert (S : Qltb 0 r' = Qltb 0 r).
    { destruct HL as [K|K]; [|destruct (NE (fun j => K b j W)) as (-> & -> & _); reflexivity]. specialize (K r eq_refl). apply Qabs_Qle_condition in N. assert (A : ret_error R d < r \/ r < - ret_error R d) by (revert K; apply Qabs_case; intros; [left|right]; lra). destruct (Qltb_spec 0 r'), (Qltb_spec 0 r); try reflexivity; exfalso; destruct A; lra. }
    rewrite S. destruct (Qltb 0 r).
    + destruct (barrier_valid (emulq _ top)); [|exact I]. now apply weight_near.
    + destruct (barrier_valid (emulq (- _) bottom)); [|exact I]. now apply weight_near.
Qed.

(** Records every second, prices 1, 17/16, 15/16, 9/8, 1 and 2, target 3/32, [ln q = q - 1] rounded. *)
Definition ex_tbf_close : list Q := [1; 17 # 16; 15 # 16; 9 # 8; 1; 2].
Definition ex_tbf_ts : list Z := [0; 1000000000; 2000000000; 3000000000; 4000000000; 9000000000]%Z.
Example C183_example : let ln := fun q => q - 1 in let lnf := fun q => r53 (q - 1) in let E := ret_error (1 # 8) (1 # 1152921504606846976) in
  (exists o, triple_barrier_f lnf f64 ex_tbf_ts ex_tbf_close [0%nat; 1%nat] [3 # 32; 1 # 10] (Fin 2) (Fin 1) (Some 5000000000%Z) 0 None 0 = Ok o /\ map tb_touch o = [Some 3; Some 4]%nat /\ map tb_label o = [1; -1]%Z) /\
  ascZ ex_tbf_ts /\ monotone f64 /\
  (forall b, window_end f64 ex_tbf_ts 0 (Some 5000000000%Z) b -> b = 4%nat) /\
  (forall j, (0 <= j <= 4)%nat -> Qabs (lnf (nth j ex_tbf_close 0) - ln (nth j ex_tbf_close 0)) <= 1 # 1152921504606846976) /\
  (forall j, (0 < j <= 4)%nat -> Qabs (ln (nth j ex_tbf_close 0) - ln (nth 0 ex_tbf_close 0)) <= 1 # 8 /\
     barrier_clear (3 # 32) (Fin 2) (Fin 1) E (signed_ret ln ex_tbf_close 0 1 j)) /\
  wide (3 # 32) (Fin 1) (1 # 8) 2 E (1 # 1099511627776) /\ wide (3 # 32) (Fin 2) (1 # 8) 2 E (1 # 1099511627776).
Proof.
  cbv zeta. split; [eexists; split; [vm_compute; reflexivity|split; reflexivity]|]. split.
  { intros i j Hij. cbn [length ex_tbf_ts] in Hij. do 6 (destruct i as [|i]; [do 6 (destruct j as [|j]; [cbn; lia|]); lia|]). lia. }
  split; [exact f64_mono|]. split; [|split; [|split; [|split]]].
  - intros b ((W0 & W1) & W2 & W3). cbn [length ex_tbf_ts] in W1, W3. do 6 (destruct b as [|b]; [try lia; exfalso; first [specialize (W3 4%nat ltac:(lia)); vm_compute in W3; discriminate|vm_compute in W2; now apply W2]|]). lia.
  - intros j H. do 5 (destruct j as [|j]; [vm_compute; discriminate|]). lia.
  - intros j H. do 5 (destruct j as [|j]; [first [lia|split; [vm_compute; discriminate|split; vm_compute; reflexivity]]|]). lia.
  - split; [reflexivity|]. split; vm_compute; discriminate.
  - split; [reflexivity|]. split; vm_compute; discriminate.
Qed.

(** Without the distance another barrier may be touched: prices 2^-60, 1, 1/2, target 1; the exact return is a little
    below the target, the rounded one is the target. *)
Theorem C183_touch_refuted : exists (ln lnf : Q -> Q) ts close tgt,
  (forall q, lnf q = r53 (ln q)) /\ ascZ ts /\
  (exists o, triple_barrier ln f64 ts close [0%nat] [tgt] (Fin 1) (Fin 1) None 0 None 0 = Ok o /\ map tb_touch o = [Some 2%nat]) /\
  (exists o, triple_barrier_f lnf f64 ts close [0%nat] [tgt] (Fin 1) (Fin 1) None 0 None 0 = Ok o /\ map tb_touch o = [Some 1%nat]).
Proof.
  exists (fun q => q - 1), (fun q => r53 (q - 1)), [1; 2; 3]%Z, [1 # 1152921504606846976; 1; 1 # 2], 1. split; [reflexivity|]. split.
  { intros i j Hij. cbn [length] in Hij. do 3 (destruct i as [|i]; [do 3 (destruct j as [|j]; [cbn; lia|]); lia|]). lia. }
  split; eexists; (split; [vm_compute; reflexivity|reflexivity]).
Qed.

(** With a return within its error of 0 the label may differ: prices 2^-60 and 2^-61, whose logarithms q - 1 round to -1. *)
Theorem C183_label_refuted : exists (ln lnf : Q -> Q) ts close tgt,
  (forall q, lnf q = r53 (ln q)) /\ ascZ ts /\ (forall c, In c close -> fl 53 c) /\
  (exists o, triple_barrier ln f64 ts close [0%nat] [tgt] (Fin 1) (Fin 1) None 0 None 0 = Ok o /\ map tb_label o = [-1]%Z) /\
  (exists o, triple_barrier_f lnf f64 ts close [0%nat] [tgt] (Fin 1) (Fin 1) None 0 None 0 = Ok o /\ map tb_label o = [1]%Z).
Proof.
  exists (fun q => q - 1), (fun q => r53 (q - 1)), [1; 2]%Z, [1 # 1152921504606846976; 1 # 2305843009213693952], 1. split; [reflexivity|]. split.
  { intros i j Hij. cbn [length] in Hij. do 2 (destruct i as [|i]; [do 2 (destruct j as [|j]; [cbn; lia|]); lia|]). lia. }
  split.
  { intros c [<-|[<-|[]]]; [exists 1%Z, (-60)%Z|exists 1%Z, (-61)%Z]; split; try (vm_compute; reflexivity); try lia. }
  split; eexists; (split; [vm_compute; reflexivity|reflexivity]).
Qed.

(** * C183  What holds in float64 for every logarithm *)
Theorem C183_float : forall (lnf : Q -> Q) (cv : Z -> Z), monotone cv ->
  forall ts close events targets bottom top vert min_close sides min_ret outs k, ascZ ts ->
  triple_barrier_f lnf cv ts close events targets bottom top vert min_close sides min_ret = Ok outs -> (k < length events)%nat ->
  let e := nth k events 0%nat in let tgt := nth k targets 0 in
  let side := match sides with Some l => inject_Z (nth k l 0%Z) | None => 1 end in
  let out := nth k outs dflt in
  let ret := fun j => r53 (r53 (lnf (nth j close 0) - lnf (nth e close 0)) * side) in
  let touch := fun j => eligible cv ts e min_close j /\
     (match top with Fin m => r53 (tgt * m) <= ret j | _ => False end \/ match bottom with Fin m => ret j <= r53 (- tgt * m) | _ => False end) in
  (e < length ts)%nat -> 0 < tgt -> number_or_inf bottom -> number_or_inf top ->
  forall b, window_end cv ts e vert b ->
  exists i r, tb_touch out = Some i /\ tb_ret out = Some r /\
    (first_such touch e b i /\ r = ret i \/ (forall j, (e < j <= b)%nat -> ~ touch j) /\ i = b) /\
    (sides = None -> tb_label out = if Qltb r 0 then (-1)%Z else 1%Z) /\ (sides <> None -> tb_label out = if Qltb r min_ret then 0%Z else 1%Z) /\
    ((i < b)%nat -> tb_weight out = Some 1) /\ (forall w, tb_weight out = Some w -> 0 <= w <= 1).
Proof.
  intros lnf cv Hcv ts close events targets bottom top vert mc sides mr outs k Ha Hok Hk. cbv zeta. intros He Ht Hb Htp b W.
  assert (HN : nth k outs dflt = tbm_event_f lnf cv ts close (nth k events 0%nat) (nth k targets 0) bottom top vert mc (match sides with Some _ => true | None => false end) (match sides with Some l => inject_Z (nth k l 0%Z) | None => 1 end) mr).
  { revert Hok. unfold triple_barrier_f. repeat match goal with |- (if ?c then _ else _) = _ -> _ => destruct c; [discriminate|] end. intro H. injection H as <-. now rewrite nth_map_seq0. }
  rewrite HN. set (e := nth k events 0%nat) in *. set (tgt := nth k targets 0) in *. set (side := match sides with Some l => inject_Z (nth k l 0%Z) | None => 1 end). set (meta := match sides with Some _ => true | None => false end).
  apply (t1_idx_window cv Hcv ts e vert b Ha He) in W. destruct W as [W1 W2]. unfold tbm_event_f. cbv zeta. rewrite W1. destruct (Z.leb_spec (Z.of_nat b) (Z.of_nat e)); [lia|]. rewrite Nat2Z.id.
  pose proof (scan_f_first lnf cv ts close e side mc (emulq_f tgt top) (emulq_f (- tgt) bottom) (b - e) (S e) 0 0 0 (Qle_refl 0) (Qle_refl 0)) as F. cbv zeta in F.
  destruct (tbm_scan_f lnf cv ts close _ _ side mc _ _ (seq (S e) (b - e)) 0 0 0) as [[[i r] mu] ml]. cbn [fst snd] in F. destruct F as (F1 & F2 & F3).
  exists (match i with Some j => j | None => b end), r. cbn [tb_touch tb_ret tb_label tb_weight]. split; [reflexivity|]. split; [reflexivity|].
  assert (TE : forall x, (q_ge_ext x (emulq_f tgt top) = true \/ q_le_ext x (emulq_f (- tgt) bottom) = true) <-> (match top with Fin m => r53 (tgt * m) <= x | _ => False end \/ match bottom with Fin m => x <= r53 (- tgt * m) | _ => False end)).
  { intro x. assert (A : q_ge_ext x (emulq_f tgt top) = true <-> match top with Fin m => r53 (tgt * m) <= x | _ => False end).
    { destruct Htp as [->|[m ->]]; unfold emulq_f; cbn [emulq].
      - apply qsign_pos in Ht. destruct (Z.eqb_spec (qsign tgt) 0); [lia|]. destruct (Z.ltb_spec 0 (qsign tgt)); [|lia]. cbn [q_ge_ext]. split; [discriminate|tauto].
      - cbn [q_ge_ext]. destruct (Qleb_spec (r53 (tgt * m)) x); split; try discriminate; try tauto. intro. lra. }
    assert (B : q_le_ext x (emulq_f (- tgt) bottom) = true <-> match bottom with Fin m => x <= r53 (- tgt * m) | _ => False end).
    { destruct Hb as [->|[m ->]]; unfold emulq_f; cbn [emulq].
      - assert (K : - tgt < 0) by lra. apply qsign_neg in K. destruct (Z.eqb_spec (qsign (- tgt)) 0); [lia|]. destruct (Z.ltb_spec 0 (qsign (- tgt))); [lia|]. cbn [q_le_ext]. split; [discriminate|tauto].
      - cbn [q_le_ext]. destruct (Qleb_spec x (r53 (- tgt * m))); split; try discriminate; try tauto. intro. lra. }
    tauto. }
  split; [|split; [|split; [|split]]].
  - destruct i as [i|].
    + left. destruct F3 as (G1 & (G2 & G3) & G4 & G5). split; [|exact G4]. split; [lia|]. split; [split; [exact G2|apply TE; exact G3]|]. intros j Hj [Ej Tj]. apply (G5 j ltac:(lia)). split; [exact Ej|]. apply TE. exact Tj.
    + right. split; [|reflexivity]. intros j Hj [Ej Tj]. apply (F3 j ltac:(lia)). split; [exact Ej|]. apply TE. exact Tj.
  - intros ->. unfold meta, tbm_label. destruct (Qltb_spec r 0) as [K|K].
    + apply qsign_neg in K. unfold qsign in *. destruct (Qnum r); cbn in *; try lia; reflexivity.
    + assert (K2 : (0 <= qsign r)%Z) by (destruct (Z.lt_ge_cases (qsign r) 0) as [C|C]; [apply qsign_neg in C; lra|exact C]). destruct (Z.eqb_spec (qsign r) 0); [reflexivity|]. unfold qsign in *. destruct (Qnum r); cbn in *; try lia.
  - intro NS. unfold meta, tbm_label. destruct sides; [|congruence]. destruct (Qleb_spec mr r), (Qltb_spec r mr); try reflexivity; exfalso; lra.
  - intro Hi. unfold tbm_weight_f. destruct i as [i|]; [|lia]. destruct (Nat.eqb_spec i b); [lia|reflexivity].
  - intros w Hw. exact (weight_f_range _ _ _ _ _ _ _ F1 F2 Hw).
Qed.
Example C183_float_example : monotone f64 /\ number_or_inf (Fin 2) /\ window_end f64 ex_tbf_ts 0 (Some 5000000000%Z) 4 /\
  exists o, triple_barrier_f (fun q => r53 (q - 1)) f64 ex_tbf_ts ex_tbf_close [0%nat; 1%nat] [3 # 32; 1 # 10] (Fin 2) (Fin 1) (Some 5000000000%Z) 0 None 0 = Ok o /\
    nth 0 o dflt = mkTbm 1 (Some 3%nat) (Some (1 # 8)) (Some 1).
Proof.
  split; [exact f64_mono|]. split; [right; now exists 2|]. split.
  - split; [cbn; lia|]. split; [vm_compute; discriminate|]. intros j Hj. cbn [length ex_tbf_ts] in Hj. assert (j = 5%nat) by lia. subst. vm_compute. reflexivity.
  - eexists. split; [vm_compute; reflexivity|]. vm_compute. reflexivity.
Qed.

Print Assumptions C183_touch.
Print Assumptions C183_weight.
Print Assumptions C183_touch_refuted.
Print Assumptions C183_label_refuted.
Print Assumptions C183_float.
