(** P_footf2.v -- [comp_footprint_features_f] as a whole; the left-to-right float32 inner product. *)
From Verif Require Import Base M_logic M_bars M_footprint M_features M_float M_float11 M_float12 S_float S_footprint S_footf.
From Verif Require Import P_footprint P_weights P_features P_float P_float2 P_float3 P_float5 P_float7 P_float9 P_float12 P_profilef P_profilef2 P_profilef3 P_profilef5 P_footf.
Open Scope Q_scope.

Lemma dot24_err {A} (f : A -> Q) is :
  Qabs (fsum24 (map (fun i => r24 (f i)) is) - qsum (map f is)) <= ((1 + u24) ^ Z.of_nat (length is + 1) - 1) * qsum (map (fun i => Qabs (f i)) is).
Proof.
  pose proof u24_bounds as [U1 U2]. unfold fsum24. induction is as [|i is IH] using rev_ind; [vm_compute; discriminate|].
  rewrite !map_app, fold_left_app, app_length, !qsum_app. cbn [map fold_left length]. rewrite !qsum_cons. cbn [qsum].
  replace (length is + 1 + 1)%nat with (S (length is + 1)) by lia. rewrite pow_S.
  set (F := fold_left (fun c x => r24 (c + x)) (map (fun i => r24 (f i)) is) 0) in *. set (B := qsum (map f is)) in *.
  assert (A0 : 0 <= qsum (map (fun i => Qabs (f i)) is)) by (apply qsum_nonneg; intros z Hz; apply in_map_iff in Hz; destruct Hz as [j [<- _]]; apply Qabs_nonneg).
  assert (P1 : 1 + u24 <= (1 + u24) ^ Z.of_nat (length is + 1)).
  { replace (length is + 1)%nat with (S (length is)) by lia. rewrite pow_S. pose proof (powers_ge_one (1 + u24) (length is) ltac:(lra)) as G. set (pp := (1 + u24) ^ Z.of_nat (length is)) in *. clearbody pp. set (uu := u24) in *. clearbody uu. nra. }
  assert (BA : Qabs B <= qsum (map (fun i => Qabs (f i)) is)) by (pose proof (qsum_abs (map f is)) as G; unfold asum in G; rewrite map_map in G; exact G).
  set (p := (1 + u24) ^ Z.of_nat (length is + 1)) in *. set (a := qsum (map (fun i => Qabs (f i)) is)) in *.
  pose proof (r24_err (f i)) as E1. set (x := f i) in *. set (rx := r24 x) in *. pose proof (r24_err (F + rx)) as E2. set (y := r24 (F + rx)) in *.
  set (u := u24) in *. clearbody F B p a x rx y u.
  assert (FB : Qabs (F + rx - (B + x)) <= (p - 1) * a + u * Qabs x).
  { setoid_replace (F + rx - (B + x)) with ((F - B) + (rx - x)) by ring. eapply Qle_trans; [apply Qabs_triangle|]. lra. }
  assert (FR : Qabs (F + rx) <= p * a + (1 + u) * Qabs x).
  { setoid_replace (F + rx) with ((F - B) + B + ((rx - x) + x)) by ring. eapply Qle_trans; [apply Qabs_triangle|].
    pose proof (Qabs_triangle (F - B) B). pose proof (Qabs_triangle (rx - x) x). lra. }
  assert (FU : Qabs (F + rx) * u <= (p * a + (1 + u) * Qabs x) * u) by (apply Qmult_le_compat_r; auto).
  setoid_replace (y - (B + (x + 0))) with ((y - (F + rx)) + (F + rx - (B + x))) by ring. eapply Qle_trans; [apply Qabs_triangle|].
  pose proof (Qabs_nonneg x) as X0. assert (PX : (1 + u) * (1 + u) * Qabs x <= (1 + u) * p * Qabs x).
  { apply Qmult_le_compat_r; [|auto]. rewrite (Qmult_comm (1 + u) p). apply Qmult_le_compat_r; lra. }
  change (qsum []) with 0. lra.
Qed.
Lemma dot24_ok : dot_ok dot24.
Proof.
  intros x y L Hn prod. unfold dot24. pose proof (dot24_err prod (seq 0 (length x))) as E. rewrite seq_length in E.
  eapply Qle_trans; [exact E|]. apply Qmult_le_compat_r.
  - assert (Q1 : Qnat (length x + 1) * u24 <= 1 # 2).
    { eapply Qle_trans with (1 # 16); [|discriminate]. eapply Qle_trans; [|exact Hn]. apply Qmult_le_compat_r; [|discriminate]. unfold Qnat. rewrite <- Zle_Qle. lia. }
    pose proof (pow24_up _ Q1). lra.
  - apply qsum_nonneg. intros z Hz. apply in_map_iff in Hz. destruct Hz as [j [<- _]]. apply Qabs_nonneg.
Qed.

Lemma feat_f_ok dot lv bv sv mult f : comp_footprint_features_f dot lv bv sv mult = Ok f -> let n := length lv in let tot := level_tot_f bv sv n in
  (0 < n)%nat /\ ff_bi f = map (buy_imb_f bv sv mult n) (seq 0 n) /\ ff_si f = map (sell_imb_f bv sv mult n) (seq 0 n) /\
  ff_run f = max_run (ff_bi f) (ff_si f) n /\ ff_cot f = nth (argmax tot) lv 0%Z /\
  ff_skew f = (if Qltb 0 (fsum24 tot) then vp_skew_f dot lv tot else 0) /\ ff_gini f = (if Qltb 0 (fsum24 tot) then vp_gini_f tot else 0).
Proof.
  intros E n tot. unfold comp_footprint_features_f in E. fold n in E. fold tot in E. destruct (Nat.eqb_spec n 0) as [|Z0]; [discriminate|].
  destruct (Nat.ltb_spec 0 n) as [P|]; [|lia]. rewrite andb_true_r in E. injection E as <-. cbn. repeat split; auto.
Qed.

Lemma feat_f_total dot lv bv sv mult : (exists f, comp_footprint_features_f dot lv bv sv mult = Ok f) <-> lv <> [].
Proof.
  unfold comp_footprint_features_f. destruct lv as [|z lv].
  - cbn. split; [intros [f E]; discriminate|congruence].
  - destruct (Nat.eqb_spec (length (z :: lv)) 0) as [E|_]; [discriminate|]. split; [congruence|]. intros _. eexists. reflexivity.
Qed.

Lemma flags_f dot lv bv sv mult f : comp_footprint_features_f dot lv bv sv mult = Ok f ->
  (forall i, fl 24 (nth i bv 0)) -> (forall i, fl 24 (nth i sv 0)) ->
  let n := length lv in
  length (ff_bi f) = n /\ length (ff_si f) = n /\
  (forall i, (i < n)%nat -> nth i (ff_bi f) false = true -> (1 <= i)%nat /\ nth (i - 1) sv 0 * mult < nth i bv 0) /\
  (forall i, (i < n)%nat -> nth i (ff_si f) false = true -> (S i < n)%nat /\ nth (S i) bv 0 * mult < nth i sv 0) /\
  (forall i, (1 <= i < n)%nat -> nth (i - 1) sv 0 * mult + u53 * Qabs (nth (i - 1) sv 0 * mult) < nth i bv 0 -> nth i (ff_bi f) false = true) /\
  (forall i, (S i < n)%nat -> nth (S i) bv 0 * mult + u53 * Qabs (nth (S i) bv 0 * mult) < nth i sv 0 -> nth i (ff_si f) false = true) /\
  (fl 29 mult ->
   (forall i, (1 <= i < n)%nat -> nth (i - 1) sv 0 * mult < nth i bv 0 -> nth i (ff_bi f) false = true) /\
   (forall i, (S i < n)%nat -> nth (S i) bv 0 * mult < nth i sv 0 -> nth i (ff_si f) false = true)).
Proof.
  intros E Fb Fs n. destruct (feat_f_ok _ _ _ _ _ _ E) as [Hn [B [Sl _]]]. fold n in Hn, B, Sl. rewrite B, Sl. rewrite !map_length, !seq_length.
  assert (NB : forall i, (i < n)%nat -> nth i (map (buy_imb_f bv sv mult n) (seq 0 n)) false = buy_imb_f bv sv mult n i) by (intros; now rewrite nth_map_seq by lia).
  assert (NS : forall i, (i < n)%nat -> nth i (map (sell_imb_f bv sv mult n) (seq 0 n)) false = sell_imb_f bv sv mult n i) by (intros; now rewrite nth_map_seq by lia).
  split; [auto|]. split; [auto|]. split; [|split; [|split; [|split]]].
  - intros i Hi K. rewrite NB in K by auto. unfold buy_imb_f in K. apply andb_prop in K. destruct K as [K1 K2]. apply andb_prop in K1. destruct K1 as [_ K1]. apply Nat.leb_le in K1.
    split; [auto|]. apply imb_sound in K2; [|auto]. now destruct (Qltb_spec (nth (i - 1) sv 0 * mult) (nth i bv 0)).
  - intros i Hi K. rewrite NS in K by auto. unfold sell_imb_f in K. apply andb_prop in K. destruct K as [K1 K2]. apply andb_prop in K1. destruct K1 as [_ K1]. apply Nat.ltb_lt in K1.
    split; [lia|]. apply imb_sound in K2; [|auto]. now destruct (Qltb_spec (nth (S i) bv 0 * mult) (nth i sv 0)).
  - intros i Hi K. rewrite NB by lia. unfold buy_imb_f. apply andb_true_intro. split; [apply andb_true_intro; split; [apply Nat.ltb_lt|apply Nat.leb_le]; lia|].
    pose proof (r53_err (nth (i - 1) sv 0 * mult)) as R. apply Qabs_Qle_condition in R. destruct (Qltb_spec (r53 (nth (i - 1) sv 0 * mult)) (nth i bv 0)) as [|J]; [reflexivity|lra].
  - intros i Hi K. rewrite NS by lia. unfold sell_imb_f. apply andb_true_intro. split; [apply andb_true_intro; split; apply Nat.ltb_lt; lia|].
    pose proof (r53_err (nth (S i) bv 0 * mult)) as R. apply Qabs_Qle_condition in R. destruct (Qltb_spec (r53 (nth (S i) bv 0 * mult)) (nth i sv 0)) as [|J]; [reflexivity|lra].
  - intro Fm. split; intros i Hi K.
    + rewrite NB by lia. unfold buy_imb_f. apply andb_true_intro. split; [apply andb_true_intro; split; [apply Nat.ltb_lt|apply Nat.leb_le]; lia|].
      rewrite imb_exact by auto. destruct (Qltb_spec (nth (i - 1) sv 0 * mult) (nth i bv 0)); [reflexivity|lra].
    + rewrite NS by lia. unfold sell_imb_f. apply andb_true_intro. split; [apply andb_true_intro; split; apply Nat.ltb_lt; lia|].
      rewrite imb_exact by auto. destruct (Qltb_spec (nth (S i) bv 0 * mult) (nth i sv 0)); [reflexivity|lra].
Qed.

Lemma cot_f dot lv bv sv mult f : comp_footprint_features_f dot lv bv sv mult = Ok f ->
  (forall i, 0 <= nth i bv 0) -> (forall i, 0 <= nth i sv 0) ->
  let n := length lv in let t i := nth i bv 0 + nth i sv 0 in
  exists c, (c < n)%nat /\ ff_cot f = nth c lv 0%Z /\ (forall i, (i < n)%nat -> r24 (t i) <= r24 (t c)) /\ (forall i, (i < c)%nat -> r24 (t i) < r24 (t c)) /\
    (forall i, (i < n)%nat -> (1 - u24) * t i <= (1 + u24) * t c).
Proof.
  intros E Hb Hs n t. destruct (feat_f_ok _ _ _ _ _ _ E) as [Hn [_ [_ [_ [C _]]]]]. fold n in Hn, C. exists (argmax (level_tot_f bv sv n)).
  destruct (cot_close lv bv sv Hb Hs 0%nat Hn) as [A _]. fold n in A. split; [auto|]. split; [auto|].
  assert (LT : length (level_tot_f bv sv n) = n) by (unfold level_tot_f; now rewrite map_length, seq_length).
  assert (EN : forall k, (k < n)%nat -> nth k (level_tot_f bv sv n) 0 = r24 (t k)) by (intros; unfold level_tot_f; now rewrite nth_map_seq by lia).
  split; [|split].
  - intros i Hi. apply (cot_close lv bv sv Hb Hs i Hi).
  - intros i Hi. destruct (argmax_spec (level_tot_f bv sv n)) as [_ [_ F]]; [intro Z0; rewrite Z0 in LT; cbn in LT; lia|]. specialize (F i Hi). rewrite !EN in F by lia. exact F.
  - intros i Hi. apply (cot_close lv bv sv Hb Hs i Hi).
Qed.

Lemma gini_f dot lv bv sv mult f : comp_footprint_features_f dot lv bv sv mult = Ok f ->
  (forall i, 0 <= nth i bv 0) -> (forall i, 0 <= nth i sv 0) ->
  let n := length lv in let t i := nth i bv 0 + nth i sv 0 in let T := qsum (map t (seq 0 n)) in
  (T <= 0 -> ff_gini f = 0 /\ ff_skew f = 0) /\
  (0 < T -> exists g, within u24 (5 * n + 9) g (qsum (map (fun i => (t i / T) * (t i / T)) (seq 0 n))) /\ ff_gini f = r53 (1 - g)).
Proof.
  intros E Hb Hs n t T. destruct (feat_f_ok _ _ _ _ _ _ E) as [Hn [_ [_ [_ [_ [Sk G]]]]]]. pose proof (tot_pos lv bv sv Hb Hs) as TP. fold n in TP, G, Sk. fold t in TP. fold T in TP. split; intro HT.
  - destruct (Qltb_spec 0 (fsum24 (level_tot_f bv sv n))) as [K|_]; [apply TP in K; lra|]. auto.
  - destruct (Qltb_spec 0 (fsum24 (level_tot_f bv sv n))) as [_|K]; [|apply TP in HT; lra]. rewrite G. apply (gini_within lv bv sv Hb Hs HT).
Qed.

Lemma skew_f dot lv bv sv mult f M : dot_ok dot -> comp_footprint_features_f dot lv bv sv mult = Ok f ->
  (forall i, 0 <= nth i bv 0) -> (forall i, 0 <= nth i sv 0) ->
  (forall i, (i < length lv)%nat -> 0 <= inject_Z (nth i lv 0%Z) <= M) -> Qnat (length lv + 8) * u24 <= 1 # 16 ->
  Qabs (ff_skew f) <= Qnat (9 * length lv + 29) * u24 * M.
Proof.
  intros OK E Hb Hs HM HN. destruct (feat_f_ok _ _ _ _ _ _ E) as [Hn [_ [_ [_ [_ [Sk _]]]]]]. rewrite Sk. clear Sk. pose proof (tot_pos lv bv sv Hb Hs) as TP. set (n := length lv) in *.
  destruct (Qltb_spec 0 (fsum24 (level_tot_f bv sv n))) as [K|_].
  - apply skew_small; auto. apply TP. exact K.
  - destruct (HM 0%nat Hn). change (Qabs 0) with 0. repeat apply Qmult_le_0_compat; try discriminate; [unfold Qnat; change 0 with (inject_Z 0); rewrite <- Zle_Qle; lia|lra].
Qed.
