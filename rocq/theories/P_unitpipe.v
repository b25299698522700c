(** P_unitpipe.v -- stored and resampled time bars under a change of units. *)
From Coq Require Import Qpower Qfield.
From Verif Require Import Base M_logic M_bars M_tbio M_float M_float16 M_pipe S_units S_unitbars S_unitpipe P_float P_float9 P_units P_units2 P_units5.
Open Scope Q_scope.

Lemma sc_Qmax c x y x' y' : 0 < c -> sc c x x' -> sc c y y' -> sc c (Qmax x y) (Qmax x' y').
Proof.
  intros Hc Hx Hy. unfold sc in *. destruct (Q.max_spec x y) as [[L E]|[L E]], (Q.max_spec x' y') as [[L' E']|[L' E']]; rewrite E, E'; auto; rewrite Hx, Hy in *; nra.
Qed.
Lemma sc_Qmin c x y x' y' : 0 < c -> sc c x x' -> sc c y y' -> sc c (Qmin x y) (Qmin x' y').
Proof.
  intros Hc Hx Hy. unfold sc in *. destruct (Q.min_spec x y) as [[L E]|[L E]], (Q.min_spec x' y') as [[L' E']|[L' E']]; rewrite E, E'; auto; rewrite Hx, Hy in *; nra.
Qed.
Lemma osc_pick c f (Hf : forall x y x' y', sc c x x' -> sc c y y' -> sc c (f x y) (f x' y')) a b a' b' : osc c a a' -> osc c b b' -> osc c (pick f a b) (pick f a' b').
Proof. destruct a, a', b, b'; cbn; try tauto. apply Hf. Qed.
Lemma F2_rev {A B} (R : A -> B -> Prop) l m : Forall2 R l m -> Forall2 R (rev l) (rev m).
Proof. induction 1 as [|x y l m H F IH]; [constructor|]. cbn [rev]. apply Forall2_app; [exact IH|]. constructor; [exact H|constructor]. Qed.
Lemma osc_first c l l' : oscl c l l' -> osc c (first_val l) (first_val l').
Proof. induction 1 as [|x y l l' H F IH]; [exact I|]. destruct x, y; cbn in H; try contradiction; [exact H|exact IH]. Qed.
Lemma kahan_units p c l l' : binary c -> scl c l l' -> sc c (kahan p l) (kahan p l').
Proof.
  intros Bc H. unfold kahan. refine (proj1 (fold_rel2 (fun s s' : Q * Q => sc c (fst s) (fst s') /\ sc c (snd s) (snd s')) (sc c) _ _ _ _ _ _ _ H _)).
  - intros [s k] [s' k'] x y [R1 R2] Hx. cbn [fst snd] in *. unfold kahan_step. cbn [fst snd].
    assert (Y : sc c (rnd p (x - k)) (rnd p (y - k'))) by (apply sc_rnd; auto; now apply sc_minus).
    assert (T : sc c (rnd p (s + rnd p (x - k))) (rnd p (s' + rnd p (y - k')))) by (apply sc_rnd; auto; now apply sc_plus).
    split; [exact T|]. apply sc_rnd; auto. apply sc_minus; [|exact Y]. apply sc_rnd; auto. now apply sc_minus.
  - cbn [fst snd]. split; apply sc_0.
Qed.
Section Group.
  Variable c d : Q.
  Hypothesis Hc : 0 < c.
  Hypothesis Hd : 0 < d.
  Notation R := (same_stored c d).
  Lemma col_vol g g' : Forall2 R g g' -> scl d (map b_vol g) (map b_vol g').
  Proof. apply F2_map. intros x y H. apply H. Qed.
  Lemma col_trades g g' : Forall2 R g g' -> map b_trades g' = map b_trades g.
  Proof. induction 1 as [|x y l m H F IH]; [reflexivity|]. cbn [map]. rewrite IH. f_equal. apply H. Qed.
  Lemma med_units s s' : Forall2 R s s' -> sc d (reach 0 (qsum (map (fun b => inject_Z (b_trades b)) s) * (1 # 2)) s) (reach 0 (qsum (map (fun b => inject_Z (b_trades b)) s') * (1 # 2)) s').
  Proof.
    intro H. assert (E : map (fun b => inject_Z (b_trades b)) s' = map (fun b => inject_Z (b_trades b)) s).
    { induction H as [|x y l m H F IH]; [reflexivity|]. cbn [map]. rewrite IH. f_equal. f_equal. apply H. }
    rewrite E. generalize (qsum (map (fun b => inject_Z (b_trades b)) s) * (1 # 2)), 0. clear E. induction H as [|x y l m H F IH]; intros k acc; [apply sc_0|].
    cbn [reach]. assert (T : b_trades y = b_trades x) by apply H. rewrite T. destruct (Qleb _ _); [apply H|apply IH].
  Qed.
  Lemma prices_units g g' : Forall2 R g g' ->
    osc c (first_val (map b_open g)) (first_val (map b_open g')) /\ osc c (max_val (map b_high g)) (max_val (map b_high g')) /\
    osc c (min_val (map b_low g)) (min_val (map b_low g')) /\ osc c (last_val (map b_close g)) (last_val (map b_close g')).
  Proof.
    intro H. split; [|split; [|split]].
    - apply osc_first. apply (F2_map R (osc c)) with (2 := H). intros x y K. apply K.
    - unfold max_val. apply (fold_rel2 (osc c) (osc c)); [intros; apply osc_pick; auto; intros; now apply sc_Qmax| |exact I]. apply (F2_map R (osc c)) with (2 := H). intros x y K. apply K.
    - unfold min_val. apply (fold_rel2 (osc c) (osc c)); [intros; apply osc_pick; auto; intros; now apply sc_Qmin| |exact I]. apply (F2_map R (osc c)) with (2 := H). intros x y K. apply K.
    - unfold last_val. apply osc_first. apply F2_rev. apply (F2_map R (osc c)) with (2 := H). intros x y K. apply K.
  Qed.
  Lemma group_units tf df df' k : Forall2 R df df' -> Forall2 R (group tf df k) (group tf df' k).
  Proof.
    unfold group. induction 1 as [|x y l m H F IH]; [constructor|]. cbn [filter]. assert (T : b_ts y = b_ts x) by apply H. rewrite T. destruct (_ =? k)%Z; [constructor; assumption|exact IH].
  Qed.
  Lemma keys_units tf df df' : Forall2 R df df' -> map (fun b => floor_to tf (b_ts b)) df' = map (fun b => floor_to tf (b_ts b)) df.
  Proof. induction 1 as [|x y l m H F IH]; [reflexivity|]. cbn [map]. rewrite IH. f_equal. f_equal. apply H. Qed.
  Lemma rows_units (A A' : Z -> bar) ks : (forall k, R (A k) (A' k)) -> Forall2 R (filter has_open (map A ks)) (filter has_open (map A' ks)).
  Proof.
    intro H. induction ks as [|k ks IH]; [constructor|]. cbn [map filter]. assert (E : has_open (A' k) = has_open (A k)).
    { destruct (H k) as (_ & O & _). unfold has_open. destruct (b_open (A k)), (b_open (A' k)); cbn in O; tauto. }
    rewrite E. destruct (has_open (A k)); [constructor; [apply H|exact IH]|exact IH].
  Qed.
  Lemma traded_units g g' : Forall2 R g g' -> scl (c * d) (map traded g) (map traded g').
  Proof.
    apply F2_map. intros x y (_ & _ & _ & _ & _ & V & _ & W & _). unfold traded. destruct (b_vwap x), (b_vwap y); cbn in W; try contradiction; [|apply sc_0]. now apply sc_mult.
  Qed.
  Lemma vwap_units g g' : Forall2 R g g' -> osc c (vwap_of g) (vwap_of g').
  Proof.
    intro H. pose proof (scl_qsum _ _ _ (col_vol g g' H)) as V. pose proof (scl_qsum _ _ _ (traded_units g g' H)) as T. unfold vwap_of. cbv zeta. apply osc_if.
    - exact (Qeqb_sc d _ _ _ _ Hd V (sc_0 d)).
    - exact I.
    - apply osc_Some. apply (sc_unit (c * d / d)); [field; lra|]. now apply sc_div.
  Qed.
  Lemma agg_units sort k g g' : order_follows c d sort -> Forall2 R g g' -> R (agg sort k g) (agg sort k g').
  Proof.
    intros O H. destruct (prices_units g g' H) as (P1 & P2 & P3 & P4). unfold same_stored, agg. cbn [b_ts b_open b_high b_low b_close b_vol b_trades b_vwap b_med].
    split; [reflexivity|]. do 4 (split; [assumption|]). split; [now apply scl_qsum, col_vol|]. split; [now rewrite (col_trades g g' H)|]. split; [now apply vwap_units|]. apply med_units, O, H.
  Qed.
  Lemma resample_units sort tf df df' : order_follows c d sort -> Forall2 R df df' -> Forall2 R (resample sort tf df) (resample sort tf df').
  Proof. intros O H. unfold resample. rewrite (keys_units tf df df' H). apply rows_units. intro k. apply agg_units; [exact O|now apply group_units]. Qed.
  (** Powers of two. *)
  Hypothesis Bc : binary c.
  Hypothesis Bd : binary d.
  Lemma traded_f_units g g' : Forall2 R g g' -> scl (c * d) (traded_f g) (traded_f g').
  Proof.
    unfold traded_f. induction 1 as [|x y l m H F IH]; [constructor|]. cbn [flat_map]. apply Forall2_app; [|exact IH]. destruct H as (_ & _ & _ & _ & _ & V & _ & W & _).
    destruct (b_vwap x), (b_vwap y); cbn in W; try contradiction; [|constructor]. constructor; [|constructor]. apply sc_r53; [now apply binary_mul|]. now apply sc_mult.
  Qed.
  Lemma agg_f_units sort k g g' : order_follows c d sort -> Forall2 R g g' -> R (agg_f sort k g) (agg_f sort k g').
  Proof.
    intros O H. destruct (prices_units g g' H) as (P1 & P2 & P3 & P4). pose proof (kahan_units 24 d _ _ Bd (col_vol g g' H)) as V. pose proof (kahan_units 53 (c * d) _ _ (binary_mul c d Bc Bd) (traded_f_units g g' H)) as T.
    unfold same_stored, agg_f. cbn [b_ts b_open b_high b_low b_close b_vol b_trades b_vwap b_med].
    split; [reflexivity|]. do 4 (split; [assumption|]). split; [exact V|]. split; [now rewrite (col_trades g g' H)|]. split.
    - unfold vwap_of_f. cbv zeta. apply osc_if; [exact (Qeqb_sc d _ _ _ _ Hd V (sc_0 d))|exact I|]. apply osc_Some. apply sc_r24; auto. apply sc_r53; auto. apply (sc_unit (c * d / d)); [field; lra|]. now apply sc_div.
    - apply sc_r24; auto. apply med_units, O, H.
  Qed.
  Lemma resample_f_units sort tf df df' : order_follows c d sort -> Forall2 R df df' -> Forall2 R (resample_f sort tf df) (resample_f sort tf df').
  Proof. intros O H. unfold resample_f. rewrite (keys_units tf df df' H). apply rows_units. intro k. apply agg_f_units; [exact O|now apply group_units]. Qed.
End Group.
Lemma stored_units c d ks l l' : Forall2 (same_bar c d) l l' -> Forall2 (same_stored c d) (map stored (combine ks l)) (map stored (combine ks l')).
Proof.
  intro H. revert ks. induction H as [|x y l m H F IH]; intros [|k ks]; [constructor|constructor|constructor|]. cbn [combine map]. constructor; [|apply IH].
  destruct H as (O & Hi & Lo & Cl & V & W & T & M). unfold stored, same_stored. cbn [b_ts b_open b_high b_low b_close b_vol b_trades b_vwap b_med osc]. repeat split; assumption.
Qed.
Lemma stored_bars_units c d p p' v v' ts I : 0 < c -> 0 < d -> scl c p p' -> scl d v v' -> both (Forall2 (same_stored c d)) (stored_bars p v ts I) (stored_bars p' v' ts I).
Proof.
  intros Hc Hd Hp Hv. unfold stored_bars. pose proof (ohlcv_units c d p p' v v' (snd (time_bar_indexer ts I)) Hc Hd Hp Hv) as K.
  destruct (comp_bar_ohlcv p v _) as [l|e], (comp_bar_ohlcv p' v' _) as [l'|e']; cbn [both] in *; try exact K. now apply stored_units.
Qed.
Lemma stored_bars_f_units c d p p' v v' ts I : binary c -> binary d -> scl c p p' -> scl d v v' -> both (Forall2 (same_stored c d)) (stored_bars_f p v ts I) (stored_bars_f p' v' ts I).
Proof.
  intros Hc Hd Hp Hv. unfold stored_bars_f. pose proof (ohlcv_f_units c d p p' v v' (snd (time_bar_indexer ts I)) Hc Hd Hp Hv) as K.
  destruct (comp_bar_ohlcv_f p v _) as [l|e], (comp_bar_ohlcv_f p' v' _) as [l'|e']; cbn [both] in *; try exact K. now apply stored_units.
Qed.
