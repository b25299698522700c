(** P_shiftpipe.v -- stored and resampled time bars on a later clock. *)
From Verif Require Import Base M_logic M_bars M_tbio M_float M_float16 M_pipe S_shift S_shiftpipe P_shift2.
Open Scope Z_scope.

Lemma eqb_later x k d : (x + d =? k + d) = (x =? k).
Proof. destruct (Z.eqb_spec (x + d) (k + d)), (Z.eqb_spec x k); try reflexivity; exfalso; lia. Qed.
Lemma uniq_later d l : uniq (map (fun k => k + d) l) = map (fun k => k + d) (uniq l).
Proof.
  induction l as [|k l IH]; [reflexivity|]. cbn [map uniq]. rewrite IH. f_equal. clear IH. induction (uniq l) as [|x u IHu]; [reflexivity|]. cbn [map filter].
  rewrite eqb_later. destruct (x =? k); cbn [negb map]; now rewrite IHu.
Qed.
Lemma floor_later tf d t : 0 < tf -> (tf | d) -> floor_to tf (t + d) = floor_to tf t + d.
Proof. intros P [q ->]. unfold floor_to. rewrite Z.div_add by lia. lia. Qed.
Section Group.
  Variable d tf : Z.
  Hypothesis P : 0 < tf.
  Hypothesis D : (tf | d).
  Notation lb := (later_bar d).
  Lemma group_later df k : group tf (map lb df) (k + d) = map lb (group tf df k).
  Proof.
    unfold group. induction df as [|b df IH]; [reflexivity|]. cbn [map filter]. cbn [later_bar b_ts]. rewrite (floor_later tf d (b_ts b) P D).
    rewrite eqb_later, IH. now destruct (_ =? k).
  Qed.
  Lemma keys_later df : map (fun b => floor_to tf (b_ts b)) (map lb df) = map (fun k => k + d) (map (fun b => floor_to tf (b_ts b)) df).
  Proof. rewrite !map_map. apply map_ext. intro b. cbn [later_bar b_ts]. now apply floor_later. Qed.
  Lemma col {A} (f : bar -> A) g : (forall b, f (lb b) = f b) -> map f (map lb g) = map f g.
  Proof. intro H. rewrite map_map. apply map_ext, H. Qed.
  Lemma rows_later (A B : Z -> bar) ks : (forall k, B (k + d) = lb (A k)) -> filter has_open (map B (map (fun k => k + d) ks)) = map lb (filter has_open (map A ks)).
  Proof.
    intro H. induction ks as [|k ks IH]; [reflexivity|]. cbn [map filter]. rewrite H, IH. assert (E : has_open (lb (A k)) = has_open (A k)) by reflexivity. rewrite E. now destruct (has_open (A k)).
  Qed.
  Lemma reach_later acc c s : reach acc c (map lb s) = reach acc c s.
  Proof. revert acc. induction s as [|b s IH]; intro acc; [reflexivity|]. cbn [map reach]. cbn [later_bar b_trades b_med]. destruct (Qleb _ _); [reflexivity|apply IH]. Qed.
  Lemma w_median_later sort g : order_timeless d sort -> w_median sort (map lb g) = w_median sort g.
  Proof. intro O. unfold w_median. rewrite (O g), reach_later. now rewrite (col (fun b => inject_Z (b_trades b))). Qed.
  Lemma traded_f_later g : traded_f (map lb g) = traded_f g.
  Proof. unfold traded_f. induction g as [|b g IH]; [reflexivity|]. cbn [map flat_map]. now rewrite IH. Qed.
  Lemma agg_later sort k g : order_timeless d sort -> agg sort (k + d) (map lb g) = lb (agg sort k g).
  Proof. intro O. unfold agg, vwap_of. rewrite (w_median_later sort g O). now rewrite !(col b_open), !(col b_high), !(col b_low), !(col b_close), !(col b_vol), !(col b_trades), !(col traded). Qed.
  Lemma agg_f_later sort k g : order_timeless d sort -> agg_f sort (k + d) (map lb g) = lb (agg_f sort k g).
  Proof. intro O. unfold agg_f, vwap_of_f, vol_sum_f. rewrite (w_median_later sort g O), traded_f_later. now rewrite !(col b_open), !(col b_high), !(col b_low), !(col b_close), !(col b_vol), !(col b_trades). Qed.
  Lemma resample_later sort df : order_timeless d sort -> resample sort tf (map lb df) = map lb (resample sort tf df).
  Proof. intro O. unfold resample. rewrite keys_later, uniq_later. apply rows_later. intro k. rewrite group_later. now apply agg_later. Qed.
  Lemma resample_f_later sort df : order_timeless d sort -> resample_f sort tf (map lb df) = map lb (resample_f sort tf df).
  Proof. intro O. unfold resample_f. rewrite keys_later, uniq_later. apply rows_later. intro k. rewrite group_later. now apply agg_f_later. Qed.
End Group.
Lemma stored_later d ks l : map stored (combine (map (fun t => t + d) ks) l) = map (later_bar d) (map stored (combine ks l)).
Proof. revert l. induction ks as [|k ks IH]; intros [|b l]; [reflexivity..|]. cbn [map combine]. now rewrite IH. Qed.
Lemma tl_later d ks : tl (map (fun t => t + d) ks) = map (fun t => t + d) (tl ks).
Proof. now destruct ks. Qed.
Lemma stored_bars_later px am ts I m : ts <> [] -> ascZ ts -> 512 <= I -> (512 | I) -> 2 ^ 60 <= hd 0 ts -> 2 ^ 60 <= hd 0 ts + m * I ->
  last ts 0 + 2 * I + 512 < 2 ^ 61 -> last ts 0 + m * I + 2 * I + 512 < 2 ^ 61 ->
  stored_bars px am (later (m * I) ts) I = on_ok (map (later_bar (m * I))) (stored_bars px am ts I) /\
  stored_bars_f px am (later (m * I) ts) I = on_ok (map (later_bar (m * I))) (stored_bars_f px am ts I).
Proof.
  intros NE A I1 I2 H1 H2 L1 L2. unfold stored_bars, stored_bars_f, later. rewrite (modern_shift ts I m NE A I1 I2 H1 H2 L1 L2). destruct (time_bar_indexer ts I) as [c x]. cbn [fst snd].
  split; [destruct (comp_bar_ohlcv px am x)|destruct (comp_bar_ohlcv_f px am x)]; cbn [on_ok]; try reflexivity; now rewrite tl_later, stored_later.
Qed.
