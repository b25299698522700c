(** P_shift3.v -- proofs about changes of the clock (C171): indicators, calendar features, labels. *)
From Verif Require Import Base M_logic M_tbm M_labelkit M_features M_volat M_volume M_footprint M_transforms M_backend S_shift P_time P_shift P_shift2.
Open Scope Z_scope.

Lemma nth_later d ts i : (i < length ts)%nat -> nth i (later d ts) 0 = nth i ts 0 + d.
Proof. intro H. unfold later. now rewrite (nth_map_in _ ts i 0 0). Qed.
Lemma later_length d ts : length (later d ts) = length ts.
Proof. apply map_length. Qed.

(* ------------------------------------------------------------------ *)
(** ** Volatility with time stamps, rates, durations, profiles *)

Lemma ts_alpha_shift exp d ts hl i : (i < length ts)%nat -> ts_alpha exp (later d ts) hl i = ts_alpha exp ts hl i.
Proof.
  intro H. unfold ts_alpha. rewrite !nth_later by lia.
  replace (nth i ts 0 + d - (nth (i - 1) ts 0 + d)) with (nth i ts 0 - nth (i - 1) ts 0) by ring. reflexivity.
Qed.
Lemma m0_state_shift exp d ts y hl i : (i < length ts)%nat -> m0_state exp (later d ts) y hl i = m0_state exp ts y hl i.
Proof.
  induction i as [|i IH]; intro H; [reflexivity|]. cbn [m0_state]. rewrite IH by lia. now rewrite ts_alpha_shift.
Qed.
Lemma et_state_shift exp d ts y hl i : (i < length ts)%nat -> et_state exp (later d ts) y hl i = et_state exp ts y hl i.
Proof.
  induction i as [|i IH]; intro H; [reflexivity|]. cbn [et_state]. rewrite IH by lia. now rewrite ts_alpha_shift.
Qed.
Lemma ewmst0_shift sqrt exp d ts y hl floor : (length y <= length ts)%nat ->
  ewmst_mean0 sqrt exp (later d ts) y hl floor = ewmst_mean0 sqrt exp ts y hl floor.
Proof.
  intro L. unfold ewmst_mean0. destruct (_ && _)%bool; [reflexivity|]. f_equal. apply map_ext_in. intros i Hi.
  apply in_seq in Hi. destruct i; [reflexivity|]. now rewrite m0_state_shift by lia.
Qed.
Lemma ewmst_shift sqrt exp d ts y hl floor : (length y <= length ts)%nat ->
  ewmst sqrt exp (later d ts) y hl floor = ewmst sqrt exp ts y hl floor.
Proof.
  intro L. unfold ewmst. destruct (_ && _)%bool; [reflexivity|]. f_equal. apply map_ext_in. intros i Hi.
  apply in_seq in Hi. destruct i; [reflexivity|]. now rewrite et_state_shift by lia.
Qed.

Lemma bar_rate_shift d ts w : bar_rate (later d ts) w = bar_rate ts w.
Proof.
  unfold bar_rate. rewrite later_length. apply map_ext_in. intros i Hi. apply in_seq in Hi.
  do 2 f_equal. f_equal. unfold rate_count. f_equal. apply filter_ext_in. intros j Hj. apply in_seq in Hj.
  rewrite !nth_later by lia. apply Bool.eq_iff_eq_true. rewrite !Z.leb_le. lia.
Qed.
Lemma bar_duration_shift d ts p : bar_duration (later d ts) p = bar_duration ts p.
Proof.
  unfold bar_duration. rewrite later_length. apply map_ext_in. intros i Hi. apply in_seq in Hi.
  destruct (i <? p)%nat; [reflexivity|]. rewrite !nth_later by lia.
  replace (nth i ts 0 + d - (nth (i - p) ts 0 + d)) with (nth i ts 0 - nth (i - p) ts 0) by ring. reflexivity.
Qed.

Lemma ssr_later d ts v : ss_right (later d ts) (v + d) = ss_right ts v.
Proof. apply ss_right_shift. Qed.
Lemma ssl_later d ts v : ss_left (later d ts) (v + d) = ss_left ts v.
Proof. apply ss_left_shift. Qed.

Lemma aggregate_shift d ts hi lo plv pbv psv s e tick :
  aggregate_footprint (later d ts) hi lo plv pbv psv (s + d) (e + d) tick = aggregate_footprint ts hi lo plv pbv psv s e tick.
Proof. unfold aggregate_footprint, agg_range. now rewrite ssr_later, ssl_later. Qed.
Lemma profile_at_shift d ts hi lo plv pbv psv W nb tick pct i : (i < length ts)%nat ->
  profile_at (later d ts) hi lo plv pbv psv W nb tick pct i = profile_at ts hi lo plv pbv psv W nb tick pct i.
Proof.
  intro H. unfold profile_at. cbv zeta. rewrite nth_later by exact H.
  replace (nth i ts 0 + d - W) with (nth i ts 0 - W + d) by ring. now rewrite aggregate_shift.
Qed.
Lemma run_all_ext {A} (f g : nat -> result A) l : (forall i, In i l -> f i = g i) -> run_all f l = run_all g l.
Proof.
  induction l as [|i l IH]; intro H; cbn [run_all]; [reflexivity|]. rewrite H by now left.
  rewrite IH by (intros j Hj; apply H; now right). reflexivity.
Qed.
Lemma rolling_shift d ts hi lo plv pbv psv W nb tick pct : (length plv <= length ts)%nat ->
  volume_profile_rolling (later d ts) hi lo plv pbv psv W nb tick pct = volume_profile_rolling ts hi lo plv pbv psv W nb tick pct.
Proof.
  intro L. unfold volume_profile_rolling. cbv zeta.
  assert (E : ss_left (later d ts) (nth 0 (later d ts) 0 + W) = ss_left ts (nth 0 ts 0 + W)).
  { destruct ts as [|t ts]; [reflexivity|]. rewrite nth_later by (cbn; lia).
    replace (nth 0 (t :: ts) 0 + d + W) with (nth 0 (t :: ts) 0 + W + d) by ring. apply ssl_later. }
  rewrite E. apply run_all_ext. intros i Hi. apply in_seq in Hi.
  destruct (i <? _)%nat; [reflexivity|]. apply profile_at_shift. lia.
Qed.
Lemma developing_shift d ts hi lo plv pbv psv s e nb tick pct :
  volume_profile_developing (later d ts) hi lo plv pbv psv (s + d) (e + d) nb tick pct =
  volume_profile_developing ts hi lo plv pbv psv s e nb tick pct.
Proof. unfold volume_profile_developing. now rewrite ssr_later, ssl_later. Qed.

(* ------------------------------------------------------------------ *)
(** ** Calendar features *)

Lemma cue_week sin cos t n : time_cue sin cos (t + n * (7 * DAY)) = time_cue sin cos t.
Proof.
  unfold time_cue. cbv zeta.
  assert (E : (t + n * (7 * DAY)) / 1000000000 = t / 1000000000 + (n * 7) * 86400).
  { replace (t + n * (7 * DAY)) with (t + (n * 7 * 86400) * 1000000000) by (unfold DAY; ring). rewrite Z.div_add by lia. ring. }
  rewrite E. rewrite Z.mod_add by lia. rewrite Z.div_add by lia.
  replace (t / 1000000000 / 86400 + n * 7 + 3) with (t / 1000000000 / 86400 + 3 + n * 7) by ring.
  rewrite Z.mod_add by lia. reflexivity.
Qed.
Lemma cue_day sin cos t n : let c := time_cue sin cos (t + n * DAY) in let c0 := time_cue sin cos t in
  c_sin_td c = c_sin_td c0 /\ c_cos_td c = c_cos_td c0 /\ c_asia c = c_asia c0 /\ c_eu c = c_eu c0 /\ c_us c = c_us c0 /\
  c_trans c = c_trans c0 /\ c_top c = c_top c0.
Proof.
  unfold time_cue. cbv zeta. cbn [c_sin_td c_cos_td c_asia c_eu c_us c_trans c_top].
  assert (E : (t + n * DAY) / 1000000000 = t / 1000000000 + n * 86400).
  { replace (t + n * DAY) with (t + (n * 86400) * 1000000000) by (unfold DAY; ring). rewrite Z.div_add by lia. ring. }
  rewrite E. rewrite Z.mod_add by lia. repeat split.
Qed.

Lemma day_of_shift t n : day_of (t + n * DAY) = day_of t + n.
Proof. unfold day_of. rewrite Z.div_add by (unfold DAY; lia). reflexivity. Qed.
Lemma of_day_shift n ts l d : of_day (later (n * DAY) ts) l (d + n) = of_day ts l d.
Proof.
  unfold of_day, later. revert l. induction ts as [|t ts IH]; intros [|x l]; cbn [map combine filter fst snd]; try reflexivity.
  rewrite day_of_shift. replace (day_of t + n =? d + n) with (day_of t =? d) by (apply Bool.eq_iff_eq_true; rewrite !Z.eqb_eq; lia).
  destruct (day_of t =? d); cbn [map snd]; [f_equal|]; apply IH.
Qed.
Lemma daily_gap_shift n ts close : daily_gap (later (n * DAY) ts) close = daily_gap ts close.
Proof.
  unfold daily_gap. unfold later at 2. rewrite map_map. apply map_ext. intro t.
  rewrite Z.mod_add by (unfold DAY; lia). destruct (t mod DAY =? 0); [|reflexivity].
  unfold daily_gap_of. rewrite day_of_shift, !of_day_shift. reflexivity.
Qed.

Definition bar_later (d : Z) (b : obar) : obar := mkOBar (b_ts b + d) (b_high b) (b_low b) (b_close b).
Lemma nodup_shift n l : nodup Z.eq_dec (map (fun x => x + n) l) = map (fun x => x + n) (nodup Z.eq_dec l).
Proof.
  induction l as [|x l IH]; cbn [map nodup]; [reflexivity|].
  destruct (in_dec Z.eq_dec x l) as [H|H]; destruct (in_dec Z.eq_dec (x + n) (map (fun x => x + n) l)) as [H'|H'].
  - exact IH.
  - exfalso. apply H'. apply in_map_iff. now exists x.
  - exfalso. apply H. apply in_map_iff in H'. destruct H' as [y [E Hy]]. replace x with y by lia. exact Hy.
  - cbn [map]. now rewrite IH.
Qed.
Lemma day_data_shift n rows d : day_data (map (bar_later (n * DAY)) rows) (d + n) = map (bar_later (n * DAY)) (day_data rows d).
Proof.
  unfold day_data. induction rows as [|b rows IH]; cbn [map filter]; [reflexivity|].
  cbn [b_ts bar_later]. rewrite day_of_shift.
  replace (day_of (b_ts b) + n =? d + n) with (day_of (b_ts b) =? d) by (apply Bool.eq_iff_eq_true; rewrite !Z.eqb_eq; lia).
  destruct (day_of (b_ts b) =? d); cbn [map]; [f_equal|]; apply IH.
Qed.
Lemma orb_ok_shift n dd : orb_day_ok (map (bar_later (n * DAY)) dd) = orb_day_ok dd.
Proof.
  destruct dd as [|b dd]; [reflexivity|]. cbn [orb_day_ok map b_ts bar_later length]. rewrite map_length.
  rewrite Z.mod_add by (unfold DAY; lia). reflexivity.
Qed.
Lemma filter_map_comm {A B} (p : B -> bool) (f : A -> B) l : filter p (map f l) = map f (filter (fun x => p (f x)) l).
Proof. induction l as [|x l IH]; cbn; [reflexivity|]. destruct (p (f x)); cbn; now rewrite IH. Qed.
Lemma long_shift n dd : long_hits (map (bar_later (n * DAY)) dd) = map (fun x => x + n * DAY) (long_hits dd).
Proof.
  unfold long_hits. rewrite orb_ok_shift. destruct (orb_day_ok dd); [|reflexivity].
  rewrite firstn_map, skipn_map, filter_map_comm, !map_map. reflexivity.
Qed.
Lemma short_shift n dd : short_hits (map (bar_later (n * DAY)) dd) = map (fun x => x + n * DAY) (short_hits dd).
Proof.
  unfold short_hits. rewrite orb_ok_shift. destruct (orb_day_ok dd); [|reflexivity].
  rewrite firstn_map, skipn_map, filter_map_comm, !map_map. reflexivity.
Qed.
Lemma flags_shift hits n rows :
  (forall dd, hits (map (bar_later (n * DAY)) dd) = map (fun x => x + n * DAY) (hits dd)) ->
  orb_flags hits (map (bar_later (n * DAY)) rows) = orb_flags hits rows.
Proof.
  intro H. unfold orb_flags. cbv zeta. rewrite !map_map. cbn [b_ts bar_later].
  assert (E : map (fun x => day_of (b_ts x + n * DAY)) rows = map (fun x => x + n) (map (fun b => day_of (b_ts b)) rows)).
  { rewrite map_map. apply map_ext. intro b. apply day_of_shift. }
  rewrite E, nodup_shift.
  assert (F : forall ds, flat_map (fun d => hits (day_data (map (bar_later (n * DAY)) rows) d)) (map (fun x => x + n) ds) =
    map (fun x => x + n * DAY) (flat_map (fun d => hits (day_data rows d)) ds)).
  { induction ds as [|d ds IH]; cbn [map flat_map]; [reflexivity|]. rewrite map_app, IH. f_equal. rewrite day_data_shift. apply H. }
  rewrite F. apply map_ext. intro b. generalize (flat_map (fun d => hits (day_data rows d)) (nodup Z.eq_dec (map (fun b0 => day_of (b_ts b0)) rows))) as l.
  induction l as [|x l IH]; cbn [map existsb]; [reflexivity|]. rewrite IH. f_equal.
  apply Bool.eq_iff_eq_true. rewrite !Z.eqb_eq. lia.
Qed.

(* ------------------------------------------------------------------ *)
(** ** Lagged returns: float64 time stamps *)

Definition era (d W t : Z) : Prop :=
  2 ^ 60 + W + 256 <= t /\ t + W + 256 < 2 ^ 61 /\ 2 ^ 60 + W + 256 <= t + d /\ t + d + W + 256 < 2 ^ 61.

Lemma f64_era d W t : (512 | d) -> 0 <= W -> era d W t -> f64 (t + d) = f64 t + d.
Proof. intros D HW (A & B & C & E). apply f64_shift; [lia|lia|exact D]. Qed.
Lemma f64_era_plus d W t : (512 | d) -> 0 <= W -> era d W t -> f64 (f64 (t + d) + W) = f64 (f64 t + W) + d.
Proof.
  intros D HW H. rewrite (f64_era d W t D HW H). destruct H as (A & B & C & E).
  pose proof (f64_err t ltac:(lia)). replace (f64 t + d + W) with (f64 t + W + d) by ring.
  apply f64_shift; [lia|lia|exact D].
Qed.
Lemma f64_era_minus d W t : (512 | d) -> 0 <= W -> era d W t -> f64 (f64 (t + d) - W) = f64 (f64 t - W) + d.
Proof.
  intros D HW H. rewrite (f64_era d W t D HW H). destruct H as (A & B & C & E).
  pose proof (f64_err t ltac:(lia)). replace (f64 t + d - W) with (f64 t - W + d) by ring.
  apply f64_shift; [lia|lia|exact D].
Qed.
Lemma fts_shift d W ts : (512 | d) -> 0 <= W -> (forall t, In t ts -> era d W t) ->
  map f64 (later d ts) = later d (map f64 ts).
Proof.
  intros D HW H. unfold later. rewrite !map_map. apply map_ext_in. intros t Ht. now apply (f64_era d W), H.
Qed.

Lemma lagged_shift ln d ts close W is_log : (512 | d) -> (length close <= length ts)%nat ->
  (forall t, In t ts -> era d W t) ->
  comp_lagged_returns ln (later d ts) close W is_log = comp_lagged_returns ln ts close W is_log.
Proof.
  intros D L H. unfold comp_lagged_returns. destruct (Z.leb_spec W 0) as [|HW]; [reflexivity|]. cbv zeta. f_equal.
  assert (HW' : 0 <= W) by lia.
  rewrite (fts_shift d W ts D HW' H).
  destruct ts as [|t0 ts0]; [destruct close; [reflexivity|cbn in L; lia]|].
  set (ts := t0 :: ts0) in *.
  assert (I0 : In (nth 0 ts 0) ts) by now left.
  assert (L0 : (0 < length ts)%nat) by (unfold ts; cbn; lia).
  rewrite (nth_later d ts 0) by exact L0. rewrite (f64_era_plus d W _ D HW' (H _ I0)), ssl_later.
  apply map_ext_in. intros i Hi. apply in_seq in Hi.
  destruct (i <? _)%nat; [reflexivity|].
  assert (Li : (i < length ts)%nat) by lia.
  rewrite (nth_later d ts i) by exact Li. rewrite (f64_era_minus d W _ D HW') by (apply H; now apply nth_In).
  rewrite ssr_later. reflexivity.
Qed.

(* ------------------------------------------------------------------ *)
(** ** Labels *)

Lemma scan_shift ln rnd d ts close t0 base side mc up lo js : (forall j, In j js -> (j < length ts)%nat) ->
  forall ret mu ml,
  tbm_scan ln rnd (later d ts) close (t0 + d) base side mc up lo js ret mu ml = tbm_scan ln rnd ts close t0 base side mc up lo js ret mu ml.
Proof.
  induction js as [|j js IH]; intros H ret mu ml; cbn [tbm_scan]; [reflexivity|].
  rewrite nth_later by (apply H; now left).
  replace (nth j ts 0 + d - (t0 + d)) with (nth j ts 0 - t0) by ring.
  destruct (rnd (nth j ts 0 - t0) <? mc); [apply IH; intros; apply H; now right|].
  destruct (if (Qltb 0 _ && barrier_valid up)%bool then _ else _) as [mu' ml'].
  destruct (q_ge_ext _ _); [reflexivity|]. destruct (q_le_ext _ _); [reflexivity|].
  apply IH. intros; apply H; now right.
Qed.

Lemma t1_shift d ts e vert : (512 | d) -> (e < length ts)%nat ->
  (forall v t, vert = Some v -> In t ts -> 0 <= v /\ era d v t) ->
  tbm_t1_idx f64 (later d ts) e vert = tbm_t1_idx f64 ts e vert.
Proof.
  intros D He H. unfold tbm_t1_idx. rewrite later_length. destruct vert as [v|]; [|reflexivity].
  assert (Hv : 0 <= v) by (destruct ts as [|t ts]; [cbn in He; lia|]; apply (H v t eq_refl); now left).
  assert (H' : forall t, In t ts -> era d v t) by (intros t Ht; apply (H v t eq_refl Ht)).
  rewrite (fts_shift d v ts D Hv H'). rewrite nth_later by exact He.
  rewrite (f64_era_plus d v _ D Hv) by (apply H'; now apply nth_In). now rewrite ssr_later.
Qed.

Lemma ss_right_len l v : (ss_right l v <= length l)%nat.
Proof. induction l as [|x l IH]; cbn; [lia|]. destruct (x <=? v); lia. Qed.

Lemma event_shift ln d ts close e tgt bottom top vert mc meta side mr : (512 | d) -> (e < length ts)%nat ->
  (forall v t, vert = Some v -> In t ts -> 0 <= v /\ era d v t) ->
  tbm_event ln f64 (later d ts) close e tgt bottom top vert mc meta side mr = tbm_event ln f64 ts close e tgt bottom top vert mc meta side mr.
Proof.
  intros D He H. unfold tbm_event. cbv zeta. rewrite t1_shift by assumption.
  destruct (tbm_t1_idx f64 ts e vert <=? Z.of_nat e) eqn:E; [reflexivity|]. apply Z.leb_gt in E.
  rewrite nth_later by exact He. rewrite scan_shift; [reflexivity|].
  intros j Hj. apply in_seq in Hj.
  assert (tbm_t1_idx f64 ts e vert <= Z.of_nat (length ts) - 1).
  { unfold tbm_t1_idx. destruct vert as [v|]; [|lia].
    pose proof (ss_right_len (map f64 ts) (f64 (f64 (nth e ts 0) + v))) as R. rewrite map_length in R. lia. }
  lia.
Qed.

Lemma barrier_shift ln d ts close events targets bottom top vert mc sides mr : (512 | d) ->
  (forall e, In e events -> (e < length ts)%nat) ->
  (forall v t, vert = Some v -> 0 < v -> In t ts -> era d v t) ->
  triple_barrier ln f64 (later d ts) close events targets bottom top vert mc sides mr =
  triple_barrier ln f64 ts close events targets bottom top vert mc sides mr.
Proof.
  intros D He H. unfold triple_barrier. rewrite later_length.
  destruct (match vert with Some v => v <=? 0 | None => false end) eqn:V; [reflexivity|].
  repeat match goal with |- (if ?c then _ else _) = (if ?c then _ else _) => destruct c; [reflexivity|] end.
  f_equal. apply map_ext_in. intros k Hk. apply in_seq in Hk. apply event_shift; [exact D|apply He, nth_In; lia|].
  intros v t -> Ht. apply Z.leb_gt in V. split; [lia|]. now apply (H v t).
Qed.

Lemma ss_left_last ts v : ts <> [] -> v <= last ts 0 -> (ss_left ts v < length ts)%nat.
Proof.
  induction ts as [|x ts IH]; intros H1 H2; [easy|]. cbn [ss_left length].
  destruct (Z.ltb_spec x v); [|lia]. destruct ts as [|y ts]; [cbn [last] in H2; lia|].
  assert ((ss_left (y :: ts) v < length (y :: ts))%nat); [|lia]. apply IH; [discriminate|exact H2].
Qed.

Lemma drop_shift d ts times vert : drop_trailing (later d ts) (later d times) vert = drop_trailing ts times vert.
Proof.
  unfold drop_trailing. destruct ts as [|t0 ts0] eqn:E; [reflexivity|]. rewrite <- E.
  assert (Hne : ts <> []) by (rewrite E; discriminate).
  replace (last (later d ts) 0) with (last ts 0 + d) by (unfold later; now rewrite last_map).
  assert (F : filter (fun k => nth k (later d times) 0 + vert <=? last ts 0 + d) (seq 0 (length (later d times))) =
              filter (fun k => nth k times 0 + vert <=? last ts 0) (seq 0 (length times))).
  { rewrite later_length. apply filter_ext_in. intros k Hk. apply in_seq in Hk. rewrite nth_later by lia.
    apply Bool.eq_iff_eq_true. rewrite !Z.leb_le. lia. }
  rewrite F. rewrite E. reflexivity.
Qed.

Lemma labels_shift ln d ts price times targets bottom top vert mc sides mr : (512 | d) ->
  (forall t, 0 < vert -> In t ts -> era d vert t) ->
  compute_labels ln f64 (later d ts) price (later d times) targets bottom top vert mc sides mr =
  compute_labels ln f64 ts price times targets bottom top vert mc sides mr.
Proof.
  intros D H. unfold compute_labels. rewrite drop_shift.
  destruct (drop_trailing ts times vert) as [kept|e] eqn:DT; [|reflexivity]. cbv zeta.
  assert (K : ts <> [] /\ forall k, In k kept -> (k < length times)%nat /\ nth k times 0 + vert <= last ts 0).
  { unfold drop_trailing in DT. destruct ts as [|t0 ts0]; [discriminate|]. split; [discriminate|].
    injection DT as <-. intros k Hk. apply filter_In in Hk. destruct Hk as [Hk1 Hk2]. apply in_seq in Hk1. apply Z.leb_le in Hk2.
    split; [lia|exact Hk2]. }
  destruct K as [Hne K].
  assert (E : map (fun k => event_index (later d ts) (nth k (later d times) 0)) kept = map (fun k => event_index ts (nth k times 0)) kept).
  { apply map_ext_in. intros k Hk. destruct (K k Hk) as [K1 _]. unfold event_index. rewrite nth_later by exact K1. apply ssl_later. }
  rewrite E. destruct (Z.leb_spec vert 0) as [V|V].
  - unfold triple_barrier. replace (vert <=? 0) with true by (symmetry; now apply Z.leb_le). reflexivity.
  - rewrite barrier_shift; [reflexivity|exact D| |].
    + intros e He. apply in_map_iff in He. destruct He as [k [<- Hk]]. destruct (K k Hk) as [_ K2].
      apply ss_left_last; [exact Hne|]. lia.
    + intros v t Ev Hv Ht. injection Ev as <-. now apply H.
Qed.
