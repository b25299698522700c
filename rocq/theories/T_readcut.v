(** T_readcut.v -- C201: a range of resampled bars is the range of the bars, resampled. *)
From Coq Require Import Sorting.Sorted.
From Verif Require Import Base M_tbio M_float M_float16 P_readcut T_tbio.
Open Scope Z_scope.

(** Choosing periods before resampling is choosing rows after it, exact and in floats, whatever the choice. *)
Theorem C201_cut : forall sort tf (P : Z -> bool) df,
  resample sort tf (filter (fun b => P (floor_to tf (b_ts b))) df) = filter (fun r => P (b_ts r)) (resample sort tf df) /\
  resample_f sort tf (filter (fun b => P (floor_to tf (b_ts b))) df) = filter (fun r => P (b_ts r)) (resample_f sort tf df).
Proof. intros. split; [apply resample_cut|apply resample_f_cut]. Qed.

Lemma day_tf e tf : e mod day_ns = 0 -> (tf | day_ns) -> (tf | e).
Proof. intros E [q Q]. pose proof (Z.div_mod e day_ns ltac:(discriminate)) as K. rewrite E, Z.add_0_r in K. exists (e / day_ns * q). rewrite K at 1. rewrite Q at 1. ring. Qed.
(** Bars of whole days or periods. *)
Lemma range_cut sort store s e tf : e mod day_ns = 0 -> 0 < tf -> (tf | day_ns) -> match s with Some x => (tf | x) | None => True end ->
  (forall b, In b (concat (map p_bars store)) -> (1000 | b_ts b)) -> (forall p b, In p store -> In b (p_bars p) -> p_first p <= b_ts b <= p_last p) ->
  resample sort tf (read_bars store s (Some (end_of e))) =
  filter (fun r => (match s with Some x => x <=? b_ts r | None => true end && (b_ts r <? e + day_ns))%bool) (resample sort tf (read_bars store None None)).
Proof.
  intros E P D S M B. rewrite !(C119_no_bar_lost _ _ _ B). rewrite (filter_true_in (fun _ => (true && true)%bool)) by reflexivity.
  rewrite <- (resample_cut sort tf (fun k => (match s with Some x => x <=? k | None => true end && (k <? e + day_ns))%bool)). f_equal. apply filter_ext_in. intros b I. f_equal.
  - destruct s as [x|]; [|reflexivity]. symmetry. now apply floor_ge.
  - rewrite (floor_lt tf (e + day_ns) (b_ts b) P (Z.divide_add_r _ _ _ (day_tf e tf E D) D)). pose proof (C119_end_day e (b_ts b) E (M b I)) as K.
    destruct (Z.leb_spec (b_ts b) (end_of e)), (Z.ltb_spec (b_ts b) (e + day_ns)); try reflexivity; exfalso; lia.
Qed.
(** Reading a range of whole periods up to an end date gives the rows of that range among all rows; with a daily timeframe those
    that start a day before the end date or earlier. *)
Theorem C201_read : forall sort store s e t, e mod day_ns = 0 -> 0 < tf_ns t -> (tf_ns t | day_ns) -> match s with Some x => (tf_ns t | x) | None => True end ->
  (forall b, In b (concat (map p_bars store)) -> (1000 | b_ts b)) -> (forall p b, In p store -> In b (p_bars p) -> p_first p <= b_ts b <= p_last p) ->
  read sort store s (Some e) (Some t) =
  filter (fun r => (match s with Some x => x <=? b_ts r | None => true end && (b_ts r <? e + day_ns) && (negb (tf_day t) || (b_ts r <=? e - day_ns)))%bool) (read sort store None None (Some t)).
Proof.
  intros sort store s e t E P D S M B. assert (K : is_date e = true) by (unfold is_date; rewrite E; reflexivity). unfold read. cbn [option_map]. rewrite (range_cut sort store s e (tf_ns t) E P D S M B), K.
  destruct (tf_day t); cbn [negb orb andb].
  - generalize (resample sort (tf_ns t) (read_bars store None None)) as l. induction l as [|r l IH]; [reflexivity|]. cbn [filter].
    destruct (match s with Some x => _ | None => _ end && _)%bool; cbn [andb filter]; rewrite IH; reflexivity.
  - apply filter_ext. intro r. now rewrite andb_true_r.
Qed.

(** Without an end: the rows from the start on, whatever the timeframe. *)
Theorem C201_read_from : forall sort store s t, 0 < tf_ns t -> (tf_ns t | s) -> (forall p b, In p store -> In b (p_bars p) -> p_first p <= b_ts b <= p_last p) ->
  read sort store (Some s) None (Some t) = filter (fun r => s <=? b_ts r) (read sort store None None (Some t)).
Proof.
  intros sort store s t P D B. unfold read. cbn [option_map]. rewrite !(C119_no_bar_lost _ _ _ B). rewrite (filter_true_in (fun _ => (true && true)%bool)) by reflexivity.
  rewrite <- (resample_cut sort (tf_ns t) (fun k => s <=? k)). f_equal. apply filter_ext. intro b. rewrite andb_true_r. symmetry. now apply floor_ge.
Qed.
(** An end that is not a date, one nanosecond before a period boundary m: the rows before m. *)
Theorem C201_read_until : forall sort store m t, 0 < tf_ns t -> (tf_ns t | m) -> is_date (m - 1) = false -> (forall p b, In p store -> In b (p_bars p) -> p_first p <= b_ts b <= p_last p) ->
  read sort store None (Some (m - 1)) (Some t) = filter (fun r => b_ts r <? m) (read sort store None None (Some t)).
Proof.
  intros sort store m t P D N B. unfold read. cbn [option_map]. unfold end_of. rewrite N, andb_false_r. rewrite !(C119_no_bar_lost _ _ _ B). rewrite (filter_true_in (fun _ => (true && true)%bool)) by reflexivity.
  rewrite <- (resample_cut sort (tf_ns t) (fun k => k <? m)). f_equal. apply filter_ext. intro b. cbn [andb]. rewrite (floor_lt (tf_ns t) m (b_ts b) P D).
  destruct (Z.leb_spec (b_ts b) (m - 1)), (Z.ltb_spec (b_ts b) m); try reflexivity; exfalso; lia.
Qed.

Lemma sorted_app_cut (l : list bar) m : sorted_bars l -> l = filter (fun b => b_ts b <? m) l ++ filter (fun b => m <=? b_ts b) l.
Proof.
  induction l as [|b l IH]; intro S; [reflexivity|]. inversion S as [|? ? S1 F]; subst. cbn [filter]. rewrite (Z.leb_antisym (b_ts b) m). destruct (Z.ltb_spec (b_ts b) m); cbn [negb app].
  - f_equal. now apply IH.
  - rewrite (filter_true_in (fun b => m <=? b_ts b)); [|intros x I; rewrite Forall_forall in F; specialize (F x I); apply Z.leb_le; lia].
    replace (filter (fun b => b_ts b <? m) l) with (@nil bar); [reflexivity|]. symmetry. apply filter_nil. intros x I. rewrite Forall_forall in F. specialize (F x I). apply Z.ltb_ge. lia.
Qed.
Lemma uniq_app l m : (forall x, In x l -> ~ In x m) -> uniq (l ++ m) = uniq l ++ uniq m.
Proof.
  induction l as [|k l IH]; intro H; [reflexivity|]. cbn [app uniq]. rewrite IH by (intros x I; apply H; now right). rewrite filter_app. f_equal. f_equal.
  apply filter_true_in. intros x I. apply (proj1 (uniq_In _ _)) in I. destruct (Z.eqb_spec x k) as [->|]; [|reflexivity]. now destruct (H k (or_introl eq_refl)).
Qed.
(** Two stretches of bars with a period boundary between them: one after the other. *)
Theorem C201_split : forall sort tf m f g, 0 < tf -> (tf | m) -> (forall b, In b f -> b_ts b < m) -> (forall b, In b g -> m <= b_ts b) ->
  resample sort tf (f ++ g) = resample sort tf f ++ resample sort tf g /\ resample_f sort tf (f ++ g) = resample_f sort tf f ++ resample_f sort tf g.
Proof.
  intros sort tf m f g P D F G.
  assert (KF : forall b, In b f -> floor_to tf (b_ts b) < m) by (intros b I; apply Z.ltb_lt; rewrite (floor_lt tf m _ P D); apply Z.ltb_lt; auto).
  assert (KG : forall b, In b g -> m <= floor_to tf (b_ts b)) by (intros b I; apply Z.leb_le; rewrite (floor_ge tf m _ P D); apply Z.leb_le; auto).
  assert (R : forall A : Z -> list bar -> bar, rows A tf (f ++ g) = rows A tf f ++ rows A tf g).
  { intro A. unfold rows. rewrite map_app, uniq_app, map_app, filter_app.
    - f_equal; f_equal; apply map_ext_in; intros k I; apply (proj1 (uniq_In _ _)) in I; apply in_map_iff in I; destruct I as (b & <- & I); f_equal; unfold group; rewrite filter_app.
      + rewrite (filter_nil _ g); [apply app_nil_r|]. intros x J. apply Z.eqb_neq. specialize (KF b I). specialize (KG x J). lia.
      + rewrite (filter_nil _ f); [reflexivity|]. intros x J. apply Z.eqb_neq. specialize (KF x J). specialize (KG b I). lia.
    - intros x I J. apply in_map_iff in I, J. destruct I as (b & <- & I), J as (c & E & J). specialize (KF b I). specialize (KG c J). lia. }
  split; [exact (R (agg sort))|exact (R (agg_f sort))].
Qed.
Lemma filter_and {A} (f g : A -> bool) l : filter f (filter g l) = filter (fun x => (g x && f x)%bool) l.
Proof. induction l as [|x l IH]; [reflexivity|]. cbn [filter]. destruct (g x); cbn [andb filter]; rewrite IH; reflexivity. Qed.
(** Reading day ranges one after the other is reading them at once, unless the timeframe is given in days. *)
Theorem C201_consecutive : forall sort store s e e' t, e mod day_ns = 0 -> e' mod day_ns = 0 -> e <= e' -> match s with Some x => x <= e + day_ns | None => True end ->
  0 < tf_ns t -> (tf_ns t | day_ns) -> tf_day t = false ->
  sorted_bars (concat (map p_bars store)) -> (forall b, In b (concat (map p_bars store)) -> (1000 | b_ts b)) -> (forall p b, In p store -> In b (p_bars p) -> p_first p <= b_ts b <= p_last p) ->
  read sort store s (Some e') (Some t) = read sort store s (Some e) (Some t) ++ read sort store (Some (e + day_ns)) (Some e') (Some t).
Proof.
  intros sort store s e e' t E E' LE LS P D N SO M B.
  assert (De : (tf_ns t | e + day_ns)) by (apply Z.divide_add_r; [now apply day_tf|exact D]).
  unfold read. cbn [option_map]. rewrite N. cbn [andb]. rewrite !(C119_no_bar_lost _ _ _ B). set (C := concat (map p_bars store)) in *. clearbody C. clear B.
  assert (KE : forall b, In b C -> (b_ts b <=? end_of e) = (b_ts b <? e + day_ns)).
  { intros b I. pose proof (C119_end_day e (b_ts b) E (M b I)) as K. destruct (Z.leb_spec (b_ts b) (end_of e)), (Z.ltb_spec (b_ts b) (e + day_ns)); try reflexivity; exfalso; lia. }
  assert (KE' : forall b, In b C -> (b_ts b <=? end_of e') = (b_ts b <? e' + day_ns)).
  { intros b I. pose proof (C119_end_day e' (b_ts b) E' (M b I)) as K. destruct (Z.leb_spec (b_ts b) (end_of e')), (Z.ltb_spec (b_ts b) (e' + day_ns)); try reflexivity; exfalso; lia. }
  match goal with |- _ = resample _ _ ?f ++ resample _ _ ?g => destruct (C201_split sort (tf_ns t) (e + day_ns) f g P De) as [X _] end.
  - intros b I. apply filter_In in I. destruct I as [I J]. apply andb_true_iff in J. rewrite (KE b I) in J. apply Z.ltb_lt. apply J.
  - intros b I. apply filter_In in I. destruct I as [I J]. apply andb_true_iff in J. apply Z.leb_le. apply J.
  - rewrite <- X. f_equal. rewrite (sorted_app_cut C (e + day_ns) SO) at 1. rewrite filter_app, !filter_and. f_equal; apply filter_ext_in; intros b I; rewrite ?(KE b I), ?(KE' b I).
    + destruct (Z.ltb_spec (b_ts b) (e + day_ns)); cbn [andb]; [|now rewrite andb_false_r]. f_equal. apply Z.ltb_lt. lia.
    + destruct (Z.leb_spec (e + day_ns) (b_ts b)); cbn [andb]; [|reflexivity]. destruct s as [x|]; [|reflexivity]. replace (x <=? b_ts b) with true; [reflexivity|]. symmetry. apply Z.leb_le. lia.
Qed.

(** "Daily rows of two consecutive ranges are those of both" is false: the day between is in neither. *)
Definition rc_store : list part := [mkPart 0 (3 * day_ns) [med_bar 0 1 1; med_bar day_ns 1 1; med_bar (2 * day_ns) 1 1; med_bar (3 * day_ns) 1 1]].
Theorem C201_daily_consecutive_refuted : exists store e e', e mod day_ns = 0 /\ e' mod day_ns = 0 /\ e < e' /\ sorted_bars (concat (map p_bars store)) /\
  (forall b, In b (concat (map p_bars store)) -> (1000 | b_ts b)) /\ (forall p b, In p store -> In b (p_bars p) -> p_first p <= b_ts b <= p_last p) /\
  let t := Some (mkTf day_ns true) in
  map b_ts (read sort_med store None (Some e') t) = [0; day_ns; 2 * day_ns] /\
  map b_ts (read sort_med store None (Some e) t ++ read sort_med store (Some (e + day_ns)) (Some e') t) = [0; 2 * day_ns].
Proof.
  exists rc_store, day_ns, (3 * day_ns). split; [reflexivity|]. split; [reflexivity|]. split; [reflexivity|].
  split; [repeat constructor; vm_compute; discriminate|]. split.
  { intros b I. cbn in I. repeat (destruct I as [<-|I]; [apply Z.mod_divide; [discriminate|reflexivity]|]). destruct I. }
  split; [|split; vm_compute; reflexivity]. intros p b [<-|[]] J. cbn in J. repeat (destruct J as [<-|J]; [vm_compute; split; discriminate|]). destruct J.
Qed.
(** "No row is labelled before the start" and "rows of a range are rows of the whole" are false for a start inside a period. *)
Theorem C201_start_refuted : exists store s t r, (forall p b, In p store -> In b (p_bars p) -> p_first p <= b_ts b <= p_last p) /\
  read sort_med store (Some s) None (Some t) = [r] /\ b_ts r < s /\ forall q, In q (read sort_med store None None (Some t)) -> b_ts q = b_ts r -> b_trades q <> b_trades r.
Proof.
  exists rc_store, (3 * day_ns), (mkTf (2 * day_ns) true). eexists. split.
  { intros p b [<-|[]] J. cbn in J. repeat (destruct J as [<-|J]; [vm_compute; split; discriminate|]). destruct J. }
  split; [vm_compute; reflexivity|]. split; [vm_compute; reflexivity|]. vm_compute. intros q [<-|[<-|[]]]; vm_compute; discriminate.
Qed.

(** Hours of three days. *)
Definition rc_hour : timeframe := mkTf (day_ns / 24) false.
Example C201_example : day_ns mod day_ns = 0 /\ 0 < tf_ns rc_hour /\ (tf_ns rc_hour | day_ns) /\ (tf_ns rc_hour | day_ns / 2) /\ sorted_bars (concat (map p_bars rc_store)) /\
  (forall b, In b (concat (map p_bars rc_store)) -> (1000 | b_ts b)) /\ (forall p b, In p rc_store -> In b (p_bars p) -> p_first p <= b_ts b <= p_last p) /\
  map b_ts (read sort_med rc_store (Some (day_ns / 2)) (Some day_ns) (Some rc_hour)) = [day_ns] /\
  map b_ts (read sort_med rc_store (Some (day_ns / 2)) (Some (2 * day_ns)) (Some rc_hour)) = [day_ns; 2 * day_ns] /\
  map b_ts (read sort_med rc_store (Some (2 * day_ns)) (Some (2 * day_ns)) (Some rc_hour)) = [2 * day_ns].
Proof.
  split; [reflexivity|]. split; [reflexivity|]. split; [exists 24; reflexivity|]. split; [exists 12; reflexivity|]. split; [repeat constructor; vm_compute; discriminate|]. split.
  { intros b I. cbn in I. repeat (destruct I as [<-|I]; [apply Z.mod_divide; [discriminate|reflexivity]|]). destruct I. }
  split; [|repeat split; vm_compute; reflexivity]. intros p b [<-|[]] J. cbn in J. repeat (destruct J as [<-|J]; [vm_compute; split; discriminate|]). destruct J.
Qed.
Example C201_example_from : (tf_ns rc_hour | day_ns) /\ map b_ts (read sort_med rc_store (Some day_ns) None (Some rc_hour)) = [day_ns; 2 * day_ns; 3 * day_ns] /\
  is_date (day_ns - 1) = false /\ map b_ts (read sort_med rc_store None (Some (day_ns - 1)) (Some rc_hour)) = [0].
Proof. split; [exists 24; reflexivity|]. repeat split; vm_compute; reflexivity. Qed.
Example C201_example_cut : map b_ts (resample sort_med 2 ex_df) = [0; 4; 6] /\ map b_ts (resample sort_med 2 (filter (fun b => 3 <? floor_to 2 (b_ts b)) ex_df)) = [4; 6] /\
  map b_ts (resample_f sort_med 2 (filter (fun b => 3 <? floor_to 2 (b_ts b)) ex_df)) = [4; 6].
Proof. repeat split; vm_compute; reflexivity. Qed.
Example C201_example_split : ex_df = firstn 4 ex_df ++ skipn 4 ex_df /\ (2 | 4) /\ (forall b, In b (firstn 4 ex_df) -> b_ts b < 4) /\ (forall b, In b (skipn 4 ex_df) -> 4 <= b_ts b) /\
  map b_ts (resample sort_med 2 (firstn 4 ex_df)) = [0] /\ map b_ts (resample sort_med 2 (skipn 4 ex_df)) = [4; 6].
Proof.
  split; [reflexivity|]. split; [exists 2; reflexivity|]. split; [|split; [|split; vm_compute; reflexivity]]; intros b I; cbn in I; repeat (destruct I as [<-|I]; [cbn; lia|]); destruct I.
Qed.

Print Assumptions C201_cut.
Print Assumptions C201_read.
Print Assumptions C201_read_from.
Print Assumptions C201_read_until.
Print Assumptions C201_split.
Print Assumptions C201_consecutive.
Print Assumptions C201_daily_consecutive_refuted.
Print Assumptions C201_start_refuted.
