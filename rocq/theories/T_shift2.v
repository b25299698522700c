(** T_shift2.v -- indicators, calendar features and labels under a change of the clock (C171). *)
From Verif Require Import Base M_logic M_tbm M_labelkit M_features M_volat M_volume M_footprint M_transforms M_backend S_shift P_time P_shift P_shift2 P_shift3.
Open Scope Z_scope.

(* ================================================================== *)
(** * C171  Indicators and labels do not depend on the date *)

(** Indicators that use only differences of time stamps: any shift of the clock. *)
Theorem C171_durations : forall (sqrt exp : Q -> Q) (d : Z) (ts : list Z) (y : list (option Q)) (hl floor : Q)
    (w span : Z) (periods : nat),
  bar_rate (later d ts) w = bar_rate ts w /\
  bar_duration (later d ts) periods = bar_duration ts periods /\
  bar_duration_ewma (later d ts) span = bar_duration_ewma ts span /\
  ((length y <= length ts)%nat ->
     ewmst sqrt exp (later d ts) y hl floor = ewmst sqrt exp ts y hl floor /\
     ewmst_mean0 sqrt exp (later d ts) y hl floor = ewmst_mean0 sqrt exp ts y hl floor).
Proof.
  intros. split; [apply bar_rate_shift|]. split; [apply bar_duration_shift|].
  split; [unfold bar_duration_ewma; now rewrite bar_duration_shift|].
  intro L. split; [now apply ewmst_shift|now apply ewmst0_shift].
Qed.

(** Volume profiles: the rolling profile for any shift, the aggregated footprint and the developing
    profile when the two ends of the range move along. *)
Theorem C171_profiles : forall (d : Z) (ts : list Z) (hi lo : list Q) (plv : list (list Z)) (pbv psv : list (list Q))
    (W s e : Z) (n_bins : option Z) (tick pct : Q),
  ((length plv <= length ts)%nat ->
    volume_profile_rolling (later d ts) hi lo plv pbv psv W n_bins tick pct =
    volume_profile_rolling ts hi lo plv pbv psv W n_bins tick pct) /\
  aggregate_footprint (later d ts) hi lo plv pbv psv (s + d) (e + d) tick =
    aggregate_footprint ts hi lo plv pbv psv s e tick /\
  volume_profile_developing (later d ts) hi lo plv pbv psv (s + d) (e + d) n_bins tick pct =
    volume_profile_developing ts hi lo plv pbv psv s e n_bins tick pct.
Proof.
  intros. split; [intro; now apply rolling_shift|]. split; [apply aggregate_shift|apply developing_shift].
Qed.

(** Calendar features: the daily gap and the opening range breakout repeat after whole days (86400 s), the
    time cues after whole weeks, and of the cues all but the two of the day of the week after whole
    days. *)
Theorem C171_calendar : forall (sin cos : Q -> Q) (n : Z) (ts : list Z) (close : list (option Q)) (rows : list obar),
  let day := 86400 * 1000000000 in
  daily_gap (later (n * day) ts) close = daily_gap ts close /\
  orb_long (map (fun b => mkOBar (b_ts b + n * day) (b_high b) (b_low b) (b_close b)) rows) = orb_long rows /\
  orb_short (map (fun b => mkOBar (b_ts b + n * day) (b_high b) (b_low b) (b_close b)) rows) = orb_short rows /\
  time_cues sin cos (later (n * (7 * day)) ts) = time_cues sin cos ts /\
  forall t, let c := time_cue sin cos (t + n * day) in let c0 := time_cue sin cos t in
    c_sin_td c = c_sin_td c0 /\ c_cos_td c = c_cos_td c0 /\ c_asia c = c_asia c0 /\ c_eu c = c_eu c0 /\ c_us c = c_us c0 /\
    c_trans c = c_trans c0 /\ c_top c = c_top c0.
Proof.
  intros sin cos n ts close rows day. change day with DAY.
  split; [apply daily_gap_shift|]. split; [apply (flags_shift long_hits); intro; apply long_shift|].
  split; [apply (flags_shift short_hits); intro; apply short_shift|].
  split; [|intro t; apply cue_day].
  unfold time_cues, later. rewrite map_map. apply map_ext. intro t. apply cue_week.
Qed.

(** Lagged returns are computed with float64 time stamps. In the years 2006 to 2043 the rounding goes
    to multiples of 256 ns; every shift by a multiple of 512 ns (whole seconds are) that stays
    within these years keeps the returns. *)
Theorem C171_lagged : forall (ln : Q -> Q) (d : Z) (ts : list Z) (close : list Q) (W : Z) (is_log : bool),
  (512 | d) -> (length close <= length ts)%nat ->
  (forall t, In t ts -> 2 ^ 60 + W + 256 <= t /\ t + W + 256 < 2 ^ 61 /\ 2 ^ 60 + W + 256 <= t + d /\ t + d + W + 256 < 2 ^ 61) ->
  comp_lagged_returns ln (later d ts) close W is_log = comp_lagged_returns ln ts close W is_log.
Proof. exact lagged_shift. Qed.

(** The same for triple barrier labels: labels, touch positions, returns and weights, with or without
    the vertical barrier ... *)
Theorem C171_barriers : forall (ln : Q -> Q) (d : Z) (ts : list Z) (close : list Q) (events : list nat) (targets : list Q)
    (bottom top : ext) (vert : option Z) (min_close : Z) (sides : option (list Z)) (min_ret : Q),
  (512 | d) -> (forall e, In e events -> (e < length ts)%nat) ->
  (forall v t, vert = Some v -> 0 < v -> In t ts ->
     2 ^ 60 + v + 256 <= t /\ t + v + 256 < 2 ^ 61 /\ 2 ^ 60 + v + 256 <= t + d /\ t + d + v + 256 < 2 ^ 61) ->
  triple_barrier ln f64 (later d ts) close events targets bottom top vert min_close sides min_ret =
  triple_barrier ln f64 ts close events targets bottom top vert min_close sides min_ret.
Proof. exact barrier_shift. Qed.

(** ... and for the labelling kit, with the event times moved along. *)
Theorem C171_labels : forall (ln : Q -> Q) (d : Z) (ts : list Z) (price : list Q) (times : list Z) (targets : list Q)
    (bottom top : ext) (vert min_close : Z) (sides : option (list Z)) (min_ret : Q),
  (512 | d) ->
  (forall t, 0 < vert -> In t ts ->
     2 ^ 60 + vert + 256 <= t /\ t + vert + 256 < 2 ^ 61 /\ 2 ^ 60 + vert + 256 <= t + d /\ t + d + vert + 256 < 2 ^ 61) ->
  compute_labels ln f64 (later d ts) price (later d times) targets bottom top vert min_close sides min_ret =
  compute_labels ln f64 ts price times targets bottom top vert min_close sides min_ret.
Proof. exact labels_shift. Qed.

Definition x171_ts : list Z := [1600000000000000100; 1600000000000000300; 1600000001000000090; 1600000002000000000].
Definition x171_px : list Q := [100; 101; 104; 90]%Q.
Definition x171_ln (x : Q) : Q := (x / 100)%Q.

Example C171_example :
  (forall t, In t x171_ts -> 2 ^ 60 + 1000000000 + 256 <= t /\ t + 1000000000 + 256 < 2 ^ 61 /\
     2 ^ 60 + 1000000000 + 256 <= t + 5000000000 /\ t + 5000000000 + 1000000000 + 256 < 2 ^ 61) /\
  (512 | 5000000000) /\
  comp_lagged_returns x171_ln (later 5000000000 x171_ts) x171_px 1000000000 false =
    comp_lagged_returns x171_ln x171_ts x171_px 1000000000 false /\
  (exists r, comp_lagged_returns x171_ln x171_ts x171_px 1000000000 false = Ok [NaN; NaN; Fin r; Fin (90 / 104 - 1)] /\ r == 1 # 25)%Q /\
  (exists a b, compute_labels x171_ln f64 x171_ts x171_px [1600000000000000100; 1600000000000000300] [1 # 50; 1 # 50]%Q (Fin 1) (Fin 1)
     1000000000 0 None 0 = Ok [a; b] /\ tb_label (snd a) = 1 /\ tb_touch (snd b) = Some 2%nat) /\
  bar_rate [0; 1; 5; 6] 4 = bar_rate [1000; 1001; 1005; 1006] 4 /\
  daily_gap [86399000000000; 86400000000000] [Some 2; Some 3]%Q = [NaN; Fin ((3 - 2) / 2)]%Q.
Proof.
  split. { intros t [<-|[<-|[<-|[<-|[]]]]]; repeat split; vm_compute; congruence. }
  split; [exists 9765625; reflexivity|]. split; [vm_compute; reflexivity|].
  split; [eexists; split; [vm_compute; reflexivity|vm_compute; reflexivity]|].
  split; [do 2 eexists; split; [vm_compute; reflexivity|split; vm_compute; reflexivity]|].
  split; vm_compute; reflexivity.
Qed.

(** A shift by 35 ns: a one-second return appears or disappears. *)
Theorem C171_lagged_refuted : exists ts d close,
  (forall t, In t ts -> 2 ^ 60 + 1000000000 + 256 <= t /\ t + d + 1000000000 + 256 < 2 ^ 61) /\ 0 < d /\
  comp_lagged_returns x171_ln ts close 1000000000 false = Ok [NaN; Fin (110 / 100 - 1)]%Q /\
  comp_lagged_returns x171_ln (later d ts) close 1000000000 false = Ok [NaN; NaN].
Proof.
  exists [1600000000000000100; 1600000001000000090], 35, [100; 110]%Q.
  split; [intros t [<-|[<-|[]]]; split; vm_compute; congruence|]. split; [lia|]. split; vm_compute; reflexivity.
Qed.
(** A shift by 20 ns: an event with a label loses it (nothing is written for it). *)
Theorem C171_labels_refuted : exists ts d close a b,
  (forall t, In t ts -> 2 ^ 60 + 1000000000 + 256 <= t /\ t + d + 1000000000 + 256 < 2 ^ 61) /\ 0 < d /\
  triple_barrier x171_ln f64 ts close [0%nat] [1 # 50]%Q (Fin 1) (Fin 1) (Some 1000000000) 0 None 0 = Ok [a] /\
  triple_barrier x171_ln f64 (later d ts) close [0%nat] [1 # 50]%Q (Fin 1) (Fin 1) (Some 1000000000) 0 None 0 = Ok [b] /\
  tb_label a = 1 /\ tb_label b = 0 /\ tb_touch a = Some 1%nat /\ tb_touch b = None.
Proof.
  exists [1600000000000000100; 1600000001000000120], 20, [100; 110]%Q. do 2 eexists.
  split; [intros t [<-|[<-|[]]]; split; vm_compute; congruence|]. split; [lia|].
  split; [vm_compute; reflexivity|]. split; [vm_compute; reflexivity|]. repeat split.
Qed.
(** A shift by hours (another time zone): the gap of the day disappears. *)
Theorem C171_zone_refuted : exists ts close,
  daily_gap ts close = [NaN; Fin ((3 - 2) / 2)]%Q /\ daily_gap (later 3600000000000 ts) close = [NaN; NaN].
Proof. exists [86399000000000; 86400000000000], [Some 2; Some 3]%Q. split; vm_compute; reflexivity. Qed.

Print Assumptions C171_durations.
Print Assumptions C171_profiles.
Print Assumptions C171_calendar.
Print Assumptions C171_lagged.
Print Assumptions C171_barriers.
Print Assumptions C171_labels.
Print Assumptions C171_lagged_refuted.
Print Assumptions C171_labels_refuted.
Print Assumptions C171_zone_refuted.
