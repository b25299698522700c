(** M_transforms.v -- model of the transforms of finmlkit/feature/transforms.py that
    compute something themselves (the others only call the kernels of feature/core,
    modelled in M_features, M_volat, M_volume). *)
From Verif Require Import Base M_features.
Open Scope Q_scope.

(* ------------------------------------------------------------------ *)
(** ** Directional run length *)

(** transforms.py L1651, L1655: [np.sign]; the sign of NaN is NaN. *)
Definition osign (x : option Q) : option Z := option_map qsign x.

(** transforms.py L1655-1662: loop body for bar i; the state is
    (prev_sign, current_length).  A NaN sign equals no sign (L1656) and differs from 0
    (L1660). *)
Definition run_step (x : list (option Q)) (s : option Z * Z) (i : nat) : option Z * Z :=
  let sign := osign (nth i x None) in
  let same := match sign, fst s with
              | Some a, Some b => ((a =? b) && negb (a =? 0))%Z%bool
              | _, _ => false
              end in
  let cur := if same then (snd s + 1)%Z
             else match sign with Some 0%Z => 0%Z | _ => 1%Z end in
  (sign, cur).

(** transforms.py L1651-1654: state after bar i. *)
Definition run_state (x : list (option Q)) (i : nat) : option Z * Z :=
  fold_left (run_step x) (seq 1 i) (osign (nth 1 x None), 0%Z).

(** transforms.py L1638-1664 [DirRunLen.numba_core]; the result array is int8 (L1646).
    For one bar the code reads x[1] out of bounds (L1651) but does not use the value. *)
Definition dir_run_len (x : list (option Q)) : list Z :=
  map (fun i => match i with O => 0%Z | S _ => wraps 8 (snd (run_state x i)) end)
      (seq 0 (length x)).

(* ------------------------------------------------------------------ *)
(** ** CUSUM test features *)

(** transforms.py L676, L684: difference of statistic and critical value, clipped to
    [-10, 10]; NaN is kept. *)
Definition cusum_score (snt crit : option Q) : option Q :=
  match snt, crit with
  | Some s, Some c => Some (pmin (pmax (s - c) (-(10))) 10)
  | _, _ => None
  end.

(** transforms.py L676, L680: [break_up > 0]; false for NaN. *)
Definition cusum_flag (snt crit : option Q) : bool :=
  match snt, crit with Some s, Some c => Qltb 0 (s - c) | _, _ => false end.

(** transforms.py L694: [(flag == 1).cumsum()], the group key of bar i. *)
Definition flag_key (flags : list bool) (i : nat) : nat :=
  length (filter (fun b : bool => b) (firstn (S i) flags)).

(** transforms.py L694: [groupby(key).cumcount()], the number of earlier bars with the
    same key. *)
Definition flag_count (flags : list bool) (i : nat) : nat :=
  length (filter (fun j => (flag_key flags j =? flag_key flags i)%nat) (seq 0 i)).

(** transforms.py L694-695: [clip(0, max_age).astype(np.uint8)], max_age >= 0. *)
Definition cusum_age (flags : list bool) (max_age : Z) : list Z :=
  map (fun i => wrapu 8 (Z.min (Z.of_nat (flag_count flags i)) max_age)) (seq 0 (length flags)).

(* ------------------------------------------------------------------ *)
(** ** Candle shape *)

(** Division of float arrays in pandas (transforms.py L1318-1321, L1102): no exception,
    x/0 is signed infinity, 0/0 is NaN. *)
Definition ediv (a b : Q) : ext :=
  if Qeqb b 0 then (if Qltb 0 a then PInf else if Qltb a 0 then NInf else NaN)
  else Fin (a / b).

(** transforms.py L1311-1321 [CandleShape._pd] for one bar without missing values:
    (wick_up_ratio, wick_dn_ratio, body_ratio, vwap_drift). *)
Definition candle_shape (open_ high low close vwap : Q) : ext * ext * ext * ext :=
  let range := high - low + (1 # 1000000000000) in
  let max_oc := pmax open_ close in
  let min_oc := pmin open_ close in
  (ediv (high - max_oc) range, ediv (min_oc - low) range,
   ediv (Qabs (close - open_)) range, ediv (vwap - open_) open_).

(* ------------------------------------------------------------------ *)
(** ** Calendar days *)

(** Nanoseconds per day ([pd.Grouper(freq='D')] L1164, [resample('D')] L1096): time
    stamps are ns since 1970 in UTC or without time zone. *)
Definition DAY : Z := 86400000000000%Z.
(** Calendar day of a time stamp (transforms.py L1096, L1164). *)
Definition day_of (t : Z) : Z := (t / DAY)%Z.

(* ------------------------------------------------------------------ *)
(** ** Opening range breakout *)

(** One row of the input frame (transforms.py L1155-1157); None is NaN. *)
Record obar := mkOBar { b_ts : Z; b_high : option Q; b_low : option Q; b_close : option Q }.

(** transforms.py L1183: [Series.max()], which skips NaN. *)
Definition nanmax (l : list (option Q)) : option Q :=
  fold_left (fun m x => match m, x with
                        | None, _ => x
                        | Some a, Some b => Some (pmax a b)
                        | Some a, None => Some a
                        end) l None.
(** transforms.py L1184: [Series.min()], which skips NaN. *)
Definition nanmin (l : list (option Q)) : option Q :=
  fold_left (fun m x => match m, x with
                        | None, _ => x
                        | Some a, Some b => Some (pmin a b)
                        | Some a, None => Some a
                        end) l None.
(** transforms.py L1192, L1196: comparisons with NaN are false. *)
Definition ogt (a b : option Q) : bool :=
  match a, b with Some x, Some y => Qltb y x | _, _ => false end.

(** transforms.py L1164: rows of day d, in order. *)
Definition day_data (rows : list obar) (d : Z) : list obar :=
  filter (fun b => (day_of (b_ts b) =? d)%Z) rows.

(** transforms.py L1166-1180: the day is processed if its first bar is in minute 00:00
    and it has at least four bars. *)
Definition orb_day_ok (dd : list obar) : bool :=
  match dd with
  | [] => false
  | b :: _ => ((b_ts b mod DAY <? 60000000000)%Z && (4 <=? length dd)%nat)%bool
  end.

(** transforms.py L1183, L1187-1193: time stamps that get a long flag. *)
Definition long_hits (dd : list obar) : list Z :=
  if orb_day_ok dd then
    map b_ts (filter (fun b => ogt (b_close b) (nanmax (map b_high (firstn 4 dd)))) (skipn 4 dd))
  else [].
(** transforms.py L1184, L1187-1197: time stamps that get a short flag. *)
Definition short_hits (dd : list obar) : list Z :=
  if orb_day_ok dd then
    map b_ts (filter (fun b => ogt (nanmin (map b_low (firstn 4 dd))) (b_close b)) (skipn 4 dd))
  else [].

(** transforms.py L1146-1199 [ORBBreak._pd]: rows already sorted by time stamp (L1154);
    [.loc[timestamp] = True] sets all rows with that time stamp. *)
Definition orb_flags (hits : list obar -> list Z) (rows : list obar) : list bool :=
  let hs := flat_map (fun d => hits (day_data rows d)) (nodup Z.eq_dec (map (fun b => day_of (b_ts b)) rows)) in
  map (fun b => existsb (Z.eqb (b_ts b)) hs) rows.
(** transforms.py L1199: first output. *)
Definition orb_long (rows : list obar) : list bool := orb_flags long_hits rows.
(** transforms.py L1199: second output. *)
Definition orb_short (rows : list obar) : list bool := orb_flags short_hits rows.

(* ------------------------------------------------------------------ *)
(** ** Bar rate *)

(** transforms.py L1256-1262 [BarRate._pd]: [ones.rolling(window, closed='both').sum()]
    counts the rows up to row i whose time stamp is not older than the window; sorted
    time stamps (L1252), window [w] in ns. *)
Definition rate_count (ts : list Z) (w : Z) (i : nat) : nat :=
  length (filter (fun j => (nth i ts 0 - w <=? nth j ts 0)%Z) (seq 0 (S i))).
(** transforms.py L1262: count / window_sec * 3600, window_sec = w / 10^9. *)
Definition bar_rate (ts : list Z) (w : Z) : list Q :=
  map (fun i => Qnat (rate_count ts w i) / (inject_Z w / 1000000000) * 3600) (seq 0 (length ts)).

(* ------------------------------------------------------------------ *)
(** ** Daily gap *)

(** transforms.py L1096: [resample('D').first()], first value that is not NaN. *)
Definition first_valid_close (l : list (option Q)) : option Q :=
  hd None (filter (fun x => match x with Some _ => true | None => false end) l).
(** transforms.py L1099: [resample('D').last()], last value that is not NaN. *)
Definition last_valid_close (l : list (option Q)) : option Q :=
  last (filter (fun x => match x with Some _ => true | None => false end) l) None.

(** transforms.py L1099: [series.shift(1)]. *)
Definition shift1 (l : list (option Q)) : list (option Q) := firstn (length l) (None :: l).

(** Values of day d ([resample('D')], transforms.py L1096, L1099). *)
Definition of_day (ts : list Z) (l : list (option Q)) (d : Z) : list (option Q) :=
  map snd (filter (fun p => (day_of (fst p) =? d)%Z) (combine ts l)).

(** transforms.py L1096-1102: the gap of day d. *)
Definition daily_gap_of (ts : list Z) (close : list (option Q)) (d : Z) : ext :=
  match first_valid_close (of_day ts close d), last_valid_close (of_day ts (shift1 close) d) with
  | Some a, Some b => ediv (a - b) b
  | _, _ => NaN
  end.

(** transforms.py L1081-1115 [DailyGap._pd]: the gap is written to the rows at 00:00:00 of
    the day (L1109-1113); sorted index without time zone. *)
Definition daily_gap (ts : list Z) (close : list (option Q)) : list ext :=
  map (fun t => if (t mod DAY =? 0)%Z then daily_gap_of ts close (day_of t) else NaN) ts.

(* ------------------------------------------------------------------ *)
(** ** Bi-power variation *)

(** transforms.py L1586-1594 [BiPowerVariation._pd]: [abs_returns.rolling(window + 1)]
    needs window+1 values that are not NaN; [f] is the factor computed at L1574. *)
Definition bipower (f : Q) (r : list (option Q)) (window : nat) : list (option Q) :=
  map (fun i =>
    if (i <? window)%nat then None
    else
      let w := map (fun j => nth j r None) (seq (i - window) (window + 1)) in
      if existsb (fun x => match x with None => true | Some _ => false end) w then None
      else
        let a := map (fun x => match x with Some v => Qabs v | None => 0 end) w in
        Some (f * qsum (map (fun p => fst p * snd p) (combine (tl a) a))))
    (seq 0 (length r)).

(** transforms.py L1574: [self.mu1_inv_sq = (np.pi / 2)**0.5]. *)
Definition bipower_factor (sqrt : Q -> Q) (pi : Q) : Q := sqrt (pi / 2).

(* ------------------------------------------------------------------ *)
(** ** Bar durations *)

(** transforms.py L1538 [BarDuration._pd]: [index.diff(periods).total_seconds()]. *)
Definition bar_duration (ts : list Z) (periods : nat) : list (option Q) :=
  map (fun i => if (i <? periods)%nat then None
                else Some (inject_Z (nth i ts 0%Z - nth (i - periods) ts 0%Z) / 1000000000))
      (seq 0 (length ts)).

(* ------------------------------------------------------------------ *)
(** ** Lag and return *)

(** transforms.py L80-85 [Lag._pd]: [series.shift(periods)] for any integer; rows
    without a source row are NaN. *)
Definition shift (l : list (option Q)) (periods : Z) : list (option Q) :=
  map (fun i => let j := (Z.of_nat i - periods)%Z in
                if (j <? 0)%Z then None else nth (Z.to_nat j) l None)
      (seq 0 (length l)).

(** transforms.py L137-150 [Return._pd], simple returns (division as in pandas). *)
Definition simple_return (l : list (option Q)) (periods : Z) : list ext :=
  map (fun p => match p with
                | (Some a, Some b) => match ediv a b with Fin q => Fin (q - 1) | e => e end
                | _ => NaN
                end) (combine l (shift l periods)).
