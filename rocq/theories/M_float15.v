(** M_float15.v -- pandas transforms of finmlkit/feature/transforms.py in float64: candle shapes, daily gaps, bar rates, bi-power
    variation, bar durations and their exponentially weighted mean.  The exact models are in M_transforms.v and M_backend.v. *)
From Verif Require Import Base M_transforms M_float.
Open Scope Q_scope.

(** Division of float arrays in pandas (transforms.py L1318-1321, L1102) with a rounded quotient. *)
Definition ediv_f (a b : Q) : ext :=
  if Qeqb b 0 then (if Qltb 0 a then PInf else if Qltb a 0 then NInf else NaN)
  else Fin (r53 (a / b)).

(** transforms.py L1311: the float64 nearest to 1e-12. *)
Definition tiny_f : Q := r53 (1 # 1000000000000).
(** transforms.py L1311: [candle_range = high - low + 1e-12]. *)
Definition candle_range_f (high low : Q) : Q := r53 (r53 (high - low) + tiny_f).
(** transforms.py L1311-1321 [CandleShape._pd] for one bar without missing values. *)
Definition candle_shape_f (open_ high low close vwap : Q) : ext * ext * ext * ext :=
  let range := candle_range_f high low in
  let max_oc := pmax open_ close in
  let min_oc := pmin open_ close in
  (ediv_f (r53 (high - max_oc)) range, ediv_f (r53 (min_oc - low)) range,
   ediv_f (Qabs (r53 (close - open_))) range, ediv_f (r53 (vwap - open_)) open_).

(** transforms.py L1096-1102: the gap of day d; days and values as in [daily_gap_of]. *)
Definition daily_gap_of_f (ts : list Z) (close : list (option Q)) (d : Z) : ext :=
  match first_valid_close (of_day ts close d), last_valid_close (of_day ts (shift1 close) d) with
  | Some a, Some b => ediv_f (r53 (a - b)) b
  | _, _ => NaN
  end.
(** transforms.py L1081-1115 [DailyGap._pd]. *)
Definition daily_gap_f (ts : list Z) (close : list (option Q)) : list ext :=
  map (fun t => if (t mod DAY =? 0)%Z then daily_gap_of_f ts close (day_of t) else NaN) ts.

(** transforms.py L1256-1262 [BarRate._pd]: count / window_sec * 3600.  The rolling sum of ones is a whole number and exact;
    window [w] in ns, window_sec = w / 10^9 rounded. *)
Definition bar_rate_f (ts : list Z) (w : Z) : list Q :=
  map (fun i => r53 (r53 (Qnat (rate_count ts w i) / r53 (inject_Z w / 1000000000)) * 3600)) (seq 0 (length ts)).

(** transforms.py L1586-1594 [BiPowerVariation._pd]: rounded products of neighbours, numpy's sum of them ([sumf], L1591) and a
    rounded product with the factor [f] of L1574. *)
Definition bipower_f (sumf : list Q -> Q) (f : Q) (r : list (option Q)) (window : nat) : list (option Q) :=
  map (fun i =>
    if (i <? window)%nat then None
    else
      let w := map (fun j => nth j r None) (seq (i - window) (window + 1)) in
      if existsb (fun x => match x with None => true | Some _ => false end) w then None
      else
        let a := map (fun x => match x with Some v => Qabs v | None => 0 end) w in
        Some (r53 (f * sumf (map (fun p => r53 (fst p * snd p)) (combine (tl a) a)))))
    (seq 0 (length r)).

(** transforms.py L1538 [total_seconds] (pandas: the int64 count of ns, as a float64, over 10^9). *)
Definition seconds_f (dt : Z) : Q := r53 (r53 (inject_Z dt) / 1000000000).
(** transforms.py L1538 [BarDuration._pd]. *)
Definition bar_duration_f (ts : list Z) (periods : nat) : list (option Q) :=
  map (fun i => if (i <? periods)%nat then None
                else Some (seconds_f (nth i ts 0%Z - nth (i - periods) ts 0%Z)))
      (seq 0 (length ts)).

(** [ewm(span).mean()] with adjust=True, ignore_na=False (transforms.py L593, L1498) as pandas computes it: the old weight is
    multiplied by [b], the mean is left alone when the new value equals it. *)
Fixpoint ewm_loop_f (b : Q) (avg : option Q) (wt : Q) (xs : list (option Q)) : list (option Q) :=
  match xs with
  | [] => []
  | cur :: t =>
      match avg, cur with
      | Some a, Some c =>
          let w := r53 (wt * b) in
          let m := Some (if Qeqb a c then a else r53 (r53 (r53 (w * a) + c) / r53 (w + 1))) in
          m :: ewm_loop_f b m (r53 (w + 1)) t
      | Some a, None => Some a :: ewm_loop_f b (Some a) (r53 (wt * b)) t
      | None, _ => cur :: ewm_loop_f b cur wt t
      end
  end.
(** The factor of transforms.py L593, L1498 as pandas computes it from the span: com = (span - 1) / 2, alpha = 1 / (1 + com),
    factor 1 - alpha. *)
Definition ewm_factor_f (span : Z) : Q :=
  r53 (1 - r53 (1 / r53 (1 + r53 (inject_Z (span - 1) / 2)))).
(** transforms.py L591-596 [EWMA._pd]. *)
Definition ewma_pd_f (xs : list (option Q)) (span : Z) : result (list (option Q)) :=
  if (span <? 1)%Z then Raise ValueError else Ok (ewm_loop_f (ewm_factor_f span) None 1 xs).
(** transforms.py L1483-1503 [BarDurationEWMA._pd] for a datetime index. *)
Definition bar_duration_ewma_f (ts : list Z) (span : Z) : result (list (option Q)) :=
  ewma_pd_f (bar_duration_f ts 1) span.
