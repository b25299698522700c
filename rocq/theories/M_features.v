(** M_features.v -- model of the rolling feature kernels in
    finmlkit/feature/core: ma.py, momentum.py, reversion.py, correlation.py,
    trend.py, utils.py, time.py, and of the transforms RSIWilder and StochK that
    wrap two of them (feature/transforms.py).

    float64 arithmetic is exact rational arithmetic ([Q]); NaN is [None] where the
    code produces it, and [ext] is used where infinities occur.  [np.empty] arrays
    are written completely by every kernel below, so the output list is built
    index by index.  Kernels taking a window length are modelled for a length of at
    least 1. *)
From Verif Require Import Base M_logic M_bars.
Open Scope Q_scope.

(** Array access x[i] inside bounds (ma.py L25-60, momentum.py L20-110, reversion.py L40-110,
    utils.py L20-110, trend.py L30-94). *)
Definition qn (l : list Q) (i : nat) : Q := nth i l 0.
(** The array slice x[i-n+1 : i+1] (ma.py L60, momentum.py L92/L104, utils.py L82/L105). *)
Definition lastn (l : list Q) (i n : nat) : list Q := firstn n (skipn (i + 1 - n) l).

(* ------------------------------------------------------------------ *)
(** ** ma.py *)

(** ma.py L36-41: the loop of [ewma] over y[1:], with numerator u and denominator v. *)
Fixpoint ewma_loop (alpha u v : Q) (ys : list Q) : list Q :=
  match ys with
  | [] => []
  | y :: t =>
      let u' := y + (1 - alpha) * u in
      let v' := 1 + (1 - alpha) * v in
      u' / v' :: ewma_loop alpha u' v' t
  end.
(** ma.py L7-43 [ewma].  The empty series, where the code reads y[0] out of
    bounds, is mapped to the empty result. *)
Definition ewma (ys : list Q) (span : Z) : result (list Q) :=
  if (span <? 1)%Z then Raise ValueError
  else match ys with
       | [] => Ok []
       | y :: t => Ok (y / 1 :: ewma_loop (2 / (inject_Z span + 1)) y 1 t)
       end.

(** ma.py L47-62 [sma]. *)
Definition sma (xs : list Q) (window : nat) : list (option Q) :=
  map (fun i => if (i + 1 <? window)%nat then None
                else Some (1 / Qnat window * qsum (lastn xs i window)))
      (seq 0 (length xs)).

(* ------------------------------------------------------------------ *)
(** ** momentum.py *)

(** momentum.py L7-22 [roc]; a zero base price raises ZeroDivisionError (numba's
    python error model outside prange). *)
Definition roc (p : list Q) (period : nat) : result (list (option Q)) :=
  if existsb (fun i => Qeqb (qn p (i - period)) 0) (seq period (length p - period))
  then Raise ZeroDivisionError
  else Ok (map (fun i => if (i <? period)%nat then None
                         else Some ((qn p i - qn p (i - period)) / qn p (i - period) * 100))
               (seq 0 (length p))).

(** momentum.py L44, L56: close[i] - close[i-1]. *)
Definition diff (close : list Q) (i : nat) : Q := qn close i - qn close (i - 1).
(** momentum.py L57-58: gain and loss of bar i. *)
Definition gain (close : list Q) (i : nat) : Q := if Qltb 0 (diff close i) then diff close i else 0.
(** momentum.py L58: loss of bar i. *)
Definition loss (close : list Q) (i : nat) : Q := if Qltb (diff close i) 0 then - diff close i else 0.
(** momentum.py L43-48: sums over the first window; a zero difference adds -0 to the losses. *)
Definition rsi_sums (close : list Q) (window : nat) : Q * Q :=
  fold_left (fun s i => let d := diff close i in
                        if Qltb 0 d then (fst s + d, snd s) else (fst s, snd s + - d))
            (seq 1 window) (0, 0).
(** momentum.py L60-61: Wilder smoothing, [k] steps after the first average. *)
Fixpoint wilder (window : nat) (a0 : Q) (x : nat -> Q) (k : nat) : Q :=
  match k with
  | O => a0
  | S k' => ((Qnat window - 1) * wilder window a0 x k' + x (window + k)%nat) / Qnat window
  end.
(** momentum.py L52, L63. *)
Definition rsi_value (ag al : Q) : option Q :=
  if Qltb 0 al then Some (100 - 100 / (1 + ag / al)) else None.
(** momentum.py L26-65 [rsi_wilder]; window >= 1. *)
Definition rsi_wilder (close : list Q) (window : nat) : list (option Q) :=
  let s := rsi_sums close window in
  map (fun i => if (i <? window)%nat then None
                else rsi_value (wilder window (fst s / Qnat window) (gain close) (i - window))
                               (wilder window (snd s / Qnat window) (loss close) (i - window)))
      (seq 0 (length close)).

(** feature/transforms.py L221-267 [RSIWilder._pd]: pandas backend.  L229-233: gains
    are the differences with negative ones set to 0, losses the negated differences
    with positive ones set to 0; L239-240 means of positions 1..window; L247-252 and
    L259-264 value 100 when the average loss is 0.  [rsi.iloc[window] = ...] (L252)
    raises IndexError when the series is not longer than the window. *)
Definition gain_pd (close : list Q) (i : nat) : Q := if Qltb (diff close i) 0 then 0 else diff close i.
(** transforms.py L232-233: losses. *)
Definition loss_pd (close : list Q) (i : nat) : Q := - (if Qltb 0 (diff close i) then 0 else diff close i).
(** transforms.py L247-252, L259-264: 100 when the average loss is 0. *)
Definition rsi_value_pd (ag al : Q) : Q :=
  if Qeqb al 0 then 100 else 100 - 100 / (1 + ag / al).
(** transforms.py L221-267 [RSIWilder._pd]. *)
Definition rsi_pd (close : list Q) (window : nat) : result (list (option Q)) :=
  if (length close <=? window)%nat then Raise IndexError
  else let mean f := qsum (map f (seq 1 window)) / Qnat window in
       Ok (map (fun i => if (i <? window)%nat then None
                         else Some (rsi_value_pd (wilder window (mean (gain_pd close)) (gain_pd close) (i - window))
                                                 (wilder window (mean (loss_pd close)) (loss_pd close) (i - window))))
               (seq 0 (length close))).

(** [np.min] / [np.max] of a non-empty array (momentum.py L92-93, L104-105). *)
Definition lmin (l : list Q) : Q := match l with [] => 0 | x :: t => fold_left pmin t x end.
(** [np.max] of a non-empty array (momentum.py L93, L105). *)
Definition lmax (l : list Q) : Q := match l with [] => 0 | x :: t => fold_left pmax t x end.
(** momentum.py L92-93 and L97-108: (lo, hi) after the first window and [k] rolling updates. *)
Fixpoint stoch_ext (low high : list Q) (len k : nat) : Q * Q :=
  match k with
  | O => (lmin (firstn len low), lmax (firstn len high))
  | S k' =>
      let s := stoch_ext low high len k' in
      let t := (len + k')%nat in
      let out_idx := (t - len)%nat in
      if Qeqb (qn low out_idx) (fst s) || Qeqb (qn high out_idx) (snd s)
      then (lmin (lastn low t len), lmax (lastn high t len))
      else (pmin (fst s) (qn low t), pmax (snd s) (qn high t))
  end.
(** momentum.py L69-112 [stoch_k]; length >= 1. *)
Definition stoch_k (close low high : list Q) (len : nat) : list (option Q) :=
  map (fun t => if (t + 1 <? len)%nat then None
                else let s := stoch_ext low high len (t + 1 - len) in
                     if Qltb (fst s) (snd s)
                     then Some (100 * (qn close t - fst s) / (snd s - fst s)) else None)
      (seq 0 (length close)).
(** feature/transforms.py L276-305 [StochK._nb]: called on the columns high, low and
    close of a frame; L303 passes them to the kernel in this order. *)
Definition stoch_transform (high low close : list Q) (len : nat) : list (option Q) :=
  stoch_k high low close len.

(* ------------------------------------------------------------------ *)
(** ** reversion.py *)

Section WithLn.
  (** [np.log] on positive numbers. *)
  Variable ln : Q -> Q.

  (** [np.log] in numba (reversion.py L50, utils.py L51). *)
  Definition flog (x : Q) : ext := if Qltb 0 x then Fin (ln x) else if Qeqb x 0 then NInf else NaN.

  (** Collect per-index results; the first exception ends the call (loops of utils.py L44-54,
      reversion.py L44-54). *)
  Fixpoint collect {A} (l : list (result A)) : result (list A) :=
    match l with
    | [] => Ok []
    | Raise e :: _ => Raise e
    | Ok a :: t => match collect t with Ok r => Ok (a :: r) | Raise e => Raise e end
    end.

  (** reversion.py L40/L52 and L50: distance of a close from w/v; a zero VWAP raises
      ZeroDivisionError. *)
  Definition vwap_dist (is_log : bool) (c w v : Q) : result ext :=
    if Qeqb (w / v) 0 then Raise ZeroDivisionError
    else if is_log then Ok (flog (c / (w / v))) else Ok (Fin (c / (w / v) - 1)).
  (** reversion.py L31-54: sums (wsum, vsum) and out[n_periods-1+k] after [k] rolling updates. *)
  Fixpoint vwap_state (close volume : list Q) (n : nat) (is_log : bool) (k : nat) : (Q * Q) * result ext :=
    match k with
    | O =>
        let w := fold_left (fun s j => s + qn close j * qn volume j) (seq 0 n) 0 in
        let v := fold_left (fun s j => s + qn volume j) (seq 0 n) 0 in
        ((w, v), if Qltb 0 v then vwap_dist false (qn close (n - 1)) w v else Ok NaN)
    | S k' =>
        let s := vwap_state close volume n is_log k' in
        let i := (n + k')%nat in
        let w := fst (fst s) + (qn close i * qn volume i - qn close (i - n) * qn volume (i - n)) in
        let v := snd (fst s) + (qn volume i - qn volume (i - n)) in
        ((w, v), if Qltb 0 v then vwap_dist is_log (qn close i) w v else snd s)
    end.
  (** reversion.py L10-56 [vwap_distance]; n_periods >= 1. *)
  Definition vwap_distance (close volume : list Q) (n : nat) (is_log : bool) : result (list ext) :=
    collect (map (fun i => if (i + 1 <? n)%nat then Ok NaN
                           else snd (vwap_state close volume n is_log (i + 1 - n)))
                 (seq 0 (length close))).

  (* ---------------------------------------------------------------- *)
  (** ** utils.py *)

  (** utils.py L48-59: return of close_i against close_j. *)
  Definition lag_return (is_log : bool) (ci cj : Q) : ext :=
    if Qeqb cj 0 then PInf else if is_log then flog (ci / cj) else Fin (ci / cj - 1).
  (** utils.py L13-64 [comp_lagged_returns].  [W] is [ret_window_ns], a whole number of
      nanoseconds.  L42 and L45 compute in float64, and [searchsorted] compares the
      timestamps with a float64, hence [f64] (M_logic).  The empty series, where
      timestamps[0] is out of bounds, is mapped to the empty result. *)
  Definition comp_lagged_returns (ts : list Z) (close : list Q) (W : Z) (is_log : bool) : result (list ext) :=
    if (W <=? 0)%Z then Raise ValueError
    else
      let fts := map f64 ts in
      let start := ss_left fts (f64 (f64 (nth 0 ts 0%Z) + W)) in
      Ok (map (fun i =>
            if (i <? start)%nat then NaN
            else let lag := (Z.of_nat (ss_right fts (f64 (f64 (nth i ts 0%Z) - W))) - 1)%Z in
                 if ((0 <=? lag) && (lag <? Z.of_nat i))%Z
                 then lag_return is_log (qn close i) (qn close (Z.to_nat lag)) else NaN)
          (seq 0 (length close))).
End WithLn.

(** utils.py L67-90 [comp_zscore]; [sqrt] is np.sqrt, ddof < window. *)
Definition comp_zscore (sqrt : Q -> Q) (xs : list Q) (window : nat) (ddof : Z) : list (option Q) :=
  map (fun i => if (i + 1 <? window)%nat then None
                else
                  let w := lastn xs i window in
                  let mean := qsum w / Qnat (length w) in
                  let variance := qsum (map (fun x => (x - mean) * (x - mean)) w)
                                  / inject_Z (Z.of_nat (length w) - ddof) in
                  let std := sqrt variance in
                  if Qeqb std 0 then None else Some ((qn xs i - mean) / std))
      (seq 0 (length xs)).

(** utils.py L93-108 [comp_burst_ratio]; np.median as in M_bars. *)
Definition comp_burst_ratio (xs : list Q) (window : nat) : list (option Q) :=
  map (fun i => if (i + 1 <? window)%nat then None
                else let med := median (lastn xs i window) in
                     if Qltb 0 med then Some (qn xs i / med) else None)
      (seq 0 (length xs)).

(** utils.py L111-124 [pct_change]. *)
Definition pct_change (xs : list Q) (periods : nat) : list (option Q) :=
  map (fun t => if (t <? periods)%nat then None
                else let base := qn xs (t - periods) in
                     if Qltb 0 base then Some ((qn xs t - base) / base) else None)
      (seq 0 (length xs)).

(* ------------------------------------------------------------------ *)
(** ** correlation.py *)

(** correlation.py L26-32: returns, NaN at 0 and where a price is missing or 0. *)
Definition pv_return (price : list (option Q)) (i : nat) : option Q :=
  match i with
  | O => None
  | S _ => match nth i price None, nth (i - 1) price None with
           | Some a, Some b => if Qeqb b 0 then None else Some ((a - b) / b)
           | _, _ => None
           end
  end.
(** Comparison x <= y of floats, False if one is NaN (correlation.py L50-54). *)
Definition oleb (x y : option Q) : bool := match x, y with Some a, Some b => Qleb a b | _, _ => false end.
(** correlation.py L45-55: the three monotonicity flags over j in [i-window+1, i). *)
Definition mono_flag (bad : nat -> bool) (i window : nat) : bool :=
  negb (existsb bad (seq (i + 1 - window) (i - (i + 1 - window)))).
(** correlation.py L72-75: valid (return, volume) pairs of the window. *)
Definition valid_pairs (price volume : list (option Q)) (i window : nat) : list (Q * Q) :=
  flat_map (fun j => match pv_return price j, nth j volume None with
                     | Some r, Some v => [(r, v)] | _, _ => [] end)
           (seq (i + 1 - window) window).
(** correlation.py L83-109: correlation of the valid pairs, clipped to [-1, 1]; NaN
    for fewer than two pairs or a zero spread. *)
Definition corr_pairs (sqrt : Q -> Q) (ps : list (Q * Q)) : option Q :=
  if (length ps <? 2)%nat then None
  else
    let n := Qnat (length ps) in
    let mr := qsum (map fst ps) / n in
    let mv := qsum (map snd ps) / n in
    let cov := qsum (map (fun p => (fst p - mr) * (snd p - mv)) ps) in
    let sr := qsum (map (fun p => (fst p - mr) * (fst p - mr)) ps) in
    let sv := qsum (map (fun p => (snd p - mv) * (snd p - mv)) ps) in
    if Qltb 0 sr && Qltb 0 sv then
      let corr := cov / (sqrt sr * sqrt sv) in
      Some (if Qltb 1 corr then 1 else if Qltb corr (-(1)) then -(1) else corr)
    else None.
(** correlation.py L9-111 [rolling_price_volume_correlation]; window >= 1. *)
Definition pv_correlation (sqrt : Q -> Q) (price volume : list (option Q)) (window : nat) : list (option Q) :=
  map (fun i =>
    if (i <? window)%nat then None
    else match pv_return price i, nth i volume None with
         | Some _, Some _ =>
             let pr j := nth j price None in
             let vo j := nth j volume None in
             let inc_p := mono_flag (fun j => oleb (pr (S j)) (pr j)) i window in
             let dec_v := mono_flag (fun j => oleb (vo j) (vo (S j))) i window in
             let inc_v := mono_flag (fun j => oleb (vo (S j)) (vo j)) i window in
             if ((4 <=? i) && (i <? 10))%nat && inc_p && inc_v then Some 1
             else if ((4 <=? i) && (i <? 10))%nat && inc_p && dec_v then Some (-(1))
             else corr_pairs sqrt (valid_pairs price volume i window)
         | _, _ => None
         end)
    (seq 0 (length price)).

(* ------------------------------------------------------------------ *)
(** ** trend.py *)

(** trend.py L32-36: true range of bar i, 0 at bar 0. *)
Definition true_rng (high low close : list Q) (i : nat) : Q :=
  if (i =? 0)%nat then 0
  else pmax (pmax (qn high i - qn low i) (Qabs (qn high i - qn close (i - 1)))) (Qabs (qn low i - qn close (i - 1))).
(** trend.py L39-52: directional movements. *)
Definition plus_dm (high low : list Q) (i : nat) : Q :=
  if (i =? 0)%nat then 0
  else let hd := qn high i - qn high (i - 1) in let ld := qn low (i - 1) - qn low i in
       if Qltb ld hd && Qltb 0 hd then hd else 0.
(** trend.py L49-52: downward movement. *)
Definition minus_dm (high low : list Q) (i : nat) : Q :=
  if (i =? 0)%nat then 0
  else let hd := qn high i - qn high (i - 1) in let ld := qn low (i - 1) - qn low i in
       if Qltb hd ld && Qltb 0 ld then ld else 0.
(** trend.py L60-69: smoothed sums, [k] steps after index [len]. *)
Fixpoint wsum (x : nat -> Q) (len k : nat) : Q :=
  match k with
  | O => qsum (map x (seq 1 len))
  | S k' => wsum x len k' - wsum x len k' / Qnat len + x (len + k)%nat
  end.
(** trend.py L72-77: directional indicator. *)
Definition di (dm tr : Q) : Q := if Qltb 0 tr then 100 * (dm / tr) else 0.
(** trend.py L80-83. *)
Definition dx_of (p m : Q) : Q := if Qltb 0 (p + m) then 100 * (Qabs (p - m) / (p + m)) else 0.
(** trend.py L72-83: DX of bar i, 0 before the first full window. *)
Definition dx (high low close : list Q) (len i : nat) : Q :=
  if (i <? len)%nat then 0
  else let tr := wsum (true_rng high low close) len (i - len) in
       dx_of (di (wsum (plus_dm high low) len (i - len)) tr) (di (wsum (minus_dm high low) len (i - len)) tr).
(** trend.py L89-94: ADX, [k] steps after index 2*len-1. *)
Fixpoint adx_at (d : nat -> Q) (len k : nat) : Q :=
  match k with
  | O => qsum (map d (seq len len)) / Qnat len
  | S k' => (adx_at d len k' * (Qnat len - 1) + d (2 * len - 1 + k)%nat) / Qnat len
  end.
(** trend.py L9-96 [adx_core]; length >= 1. *)
Definition adx_core (high low close : list Q) (len : nat) : list Q :=
  map (fun i => if (i + 1 <? 2 * len)%nat then 0 else adx_at (dx high low close len) len (i + 1 - 2 * len))
      (seq 0 (length high)).

(* ------------------------------------------------------------------ *)
(** ** time.py *)

(** time.py L6-62 [time_cues]: one output row. [sin] and [cos] are applied to the
    fraction of the day (week) instead of 2*pi times it. *)
Record cues := mkCues { c_sin_td : Q; c_cos_td : Q; c_sin_dw : Q; c_cos_dw : Q;
                        c_asia : bool; c_eu : bool; c_us : bool; c_trans : bool; c_top : bool }.
(** time.py L28-60: body of the loop. *)
Definition time_cue (sin cos : Q -> Q) (t : Z) : cues :=
  let ts := (t / 1000000000)%Z in
  let sec_in_day := (ts mod 86400)%Z in
  let phase := inject_Z sec_in_day / 86400 in
  let day_week := ((ts / 86400 + 3) mod 7)%Z in
  let phase_w := inject_Z day_week / 7 in
  let hour := (sec_in_day / 3600)%Z in
  let minute := ((sec_in_day mod 3600) / 60)%Z in
  mkCues (sin phase) (cos phase) (sin phase_w) (cos phase_w)
         ((0 <=? hour) && (hour <? 8))%Z ((7 <=? hour) && (hour <? 15))%Z ((13 <=? hour) && (hour <? 21))%Z
         (((hour =? 0) || (hour =? 7) || (hour =? 13)) && (minute =? 0))%Z (minute =? 0)%Z.
(** time.py L6-62 [time_cues]: all rows. *)
Definition time_cues (sin cos : Q -> Q) (ts : list Z) : list cues := map (time_cue sin cos) ts.
