(** M_backend.v -- the pandas implementations ([_pd]) of the transforms SMA, EWMA, PctChange,
    RealizedVolatility, VPIN and PriceVolumeCorrelation, the behaviour of their numba kernels on
    missing values and integer columns, and the transforms that exist only in pandas
    (MeanReversionZScore, KurtosisTransform, TrendSlope, HurstExponent, BarDurationEWMA), all in
    finmlkit/feature/transforms.py.  pandas 2.2 (requirements.txt L4): a rolling window of n rows
    yields NaN unless all n values exist, infinities count as missing in rolling windows, and
    pct_change fills gaps forward first.  Window lengths are at least 1. *)
From Verif Require Import Base M_logic M_features M_transforms.
Open Scope Q_scope.

(** All values of a window, if none is missing (transforms.py L565, L847-848, L922, L1052). *)
Fixpoint all_known {A} (l : list (option A)) : option (list A) :=
  match l with
  | [] => Some []
  | Some x :: t => option_map (cons x) (all_known t)
  | None :: _ => None
  end.
(** [series.rolling(window=n)] at row i (transforms.py L565, L847-848, L922, L1052, L1368). *)
Definition rolling {A} (x : list (option A)) (n i : nat) : option (list A) :=
  if (i + 1 <? n)%nat then None else all_known (firstn n (skipn (i + 1 - n) x)).

(* ------------------------------------------------------------------ *)
(** ** SMA *)

(** transforms.py L563-568 [SMA._pd]. *)
Definition sma_pd (x : list (option Q)) (n : nat) : list (option Q) :=
  map (fun i => option_map (fun w => qsum w / Qnat n) (rolling x n i)) (seq 0 (length x)).
(** core/ma.py L47-62 [sma] on an array that may hold NaN: a sum with a NaN term is NaN. *)
Definition sma_nan (x : list (option Q)) (n : nat) : list (option Q) :=
  map (fun i => if (i + 1 <? n)%nat then None
                else option_map (fun w => 1 / Qnat n * qsum w) (all_known (firstn n (skipn (i + 1 - n) x))))
      (seq 0 (length x)).
(** Truncation of a float stored in an integer array (core/ma.py L60). *)
Definition qtrunc (q : Q) : Z := Z.quot (Qnum q) (Zpos (Qden q)).
(** core/ma.py L47-62 [sma] on an integer array: [np.empty_like] (L55) makes the result an integer
    array, NaN becomes the integer [nanint] (L56) and the means are truncated (L60). *)
Definition sma_int (nanint : Z) (x : list Z) (n : nat) : list Z :=
  map (fun i => if (i + 1 <? n)%nat then nanint
                else qtrunc (1 / Qnat n * qsum (map inject_Z (firstn n (skipn (i + 1 - n) x)))))
      (seq 0 (length x)).

(* ------------------------------------------------------------------ *)
(** ** EWMA and BarDurationEWMA *)

(** [ewm(span).mean()] with adjust=True, ignore_na=False (transforms.py L593, L1498): the running mean
    and the weight it has; old weights also decay over missing rows. *)
Fixpoint ewm_loop (b : Q) (avg : option Q) (wt : Q) (xs : list (option Q)) : list (option Q) :=
  match xs with
  | [] => []
  | cur :: t =>
      match avg, cur with
      | Some a, Some c =>
          let m := Some (if Qeqb a c then a else (wt * b * a + c) / (wt * b + 1)) in
          m :: ewm_loop b m (wt * b + 1) t
      | Some a, None => Some a :: ewm_loop b (Some a) (wt * b) t
      | None, _ => cur :: ewm_loop b cur wt t
      end
  end.
(** transforms.py L591-596 [EWMA._pd]; pandas rejects spans below 1. *)
Definition ewma_pd (xs : list (option Q)) (span : Z) : result (list (option Q)) :=
  if (span <? 1)%Z then Raise ValueError
  else Ok (ewm_loop (1 - 2 / (inject_Z span + 1)) None 1 xs).
(** core/ma.py L36-41 on an array that may hold NaN. *)
Fixpoint ewma_nan_loop (alpha : Q) (u : option Q) (v : Q) (ys : list (option Q)) : list (option Q) :=
  match ys with
  | [] => []
  | y :: t =>
      let u' := match y, u with Some a, Some c => Some (a + (1 - alpha) * c) | _, _ => None end in
      let v' := 1 + (1 - alpha) * v in
      option_map (fun c => c / v') u' :: ewma_nan_loop alpha u' v' t
  end.
(** core/ma.py L7-43 [ewma] on an array that may hold NaN. *)
Definition ewma_nan (ys : list (option Q)) (span : Z) : result (list (option Q)) :=
  if (span <? 1)%Z then Raise ValueError
  else match ys with
       | [] => Ok []
       | y :: t => Ok (option_map (fun c => c / 1) y :: ewma_nan_loop (2 / (inject_Z span + 1)) y 1 t)
       end.
(** transforms.py L1483-1503 [BarDurationEWMA._pd] for a datetime index. *)
Definition bar_duration_ewma (ts : list Z) (span : Z) : result (list (option Q)) :=
  ewma_pd (bar_duration ts 1) span.

(* ------------------------------------------------------------------ *)
(** ** PctChange *)

(** transforms.py L195-197 [PctChange._pd]: [series.pct_change(periods)], which fills missing
    values forward and divides by the shifted series. *)
Definition pct_pd (x : list (option Q)) (periods : Z) : list ext := simple_return (ffill None x) periods.
(** core/utils.py L111-124 [pct_change] on an array that may hold NaN. *)
Definition pct_nan (x : list (option Q)) (periods : nat) : list (option Q) :=
  map (fun t => if (t <? periods)%nat then None
                else match nth t x None, nth (t - periods) x None with
                     | Some a, Some base => if Qltb 0 base then Some ((a - base) / base) else None
                     | _, _ => None
                     end)
      (seq 0 (length x)).

(* ------------------------------------------------------------------ *)
(** ** VPIN *)

(** Pointwise operation on two columns; NaN if one of the values is (transforms.py L843-844). *)
Definition col2 (f : Q -> Q -> Q) (a b : list (option Q)) : list (option Q) :=
  map (fun p => match p with (Some x, Some y) => Some (f x y) | _ => None end) (combine a b).
(** transforms.py L837-854 [VPIN._pd]. *)
Definition vpin_pd (buy sell : list (option Q)) (n : nat) : list ext :=
  let imb := col2 (fun x y => Qabs (x - y)) buy sell in
  let tot := col2 Qplus buy sell in
  map (fun i => match rolling imb n i, rolling tot n i with
                | Some a, Some b => ediv (qsum a) (qsum b)
                | _, _ => NaN
                end) (seq 0 (length buy)).

Section WithMath.
(** np.sqrt. *)
Variable sqrt : Q -> Q.

(* ------------------------------------------------------------------ *)
(** ** RealizedVolatility *)

(** The values that exist (transforms.py L476: [count]; L480: [sum(skipna=True)]). *)
Definition present (l : list (option Q)) : list Q :=
  flat_map (fun o => match o with Some x => [x] | None => [] end) l.
(** transforms.py L466-485 [RealizedVolatility._pd]. *)
Definition rv_pd (x : list (option Q)) (n : nat) (is_sample : bool) : list (option Q) :=
  map (fun i =>
    if (i + 1 <? n)%nat then None
    else
      let w := present (firstn n (skipn (i + 1 - n) x)) in
      if (1 <? length w)%nat then
        let divisor := if is_sample then (length w - 1)%nat else length w in
        Some (sqrt (qsum (map (fun v => v * v) w) / Qnat divisor))
      else None) (seq 0 (length x)).

(* ------------------------------------------------------------------ *)
(** ** PriceVolumeCorrelation *)

(** transforms.py L780 [pct_change()]: forward filled; infinities (and 0/0) from a zero price count as
    missing in the rolling windows. *)
Definition pad_return (price : list (option Q)) (j : nat) : option Q :=
  match j with
  | O => None
  | S k => match nth j (ffill None price) None, nth k (ffill None price) None with
           | Some a, Some b => if Qeqb b 0 then None else Some (a / b - 1)
           | _, _ => None
           end
  end.
(** transforms.py L789 [rolling(n).corr]: pandas computes (E[xy] - E[x]E[y]) n/(n-1) over the root of
    the product of the sample variances; a single row has no sample variance. *)
Definition corr_pd (ps : list (Q * Q)) : ext :=
  if (length ps <? 2)%nat then NaN
  else
    let n := Qnat (length ps) in
    let mx := qsum (map fst ps) / n in
    let my := qsum (map snd ps) / n in
    let mxy := qsum (map (fun p => fst p * snd p) ps) / n in
    let vx := qsum (map (fun p => (fst p - mx) * (fst p - mx)) ps) / (n - 1) in
    let vy := qsum (map (fun p => (snd p - my) * (snd p - my)) ps) / (n - 1) in
    ediv ((mxy - mx * my) * (n / (n - 1))) (sqrt (vx * vy)).
(** [is_monotonic_increasing] of a column (transforms.py L794-795); False with a missing value. *)
Definition mono_up (l : list (option Q)) : bool :=
  match all_known l with
  | Some w => forallb (fun i => Qleb (nth i w 0) (nth (S i) w 0)) (seq 0 (length w - 1))
  | None => false
  end.
(** [is_monotonic_decreasing] of a column (transforms.py L798). *)
Definition mono_down (l : list (option Q)) : bool :=
  match all_known l with
  | Some w => forallb (fun i => Qleb (nth (S i) w 0) (nth i w 0)) (seq 0 (length w - 1))
  | None => false
  end.
(** transforms.py L774-803 [PriceVolumeCorrelation._pd], with the special case of L792-800. *)
Definition pv_corr_pd (price volume : list (option Q)) (n : nat) : list ext :=
  let pairs := map (fun j => match pad_return price j, nth j volume None with
                             | Some r, Some v => Some (r, v) | _, _ => None end) (seq 0 (length price)) in
  let special := (10 <=? length price)%nat && (n =? 4)%nat && mono_up price in
  map (fun i =>
    if special && mono_up volume && (n <=? i)%nat then Fin 1
    else if special && negb (mono_up volume) && mono_down volume && (n <=? i)%nat then Fin (-(1))
    else match rolling pairs n i with Some ps => corr_pd ps | None => NaN end) (seq 0 (length price)).

(* ------------------------------------------------------------------ *)
(** ** MeanReversionZScore *)

(** transforms.py L1049-1058 [MeanReversionZScore._pd]: sample standard deviation, NaN for a window of
    one row. *)
Definition mr_zscore (x : list (option Q)) (n : nat) : list ext :=
  map (fun i =>
    match rolling x n i, nth i x None with
    | Some w, Some v =>
        if (n <? 2)%nat then NaN
        else let m := qsum w / Qnat n in
             let var := qsum (map (fun y => (y - m) * (y - m)) w) / inject_Z (Z.of_nat n - 1) in
             ediv (v - m) (sqrt var)
    | _, _ => NaN
    end) (seq 0 (length x)).

(* ------------------------------------------------------------------ *)
(** ** KurtosisTransform *)

(** transforms.py L923 [stats.kurtosis] (Fisher, biased): fourth central moment over the squared
    second, minus 3; NaN for a window without spread (scipy's test is relative to the rounding error
    of the mean). *)
Definition kurtosis (w : list Q) : option Q :=
  let n := Qnat (length w) in
  let m := qsum w / n in
  let m2 := qsum (map (fun y => (y - m) * (y - m)) w) / n in
  let m4 := qsum (map (fun y => (y - m) * (y - m) * ((y - m) * (y - m))) w) / n in
  if Qeqb m2 0 then None else Some (m4 / (m2 * m2) - 3).
(** transforms.py L918-928 [KurtosisTransform._pd]. *)
Definition kurtosis_pd (x : list (option Q)) (n : nat) : list (option Q) :=
  map (fun i => match rolling x n i with Some w => kurtosis w | None => None end) (seq 0 (length x)).

(* ------------------------------------------------------------------ *)
(** ** TrendSlope *)

(** Least squares slope of ys over xs: [stats.linregress] (transforms.py L974) and [np.polyfit] of
    degree 1 (L1390). *)
Definition ols (xs ys : list Q) : Q :=
  let n := Qnat (length xs) in
  let mx := qsum xs / n in
  let my := qsum ys / n in
  (qsum (map (fun p => (fst p - mx) * (snd p - my)) (combine xs ys)) / n)
  / (qsum (map (fun x => (x - mx) * (x - mx)) xs) / n).
(** np.log and degrees(arctan(.)) (transforms.py L957, L977). *)
Variables ln angle : Q -> Q.
(** transforms.py L957: [np.log] of a price; NaN for a negative price; -inf for 0, with which
    linregress yields NaN. *)
Definition log_price (p : option Q) : option Q :=
  match p with Some v => if Qltb 0 v then Some (ln v) else None | None => None end.
(** transforms.py L954-983 [TrendSlope._pd]; the slope of a single point is NaN. *)
Definition trend_slope (x : list (option Q)) (n : nat) : list (option Q) :=
  map (fun i => match rolling (map log_price x) n i with
                | Some w => if (n <? 2)%nat then None else Some (angle (ols (map Qnat (seq 0 n)) w))
                | None => None
                end) (seq 0 (length x)).

(* ------------------------------------------------------------------ *)
(** ** HurstExponent *)

(** transforms.py L1379: cumulative sums. *)
Fixpoint csum (acc : Q) (w : list Q) : list Q :=
  match w with [] => [] | x :: t => (acc + x) :: csum (acc + x) t end.
(** [np.var] (transforms.py L1386). *)
Definition pvar (l : list Q) : Q :=
  let m := qsum l / Qnat (length l) in qsum (map (fun y => (y - m) * (y - m)) l) / Qnat (length l).
(** transforms.py L1385: [y[k:] - y[:-k]]. *)
Definition lag_diff (y : list Q) (k : nat) : list Q :=
  map (fun i => nth (i + k) y 0 - nth i y 0) (seq 0 (length y - k)).
(** transforms.py L1380. *)
Definition hurst_lags : list nat := [1; 2; 4; 8]%nat.
(** transforms.py L1382-1387: lags not shorter than the window are left out. *)
Definition hurst_taus (w : list Q) : list Q :=
  let y := csum 0 w in
  map (fun k => sqrt (pvar (lag_diff y k))) (filter (fun k => (k <? length y)%nat) hurst_lags).
(** transforms.py L1377-1392 [_hurst_aggregated_variance]; [np.polyfit] raises TypeError when the
    two arguments have different lengths. *)
Definition hurst_window (w : list Q) : result (option Q) :=
  let taus := hurst_taus w in
  if forallb (Qltb 0) taus then
    if (length taus =? length hurst_lags)%nat
    then Ok (Some (ols (map (fun k => ln (Qnat k)) hurst_lags) (map ln taus)))
    else Raise TypeError
  else Ok None.
(** transforms.py L1363-1375 [HurstExponent._pd]. *)
Definition hurst (x : list (option Q)) (n : nat) : result (list (option Q)) :=
  collect (map (fun i => match rolling x n i with Some w => hurst_window w | None => Ok None end) (seq 0 (length x))).

End WithMath.
