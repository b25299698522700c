(** M_float10.v -- returns, burst ratio, Parkinson range and variance ratio (feature/core/utils.py, momentum.py, volatility.py) with
    the rounding of float64, where M_features.v and M_volat.v take the arithmetic exact.
    Simplifications as in M_float.v: unbounded exponents; numbers of observations are float64 numbers. *)
From Verif Require Import Base M_logic M_bars M_features M_volat M_float M_float2 M_float7.
Open Scope Q_scope.

Section WithLn.
  (** np.log. *)
  Variable ln : Q -> Q.

  (** utils.py L48-59: return of close_i against close_j. *)
  Definition lag_return_f (is_log : bool) (ci cj : Q) : ext :=
    if Qeqb cj 0 then PInf else if is_log then flog ln (r53 (ci / cj)) else Fin (r53 (r53 (ci / cj) - 1)).
  (** utils.py L13-64 [comp_lagged_returns]; indices as in M_features.v. *)
  Definition comp_lagged_returns_f (ts : list Z) (close : list Q) (W : Z) (is_log : bool) : result (list ext) :=
    if (W <=? 0)%Z then Raise ValueError
    else
      let fts := map f64 ts in
      let start := ss_left fts (f64 (f64 (nth 0 ts 0%Z) + W)) in
      Ok (map (fun i =>
            if (i <? start)%nat then NaN
            else let lag := (Z.of_nat (ss_right fts (f64 (f64 (nth i ts 0%Z) - W))) - 1)%Z in
                 if ((0 <=? lag) && (lag <? Z.of_nat i))%Z
                 then lag_return_f is_log (qn close i) (qn close (Z.to_nat lag)) else NaN)
          (seq 0 (length close))).

  (** volatility.py L342-349 [parkinson_range]; positive prices, low 0 divides by zero. *)
  Definition parkinson_range_f (high low : list Q) : result (list Q) :=
    collect (map (fun i => if Qeqb (qn low i) 0 then Raise ZeroDivisionError
                           else let x := ln (r53 (qn high i / qn low i)) in Ok (r53 (r53 (x * x) / r53 (ln 2 * 4))))
                 (seq 0 (length high))).

  (** volatility.py L503-517: one-bar return of bar i. *)
  Definition vr_ret1_f (price : list (option Q)) (is_log : bool) (i : nat) : option Q :=
    match i with
    | O => None
    | S j => match known price i, known price j with
             | Some a, Some b =>
                 if Qleb b 0 then None
                 else if is_log then (if Qleb a 0 then None else Some (ln (r53 (a / b))))
                 else Some (r53 (r53 (a / b) - 1))
             | _, _ => None
             end
    end.
  (** volatility.py L523-528: sum of the last four one-bar returns. *)
  Definition vr_ret4_f (r : list (option Q)) (i : nat) : option Q :=
    if (i <? 4)%nat then None
    else match known r i, known r (i - 1), known r (i - 2), known r (i - 3) with
         | Some a, Some b, Some c, Some d => Some (r53 (r53 (r53 (a + b) + c) + d))
         | _, _, _, _ => None
         end.
  (** volatility.py L482-540 [variance_ratio_1_4_core]; min_periods is 1 (L441, L520, L531). *)
  Definition variance_ratio_f (price : list (option Q)) (window : nat) (ddof : Z) (is_log : bool) : list (option Q) :=
    let n := length price in
    if (n <? window + 4)%nat then repeat None n
    else
      let r1 := map (vr_ret1_f price is_log) (seq 0 n) in
      let r4 := map (vr_ret4_f r1) (seq 0 n) in
      let v1 := rolling_variance_f r1 window ddof 1 in
      let v4 := rolling_variance_f r4 window ddof 1 in
      map (fun i => match known v1 i, known v4 i with
                    | Some a, Some b => if Qltb 0 b then Some (r53 (a / r53 (b / 4))) else None
                    | _, _ => None
                    end) (seq 0 n).
End WithLn.

(** utils.py L93-108 [comp_burst_ratio]. *)
Definition comp_burst_ratio_f (xs : list Q) (window : nat) : list (option Q) :=
  map (fun i => if (i + 1 <? window)%nat then None
                else let med := median_f (lastn xs i window) in
                     if Qltb 0 med then Some (r53 (qn xs i / med)) else None)
      (seq 0 (length xs)).

(** utils.py L111-124 [pct_change]. *)
Definition pct_change_f (xs : list Q) (periods : nat) : list (option Q) :=
  map (fun t => if (t <? periods)%nat then None
                else let base := qn xs (t - periods) in
                     if Qltb 0 base then Some (r53 (r53 (qn xs t - base) / base)) else None)
      (seq 0 (length xs)).

(** momentum.py L7-22 [roc]. *)
Definition roc_f (p : list Q) (period : nat) : result (list (option Q)) :=
  if existsb (fun i => Qeqb (qn p (i - period)) 0) (seq period (length p - period))
  then Raise ZeroDivisionError
  else Ok (map (fun i => if (i <? period)%nat then None
                         else Some (r53 (r53 (r53 (qn p i - qn p (i - period)) / qn p (i - period)) * 100)))
               (seq 0 (length p))).
