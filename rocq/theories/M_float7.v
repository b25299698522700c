(** M_float7.v -- volatility estimators with the rounding of float64, where M_volat.v takes the arithmetic exact.
    Simplifications as in M_float.v: unbounded exponents; numbers without a rounding written are float64 numbers already;
    windows and counts are small enough to be float64 numbers.  np.sqrt is a parameter. *)
From Verif Require Import Base M_features M_volat M_float M_float2.
Open Scope Q_scope.

(** volatility.py L238-251: true range of bar i, every difference rounded. *)
Definition tr_at_f (high low close : list (option Q)) (i : nat) : option Q :=
  match i with
  | O => match known high 0, known low 0 with Some h, Some l => Some (r53 (h - l)) | _, _ => None end
  | S j =>
      match known high i, known low i, known close j with
      | Some h, Some l, Some c => Some (pmax (pmax (r53 (h - l)) (Qabs (r53 (h - c)))) (Qabs (r53 (l - c))))
      | _, _, _ => None
      end
  end.
(** volatility.py L223-253 [true_range]. *)
Definition true_range_f (high low close : list (option Q)) : result (list (option Q)) :=
  if ((length high =? length low) && (length low =? length close))%nat%bool
  then Ok (map (tr_at_f high low close) (seq 0 (length high)))
  else Raise ValueError.

(** volatility.py L388-394, L416-422: number and rounded sum of the valid entries. *)
Definition valid_sum_f (l : list (option Q)) : nat * Q :=
  fold_left (fun s x => match x with Some v => (S (fst s), r53 (snd s + v)) | None => s end) l (0%nat, 0).
(** volatility.py L396-397, L425-428 *)
Definition valid_mean_f (l : list (option Q)) : option Q :=
  let s := valid_sum_f l in if (0 <? fst s)%nat then Some (r53 (snd s / Qnat (fst s))) else None.
(** volatility.py L387-405: EMA based ATR, [k] steps after index window-1. *)
Fixpoint atr_ema_f (tr : list (option Q)) (window k : nat) : option Q :=
  match k with
  | O => valid_mean_f (firstn window tr)
  | S k' => match known tr (window - 1 + k), atr_ema_f tr window k' with
            | Some x, Some a => Some (r53 (r53 (r53 ((Qnat window - 1) * a) + x) / Qnat window))
            | _, _ => None
            end
  end.
(** volatility.py L408-428: SMA based ATR at index i, with the special case i = 2. *)
Definition atr_sma_f (high low close tr : list (option Q)) (window i : nat) : option Q :=
  match (i =? 2)%nat, known high i, known low i, known close i with
  | true, None, None, None => None
  | _, _, _, _ => valid_mean_f (olast tr i window)
  end.
(** volatility.py L431-435: division by the mid price. *)
Definition atr_norm_f (high low : list (option Q)) (i : nat) (a : option Q) : option Q :=
  match a, known high i, known low i with
  | Some x, Some h, Some l => let mid := r53 (r53 (h + l) / 2) in if Qltb 0 mid then Some (r53 (x / mid)) else Some x
  | _, _, _ => a
  end.
(** volatility.py L353-437 [atr]. *)
Definition atr_f (high low close : list (option Q)) (window : nat) (ema normalize : bool) : result (list (option Q)) :=
  match true_range_f high low close with
  | Raise e => Raise e
  | Ok tr =>
      let n := length high in
      Ok (map (fun i =>
            let a := if ((n <? window) || (i + 1 <? window))%nat%bool then None
                     else if ema then atr_ema_f tr window (i + 1 - window)
                     else atr_sma_f high low close tr window i in
            if normalize then atr_norm_f high low i a else a) (seq 0 n))
  end.

(** volatility.py L279-284: the present values of a window. *)
Definition present (l : list (option Q)) : list Q :=
  flat_map (fun x => match x with Some v => [v] | None => [] end) l.

Section WithSqrt.
  Variable sqrt : Q -> Q.

  (** volatility.py L257-286 [realized_vol]: rounded squares, their sum by np.nansum (which skips NaN; [sumf] is a sum in
      any order), rounded quotient. *)
  Definition realized_vol_f (sumf : list Q -> Q) (r : list (option Q)) (window : nat) (is_sample : bool) : list (option Q) :=
    map (fun i =>
      if (i + 1 <? window)%nat then None
      else
        let w := present (olast r i window) in
        let count := length w in
        if (1 <? count)%nat then
          let divisor := if is_sample then (count - 1)%nat else count in
          Some (sqrt (r53 (sumf (map (fun v => r53 (v * v)) w) / Qnat divisor)))
        else None) (seq 0 (length r)).

  (** volatility.py L314-318 and L329-330: rolling (sum, sum of squares). *)
  Fixpoint bb_sums_f (close : list Q) (window k : nat) : Q * Q :=
    match k with
    | O => fold_left (fun s j => (r53 (fst s + qn close j), r53 (snd s + r53 (qn close j * qn close j)))) (seq 0 window) (0, 0)
    | S k' =>
        let s := bb_sums_f close window k' in
        let i := (window + k')%nat in
        (r53 (fst s + r53 (qn close i - qn close (i - window))),
         r53 (snd s + r53 (r53 (qn close i * qn close i) - r53 (qn close (i - window) * qn close (i - window)))))
    end.
  (** volatility.py L320-321 ([first]: window * mean * mean), L331-332 (window * mean ** 2): mean and variance. *)
  Definition bb_moments_f (first : bool) (s : Q * Q) (window : nat) : Q * Q :=
    let mean := r53 (fst s / Qnat window) in
    let sq := if first then r53 (r53 (Qnat window * mean) * mean) else r53 (Qnat window * r53 (mean * mean)) in
    (mean, r53 (r53 (snd s - sq) / (Qnat window - 1))).
  (** volatility.py L322-325, L333-336: percent b. *)
  Definition bb_value_f (c : Q) (mv : Q * Q) (k : Q) : option Q :=
    let sd := sqrt (pmax (snd mv) 0) in
    let lower := r53 (fst mv - r53 (k * sd)) in
    let upper := r53 (fst mv + r53 (k * sd)) in
    if Qltb lower upper then Some (r53 (r53 (c - lower) / r53 (upper - lower))) else None.
  (** volatility.py L290-338 [bollinger_percent_b]. *)
  Definition bollinger_percent_b_f (close : list Q) (window : nat) (k : Q) : result (list (option Q)) :=
    if (length close <? window)%nat then Ok (repeat None (length close))
    else if (window =? 1)%nat then Raise ZeroDivisionError
    else Ok (map (fun i => if (i + 1 <? window)%nat then None
                           else bb_value_f (qn close i)
                                  (bb_moments_f (i + 1 =? window)%nat (bb_sums_f close window (i + 1 - window)) window) k)
                 (seq 0 (length close))).

  (** volatility.py L41-54: update of the four sums of [ewms]; [b] is one_minus_alpha. *)
  Definition ew_step_f (b : Q) (s : ew_st) (y : option Q) : ew_st :=
    match y with
    | Some v => mkEW (r53 (r53 (b * e_w s) + 1)) (r53 (r53 (r53 (b * b) * e_w2 s) + 1))
                     (r53 (r53 (b * e_y s) + v)) (r53 (r53 (b * e_y2 s) + r53 (v * v)))
    | None => mkEW (r53 (b * e_w s)) (r53 (r53 (b * b) * e_w2 s)) (r53 (b * e_y s)) (r53 (b * e_y2 s))
    end.
  (** volatility.py L58-59: denominator. *)
  Definition ew_den_f (s : ew_st) : Q := r53 (e_w s - r53 (e_w2 s / e_w s)).
  (** volatility.py L57, L61: weighted mean square minus the square of the weighted mean. *)
  Definition ew_raw_f (s : ew_st) : Q :=
    let mean := r53 (e_y s / e_w s) in r53 (r53 (e_y2 s / e_w s) - r53 (mean * mean)).
  (** volatility.py L56-67: output of one step. *)
  Definition ew_out_f (s : ew_st) : option Q :=
    if Qltb 0 (e_w s) then
      if Qltb 0 (ew_den_f s) then Some (sqrt (pmax (r53 (r53 (ew_raw_f s * e_w s) / ew_den_f s)) 0))
      else None
    else None.
  (** volatility.py L41-67: the loop. *)
  Fixpoint ew_loop_f (b : Q) (s : ew_st) (ys : list (option Q)) : list (option Q) :=
    match ys with
    | [] => []
    | y :: t => let s' := ew_step_f b s y in ew_out_f s' :: ew_loop_f b s' t
    end.
  (** volatility.py L31-32: one_minus_alpha is [ewma_beta_f]. *)
  Definition ewms_f (ys : list (option Q)) (span : Z) : list (option Q) :=
    if (span <=? 1)%Z then repeat None (length ys)
    else ew_loop_f (ewma_beta_f span) (mkEW 0 0 0 0) ys.
End WithSqrt.

(** volatility.py L459-468: count, sum and sum of squares of the valid entries. *)
Definition valid_sums_f (l : list (option Q)) : nat * Q * Q :=
  fold_left (fun s x => match x with
                        | Some v => (S (fst (fst s)), r53 (snd (fst s) + v), r53 (snd s + r53 (v * v)))
                        | None => s end) l (0%nat, 0, 0).
(** volatility.py L441-478 [rolling_variance_nb]; ddof >= 0. *)
Definition rolling_variance_f (series : list (option Q)) (window : nat) (ddof min_periods : Z) : list (option Q) :=
  map (fun i =>
    if ((length series <? window) || (i + 1 <? window))%nat%bool then None
    else
      let '(c, s, q) := valid_sums_f (olast series i window) in
      if ((min_periods <=? Z.of_nat c) && (ddof <? Z.of_nat c))%Z%bool then
        let mean := r53 (s / Qnat c) in
        let variance := r53 (r53 (r53 (q / Qnat c) - r53 (mean * mean)) * r53 (Qnat c / inject_Z (Z.of_nat c - ddof))) in
        Some (pmax 0 variance)
      else None) (seq 0 (length series)).
