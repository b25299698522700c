(** M_volat.v -- model of finmlkit/feature/core/volatility.py.

    float64 arithmetic is exact rational arithmetic ([Q]), NaN is [None].  np.sqrt,
    np.exp and np.log are parameters.  Timestamp differences are exact (no int64
    overflow).  Windows are at least 1; empty price arrays, where the code reads
    index 0 out of bounds, are mapped to the empty result. *)
From Verif Require Import Base M_features.
Open Scope Q_scope.

(** volatility.py L44-48, L118, L192, L238, L245, L279, L392, L410, L420, L465: an array entry that may be NaN. *)
Definition known (l : list (option Q)) (i : nat) : option Q := nth i l None.

Section WithMath.
  (** np.sqrt, np.exp, np.log. *)
  Variables sqrt exp ln : Q -> Q.

  (* ---------------------------------------------------------------- *)
  (** ** ewms *)

  (** volatility.py L35-38: the four running sums of [ewms]. *)
  Record ew_st := mkEW { e_w : Q; e_w2 : Q; e_y : Q; e_y2 : Q }.
  (** volatility.py L41-54: update with one observation, [b] is one_minus_alpha. *)
  Definition ew_step (b : Q) (s : ew_st) (y : option Q) : ew_st :=
    match y with
    | Some v => mkEW (b * e_w s + 1) (b * b * e_w2 s + 1) (b * e_y s + v) (b * e_y2 s + v * v)
    | None => mkEW (b * e_w s + 0) (b * b * e_w2 s + 0) (b * e_y s) (b * e_y2 s)
    end.
  (** volatility.py L56-67: output of one step. *)
  Definition ew_out (s : ew_st) : option Q :=
    if Qltb 0 (e_w s) then
      let mean := e_y s / e_w s in
      let den := e_w s - e_w2 s / e_w s in
      if Qltb 0 den then
        let variance := (e_y2 s / e_w s - mean * mean) * e_w s / den in
        Some (sqrt (pmax variance 0))
      else None
    else None.
  (** volatility.py L41-67: the loop. *)
  Fixpoint ew_loop (b : Q) (s : ew_st) (ys : list (option Q)) : list (option Q) :=
    match ys with
    | [] => []
    | y :: t => let s' := ew_step b s y in ew_out s' :: ew_loop b s' t
    end.
  (** volatility.py L10-69 [ewms]. *)
  Definition ewms (ys : list (option Q)) (span : Z) : list (option Q) :=
    if (span <=? 1)%Z then repeat None (length ys)
    else ew_loop (1 - 2 / (inject_Z span + 1)) (mkEW 0 0 0 0) ys.

  (* ---------------------------------------------------------------- *)
  (** ** ewmst_mean0 and ewmst *)

  (** volatility.py L110-114, L178-182: decay factor of step i. *)
  Definition ts_alpha (ts : list Z) (hl : Q) (i : nat) : Q :=
    1 - exp (- (inject_Z (nth i ts 0%Z - nth (i - 1) ts 0%Z) / 1000000000) / hl).
  (** volatility.py L101-124: (U, V) after step [i]; the loop starts at 1. *)
  Fixpoint m0_state (ts : list Z) (y : list (option Q)) (hl : Q) (i : nat) : Q * Q :=
    match i with
    | O => (0, 0)
    | S j =>
        let '(u, v) := m0_state ts y hl j in
        let a := ts_alpha ts hl i in
        match known y i with
        | None => ((1 - a) * u, (1 - a) * v)
        | Some x => (a * (x * x) + (1 - a) * u, a + (1 - a) * v)
        end
    end.
  (** volatility.py L127-132: variance and floor; NaN passes every comparison. *)
  Definition m0_out (floor : Q) (s : Q * Q) : option Q :=
    if Qltb 0 (snd s) then
      let var := fst s / snd s in
      let var := if Qltb var 0 then 0 else var in
      let sigma := sqrt var in
      Some (if Qltb sigma floor then floor else sigma)
    else None.
  (** volatility.py L73-136 [ewmst_mean0]; half_life 0 divides by zero (L114). *)
  Definition ewmst_mean0 (ts : list Z) (y : list (option Q)) (hl floor : Q) : result (list (option Q)) :=
    if ((2 <=? length y)%nat && Qeqb hl 0)%bool then Raise ZeroDivisionError
    else Ok (map (fun i => match i with O => None | S _ => m0_out floor (m0_state ts y hl i) end)
                 (seq 0 (length y))).

  (** volatility.py L169-172: the sums of [ewmst]: V, V2, Sy, Syy. *)
  Record et_st := mkET { t_v : Q; t_v2 : Q; t_y : Q; t_yy : Q }.
  (** volatility.py L176-198: sums after step [i]. *)
  Fixpoint et_state (ts : list Z) (y : list (option Q)) (hl : Q) (i : nat) : et_st :=
    match i with
    | O => mkET 0 0 0 0
    | S j =>
        let s := et_state ts y hl j in
        let a := ts_alpha ts hl i in
        let om := 1 - a in
        let v := a + om * t_v s in
        let v2 := a * a + om * om * t_v2 s in
        match known y i with
        | None => mkET v v2 (om * t_y s) (om * t_yy s)
        | Some x => mkET v v2 (a * x + om * t_y s) (a * x * x + om * t_yy s)
        end
    end.
  (** volatility.py L201-217: output of one step. *)
  Definition et_out (floor : Q) (s : et_st) : option Q :=
    if Qltb 0 (t_v s) then
      let mean := t_y s / t_v s in
      let raw := t_yy s / t_v s - mean * mean in
      let den := t_v s - t_v2 s / t_v s in
      let var := if (Qltb 0 den && Qltb 0 raw)%bool then raw * (t_v s / den) else 0 in
      let sigma := sqrt var in
      Some (if Qltb sigma floor then floor else sigma)
    else None.
  (** volatility.py L140-219 [ewmst]. *)
  Definition ewmst (ts : list Z) (y : list (option Q)) (hl floor : Q) : result (list (option Q)) :=
    if ((2 <=? length y)%nat && Qeqb hl 0)%bool then Raise ZeroDivisionError
    else Ok (map (fun i => match i with O => None | S _ => et_out floor (et_state ts y hl i) end)
                 (seq 0 (length y))).

  (* ---------------------------------------------------------------- *)
  (** ** True range, ATR *)

  (** volatility.py L238-251: true range of bar i. *)
  Definition tr_at (high low close : list (option Q)) (i : nat) : option Q :=
    match i with
    | O => match known high 0, known low 0 with Some h, Some l => Some (h - l) | _, _ => None end
    | S j =>
        match known high i, known low i, known close j with
        | Some h, Some l, Some c => Some (pmax (pmax (h - l) (Qabs (h - c))) (Qabs (l - c)))
        | _, _, _ => None
        end
    end.
  (** volatility.py L223-253 [true_range]. *)
  Definition true_range (high low close : list (option Q)) : result (list (option Q)) :=
    if ((length high =? length low) && (length low =? length close))%nat%bool
    then Ok (map (tr_at high low close) (seq 0 (length high)))
    else Raise ValueError.

  (** volatility.py L388-394, L416-422: number and sum of the valid entries. *)
  Definition valid_sum (l : list (option Q)) : nat * Q :=
    fold_left (fun s x => match x with Some v => (S (fst s), snd s + v) | None => s end) l (0%nat, 0).
  (** volatility.py L396-397, L425-428: their mean, NaN if there is none. *)
  Definition valid_mean (l : list (option Q)) : option Q :=
    let s := valid_sum l in if (0 <? fst s)%nat then Some (snd s / Qnat (fst s)) else None.
  (** The slice a[i-n+1 : i+1] of an array that may hold NaN (volatility.py L275, L415, L458). *)
  Definition olast (l : list (option Q)) (i n : nat) : list (option Q) := firstn n (skipn (i + 1 - n) l).
  (** volatility.py L387-405: EMA based ATR, [k] steps after index window-1. *)
  Fixpoint atr_ema (tr : list (option Q)) (window k : nat) : option Q :=
    match k with
    | O => valid_mean (firstn window tr)
    | S k' => match known tr (window - 1 + k), atr_ema tr window k' with
              | Some x, Some a => Some (((Qnat window - 1) * a + x) / Qnat window)
              | _, _ => None
              end
    end.
  (** volatility.py L408-428: SMA based ATR at index i, with the special case i = 2. *)
  Definition atr_sma (high low close tr : list (option Q)) (window i : nat) : option Q :=
    match (i =? 2)%nat, known high i, known low i, known close i with
    | true, None, None, None => None
    | _, _, _, _ => valid_mean (olast tr i window)
    end.
  (** volatility.py L431-435: division by the mid price. *)
  Definition atr_norm (high low : list (option Q)) (i : nat) (a : option Q) : option Q :=
    match a, known high i, known low i with
    | Some x, Some h, Some l => let mid := (h + l) / 2 in if Qltb 0 mid then Some (x / mid) else Some x
    | _, _, _ => a
    end.
  (** volatility.py L353-437 [atr]. *)
  Definition atr (high low close : list (option Q)) (window : nat) (ema normalize : bool) : result (list (option Q)) :=
    match true_range high low close with
    | Raise e => Raise e
    | Ok tr =>
        let n := length high in
        Ok (map (fun i =>
              let a := if ((n <? window) || (i + 1 <? window))%nat%bool then None
                       else if ema then atr_ema tr window (i + 1 - window)
                       else atr_sma high low close tr window i in
              if normalize then atr_norm high low i a else a) (seq 0 n))
    end.

  (* ---------------------------------------------------------------- *)
  (** ** Realised volatility, Bollinger, Parkinson *)

  (** volatility.py L257-286 [realized_vol]: np.nansum of the squares over the window. *)
  Definition realized_vol (r : list (option Q)) (window : nat) (is_sample : bool) : list (option Q) :=
    map (fun i =>
      if (i + 1 <? window)%nat then None
      else
        let w := olast r i window in
        let count := fst (valid_sum w) in
        if (1 <? count)%nat then
          let divisor := if is_sample then (count - 1)%nat else count in
          Some (sqrt (qsum (map (fun x => match x with Some v => v * v | None => 0 end) w) / Qnat divisor))
        else None) (seq 0 (length r)).

  (** volatility.py L314-318 and L329-330: rolling (sum, sum of squares), [k] updates
      after the first window. *)
  Fixpoint bb_sums (close : list Q) (window k : nat) : Q * Q :=
    match k with
    | O => fold_left (fun s j => (fst s + qn close j, snd s + qn close j * qn close j)) (seq 0 window) (0, 0)
    | S k' =>
        let s := bb_sums close window k' in
        let i := (window + k')%nat in
        (fst s + (qn close i - qn close (i - window)),
         snd s + (qn close i * qn close i - qn close (i - window) * qn close (i - window)))
    end.
  (** volatility.py L320-325, L331-336: percent b from the sums. *)
  Definition bb_value (c : Q) (s : Q * Q) (window : nat) (k : Q) : option Q :=
    let mean := fst s / Qnat window in
    let var := (snd s - Qnat window * mean * mean) / (Qnat window - 1) in
    let sd := sqrt (pmax var 0) in
    let lower := mean - k * sd in
    let upper := mean + k * sd in
    if Qltb lower upper then Some ((c - lower) / (upper - lower)) else None.
  (** volatility.py L290-338 [bollinger_percent_b]; window 1 divides by window - 1 = 0. *)
  Definition bollinger_percent_b (close : list Q) (window : nat) (k : Q) : result (list (option Q)) :=
    if (length close <? window)%nat then Ok (repeat None (length close))
    else if (window =? 1)%nat then Raise ZeroDivisionError
    else Ok (map (fun i => if (i + 1 <? window)%nat then None
                           else bb_value (qn close i) (bb_sums close window (i + 1 - window)) window k)
                 (seq 0 (length close))).

  (** volatility.py L342-349 [parkinson_range]; positive prices, low 0 divides by zero. *)
  Definition parkinson_range (high low : list Q) : result (list Q) :=
    collect (map (fun i => if Qeqb (qn low i) 0 then Raise ZeroDivisionError
                           else let x := ln (qn high i / qn low i) in Ok (x * x / (ln 2 * 4)))
                 (seq 0 (length high))).

  (* ---------------------------------------------------------------- *)
  (** ** Rolling variance, variance ratio *)

  (** volatility.py L459-468: count, sum and sum of squares of the valid entries. *)
  Definition valid_sums (l : list (option Q)) : nat * Q * Q :=
    fold_left (fun s x => match x with
                          | Some v => (S (fst (fst s)), snd (fst s) + v, snd s + v * v)
                          | None => s end) l (0%nat, 0, 0).
  (** volatility.py L441-478 [rolling_variance_nb]; ddof >= 0. *)
  Definition rolling_variance (series : list (option Q)) (window : nat) (ddof min_periods : Z) : list (option Q) :=
    map (fun i =>
      if ((length series <? window) || (i + 1 <? window))%nat%bool then None
      else
        let '(c, s, q) := valid_sums (olast series i window) in
        if ((min_periods <=? Z.of_nat c) && (ddof <? Z.of_nat c))%Z%bool then
          let mean := s / Qnat c in
          let variance := (q / Qnat c - mean * mean) * (Qnat c / inject_Z (Z.of_nat c - ddof)) in
          Some (pmax 0 variance)
        else None) (seq 0 (length series)).

  (** volatility.py L503-517: one-bar return of bar i. *)
  Definition vr_ret1 (price : list (option Q)) (is_log : bool) (i : nat) : option Q :=
    match i with
    | O => None
    | S j => match known price i, known price j with
             | Some a, Some b =>
                 if Qleb b 0 then None
                 else if is_log then (if Qleb a 0 then None else Some (ln (a / b)))
                 else Some (a / b - 1)
             | _, _ => None
             end
    end.
  (** volatility.py L523-528: sum of the last four one-bar returns. *)
  Definition vr_ret4 (r : list (option Q)) (i : nat) : option Q :=
    if (i <? 4)%nat then None
    else match known r i, known r (i - 1), known r (i - 2), known r (i - 3) with
         | Some a, Some b, Some c, Some d => Some (a + b + c + d)
         | _, _, _, _ => None
         end.
  (** volatility.py L482-540 [variance_ratio_1_4_core]; min_periods is 1 (L441, L520, L531). *)
  Definition variance_ratio (price : list (option Q)) (window : nat) (ddof : Z) (is_log : bool) : list (option Q) :=
    let n := length price in
    if (n <? window + 4)%nat then repeat None n
    else
      let r1 := map (vr_ret1 price is_log) (seq 0 n) in
      let r4 := map (vr_ret4 r1) (seq 0 n) in
      let v1 := rolling_variance r1 window ddof 1 in
      let v4 := rolling_variance r4 window ddof 1 in
      map (fun i => match known v1 i, known v4 i with
                    | Some a, Some b => if Qltb 0 b then Some (a / (b / 4)) else None
                    | _, _ => None
                    end) (seq 0 n).
End WithMath.
