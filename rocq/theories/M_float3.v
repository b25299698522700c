(** M_float3.v -- RSI, stochastic %K and ADX of feature/core with the rounding of float64, where M_features.v takes the arithmetic exact.
    Simplifications as in M_float.v: unbounded exponents, no infinities; windows are below 2^53 so that their conversion is exact. *)
From Verif Require Import Base M_logic M_bars M_features M_volume M_float M_float2.
Open Scope Q_scope.

(** momentum.py L44, L56: close[i] - close[i-1]. *)
Definition diff_f (close : list Q) (i : nat) : Q := r53 (qn close i - qn close (i - 1)).
(** momentum.py L57. *)
Definition gain_f (close : list Q) (i : nat) : Q := if Qltb 0 (diff_f close i) then diff_f close i else 0.
(** momentum.py L58. *)
Definition loss_f (close : list Q) (i : nat) : Q := if Qltb (diff_f close i) 0 then - diff_f close i else 0.
(** momentum.py L41-48: sums over the first window. *)
Definition rsi_sums_f (close : list Q) (window : nat) : Q * Q :=
  fold_left (fun s i => let d := diff_f close i in
                        if Qltb 0 d then (r53 (fst s + d), snd s) else (fst s, r53 (snd s + - d)))
            (seq 1 window) (0, 0).
(** momentum.py L60-61: [((window - 1) * avg + x) / window], [k] steps after the first average. *)
Fixpoint wilder_f (window : nat) (a0 : Q) (x : nat -> Q) (k : nat) : Q :=
  match k with
  | O => a0
  | S k' => r53 (r53 (r53 ((Qnat window - 1) * wilder_f window a0 x k') + x (window + k)%nat) / Qnat window)
  end.
(** momentum.py L52, L63. *)
Definition rsi_value_f (ag al : Q) : option Q :=
  if Qltb 0 al then Some (r53 (100 - r53 (100 / r53 (1 + r53 (ag / al))))) else None.
(** momentum.py L26-65 [rsi_wilder]; window >= 1. *)
Definition rsi_wilder_f (close : list Q) (window : nat) : list (option Q) :=
  let s := rsi_sums_f close window in
  map (fun i => if (i <? window)%nat then None
                else rsi_value_f (wilder_f window (r53 (fst s / Qnat window)) (gain_f close) (i - window))
                                 (wilder_f window (r53 (snd s / Qnat window)) (loss_f close) (i - window)))
      (seq 0 (length close)).

(** momentum.py L69-112 [stoch_k]; the extremes are exact, [100.0 * (close - lo) / (hi - lo)] (L94, L110) is rounded four times. *)
Definition stoch_k_f (close low high : list Q) (len : nat) : list (option Q) :=
  map (fun t => if (t + 1 <? len)%nat then None
                else let s := stoch_ext low high len (t + 1 - len) in
                     if Qltb (fst s) (snd s)
                     then Some (r53 (r53 (100 * r53 (qn close t - fst s)) / r53 (snd s - fst s))) else None)
      (seq 0 (length close)).

(** trend.py L32-36: true range. *)
Definition true_rng_f (high low close : list Q) (i : nat) : Q :=
  if (i =? 0)%nat then 0
  else pmax (pmax (r53 (qn high i - qn low i)) (Qabs (r53 (qn high i - qn close (i - 1))))) (Qabs (r53 (qn low i - qn close (i - 1)))).
(** trend.py L39-46. *)
Definition plus_dm_f (high low : list Q) (i : nat) : Q :=
  if (i =? 0)%nat then 0
  else let hd := r53 (qn high i - qn high (i - 1)) in let ld := r53 (qn low (i - 1) - qn low i) in
       if Qltb ld hd && Qltb 0 hd then hd else 0.
(** trend.py L39-40, L49-52. *)
Definition minus_dm_f (high low : list Q) (i : nat) : Q :=
  if (i =? 0)%nat then 0
  else let hd := r53 (qn high i - qn high (i - 1)) in let ld := r53 (qn low (i - 1) - qn low i) in
       if Qltb hd ld && Qltb 0 ld then ld else 0.
(** trend.py L60-69: smoothed sums, [k] steps after index [len]. *)
Fixpoint wsum_f (x : nat -> Q) (len k : nat) : Q :=
  match k with
  | O => fsum (map x (seq 1 len))
  | S k' => r53 (r53 (wsum_f x len k' - r53 (wsum_f x len k' / Qnat len)) + x (len + k)%nat)
  end.
(** trend.py L72-77. *)
Definition di_f (dm tr : Q) : Q := if Qltb 0 tr then r53 (100 * r53 (dm / tr)) else 0.
(** trend.py L80-83. *)
Definition dx_of_f (p m : Q) : Q := if Qltb 0 (r53 (p + m)) then r53 (100 * r53 (Qabs (r53 (p - m)) / r53 (p + m))) else 0.
(** trend.py L72-83: DX of bar i. *)
Definition dx_f (high low close : list Q) (len i : nat) : Q :=
  if (i <? len)%nat then 0
  else let tr := wsum_f (true_rng_f high low close) len (i - len) in
       dx_of_f (di_f (wsum_f (plus_dm_f high low) len (i - len)) tr) (di_f (wsum_f (minus_dm_f high low) len (i - len)) tr).
(** trend.py L89-94: [np.mean], then [((adx * (length-1)) + dx) / length]. *)
Fixpoint adx_at_f (d : nat -> Q) (len k : nat) : Q :=
  match k with
  | O => r53 (fsum (map d (seq len len)) / Qnat len)
  | S k' => r53 (r53 (r53 (adx_at_f d len k' * (Qnat len - 1)) + d (2 * len - 1 + k)%nat) / Qnat len)
  end.
(** trend.py L9-96 [adx_core]; length >= 1. *)
Definition adx_core_f (high low close : list Q) (len : nat) : list Q :=
  map (fun i => if (i + 1 <? 2 * len)%nat then 0 else adx_at_f (dx_f high low close len) len (i + 1 - 2 * len))
      (seq 0 (length high)).
