(** M_float2.v -- the moving averages, VWAP distance, z-score, VPIN and flow acceleration of
    feature/core with the rounding of float64 and float32, where M_features.v and M_volume.v take
    the arithmetic exact.  Simplifications as in M_float.v: the exponent range is unbounded (no
    overflow, no subnormal numbers) and the infinities are left out.  [np.sum] and [np.mean] inside
    a numba kernel are loops that add from left to right. *)
From Verif Require Import Base M_logic M_bars M_features M_volume M_float.
Open Scope Q_scope.

(** ma.py L60, utils.py L83-85: [np.sum] of a float64 array in numba. *)
Definition fsum (l : list Q) : Q := fold_left (fun c x => r53 (c + x)) l 0.

(** ma.py L47-62 [sma] on a float64 array: [1./N] and the product are rounded as well. *)
Definition sma_f (xs : list Q) (window : nat) : list (option Q) :=
  map (fun i => if (i + 1 <? window)%nat then None
                else Some (r53 (r53 (1 / Qnat window) * fsum (lastn xs i window))))
      (seq 0 (length xs)).

(** ma.py L36-41: the loop of [ewma] over y[1:]; [beta] is the rounded [1.0 - alpha]. *)
Fixpoint ewma_loop_f (beta u v : Q) (ys : list Q) : list Q :=
  match ys with
  | [] => []
  | y :: t =>
      let u' := r53 (y + r53 (beta * u)) in
      let v' := r53 (1 + r53 (beta * v)) in
      r53 (u' / v') :: ewma_loop_f beta u' v' t
  end.
(** ma.py L31, L38-39: [1.0 - alpha] with [alpha = 2.0 / (span + 1.0)]. *)
Definition ewma_beta_f (span : Z) : Q := r53 (1 - r53 (2 / r53 (inject_Z span + 1))).
(** ma.py L7-43 [ewma]; the empty series as in M_features.v. *)
Definition ewma_f (ys : list Q) (span : Z) : result (list Q) :=
  if (span <? 1)%Z then Raise ValueError
  else match ys with
       | [] => Ok []
       | y :: t => Ok (y :: ewma_loop_f (ewma_beta_f span) y 1 t)
       end.

Section WithLn.
  (** reversion.py L50: [np.log] with the float64 result. *)
  Variable ln : Q -> Q.
  (** reversion.py L40/L52 and L50: distance of a close from w/v, every operation rounded. *)
  Definition vwap_dist_f (is_log : bool) (c w v : Q) : result ext :=
    let p := r53 (w / v) in
    if Qeqb p 0 then Raise ZeroDivisionError
    else if is_log then Ok (flog ln (r53 (c / p))) else Ok (Fin (r53 (r53 (c / p) - 1))).
  (** reversion.py L31-54: sums (wsum, vsum) and out[n_periods-1+k] after [k] rolling updates. *)
  Fixpoint vwap_state_f (close volume : list Q) (n : nat) (is_log : bool) (k : nat) : (Q * Q) * result ext :=
    match k with
    | O =>
        let w := fold_left (fun s j => r53 (s + r53 (qn close j * qn volume j))) (seq 0 n) 0 in
        let v := fold_left (fun s j => r53 (s + qn volume j)) (seq 0 n) 0 in
        ((w, v), if Qltb 0 v then vwap_dist_f false (qn close (n - 1)) w v else Ok NaN)
    | S k' =>
        let s := vwap_state_f close volume n is_log k' in
        let i := (n + k')%nat in
        let w := r53 (fst (fst s) + r53 (r53 (qn close i * qn volume i) - r53 (qn close (i - n) * qn volume (i - n)))) in
        let v := r53 (snd (fst s) + r53 (qn volume i - qn volume (i - n))) in
        ((w, v), if Qltb 0 v then vwap_dist_f is_log (qn close i) w v else snd s)
    end.
  (** reversion.py L10-56 [vwap_distance]; n_periods >= 1. *)
  Definition vwap_distance_f (close volume : list Q) (n : nat) (is_log : bool) : result (list ext) :=
    collect (map (fun i => if (i + 1 <? n)%nat then Ok NaN
                           else snd (vwap_state_f close volume n is_log (i + 1 - n)))
                 (seq 0 (length close))).
End WithLn.

(** volume.py L599-600, L629-631: running sums. *)
Fixpoint prefix_f (x : nat -> Q) (k : nat) : Q :=
  match k with O => 0 | S j => r53 (prefix_f x j + x j) end.

(** volume.py L602-605: the argument of the logarithm in [comp_flow_acceleration] at row i. *)
Definition flow_arg_f (v : list Q) (window recent i : nat) : Q :=
  let eps := r53 (1 # 1000000000000) in
  let S_ := prefix_f (qn v) in
  let rs := r53 (S_ (i + 1)%nat - S_ (i + 1 - recent)%nat) in
  let ps := r53 (S_ (i + 1 - recent)%nat - S_ (i + 1 - window)%nat) in
  r53 (r53 (rs + eps) / r53 (ps + eps)).
(** volume.py L573-607 [comp_flow_acceleration]; [np.log] is the parameter [ln]. *)
Definition comp_flow_acceleration_f (ln : Q -> Q) (v : list Q) (window recent : nat) : list (option Q) :=
  let n := length v in
  if ((n <? window)%nat || (window <=? recent)%nat)%bool then repeat None n
  else map (fun i => if (i <? window - 1)%nat then None else Some (ln (flow_arg_f v window recent i))) (seq 0 n).

(** volume.py L631: absolute imbalance of bar i, 0 for a NaN bar. *)
Definition vp_abs_f (b s : list (option Q)) (i : nat) : Q :=
  Qabs (r53 (vp_val b s b i - vp_val b s s i)).
(** volume.py L611-641 [vpin] for a window of at least 1; the result array is float32 (L613). *)
Definition vpin_f (b s : list (option Q)) (window : nat) : list (option Q) :=
  map (fun i =>
    if ((window <=? i + 1)%nat && (nan_count b s (i + 1) - nan_count b s (i + 1 - window) =? 0)%Z)%bool then
      let d (f : nat -> Q) := r53 (prefix_f f (i + 1) - prefix_f f (i + 1 - window)) in
      let tot := r53 (d (vp_val b s b) + d (vp_val b s s)) in
      if Qltb (r53 (1 # 1000000000)) tot then Some (r24 (r53 (d (vp_abs_f b s) / tot))) else None
    else None) (seq 0 (length b)).

(** utils.py L83: [np.mean] of a float64 array in numba. *)
Definition mean_f (l : list Q) : Q := r53 (fsum l / Qnat (length l)).
(** utils.py L85: the variance; [x ** 2] is [x * x]. *)
Definition var_f (l : list Q) (ddof : Z) : Q :=
  let m := mean_f l in
  r53 (fsum (map (fun x => let d := r53 (x - m) in r53 (d * d)) l) / inject_Z (Z.of_nat (length l) - ddof)).
(** utils.py L67-90 [comp_zscore]; [sqrt] is np.sqrt, ddof < window. *)
Definition comp_zscore_f (sqrt : Q -> Q) (xs : list Q) (window : nat) (ddof : Z) : list (option Q) :=
  map (fun i => if (i + 1 <? window)%nat then None
                else
                  let w := lastn xs i window in
                  let std := sqrt (var_f w ddof) in
                  if Qeqb std 0 then None else Some (r53 (r53 (qn xs i - mean_f w) / std)))
      (seq 0 (length xs)).
