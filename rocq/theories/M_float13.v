(** M_float13.v -- [comp_bar_trade_size_features] (finmlkit/bar/base.py) with the float64 and float32 rounding, where M_bars.v takes
    the arithmetic exact.
    The kernel runs in float64 and stores float32 results.  [np.sum] and [np.mean] add from left to right; [x ** 2] is the
    correctly rounded square.  Trade counts are below 2^53, so that they are exact float64 numbers.  [log1p] returns a
    float64 number.  Other simplifications as in M_float.v (unbounded exponents, no infinities) and M_bars.v. *)
From Coq Require Import Qround.
From Verif Require Import Base M_logic M_bars M_float M_float2.
Open Scope Q_scope.

(** base.py L593: rank of numba's [np.percentile], counted from 1. *)
Definition pct_rank_f (n : nat) (q : Q) : Q := r53 (1 + r53 (Qnat (n - 1) * r53 (q / 100))).
(** base.py L593: numba [np.percentile(a, q)] on a non-empty array, q < 100. *)
Definition percentile_f (l : list Q) (q : Q) : Q :=
  if (length l =? 1)%nat then nth 0 l 0
  else
    let s := qsort l in
    let rank := pct_rank_f (length l) q in
    let f := Qfloor rank in
    let m := r53 (rank - inject_Z f) in
    r53 (r53 (nth (Z.to_nat (f - 1)) s 0 * r53 (1 - m)) + r53 (nth (Z.to_nat f) s 0 * m)).

Section Size.
  (** base.py L592-593: [np.log1p]. *)
  Variable log1p : Q -> Q.

  (** base.py L581-610: one bar; NaN is [None]. *)
  Definition bar_size_f (amounts : list Q) (theta mult : Q) (s e : Z) : size_feat :=
    let a := (s + 1)%Z in
    if (e <? a)%Z then mkSize None None None None
    else if Qeqb theta 0 then mkSize None None None None
    else
      let thr := r53 (theta * mult) in
      let xs := slice amounts a (e + 1) in
      let mean := r24 (log1p (r53 (r53 (fsum xs / Qnat (length xs)) / thr))) in
      let p95 := r24 (log1p (r53 (percentile_f xs 95 / thr))) in
      let tot := fsum xs in
      if Qeqb tot 0 then mkSize (Some mean) (Some p95) None None
      else
        let blk := fold_left (fun acc x => if Qltb thr x then r53 (acc + x) else acc) xs 0 in
        mkSize (Some mean) (Some p95) (Some (r24 (r53 (blk / tot))))
          (Some (if (length xs =? 1)%nat then 0
                 else r24 (r53 (1 - fsum (map (fun x => r53 (r53 (x / tot) * r53 (x / tot))) xs))))).

  (** base.py L550-612 [comp_bar_trade_size_features]. *)
  Definition comp_bar_size_f (amounts theta : list Q) (closes : list Z) (mult : Q) : result (list size_feat) :=
    if negb (Z.of_nat (length theta) =? Z.of_nat (length closes) - 1)%Z then Raise ValueError
    else Ok (map (fun k => bar_size_f amounts (nth k theta 0) mult (nth k closes 0%Z) (nth (S k) closes 0%Z))
                 (seq 0 (length closes - 1))).
End Size.
