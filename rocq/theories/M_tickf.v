(** M_tickf.v -- the tick size estimate of bar/utils.py in float64 arithmetic.

    Simplifications: the exponent range is unbounded, prices are finite.  [np.log10] is a parameter; the power
    of ten is taken as correctly rounded; conversions to int64 are exact (no overflow). *)
From Verif Require Import Base M_weights M_footprint M_trades M_float.
Open Scope Q_scope.

(** utils.py L62: [np.round(prices, decimals=12)]; numba multiplies by 10^12, rounds half to even and divides. *)
Definition round12_f (x : Q) : Q := r53 (inject_Z (rhe (r53 (x * inject_Z (10 ^ 12)))) / inject_Z (10 ^ 12)).
(** utils.py L63: one insertion of [np.unique] on floats. *)
Fixpoint qinsert (x : Q) (l : list Q) : list Q :=
  match l with
  | [] => [x]
  | y :: t => if Qltb x y then x :: l else if Qeqb x y then l else y :: qinsert x t
  end.
(** utils.py L63: [np.unique]. *)
Definition qunique (l : list Q) : list Q := fold_right qinsert [] l.
(** utils.py L68: [np.diff]. *)
Definition qdiff_f (l : list Q) : list Q := map (fun i => r53 (nth (S i) l 0 - nth i l 0)) (seq 0 (length l - 1)).
(** utils.py L69: [np.min(diffs[diffs > 0])]. *)
Definition qmin_pos (l : list Q) : Q := fold_right (fun d m => if Qltb 0 d then (if Qeqb m 0 then d else pmin d m) else m) 0 l.
(** 10^z (utils.py L69). *)
Definition p10 (z : Z) : Q := Qpower 10 z.
(** utils.py L50-81 [comp_price_tick_size]; [flog10 d] is [np.floor(np.log10(d))]. *)
Definition comp_price_tick_size_f (flog10 : Q -> Z) (prices : list Q) : result Q :=
  match prices with
  | [] => Raise ValueError
  | _ =>
      let u := qunique (map round12_f (firstn (Nat.min (Z.to_nat 10000) (length prices)) prices)) in
      if (length u <=? 1)%nat then Ok 0
      else
        let scale := r53 (p10 (- flog10 (qmin_pos (qdiff_f u)))) in
        let ints := map (fun v => rhe (r53 (v * scale))) u in
        Ok (r53 (r53 (inject_Z (gcd_loop (zdiff ints) 0)) / scale))
  end.
