(** M_float12.v -- [comp_footprint_features] (finmlkit/bar/base.py) with the float32 and float64 rounding, where M_footprint.v takes
    the arithmetic exact.
    The level volumes are float32 arrays and the levels an int32 array.  Numba computes an operation on an integer and a float32
    array in float32, so the levels are rounded to 24 bits before they are multiplied or subtracted; sums of float32 arrays add
    from left to right in float32.  [np.dot] of two float32 arrays goes to BLAS, whose order of summation is not fixed: it is a
    parameter.  [x ** 2] is taken to be the correctly rounded square.  The product with the float64 imbalance multiplier is
    float64.  Other simplifications as in M_float.v (unbounded exponents). *)
From Verif Require Import Base M_footprint M_float M_float11.
Open Scope Q_scope.

(** base.py L797: sell imbalance of level i. *)
Definition sell_imb_f (bv sv : list Q) (mult : Q) (n i : nat) : bool :=
  ((1 <? n) && (i <? n - 1))%nat%bool && Qltb (r53 (nth (S i) bv 0 * mult)) (nth i sv 0).
(** base.py L798: buy imbalance of level i. *)
Definition buy_imb_f (bv sv : list Q) (mult : Q) (n i : nat) : bool :=
  ((1 <? n) && (1 <=? i))%nat%bool && Qltb (r53 (nth (i - 1) sv 0 * mult)) (nth i bv 0).

(** base.py L825: total volume per level. *)
Definition level_tot_f (bv sv : list Q) (n : nat) : list Q := map (fun i => r24 (nth i bv 0 + nth i sv 0)) (seq 0 n).
(** base.py L838: volume weighted mean level. *)
Definition level_vwap_f (lv : list Z) (tot : list Q) : Q :=
  r24 (fsum24 (map (fun i => r24 (r24 (inject_Z (nth i lv 0%Z)) * nth i tot 0)) (seq 0 (length lv))) / fsum24 tot).

Section Features.
  (** base.py L843: [np.dot] of two float32 arrays. *)
  Variable dot : list Q -> list Q -> Q.

  (** base.py L842-843: volume profile skew. *)
  Definition vp_skew_f (lv : list Z) (tot : list Q) : Q :=
    r24 (dot (map (fun i => r24 (r24 (inject_Z (nth i lv 0%Z)) - level_vwap_f lv tot)) (seq 0 (length lv))) tot / fsum24 tot).
  (** base.py L847-848: volume profile Gini. *)
  Definition vp_gini_f (tot : list Q) : Q :=
    r53 (1 - fsum24 (map (fun x => r24 (r24 (x / fsum24 tot) * r24 (x / fsum24 tot))) tot)).

  (** base.py L756-850 [comp_footprint_features]; argmax of an empty array raises. *)
  Definition comp_footprint_features_f (lv : list Z) (bv sv : list Q) (mult : Q) : result fp_feat :=
    let n := length lv in
    let bi := map (buy_imb_f bv sv mult n) (seq 0 n) in
    let si := map (sell_imb_f bv sv mult n) (seq 0 n) in
    let tot := level_tot_f bv sv n in
    if (n =? 0)%nat then Raise ValueError
    else
      let pos := (Qltb 0 (fsum24 tot) && (0 <? n)%nat)%bool in
      Ok (mkFeat bi si (max_run bi si n) (nth (argmax tot) lv 0%Z)
            (if pos then vp_skew_f lv tot else 0) (if pos then vp_gini_f tot else 0)).
End Features.

(** base.py L843: [np.dot] adding from left to right in float32. *)
Definition dot24 (x y : list Q) : Q := fsum24 (map (fun i => r24 (nth i x 0 * nth i y 0)) (seq 0 (length x))).
