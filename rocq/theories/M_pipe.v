(** M_pipe.v -- from trades to stored time bars (bar/io.py L484-498; base.py L132-169; kit.py L29-35), as read again by M_tbio and
    M_float16.  The file itself is in M_addbar. *)
From Verif Require Import Base M_logic M_bars M_float M_tbio.
Open Scope Z_scope.

(** base.py L147-158, io.py L493-498: the row of a bar; no field of it is NaN, not even for a bar without trades. *)
Definition stored (r : Z * ohlcv) : bar :=
  let '(t, b) := r in
  mkBar t (Some (M_bars.b_open b)) (Some (M_bars.b_high b)) (Some (M_bars.b_low b)) (Some (M_bars.b_close b))
        (M_bars.b_volume b) (M_bars.b_trades b) (Some (M_bars.b_vwap b)) (M_bars.b_median b).
(** io.py L484-485, base.py L130-158: bars of [iv] nanoseconds, labelled with their closing times; exact arithmetic. *)
Definition stored_bars (px am : list Q) (ts : list Z) (iv : Z) : result (list bar) :=
  match comp_bar_ohlcv px am (snd (time_bar_indexer ts iv)) with
  | Ok bars => Ok (map stored (combine (tl (fst (time_bar_indexer ts iv))) bars))
  | Raise e => Raise e
  end.
(** The same with float64 prices and float32 volumes (io.py L484-485, base.py L338-405). *)
Definition stored_bars_f (px am : list Q) (ts : list Z) (iv : Z) : result (list bar) :=
  match comp_bar_ohlcv_f px am (snd (time_bar_indexer ts iv)) with
  | Ok bars => Ok (map stored (combine (tl (fst (time_bar_indexer ts iv))) bars))
  | Raise e => Raise e
  end.
