(** M_float16.v -- resampling of stored time bars (finmlkit/bar/io.py L890-950) with the float32 volumes and float64 VWAPs the bars are
    stored with (bar/base.py L342, L345).  The exact model is M_tbio.v. *)
From Verif Require Import Base M_tbio M_float.
Open Scope Q_scope.

(** [groupby(...).sum()] in pandas 2.2 (io.py L916-927): the values of a group one after the other with a running compensation, all in the
    type of the column; state (sum, compensation), [p] significant bits. *)
Definition kahan_step (p : Z) (st : Q * Q) (x : Q) : Q * Q :=
  let '(s, c) := st in
  let y := rnd p (x - c) in
  let t := rnd p (s + y) in
  (t, rnd p (rnd p (t - s) - y)).
(** The sum of a group (io.py L916-927). *)
Definition kahan (p : Z) (l : list Q) : Q := fst (fold_left (kahan_step p) l (0, 0)).

(** io.py L926: float32 total of the volumes of a group. *)
Definition vol_sum_f (g : list bar) : Q := kahan 24 (map b_vol g).
(** io.py L927: float64 products of vwap and volume; NaN products are left out of the sum. *)
Definition traded_f (g : list bar) : list Q :=
  flat_map (fun b => match b_vwap b with Some v => [r53 (v * b_vol b)] | None => [] end) g.
(** io.py L926-928: float64 quotient stored as float32; 0/0 is NaN. *)
Definition vwap_of_f (g : list bar) : option Q :=
  let v := vol_sum_f g in
  if Qeqb v 0 then None else Some (r24 (r53 (kahan 53 (traded_f g) / v))).
(** io.py L916-944: the row of one period.  Trade counts are whole numbers, so that the cumulated weights and the cutoff of [w_median]
    (L936-939) are exact below 2^53; the median is stored as float32 (L943). *)
Definition agg_f (sort : list bar -> list bar) (k : Z) (g : list bar) : bar :=
  mkBar k (first_val (map b_open g)) (max_val (map b_high g)) (min_val (map b_low g)) (last_val (map b_close g))
        (vol_sum_f g) (zsum (map b_trades g)) (vwap_of_f g) (r24 (w_median sort g)).
(** io.py L890-950 [_resample]. *)
Definition resample_f (sort : list bar -> list bar) (tf : Z) (df : list bar) : list bar :=
  filter has_open (map (fun k => agg_f sort k (group tf df k)) (uniq (map (fun b => floor_to tf (b_ts b)) df))).
