(** M_bars.v -- model of the bar feature kernels in finmlkit/bar/base.py.
    Simplification: float32 output arrays and float rounding are not modelled
    (exact rationals); integers are unbounded (counts stay below the array length). *)
From Coq Require Import Qround.
From Verif Require Import Base.
Open Scope Q_scope.

(** bar/base.py L400 [np.median] sorts its argument ([np.sort]). *)
Fixpoint qinsert (x : Q) (l : list Q) : list Q :=
  match l with
  | [] => [x]
  | y :: l' => if Qleb x y then x :: l else y :: qinsert x l'
  end.
(** bar/base.py L400: the sorted copy of [np.median]. *)
Definition qsort (l : list Q) : list Q := fold_right qinsert [] l.

(** bar/base.py L400 [np.median] of a non-empty array. *)
Definition median (l : list Q) : Q :=
  let s := qsort l in
  let n := length l in
  if Nat.odd n then nth (n / 2) s 0 else (nth (n / 2 - 1) s 0 + nth (n / 2) s 0) / 2.

(** base.py L407: one bar of the arrays returned by [comp_bar_ohlcv]. *)
Record ohlcv := mkOhlcv {
  b_open : Q; b_high : Q; b_low : Q; b_close : Q; b_volume : Q; b_vwap : Q; b_trades : Z; b_median : Q }.

(** base.py L378-391: loop body, state (high, low, volume, dollar). *)
Definition ohlcv_step (prices vols : list Q) (st : Q * Q * Q * Q) (j : Z) : Q * Q * Q * Q :=
  let '(h, l, v, d) := st in
  let p := zget 0 prices j in
  let q := zget 0 vols j in
  (if Qltb h p then p else h, if Qltb p l then p else l, v + q, d + p * q).

(** base.py L347-405: one bar between close indices [s] and [e]. *)
Definition bar_ohlcv (prices vols : list Q) (s e : Z) : ohlcv :=
  if (s =? e)%Z then
    let p := zget 0 prices e in mkOhlcv p p p p 0 0 0 0
  else
    let a := (s + 1)%Z in
    let p0 := zget 0 prices a in
    let '(h, l, v, d) := fold_left (ohlcv_step prices vols) (zrange a (e + 1)) (p0, p0, 0, 0) in
    let cnt := (e - a + 1)%Z in
    mkOhlcv p0 h l (zget 0 prices e) v (if Qltb 0 v then d / v else 0) cnt
      (if (0 <? cnt)%Z then median (map (zget 0 vols) (zrange a (e + 1))) else 0).

(** base.py L343-344: pairs of consecutive close indices. *)
Definition bar_bounds (closes : list Z) (k : nat) : Z * Z := (nth k closes 0%Z, nth (S k) closes 0%Z).

(** base.py L307-407 [comp_bar_ohlcv]; each prange iteration writes its own bar. *)
Definition comp_bar_ohlcv (prices vols : list Q) (closes : list Z) : result (list ohlcv) :=
  if negb (length prices =? length vols)%nat then Raise ValueError
  else if (length closes <? 2)%nat then Raise ValueError
  else Ok (map (fun k => bar_ohlcv prices vols (nth k closes 0%Z) (nth (S k) closes 0%Z))
               (seq 0 (length closes - 1))).

(** Running state of base.py L471-500. *)
Record dstate := mkD {
  d_tb : Z; d_ts : Z; d_vb : Q; d_vs : Q; d_db : Q; d_ds : Q;
  d_ct : Z; d_cv : Q; d_cd : Q; d_mx : Q; d_cs : Q; d_prev : Z;
  d_tmin : Z; d_tmax : Z; d_vmin : Q; d_vmax : Q; d_dmin : Q; d_dmax : Q }.

(** base.py L459-464: the start value 1e9 of the running extremes. *)
Definition big : Z := 1000000000.

(** base.py L459-488: initial state. *)
Definition d_init (prev : Z) : dstate :=
  mkD 0 0 0 0 0 0 0 0 0 0 0 prev big (- big) (inject_Z big) (inject_Z (- big)) (inject_Z big) (inject_Z (- big)).

(** base.py L491-527: one trade. *)
Definition d_step (prices vols : list Q) (sides : list Z) (st : dstate) (j : Z) : dstate :=
  let sg := zget 0%Z sides j in
  let p := zget 0 prices j in
  let q := zget 0 vols j in
  let '(mx, cs) :=
    if negb (sg =? d_prev st)%Z then
      let sp := Qabs (p - zget 0 prices (j - 1)) in
      (if Qltb (d_mx st) sp then sp else d_mx st, d_cs st + sp)
    else (d_mx st, d_cs st) in
  if (sg =? 1)%Z then
    let ct := (d_ct st + 1)%Z in let cv := d_cv st + q in let cd := d_cd st + p * q in
    mkD (d_tb st + 1) (d_ts st) (d_vb st + q) (d_vs st) (d_db st + p * q) (d_ds st) ct cv cd mx cs sg
      (Z.min (d_tmin st) ct) (Z.max (d_tmax st) ct) (pmin (d_vmin st) cv) (pmax (d_vmax st) cv)
      (pmin (d_dmin st) cd) (pmax (d_dmax st) cd)
  else if (sg =? -1)%Z then
    let ct := (d_ct st - 1)%Z in let cv := d_cv st - q in let cd := d_cd st - p * q in
    mkD (d_tb st) (d_ts st + 1) (d_vb st) (d_vs st + q) (d_db st) (d_ds st + p * q) ct cv cd mx cs sg
      (Z.min (d_tmin st) ct) (Z.max (d_tmax st) ct) (pmin (d_vmin st) cv) (pmax (d_vmax st) cv)
      (pmin (d_dmin st) cd) (pmax (d_dmax st) cd)
  else
    mkD (d_tb st) (d_ts st) (d_vb st) (d_vs st) (d_db st) (d_ds st) (d_ct st) (d_cv st) (d_cd st) mx cs sg
      (d_tmin st) (d_tmax st) (d_vmin st) (d_vmax st) (d_dmin st) (d_dmax st).

(** base.py L538-547: one bar of the arrays returned by [comp_bar_directional_features]. *)
Record directional := mkDir {
  f_ticks_buy : Z; f_ticks_sell : Z; f_vol_buy : Q; f_vol_sell : Q; f_dol_buy : Q; f_dol_sell : Q;
  f_mean_spread : ext; f_max_spread : Q;
  f_ct_min : Z; f_ct_max : Z; f_cv_min : Q; f_cv_max : Q; f_cd_min : Q; f_cd_max : Q }.

(** base.py L536: float division inside a prange body (numpy error model): x/0 is NaN or
    +inf (the numerator is a sum of absolute values). *)
Definition div_count (x : Q) (n : Z) : ext :=
  if (n =? 0)%Z then (if Qltb 0 x then PInf else NaN) else Fin (x / inject_Z n).

(** base.py L467-536: one bar. *)
Definition bar_directional (prices vols : list Q) (sides : list Z) (s e : Z) : directional :=
  let a := (s + 1)%Z in
  let prev := if (a <? e)%Z then zget 0%Z sides (a - 1) else 0%Z in
  let st := fold_left (d_step prices vols sides) (zrange a (e + 1)) (d_init prev) in
  mkDir (d_tb st) (d_ts st) (d_vb st) (d_vs st) (d_db st) (d_ds st)
    (div_count (d_cs st) (d_tb st + d_ts st)) (d_mx st)
    (d_tmin st) (d_tmax st) (d_vmin st) (d_vmax st) (d_dmin st) (d_dmax st).

(** base.py L410-546 [comp_bar_directional_features]. *)
Definition comp_bar_directional (prices vols : list Q) (sides closes : list Z) : list directional :=
  map (fun k => bar_directional prices vols sides (nth k closes 0%Z) (nth (S k) closes 0%Z))
      (seq 0 (length closes - 1)).

(** base.py L593: numba [np.percentile(a, q)] with linear interpolation on a non-empty array. *)
Definition percentile (l : list Q) (q : Q) : Q :=
  let s := qsort l in
  let rank := Qnat (length l - 1) * q / 100 in
  let f := Z.to_nat (Qfloor rank) in
  let m := rank - Qnat f in
  if (S f <? length l)%nat then nth f s 0 * (1 - m) + nth (S f) s 0 * m else nth f s 0.

(** base.py L575-578, L612: one bar of the four arrays; NaN is [None]. *)
Record size_feat := mkSize { z_mean : option Q; z_p95 : option Q; z_block : option Q; z_gini : option Q }.

Section Size.
  (** [np.log1p] *)
  Variable log1p : Q -> Q.

  (** base.py L581-610: one bar; NaN is [None].  A zero threshold (theta_mult = 0)
      divides by zero in the code and by Coq's total division here; theorems take
      theta_mult > 0. *)
  Definition bar_size (amounts : list Q) (theta mult : Q) (s e : Z) : size_feat :=
    let a := (s + 1)%Z in
    if (e <? a)%Z then mkSize None None None None
    else if Qeqb theta 0 then mkSize None None None None
    else
      let thr := theta * mult in
      let xs := slice amounts a (e + 1) in
      let mean := log1p (qsum xs / Qnat (length xs) / thr) in
      let p95 := log1p (percentile xs 95 / thr) in
      let tot := qsum xs in
      if Qeqb tot 0 then mkSize (Some mean) (Some p95) None None
      else
        let blk := fold_left (fun acc x => if Qltb thr x then acc + x else acc) xs 0 in
        mkSize (Some mean) (Some p95) (Some (blk / tot))
          (Some (if (length xs =? 1)%nat then 0 else 1 - qsum (map (fun x => (x / tot) * (x / tot)) xs))).

  (** base.py L550-612 [comp_bar_trade_size_features]. *)
  Definition comp_bar_size (amounts theta : list Q) (closes : list Z) (mult : Q) : result (list size_feat) :=
    if negb (Z.of_nat (length theta) =? Z.of_nat (length closes) - 1)%Z then Raise ValueError
    else Ok (map (fun k => bar_size amounts (nth k theta 0) mult (nth k closes 0%Z) (nth (S k) closes 0%Z))
                 (seq 0 (length closes - 1))).
End Size.
