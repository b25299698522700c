(** M_float.v -- the sums, products and quotients of the bar kernels with the rounding of
    float64 and float32, where M_logic.v, M_bars.v, M_footprint.v and M_trades.v take them exact.
    Simplification: the exponent range is unbounded (no overflow, no subnormal numbers); NaN and
    the infinities are left out. *)
From Coq Require Import Qround.
From Verif Require Import Base M_logic M_bars M_footprint M_trades.
Open Scope Q_scope.

(** 2^e for any integer e (the unit in the last place of a float, base.py L372 ff.). *)
Definition two (e : Z) : Q := Qpower 2 e.

(** The exponent of a float (used by every rounding in base.py L372-391 and logic.py L109-147):
    2^(ilog x) <= |x| < 2^(ilog x + 1). *)
Definition ilog (x : Q) : Z :=
  let l := (Z.log2 (Z.abs (Qnum x)) - Z.log2 (Z.pos (Qden x)))%Z in
  if Qleb (two l) (Qabs x) then l else (l - 1)%Z.

(** IEEE round to nearest, ties to even, to [p] significant bits (the result of each float
    operation in base.py L372-391 and logic.py L109-147; [p] = 53 for float64, 24 for float32). *)
Definition rnd (p : Z) (x : Q) : Q :=
  if Qeqb x 0 then 0
  else let e := (ilog x - (p - 1))%Z in Qred (inject_Z (rhe (x / two e)) * two e).

(** float64 (base.py L337). *)
Definition r53 (x : Q) : Q := rnd 53 x.
(** float32 (base.py L341). *)
Definition r24 (x : Q) : Q := rnd 24 x.

(** logic.py L109-113: loop body of [_volume_bar_indexer] with float64 addition ([cum_volume] is
    float64 also for a float32 array, because L113 assigns [0.]). *)
Definition volume_step_f (volumes : list Q) (threshold : Q) (s : list nat * Q) (i : nat) : list nat * Q :=
  let '(idx, cum) := s in
  let cum := r53 (cum + nth i volumes 0) in
  if Qleb threshold cum then (idx ++ [i], 0) else (idx, cum).
(** logic.py L88-115 [_volume_bar_indexer]. *)
Definition volume_bar_indexer_f (volumes : list Q) (threshold : Q) : list nat :=
  fst (fold_left (volume_step_f volumes threshold) (seq 1 (length volumes - 1)) ([0%nat], nth 0 volumes 0)).

(** logic.py L143-147: loop body of [_dollar_bar_indexer] with float64 arithmetic (no fused
    multiply-add: the function is not compiled with fastmath). *)
Definition dollar_step_f (prices volumes : list Q) (threshold : Q) (s : list nat * Q) (i : nat) : list nat * Q :=
  let '(idx, cum) := s in
  let cum := r53 (cum + r53 (nth i prices 0 * nth i volumes 0)) in
  if Qleb threshold cum then (idx ++ [i], r53 (cum - threshold)) else (idx, cum).
(** logic.py L119-149 [_dollar_bar_indexer]: the indices and the final [cum_dollar]. *)
Definition dollar_bar_run_f (prices volumes : list Q) (threshold : Q) : list nat * Q :=
  fold_left (dollar_step_f prices volumes threshold) (seq 1 (length prices - 1))
    ([0%nat], r53 (nth 0 prices 0 * nth 0 volumes 0)).

(** base.py L378-391: loop body of [comp_bar_ohlcv], state (high, low, volume, dollar); the
    totals are float64 locals. *)
Definition ohlcv_step_f (prices vols : list Q) (st : Q * Q * Q * Q) (j : Z) : Q * Q * Q * Q :=
  let '(h, l, v, d) := st in
  let p := zget 0 prices j in
  let q := zget 0 vols j in
  (if Qltb h p then p else h, if Qltb p l then p else l, r53 (v + q), r53 (d + r53 (p * q))).

(** base.py L400: [np.median] with float64 arithmetic. *)
Definition median_f (l : list Q) : Q :=
  let s := qsort l in
  let n := length l in
  if Nat.odd n then nth (n / 2) s 0 else r53 (r53 (nth (n / 2 - 1) s 0 + nth (n / 2) s 0) / 2).

(** base.py L347-405: one bar; the volume is stored as float32 (L341, L394), the VWAP is the
    quotient of the float64 totals (L395). *)
Definition bar_ohlcv_f (prices vols : list Q) (s e : Z) : ohlcv :=
  if (s =? e)%Z then
    let p := zget 0 prices e in mkOhlcv p p p p 0 0 0 0
  else
    let a := (s + 1)%Z in
    let p0 := zget 0 prices a in
    let '(h, l, v, d) := fold_left (ohlcv_step_f prices vols) (zrange a (e + 1)) (p0, p0, 0, 0) in
    let cnt := (e - a + 1)%Z in
    mkOhlcv p0 h l (zget 0 prices e) (r24 v) (if Qltb 0 v then r53 (d / v) else 0) cnt
      (if (0 <? cnt)%Z then median_f (map (zget 0 vols) (zrange a (e + 1))) else 0).

(** base.py L307-407 [comp_bar_ohlcv]. *)
Definition comp_bar_ohlcv_f (prices vols : list Q) (closes : list Z) : result (list ohlcv) :=
  if negb (length prices =? length vols)%nat then Raise ValueError
  else if (length closes <? 2)%nat then Raise ValueError
  else Ok (map (fun k => bar_ohlcv_f prices vols (nth k closes 0%Z) (nth (S k) closes 0%Z))
               (seq 0 (length closes - 1))).

(** base.py L491-527: one trade of [comp_bar_directional_features]: float64 locals, the extremes
    are kept in float32 cells (L461-464, L524-527). *)
Definition d_step_f (prices vols : list Q) (sides : list Z) (st : dstate) (j : Z) : dstate :=
  let sg := zget 0%Z sides j in
  let p := zget 0 prices j in
  let q := zget 0 vols j in
  let pq := r53 (p * q) in
  let '(mx, cs) :=
    if negb (sg =? d_prev st)%Z then
      let sp := Qabs (r53 (p - zget 0 prices (j - 1))) in
      (if Qltb (d_mx st) sp then sp else d_mx st, r53 (d_cs st + sp))
    else (d_mx st, d_cs st) in
  if (sg =? 1)%Z then
    let ct := (d_ct st + 1)%Z in let cv := r53 (d_cv st + q) in let cd := r53 (d_cd st + pq) in
    mkD (d_tb st + 1) (d_ts st) (r53 (d_vb st + q)) (d_vs st) (r53 (d_db st + pq)) (d_ds st) ct cv cd mx cs sg
      (Z.min (d_tmin st) ct) (Z.max (d_tmax st) ct) (r24 (pmin (d_vmin st) cv)) (r24 (pmax (d_vmax st) cv))
      (r24 (pmin (d_dmin st) cd)) (r24 (pmax (d_dmax st) cd))
  else if (sg =? -1)%Z then
    let ct := (d_ct st - 1)%Z in let cv := r53 (d_cv st - q) in let cd := r53 (d_cd st - pq) in
    mkD (d_tb st) (d_ts st + 1) (d_vb st) (r53 (d_vs st + q)) (d_db st) (r53 (d_ds st + pq)) ct cv cd mx cs sg
      (Z.min (d_tmin st) ct) (Z.max (d_tmax st) ct) (r24 (pmin (d_vmin st) cv)) (r24 (pmax (d_vmax st) cv))
      (r24 (pmin (d_dmin st) cd)) (r24 (pmax (d_dmax st) cd))
  else
    mkD (d_tb st) (d_ts st) (d_vb st) (d_vs st) (d_db st) (d_ds st) (d_ct st) (d_cv st) (d_cd st) mx cs sg
      (d_tmin st) (d_tmax st) (d_vmin st) (d_vmax st) (d_dmin st) (d_dmax st).

(** base.py L536: the mean spread, stored as float32. *)
Definition div_count_f (x : Q) (n : Z) : ext :=
  if (n =? 0)%Z then (if Qltb 0 x then PInf else NaN) else Fin (r24 (r53 (x / inject_Z n))).

(** base.py L467-536: one bar; volumes, dollars and spreads are stored as float32 (L451-456). *)
Definition bar_directional_f (prices vols : list Q) (sides : list Z) (s e : Z) : directional :=
  let a := (s + 1)%Z in
  let prev := if (a <? e)%Z then zget 0%Z sides (a - 1) else 0%Z in
  let st := fold_left (d_step_f prices vols sides) (zrange a (e + 1)) (d_init prev) in
  mkDir (d_tb st) (d_ts st) (r24 (d_vb st)) (r24 (d_vs st)) (r24 (d_db st)) (r24 (d_ds st))
    (div_count_f (d_cs st) (d_tb st + d_ts st)) (r24 (d_mx st))
    (d_tmin st) (d_tmax st) (d_vmin st) (d_vmax st) (d_dmin st) (d_dmax st).

(** base.py L716, L719 and bar/utils.py L308: [cells[k] += x] on a float32 array: the cell is
    widened, added to in float64 and rounded to float32 again (for a float32 [x] the addition is
    done in float32, which gives the same value). *)
Definition cell_add (c x : Q) : Q := r24 (r53 (c + x)).

(** base.py L688-689, L706: [int(round(price / price_tick_size))]. *)
Definition level_f (tick price : Q) : Z := rhe (r53 (price / tick)).

(** base.py L716, L719: [a[i] += x]. *)
Definition cell_add_at (l : list Q) (i : nat) (x : Q) : list Q :=
  map (fun k => if (k =? i)%nat then cell_add (nth k l 0) x else nth k l 0) (seq 0 (length l)).

(** base.py L703-722: one trade; an index outside the levels raises ValueError. *)
Definition fp_step_f (prices amounts : list Q) (sides : list Z) (tick : Q) (low n : Z)
    (acc : result levels) (j : Z) : result levels :=
  match acc with
  | Raise x => Raise x
  | Ok st =>
      let idx := (level_f tick (zget 0%Q prices j) - low)%Z in
      let amt := zget 0%Q amounts j in
      let sg := zget 0%Z sides j in
      if ((0 <=? idx) && (idx <? n))%Z%bool then
        let i := Z.to_nat idx in
        if (sg =? 1)%Z then Ok (mkLv (cell_add_at (lv_bv st) i amt) (lv_sv st) (zadd_at (lv_bt st) i 1) (lv_st st))
        else if (sg =? -1)%Z then Ok (mkLv (lv_bv st) (cell_add_at (lv_sv st) i amt) (lv_bt st) (zadd_at (lv_st st) i 1))
        else Ok st
      else Raise ValueError
  end.

(** base.py L684-722: the level arrays of one bar with low [lo] and high [hi] (up to the call of
    [comp_footprint_features]).  [np.zeros] of a negative size raises ValueError. *)
Definition bar_levels_f (prices amounts : list Q) (sides : list Z) (tick lo hi : Q) (s e : Z) : result levels :=
  if Qeqb tick 0 then Raise ZeroDivisionError
  else
    let low := level_f tick lo in
    let n := (level_f tick hi - low + 1)%Z in
    if (n <? 0)%Z then Raise ValueError
    else let zn := Z.to_nat n in
      fold_left (fp_step_f prices amounts sides tick low n) (zrange (s + 1) (e + 1))
        (Ok (mkLv (repeat 0 zn) (repeat 0 zn) (repeat 0%Z zn) (repeat 0%Z zn))).

(** bar/utils.py L300-317: one iteration of [merge_split_trades]; the amounts are float32 cells
    (L286), prices are compared after a float64 subtraction. *)
Definition merge_step_f (st : list mrow * mrow) (r : mrow) : list mrow * mrow :=
  let '(done, cur) := st in
  if (m_ts r =? m_ts cur)%Z && Qltb (Qabs (r53 (m_px r - m_px cur))) (r53 (1 # 100000000))
     && Bool.eqb (m_side r =? -1)%Z (m_side cur =? -1)%Z
  then (done, mkM (m_ts cur) (m_px cur) (cell_add (m_am cur) (m_am r)) (m_side cur))
  else (done ++ [cur], mkM (m_ts r) (m_px r) (r24 (m_am r)) (m_side r)).
(** bar/utils.py L292-324: the loop. *)
Definition merge_rows_f (rows : list mrow) : list mrow :=
  match rows with
  | [] => []
  | r0 :: rs => let '(done, cur) := fold_left merge_step_f rs ([], mkM (m_ts r0) (m_px r0) (r24 (m_am r0)) (m_side r0)) in
                done ++ [cur]
  end.
