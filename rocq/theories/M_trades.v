(** M_trades.v -- model of the trade preprocessing: finmlkit/bar/utils.py (trade side,
    tick size, sorting, merging) and finmlkit/bar/data_model.py [TradesData].
    Simplifications: prices and amounts are exact rationals (float64/float32 rounding and
    NaN are not modelled); the decimal constants 1e-12 and 1e-8 are exact; ids and
    timestamps are integers; the logger is not modelled. *)
From Coq Require Import Qround.
From Verif Require Import Base M_logic M_weights M_footprint.
Open Scope Q_scope.

(* ------------------------------------------------------------ bar/utils.py *)
(** utils.py L20: [epsilon = 1e-12]. *)
Definition eps12 : Q := 1 # 1000000000000.
(** utils.py L11-23 [comp_trade_side]. *)
Definition comp_trade_side (price prev_price : Q) (prev_tick : Z) : Z :=
  let dp := price - prev_price in
  if Qltb eps12 (Qabs dp) then qsign dp else prev_tick.

(** utils.py L40-44: one iteration; state (sides so far, prev_tick_sign, prev_price). *)
Definition side_step (prices : list Q) (st : list Z * Z * Q) (i : nat) : list Z * Z * Q :=
  let '(sides, pt, pp) := st in
  let price := nth i prices 0 in
  let t := comp_trade_side price pp pt in
  (sides ++ [t], t, price).
(** utils.py L27-46 [comp_trade_side_vector]; [trade_sides] starts as zeros. *)
Definition comp_trade_side_vector (prices : list Q) : list Z :=
  let n := length prices in
  fst (fst (fold_left (side_step prices) (seq 1 (n - 1)) (firstn n [0%Z], 0%Z, nth 0 prices 0))).

(** utils.py L69: [floor(log10 d)] of a positive integer number of 1e-12 units
    ([fuel] bounds the number of digits). *)
Fixpoint ilog10 (fuel : nat) (d : Z) : Z :=
  match fuel with
  | O => 0
  | S fuel => if (d <? 10)%Z then 0%Z else (1 + ilog10 fuel (d / 10))%Z
  end.
(** utils.py L68: [np.diff]. *)
Definition zdiff (l : list Z) : list Z := map (fun i => (nth (S i) l 0 - nth i l 0)%Z) (seq 0 (length l - 1)).
(** utils.py L69: [np.min(diffs[diffs > 0])]. *)
Definition min_pos (l : list Z) : Z := fold_right (fun d m => if (0 <? d)%Z then (if (m =? 0)%Z then d else Z.min d m) else m) 0%Z l.
(** utils.py L75-79: gcd loop with the early exit at 1. *)
Fixpoint gcd_loop (l : list Z) (t : Z) : Z :=
  match l with
  | [] => t
  | d :: l =>
      if (0 <? d)%Z then
        let t := if (t =? 0)%Z then d else Z.gcd t d in
        if (t =? 1)%Z then t else gcd_loop l t
      else gcd_loop l t
  end.
(** utils.py L62: [np.round(x, decimals=12)] in units of 1e-12. *)
Definition round12 (x : Q) : Z := rhe (x * inject_Z (10 ^ 12)).
(** utils.py L50-81 [comp_price_tick_size] in exact arithmetic.  With unique prices as integers z in
    1e-12 units and L = floor(log10(min diff in those units)), [unique_prices * scale] is z / 10^L
    and [tick_int / scale] is tick_int * 10^L / 10^12. *)
Definition comp_price_tick_size (prices : list Q) : result Q :=
  match prices with
  | [] => Raise ValueError
  | _ =>
      let u := zunique (map round12 (firstn (Nat.min (Z.to_nat 10000) (length prices)) prices)) in
      if (length u <=? 1)%nat then Ok 0
      else
        let d := min_pos (zdiff u) in
        let L := ilog10 (Z.to_nat (Z.log2 d)) d in
        let ints := map (fun z => rhe (inject_Z z / inject_Z (10 ^ L))) u in
        Ok (inject_Z (gcd_loop (zdiff ints) 0) * inject_Z (10 ^ L) / inject_Z (10 ^ 12))
  end.

(** utils.py L213-224 [median3]. *)
Definition median3 (a b c : Q) : Q :=
  let '(a, b) := if Qltb b a then (b, a) else (a, b) in
  let '(b, c) := if Qltb c b then (c, b) else (b, c) in
  let '(a, b) := if Qltb b a then (b, a) else (a, b) in
  b.

(** utils.py L228-237 [check_timestamps_order]. *)
Definition check_timestamps_order (ts : list Z) : bool :=
  forallb (fun i => negb (nth i ts 0 <? nth (i - 1) ts 0)%Z) (seq 1 (length ts - 1)).

(** utils.py L240-260 [fast_sort_trades]; [idxs] is the result of [np.argsort] (L255), whose tie
    order is unspecified. *)
Definition fast_sort_trades (idxs : list nat) (ts : list Z) (px am : list Q) (ibm : option (list bool))
    : list Z * list Q * list Q * option (list bool) :=
  (map (fun i => nth i ts 0%Z) idxs, map (fun i => nth i px 0) idxs, map (fun i => nth i am 0) idxs,
   match ibm with None => None | Some b => Some (map (fun i => nth i b false) idxs) end).

(** One (merged) trade: utils.py L293-297 (side 0 stands for "no side array"). *)
Record mrow := mkM { m_ts : Z; m_px : Q; m_am : Q; m_side : Z }.
(** utils.py L297, L317: [-1 if is_buyer_maker[i] else 1]. *)
Definition ibm_side (ibm : option (list bool)) (i : nat) : Z :=
  match ibm with None => 0%Z | Some b => if nth i b false then (-1)%Z else 1%Z end.
(** utils.py L301-305: [same_trade]. *)
Definition same_trade (r cur : mrow) : bool :=
  (m_ts r =? m_ts cur)%Z && Qltb (Qabs (m_px r - m_px cur)) (1 # 100000000)
  && Bool.eqb (m_side r =? -1)%Z (m_side cur =? -1)%Z.
(** utils.py L300-317: one iteration; state (closed records, open record). *)
Definition merge_step (st : list mrow * mrow) (r : mrow) : list mrow * mrow :=
  let '(done, cur) := st in
  if same_trade r cur then (done, mkM (m_ts cur) (m_px cur) (m_am cur + m_am r) (m_side cur))
  else (done ++ [cur], r).
(** utils.py L292-324: the loop (an empty input reads out of bounds; here it gives []). *)
Definition merge_rows (rows : list mrow) : list mrow :=
  match rows with
  | [] => []
  | r0 :: rs => let '(done, cur) := fold_left merge_step rs ([], r0) in done ++ [cur]
  end.
(** utils.py L264-329 [merge_split_trades]. *)
Definition merge_split_trades (ts : list Z) (px am : list Q) (ibm : option (list bool))
    : list Z * list Q * list Q * list Z :=
  let rows := map (fun i => mkM (nth i ts 0%Z) (nth i px 0) (nth i am 0) (ibm_side ibm i)) (seq 0 (length ts)) in
  let out := merge_rows rows in
  (map m_ts out, map m_px out, map m_am out, match ibm with None => [] | Some _ => map m_side out end).

(* ------------------------------------------------------- bar/data_model.py *)
(** data_model.py L162: one row of the trades frame. *)
Record row := mkRow { r_ts : Z; r_px : Q; r_am : Q; r_id : Z }.

(** data_model.py L352-361, L381: unit names; [U_other] is any other string. *)
Inductive tunit := U_s | U_ms | U_us | U_ns | U_other.
(** [==] on unit names (data_model.py L352-361). *)
Definition tunit_eqb (a b : tunit) : bool :=
  match a, b with U_s, U_s | U_ms, U_ms | U_us, U_us | U_ns, U_ns | U_other, U_other => true | _, _ => false end.
(** data_model.py L356-361 / L381. *)
Definition unit_ns (u : tunit) : option Z :=
  match u with U_s => Some (10 ^ 9)%Z | U_ms => Some (10 ^ 6)%Z | U_us => Some 1000%Z | U_ns => Some 1%Z | U_other => None end.

(** data_model.py L399-418 [_infer_timestamp_unit]: the integer maximum is compared with the
    float constants as float64; the maximum of an empty column is NaN. *)
Definition infer_unit (ts : list Z) : tunit :=
  match ts with
  | [] => U_s
  | t :: l =>
      let m := f64 (fold_left Z.max l t) in
      if (10 ^ 18 <? m)%Z then U_ns else if (10 ^ 15 <? m)%Z then U_us else if (10 ^ 12 <? m)%Z then U_ms else U_s
  end.

(** data_model.py L346-368 [_convert_timestamps_to_ns] (int64 product). *)
Definition convert_ns (f : Z) (rows : list row) : list row :=
  map (fun r => mkRow (wraps 64 (r_ts r * f)) (r_px r) (r_am r) (r_id r)) rows.

(** data_model.py L311: [drop_duplicates(subset='id', keep='first')]. *)
Fixpoint drop_dup (seen : list Z) (rows : list row) : list row :=
  match rows with
  | [] => []
  | r :: rs => if existsb (Z.eqb (r_id r)) seen then drop_dup seen rs else r :: drop_dup (r_id r :: seen) rs
  end.
(** data_model.py L308: [duplicated().any()]. *)
Definition has_dup (rows : list row) : bool := negb (length (drop_dup [] rows) =? length rows)%nat.

(** data_model.py L282-289: one recorded discontinuity. *)
Record disc := mkDisc { d_start : Z; d_end : Z; d_missing : Z; d_pre : Z; d_post : Z }.
(** data_model.py L171-173: state of the checks (cum_gap_size, data_ok, discontinuities). *)
Record vstate := mkV { v_cum : Z; v_ok : bool; v_disc : list disc }.
(** data_model.py L267-289: one gap index. *)
Definition gap_step (rows : list row) (st : vstate) (i : nat) : vstate :=
  let d := mkRow 0 0 0 0 in
  let a := nth i rows d in let b := nth (S i) rows d in
  let gap := (r_id b - r_id a - 1)%Z in
  if (60 * 10 ^ 9 <? r_ts b - r_ts a)%Z
  then mkV (v_cum st + gap) false (v_disc st ++ [mkDisc (r_id a) (r_id b) gap (r_ts a) (r_ts b)])
  else mkV (v_cum st + gap) (v_ok st) (v_disc st).
(** data_model.py L254-292 [_validate_data]: (missing_pct, data_ok, discontinuities). *)
Definition validate (rows : list row) (ok : bool) : Q * bool * list disc :=
  let d := mkRow 0 0 0 0 in
  let gaps := filter (fun i => (1 <? r_id (nth (S i) rows d) - r_id (nth i rows d))%Z) (seq 0 (length rows - 1)) in
  match gaps with
  | [] => (0, ok, [])
  | _ => let st := fold_left (gap_step rows) gaps (mkV 0 ok []) in
         (inject_Z (v_cum st) / Qnat (length rows) * 100, v_ok st, v_disc st)
  end.

(** data_model.py L321: [sort_values(by=['timestamp','id'])]. *)
Definition row_le (a b : row) : bool := (r_ts a <? r_ts b)%Z || ((r_ts a =? r_ts b)%Z && (r_id a <=? r_id b)%Z).
(** Insertion by that order (data_model.py L321). *)
Fixpoint row_insert (r : row) (l : list row) : list row :=
  match l with [] => [r] | x :: l' => if row_le r x then r :: l else x :: row_insert r l' end.
(** data_model.py L321: the sorted rows. *)
Definition sort_ts_id (l : list row) : list row := fold_right row_insert [] l.

(** data_model.py L294-324 [_sort_trades]; [sort_id] is [sort_values(by=['id'])] (L303), whose order
    among equal ids is unspecified (quicksort).  Result: rows and the outcome of [_validate_data]. *)
Definition sort_trades (sort_id : list row -> list row) (rows : list row) : list row * (Q * bool * list disc) :=
  let s := sort_id rows in
  let u := drop_dup [] s in
  let v := validate u (negb (has_dup s)) in
  let out := if check_timestamps_order (map r_ts u) then u else sort_ts_id u in
  (out, v).

(** data_model.py L370-388 [_apply_timestamp_resolution]. *)
Definition apply_res (unit : tunit) (proc : option tunit) (rows : list mrow) : result (list mrow) :=
  match proc with
  | None => Ok rows
  | Some p =>
      if tunit_eqb p unit then Ok rows
      else match unit_ns p with
           | None => Raise ValueError
           | Some f => Ok (map (fun r => mkM (m_ts r / f * f) (m_px r) (m_am r) (m_side r)) rows)
           end
  end.

(** data_model.py L159-183: the preprocessed instance. *)
Record tdata := mkTd { td_rows : list mrow; td_missing : Q; td_ok : bool; td_disc : list disc }.

(** data_model.py L332-344 [_merge_trades]: the rows are re-ordered and de-duplicated, the array
    [is_buyer_maker] is passed as given. *)
Definition merge_trades (rows : list row) (ibm : option (list bool)) : list mrow :=
  merge_rows (map (fun i => let r := nth i rows (mkRow 0 0 0 0) in mkM (r_ts r) (r_px r) (r_am r) (ibm_side ibm i))
                  (seq 0 (length rows))).

(** data_model.py L397 [_add_trade_side_info]. *)
Definition set_sides (rows : list mrow) (sides : list Z) : list mrow :=
  map (fun i => let r := nth i rows (mkM 0 0 0 0) in mkM (m_ts r) (m_px r) (m_am r) (nth i sides 0%Z)) (seq 0 (length rows)).

(** data_model.py L121-183 [TradesData.__init__] with preprocess=True and ids given (a [side]
    argument is dropped by [_merge_trades], so it has no effect here). *)
Definition preprocess (sort_id : list row -> list row) (unit_arg proc : option tunit) (rows : list row)
    (ibm : option (list bool)) : result tdata :=
  let unit := match unit_arg with Some u => u | None => infer_unit (map r_ts rows) end in
  match unit_ns unit with
  | None => Raise ValueError
  | Some f =>
      let '(sorted, (pct, ok, ds)) := sort_trades sort_id (convert_ns f rows) in
      match apply_res unit proc (merge_trades sorted ibm) with
      | Raise x => Raise x
      | Ok m =>
          let m := match ibm with Some _ => m | None => set_sides m (comp_trade_side_vector (map m_px m)) end in
          Ok (mkTd m pct ok ds)
      end
  end.
