(** M_float11.v -- volume profiles (feature/core/volume.py) with the float32 storage of volumes and the float64 rounding of sums,
    where M_volume.v takes the arithmetic exact.
    The footprint volumes handed in are float32 arrays, so that adding two of them, or one of them to a float32 cell, rounds once
    to 24 bits; [np.sum] of a float32 array adds from left to right in float32 (numba keeps the accumulator in the dtype of the
    array); variables that also receive a float64 constant ([current_up_volume], [cum_volume], [volume_above_poc]) are float64.
    Other simplifications as in M_float.v (unbounded exponents) and M_volume.v. *)
From Verif Require Import Base M_logic M_bars M_footprint M_features M_volume M_float.
Open Scope Q_scope.

(** volume.py L200-201, L541-542 [a[indices] += v] on float32 arrays. *)
Definition fancy_add_f (a : list Q) (idx : list nat) (v : list Q) : result (list Q) :=
  if forallb (fun k => (k <? length a)%nat) idx then
    Ok (map (fun k => match last_occ idx k with
                      | Some j => r24 (nth k a 0 + nth j v 0)
                      | None => nth k a 0
                      end) (seq 0 (length a)))
  else Raise IndexError.

(** volume.py L195-201, L538-542: one bar added to the aligned (buy, sell) volumes. *)
Definition agg_step_f (lv : list Z) (plv : list (list Z)) (pbv psv : list (list Q))
    (acc : result (list Q * list Q)) (t : nat) : result (list Q * list Q) :=
  match acc with
  | Raise x => Raise x
  | Ok (ab, asl) =>
      let idx := map (ss_left lv) (nth t plv []) in
      match fancy_add_f ab idx (nth t pbv []), fancy_add_f asl idx (nth t psv []) with
      | Ok ab', Ok as' => Ok (ab', as')
      | Raise x, _ => Raise x
      | _, Raise x => Raise x
      end
  end.

(** volume.py L169-187, L526-534: the complete price levels of the bars [s, e); prices and tick are float64. *)
Definition window_levels_f (highs lows : list Q) (tick : Q) (s e : nat) : result (list Z) :=
  let lo := firstn (e - s) (skipn s lows) in
  let hi := firstn (e - s) (skipn s highs) in
  match lo, hi with
  | [], _ => Raise ValueError
  | _, [] => Raise ValueError
  | _, _ =>
      if Qeqb tick 0 then Raise ZeroDivisionError
      else Ok (map (wraps 32) (zrange (level_f tick (lmin lo)) (level_f tick (lmax hi) + 1)))
  end.

(** volume.py L134-203 [aggregate_footprint]. *)
Definition aggregate_footprint_f (ts : list Z) (highs lows : list Q)
    (plv : list (list Z)) (pbv psv : list (list Q)) (start_ts end_ts : Z) (tick : Q)
    : result (list Z * list Q * list Q) :=
  let '(s, e) := agg_range ts start_ts end_ts in
  match window_levels_f highs lows tick s e with
  | Raise x => Raise x
  | Ok lv =>
      let z := repeat 0 (length lv) in
      match fold_left (agg_step_f lv plv pbv psv) (seq s (e - s)) (Ok (z, z)) with
      | Raise x => Raise x
      | Ok (ab, asl) => Ok (lv, ab, asl)
      end
  end.

(** volume.py L266, L269 [binned_volumes[k] += total_volumes[i]], float32 both. *)
Definition qadd_at_f (l : list Q) (i : nat) (x : Q) : list Q :=
  map (fun k => if (k =? i)%nat then r24 (nth k l 0 + x) else nth k l 0) (seq 0 (length l)).
(** volume.py L262-272: one price level put into its bin. *)
Definition bin_step_f (idx : list Z) (vols : list Q) (nb : nat) (acc : list Q) (i : nat) : list Q :=
  let k := nth i idx 0%Z in
  if ((0 <=? k) && (k <? Z.of_nat nb))%Z%bool then qadd_at_f acc (Z.to_nat k) (nth i vols 0)
  else if (k =? Z.of_nat nb)%Z then qadd_at_f acc nb (nth i vols 0)
  else acc.
(** volume.py L207-274 [bucket_price_levels]; only the volumes are floats. *)
Definition bucket_price_levels_f (lv : list Z) (vols : list Q) (n_bins : Z) : result (list Z * list Q) :=
  match lv with
  | [] => Raise ValueError
  | _ =>
    if (n_bins =? 0)%Z then Raise ZeroDivisionError
    else
      let mn := zlmin lv in
      let mx := zlmax lv in
      let bw := bin_width (mx - mn) n_bins in
      let edges0 := arange_step mn (mx + bw) bw in
      let nb := (length edges0 - 1)%nat in
      let edges := if (length edges0 <? 2)%nat then [wraps 32 mn; wraps 32 (mx + 1)] else edges0 in
      let idx := map (fun x => (Z.of_nat (ss_right edges x) - 1)%Z) lv in
      let left := (last idx 0 =? Z.of_nat nb)%Z in
      let mids := map (fun k => wraps 32 ((nth k edges 0 + nth (S k) edges 0 - 1) / 2))%Z (seq 0 nb) in
      let prices := if left then mids ++ [mx] else mids in
      let z := repeat 0 (if left then S nb else nb) in
      Ok (prices, fold_left (bin_step_f idx vols nb) (seq 0 (length lv)) z)
  end.

(** volume.py L295, L377 [np.sum] of a float32 array. *)
Definition fsum24 (l : list Q) : Q := fold_left (fun c x => r24 (c + x)) l 0.

(** volume.py L310-313, L328-332, L350-354: volume of the next two levels above, added in float64. *)
Definition pair_up_f (vols : list Q) (up : Z) (none : Q) : Q :=
  let n := Z.of_nat (length vols) in
  if (up <? n)%Z then
    if (up + 1 <? n)%Z then r53 (zget 0 vols up + zget 0 vols (up + 1)) else zget 0 vols up
  else none.
(** volume.py L315-318, L338-342, L355-359: volume of the next two levels below. *)
Definition pair_dn_f (vols : list Q) (dn : Z) (none : Q) : Q :=
  if (0 <=? dn)%Z then
    if (0 <=? dn - 1)%Z then r53 (zget 0 vols dn + zget 0 vols (dn - 1)) else zget 0 vols dn
  else none.

(** volume.py L321-362: the loop; [None] when [fuel] iterations were not enough. *)
Fixpoint va_loop_f (lv : list Z) (vols : list Q) (thr : Q) (fuel : nat) (s : va_state) : option va_state :=
  match fuel with
  | O => None
  | S f =>
      let n := Z.of_nat (length lv) in
      let h := zget 0%Z lv (Z.min (va_up s + 1) (n - 1)) in
      let l := zget 0%Z lv (Z.max (va_dn s - 1) 0) in
      let u := (va_up s + 2)%Z in
      let d := (va_dn s - 2)%Z in
      if Qltb (va_cum s) thr then
        if Qltb (va_cd s) (va_cu s) then
          va_loop_f lv vols thr f
            (mkVA (r53 (va_cum s + va_cu s)) h (va_lva s) u (va_dn s) (pair_up_f vols u (-(1))) (va_cd s))
        else if Qltb (va_cu s) (va_cd s) then
          va_loop_f lv vols thr f
            (mkVA (r53 (va_cum s + va_cd s)) (va_hva s) l (va_up s) d (va_cu s) (pair_dn_f vols d (-(1))))
        else if negb (Qeqb (va_cd s) (-(1))) then
          va_loop_f lv vols thr f
            (mkVA (r53 (va_cum s + r53 (va_cu s + va_cd s))) h l u d (pair_up_f vols u (-(1))) (pair_dn_f vols d (-(1))))
        else Some s
      else Some s
  end.

(** volume.py L294-318: state before the loop. *)
Definition va_init_f (lv : list Z) (vols : list Q) : va_state :=
  let p := argmax vols in
  let poc := nth p lv 0%Z in
  let up := (Z.of_nat p + 1)%Z in
  let dn := (Z.of_nat p - 1)%Z in
  mkVA (nth p vols 0) poc poc up dn (pair_up_f vols up 0) (pair_dn_f vols dn 0).

(** volume.py L298 [total_volume * (va_pct / 100.0)]. *)
Definition va_thr_f (vols : list Q) (pct : Q) : Q := r53 (fsum24 vols * r53 (pct / 100)).

(** volume.py L278-364 [comp_poc_hva_lva]: (poc, hva, lva).  [Ok None] would be a loop of more than two iterations beyond the
    number of levels. *)
Definition comp_poc_hva_lva_f (lv : list Z) (vols : list Q) (pct : Q) : result (option (Z * Z * Z)) :=
  match vols with
  | [] => Raise ValueError
  | _ =>
      let poc := nth (argmax vols) lv 0%Z in
      Ok (match va_loop_f lv vols (va_thr_f vols pct) (length vols + 3) (va_init_f lv vols) with
          | Some s => Some (poc, va_hva s, va_lva s)
          | None => None
          end)
  end.

(** volume.py L368-390 [calc_volume_percentage_above_poc]. *)
Definition pct_above_poc_f (lv : list Z) (vols : list Q) (poc : Z) : Q :=
  let tot := fsum24 vols in
  if Qleb tot 0 then 0
  else
    let above := fold_left (fun acc i => if (poc <? nth i lv 0)%Z then r53 (acc + nth i vols 0) else acc)
                   (seq 0 (length lv)) 0 in
    if Qleb above 0 then 0 else r53 (above / tot).

(** volume.py L428-454: one bar of the rolling profile; the share is stored as float32 (L421, L454). *)
Definition profile_at_f (ts : list Z) (highs lows : list Q) (plv : list (list Z)) (pbv psv : list (list Q))
    (W : Z) (n_bins : option Z) (tick pct : Q) (i : nat) : result (option (Z * Z * Z * Q)) :=
  let end_ts := nth i ts 0%Z in
  match aggregate_footprint_f ts highs lows plv pbv psv (end_ts - W) end_ts tick with
  | Raise x => Raise x
  | Ok (lv0, bv, sv) =>
      let tv0 := map (fun k => r24 (nth k bv 0 + nth k sv 0)) (seq 0 (length bv)) in
      match (match n_bins with None => Ok (lv0, tv0) | Some nb => bucket_price_levels_f lv0 tv0 nb end) with
      | Raise x => Raise x
      | Ok (lv, tv) =>
          match comp_poc_hva_lva_f lv tv pct with
          | Raise x => Raise x
          | Ok None => Ok None
          | Ok (Some (poc, hva, lva)) => Ok (Some (poc, hva, lva, r24 (pct_above_poc_f lv tv poc)))
          end
      end
  end.

(** volume.py L394-456 [volume_profile_rolling] with the window in nanoseconds. *)
Definition volume_profile_rolling_f (ts : list Z) (highs lows : list Q) (plv : list (list Z))
    (pbv psv : list (list Q)) (W : Z) (n_bins : option Z) (tick pct : Q)
    : result (list (option (Z * Z * Z * Q))) :=
  let first := ss_left ts (nth 0 ts 0 + W)%Z in
  run_all (fun i => if (i <? first)%nat then Ok (Some (0%Z, 0%Z, 0%Z, 0))
                    else profile_at_f ts highs lows plv pbv psv W n_bins tick pct i)
          (seq 0 (length plv)).

(** volume.py L472 [np.round(v, 8)] on a float32 array: scaled, rounded and scaled back in float64, stored as float32. *)
Definition round8_f (x : Q) : Q := r24 (r53 (inject_Z (rhe (r53 (x * 100000000))) / 100000000)).
