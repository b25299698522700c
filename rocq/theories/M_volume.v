(** M_volume.v -- model of finmlkit/feature/core/volume.py: volume profiles
    (aggregation of footprints, bucketing, POC and value area, rolling and
    developing profiles), flow acceleration and VPIN.

    Volumes and prices are exact rationals ([Q]); the float32 storage of volumes
    and the float64 rounding of sums are not modelled.  Price levels are [Z], with
    the int32 conversion of [np.arange] kept ([wraps 32]).  The three per-bar lists
    of a footprint (levels, buy volumes, sell volumes) are lists of lists; arrays of
    one bar are assumed to have equal lengths. *)
From Verif Require Import Base M_logic M_bars M_footprint M_features.
Open Scope Q_scope.

(* ------------------------------------------------------------------ *)
(** ** Aggregation *)

(** volume.py L200-201, L541-542 [a[indices]]: the position of the last occurrence
    of [k] in the index array (the one whose assignment survives). *)
Definition last_occ (idx : list nat) (k : nat) : option nat :=
  find (fun j => (nth j idx 0%nat =? k)%nat) (rev (seq 0 (length idx))).
(** volume.py L200-201, L541-542 [a[indices] += v] with an index array: the right
    side is computed first, so repeated indices do not accumulate; an index outside
    the array raises IndexError. *)
Definition fancy_add (a : list Q) (idx : list nat) (v : list Q) : result (list Q) :=
  if forallb (fun k => (k <? length a)%nat) idx then
    Ok (map (fun k => match last_occ idx k with
                      | Some j => nth k a 0 + nth j v 0
                      | None => nth k a 0
                      end) (seq 0 (length a)))
  else Raise IndexError.

(** volume.py L195-201, L538-542: one bar added to the aligned (buy, sell) volumes. *)
Definition agg_step (lv : list Z) (plv : list (list Z)) (pbv psv : list (list Q))
    (acc : result (list Q * list Q)) (t : nat) : result (list Q * list Q) :=
  match acc with
  | Raise x => Raise x
  | Ok (ab, asl) =>
      let idx := map (ss_left lv) (nth t plv []) in
      match fancy_add ab idx (nth t pbv []), fancy_add asl idx (nth t psv []) with
      | Ok ab', Ok as' => Ok (ab', as')
      | Raise x, _ => Raise x
      | _, Raise x => Raise x
      end
  end.

(** volume.py L169-187, L526-534: the complete int32 price levels of the bars
    [s, e); an empty window makes [np.min] raise ValueError. *)
Definition window_levels (highs lows : list Q) (tick : Q) (s e : nat) : result (list Z) :=
  let lo := firstn (e - s) (skipn s lows) in
  let hi := firstn (e - s) (skipn s highs) in
  match lo, hi with
  | [], _ => Raise ValueError
  | _, [] => Raise ValueError
  | _, _ =>
      if Qeqb tick 0 then Raise ZeroDivisionError
      else Ok (map (wraps 32) (zrange (rhe (lmin lo / tick)) (rhe (lmax hi / tick) + 1)))
  end.

(** volume.py L162-167: first and one-past-last bar of the aggregation window. *)
Definition agg_range (ts : list Z) (start_ts end_ts : Z) : nat * nat :=
  let s := ss_left ts start_ts in
  let e := ss_right ts end_ts in
  ((if (s =? e)%nat then s - 1 else s)%nat, e).

(** volume.py L134-203 [aggregate_footprint]. *)
Definition aggregate_footprint (ts : list Z) (highs lows : list Q)
    (plv : list (list Z)) (pbv psv : list (list Q)) (start_ts end_ts : Z) (tick : Q)
    : result (list Z * list Q * list Q) :=
  let '(s, e) := agg_range ts start_ts end_ts in
  match window_levels highs lows tick s e with
  | Raise x => Raise x
  | Ok lv =>
      let z := repeat 0 (length lv) in
      match fold_left (agg_step lv plv pbv psv) (seq s (e - s)) (Ok (z, z)) with
      | Raise x => Raise x
      | Ok (ab, asl) => Ok (lv, ab, asl)
      end
  end.

(* ------------------------------------------------------------------ *)
(** ** Buckets *)

(** volume.py L225-226 [np.min]/[np.max] of the (integer) price levels. *)
Definition zlmin (l : list Z) : Z := match l with [] => 0%Z | x :: t => fold_left Z.min t x end.
(** volume.py L226. *)
Definition zlmax (l : list Z) : Z := match l with [] => 0%Z | x :: t => fold_left Z.max t x end.

(** volume.py L229-233: bin width, made odd. *)
Definition bin_width (range nb : Z) : Z :=
  let w := Z.max 1 (range / nb) in
  if (w mod 2 =? 0)%Z then (w + 1)%Z else w.

(** volume.py L234 [np.arange(min, max + bw, bw, dtype=int32)]. *)
Definition arange_step (a b st : Z) : list Z :=
  map (fun k => wraps 32 (a + Z.of_nat k * st)) (seq 0 (Z.to_nat ((b - a + st - 1) / st))).

(** volume.py L262-272: one price level put into its bin. *)
Definition bin_step (idx : list Z) (vols : list Q) (nb : nat) (acc : list Q) (i : nat) : list Q :=
  let k := nth i idx 0%Z in
  if ((0 <=? k) && (k <? Z.of_nat nb))%Z%bool then qadd_at acc (Z.to_nat k) (nth i vols 0)
  else if (k =? Z.of_nat nb)%Z then qadd_at acc nb (nth i vols 0)
  else acc.

(** volume.py L207-274 [bucket_price_levels].  No levels: [np.min] raises
    ValueError; zero bins: integer division by zero.  With a single price level
    [n_bins] is 0 (it is computed before the fallback edges) and the assignment of
    the one midpoint to the empty slice [:0] broadcasts to nothing. *)
Definition bucket_price_levels (lv : list Z) (vols : list Q) (n_bins : Z) : result (list Z * list Q) :=
  match lv with
  | [] => Raise ValueError
  | _ =>
    if (n_bins =? 0)%Z then Raise ZeroDivisionError
    else
      let mn := zlmin lv in
      let mx := zlmax lv in
      let bw := bin_width (mx - mn) n_bins in
      let edges0 := arange_step mn (mx + bw) bw in
      let nb := (length edges0 - 1)%nat in
      let edges := if (length edges0 <? 2)%nat then [wraps 32 mn; wraps 32 (mx + 1)] else edges0 in
      let idx := map (fun x => (Z.of_nat (ss_right edges x) - 1)%Z) lv in
      let left := (last idx 0 =? Z.of_nat nb)%Z in
      let mids := map (fun k => wraps 32 ((nth k edges 0 + nth (S k) edges 0 - 1) / 2))%Z (seq 0 nb) in
      let prices := if left then mids ++ [mx] else mids in
      let z := repeat 0 (if left then S nb else nb) in
      Ok (prices, fold_left (bin_step idx vols nb) (seq 0 (length lv)) z)
  end.

(* ------------------------------------------------------------------ *)
(** ** POC and value area *)

(** Loop variables of [comp_poc_hva_lva] (volume.py L300-308). *)
Record va_state := mkVA {
  va_cum : Q; va_hva : Z; va_lva : Z; va_up : Z; va_dn : Z; va_cu : Q; va_cd : Q }.

(** volume.py L310-313, L328-332, L350-354: volume of the next two levels above,
    [none] when there is none. *)
Definition pair_up (vols : list Q) (up : Z) (none : Q) : Q :=
  let n := Z.of_nat (length vols) in
  if (up <? n)%Z then
    if (up + 1 <? n)%Z then zget 0 vols up + zget 0 vols (up + 1) else zget 0 vols up
  else none.
(** volume.py L315-318, L338-342, L355-359: volume of the next two levels below. *)
Definition pair_dn (vols : list Q) (dn : Z) (none : Q) : Q :=
  if (0 <=? dn)%Z then
    if (0 <=? dn - 1)%Z then zget 0 vols dn + zget 0 vols (dn - 1) else zget 0 vols dn
  else none.

(** volume.py L321-362: the loop; [None] when [fuel] iterations were not enough.  The
    last branch is the "BUG! Stuck in loop" exit. *)
Fixpoint va_loop (lv : list Z) (vols : list Q) (thr : Q) (fuel : nat) (s : va_state) : option va_state :=
  match fuel with
  | O => None
  | S f =>
      let n := Z.of_nat (length lv) in
      let h := zget 0%Z lv (Z.min (va_up s + 1) (n - 1)) in
      let l := zget 0%Z lv (Z.max (va_dn s - 1) 0) in
      let u := (va_up s + 2)%Z in
      let d := (va_dn s - 2)%Z in
      if Qltb (va_cum s) thr then
        if Qltb (va_cd s) (va_cu s) then
          va_loop lv vols thr f
            (mkVA (va_cum s + va_cu s) h (va_lva s) u (va_dn s) (pair_up vols u (-(1))) (va_cd s))
        else if Qltb (va_cu s) (va_cd s) then
          va_loop lv vols thr f
            (mkVA (va_cum s + va_cd s) (va_hva s) l (va_up s) d (va_cu s) (pair_dn vols d (-(1))))
        else if negb (Qeqb (va_cd s) (-(1))) then
          va_loop lv vols thr f
            (mkVA (va_cum s + (va_cu s + va_cd s)) h l u d (pair_up vols u (-(1))) (pair_dn vols d (-(1))))
        else Some s
      else Some s
  end.

(** volume.py L294-318: state before the loop. *)
Definition va_init (lv : list Z) (vols : list Q) : va_state :=
  let p := argmax vols in
  let poc := nth p lv 0%Z in
  let up := (Z.of_nat p + 1)%Z in
  let dn := (Z.of_nat p - 1)%Z in
  mkVA (nth p vols 0) poc poc up dn (pair_up vols up 0) (pair_dn vols dn 0).

(** volume.py L278-364 [comp_poc_hva_lva]: (poc, hva, lva); [argmax] of an empty
    array raises.  [Ok None] would be a loop longer than the number of levels. *)
Definition comp_poc_hva_lva (lv : list Z) (vols : list Q) (pct : Q) : result (option (Z * Z * Z)) :=
  match vols with
  | [] => Raise ValueError
  | _ =>
      let poc := nth (argmax vols) lv 0%Z in
      let thr := qsum vols * (pct / 100) in
      Ok (match va_loop lv vols thr (S (length vols)) (va_init lv vols) with
          | Some s => Some (poc, va_hva s, va_lva s)
          | None => None
          end)
  end.

(** volume.py L368-390 [calc_volume_percentage_above_poc]. *)
Definition pct_above_poc (lv : list Z) (vols : list Q) (poc : Z) : Q :=
  let tot := qsum vols in
  if Qleb tot 0 then 0
  else
    let above := fold_left (fun acc i => if (poc <? nth i lv 0)%Z then acc + nth i vols 0 else acc)
                   (seq 0 (length lv)) 0 in
    if Qleb above 0 then 0 else above / tot.

(* ------------------------------------------------------------------ *)
(** ** Rolling profile *)

(** volume.py L428-454: one bar of the rolling profile (POC, HVA, LVA, share above). *)
Definition profile_at (ts : list Z) (highs lows : list Q) (plv : list (list Z)) (pbv psv : list (list Q))
    (W : Z) (n_bins : option Z) (tick pct : Q) (i : nat) : result (option (Z * Z * Z * Q)) :=
  let end_ts := nth i ts 0%Z in
  match aggregate_footprint ts highs lows plv pbv psv (end_ts - W) end_ts tick with
  | Raise x => Raise x
  | Ok (lv0, bv, sv) =>
      let tv0 := map (fun k => nth k bv 0 + nth k sv 0) (seq 0 (length bv)) in
      match (match n_bins with None => Ok (lv0, tv0) | Some nb => bucket_price_levels lv0 tv0 nb end) with
      | Raise x => Raise x
      | Ok (lv, tv) =>
          match comp_poc_hva_lva lv tv pct with
          | Raise x => Raise x
          | Ok None => Ok None
          | Ok (Some (poc, hva, lva)) => Ok (Some (poc, hva, lva, pct_above_poc lv tv poc))
          end
      end
  end.

(** volume.py L394-456 [volume_profile_rolling] with the window in nanoseconds
    (L423 [int(window_size_sec * 1e9)]); bars before the first full window keep the
    zeros of L418-421. *)
Definition volume_profile_rolling (ts : list Z) (highs lows : list Q) (plv : list (list Z))
    (pbv psv : list (list Q)) (W : Z) (n_bins : option Z) (tick pct : Q)
    : result (list (option (Z * Z * Z * Q))) :=
  let first := ss_left ts (nth 0 ts 0 + W)%Z in
  run_all (fun i => if (i <? first)%nat then Ok (Some (0%Z, 0%Z, 0%Z, 0))
                    else profile_at ts highs lows plv pbv psv W n_bins tick pct i)
          (seq 0 (length plv)).

(** volume.py L77-84 [VolumePro.compute]: level to price, zero becomes NaN. *)
Definition level_price (tick : Q) (l : Z) : option Q :=
  let p := inject_Z l * tick in if Qeqb p 0 then None else Some p.

(* ------------------------------------------------------------------ *)
(** ** Developing profile *)

(** volume.py L472 [np.round(v, 8)]. *)
Definition round8 (x : Q) : Q := inject_Z (rhe (x * 100000000)) / 100000000.
(** volume.py L478-479, L482-483: number of leading zero volumes. *)
Fixpoint lead_zeros (l : list Q) : nat :=
  match l with [] => 0%nat | x :: t => if Qeqb x 0 then S (lead_zeros t) else 0%nat end.
(** volume.py L463-489 [trim_trailing_zeros]: zeros cut on both sides, volumes
    rounded to 8 decimals. *)
Definition trim_trailing_zeros (lv : list Z) (vols : list Q) : list Z * list Q :=
  let v := map round8 vols in
  let a := lead_zeros v in
  let b := lead_zeros (rev (skipn a v)) in
  let m := (length lv - a - b)%nat in
  (firstn m (skipn a lv), firstn m (skipn a v)).

(** volume.py L544-563: POC, HVA, LVA of the volumes accumulated so far. *)
Definition developing_at (lv : list Z) (bv sv : list Q) (n_bins : option Z) (pct : Q) : result (option (Z * Z * Z)) :=
  let tv := map (fun k => nth k bv 0 + nth k sv 0) (seq 0 (length bv)) in
  match n_bins with
  | None => comp_poc_hva_lva lv tv pct
  | Some nb =>
      let '(lv1, tv1) := trim_trailing_zeros lv tv in
      match bucket_price_levels lv1 tv1 nb with
      | Raise x => Raise x
      | Ok (lv2, tv2) => comp_poc_hva_lva lv2 tv2 pct
      end
  end.

(** volume.py L538-567: the loop over the bars.  The state holds the accumulated
    volumes and the three output arrays merged into one list.  Results are stored at
    the absolute index t; a store outside the arrays of length end_idx - start_idx is
    [Raise IndexError] (numba does not check bounds here: undefined behaviour). *)
Definition dev_step (lv : list Z) (plv : list (list Z)) (pbv psv : list (list Q)) (n_bins : option Z) (pct : Q)
    (acc : result (list Q * list Q * list (option (Z * Z * Z)))) (t : nat)
    : result (list Q * list Q * list (option (Z * Z * Z))) :=
  match acc with
  | Raise x => Raise x
  | Ok (bv, sv, out) =>
      match agg_step lv plv pbv psv (Ok (bv, sv)) t with
      | Raise x => Raise x
      | Ok (bv', sv') =>
          match developing_at lv bv' sv' n_bins pct with
          | Raise x => Raise x
          | Ok r =>
              if (t <? length out)%nat
              then Ok (bv', sv', map (fun k => if (k =? t)%nat then r else nth k out None) (seq 0 (length out)))
              else Raise IndexError
          end
      end
  end.

(** volume.py L493-569 [volume_profile_developing] (without the returned timestamps
    [ts[start_idx:end_idx]]); [end_ts < start_ts] gives a negative array size. *)
Definition volume_profile_developing (ts : list Z) (highs lows : list Q) (plv : list (list Z))
    (pbv psv : list (list Q)) (start_ts end_ts : Z) (n_bins : option Z) (tick pct : Q)
    : result (list (option (Z * Z * Z))) :=
  let s := ss_left ts start_ts in
  let e := ss_right ts end_ts in
  if (e <? s)%nat then Raise ValueError
  else
    match window_levels highs lows tick s e with
    | Raise x => Raise x
    | Ok lv =>
        let z := repeat 0 (length lv) in
        match fold_left (dev_step lv plv pbv psv n_bins pct) (seq s (e - s))
                (Ok (z, z, repeat (Some (0, 0, 0)%Z) (e - s))) with
        | Raise x => Raise x
        | Ok (_, _, out) => Ok out
        end
    end.

(* ------------------------------------------------------------------ *)
(** ** Flow acceleration and VPIN *)

(** volume.py L597-600: prefix sum S[k]. *)
Fixpoint prefix (x : nat -> Q) (k : nat) : Q :=
  match k with O => 0 | S j => prefix x j + x j end.

Section WithLn.
Variable ln : Q -> Q.
(** volume.py L573-607 [comp_flow_acceleration].  [np.log] is the parameter [ln]; a
    non-positive argument (only possible with negative volumes) is not treated
    separately. *)
Definition comp_flow_acceleration (v : list Q) (window recent : nat) : list (option Q) :=
  let eps := 1 # 1000000000000 in
  let n := length v in
  let S_ := prefix (qn v) in
  if ((n <? window)%nat || (window <=? recent)%nat)%bool then repeat None n
  else map (fun i =>
         if (i <? window - 1)%nat then None
         else
           let rs := S_ (i + 1)%nat - S_ (i + 1 - recent)%nat in
           let ps := S_ (i + 1 - recent)%nat - S_ (i + 1 - window)%nat in
           Some (ln ((rs + eps) / (ps + eps)))) (seq 0 n).
End WithLn.

(** volume.py L625-627: is either volume of bar i NaN? *)
Definition vp_nan (b s : list (option Q)) (i : nat) : bool :=
  match nth i b None, nth i s None with Some _, Some _ => false | _, _ => true end.
(** volume.py L629-630: buy/sell volume of bar i, 0 for a NaN bar. *)
Definition vp_val (b s : list (option Q)) (l : list (option Q)) (i : nat) : Q :=
  if vp_nan b s i then 0 else match nth i l None with Some x => x | None => 0 end.
(** volume.py L631: absolute imbalance of bar i, 0 for a NaN bar. *)
Definition vp_abs (b s : list (option Q)) (i : nat) : Q :=
  Qabs (vp_val b s b i - vp_val b s s i).
(** volume.py L632: running number of NaN bars. *)
Fixpoint nan_count (b s : list (option Q)) (k : nat) : Z :=
  match k with O => 0%Z | S j => (nan_count b s j + (if vp_nan b s j then 1 else 0))%Z end.

(** volume.py L611-641 [vpin] for a window of at least 1. *)
Definition vpin (b s : list (option Q)) (window : nat) : list (option Q) :=
  map (fun i =>
    if ((window <=? i + 1)%nat && (nan_count b s (i + 1) - nan_count b s (i + 1 - window) =? 0)%Z)%bool then
      let d (f : nat -> Q) := prefix f (i + 1) - prefix f (i + 1 - window) in
      let tot := d (vp_val b s b) + d (vp_val b s s) in
      if Qltb (1 # 1000000000) tot then Some (d (vp_abs b s) / tot) else None
    else None) (seq 0 (length b)).
