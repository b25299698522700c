(** M_footprint.v -- model of [comp_bar_footprints] and [comp_footprint_features]
    (finmlkit/bar/base.py).
    Simplifications: float32 level volumes and float rounding are not modelled (exact
    rationals); per-level tick counts (int32) are unbounded. *)
From Coq Require Import Qround.
From Verif Require Import Base.
Open Scope Q_scope.

(** base.py L689-690, L706: [int(round(x))], round half to even. *)
Definition rhe (x : Q) : Z :=
  let f := Qfloor x in
  let r := x - inject_Z f in
  if Qltb r (1 # 2) then f
  else if Qltb (1 # 2) r then (f + 1)%Z
  else if Z.even f then f else (f + 1)%Z.

(** Per-bar footprint (base.py L693-723, fields appended to the result lists). *)
Record footprint := mkFp {
  fp_levels : list Z; fp_bv : list Q; fp_sv : list Q; fp_bt : list Z; fp_st : list Z;
  fp_bi : list bool; fp_si : list bool; fp_bi_sum : Z; fp_si_sum : Z;
  fp_cot : Z; fp_run : Z; fp_skew : Q; fp_gini : Q }.

(** base.py L696-700: the four level arrays. *)
Record levels := mkLv { lv_bv : list Q; lv_sv : list Q; lv_bt : list Z; lv_st : list Z }.

(** base.py L716-720: [a[i] += x]. *)
Definition qadd_at (l : list Q) (i : nat) (x : Q) : list Q :=
  map (fun k => if (k =? i)%nat then nth k l 0 + x else nth k l 0) (seq 0 (length l)).
(** base.py L716-720: the same on the tick counts. *)
Definition zadd_at (l : list Z) (i : nat) (x : Z) : list Z :=
  map (fun k => if (k =? i)%nat then (nth k l 0 + x)%Z else nth k l 0%Z) (seq 0 (length l)).

(** base.py L703-722: one trade; an index outside the levels raises ValueError. *)
Definition fp_step (prices amounts : list Q) (sides : list Z) (tick : Q) (low n : Z)
    (acc : result levels) (j : Z) : result levels :=
  match acc with
  | Raise x => Raise x
  | Ok st =>
      let idx := (rhe (zget 0%Q prices j / tick) - low)%Z in
      let amt := zget 0%Q amounts j in
      let sg := zget 0%Z sides j in
      if ((0 <=? idx) && (idx <? n))%Z%bool then
        let i := Z.to_nat idx in
        if (sg =? 1)%Z then Ok (mkLv (qadd_at (lv_bv st) i amt) (lv_sv st) (zadd_at (lv_bt st) i 1) (lv_st st))
        else if (sg =? -1)%Z then Ok (mkLv (lv_bv st) (qadd_at (lv_sv st) i amt) (lv_bt st) (zadd_at (lv_st st) i 1))
        else Ok st
      else Raise ValueError
  end.

(** base.py L795-798: imbalance flags. *)
Definition sell_imb (bv sv : list Q) (mult : Q) (n i : nat) : bool :=
  ((1 <? n) && (i <? n - 1))%nat%bool && Qltb (nth (S i) bv 0 * mult) (nth i sv 0).
(** base.py L798: buy imbalance of level i. *)
Definition buy_imb (bv sv : list Q) (mult : Q) (n i : nat) : bool :=
  ((1 <? n) && (1 <=? i))%nat%bool && Qltb (nth (i - 1) sv 0 * mult) (nth i bv 0).

(** base.py L806-819: one level of the run scan; state (max_run, max_sign, run, run_sign). *)
Definition run_step (bi si : list bool) (st : Z * Z * Z * Z) (i : nat) : Z * Z * Z * Z :=
  let '(mr, ms, r, rs) := st in
  let sg := if nth i bi false then 1%Z else if nth i si false then (-1)%Z else 0%Z in
  let '(r, rs) :=
    if (negb (sg =? 0)%Z && (sg =? rs)%Z)%bool then ((r + 1)%Z, rs)
    else if negb (sg =? 0)%Z then (1%Z, sg)
    else (0%Z, 0%Z) in
  if (mr <? r)%Z then (r, rs, r, rs) else (mr, ms, r, rs).

(** base.py L801-822: longest signed run. *)
Definition max_run (bi si : list bool) (n : nat) : Z :=
  let '(mr, ms, _, _) := fold_left (run_step bi si) (seq 0 n) (0%Z, 0%Z, 0%Z, 0%Z) in (mr * ms)%Z.

(** base.py L829: [np.argmax] (first maximum) of a non-empty array. *)
Fixpoint argmax_from (l : list Q) (i best : nat) (bv : Q) : nat :=
  match l with
  | [] => best
  | x :: l => if Qltb bv x then argmax_from l (S i) i x else argmax_from l (S i) best bv
  end.
(** base.py L829: [np.argmax]. *)
Definition argmax (l : list Q) : nat :=
  match l with [] => 0%nat | x :: l => argmax_from l 1 0 x end.

(** base.py L850: the tuple returned by [comp_footprint_features]. *)
Record fp_feat := mkFeat { ff_bi : list bool; ff_si : list bool; ff_run : Z; ff_cot : Z; ff_skew : Q; ff_gini : Q }.

(** base.py L756-850 [comp_footprint_features]; argmax of an empty array raises. *)
Definition comp_footprint_features (lv : list Z) (bv sv : list Q) (mult : Q) : result fp_feat :=
  let n := length lv in
  let bi := map (buy_imb bv sv mult n) (seq 0 n) in
  let si := map (sell_imb bv sv mult n) (seq 0 n) in
  let tot := map (fun i => nth i bv 0 + nth i sv 0) (seq 0 n) in
  if (n =? 0)%nat then Raise ValueError
  else
    let S := qsum tot in
    let cot := nth (argmax tot) lv 0%Z in
    let pos := (Qltb 0 S && (0 <? n)%nat)%bool in
    let vwap := qsum (map (fun i => inject_Z (nth i lv 0%Z) * nth i tot 0) (seq 0 n)) / S in
    let skew := if pos then qsum (map (fun i => (inject_Z (nth i lv 0%Z) - vwap) * nth i tot 0) (seq 0 n)) / S else 0 in
    let gini := if pos then 1 - qsum (map (fun x => (x / S) * (x / S)) tot) else 0 in
    Ok (mkFeat bi si (max_run bi si n) cot skew gini).

(** base.py L739-740: [np.sum(flags, dtype=np.uint16)]. *)
Definition count_true (l : list bool) : Z := wrapu 16 (Z.of_nat (length (filter (fun b => b) l))).

(** base.py L684-745: one bar.  [np.zeros] of a negative size raises ValueError. *)
Definition bar_footprint (prices amounts : list Q) (sides : list Z) (tick lo hi mult : Q) (s e : Z) : result footprint :=
  if Qeqb tick 0 then Raise ZeroDivisionError
  else
    let low := rhe (lo / tick) in
    let high := rhe (hi / tick) in
    let n := (high - low + 1)%Z in
    if (n <? 0)%Z then Raise ValueError
    else
      let lv := map (wraps 32) (zrange low (high + 1)) in
      let zn := Z.to_nat n in
      match fold_left (fp_step prices amounts sides tick low n) (zrange (s + 1) (e + 1))
              (Ok (mkLv (repeat 0 zn) (repeat 0 zn) (repeat 0%Z zn) (repeat 0%Z zn))) with
      | Raise x => Raise x
      | Ok st =>
          match comp_footprint_features lv (lv_bv st) (lv_sv st) mult with
          | Raise x => Raise x
          | Ok f => Ok (mkFp lv (lv_bv st) (lv_sv st) (lv_bt st) (lv_st st) (ff_bi f) (ff_si f)
                          (count_true (ff_bi f)) (count_true (ff_si f))
                          (ff_cot f) (wraps 16 (ff_run f)) (ff_skew f) (ff_gini f))
          end
      end.

(** base.py L683: the sequential loop over bars; the first exception ends it. *)
Fixpoint run_all {A} (f : nat -> result A) (ks : list nat) : result (list A) :=
  match ks with
  | [] => Ok []
  | k :: ks => match f k with
               | Raise x => Raise x
               | Ok a => match run_all f ks with Raise x => Raise x | Ok l => Ok (a :: l) end
               end
  end.

(** base.py L616-752 [comp_bar_footprints]. *)
Definition comp_bar_footprints (prices amounts : list Q) (closes sides : list Z) (tick : Q)
    (lows highs : list Q) (mult : Q) : result (list footprint) :=
  run_all (fun k => bar_footprint prices amounts sides tick (nth k lows 0) (nth k highs 0) mult
                      (nth k closes 0%Z) (nth (S k) closes 0%Z))
          (seq 0 (length closes - 1)).
