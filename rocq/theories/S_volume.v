(** S_volume.v -- specification vocabulary for volume profiles and order flow. *)
From Verif Require Import Base S_footprint S_features.
Open Scope Q_scope.

(** Strictly ascending price levels. *)
Definition incr (l : list Z) : Prop :=
  forall i j, (i < j < length l)%nat -> (nth i l 0 < nth j l 0)%Z.
(** Volume that the profile (levels, volumes) holds at levels satisfying [p]. *)
Definition vol_where (p : Z -> bool) (lv : list Z) (vols : list Q) : Q :=
  qsum (map (fun i => if p (nth i lv 0%Z) then nth i vols 0 else 0) (seq 0 (length lv))).
(** Volume of a bar's footprint at price level [l]. *)
Definition vol_at (l : Z) (lv : list Z) (vols : list Q) : Q := vol_where (Z.eqb l) lv vols.

(** Volume of the next (at most) two levels above position [hi], below position [lo]. *)
Definition next_up (v : nat -> Q) (n hi : nat) : Q := ssum v (S hi) (Nat.min (hi + 3) n).
Definition next_dn (v : nat -> Q) (lo : nat) : Q := ssum v (lo - 2) lo.

(** Value-area search over positions 0..n-1: from the interval [lo, hi] the search
    ends in [a, b].  While the interval holds less than [thr], it grows by two levels
    on the side whose next two levels hold more volume (both sides when equal; the
    other side when one side is used up). *)
Inductive value_area (v : nat -> Q) (n : nat) (thr : Q) : nat -> nat -> nat -> nat -> Prop :=
| va_done lo hi : thr <= ssum v lo (S hi) -> value_area v n thr lo hi lo hi
| va_grow_up lo hi a b : ssum v lo (S hi) < thr -> (S hi < n)%nat ->
    (lo = 0%nat \/ next_dn v lo < next_up v n hi) ->
    value_area v n thr lo (Nat.min (hi + 2) (n - 1)) a b -> value_area v n thr lo hi a b
| va_grow_dn lo hi a b : ssum v lo (S hi) < thr -> (0 < lo)%nat ->
    (S hi = n \/ next_up v n hi < next_dn v lo) ->
    value_area v n thr (lo - 2) hi a b -> value_area v n thr lo hi a b
| va_grow_both lo hi a b : ssum v lo (S hi) < thr -> (0 < lo)%nat -> (S hi < n)%nat ->
    next_up v n hi == next_dn v lo ->
    value_area v n thr (lo - 2) (Nat.min (hi + 2) (n - 1)) a b -> value_area v n thr lo hi a b.

(** Position of the first maximum. *)
Definition first_max (v : nat -> Q) (n p : nat) : Prop :=
  (p < n)%nat /\ (forall i, (i < n)%nat -> v i <= v p) /\ (forall i, (i < p)%nat -> v i < v p).

(** Bars whose timestamp lies in the closed interval [a, b]. *)
Definition bars_in (ts : list Z) (a b : Z) : list nat :=
  filter (fun t => (a <=? nth t ts 0) && (nth t ts 0 <=? b))%Z%bool (seq 0 (length ts)).
(** Volume of the given bars at price level [l], one side, and both sides. *)
Definition lev_sum (plv : list (list Z)) (pv : list (list Q)) (bars : list nat) (l : Z) : Q :=
  qsum (map (fun t => vol_at l (nth t plv []) (nth t pv [])) bars).
Definition level_total (plv : list (list Z)) (pbv psv : list (list Q)) (bars : list nat) (l : Z) : Q :=
  lev_sum plv pbv bars l + lev_sum plv psv bars l.
(** A footprint that fits its bar: distinct levels, all between the low and the high
    rounded to ticks (this is what C17 shows of the footprint builder). *)
Definition footprint_ok (highs lows : list Q) (plv : list (list Z)) (tick : Q) (t : nat) : Prop :=
  nth t lows 0 <= nth t highs 0 /\ NoDup (nth t plv []) /\
  exists a b, rounds_to (nth t lows 0 / tick) a /\ rounds_to (nth t highs 0 / tick) b /\
    (- 2 ^ 31 <= a)%Z /\ (b < 2 ^ 31)%Z /\ forall l, In l (nth t plv []) -> (a <= l <= b)%Z.
(** [L] and [H] are the lowest rounded low and the highest rounded high of the bars. *)
Definition level_range (highs lows : list Q) (tick : Q) (bars : list nat) (L H : Z) : Prop :=
  (exists t, In t bars /\ rounds_to (nth t lows 0 / tick) L) /\
  (exists t, In t bars /\ rounds_to (nth t highs 0 / tick) H) /\
  (forall t a, In t bars -> rounds_to (nth t lows 0 / tick) a -> (L <= a)%Z) /\
  (forall t b, In t bars -> rounds_to (nth t highs 0 / tick) b -> (b <= H)%Z).
(** Volume over the levels a..b of a level function. *)
Definition span_sum (f : Z -> Q) (a b : Z) : Q := qsum (map f (zrange a (b + 1))).
(** (poc, hva, lva) is the profile of [f] over the levels L..H with value area [pct]. *)
Definition is_profile (f : Z -> Q) (L H : Z) (pct : Q) (poc hva lva : Z) : Prop :=
  (L <= lva <= poc)%Z /\ (poc <= hva <= H)%Z /\
  (forall l, (L <= l <= H)%Z -> f l <= f poc) /\ (forall l, (L <= l < poc)%Z -> f l < f poc) /\
  pct / 100 * span_sum f L H <= span_sum f lva hva /\
  (lva = poc /\ hva = poc <-> pct / 100 * span_sum f L H <= f poc).
(** Every volume is non-negative. *)
Definition vols_ok (pv : list (list Q)) : Prop := forall t x, In x (nth t pv []) -> 0 <= x.

(** Sum over the last [n] entries up to position i. *)
Definition last_sum (f : nat -> Q) (i n : nat) : Q := qsum (window f i n).
