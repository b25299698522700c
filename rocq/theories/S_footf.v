(** S_footf.v -- specification vocabulary for footprint features in float arithmetic. *)
From Verif Require Import Base M_float S_float S_bars S_footprint.
Open Scope Q_scope.

(** Error of a float32 inner product in any order of summation: 2(n+1) roundings of the sum of absolute products. *)
Definition dot_ok (dot : list Q -> list Q -> Q) : Prop := forall x y, length x = length y ->
  Qnat (length x + 8) * u24 <= 1 # 16 ->
  let prod i := nth i x 0 * nth i y 0 in
  Qabs (dot x y - qsum (map prod (seq 0 (length x)))) <=
    2 * Qnat (length x + 1) * u24 * qsum (map (fun i => Qabs (prod i)) (seq 0 (length x))).

(** Levels of one bar in float64: [low], [high] and [lev j] are the multiples of the tick next to the rounded quotients of the bar's low,
    its high and the price of trade j. *)
Definition levels_of (tick lo hi : Q) (prices : list Q) (s e low high : Z) (lev : Z -> Z) : Prop :=
  rounds_to (r53 (lo / tick)) low /\ rounds_to (r53 (hi / tick)) high /\ forall j, (s < j <= e)%Z -> rounds_to (r53 (at_ prices j / tick)) (lev j).
