(** S_unitsf.v -- changes of units by powers of two, which float64 and float32 arithmetic can follow exactly. *)
From Verif Require Import Base M_float S_units.
Open Scope Q_scope.

(** A square root that follows powers of two: [sqrt (4^e x) = 2^e sqrt x], as the square root of IEEE 754 does. *)
Definition binary_root (sqrt : Q -> Q) : Prop := forall e x y, sc (two e * two e) x y -> sc (two e) (sqrt x) (sqrt y).
(** A sum that follows powers of two. *)
Definition binary_sum (sumf : list Q -> Q) : Prop := forall e l l', scl (two e) l l' -> sc (two e) (sumf l) (sumf l').
(** A product of two lists that follows powers of two in each of them. *)
Definition binary_dot (dot : list Q -> list Q -> Q) : Prop :=
  forall e f l l' m m', scl (two e) l l' -> scl (two f) m m' -> sc (two e * two f) (dot l m) (dot l' m').

(** A row of the rolling volume profile in another unit: the same POC, value area and share, or no row in both. *)
Definition same_row (x y : option (Z * Z * Z * Q)) : Prop :=
  match x, y with Some a, Some b => fst b = fst a /\ snd a == snd b | None, None => True | _, _ => False end.
