(** S_tickf.v -- specification vocabulary for the tick size estimate in float64. *)
From Verif Require Import Base M_float.
Open Scope Q_scope.

(** A floor of the decimal logarithm that may be off by one within a relative distance of 2^-40 of a power of ten. *)
Definition floor_log10_like (f : Q -> Z) : Prop :=
  forall d, 0 < d -> Qpower 10 (f d) * (1 - (1 # 1099511627776)) <= d /\ d < Qpower 10 (f d + 1) * (1 + (1 # 1099511627776)).
(** The float64 numbers nearest to multiples of 10^-k. *)
Definition grid_price (k : Z) (a : Z) : Q := r53 (inject_Z a / inject_Z (10 ^ k)).
(** [g] is the greatest common divisor of all differences of numbers of the list. *)
Definition gcd_of_differences (l : list Z) (g : Z) : Prop :=
  (forall a b, In a l -> In b l -> (g | a - b)%Z) /\ (forall s, (forall a b, In a l -> In b l -> (s | a - b)%Z) -> (s | g)%Z).
