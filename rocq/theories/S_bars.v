(** S_bars.v -- specification vocabulary for bar features. *)
From Verif Require Import Base.
Open Scope Q_scope.

(** Ascending rationals. *)
Definition ascQ (l : list Q) : Prop := forall i j, (i <= j < length l)%nat -> nth i l 0 <= nth j l 0.

(** Number of elements satisfying a test. *)
Definition count (p : Q -> bool) (l : list Q) : nat := length (filter p l).

(** [m] is attained by and bounds from above (below) the values f j, a < j <= b. *)
Definition is_max (f : Z -> Q) (P : Z -> Prop) (a b : Z) (m : Q) : Prop :=
  (exists j, (a < j <= b)%Z /\ P j /\ m == f j) /\ forall j, (a < j <= b)%Z -> P j -> f j <= m.
Definition is_min (f : Z -> Q) (P : Z -> Prop) (a b : Z) (m : Q) : Prop :=
  (exists j, (a < j <= b)%Z /\ P j /\ m == f j) /\ forall j, (a < j <= b)%Z -> P j -> m <= f j.

(** Element i of an array (non-negative index). *)
Definition at_ (l : list Q) (i : Z) : Q := nth (Z.to_nat i) l 0.
Definition zat (l : list Z) (i : Z) : Z := nth (Z.to_nat i) l 0%Z.

(** Sum of f j over a < j <= b. *)
Definition bsum (f : Z -> Q) (a b : Z) : Q := qsum (map f (zrange (a + 1) (b + 1))).
(** Number of j, a < j <= b, with side sg. *)
Definition bcount (sides : list Z) (sg a b : Z) : nat :=
  length (filter (fun j => (zat sides j =? sg)%Z) (zrange (a + 1) (b + 1))).
(** Sum of f j over the positions of one side. *)
Definition side_sum (sides : list Z) (sg : Z) (f : Z -> Q) (a b : Z) : Q :=
  bsum (fun j => if (zat sides j =? sg)%Z then f j else 0) a b.
(** Signed running sum up to j: buys minus sells. *)
Definition net (sides : list Z) (f : Z -> Q) (a j : Z) : Q :=
  side_sum sides 1 f a j - side_sum sides (-1) f a j.
(** Signed trade. *)
Definition sided (sides : list Z) (j : Z) : Prop := zat sides j = 1%Z \/ zat sides j = (-1)%Z.
