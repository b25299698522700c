(** S_footprint.v -- specification vocabulary for footprints. *)
From Verif Require Import Base S_bars.
Open Scope Q_scope.

(** z is the nearest integer to x, the even one in a tie. *)
Definition rounds_to (x : Q) (z : Z) : Prop :=
  Qabs (x - inject_Z z) <= 1 # 2 /\ (Qabs (x - inject_Z z) == 1 # 2 -> Z.even z = true).

(** Sum of [f j] over the trades a < j <= b of side [sg] on level [l]. *)
Definition level_sum (sides : list Z) (lev : Z -> Z) (sg l : Z) (f : Z -> Q) (a b : Z) : Q :=
  bsum (fun j => if ((zat sides j =? sg) && (lev j =? l))%Z%bool then f j else 0) a b.
(** Number of such trades. *)
Definition level_count (sides : list Z) (lev : Z -> Z) (sg l : Z) (a b : Z) : nat :=
  length (filter (fun j => ((zat sides j =? sg) && (lev j =? l))%Z%bool) (zrange (a + 1) (b + 1))).

(** Imbalance sign of level [i]: buy wins when both flags are set. *)
Definition imb_sign (bi si : list bool) (i : nat) : Z :=
  if nth i bi false then 1%Z else if nth i si false then (-1)%Z else 0%Z.
(** [len] consecutive levels from [a], all with the non-zero sign [sg]. *)
Definition is_run (sgn : nat -> Z) (n a len : nat) (sg : Z) : Prop :=
  (0 < len)%nat /\ (a + len <= n)%nat /\ sg <> 0%Z /\ forall i, (a <= i < a + len)%nat -> sgn i = sg.
