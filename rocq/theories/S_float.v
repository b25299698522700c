(** S_float.v -- specification vocabulary for float rounding.  Independent of the models. *)
From Verif Require Import Base S_logic.
Open Scope Q_scope.

(** Numbers with at most [p] significant bits. *)
Definition fl (p : Z) (y : Q) : Prop := exists m e, (Z.abs m < 2 ^ p)%Z /\ y == inject_Z m * Qpower 2 e.

(** [y] is the [p]-bit number nearest to [x]; among two equally near ones it is the one whose
    last bit is 0. *)
Definition nearest_even (p : Z) (x y : Q) : Prop :=
  fl p y /\
  (forall z, fl p z -> Qabs (y - x) <= Qabs (z - x)) /\
  (forall z, fl p z -> ~ z == y -> Qabs (y - x) == Qabs (z - x) ->
     exists m e, (2 ^ (p - 1) <= Z.abs m <= 2 ^ p)%Z /\ Z.even m = true /\ y == inject_Z m * Qpower 2 e).

(** Multiples of 2^g. *)
Definition grid (g : Z) (x : Q) : Prop := exists k, x == inject_Z k * Qpower 2 g.

(** Relative error of one float64 and one float32 rounding. *)
Definition u53 : Q := Qpower 2 (-53).
Definition u24 : Q := Qpower 2 (-24).

(** [a] is the non-negative [x] up to [n] relative errors of size [u]. *)
Definition within (u : Q) (n : nat) (a x : Q) : Prop :=
  Qpower (1 - u) (Z.of_nat n) * x <= a <= Qpower (1 + u) (Z.of_nat n) * x.

(** [closes] segments the volumes as [greedy_volume] does, as far as one relative error of size
    [u53] per trade of the bar goes. *)
Definition greedy_float (v : nat -> Q) (thr : Q) (n : nat) (closes : list nat) : Prop :=
  hd_error closes = Some 0%nat /\
  (forall k, (S k < length closes)%nat ->
     let a := nth k closes 0%nat in
     let b := nth (S k) closes 0%nat in
     let s := seg_start closes k in
     (a < b < n)%nat /\
     thr <= (1 + u53) ^ Z.of_nat (S b - s) * ssum v s (S b) /\
     forall j, (a < j < b)%nat -> (1 - u53) ^ Z.of_nat (S j - s) * ssum v s (S j) < thr) /\
  (let k := (length closes - 1)%nat in
   forall j, (nth k closes 0 < j < n)%nat ->
     (1 - u53) ^ Z.of_nat (S j - seg_start closes k) * ssum v (seg_start closes k) (S j) < thr).

(** Relative error of one addition to a float32 cell (a float64 and a float32 rounding). *)
Definition ucell : Q := u24 + u53 + u24 * u53.

(** [a] is [x] up to [k] relative errors of size [u53], measured against the magnitude [A] of the
    terms that make up [x] (for terms of either sign). *)
Definition near (k : nat) (a x A : Q) : Prop :=
  Qabs x <= A /\ Qabs (a - x) <= (Qpower (1 + u53) (Z.of_nat k) - 1) * A.
