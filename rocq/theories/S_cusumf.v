(** S_cusumf.v -- what "away from the threshold" means for sums of consecutive returns. *)
From Verif Require Import Base M_float S_float.
Open Scope Q_scope.

(** Every sum of consecutive returns after position [f] and up to position [i], the empty sum 0 included, is more
    than [e] away from [t] and from [-t]. *)
Definition clear_of (ret : nat -> Q) (f i : nat) (t e : Q) : Prop :=
  forall a, (f < a <= S i)%nat -> e < Qabs (ssum ret a (S i) - t) /\ e < Qabs (ssum ret a (S i) + t).

(** Every sum of consecutive returns after [f] and before [n] is at most [B] in absolute value. *)
Definition sums_within (ret : nat -> Q) (f n : nat) (B : Q) : Prop :=
  forall a i, (f < a <= i)%nat -> (i < n)%nat -> Qabs (ssum ret a (S i)) <= B.

(** Bound for the error of a running sum after [k] additions: summands off by at most [d], sums at most [B]. *)
Definition run_error (B d : Q) (k : nat) : Q := (B + d * (1 + u53) / u53) * ((1 + u53) ^ Z.of_nat k - 1).

(** Return of position [i]. *)
Definition price_ret (ln : Q -> Q) (x : list Q) (i : nat) : Q := ln (nth i x 0 / nth (i - 1) x 0).
