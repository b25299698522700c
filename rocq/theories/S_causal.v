(** S_causal.v -- what it means that a feature does not look ahead. *)
From Verif Require Import Base.

(** One output row per input row, and appending rows [y] never changes the output rows of
    [x]. *)
Definition causal {R B} (f : list R -> list B) : Prop :=
  forall x y, length (f x) = length x /\ firstn (length x) (f (x ++ y)) = f x.
(** The same for a function that may raise: whenever it returns for [x] and for [x]
    followed by [y]. *)
Definition causal_ok {R B} (f : list R -> result (list B)) : Prop :=
  forall x y a b, f x = Ok a -> f (x ++ y) = Ok b -> length a = length x /\ firstn (length x) b = a.
