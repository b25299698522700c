(** S_sumf.v -- a float64 sum whose order of additions is not fixed. *)
From Coq Require Import Permutation.
From Verif Require Import Base M_float.
Open Scope Q_scope.

(** [s] is a sum of the list in float64: numbers are added in some order and in some grouping, every addition is
    rounded. *)
Inductive some_order : list Q -> Q -> Prop :=
| so_nil : some_order [] 0
| so_one x : some_order [x] x
| so_round x : some_order [x] (r53 x)
| so_add l m a b : l <> [] -> m <> [] -> some_order l a -> some_order m b -> some_order (l ++ m) (r53 (a + b))
| so_perm l m a : Permutation l m -> some_order l a -> some_order m a.

(** Every sum is one in some order. *)
Definition sums_somehow (sumf : list Q -> Q) : Prop := forall l, some_order l (sumf l).
