(** S_units.v -- change of units: the same quantity expressed in another unit. *)
From Verif Require Import Base.
Open Scope Q_scope.

(** [y] is [x] expressed in a unit [c] times smaller. *)
Definition sc (c x y : Q) : Prop := y == c * x.
(** Missing values stay missing. *)
Definition osc (c : Q) (x y : option Q) : Prop :=
  match x, y with Some a, Some b => sc c a b | None, None => True | _, _ => False end.
(** Infinite values and NaN stay as they are. *)
Definition esc (c : Q) (x y : ext) : Prop :=
  match x, y with Fin a, Fin b => sc c a b | PInf, PInf | NInf, NInf | NaN, NaN => True | _, _ => False end.
(** Columns in two units. *)
Definition scl (c : Q) : list Q -> list Q -> Prop := Forall2 (sc c).
Definition oscl (c : Q) : list (option Q) -> list (option Q) -> Prop := Forall2 (osc c).
Definition escl (c : Q) : list ext -> list ext -> Prop := Forall2 (esc c).
(** Both calls succeed with related results, or both raise the same error. *)
Definition both {A} (R : A -> A -> Prop) (x y : result A) : Prop :=
  match x, y with Ok a, Ok b => R a b | Raise e, Raise f => e = f | _, _ => False end.
(** A function of numbers that does not depend on how they are written. *)
Definition respects (f : Q -> Q) : Prop := forall x y, x == y -> f x == f y.
(** A square root of a quantity in squared units: [sqrt (c^2 x) = c sqrt x]. *)
Definition square_root_like (f : Q -> Q) : Prop := forall c x y, 0 < c -> sc (c * c) x y -> sc c (f x) (f y).
(** A logarithm: differences of logarithms of positive numbers do not depend on their unit. *)
Definition log_like (f : Q -> Q) (c : Q) : Prop :=
  forall x x' y y', 0 < x -> 0 < y -> sc c x x' -> sc c y y' -> f x - f y == f x' - f y'.
