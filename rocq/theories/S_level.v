(** S_level.v -- specification vocabulary: prices with a constant added, prices turned upside down. *)
From Verif Require Import Base M_cusumtest S_units.
Open Scope Q_scope.

(** [y] is [x] on a scale with another zero ([s] = 1) or another zero and the opposite direction ([s] = -1). *)
Definition lin (s d x y : Q) : Prop := y == s * x + d.
Definition olin (s d : Q) (x y : option Q) : Prop :=
  match x, y with Some a, Some b => lin s d a b | None, None => True | _, _ => False end.
(** Columns, without and with missing values. *)
Definition linl (s d : Q) : list Q -> list Q -> Prop := Forall2 (lin s d).
Definition olinl (s d : Q) : list (option Q) -> list (option Q) -> Prop := Forall2 (olin s d).
(** The factor is 1 or -1. *)
Definition sign_like (s : Q) : Prop := s == 1 \/ s == -(1).
(** An oscillator between 0 and 100 that is missing when there are no losses: reflected at 50. *)
Definition turned (x y : option Q) : Prop :=
  match x, y with Some a, Some b => a + b == 100 | Some a, None | None, Some a => a == 0 | None, None => True end.
(** Prices turned upside down on a logarithmic scale: [x] becomes [c / x]. *)
Definition turned_log (c x y : Q) : Prop := 0 < x /\ y == c / x.
Definition oturned_log (c : Q) (x y : option Q) : Prop :=
  match x, y with Some a, Some b => turned_log c a b | None, None => True | _, _ => False end.
(** A logarithm: the inverse of a number has the opposite logarithm. *)
Definition odd_log (f : Q -> Q) : Prop := respects f /\ forall x, 0 < x -> f (/ x) == - f x.
(** The pandas version of the oscillator: reflected at 50, but 100 in both directions where nothing moved. *)
Definition turned_pd (x y : option Q) : Prop :=
  match x, y with Some a, Some b => a + b == 100 \/ (a == 100 /\ b == 100) | None, None => True | _, _ => False end.
(** Two values with a given sum, missing together. *)
Definition osum (t : Q) (x y : option Q) : Prop :=
  match x, y with Some a, Some b => a + b == t | None, None => True | _, _ => False end.
(** The opposite return. *)
Definition eopp (x y : ext) : Prop :=
  match x, y with Fin a, Fin b => b == - a | PInf, PInf | NInf, NInf | NaN, NaN => True | _, _ => False end.
(** %b: the same on a shifted scale, 1 - %b on a turned one. *)
Definition bb_rel (s : Q) (x y : option Q) : Prop := olin s ((1 - s) / 2) x y.
(** The upward and downward statistics of the structural break test with their critical values: the same, swapped. *)
Definition cs_same (a b : cs_st) : Prop := c_up b == c_up a /\ c_dn b == c_dn a /\ c_cu b == c_cu a /\ c_cd b == c_cd a.
Definition cs_swap (a b : cs_st) : Prop := c_up b == c_dn a /\ c_dn b == c_up a /\ c_cu b == c_cd a /\ c_cd b == c_cu a.
Definition cs_rel (s : Q) (a b : cs_st) : Prop := (s == 1 -> cs_same a b) /\ (s == -(1) -> cs_swap a b).
Definition ocs_rel (s : Q) (a b : option cs_st) : Prop := match a, b with Some x, Some y => cs_rel s x y | None, None => True | _, _ => False end.
