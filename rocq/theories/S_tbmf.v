(** S_tbmf.v -- "away from the barriers" for the triple barrier method. *)
From Verif Require Import Base M_float S_float.
Open Scope Q_scope.

(** Error of a return of size at most [R] if logarithms are off by at most [d]. *)
Definition ret_error (R d : Q) : Q := 2 * d * (1 + u53) + u53 * R.

(** The return [r] is further than [e] and the rounding of the barrier away from each finite barrier. *)
Definition barrier_clear (tgt : Q) (bottom top : ext) (e r : Q) : Prop :=
  match top with Fin m => e + u53 * Qabs (tgt * m) < Qabs (r - tgt * m) | _ => True end /\
  match bottom with Fin m => e + u53 * Qabs (tgt * m) < Qabs (r + tgt * m) | _ => True end.

(** Barrier width [tgt * m], if finite: positive, at least [R] / [rho] and at least [e] / [eta]. *)
Definition wide (tgt : Q) (b : ext) (R rho e eta : Q) : Prop :=
  match b with Fin m => 0 < m /\ R <= rho * (tgt * m) /\ e <= eta * (tgt * m) | PInf => True | _ => False end.
