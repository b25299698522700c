(** S_mono.v -- specification vocabulary for what a larger parameter does. *)
From Verif Require Import Base M_tbm.
Open Scope Q_scope.

(** Each entry of [b] comes with an entry of [a] at the same place of the list that is not later:
    the k-th close of [b] is not before the k-th close of [a], and there are not more of them. *)
Definition not_earlier (a b : list nat) : Prop :=
  (length b <= length a)%nat /\ forall k, (k < length b)%nat -> (nth k a 0 <= nth k b 0)%nat.

(** A barrier multiplier not smaller than another; +inf switches the barrier off. *)
Definition wider (a b : ext) : Prop :=
  match a, b with Fin x, Fin y => x <= y | Fin _, PInf => True | PInf, PInf => True | _, _ => False end.
(** A vertical barrier not shorter than another; [None] is an infinite one. *)
Definition longer (a b : option Z) : Prop :=
  match a, b with _, None => True | Some x, Some y => (x <= y)%Z | None, Some _ => False end.
(** The event touches no earlier; it touches if the other does. *)
Definition touches_later (a b : tbm_out) : Prop :=
  match tb_touch a, tb_touch b with Some i, Some j => (i <= j)%nat | None, _ => True | Some _, None => False end.
(** Every flag raised in [b] is raised in [a]. *)
Definition fewer_flags (a b : list bool) : Prop :=
  length b = length a /\ forall i, nth i b false = true -> nth i a false = true.
