(** S_weights2.v -- vocabulary for choosing and reordering events. *)
From Verif Require Import Base.

(** The entries of [l] at the positions [p], in that order. *)
Definition pick {A} (d : A) (p : list nat) (l : list A) : list A := map (fun k => nth k l d) p.
(** [p] lists every position below [n] once. *)
Definition reorders (p : list nat) (n : nat) : Prop := NoDup p /\ forall k, In k p <-> (k < n)%nat.
(** [p] lists some positions below [n], none twice. *)
Definition chooses (p : list nat) (n : nat) : Prop := NoDup p /\ forall k, In k p -> (k < n)%nat.
