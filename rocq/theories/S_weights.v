(** S_weights.v -- independent vocabulary for the sample-weight properties. *)
From Verif Require Import Base.
Open Scope Q_scope.

(** Position j lies in the label interval of event i. *)
Definition covers (events touches : list nat) (i j : nat) : Prop :=
  (nth i events 0 <= j <= nth i touches 0)%nat.
Definition covers_b (events touches : list nat) (j i : nat) : bool :=
  ((nth i events 0 <=? j) && (j <=? nth i touches 0))%nat%bool.

(** Number of events covering position j. *)
Definition overlap (events touches : list nat) (j : nat) : nat :=
  length (filter (covers_b events touches j) (seq 0 (length events))).

(** Number of positions below n covered by at least one event. *)
Definition covered (events touches : list nat) (n : nat) : nat :=
  length (filter (fun j => existsb (covers_b events touches j) (seq 0 (length events))) (seq 0 n)).

(** Total weight of class c. *)
Definition class_total (labels : list Z) (w : list Q) (c : Z) : Q :=
  qsum (map (fun i => nth i w 0) (filter (fun i => (nth i labels 0 =? c)%Z) (seq 0 (length labels)))).

(** c occurs among the labels *)
Definition n_distinct (labels : list Z) (k : nat) : Prop :=
  exists l, NoDup l /\ length l = k /\ forall c, In c l <-> In c labels.
