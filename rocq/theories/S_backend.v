(** S_backend.v -- specification vocabulary for comparing the two backends of a transform. *)
From Verif Require Import Base S_features.
Open Scope Q_scope.

(** Row i has n rows up to it (itself included), none of them missing. *)
Definition full {A} (x : list (option A)) (i n : nat) : Prop :=
  (n <= i + 1)%nat /\ forall j, (i < j + n)%nat -> (j <= i)%nat -> nth j x None <> None.
(** Value of a row that exists. *)
Definition val (x : list (option Q)) (j : nat) : Q := match nth j x None with Some v => v | None => 0 end.
(** No value is missing. *)
Definition complete {A} (x : list (option A)) : Prop := ~ In None x.
(** Equal entries of two outputs: both missing or equal numbers. *)
Definition oeq (a b : option Q) : Prop :=
  match a, b with Some x, Some y => x == y | None, None => True | _, _ => False end.
(** Equal entries where the first output may also be infinite. *)
Definition same_val (e : ext) (o : option Q) : Prop :=
  match e, o with Fin x, Some y => x == y | NaN, None => True | _, _ => False end.
(** [v] is the mean of the values present in rows 0..i with weights b^(age in rows). *)
Definition decayed_mean (x : list (option Q)) (b : Q) (i : nat) (v : Q) : Prop :=
  let w j := b ^ Z.of_nat (i - j) in
  let pick f := ssum (fun j => match nth j x None with Some y => f j y | None => 0 end) 0 (S i) in
  0 < pick (fun j _ => w j) /\ v * pick (fun j _ => w j) == pick (fun j y => w j * y).
(** Centred sum of squares, and of fourth powers. *)
Definition dev2 (l : list Q) : Q := qsum (map (fun y => (y - mean l) * (y - mean l)) l).
Definition dev4 (l : list Q) : Q := qsum (map (fun y => (y - mean l) * (y - mean l) * ((y - mean l) * (y - mean l))) l).
(** Squared error of the line a + b x on points, and slope of a line with the least squared error. *)
Definition sse (a b : Q) (pts : list (Q * Q)) : Q :=
  qsum (map (fun p => (snd p - (a + b * fst p)) * (snd p - (a + b * fst p))) pts).
Definition is_fit (b : Q) (pts : list (Q * Q)) : Prop := exists a, forall a' b', sse a b pts <= sse a' b' pts.
(** n rows up to row i, all with a positive price. *)
Definition priced (x : list (option Q)) (i n : nat) : Prop :=
  (n <= i + 1)%nat /\ forall j, (i < j + n)%nat -> (j <= i)%nat -> exists v, nth j x None = Some v /\ 0 < v.
(** Sums of k consecutive elements of a list. *)
Definition runs (w : list Q) (k : nat) : list Q := map (fun i => qsum (firstn k (skipn i w))) (seq 0 (length w + 1 - k)).
