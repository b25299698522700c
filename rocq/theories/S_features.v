(** S_features.v -- specification vocabulary for the rolling feature kernels. *)
From Coq Require Import Qpower.
From Verif Require Import Base.
Open Scope Q_scope.

(** Entry [i] of a series (0 outside, never used there). *)
Definition at_ (l : list Q) (i : nat) : Q := nth i l 0.
(** The values f(i-n+1), ..., f(i). *)
Definition window {A} (f : nat -> A) (i n : nat) : list A := map f (seq (i + 1 - n) n).
(** Arithmetic mean of a list. *)
Definition is_mean (m : Q) (l : list Q) : Prop := m * Qnat (length l) == qsum l.
(** Least and greatest element. *)
Definition is_min (m : Q) (l : list Q) : Prop := In m l /\ forall x, In x l -> m <= x.
Definition is_max (m : Q) (l : list Q) : Prop := In m l /\ forall x, In x l -> x <= m.

(** [v] is the mean of x_0..x_i with non-negative weights, summing to 1 and
    proportional to r^(i-j). *)
Definition is_ew_mean (v : Q) (x : nat -> Q) (i : nat) (r : Q) : Prop :=
  exists w : nat -> Q,
    (forall j, (j <= i)%nat -> 0 <= w j) /\
    (forall j, (j <= i)%nat -> w j == w i * r ^ Z.of_nat (i - j)) /\
    qsum (map w (seq 0 (S i))) == 1 /\
    v == qsum (map (fun j => w j * x j) (seq 0 (S i))).

(** Gain and loss of the step from price a to price b. *)
Definition up (a b : Q) : Q := Qmax (b - a) 0.
Definition down (a b : Q) : Q := Qmax (a - b) 0.
(** Wilder average with period n at index n + k: the mean of the first n values, then
    exponential smoothing with factor (n-1)/n, in closed form. *)
Definition wilder_avg (x : nat -> Q) (n k : nat) : Q :=
  let r := (Qnat n - 1) / Qnat n in
  r ^ Z.of_nat k * (qsum (map x (seq 1 n)) / Qnat n)
  + qsum (map (fun j => r ^ Z.of_nat (k - j) * (x (n + j)%nat / Qnat n)) (seq 1 k)).

(** Centred sum of products of two lists of equal length. *)
Definition mean (l : list Q) : Q := qsum l / Qnat (length l).
Definition cross (xs ys : list Q) : Q :=
  qsum (map (fun p => (fst p - mean xs) * (snd p - mean ys)) (combine xs ys)).

(** [j] is the last index whose timestamp is at most [x]. *)
Definition last_at_or_before (ts : list Z) (x : Z) (j : nat) : Prop :=
  (j < length ts)%nat /\ (nth j ts 0 <= x)%Z /\
  forall k, (j < k < length ts)%nat -> (x < nth k ts 0)%Z.
