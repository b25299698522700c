(** S_cstestf.v -- the squared statistics of the CUSUM test, without square roots. *)
From Verif Require Import Base M_float S_float.
Open Scope Q_scope.

(** Sum of the squared steps from a to t. *)
Definition sq_moves (y : nat -> Q) (a t : nat) : Q :=
  qsum (map (fun k => (y k - y (k - 1)%nat) * (y k - y (k - 1)%nat)) (seq (S a) (t - a))).
(** Square of a rise (of a fall) from n to t in units of the standard deviation of that many steps, the variance of a step being
    that of the steps from a to t with divisor t - a - 1. *)
Definition rise2 (y : nat -> Q) (a t n : nat) : Q :=
  Qmax 0 (y t - y n) * Qmax 0 (y t - y n) / (sq_moves y a t / Qnat (t - a - 1) * Qnat (t - n)).
Definition fall2 (y : nat -> Q) (a t n : nat) : Q :=
  Qmax 0 (y n - y t) * Qmax 0 (y n - y t) / (sq_moves y a t / Qnat (t - a - 1) * Qnat (t - n)).
(** The square of [v] is f at some point n up to k roundings, [c] is crit at that point, and up to k roundings no other value of f is
    larger. *)
Definition rounded_sup (k : nat) (f crit : nat -> Q) (lo hi : nat) (v c : Q) : Prop :=
  0 <= v /\ exists n, (lo <= n <= hi)%nat /\ within u53 k (v * v) (f n) /\ c = crit n /\
    forall m, (lo <= m <= hi)%nat -> (1 - u53) ^ Z.of_nat k * f m <= v * v.
(** A square root that is right up to one rounding. *)
Definition sqrt_rounded (sqrt : Q -> Q) : Prop :=
  forall x, 0 <= x -> 0 <= sqrt x /\ within u53 2 (sqrt x * sqrt x) x.
