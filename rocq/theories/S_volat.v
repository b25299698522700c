(** S_volat.v -- specification vocabulary for the volatility estimators. *)
From Coq Require Import Qpower.
From Verif Require Import Base S_features.
Open Scope Q_scope.

(** Contribution of observation [j] of a series with missing (NaN) values. *)
Definition obs (y : list (option Q)) (j : nat) (f : Q -> Q) : Q :=
  match nth j y None with Some x => f x | None => 0 end.
(** Sum of [f j x_j] over the present observations a <= j <= i. *)
Definition osum (y : list (option Q)) (a i : nat) (f : nat -> Q -> Q) : Q :=
  ssum (fun j => obs y j (f j)) a (S i).
(** Number of present observations a <= j <= i with property [p]. *)
Definition n_obs (y : list (option Q)) (p : nat -> bool) (a i : nat) : nat :=
  length (filter (fun j => match nth j y None with Some _ => p j | None => false end) (seq a (S i - a))).
(** [v] is the unbiased weighted variance (reliability weights) of the present
    observations a..i with weights [w]. *)
Definition wvar (y : list (option Q)) (w : nat -> Q) (a i : nat) (v : Q) : Prop :=
  let W := osum y a i (fun j _ => w j) in
  let W2 := osum y a i (fun j _ => w j * w j) in
  exists m, m * W == osum y a i (fun j x => w j * x) /\
            v * (W - W2 / W) == osum y a i (fun j x => w j * ((x - m) * (x - m))).
(** Weight at time i of an observation made at time j, when the k-th step multiplies
    all older weights by [d k] and adds the new one with weight 1 - d k. *)
Definition qprod (l : list Q) : Q := fold_right Qmult 1 l.
Definition wt (d : nat -> Q) (i j : nat) : Q := (1 - d j) * qprod (map d (seq (S j) (i - j))).
(** exp(-seconds/tau) for the step from timestamp k-1 to k (nanoseconds). *)
Definition step_decay (exp : Q -> Q) (ts : list Z) (tau : Q) (k : nat) : Q :=
  exp (- (inject_Z (nth k ts 0%Z - nth (k - 1) ts 0%Z) / 1000000000) / tau).
(** [r] is [s] raised to the floor. *)
Definition floored (s floor r : Q) : Prop := (s < floor -> r = floor) /\ (floor <= s -> r = s).
(** Present values of a list. *)
Definition vals (l : list (option Q)) : list Q :=
  flat_map (fun o => match o with Some x => [x] | None => [] end) l.
(** Missing values replaced by 0. *)
Definition zero_fill (l : list (option Q)) : list (option Q) :=
  map (fun o => match o with Some x => Some x | None => Some 0 end) l.
(** [v] is the variance of [l] with divisor (length - ddof). *)
Definition is_var (v : Q) (l : list Q) (ddof : Z) : Prop :=
  exists m, is_mean m l /\
    v * inject_Z (Z.of_nat (length l) - ddof) == qsum (map (fun x => (x - m) * (x - m)) l).
