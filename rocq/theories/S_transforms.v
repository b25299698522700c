(** S_transforms.v -- specification vocabulary for the transforms and the CUSUM test. *)
From Verif Require Import Base S_features.
Open Scope Q_scope.

(** One-sided Chu-Stinchcombe-White statistic of the pair (n, t) for the levels y:
    the rise (or fall) since n in units of sigma times the root of the elapsed time. *)
Definition rise_stat (sqrt : Q -> Q) (y : nat -> Q) (sigma : Q) (t n : nat) : Q :=
  Qmax 0 (y t - y n) / (sigma * sqrt (Qnat (t - n))).
Definition fall_stat (sqrt : Q -> Q) (y : nat -> Q) (sigma : Q) (t n : nat) : Q :=
  Qmax 0 (y n - y t) / (sigma * sqrt (Qnat (t - n))).
(** Critical value of the pair. *)
Definition crit_value (sqrt ln : Q -> Q) (t n : nat) : Q := sqrt ((46 # 10) + ln (Qnat (t - n))).

(** [v] is the largest of f(lo), ..., f(hi) and [c] is crit at the first place where it
    is reached. *)
Definition first_sup (f crit : nat -> Q) (lo hi : nat) (v c : Q) : Prop :=
  exists n, (lo <= n <= hi)%nat /\ v == f n /\ c = crit n /\
    (forall m, (lo <= m <= hi)%nat -> f m <= v) /\
    (forall m, (lo <= m < n)%nat -> f m < v).

(** Estimated standard deviation of the steps from a+1 to t, with divisor t-a-1. *)
Definition step_sd (sqrt : Q -> Q) (y : nat -> Q) (a t : nat) : Q :=
  sqrt (qsum (map (fun k => (y k - y (k - 1)%nat) * (y k - y (k - 1)%nat)) (seq (S a) (t - a))) / Qnat (t - a - 1)).

(** Two returns of the same non-zero sign. *)
Definition same_dir (a b : option Q) : Prop :=
  match a, b with Some v, Some w => 0 < v * w | _, _ => False end.
(** The run of returns with the direction of return i has length k; return 0 is not
    looked at. *)
Definition is_run (x : list (option Q)) (i k : nat) : Prop :=
  (1 <= k <= i)%nat /\
  (forall j, (i - k < j <= i)%nat -> same_dir (nth j x None) (nth i x None)) /\
  ((i - k)%nat = 0%nat \/ ~ same_dir (nth (i - k) x None) (nth i x None)).

(** Bars since the last flag at or before bar i; since the start if there is none. *)
Definition since_flag (flags : list bool) (i k : nat) : Prop :=
  (k <= i)%nat /\ (forall j, (i - k < j <= i)%nat -> nth j flags false = false) /\
  (nth (i - k) flags false = true \/ (k = i /\ nth 0 flags false = false)).

(** Strictly increasing time stamps. *)
Definition strictly_asc (ts : list Z) : Prop :=
  forall i j, (i < j < length ts)%nat -> (nth i ts 0 < nth j ts 0)%Z.
(** UTC calendar day of a nanosecond time stamp. *)
Definition utc_day (t : Z) : Z := (t / 86400000000000)%Z.
(** Row f is the first row of the day of row i. *)
Definition day_start (ts : list Z) (f i : nat) : Prop :=
  (f <= i)%nat /\ utc_day (nth f ts 0%Z) = utc_day (nth i ts 0%Z) /\
  (f = 0%nat \/ utc_day (nth (f - 1) ts 0%Z) <> utc_day (nth i ts 0%Z)).
(** Row g is the last row of the day of row i. *)
Definition day_end (ts : list Z) (i g : nat) : Prop :=
  (i <= g < length ts)%nat /\ utc_day (nth g ts 0%Z) = utc_day (nth i ts 0%Z) /\
  (S g = length ts \/ utc_day (nth (S g) ts 0%Z) <> utc_day (nth i ts 0%Z)).

(** Opening range breakout: the day starts at 00:00, bar i comes after its first four
    bars, and its close is beyond every price of the opening range (at least one is
    known). *)
Definition breakout (ts : list Z) (range : list (option Q)) (close : list (option Q)) (beyond : Q -> Q -> Prop) (f i : nat) : Prop :=
  (f + 4 <= i)%nat /\ (nth f ts 0%Z mod 86400000000000 < 60000000000)%Z /\
  exists c, nth i close None = Some c /\
    (exists j h, (f <= j < f + 4)%nat /\ nth j range None = Some h) /\
    (forall j h, (f <= j < f + 4)%nat -> nth j range None = Some h -> beyond c h).
