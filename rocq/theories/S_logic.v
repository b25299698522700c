(** S_logic.v -- specification vocabulary for the bar indexers and the CUSUM
    filter.  Independent of the models. *)
From Verif Require Import Base.
Open Scope Q_scope.

(** Largest element of [l] below [i], or [d] if there is none larger than [d]. *)
Definition last_before (l : list nat) (d i : nat) : nat :=
  fold_left (fun acc x => if (x <? i)%nat then Nat.max acc x else acc) l d.

(** First trade counted towards the bar that ends with close number [k+1]:
    the first bar also counts trade 0, every later bar starts right after the
    previous close. *)
Definition seg_start (closes : list nat) (k : nat) : nat :=
  match k with O => 0%nat | _ => S (nth k closes 0%nat) end.

(** [closes] is the greedy segmentation of a volume sequence of length [n]:
    every bar's collected volume reaches the threshold with its last trade and at
    no earlier trade, and the trades after the last close do not reach it. *)
Definition greedy_volume (v : nat -> Q) (thr : Q) (n : nat) (closes : list nat) : Prop :=
  hd_error closes = Some 0%nat /\
  (forall k, (S k < length closes)%nat ->
     let a := nth k closes 0%nat in
     let b := nth (S k) closes 0%nat in
     let s := seg_start closes k in
     (a < b < n)%nat /\
     thr <= ssum v s (S b) /\
     forall j, (a < j < b)%nat -> ssum v s (S j) < thr) /\
  (let k := (length closes - 1)%nat in
   forall j, (nth k closes 0 < j < n)%nat -> ssum v (seg_start closes k) (S j) < thr).

(** Number of closes in [1, i). *)
Definition closes_below (closes : list nat) (i : nat) : nat :=
  length (filter (fun c => (1 <=? c) && (c <? i))%nat closes).

(** Strictly increasing lists of positions. *)
Definition strict_asc (l : list nat) : Prop := StronglySorted lt l.

(** Some run of consecutive terms of [r] that ends with term [i] and starts after
    position [u] has a sum satisfying [P]. *)
Definition run_ending (r : nat -> Q) (u i : nat) (P : Q -> Prop) : Prop :=
  exists j, (u < j <= i)%nat /\ P (ssum r j (S i)).

(** [s] is the last known (non-NaN) value of [sigma] at or before position [i]. *)
Definition last_known (sigma : list (option Q)) (i : nat) (s : Q) : Prop :=
  exists k, (k <= i)%nat /\ nth k sigma None = Some s /\
            forall j, (k < j <= i)%nat -> nth j sigma None = None.

(** [f] is the first position with a known value. *)
Definition first_known (sigma : list (option Q)) (f : nat) : Prop :=
  (exists s, nth f sigma None = Some s) /\ forall j, (j < f)%nat -> nth j sigma None = None.

(** Position [i] is inside a block of equal timestamps that goes on after [i]. *)
Definition block_goes_on (ts : list Z) (i : nat) : Prop :=
  (i + 1 < length ts)%nat /\ nth i ts 0%Z = nth (i + 1) ts 0%Z.

(** Two-sided CUSUM events over the terms [r] strictly after position [f] and below
    [n].  [ups]/[dns] are the events of the two sides.  An up event happens at [i]
    exactly when the position is eligible and some run of consecutive terms ending at
    [i] and starting after the previous up event has a sum satisfying [hi i]; a down
    event when the position is eligible, no up event happens there and some run
    starting after the previous down event satisfies [lo i]. *)
Definition cusum_events (r : nat -> Q) (f n : nat) (eligible : nat -> Prop)
    (hi lo : nat -> Q -> Prop) (events : list nat) : Prop :=
  exists ups dns,
    strict_asc events /\
    (forall i, In i events <-> In i ups \/ In i dns) /\
    (forall i, In i events -> (f < i < n)%nat) /\
    forall i, (f < i < n)%nat ->
      (In i ups <-> eligible i /\ run_ending r (last_before ups f i) i (hi i)) /\
      (In i dns <-> eligible i /\ ~ run_ending r (last_before ups f i) i (hi i)
                    /\ run_ending r (last_before dns f i) i (lo i)).
