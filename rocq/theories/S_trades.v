(** S_trades.v -- specification vocabulary for the trade preprocessing. *)
From Verif Require Import Base M_trades.
Open Scope Q_scope.

(** [s] is the sign of the last price move larger than 1e-12 at or before trade [i], 0 if there is none. *)
Definition last_move (prices : list Q) (i : nat) (s : Z) : Prop :=
  let dp k := nth k prices 0 - nth (k - 1) prices 0 in
  (s = 0%Z /\ forall k, (1 <= k <= i)%nat -> Qabs (dp k) <= 1 # 1000000000000) \/
  (exists k, (1 <= k <= i)%nat /\ 1 # 1000000000000 < Qabs (dp k) /\
     ((s = 1%Z /\ 0 < dp k) \/ (s = (-1)%Z /\ dp k < 0)) /\
     forall k', (k < k' <= i)%nat -> Qabs (dp k') <= 1 # 1000000000000).

(** Trade [i] belongs to the split transaction opened by trade [h]. *)
Definition joins (ts : list Z) (px : list Q) (side : nat -> Z) (h i : nat) : Prop :=
  nth i ts 0%Z = nth h ts 0%Z /\ Qabs (nth i px 0 - nth h px 0) < 1 # 100000000 /\ side i = side h.

(** The groups [gs] of consecutive trades explain the merged rows. *)
Definition grouping (ts : list Z) (px am : list Q) (side : nat -> Z)
    (gs : list (list nat)) (ts' : list Z) (px' am' : list Q) (side' : list Z) : Prop :=
  concat gs = seq 0 (length ts) /\
  length ts' = length gs /\ length px' = length gs /\ length am' = length gs /\ length side' = length gs /\
  (forall k g, nth_error gs k = Some g -> exists h t, g = h :: t /\
     nth k ts' 0%Z = nth h ts 0%Z /\ nth k px' 0 = nth h px 0 /\ nth k side' 0%Z = side h /\
     nth k am' 0 == qsum (map (fun i => nth i am 0) g) /\
     (forall i, In i g -> joins ts px side h i)) /\
  (forall k g1 g2, nth_error gs k = Some g1 -> nth_error gs (S k) = Some g2 ->
     ~ joins ts px side (hd 0%nat g1) (hd 0%nat g2)).

(** Output contract of a sort by id, stable or not. *)
Definition sorts_by_id (sort_id : list row -> list row) : Prop :=
  forall l, Permutation l (sort_id l) /\ StronglySorted (fun a b => (r_id a <= r_id b)%Z) (sort_id l).
(** ... and of a stable one. *)
Definition stable_by_id (sort_id : list row -> list row) : Prop :=
  forall l z, filter (fun r => (r_id r =? z)%Z) (sort_id l) = filter (fun r => (r_id r =? z)%Z) l.

(** Output contract of an argsort. *)
Definition is_argsort (ts : list Z) (idxs : list nat) : Prop :=
  Permutation idxs (seq 0 (length ts)) /\ ascZ (map (fun i => nth i ts 0%Z) idxs).

(** Integers strictly between the smallest and largest of [ids] that do not occur. *)
Definition missing_ids (ids : list Z) (lo hi : Z) : list Z :=
  filter (fun z => negb (existsb (Z.eqb z) ids)) (zrange lo (hi + 1)).

(** [z] divides [x] (as rationals, integer quotient). *)
Definition Qdivides (d x : Q) : Prop := exists k : Z, x == inject_Z k * d.

(** [kept] contains exactly one of the rows of every id. *)
Definition kept_of (rows kept : list row) : Prop :=
  (forall r, In r kept -> In r rows) /\ NoDup (map r_id kept) /\
  (forall z, In z (map r_id rows) -> In z (map r_id kept)).

(** Rows with int64 nanosecond timestamps, [f] nanoseconds per unit. *)
Definition in_ns (f : Z) (rows : list row) : list row :=
  map (fun r => mkRow (wraps 64 (r_ts r * f)) (r_px r) (r_am r) (r_id r)) rows.
