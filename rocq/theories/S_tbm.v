(** S_tbm.v -- specification vocabulary for the triple barrier method. *)
From Verif Require Import Base.
Open Scope Q_scope.

(** [k] is the first position in (a, b] satisfying [P]. *)
Definition first_such (P : nat -> Prop) (a b k : nat) : Prop :=
  (a < k <= b)%nat /\ P k /\ forall j, (a < j < k)%nat -> ~ P j.

(** [b] is the last position of the list of timestamps inside the window: after
    position [e] and (as floats) not after event time + vertical barrier. *)
Definition window_end (rnd : Z -> Z) (ts : list Z) (e : nat) (vert : option Z) (b : nat) : Prop :=
  (e < b < length ts)%nat /\
  match vert with
  | None => S b = length ts
  | Some v =>
      (rnd (nth b ts 0) <= rnd (rnd (nth e ts 0) + v))%Z /\
      forall j, (b < j < length ts)%nat -> (rnd (rnd (nth e ts 0) + v) < rnd (nth j ts 0))%Z
  end.

(** Signed log return from the event to position j. *)
Definition signed_ret (ln : Q -> Q) (close : list Q) (e : nat) (side : Q) (j : nat) : Q :=
  (ln (nth j close 0) - ln (nth e close 0)) * side.

(** The position may already close the event. *)
Definition eligible (rnd : Z -> Z) (ts : list Z) (e : nat) (min_close : Z) (j : nat) : Prop :=
  (min_close <= rnd (nth j ts 0 - nth e ts 0))%Z.

(** The value is at or beyond a barrier at target * multiplier: infinite multipliers
    (of a positive target) are never reached. *)
Definition reaches_top (tgt : Q) (top : ext) (r : Q) : Prop :=
  match top with Fin m => tgt * m <= r | _ => False end.
Definition reaches_bottom (tgt : Q) (bottom : ext) (r : Q) : Prop :=
  match bottom with Fin m => r <= - tgt * m | _ => False end.

(** [m] is the greatest of 0 and the values [f j] over the positions of (a, b]
    satisfying [P]. *)
Definition running_max (f : nat -> Q) (P : nat -> Prop) (a b : nat) (m : Q) : Prop :=
  0 <= m /\ (forall j, (a < j <= b)%nat -> P j -> f j <= m) /\
  (m == 0 \/ exists j, (a < j <= b)%nat /\ P j /\ m == f j).

(** Barrier multipliers as documented: a number, or +inf to disable the barrier. *)
Definition number_or_inf (b : ext) : Prop := b = PInf \/ exists m, b = Fin m.

(** Monotone conversion (what IEEE int64 -> float64 conversion is). *)
Definition monotone (rnd : Z -> Z) : Prop := forall x y, (x <= y)%Z -> (rnd x <= rnd y)%Z.

(** Position j may close the event and its signed return is at or beyond a barrier. *)
Definition barrier_touch (ln : Q -> Q) (rnd : Z -> Z) (ts : list Z) (close : list Q) (e : nat)
    (tgt : Q) (bottom top : ext) (min_close : Z) (side : Q) (j : nat) : Prop :=
  eligible rnd ts e min_close j /\
  (reaches_top tgt top (signed_ret ln close e side j) \/
   reaches_bottom tgt bottom (signed_ret ln close e side j)).
