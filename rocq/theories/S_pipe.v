(** S_pipe.v -- vocabulary for bars made from trades and resampled. *)
From Verif Require Import Base S_bars M_tbio.
Open Scope Z_scope.

(** The ticks a * I, (a + 1) * I, ..., N of them, reach from the first to the last trade. *)
Definition ticks_cover (ts clock : list Z) (I a : Z) (N : nat) : Prop :=
  clock = map (fun i => (a + Z.of_nat i) * I) (seq 0 N) /\ a * I <= hd 0 ts < (a + 1) * I /\ last ts 0 <= (a + Z.of_nat N - 1) * I.
(** Candle over the trades s < j <= e: open, high, low and close. *)
Definition candle (px : list Q) (s e : Z) (r : bar) : Prop :=
  b_open r = Some (at_ px (s + 1)) /\ b_close r = Some (at_ px e) /\
  (exists h, b_high r = Some h /\ is_max (at_ px) (fun _ => True) s e h) /\ (exists l, b_low r = Some l /\ is_min (at_ px) (fun _ => True) s e l).
(** Totals over the trades s < j <= e. *)
Definition totals (px am : list Q) (s e : Z) (r : bar) : Prop :=
  b_trades r = e - s /\ (b_vol r == bsum (at_ am) s e)%Q /\
  let D := bsum (fun j => at_ px j * at_ am j)%Q s e in
  match b_vwap r with Some w => (0 < b_vol r /\ w * b_vol r == D)%Q | None => (b_vol r == 0)%Q end.
