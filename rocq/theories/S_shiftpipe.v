(** S_shiftpipe.v -- stored time bars on a later clock. *)
From Verif Require Import Base M_tbio.
Open Scope Z_scope.

(** The same row d nanoseconds later. *)
Definition later_bar (d : Z) (b : bar) : bar :=
  mkBar (b_ts b + d) (b_open b) (b_high b) (b_low b) (b_close b) (b_vol b) (b_trades b) (b_vwap b) (b_med b).
(** A row order that does not depend on the clock. *)
Definition order_timeless (d : Z) (sort : list bar -> list bar) : Prop := forall g, sort (map (later_bar d) g) = map (later_bar d) (sort g).
