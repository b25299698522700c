(** S_unitpipe.v -- stored time bars in other units. *)
From Verif Require Import Base M_tbio S_units.
Open Scope Q_scope.

(** The same row with prices in a unit c and volumes in a unit d. *)
Definition same_stored (c d : Q) (b b' : bar) : Prop :=
  b_ts b' = b_ts b /\ osc c (b_open b) (b_open b') /\ osc c (b_high b) (b_high b') /\ osc c (b_low b) (b_low b') /\ osc c (b_close b) (b_close b') /\
  sc d (b_vol b) (b_vol b') /\ b_trades b' = b_trades b /\ osc c (b_vwap b) (b_vwap b') /\ sc d (b_med b) (b_med b').
(** A row order that does not depend on the units. *)
Definition order_follows (c d : Q) (sort : list bar -> list bar) : Prop :=
  forall g g', Forall2 (same_stored c d) g g' -> Forall2 (same_stored c d) (sort g) (sort g').
