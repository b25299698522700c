(** S_pieces.v -- specification vocabulary for time bars built piece by piece. *)
From Verif Require Import Base M_bars M_builder.
Open Scope Z_scope.

(** The trades of two files, one after the other. *)
Definition joined (t u : trades) : trades :=
  mkTr (t_ts t ++ t_ts u) (t_px t ++ t_px u) (t_am t ++ t_am u)
    (match t_side t, t_side u with Some a, Some b => Some (a ++ b) | _, _ => None end).

(** The bars of a time bar builder, with their labels. *)
Definition time_bars (ln : Q -> Q) (I : Z) (t : trades) : result (list (Z * ohlcv)) :=
  fst (build_ohlcv ln (fresh (KTime I) t)).

(** [n] bars without trades after the label [e]: all prices [p], nothing traded. *)
Definition quiet (I e : Z) (p : Q) (n : nat) : list (Z * ohlcv) :=
  map (fun i => (e + (Z.of_nat i + 1) * I, mkOhlcv p p p p 0 0 0 0)) (seq 0 n).

(** Trades one can build bars of: as many prices and amounts as times, times in order, between the years
    2006 and 2043, where float64 counts in steps of 256 ns. *)
Definition recent (I : Z) (t : trades) : Prop :=
  t_ts t <> [] /\ length (t_px t) = length (t_ts t) /\ length (t_am t) = length (t_ts t) /\ ascZ (t_ts t) /\
  2 ^ 60 <= hd 0 (t_ts t) /\ last (t_ts t) 0 + 2 * I + 512 < 2 ^ 61.

(** A tick of the clock lies between two pieces; neither the end of the first nor the start of the second is so
    close to a tick that float64 cannot tell, and the second does not start on a tick. *)
Definition tick_between (I : Z) (t u : trades) : Prop :=
  (exists m, last (t_ts t) 0 <= m * I < hd 0 (t_ts u)) /\
  (last (t_ts t) 0 mod I = 0 \/ 128 < last (t_ts t) 0 mod I) /\
  0 < hd 0 (t_ts u) mod I /\ hd 0 (t_ts u) mod I + 128 < I.

(** The bars of the pieces, one after the other, with quiet bars between them. *)
Inductive assembled (ln : Q -> Q) (I : Z) : list trades -> list (Z * ohlcv) -> Prop :=
| as_one t f : time_bars ln I t = Ok f -> assembled ln I [t] f
| as_more t u ts f n rest : time_bars ln I t = Ok f -> f <> [] -> assembled ln I (u :: ts) rest ->
    (forall x, hd_error rest = Some x -> fst x = fst (last f x) + (Z.of_nat n + 1) * I) ->
    assembled ln I (t :: u :: ts) (f ++ quiet I (fst (last f (0, mkOhlcv 0 0 0 0 0 0 0 0))) (last (t_px t) 0%Q) n ++ rest).
(** All the trades of a list of pieces. *)
Fixpoint joined_all (t : trades) (ts : list trades) : trades :=
  match ts with [] => t | u :: ts => joined t (joined_all u ts) end.
(** Consecutive pieces are separated by a tick. *)
Fixpoint separated (I : Z) (t : trades) (ts : list trades) : Prop :=
  match ts with [] => True | u :: ts => tick_between I t u /\ separated I u ts end.
