(** S_online.v -- specification vocabulary: a run on the trades so far compared with a run on all trades. *)
From Verif Require Import Base M_logic M_builder M_fpdata S_logic S_pieces.

(** [b] is [a] with more rows at the end. *)
Definition starts {A} (a b : list A) : Prop := exists c, b = a ++ c.
(** The same for optional columns. *)
Definition starts_opt {A} (a b : option (list A)) : Prop :=
  match a, b with Some x, Some y => starts x y | None, None => True | _, _ => False end.
(** The same for every array of the footprint data. *)
Definition starts_fd (a b : fpdata) : Prop :=
  fd_tick a = fd_tick b /\ starts (fd_ts a) (fd_ts b) /\ starts (fd_lv a) (fd_lv b) /\ starts (fd_bv a) (fd_bv b) /\ starts (fd_sv a) (fd_sv b) /\
  starts (fd_bt a) (fd_bt b) /\ starts (fd_st a) (fd_st b) /\ starts (fd_bi a) (fd_bi b) /\ starts (fd_si a) (fd_si b) /\
  starts_opt (fd_cot a) (fd_cot b) /\ starts_opt (fd_sis a) (fd_sis b) /\ starts_opt (fd_bis a) (fd_bis b) /\ starts_opt (fd_run a) (fd_run b) /\
  starts_opt (fd_skew a) (fd_skew b) /\ starts_opt (fd_gini a) (fd_gini b).
(** What a builder returned for the trades so far and what it returns for all of them. *)
Definition starts_reply (a b : reply) : Prop :=
  match a, b with
  | ROhlcv x, ROhlcv y => starts x y
  | RDir x, RDir y => starts x y
  | RSize x, RSize y => starts x y
  | RFoot x, RFoot y => starts_fd x y
  | RIdx x, RIdx y => starts x y
  | RTs x, RTs y => starts x y
  | RSigma x, RSigma y => starts x y
  | _, _ => False
  end.
(** The same builder given the trades so far and given all trades; a CUSUM builder has more values of sigma, a value is known among the first ones and
    the cut does not separate trades of the same time. *)
Inductive same_builder (t u : trades) : kit -> kit -> Prop :=
| sb_tick n : same_builder t u (KTick n) (KTick n)
| sb_volume thr : same_builder t u (KVolume thr) (KVolume thr)
| sb_dollar thr : same_builder t u (KDollar thr) (KDollar thr)
| sb_cusum s s' flr mult f : length s = length (t_ts t) -> length s' = length (t_ts u) -> first_known s f -> (f < length s)%nat ->
    (t_ts u <> [] -> last (t_ts t) 0%Z <> hd 0%Z (t_ts u)) ->
    same_builder t u (KCusum s flr mult) (KCusum (s ++ s') flr mult).
(** The same question; the thresholds of the size features are per bar, the tick size is given. *)
Inductive same_call : call -> call -> Prop :=
| sc_ohlcv : same_call COhlcv COhlcv
| sc_dir : same_call CDir CDir
| sc_size th th' mult : starts th th' -> same_call (CSize th mult) (CSize th' mult)
| sc_foot tick mult : same_call (CFoot (Some tick) mult) (CFoot (Some tick) mult)
| sc_idx : same_call CIdx CIdx
| sc_ts : same_call CTs CTs
| sc_sigma : same_call CSigma CSigma.
(** Trades with as many prices, amounts and sides as times, at least one. *)
Definition tidy (t : trades) : Prop :=
  t_ts t <> [] /\ length (t_px t) = length (t_ts t) /\ length (t_am t) = length (t_ts t) /\
  exists s, t_side t = Some s /\ length s = length (t_ts t).
