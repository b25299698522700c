(** S_shift.v -- specification vocabulary for changes of the clock: the same trades, bars and
    labels with other time stamps. *)
From Verif Require Import Base M_bars M_footprint M_fpdata M_builder.
Open Scope Z_scope.

(** Time stamps [d] later. *)
Definition later (d : Z) (ts : list Z) : list Z := map (fun t => t + d) ts.

(** The trades of [t] with the time stamp [x] replaced by [f x]. *)
Definition retimed (f : Z -> Z) (t : trades) : trades :=
  mkTr (map f (t_ts t)) (t_px t) (t_am t) (t_side t).

(** A table whose rows are labelled with time stamps, with every label replaced. *)
Definition relabel {A} (f : Z -> Z) (rows : list (Z * A)) : list (Z * A) :=
  map (fun r => (f (fst r), snd r)) rows.

(** The footprint container with other time stamps. *)
Definition fd_relabel (f : Z -> Z) (fd : fpdata) : fpdata :=
  mkFd (map f (fd_ts fd)) (fd_tick fd) (fd_lv fd) (fd_bv fd) (fd_sv fd) (fd_bt fd) (fd_st fd) (fd_bi fd) (fd_si fd)
    (fd_cot fd) (fd_sis fd) (fd_bis fd) (fd_run fd) (fd_skew fd) (fd_gini fd).

(** The answer of a builder with other time stamps: positions, prices, counts and the sigma
    values stay, the time stamps are replaced. *)
Definition reply_relabel (f : Z -> Z) (r : reply) : reply :=
  match r with
  | ROhlcv l => ROhlcv (relabel f l)
  | RDir l => RDir (relabel f l)
  | RSize l => RSize (relabel f l)
  | RFoot fd => RFoot (fd_relabel f fd)
  | RIdx l => RIdx l
  | RTs l => RTs (map f l)
  | RSigma l => RSigma l
  end.
Definition on_ok {A B} (f : A -> B) (r : result A) : result B :=
  match r with Ok a => Ok (f a) | Raise e => Raise e end.
