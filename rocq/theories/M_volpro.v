(** M_volpro.v -- the volume profile object (feature/core/volume.py L13-130). The window is
    given in nanoseconds, the same for the kernel (L423 [int(window_size_sec * 1e9)]) and
    for the warm-up of a range (L115); both are exact for whole seconds. Prices and volumes
    are exact rationals as in M_volume.v; the share is not rounded to float32. Times are
    exact datetimes (no partial date strings, see M_fpdata.v). *)
From Verif Require Import Base M_features M_footprint M_volume M_fpdata.
Open Scope Q_scope.

(** Rows of the bar frame used by [compute] (volume.py L70): index, high and low. *)
Record barrow := mkBar { b_ts : Z; b_high : Q; b_low : Q }.
(** volume.py L76-86: POC, value area high and low as prices (NaN for zero) and the share
    of volume above the POC. *)
Definition vp_prices (tick : Q) (r : Z * Z * Z * Q) : option Q * option Q * option Q * Q :=
  let '(poc, hva, lva, share) := r in (level_price tick poc, level_price tick hva, level_price tick lva, share).
(** volume.py L49-86 [compute]; L64 and L414 are assertions. *)
Definition vp_compute (W : Z) (n_bins : option Z) (pct : Q) (bars : list barrow) (fd : fpdata)
    : result (list (option (option Q * option Q * option Q * Q))) :=
  if negb (length bars =? length (fd_ts fd))%nat then Raise AssertionError
  else if negb ((length (fd_lv fd) =? length bars) && (length (fd_bv fd) =? length bars) && (length (fd_sv fd) =? length bars)
                && (0 <? length bars))%nat%bool then Raise AssertionError
  else match volume_profile_rolling (fd_ts fd) (map b_high bars) (map b_low bars) (fd_lv fd) (fd_bv fd) (fd_sv fd) W n_bins (fd_tick fd) pct with
       | Raise e => Raise e
       | Ok rows => Ok (map (option_map (vp_prices (fd_tick fd))) rows)
       end.
(** volume.py L124 [bars.loc[index]] for an index without duplicates: the rows of the given
    times, KeyError if one is missing. *)
Definition loc (bars : list barrow) (index : list Z) : result (list barrow) :=
  collect (map (fun t => match find (fun r => (b_ts r =? t)%Z) bars with Some r => Ok r | None => Raise KeyError end) index).
(** volume.py L88-130 [compute_range]: the bars from one window before [start] up to [end],
    and their times. *)
Definition vp_range (W : Z) (n_bins : option Z) (pct : Q) (bars : list barrow) (fd : fpdata) (start end_ : Z)
    : result (list Z * list (option (option Q * option Q * option Q * Q))) :=
  if negb (length bars =? length (fd_ts fd))%nat then Raise AssertionError
  else match getitem fd (FDate (Some (start - W)%Z) (Some end_) None) with
       | Ok (FMany sub) =>
           match loc bars (fd_ts sub) with
           | Raise e => Raise e
           | Ok bs => match vp_compute W n_bins pct bs sub with Ok rows => Ok (fd_ts sub, rows) | Raise e => Raise e end
           end
       | Ok (FOne _) => Raise TypeError
       | Raise e => Raise e
       end.
