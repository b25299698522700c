(** M_builder.v -- the bar builder objects (bar/base.py L24-300, bar/kit.py L12-181) as state
    machines: cached closes, cached highs and lows, one reply per call. The trades frame is
    not empty and is not changed while the builder is in use; logging, column names and the
    conversion of the index to datetimes are not modelled. *)
From Verif Require Import Base M_logic M_bars M_footprint M_trades M_fpdata.
Open Scope Z_scope.

(** base.py L71: the columns of the trades frame; the side column may be missing. *)
Record trades := mkTr { t_ts : list Z; t_px : list Q; t_am : list Q; t_side : option (list Z) }.
(** kit.py L12-160: the builder classes with their parameters; the interval in nanoseconds. *)
Inductive kit := KTime (iv : Z) | KTick (n : Z) | KVolume (thr : Q) | KDollar (thr : Q)
               | KCusum (sigma : list (option Q)) (flr mult : Q).
(** base.py L65-76: the object; the closes (timestamps and positions) and the highs and lows
    are None until computed. *)
Record builder := mkBd { bd_kit : kit; bd_tr : trades; bd_close : option (list Z * list Z); bd_hl : option (list Q * list Q) }.
(** base.py L71-76: a new builder. *)
Definition fresh (k : kit) (t : trades) : builder := mkBd k t None None.

(** kit.py L63-65, L98-100, L134-136, L170-172: [timestamps[close_indices]]. *)
Definition gather (ts : list Z) (idx : list nat) : result (list Z * list Z) :=
  if forallb (fun i => (i <? length ts)%nat) idx then Ok (map (fun i => nth i ts 0) idx, map Z.of_nat idx)
  else Raise IndexError.

Section Builder.
  (** [np.log] and [np.log1p]. *)
  Variable ln log1p : Q -> Q.

  (** kit.py L29-35, L57-67, L89-102, L124-138, L162-174 [_comp_bar_close]: the closes and the object
      afterwards (the CUSUM indexer fills the sigma array in place). *)
  Definition comp_bar_close (k : kit) (t : trades) : result (list Z * list Z) * kit :=
    match k with
    | KTime iv => (Ok (time_bar_indexer (t_ts t) iv), k)
    | KTick n => (gather (t_ts t) (tick_bar_indexer (length (t_ts t)) n), k)
    | KVolume thr => (gather (t_ts t) (volume_bar_indexer (t_am t) thr), k)
    | KDollar thr => (gather (t_ts t) (dollar_bar_indexer (t_px t) (t_am t) thr), k)
    | KCusum sigma flr mult =>
        if cusum_len_check (t_ts t) (t_px t) sigma
        then (gather (t_ts t) (cusum_bar_indexer ln (t_ts t) (t_px t) sigma flr mult), KCusum (fill_sigma sigma) flr mult)
        else (Raise ValueError, k)
    end.
  (** base.py L101-107 [_set_bar_close]: computed once. *)
  Definition set_close (b : builder) : result (list Z * list Z) * builder :=
    match bd_close b with
    | Some c => (Ok c, b)
    | None => match comp_bar_close (bd_kit b) (bd_tr b) with
              | (Ok c, k) => (Ok c, mkBd k (bd_tr b) (Some c) (bd_hl b))
              | (Raise e, k) => (Raise e, mkBd k (bd_tr b) None (bd_hl b))
              end
    end.
  (** base.py L147-158, L188-205, L231-237: [pd.DataFrame] of the close timestamps without the first
      one (L130) and the columns; different lengths raise ValueError. *)
  Definition frame {A} (cts : list Z) (rows : list A) : result (list (Z * A)) :=
    if (length (tl cts) =? length rows)%nat then Ok (combine (tl cts) rows) else Raise ValueError.
  (** base.py L166-167: setting [index.freq]; pandas raises ValueError unless the index is the
      range of that frequency from its first entry (builders other than TimeBarKit have no interval). *)
  Definition freq_ok (k : kit) (ix : list Z) : bool :=
    match k with
    | KTime iv => forallb (fun i => nth i ix 0 =? hd 0 ix + Z.of_nat i * iv) (seq 0 (length ix))
    | _ => true
    end.
  (** base.py L132-169 [build_ohlcv]; the highs and lows are stored (L145) before the frame is made. *)
  Definition build_ohlcv (b : builder) : result (list (Z * ohlcv)) * builder :=
    match set_close b with
    | (Raise e, b) => (Raise e, b)
    | (Ok (cts, cix), b) =>
        match comp_bar_ohlcv (t_px (bd_tr b)) (t_am (bd_tr b)) cix with
        | Raise e => (Raise e, b)
        | Ok bars =>
            let b := mkBd (bd_kit b) (bd_tr b) (bd_close b) (Some (map b_high bars, map b_low bars)) in
            match frame cts bars with
            | Raise e => (Raise e, b)
            | Ok f => (if freq_ok (bd_kit b) (tl cts) then Ok f else Raise ValueError, b)
            end
        end
    end.
  (** base.py L171-212 [build_directional_features]; no side column: KeyError. *)
  Definition build_directional (b : builder) : result (list (Z * directional)) * builder :=
    match set_close b with
    | (Raise e, b) => (Raise e, b)
    | (Ok (cts, cix), b) =>
        match t_side (bd_tr b) with
        | None => (Raise KeyError, b)
        | Some sd => (frame cts (comp_bar_directional (t_px (bd_tr b)) (t_am (bd_tr b)) sd cix), b)
        end
    end.
  (** base.py L214-245 [build_trade_size_features]. *)
  Definition build_size (b : builder) (theta : list Q) (mult : Q) : result (list (Z * size_feat)) * builder :=
    match set_close b with
    | (Raise e, b) => (Raise e, b)
    | (Ok (cts, cix), b) =>
        match comp_bar_size log1p (t_am (bd_tr b)) theta cix mult with
        | Raise e => (Raise e, b)
        | Ok rows => (frame cts rows, b)
        end
    end.
  (** base.py L281-297: the container made from the footprints. *)
  Definition to_fpdata (ts : list Z) (tick : Q) (l : list footprint) : fpdata :=
    mkFd ts tick (map fp_levels l) (map fp_bv l) (map fp_sv l) (map fp_bt l) (map fp_st l) (map fp_bi l) (map fp_si l)
      (Some (map fp_cot l)) (Some (map fp_si_sum l)) (Some (map fp_bi_sum l)) (Some (map fp_run l))
      (Some (map fp_skew l)) (Some (map fp_gini l)).
  (** base.py L256-259: highs and lows, from the cache or from a call of [build_ohlcv]. *)
  Definition need_hl (b : builder) : result (list Q * list Q) * builder :=
    match bd_hl b with
    | Some hl => (Ok hl, b)
    | None => match build_ohlcv b with
              | (Raise e, b) => (Raise e, b)
              | (Ok _, b) => (match bd_hl b with Some hl => Ok hl | None => Raise TypeError end, b)
              end
    end.
  (** base.py L247-300 [build_footprints]; the tick size is inferred (L261-263) when not given. *)
  Definition build_footprints (b : builder) (tick : option Q) (mult : Q) : result fpdata * builder :=
    match set_close b with
    | (Raise e, b) => (Raise e, b)
    | (Ok (cts, cix), b) =>
        match need_hl b with
        | (Raise e, b) => (Raise e, b)
        | (Ok (hi, lo), b) =>
            match (match tick with Some q => Ok q | None => comp_price_tick_size (t_px (bd_tr b)) end) with
            | Raise e => (Raise e, b)
            | Ok q =>
                match t_side (bd_tr b) with
                | None => (Raise KeyError, b)
                | Some sd =>
                    match comp_bar_footprints (t_px (bd_tr b)) (t_am (bd_tr b)) cix sd q lo hi mult with
                    | Raise e => (Raise e, b)
                    | Ok l => (Ok (to_fpdata (tl cts) q l), b)
                    end
                end
            end
        end
    end.

  (** base.py L109-300, kit.py L176-181: the public calls of a builder. *)
  Inductive call := COhlcv | CDir | CSize (theta : list Q) (mult : Q) | CFoot (tick : option Q) (mult : Q)
                  | CIdx | CTs | CSigma.
  (** base.py L109-300, kit.py L176-181: their results. *)
  Inductive reply := ROhlcv (f : list (Z * ohlcv)) | RDir (f : list (Z * directional)) | RSize (f : list (Z * size_feat))
                   | RFoot (fd : fpdata) | RIdx (l : list Z) | RTs (l : list Z) | RSigma (l : list (option Q)).
  (** Tag the result of a call (base.py L109-300). *)
  Definition tag {A} (f : A -> reply) (r : result A * builder) : result reply * builder :=
    (match fst r with Ok a => Ok (f a) | Raise e => Raise e end, snd r).
  (** kit.py L176-181 [get_sigma]: the array after the fill, at the closes without the first one
      (L109-118 of base.py); only the CUSUM builder has the method (AttributeError elsewhere,
      modelled as TypeError). *)
  Definition get_sigma (b : builder) : result (list (option Q)) * builder :=
    match bd_kit b with
    | KCusum _ _ _ =>
        match set_close b with
        | (Raise e, b) => (Raise e, b)
        | (Ok (_, cix), b) =>
            (match bd_kit b with
             | KCusum s _ _ =>
                 if forallb (fun i => (Z.to_nat i <? length s)%nat) (tl cix)
                 then Ok (map (fun i => nth (Z.to_nat i) s None) (tl cix)) else Raise IndexError
             | _ => Raise TypeError
             end, b)
        end
    | _ => (Raise TypeError, b)
    end.
  (** One call on a builder (base.py L109-300, kit.py L176-181). *)
  Definition exec (b : builder) (c : call) : result reply * builder :=
    match c with
    | COhlcv => tag ROhlcv (build_ohlcv b)
    | CDir => tag RDir (build_directional b)
    | CSize theta mult => tag RSize (build_size b theta mult)
    | CFoot tick mult => tag RFoot (build_footprints b tick mult)
    | CIdx => tag RIdx (match set_close b with (Ok (_, cix), b) => (Ok (tl cix), b) | (Raise e, b) => (Raise e, b) end)
    | CTs => tag RTs (match set_close b with (Ok (cts, _), b) => (Ok (tl cts), b) | (Raise e, b) => (Raise e, b) end)
    | CSigma => tag RSigma (get_sigma b)
    end.
  (** base.py L65-300: the builder after a history of calls (an exception leaves the changes made so far). *)
  Definition after (b : builder) (h : list call) : builder := fold_left (fun b c => snd (exec b c)) h b.
End Builder.
