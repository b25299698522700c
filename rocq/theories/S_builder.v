(** S_builder.v -- specification vocabulary for the bar builders. *)
From Verif Require Import Base S_logic M_bars M_footprint M_fpdata M_builder.
Open Scope Z_scope.

(** A trades frame: at least one row, columns of one length. *)
Definition good_trades (t : trades) : Prop :=
  t_ts t <> [] /\ length (t_px t) = length (t_ts t) /\ length (t_am t) = length (t_ts t).
(** Time bars: ascending timestamps from 1970 on and an interval that is a multiple of 256 ns, no
    trade within 128 ns (first) or 384 ns (last) of a wrong clock tick (the float64 conditions of C01);
    CUSUM bars: one sigma per trade. *)
Definition good_kit (k : kit) (t : trades) : Prop :=
  match k with
  | KTime iv => ascZ (t_ts t) /\ 512 <= iv /\ (256 | iv) /\ 0 <= hd 0 (t_ts t) /\ last (t_ts t) 0 + 2 * iv < 2 ^ 61 /\
                hd 0 (t_ts t) mod iv + 128 < iv /\ (last (t_ts t) 0 mod iv = 0 \/ 384 < last (t_ts t) 0 mod iv)
  | KCusum sigma _ _ => length sigma = length (t_ts t)
  | _ => True
  end.
(** The bar labels of a reply. *)
Definition labels_of (r : reply) : option (list Z) :=
  match r with
  | ROhlcv f => Some (map fst f)
  | RDir f => Some (map fst f)
  | RSize f => Some (map fst f)
  | RFoot fd => Some (fd_ts fd)
  | RTs l => Some l
  | RIdx _ => None
  | RSigma _ => None
  end.
(** Bars in a reply. *)
Definition bars_of (r : reply) : nat :=
  match r with
  | ROhlcv f => length f
  | RDir f => length f
  | RSize f => length f
  | RFoot fd => length (fd_lv fd)
  | RTs l => length l
  | RIdx l => length l
  | RSigma l => length l
  end.
(** Positions [l] of the reported closes of a bar builder: tick bars close at every n-th trade, volume
    bars segment the amounts, dollar bars carry the excess of price times amount, CUSUM bars close at
    the CUSUM events of the log returns; time bars are described by their labels. *)
Definition closes_spec (ln : Q -> Q) (k : kit) (t : trades) (l : list nat) : Prop :=
  let n := length (t_ts t) in
  match k with
  | KTime _ => True
  | KTick m => 1 <= m -> forall i, In i l <-> (1 <= i < n)%nat /\ (m | Z.of_nat i + 1)
  | KVolume thr => greedy_volume (fun i => nth i (t_am t) 0%Q) thr n (0%nat :: l)
  | KDollar thr => strict_asc l /\ (forall i, In i l -> (1 <= i < n)%nat) /\
      forall i, (1 <= i < n)%nat ->
        (In i l <-> (thr <= ssum (fun j => nth j (t_px t) 0 * nth j (t_am t) 0) 0 (S i) - thr * Qnat (closes_below l i))%Q)
  | KCusum sigma flr mult => (0 < flr)%Q -> forall f, first_known sigma f ->
      cusum_events (fun i => ln (nth i (t_px t) 0 / nth (i - 1) (t_px t) 0)%Q) f n (fun i => ~ block_goes_on (t_ts t) i)
        (fun i x => exists s, last_known sigma i s /\ (Qmax (mult * s) flr <= x)%Q)
        (fun i x => exists s, last_known sigma i s /\ (x <= - Qmax (mult * s) flr)%Q) l
  end.
