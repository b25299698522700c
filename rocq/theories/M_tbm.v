(** M_tbm.v -- model of finmlkit/label/tbm.py. *)
From Verif Require Import Base.
Open Scope Q_scope.

(** Result slots of one event (tbm.py L71-74): label (int8, initialised 0),
    touch index ([None] = never written: [np.empty]), return and weight ([None] = NaN). *)
Record tbm_out := mkTbm {
  tb_label : Z; tb_touch : option nat; tb_ret : option Q; tb_weight : option Q }.

Section Tbm.
  (** [ln] is [np.log]; [rnd] is the int64 -> float64 conversion (and the rounding of
      the sum at L95), both arbitrary functions here. *)
  Variable ln : Q -> Q.
  Variable rnd : Z -> Z.

  (** tbm.py L90-91: [np.isfinite(b) and b != 0.0] *)
  Definition barrier_valid (b : ext) : bool :=
    match b with Fin q => negb (Qeqb q 0) | _ => false end.

  (** tbm.py L121/L124: [max(m, ret / barrier)] (only reached for a valid barrier). *)
  Definition ratio_max (m ret : Q) (b : ext) : Q :=
    match b with Fin q => pmax m (ret / q) | _ => m end.

  (** tbm.py L109-132: the path loop from the list of remaining positions; [break]
      returns the touch position.  Returns (touch, ret, max_urbr, max_lrbr). *)
  Fixpoint tbm_scan (ts : list Z) (close : list Q) (t0 : Z) (base side : Q) (min_close : Z)
      (upper lower : ext) (js : list nat) (ret mu ml : Q) : option nat * Q * Q * Q :=
    match js with
    | [] => (None, ret, mu, ml)
    | j :: js =>
        let dur := rnd (nth j ts 0%Z - t0)%Z in
        if (dur <? min_close)%Z
        then tbm_scan ts close t0 base side min_close upper lower js ret mu ml
        else
          let ret := (ln (nth j close 0) - base) * side in
          let '(mu, ml) :=
            if (Qltb 0 ret && barrier_valid upper)%bool then (ratio_max mu ret upper, ml)
            else if (Qltb ret 0 && barrier_valid lower)%bool then (mu, ratio_max ml ret lower)
            else (mu, ml) in
          if q_ge_ext ret upper then (Some j, ret, mu, ml)
          else if q_le_ext ret lower then (Some j, ret, mu, ml)
          else tbm_scan ts close t0 base side min_close upper lower js ret mu ml
    end.

  (** tbm.py L94-96: vertical barrier index; [vert] in ns, [None] = inf (then
      searchsorted returns n).  -1 cannot occur for an event inside the array. *)
  Definition tbm_t1_idx (ts : list Z) (e : nat) (vert : option Z) : Z :=
    match vert with
    | None => (Z.of_nat (length ts) - 1)%Z
    | Some v => (Z.of_nat (ss_right (map rnd ts) (rnd (rnd (nth e ts 0%Z) + v))) - 1)%Z
    end.

  (** tbm.py L139-143 *)
  Definition tbm_label (is_meta : bool) (min_ret ret : Q) : Z :=
    if is_meta then (if Qleb min_ret ret then 1%Z else 0%Z)
    else if (qsign ret =? 0)%Z then 1%Z else qsign ret.

  (** tbm.py L146-156; a NaN ratio survives [min(nan, 1.)]. *)
  Definition tbm_weight (at_t1 : bool) (ret mu ml : Q) (upper lower : ext) : option Q :=
    if at_t1 then
      if Qltb 0 ret
      then if barrier_valid upper then Some (pmin (mu / (1 + ml)) 1) else None
      else if barrier_valid lower then Some (pmin (ml / (1 + mu)) 1) else None
    else Some 1.

  (** tbm.py L77-156: one iteration of the parallel loop over events (each writes only
      its own slots).  [tgt] finite; [top], [bottom] may be infinite; times in ns. *)
  Definition tbm_event (ts : list Z) (close : list Q) (e : nat) (tgt : Q) (bottom top : ext)
      (vert : option Z) (min_close : Z) (is_meta : bool) (side : Q) (min_ret : Q) : tbm_out :=
    let upper := emulq tgt top in
    let lower := emulq (- tgt) bottom in
    let t1_idx := tbm_t1_idx ts e vert in
    if (t1_idx <=? Z.of_nat e)%Z then mkTbm 0 None None None
    else
      let t1 := Z.to_nat t1_idx in
      let '(touch, ret, mu, ml) :=
        tbm_scan ts close (nth e ts 0%Z) (ln (nth e close 0)) side min_close upper lower
          (seq (S e) (t1 - e)) 0 0 0 in
      let touch_idx := match touch with Some j => j | None => t1 end in
      mkTbm (tbm_label is_meta min_ret ret) (Some touch_idx) (Some ret)
            (tbm_weight (touch_idx =? t1)%nat ret mu ml upper lower).

  (** tbm.py L12-158 [triple_barrier]; [sides = None] is side prediction. *)
  Definition triple_barrier (ts : list Z) (close : list Q) (events : list nat) (targets : list Q)
      (bottom top : ext) (vert : option Z) (min_close : Z) (sides : option (list Z)) (min_ret : Q)
      : result (list tbm_out) :=
    if match vert with Some v => (v <=? 0)%Z | None => false end then Raise ValueError
    else if Qltb min_ret 0 then Raise ValueError
    else if negb (length ts =? length close)%nat then Raise ValueError
    else if negb (length events =? length targets)%nat then Raise ValueError
    else if (length events =? 0)%nat then Raise ValueError
    else if match sides with Some l => negb (length events =? length l)%nat | None => false end
    then Raise ValueError
    else Ok (map (fun k =>
               tbm_event ts close (nth k events 0%nat) (nth k targets 0) bottom top vert min_close
                 (match sides with Some _ => true | None => false end)
                 (match sides with Some l => inject_Z (nth k l 0%Z) | None => 1 end) min_ret)
             (seq 0 (length events))).
End Tbm.
