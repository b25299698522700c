(** M_float5.v -- the triple barrier method with the rounding of float64, where M_tbm.v takes logarithms, returns,
    barriers and weights exact.  Simplifications as in M_float.v: unbounded exponents. *)
From Verif Require Import Base M_tbm M_float.
Open Scope Q_scope.

(** tbm.py L87-88: barriers are rounded products ([-tgt] is exact). *)
Definition emulq_f (a : Q) (b : ext) : ext := match emulq a b with Fin q => Fin (r53 q) | x => x end.

(** tbm.py L121/L124: the quotient is rounded. *)
Definition ratio_max_f (m ret : Q) (b : ext) : Q := match b with Fin q => pmax m (r53 (ret / q)) | _ => m end.

(** tbm.py L146-156 with rounded sum and quotient. *)
Definition tbm_weight_f (at_t1 : bool) (ret mu ml : Q) (upper lower : ext) : option Q :=
  if at_t1 then
    if Qltb 0 ret
    then if barrier_valid upper then Some (pmin (r53 (mu / r53 (1 + ml))) 1) else None
    else if barrier_valid lower then Some (pmin (r53 (ml / r53 (1 + mu))) 1) else None
  else Some 1.

Section TbmFloat.
  (** [lnf] is [np.log] on float64 (L69), [cv] the int64 -> float64 conversion as in M_tbm.v. *)
  Variable lnf : Q -> Q.
  Variable cv : Z -> Z.

  (** tbm.py L109-132: L116 rounds the difference and the product. *)
  Fixpoint tbm_scan_f (ts : list Z) (close : list Q) (t0 : Z) (base side : Q) (min_close : Z)
      (upper lower : ext) (js : list nat) (ret mu ml : Q) : option nat * Q * Q * Q :=
    match js with
    | [] => (None, ret, mu, ml)
    | j :: js =>
        let dur := cv (nth j ts 0%Z - t0)%Z in
        if (dur <? min_close)%Z
        then tbm_scan_f ts close t0 base side min_close upper lower js ret mu ml
        else
          let ret := r53 (r53 (lnf (nth j close 0) - base) * side) in
          let '(mu, ml) :=
            if (Qltb 0 ret && barrier_valid upper)%bool then (ratio_max_f mu ret upper, ml)
            else if (Qltb ret 0 && barrier_valid lower)%bool then (mu, ratio_max_f ml ret lower)
            else (mu, ml) in
          if q_ge_ext ret upper then (Some j, ret, mu, ml)
          else if q_le_ext ret lower then (Some j, ret, mu, ml)
          else tbm_scan_f ts close t0 base side min_close upper lower js ret mu ml
    end.

  (** tbm.py L77-156. *)
  Definition tbm_event_f (ts : list Z) (close : list Q) (e : nat) (tgt : Q) (bottom top : ext)
      (vert : option Z) (min_close : Z) (is_meta : bool) (side : Q) (min_ret : Q) : tbm_out :=
    let upper := emulq_f tgt top in
    let lower := emulq_f (- tgt) bottom in
    let t1_idx := tbm_t1_idx cv ts e vert in
    if (t1_idx <=? Z.of_nat e)%Z then mkTbm 0 None None None
    else
      let t1 := Z.to_nat t1_idx in
      let '(touch, ret, mu, ml) :=
        tbm_scan_f ts close (nth e ts 0%Z) (lnf (nth e close 0)) side min_close upper lower
          (seq (S e) (t1 - e)) 0 0 0 in
      let touch_idx := match touch with Some j => j | None => t1 end in
      mkTbm (tbm_label is_meta min_ret ret) (Some touch_idx) (Some ret)
            (tbm_weight_f (touch_idx =? t1)%nat ret mu ml upper lower).

  (** tbm.py L12-158 [triple_barrier]. *)
  Definition triple_barrier_f (ts : list Z) (close : list Q) (events : list nat) (targets : list Q)
      (bottom top : ext) (vert : option Z) (min_close : Z) (sides : option (list Z)) (min_ret : Q)
      : result (list tbm_out) :=
    if match vert with Some v => (v <=? 0)%Z | None => false end then Raise ValueError
    else if Qltb min_ret 0 then Raise ValueError
    else if negb (length ts =? length close)%nat then Raise ValueError
    else if negb (length events =? length targets)%nat then Raise ValueError
    else if (length events =? 0)%nat then Raise ValueError
    else if match sides with Some l => negb (length events =? length l)%nat | None => false end
    then Raise ValueError
    else Ok (map (fun k =>
               tbm_event_f ts close (nth k events 0%nat) (nth k targets 0) bottom top vert min_close
                 (match sides with Some _ => true | None => false end)
                 (match sides with Some l => inject_Z (nth k l 0%Z) | None => 1 end) min_ret)
             (seq 0 (length events))).
End TbmFloat.
