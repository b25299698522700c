(** M_float8.v -- time-decayed volatility and the price/volume correlation with the rounding of float64, where M_volat.v and
    M_features.v take the arithmetic exact.
    Simplifications as in M_float.v: unbounded exponents; numbers without a rounding written are float64 numbers already;
    window lengths are small enough to be float64 numbers.  np.sqrt and np.exp are parameters that return float64 numbers. *)
From Verif Require Import Base M_logic M_bars M_features M_volat M_float M_float2.
Open Scope Q_scope.

Section WithMath.
  (** np.sqrt, np.exp. *)
  Variables sqrt exp : Q -> Q.

  (** volatility.py L110, L114, L178, L182: the argument of exp at step i.  The difference of the int64 timestamps is converted to
      float64, divided by 1e9 and by the half-life. *)
  Definition ts_arg_f (ts : list Z) (hl : Q) (i : nat) : Q :=
    r53 (- r53 (r53 (inject_Z (nth i ts 0%Z - nth (i - 1) ts 0%Z)) / 1000000000) / hl).
  (** volatility.py L114, L182: alpha of step i. *)
  Definition ts_alpha_f (ts : list Z) (hl : Q) (i : nat) : Q := r53 (1 - exp (ts_arg_f ts hl i)).
  (** volatility.py L120-124 (1.0 - alpha), L183 (one_minus). *)
  Definition ts_om_f (ts : list Z) (hl : Q) (i : nat) : Q := r53 (1 - ts_alpha_f ts hl i).

  (** volatility.py L101-124: (U, V) after step [i]; the loop starts at 1. *)
  Fixpoint m0_state_f (ts : list Z) (y : list (option Q)) (hl : Q) (i : nat) : Q * Q :=
    match i with
    | O => (0, 0)
    | S j =>
        let '(u, v) := m0_state_f ts y hl j in
        let a := ts_alpha_f ts hl i in
        let om := ts_om_f ts hl i in
        match known y i with
        | None => (r53 (om * u), r53 (om * v))
        | Some x => (r53 (r53 (a * r53 (x * x)) + r53 (om * u)), r53 (a + r53 (om * v)))
        end
    end.
  (** volatility.py L127-132: variance and floor; NaN passes every comparison. *)
  Definition m0_out_f (floor : Q) (s : Q * Q) : option Q :=
    if Qltb 0 (snd s) then
      let var := r53 (fst s / snd s) in
      let var := if Qltb var 0 then 0 else var in
      let sigma := sqrt var in
      Some (if Qltb sigma floor then floor else sigma)
    else None.
  (** volatility.py L73-136 [ewmst_mean0]; half_life 0 divides by zero (L114). *)
  Definition ewmst_mean0_f (ts : list Z) (y : list (option Q)) (hl floor : Q) : result (list (option Q)) :=
    if ((2 <=? length y)%nat && Qeqb hl 0)%bool then Raise ZeroDivisionError
    else Ok (map (fun i => match i with O => None | S _ => m0_out_f floor (m0_state_f ts y hl i) end)
                 (seq 0 (length y))).

  (** volatility.py L176-198: sums of [ewmst] after step [i]. *)
  Fixpoint et_state_f (ts : list Z) (y : list (option Q)) (hl : Q) (i : nat) : et_st :=
    match i with
    | O => mkET 0 0 0 0
    | S j =>
        let s := et_state_f ts y hl j in
        let a := ts_alpha_f ts hl i in
        let om := ts_om_f ts hl i in
        let v := r53 (a + r53 (om * t_v s)) in
        let v2 := r53 (r53 (a * a) + r53 (r53 (om * om) * t_v2 s)) in
        match known y i with
        | None => mkET v v2 (r53 (om * t_y s)) (r53 (om * t_yy s))
        | Some x => mkET v v2 (r53 (r53 (a * x) + r53 (om * t_y s))) (r53 (r53 (r53 (a * x) * x) + r53 (om * t_yy s)))
        end
    end.
  (** volatility.py L202-204: weighted mean square minus the square of the weighted mean. *)
  Definition et_raw_f (s : et_st) : Q :=
    let mean := r53 (t_y s / t_v s) in r53 (r53 (t_yy s / t_v s) - r53 (mean * mean)).
  (** volatility.py L206: denominator of the bias correction. *)
  Definition et_den_f (s : et_st) : Q := r53 (t_v s - r53 (t_v2 s / t_v s)).
  (** volatility.py L201-217: output of one step. *)
  Definition et_out_f (floor : Q) (s : et_st) : option Q :=
    if Qltb 0 (t_v s) then
      let var := if (Qltb 0 (et_den_f s) && Qltb 0 (et_raw_f s))%bool then r53 (et_raw_f s * r53 (t_v s / et_den_f s)) else 0 in
      let sigma := sqrt var in
      Some (if Qltb sigma floor then floor else sigma)
    else None.
  (** volatility.py L140-219 [ewmst]. *)
  Definition ewmst_f (ts : list Z) (y : list (option Q)) (hl floor : Q) : result (list (option Q)) :=
    if ((2 <=? length y)%nat && Qeqb hl 0)%bool then Raise ZeroDivisionError
    else Ok (map (fun i => match i with O => None | S _ => et_out_f floor (et_state_f ts y hl i) end)
                 (seq 0 (length y))).

  (** correlation.py L26-32: returns, NaN at 0 and where a price is missing or 0. *)
  Definition pv_return_f (price : list (option Q)) (i : nat) : option Q :=
    match i with
    | O => None
    | S _ => match nth i price None, nth (i - 1) price None with
             | Some a, Some b => if Qeqb b 0 then None else Some (r53 (r53 (a - b) / b))
             | _, _ => None
             end
    end.
  (** correlation.py L72-75: valid (return, volume) pairs of the window. *)
  Definition valid_pairs_f (price volume : list (option Q)) (i window : nat) : list (Q * Q) :=
    flat_map (fun j => match pv_return_f price j, nth j volume None with
                       | Some r, Some v => [(r, v)] | _, _ => [] end)
             (seq (i + 1 - window) window).
  (** correlation.py L83-84 (means), L91-96 (the deviations and their products): the three sums. *)
  Definition dev_f (l : list Q) (x : Q) : Q := r53 (x - r53 (fsum l / Qnat (length l))).
  (** correlation.py L86-96: cov, std_returns, std_volume. *)
  Definition corr_sums_f (ps : list (Q * Q)) : Q * Q * Q :=
    let dr p := dev_f (map fst ps) (fst p) in
    let dv p := dev_f (map snd ps) (snd p) in
    (fsum (map (fun p => r53 (dr p * dv p)) ps), fsum (map (fun p => r53 (dr p * dr p)) ps), fsum (map (fun p => r53 (dv p * dv p)) ps)).
  (** correlation.py L78-109: correlation of the valid pairs, clipped to [-1, 1]; NaN
      for fewer than two pairs or a zero spread. *)
  Definition corr_pairs_f (ps : list (Q * Q)) : option Q :=
    if (length ps <? 2)%nat then None
    else
      let '(cov, sr, sv) := corr_sums_f ps in
      if Qltb 0 sr && Qltb 0 sv then
        let corr := r53 (cov / r53 (sqrt sr * sqrt sv)) in
        Some (if Qltb 1 corr then 1 else if Qltb corr (-(1)) then -(1) else corr)
      else None.
  (** correlation.py L9-111 [rolling_price_volume_correlation]; window >= 1. *)
  Definition pv_correlation_f (price volume : list (option Q)) (window : nat) : list (option Q) :=
    map (fun i =>
      if (i <? window)%nat then None
      else match pv_return_f price i, nth i volume None with
           | Some _, Some _ =>
               let pr j := nth j price None in
               let vo j := nth j volume None in
               let inc_p := mono_flag (fun j => oleb (pr (S j)) (pr j)) i window in
               let dec_v := mono_flag (fun j => oleb (vo j) (vo (S j))) i window in
               let inc_v := mono_flag (fun j => oleb (vo (S j)) (vo j)) i window in
               if ((4 <=? i) && (i <? 10))%nat && inc_p && inc_v then Some 1
               else if ((4 <=? i) && (i <? 10))%nat && inc_p && dec_v then Some (-(1))
               else corr_pairs_f (valid_pairs_f price volume i window)
           | _, _ => None
           end) (seq 0 (length price)).
End WithMath.
