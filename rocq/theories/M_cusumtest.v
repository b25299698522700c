(** M_cusumtest.v -- model of finmlkit/feature/core/structural_break/cusum.py. *)
From Verif Require Import Base M_features.
Open Scope Q_scope.

Section WithMath.
  (** np.sqrt, np.log. *)
  Variables sqrt ln : Q -> Q.

  (** cusum.py L29-32: the four running values of [_comp_max_s_nt]. *)
  Record cs_st := mkCS { c_up : Q; c_dn : Q; c_cu : Q; c_cd : Q }.
  (** cusum.py L29-32: their initial values. *)
  Definition cs_init : cs_st := mkCS (-(1 # 1000000)) (-(1 # 1000000)) 0 0.

  (** cusum.py L34, L55, L59: critical value for the pair (n, t), b_alpha = 4.6. *)
  Definition cs_crit (t n : nat) : Q := sqrt ((46 # 10) + ln (Qnat (t - n))).

  (** cusum.py L41-59: loop body for the start point n. *)
  Definition cs_step (y : list Q) (t : nat) (sigma : Q) (s : cs_st) (n : nat) : cs_st :=
    let dyn := qn y t - qn y n in
    let den := sigma * sqrt (Qnat (t - n)) in
    if Qleb den (1 # 10000000000000000) then s
    else
      let u := pmax 0 dyn / den in
      let d := - pmin 0 dyn / den in
      let '(up, cu) := if Qltb (c_up s) u then (u, cs_crit t n) else (c_up s, c_cu s) in
      let '(dn, cd) := if Qltb (c_dn s) d then (d, cs_crit t n) else (c_dn s, c_cd s) in
      mkCS up dn cu cd.

  (** cusum.py L11-66 [_comp_max_s_nt]; n runs over range(1, t - 1) (L41). *)
  Definition comp_max_s_nt (y : list Q) (t : nat) (sigma : Q) : cs_st :=
    if ((t <? 1)%nat || Qleb sigma 0)%bool then cs_init
    else fold_left (cs_step y t sigma) (seq 1 (t - 2)) cs_init.

  (** cusum.py L112, L159: [np.cumsum(np.diff(y) ** 2)[t - 1]], t >= 1. *)
  Definition cum_sq_diff (y : list Q) (t : nat) : Q :=
    qsum (map (fun k => (qn y k - qn y (k - 1)) * (qn y k - qn y (k - 1))) (seq 1 t)).
  (** cusum.py L115, L162: [sigma_sq_t], t >= 2. *)
  Definition cs_sigma (y : list Q) (t : nat) : Q := sqrt (cum_sq_diff y t / Qnat (t - 1)).

  (** cusum.py L69-137 [cusum_test_developing].  The statistic at t = 1 divides by zero
      (L115), reached iff warmup_period <= 1 and there are two prices; at t = 0 the early
      return L37 makes sigma irrelevant.  Positive prices. *)
  Definition cusum_developing (prices : list Q) (warmup : nat) : result (list (option cs_st)) :=
    let y := map ln prices in
    if ((warmup <=? 1) && (2 <=? length y))%nat%bool then Raise ZeroDivisionError
    else Ok (map (fun t => if (t <? warmup)%nat then None
                           else Some (comp_max_s_nt y t (cs_sigma y t))) (seq 0 (length y))).

  (** cusum.py L140-179 [cusum_test_last], at least 3 prices. *)
  Definition cusum_last (prices : list Q) : cs_st :=
    let y := map ln prices in
    let t := (length y - 1)%nat in
    comp_max_s_nt y t (cs_sigma y t).

  (** cusum.py L234-235: the prices [start_idx : current_idx + 1]. *)
  Definition price_window (prices : list Q) (w i : nat) : list Q := firstn (w + 1) (skipn (i - w) prices).

  (** cusum.py L182-274 [cusum_test_rolling]; warmup_period >= 2 (below that the statistic
      at t = 1 divides by zero). *)
  Definition cusum_rolling (prices : list Q) (window warmup : nat) : result (list (option cs_st)) :=
    if existsb (fun p => Qleb p 0) prices then Raise ValueError
    else
      let n := length prices in
      let w := if (window <? warmup + 2)%nat then (warmup + 2)%nat else window in
      if (n <? warmup + 2)%nat then Ok (repeat None n)
      else if (w <? n)%nat then
        match cusum_developing (price_window prices w w) warmup with
        | Raise e => Raise e
        | Ok first =>
            Ok (map (fun i => if (i <=? w)%nat then nth i first None
                              else Some (cusum_last (price_window prices w i))) (seq 0 n))
        end
      else cusum_developing prices warmup.
End WithMath.
