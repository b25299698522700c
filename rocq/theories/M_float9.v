(** M_float9.v -- the CUSUM test on levels (feature/core/structural_break/cusum.py) with the rounding of float64, where
    M_cusumtest.v takes the arithmetic exact.
    Simplifications as in M_float.v: unbounded exponents; numbers of observations are float64 numbers.  np.log is a parameter;
    np.sqrt is a parameter of the functions, to be instantiated with [sqrt53]. *)
From Coq Require Import Qround.
From Verif Require Import Base M_features M_float M_float2 M_cusumtest.
Open Scope Q_scope.

(** np.sqrt of a float64 number (cusum.py L45, L55, L59, L115, L162), the correctly rounded square root of IEEE 754: the square root
    of x to 53 binary digits, nearest.  Only arguments x >= 0 matter. *)
Definition sqrt53 (x : Q) : Q :=
  if Qleb x 0 then 0
  else
    let e := (ilog x / 2 - 52)%Z in
    let v := x * two (- (2 * e)) in
    let m := Z.sqrt (Qfloor v) in
    inject_Z (if Qltb (inject_Z (m * m + m) + (1 # 4)) v then m + 1 else m) * two e.

Section WithMath.
  (** np.sqrt, np.log. *)
  Variables sqrt ln : Q -> Q.

  (** cusum.py L29-32: initial values; -1e-6 as a float64 number. *)
  Definition cs_init_f : cs_st := mkCS (r53 (-(1 # 1000000))) (r53 (-(1 # 1000000))) 0 0.
  (** cusum.py L34, L55, L59: critical value for the pair (n, t), b_alpha = 4.6 as a float64 number. *)
  Definition cs_crit_f (t n : nat) : Q := sqrt (r53 (r53 (46 # 10) + ln (Qnat (t - n)))).
  (** cusum.py L45: denominator. *)
  Definition cs_den_f (t : nat) (sigma : Q) (n : nat) : Q := r53 (sigma * sqrt (Qnat (t - n))).
  (** cusum.py L50: statistic of a rise. *)
  Definition cs_up_f (y : list Q) (t : nat) (sigma : Q) (n : nat) : Q :=
    r53 (pmax 0 (r53 (qn y t - qn y n)) / cs_den_f t sigma n).
  (** cusum.py L51: statistic of a fall. *)
  Definition cs_dn_f (y : list Q) (t : nat) (sigma : Q) (n : nat) : Q :=
    r53 (- pmin 0 (r53 (qn y t - qn y n)) / cs_den_f t sigma n).
  (** cusum.py L41-59: loop body for the start point n. *)
  Definition cs_step_f (y : list Q) (t : nat) (sigma : Q) (s : cs_st) (n : nat) : cs_st :=
    if Qleb (cs_den_f t sigma n) (r53 (1 # 10000000000000000)) then s
    else
      let u := cs_up_f y t sigma n in
      let d := cs_dn_f y t sigma n in
      let '(up, cu) := if Qltb (c_up s) u then (u, cs_crit_f t n) else (c_up s, c_cu s) in
      let '(dn, cd) := if Qltb (c_dn s) d then (d, cs_crit_f t n) else (c_dn s, c_cd s) in
      mkCS up dn cu cd.
  (** cusum.py L11-66 [_comp_max_s_nt]; n runs over range(1, t - 1) (L41). *)
  Definition comp_max_s_nt_f (y : list Q) (t : nat) (sigma : Q) : cs_st :=
    if ((t <? 1)%nat || Qleb sigma 0)%bool then cs_init_f
    else fold_left (cs_step_f y t sigma) (seq 1 (t - 2)) cs_init_f.
  (** cusum.py L112, L159: [np.cumsum(np.diff(y) ** 2)[t - 1]], t >= 1; np.cumsum adds from left to right. *)
  Definition cum_sq_diff_f (y : list Q) (t : nat) : Q :=
    fsum (map (fun k => r53 (r53 (qn y k - qn y (k - 1)) * r53 (qn y k - qn y (k - 1)))) (seq 1 t)).
  (** cusum.py L115, L162: [sigma_sq_t], t >= 2. *)
  Definition cs_sigma_f (y : list Q) (t : nat) : Q := sqrt (r53 (cum_sq_diff_f y t / Qnat (t - 1))).

  (** cusum.py L69-137 [cusum_test_developing]; ZeroDivisionError as in M_cusumtest.v.  Positive prices. *)
  Definition cusum_developing_f (prices : list Q) (warmup : nat) : result (list (option cs_st)) :=
    let y := map ln prices in
    if ((warmup <=? 1) && (2 <=? length y))%nat%bool then Raise ZeroDivisionError
    else Ok (map (fun t => if (t <? warmup)%nat then None
                           else Some (comp_max_s_nt_f y t (cs_sigma_f y t))) (seq 0 (length y))).
  (** cusum.py L140-179 [cusum_test_last], at least 3 prices. *)
  Definition cusum_last_f (prices : list Q) : cs_st :=
    let y := map ln prices in
    let t := (length y - 1)%nat in
    comp_max_s_nt_f y t (cs_sigma_f y t).
  (** cusum.py L182-274 [cusum_test_rolling]; warmup_period >= 2. *)
  Definition cusum_rolling_f (prices : list Q) (window warmup : nat) : result (list (option cs_st)) :=
    if existsb (fun p => Qleb p 0) prices then Raise ValueError
    else
      let n := length prices in
      let w := if (window <? warmup + 2)%nat then (warmup + 2)%nat else window in
      if (n <? warmup + 2)%nat then Ok (repeat None n)
      else if (w <? n)%nat then
        match cusum_developing_f (price_window prices w w) warmup with
        | Raise e => Raise e
        | Ok first =>
            Ok (map (fun i => if (i <=? w)%nat then nth i first None
                              else Some (cusum_last_f (price_window prices w i))) (seq 0 n))
        end
      else cusum_developing_f prices warmup.
End WithMath.
