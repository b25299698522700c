(** M_float6.v -- sample weights with the rounding of float64, where M_weights.v takes the arithmetic exact.
    Simplifications as in M_float.v: unbounded exponents; numbers without a rounding written are float64 numbers already.
    [sumf] stands for np.sum, np.mean and the sums of pandas, whose order of additions is not fixed: the theorems hold
    for every order (S_sumf.v). *)
From Verif Require Import Base M_weights M_float.
Open Scope Q_scope.

Section WeightsFloat.
  Variable sumf : list Q -> Q.

  (** weights.py L47: rounded reciprocals, their sum, and its quotient by the number of terms. *)
  Definition mean_inverse_f (l : list Z) : ext :=
    if (length l =? 0)%nat then NaN
    else if existsb (fun c => (c =? 0)%Z) l then PInf
    else Fin (r53 (sumf (map (fun c => r53 (1 / inject_Z c)) l) / Qnat (length l))).

  (** weights.py L8-49 [average_uniqueness]. *)
  Definition average_uniqueness_f (n : nat) (events touches : list nat) : result (list ext * list Z) :=
    if negb (length events =? length touches)%nat then Raise ValueError
    else
      let c := concurrency_of n events touches in
      Ok (map (fun i =>
                 let s := nth i events 0%nat in let e := nth i touches 0%nat in
                 mean_inverse_f (firstn (e + 1 - s) (skipn s c)))
              (seq 0 (length events)), c).

  Section Attribution.
    (** [np.log] on float64 ([None] = NaN). *)
    Variable lnf : Q -> option Q.

    (** weights.py L77-82: the quotient is rounded. *)
    Definition log_ret_r (close : list Q) (j : nat) : option Q :=
      match j with
      | O => None
      | S k => if Qeqb (nth k close 0) 0 then None else lnf (r53 (nth j close 0 / nth k close 0))
      end.

    (** weights.py L89-92 *)
    Definition attr_step_f (close : list Q) (conc : list Z) (w : Q) (j : nat) : Q :=
      match log_ret_r close j with
      | Some r => if (0 <? nth j conc 0)%Z then r53 (w + r53 (r / inject_Z (nth j conc 0%Z))) else w
      | None => w
      end.

    (** weights.py L85-94 *)
    Definition attr_raw_f (close : list Q) (conc : list Z) (s e : nat) : Q :=
      Qabs (fold_left (attr_step_f close conc) (seq s (e + 1 - s)) 0).

    (** weights.py L53-103 [return_attribution]; L101 rounds the quotient and each product. *)
    Definition return_attribution_f (events touches : list nat) (close : list Q) (conc : list Z)
        (normalize : bool) : result (list Q) :=
      let n := length events in
      let ws := map (fun i => attr_raw_f close conc (nth i events 0%nat) (nth i touches 0%nat)) (seq 0 n) in
      if normalize then
        let s := sumf ws in
        if Qleb s 0 then Raise ValueError
        else Ok (map (fun w => r53 (w * r53 (Qnat n / s))) ws)
      else Ok ws.
  End Attribution.

  (** weights.py L126 [np.cumsum]: one rounded addition after the other. *)
  Fixpoint cumsum_from_f (a : Q) (l : list Q) : list Q :=
    match l with [] => [] | x :: l => r53 (a + x) :: cumsum_from_f (r53 (a + x)) l end.
  (** weights.py L126 [np.cumsum]. *)
  Definition cumsum_f (l : list Q) : list Q := cumsum_from_f 0 l.

  (** weights.py L131-133: slope. *)
  Definition decay_slope_f (lw tot : Q) : Q :=
    if Qleb 0 lw then r53 (r53 (1 - lw) / tot) else r53 (1 / r53 (r53 (lw + 1) * tot)).
  (** weights.py L107-142 [time_decay]. *)
  Definition time_decay_f (u : list Q) (lw : Q) : result (list Q) :=
    if negb (Qleb (-1) lw && Qleb lw 1)%bool then Raise ValueError
    else
      let cum := cumsum_f u in
      match rev cum with
      | [] => Raise IndexError
      | tot :: _ =>
          if Qeqb tot 0 then Raise ValueError
          else if (negb (Qleb 0 lw) && Qeqb (r53 (r53 (lw + 1) * tot)) 0)%bool then Raise ZeroDivisionError
          else
            let slope := decay_slope_f lw tot in
            let const := r53 (1 - r53 (slope * tot)) in
            let ws := map (fun c => r53 (const + r53 (slope * c))) cum in
            Ok (if Qltb lw 0 then map (fun w => pmax w 0) ws else ws)
      end.

  (** weights.py L175: rounded addition. *)
  Definition add_at_f (l : list Q) (i : nat) (x : Q) : list Q :=
    map (fun j => if (j =? i)%nat then r53 (nth j l 0 + x) else nth j l 0) (seq 0 (length l)).

  (** weights.py L147-188 [class_balance_weights]. *)
  Definition class_balance_weights_f (labels : list Z) (base : list Q) : balance :=
    let uniq := zunique labels in
    let k := length uniq in
    let sums := fold_left (fun acc i => add_at_f acc (ss_left uniq (nth i labels 0%Z)) (nth i base 0))
                          (seq 0 (length labels)) (repeat 0 k) in
    let total := sumf sums in
    let cw := map (fun c => if Qltb 0 (nth c sums 0) then r53 (total / r53 (Qnat k * nth c sums 0)) else 0) (seq 0 k) in
    mkBalance uniq cw sums
      (map (fun i => r53 (nth i base 0 * nth (ss_left uniq (nth i labels 0%Z)) cw 0)) (seq 0 (length labels))).

  (** kit.py L380-478 [SampleWeights.compute_final_weights], all vertical weights known. *)
  Definition compute_final_weights_f (u : list Q) (intercept : Q) (attr : option (list Q))
      (vert : option (list Q)) (labels : option (list Z)) : result (list Q) :=
    if negb (Qleb (-1) intercept && Qleb intercept 1)%bool then Raise ValueError
    else if match attr with Some a => negb (length a =? length u)%nat | None => false end then Raise ValueError
    else if match vert with Some a => negb (length a =? length u)%nat | None => false end then Raise ValueError
    else if match labels with Some a => negb (length a =? length u)%nat | None => false end then Raise ValueError
    else
      let n := length u in
      match time_decay_f u intercept with
      | Raise e => Raise e
      | Ok td =>
          if match attr with Some a => Qleb (sumf a) 0 | None => false end then Raise ValueError
          else
            let info := match attr with
                        | Some a => map (fun x => r53 (r53 (x * Qnat n) / sumf a)) a
                        | None => u end in
            let combined := map (fun i => r53 (nth i td 0 * nth i info 0)) (seq 0 n) in
            let combined := match vert with
                            | Some v => map (fun i => r53 (nth i combined 0 * nth i v 0)) (seq 0 n)
                            | None => combined end in
            let mean := r53 (sumf combined / Qnat n) in
            if Qleb mean 0 then Raise ValueError
            else
              let base := map (fun x => r53 (x / mean)) combined in
              Ok (match labels with Some l => bal_final (class_balance_weights_f l base) | None => base end)
      end.
End WeightsFloat.
