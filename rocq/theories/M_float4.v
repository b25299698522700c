(** M_float4.v -- the CUSUM filter and CUSUM bars with the rounding of float64, where M_sampling.v and M_logic.v take
    the arithmetic exact.  Simplifications as in M_float.v: unbounded exponents, no infinities. *)
From Verif Require Import Base M_logic M_sampling M_float.
Open Scope Q_scope.

Section CusumFloat.
  (** numpy's [np.log] on float64: an arbitrary function, how far it is off is a hypothesis of the theorems. *)
  Variable lnf : Q -> Q.

  (** filters.py L46, logic.py L200: the quotient is rounded. *)
  Definition log_ret_f (prices : list Q) (i : nat) : Q := lnf (r53 (nth i prices 0 / nth (i - 1) prices 0)).

  (** filters.py L54-68: both sums are rounded; comparisons and [-thrs] are exact. *)
  Definition cusum_filter_step_f (xs : list Q) (thr : list (option Q)) (s : cusum_state) (i : nat) : cusum_state :=
    let ret := log_ret_f xs i in
    let s_pos := pmax 0 (r53 (cs_pos s + ret)) in
    let s_neg := pmin 0 (r53 (cs_neg s + ret)) in
    match nth i thr None with
    | None => mkCS (cs_idx s) s_pos s_neg
    | Some t =>
        if Qltb s_neg (- t) then mkCS (cs_idx s ++ [i]) s_pos 0
        else if Qltb t s_pos then mkCS (cs_idx s ++ [i]) 0 s_neg
        else mkCS (cs_idx s) s_pos s_neg
    end.
  (** filters.py L7-70 [cusum_filter]. *)
  Definition cusum_filter_f (xs : list Q) (thr : list (option Q)) : result (list nat) :=
    if (length xs <=? 1)%nat then Raise ValueError
    else if (negb (length thr =? 1)%nat && negb (length thr =? length xs)%nat)%bool then Raise ValueError
    else
      let thr := expand_threshold (length xs) thr in
      Ok (cs_idx (fold_left (cusum_filter_step_f xs thr) (seq 1 (length xs - 1)) (mkCS [] 0 0))).

  (** logic.py L211: the product is rounded. *)
  Definition cusum_lam_f (sigma : list (option Q)) (floor mult : Q) (i : nat) : option Q :=
    match nth i sigma None with
    | Some s => Some (pmax (r53 (mult * s)) floor)
    | None => None
    end.
  (** logic.py L199-219. *)
  Definition cusum_bar_step_f (ts : list Z) (prices : list Q) (sigma : list (option Q))
      (floor mult : Q) (s : cusum_state) (i : nat) : cusum_state :=
    let ret := log_ret_f prices i in
    let s_pos := pmax 0 (r53 (cs_pos s + ret)) in
    let s_neg := pmin 0 (r53 (cs_neg s + ret)) in
    if ((i + 1 <? length prices)%nat && (nth i ts 0 =? nth (i + 1) ts 0)%Z)%bool then
      mkCS (cs_idx s) s_pos s_neg
    else
      match cusum_lam_f sigma floor mult i with
      | None => mkCS (cs_idx s) s_pos s_neg
      | Some lam =>
          if Qleb lam s_pos then mkCS (cs_idx s ++ [i]) 0 s_neg
          else if Qleb s_neg (- lam) then mkCS (cs_idx s ++ [i]) s_pos 0
          else mkCS (cs_idx s) s_pos s_neg
      end.
  (** logic.py L153-221 [_cusum_bar_indexer]. *)
  Definition cusum_bar_indexer_f (ts : list Z) (prices : list Q) (sigma : list (option Q)) (floor mult : Q) : list nat :=
    let f := first_non_nan sigma in
    let sigma := fill_sigma sigma in
    cs_idx (fold_left (cusum_bar_step_f ts prices sigma floor mult)
              (seq (f + 1) (length prices - (f + 1))) (mkCS [f] 0 0)).
End CusumFloat.
