(** M_sampling.v -- model of finmlkit/sampling/filters.py. *)
From Verif Require Import Base M_logic.
Open Scope Q_scope.

Section CusumFilter.
  (** The natural logarithm is an arbitrary function (numpy's [np.log]). *)
  Variable ln : Q -> Q.

  (** filters.py L54-68: loop body.  A NaN threshold ([None]) makes both
      comparisons false.  [-thrs] is exact.  Log returns (L43-46) are recomputed from
      the prices: [log_returns[i] = np.log(x[i] / x[i-1])] ([log_ret]). *)
  Definition cusum_filter_step (xs : list Q) (thr : list (option Q)) (s : cusum_state) (i : nat)
    : cusum_state :=
    let ret := log_ret ln xs i in
    let s_pos := pmax 0 (cs_pos s + ret) in
    let s_neg := pmin 0 (cs_neg s + ret) in
    match nth i thr None with
    | None => mkCS (cs_idx s) s_pos s_neg
    | Some t =>
        if Qltb s_neg (- t) then mkCS (cs_idx s ++ [i]) s_pos 0
        else if Qltb t s_pos then mkCS (cs_idx s ++ [i]) 0 s_neg
        else mkCS (cs_idx s) s_pos s_neg
    end.

  (** filters.py L36-40: a one-element threshold is repeated. *)
  Definition expand_threshold (n : nat) (thr : list (option Q)) : list (option Q) :=
    match thr with [t] => repeat t n | _ => thr end.

  (** filters.py L7-70 [cusum_filter], including the argument checks L29-32. *)
  Definition cusum_filter (xs : list Q) (thr : list (option Q)) : result (list nat) :=
    if (length xs <=? 1)%nat then Raise ValueError
    else if (negb (length thr =? 1)%nat && negb (length thr =? length xs)%nat)%bool then Raise ValueError
    else
      let thr := expand_threshold (length xs) thr in
      Ok (cs_idx (fold_left (cusum_filter_step xs thr) (seq 1 (length xs - 1)) (mkCS [] 0 0))).
End CusumFilter.

(** filters.py L74-94 [z_score_peak_filter] always raises. *)
Definition z_score_peak_filter (y : list Q) (window : Z) (threshold : Q) : result (list nat) :=
  Raise NotImplementedError.
