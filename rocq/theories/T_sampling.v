(** T_sampling.v -- property theorems C33, C34 and the filter part of C08. *)
From Verif Require Import Base M_logic M_sampling S_logic P_sampling.
Open Scope Q_scope.

(** * C33  The CUSUM filter flags exactly the threshold crossings since the last reset.
    Here the downward side is looked at first. Thresholds are non-negative (or NaN);
    entry i of the threshold is the single entry if there is only one. *)
Theorem C33_cusum_filter : forall (ln : Q -> Q) (xs : list Q) (thr : list (option Q)) (evs : list nat),
  (forall t, In (Some t) thr -> 0 <= t) ->
  cusum_filter ln xs thr = Ok evs ->
  cusum_events (fun i => ln (nth i xs 0 / nth (i - 1) xs 0)) 0 (length xs)
    (fun _ => True)
    (fun i x => exists t, nth (if (length thr =? 1)%nat then 0%nat else i) thr None = Some t /\ x < - t)
    (fun i x => exists t, nth (if (length thr =? 1)%nat then 0%nat else i) thr None = Some t /\ t < x)
    evs.
Proof. exact cusum_filter_full. Qed.
Example C33_example :
  (forall t, In (Some t) [Some (1 # 10)] -> 0 <= t) /\
  cusum_filter (fun x => x - 1) [100; 104; 112; 100; 88; 100; 140] [Some (1 # 10)] = Ok [2; 3; 4; 5; 6]%nat.
Proof. split; [|vm_compute; reflexivity]. intros t [H|[]]. inversion H. lra. Qed.

(** * C34  Constant thresholds and argument errors *)
Theorem C34_constant_threshold : forall (ln : Q -> Q) (xs : list Q) (t : option Q),
  cusum_filter ln xs [t] = cusum_filter ln xs (repeat t (length xs)).
Proof. exact cusum_filter_expand. Qed.
Theorem C34_errors : forall (ln : Q -> Q) (xs : list Q) (thr : list (option Q)),
  (cusum_filter ln xs thr = Raise ValueError <->
     (length xs < 2)%nat \/ (length thr <> 1%nat /\ length thr <> length xs)) /\
  ((exists e, cusum_filter ln xs thr = Raise e) -> cusum_filter ln xs thr = Raise ValueError).
Proof. exact cusum_filter_raises. Qed.
Example C34_example : cusum_filter (fun x => x) [1; 2; 3] [Some 1; Some 1] = Raise ValueError /\
  cusum_filter (fun x => x) [1; 2; 3] [Some 1] = Ok [1; 2]%nat.
Proof. split; reflexivity. Qed.

(** * C08  Causality of the filter *)
Theorem C08_cusum_filter_prefix : forall (ln : Q -> Q) (xs : list Q) (thr : list (option Q)) (m : nat) (evs : list nat),
  length thr = length xs -> (2 <= m <= length xs)%nat ->
  cusum_filter ln xs thr = Ok evs ->
  cusum_filter ln (firstn m xs) (firstn m thr) = Ok (filter (fun i => i <? m)%nat evs).
Proof. exact cusum_filter_prefix. Qed.
Example C08_filter_example :
  cusum_filter (fun x => x - 1) [100; 120; 90] [Some 0; Some 0; Some 0] = Ok [1; 2]%nat /\
  cusum_filter (fun x => x - 1) (firstn 2 [100; 120; 90]) (firstn 2 [Some 0; Some 0; Some 0]) = Ok [1]%nat.
Proof. split; reflexivity. Qed.

Print Assumptions C33_cusum_filter.
Print Assumptions C34_constant_threshold.
Print Assumptions C34_errors.
Print Assumptions C08_cusum_filter_prefix.
