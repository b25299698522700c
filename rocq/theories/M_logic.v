(** M_logic.v -- model of finmlkit/bar/logic.py (bar close indexers). *)
From Verif Require Import Base.
Open Scope Z_scope.

(* ------------------------------------------------------------------ *)
(** ** float64 arithmetic on non-negative integer-valued numbers

    [_time_bar_indexer] computes with float64 because
    [bar_interval_ns = interval_seconds * 1e9] is a float (logic.py L30). *)

(** Round-to-nearest-even quotient n/d. Used by the roundings of logic.py L33-39
    (IEEE 754 binary64 default rounding; numba runtime, not repo code). *)
Definition rne_div (n d : Z) : Z :=
  let q := n / d in
  let r := n mod d in
  if 2 * r <? d then q
  else if d <? 2 * r then q + 1
  else if Z.even q then q else q + 1.

(** int64 -> float64 conversion, and the rounding after [+], [-], [*] of
    integer-valued floats: round a non-negative integer to 53 bits.
    (implicit conversions in logic.py L33, L36, L39; exponent range of float64 is
    never reached by int64 values.) *)
Definition f64 (z : Z) : Z :=
  let e := Z.log2 z - 52 in
  if e <=? 0 then z else rne_div z (2 ^ e) * 2 ^ e.

(** [np.ceil(a / b)] for integer-valued floats a >= 0, b > 0: the quotient is
    rounded to 53 bits before taking the ceiling.  (logic.py L36 and the item
    count inside numba's [np.arange], called at logic.py L39.) *)
Definition ceil_fdiv (a b : Z) : Z :=
  if a <=? 0 then 0 else
  let k := Z.log2 a - Z.log2 b in
  (* 2^E <= a/b < 2^(E+1) *)
  let E := if (if 0 <=? k then b * 2 ^ k <=? a else b <=? a * 2 ^ (- k)) then k else k - 1 in
  let e := E - 52 in
  if 0 <=? e then rne_div a (b * 2 ^ e) * 2 ^ e
  else let m := rne_div (a * 2 ^ (- e)) b in (m + 2 ^ (- e) - 1) / 2 ^ (- e).

(** logic.py L33: [bar_start_ts = timestamps[0] // bar_interval_ns * bar_interval_ns].
    Float floor division is taken to be the exact floor of the quotient of the two
    floats (numba's correction step makes it so); the product is rounded. *)
Definition bar_start (ts0 I : Z) : Z := f64 (f64 ts0 / I * I).

(** logic.py L36: [last_ts = np.ceil(timestamps[-1] / bar_interval_ns) * bar_interval_ns] *)
Definition last_tick (tsN I : Z) : Z := f64 (ceil_fdiv (f64 tsN) I * I).

(** logic.py L39: [np.arange(bar_start_ts, last_ts + bar_interval_ns + 1,
    bar_interval_ns, dtype=np.int64)].  numba computes
    [nitems = ceil((stop - start) / step)] and item i as [start + i * step] in
    float64, then casts to int64. *)
Definition bar_clock (ts0 tsN I : Z) : list Z :=
  let start := bar_start ts0 I in
  let stop := f64 (f64 (last_tick tsN I + I) + 1) in
  let nitems := ceil_fdiv (f64 (stop - start)) I in
  map (fun i => f64 (start + f64 (Z.of_nat i * I))) (seq 0 (Z.to_nat nitems)).

(** logic.py L13-51 [_time_bar_indexer]: (bar_clock, bar_close_indices).
    [I] is bar_interval_ns, assumed integer-valued (a whole number of
    nanoseconds) and representable; timestamps are non-negative and ascending. *)
Definition time_bar_indexer (ts : list Z) (I : Z) : list Z * list Z :=
  let clock := bar_clock (hd 0 ts) (last ts 0) I in
  (clock, map (fun t => Z.of_nat (ss_right ts t) - 1) clock).

(* ------------------------------------------------------------------ *)
(** ** Tick, volume and dollar bars *)

(** logic.py L78-82: loop body of [_tick_bar_indexer]; state = (indices, cum_ticks). *)
Definition tick_step (threshold : Z) (s : list nat * Z) (i : nat) : list nat * Z :=
  let '(idx, cum) := s in
  let cum := cum + 1 in
  if threshold <=? cum then (idx ++ [i], 0) else (idx, cum).

(** logic.py L55-84 [_tick_bar_indexer]; only the number n of timestamps matters. *)
Definition tick_bar_indexer (n : nat) (threshold : Z) : list nat :=
  fst (fold_left (tick_step threshold) (seq 1 (n - 1)) ([0%nat], 1)).

(** logic.py L109-113: loop body of [_volume_bar_indexer]. Exact arithmetic. *)
Definition volume_step (volumes : list Q) (threshold : Q) (s : list nat * Q) (i : nat)
  : list nat * Q :=
  let '(idx, cum) := s in
  let cum := (cum + nth i volumes 0)%Q in
  if Qleb threshold cum then (idx ++ [i], 0%Q) else (idx, cum).

(** logic.py L88-115 [_volume_bar_indexer] (n >= 1; an empty array is an
    out-of-bounds read in the code). *)
Definition volume_bar_indexer (volumes : list Q) (threshold : Q) : list nat :=
  fst (fold_left (volume_step volumes threshold) (seq 1 (length volumes - 1))
         ([0%nat], nth 0 volumes 0%Q)).

(** logic.py L143-147: loop body of [_dollar_bar_indexer] (carry-over). *)
Definition dollar_step (prices volumes : list Q) (threshold : Q) (s : list nat * Q) (i : nat)
  : list nat * Q :=
  let '(idx, cum) := s in
  let cum := (cum + nth i prices 0 * nth i volumes 0)%Q in
  if Qleb threshold cum then (idx ++ [i], (cum - threshold)%Q) else (idx, cum).

(** logic.py L119-149 [_dollar_bar_indexer] (n >= 1). Exact arithmetic.
    Returns the indices and the final residual [cum_dollar] (the code returns the
    indices only; the residual is exposed to state C05). *)
Definition dollar_bar_run (prices volumes : list Q) (threshold : Q) : list nat * Q :=
  fold_left (dollar_step prices volumes threshold) (seq 1 (length prices - 1))
    ([0%nat], (nth 0 prices 0 * nth 0 volumes 0)%Q).
(** logic.py L149: the indices. *)
Definition dollar_bar_indexer (prices volumes : list Q) (threshold : Q) : list nat :=
  fst (dollar_bar_run prices volumes threshold).

(* ------------------------------------------------------------------ *)
(** ** CUSUM bars *)

(** logic.py L180-184: index of the first non-NaN sigma, 0 if there is none. *)
Fixpoint first_some {A} (l : list (option A)) : option nat :=
  match l with
  | [] => None
  | Some _ :: _ => Some 0%nat
  | None :: l => option_map S (first_some l)
  end.
(** logic.py L180-184: the position found, 0 if there is none. *)
Definition first_non_nan (sigma : list (option Q)) : nat :=
  match first_some sigma with Some k => k | None => 0%nat end.

(** logic.py L187-189: for i in range(first, n): sigma[i] = sigma[i-1] if NaN.
    [prev] is the value at i-1 (for i = first = 0 with sigma[0] NaN the code reads
    sigma[-1], the last element: [prev] starts there). *)
Fixpoint ffill {A} (prev : option A) (l : list (option A)) : list (option A) :=
  match l with
  | [] => []
  | Some x :: l => Some x :: ffill (Some x) l
  | None :: l => prev :: ffill prev l
  end.
(** logic.py L180-189: sigma after the in-place forward fill. *)
Definition fill_sigma (sigma : list (option Q)) : list (option Q) :=
  let f := first_non_nan sigma in
  firstn f sigma ++ ffill (match f with O => last sigma None | _ => None end) (skipn f sigma).

(** State of the CUSUM loop (logic.py L191-222): reported indices and the two running sums. *)
Record cusum_state := mkCS { cs_idx : list nat; cs_pos : Q; cs_neg : Q }.

Section CusumBar.
  (** The natural logarithm is an arbitrary function (numpy's [np.log]). *)
  Variable ln : Q -> Q.

  (** logic.py L200: [ret = np.log(prices[i]/prices[i - 1])] *)
  Definition log_ret (prices : list Q) (i : nat) : Q :=
    ln (nth i prices 0 / nth (i - 1) prices 0)%Q.

  (** logic.py L211: [lam = max(float(sigma_mult * sigma[i]), sigma_floor)];
      [None] if sigma[i] is NaN: [max(nan, floor)] is nan in Python/numba
      ([floor > nan] is false), and then neither comparison succeeds. *)
  Definition cusum_lam (sigma : list (option Q)) (floor mult : Q) (i : nat) : option Q :=
    match nth i sigma None with
    | Some s => Some (pmax (mult * s)%Q floor)
    | None => None
    end.

  (** logic.py L199-219: one iteration of the while loop. *)
  Definition cusum_bar_step (ts : list Z) (prices : list Q) (sigma : list (option Q))
      (floor mult : Q) (s : cusum_state) (i : nat) : cusum_state :=
    let ret := log_ret prices i in
    let s_pos := pmax 0 (cs_pos s + ret)%Q in
    let s_neg := pmin 0 (cs_neg s + ret)%Q in
    if ((i + 1 <? length prices)%nat && (nth i ts 0 =? nth (i + 1) ts 0))%bool then
      mkCS (cs_idx s) s_pos s_neg
    else
      match cusum_lam sigma floor mult i with
      | None => mkCS (cs_idx s) s_pos s_neg
      | Some lam =>
          if Qleb lam s_pos then mkCS (cs_idx s ++ [i]) 0 s_neg
          else if Qleb s_neg (- lam) then mkCS (cs_idx s ++ [i]) s_pos 0
          else mkCS (cs_idx s) s_pos s_neg
      end.

  (** logic.py L153-221 [_cusum_bar_indexer] after the length check (L174-175, see
      [cusum_len_check]); the caller's sigma array is overwritten by the fill. *)
  Definition cusum_bar_indexer (ts : list Z) (prices : list Q) (sigma : list (option Q))
      (floor mult : Q) : list nat :=
    let f := first_non_nan sigma in
    let sigma := fill_sigma sigma in
    cs_idx (fold_left (cusum_bar_step ts prices sigma floor mult)
              (seq (f + 1) (length prices - (f + 1))) (mkCS [f] 0 0)).

  (** logic.py L174: [len(prices) != len(sigma) != len(timestamps)] is Python's
      chained comparison: the error is raised only if BOTH inequalities hold. *)
  Definition cusum_len_check (ts : list Z) (prices : list Q) (sigma : list (option Q)) : bool :=
    negb (negb (length prices =? length sigma)%nat && negb (length sigma =? length ts)%nat).
End CusumBar.
