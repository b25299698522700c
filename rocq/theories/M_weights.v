(** M_weights.v -- model of finmlkit/label/weights.py and of
    SampleWeights.compute_final_weights (finmlkit/label/kit.py). *)
From Verif Require Import Base.
Open Scope Q_scope.

(** weights.py L38: [concurrency[start:end+1] += 1] on an int16 array (wraps). *)
Definition bump (c : list Z) (s e : nat) : list Z :=
  map (fun j => if ((s <=? j) && (j <=? e))%nat%bool then wraps 16 (nth j c 0 + 1)%Z else nth j c 0%Z)
      (seq 0 (length c)).

(** weights.py L31-38: the concurrency pass. *)
Definition concurrency_of (n : nat) (events touches : list nat) : list Z :=
  fold_left (fun c i => bump c (nth i events 0%nat) (nth i touches 0%nat))
            (seq 0 (length events)) (repeat 0%Z n).

(** weights.py L47: [np.mean(1.0 / slice)]: NaN on an empty slice, +inf if the slice
    contains a 0, exact mean otherwise. *)
Definition mean_inverse (l : list Z) : ext :=
  if (length l =? 0)%nat then NaN
  else if existsb (fun c => (c =? 0)%Z) l then PInf
  else Fin (qsum (map (fun c => 1 / inject_Z c) l) / Qnat (length l)).

(** weights.py L8-49 [average_uniqueness]; [n] is len(timestamps) (the values are not
    used).  Indices are non-negative; slices clip at the array end.  The prange loop
    writes one slot per iteration, hence a map. *)
Definition average_uniqueness (n : nat) (events touches : list nat) : result (list ext * list Z) :=
  if negb (length events =? length touches)%nat then Raise ValueError
  else
    let c := concurrency_of n events touches in
    Ok (map (fun i =>
               let s := nth i events 0%nat in let e := nth i touches 0%nat in
               mean_inverse (firstn (e + 1 - s) (skipn s c)))
            (seq 0 (length events)), c).

Section Attribution.
  (** [np.log]; [None] stands for NaN (log of a negative number).  log 0 = -inf is not
      modelled: theorems take [ln] arbitrary, so they hold for whatever it returns. *)
  Variable ln : Q -> option Q.

  (** weights.py L77-82 *)
  Definition log_ret (close : list Q) (j : nat) : option Q :=
    match j with
    | O => None
    | S k => if Qeqb (nth k close 0) 0 then None else ln (nth j close 0 / nth k close 0)
    end.

  (** weights.py L89-92: body of the accumulation loop. *)
  Definition attr_step (close : list Q) (conc : list Z) (w : Q) (j : nat) : Q :=
    match log_ret close j with
    | Some r => if (0 <? nth j conc 0)%Z then w + r / inject_Z (nth j conc 0%Z) else w
    | None => w
    end.

  (** weights.py L85-94: one event. *)
  Definition attr_raw (close : list Q) (conc : list Z) (s e : nat) : Q :=
    Qabs (fold_left (attr_step close conc) (seq s (e + 1 - s)) 0).

  (** weights.py L53-103 [return_attribution]. *)
  Definition return_attribution (events touches : list nat) (close : list Q) (conc : list Z)
      (normalize : bool) : result (list Q) :=
    let n := length events in
    let ws := map (fun i => attr_raw close conc (nth i events 0%nat) (nth i touches 0%nat)) (seq 0 n) in
    if normalize then
      let s := qsum ws in
      if Qleb s 0 then Raise ValueError
      else Ok (map (fun w => w * (Qnat n / s)) ws)
    else Ok ws.
End Attribution.

(** weights.py L126 [np.cumsum]: running sums from [a]. *)
Fixpoint cumsum_from (a : Q) (l : list Q) : list Q :=
  match l with [] => [] | x :: l => (a + x) :: cumsum_from (a + x) l end.
(** weights.py L126 [np.cumsum]. *)
Definition cumsum (l : list Q) : list Q := cumsum_from 0 l.

(** weights.py L107-142 [time_decay].  An empty input reads [cum[-1]] out of bounds
    (modelled as IndexError); [last_weight = -1] divides by zero at L133. *)
Definition time_decay (u : list Q) (lw : Q) : result (list Q) :=
  if negb (Qleb (-1) lw && Qleb lw 1)%bool then Raise ValueError
  else
    let cum := cumsum u in
    match rev cum with
    | [] => Raise IndexError
    | tot :: _ =>
        if Qeqb tot 0 then Raise ValueError
        else if (negb (Qleb 0 lw) && Qeqb ((lw + 1) * tot) 0)%bool then Raise ZeroDivisionError
        else
          let slope := if Qleb 0 lw then (1 - lw) / tot else 1 / ((lw + 1) * tot) in
          let const := 1 - slope * tot in
          let ws := map (fun c => const + slope * c) cum in
          Ok (if Qltb lw 0 then map (fun w => pmax w 0) ws else ws)
    end.

(** weights.py L166 [np.unique] on integers: insertion into a strictly ascending list. *)
Fixpoint uinsert (x : Z) (l : list Z) : list Z :=
  match l with
  | [] => [x]
  | y :: l' => if (x <? y)%Z then x :: l else if (x =? y)%Z then l else y :: uinsert x l'
  end.
(** weights.py L166 [np.unique]. *)
Definition zunique (l : list Z) : list Z := fold_right uinsert [] l.

(** weights.py L175 [a[i] += x]. *)
Definition add_at (l : list Q) (i : nat) (x : Q) : list Q :=
  map (fun j => if (j =? i)%nat then nth j l 0 + x else nth j l 0) (seq 0 (length l)).

(** weights.py L188: the returned tuple. *)
Record balance := mkBalance {
  bal_classes : list Z; bal_class_w : list Q; bal_sums : list Q; bal_final : list Q }.

(** weights.py L147-188 [class_balance_weights]. *)
Definition class_balance_weights (labels : list Z) (base : list Q) : balance :=
  let uniq := zunique labels in
  let k := length uniq in
  let sums := fold_left (fun acc i => add_at acc (ss_left uniq (nth i labels 0%Z)) (nth i base 0))
                        (seq 0 (length labels)) (repeat 0 k) in
  let total := qsum sums in
  let cw := map (fun c => if Qltb 0 (nth c sums 0) then total / (Qnat k * nth c sums 0) else 0) (seq 0 k) in
  mkBalance uniq cw sums
    (map (fun i => nth i base 0 * nth (ss_left uniq (nth i labels 0%Z)) cw 0) (seq 0 (length labels))).

(** label/kit.py L443-450: product of possibly-NaN floats. *)
Definition omul (a b : option Q) : option Q :=
  match a, b with Some x, Some y => Some (x * y) | _, _ => None end.
(** label/kit.py L436, L453: sum of possibly-NaN floats: NaN as soon as one entry is. *)
Fixpoint osum (l : list (option Q)) : option Q :=
  match l with
  | [] => Some 0
  | x :: l => match x, osum l with Some a, Some b => Some (a + b) | _, _ => None end
  end.

(** kit.py L380-478 [SampleWeights.compute_final_weights].  The pandas series are given
    by their values, in index order; "same index" is "same length" here.  [vert] holds the
    vertical touch weights of triple_barrier, which may be NaN.  A NaN mean passes the
    test [mean <= 0] of L454 and makes every quotient NaN (also after class balancing,
    which multiplies the NaN base weights). *)
Definition compute_final_weights (u : list Q) (intercept : Q) (attr : option (list Q))
    (vert : option (list (option Q))) (labels : option (list Z)) : result (list (option Q)) :=
  if negb (Qleb (-1) intercept && Qleb intercept 1)%bool then Raise ValueError
  else if match attr with Some a => negb (length a =? length u)%nat | None => false end then Raise ValueError
  else if match vert with Some a => negb (length a =? length u)%nat | None => false end then Raise ValueError
  else if match labels with Some a => negb (length a =? length u)%nat | None => false end then Raise ValueError
  else
    let n := length u in
    match time_decay u intercept with
    | Raise e => Raise e
    | Ok td =>
        if match attr with Some a => Qleb (qsum a) 0 | None => false end then Raise ValueError
        else
          let info := match attr with
                      | Some a => map (fun x => x * Qnat n / qsum a) a
                      | None => u end in
          let combined := map (fun i => nth i td 0 * nth i info 0) (seq 0 n) in
          let combined := match vert with
                          | Some v => map (fun i => omul (Some (nth i combined 0)) (nth i v None)) (seq 0 n)
                          | None => map Some combined end in
          match osum combined with
          | None => Ok (repeat None n)
          | Some s =>
              let mean := s / Qnat n in
              if Qleb mean 0 then Raise ValueError
              else
                let base := map (fun c => match c with Some x => x / mean | None => 0 end) combined in
                match labels with
                | Some l => Ok (map Some (bal_final (class_balance_weights l base)))
                | None => Ok (map Some base)
                end
          end
    end.
