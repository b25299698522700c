(** M_labelkit.v -- model of TBMLabel's event handling (finmlkit/label/kit.py). *)
From Verif Require Import Base M_tbm.
Open Scope Q_scope.

(** label/kit.py L158-159: pandas [Series.first_valid_index] as a position ([None] for an all-NaN column). *)
Fixpoint first_valid (col : list (option Q)) : option nat :=
  match col with
  | [] => None
  | Some _ :: _ => Some 0%nat
  | None :: l => option_map S (first_valid l)
  end.

(** label/kit.py L169: [np.max] of the two multipliers (NaN wins). *)
Definition emax (a b : ext) : ext :=
  match a, b with
  | NaN, _ | _, NaN => NaN
  | PInf, _ | _, PInf => PInf
  | NInf, x | x, NInf => x
  | Fin x, Fin y => Fin (pmax x y)
  end.

(** label/kit.py L170: [abs(target) * max_mult >= min_ret] (False for NaN). *)
Definition target_ok (min_ret : Q) (mult : ext) (t : option Q) : bool :=
  match t with
  | None => false
  | Some x => q_le_ext min_ret (emulq (Qabs x) mult)
  end.

(** kit.py L155-178 [_preprocess_features]: positions of the rows kept.  [cols] are all
    columns (the target column [target] among them), the index is ascending, so
    [x.loc[start:]] is the rows from the position of the latest first-valid index.
    The NaN check of L175-176 comes after the filter. *)
Definition preprocess_features (cols : list (list (option Q))) (target : list (option Q))
    (min_ret : Q) (bottom top : ext) : result (list nat) :=
  let firsts := concat (map (fun c => match first_valid c with Some i => [i] | None => [] end) cols) in
  match firsts with
  | [] => Raise ValueError
  | _ =>
      let start := fold_left Nat.max firsts 0%nat in
      let kept := filter (fun i => target_ok min_ret (emax bottom top) (nth i target None))
                         (seq start (length target - start)) in
      if (length kept =? 0)%nat then Raise ValueError
      else if existsb (fun i => match nth i target None with None => true | _ => false end) kept
      then Raise ValueError
      else Ok kept
  end.

(** kit.py L262-269 [_drop_trailing_events] on the (ns) event times; positions kept.
    The vertical barrier is a whole number of nanoseconds. *)
Definition drop_trailing (ts times : list Z) (vert : Z) : result (list nat) :=
  match ts with
  | [] => Raise IndexError
  | _ => Ok (filter (fun k => (nth k times 0 + vert <=? last ts 0)%Z) (seq 0 (length times)))
  end.

(** kit.py L288-289: event index without an "event_idx" column. *)
Definition event_index (ts : list Z) (t : Z) : nat := ss_left ts t.

Section Labels.
  Variable ln : Q -> Q.
  Variable rnd : Z -> Z.
  (** kit.py L272-313 [compute_labels]: kept positions with their event index and the
      triple_barrier outputs.  The output frame reads [timestamps[touch_idx]], which is an
      uninitialised index for skipped events ([tb_touch = None]). *)
  Definition compute_labels (ts : list Z) (price : list Q) (times : list Z) (targets : list Q)
      (bottom top : ext) (vert min_close : Z) (sides : option (list Z)) (min_ret : Q)
      : result (list (nat * nat * tbm_out)) :=
    match drop_trailing ts times vert with
    | Raise e => Raise e
    | Ok kept =>
        let evs := map (fun k => event_index ts (nth k times 0%Z)) kept in
        match triple_barrier ln rnd ts price evs (map (fun k => nth k targets 0) kept) bottom top
                (Some vert) min_close (option_map (fun l => map (fun k => nth k l 0%Z) kept) sides) min_ret with
        | Raise e => Raise e
        | Ok outs => Ok (combine (combine kept evs) outs)
        end
    end.
End Labels.
