(** M_store.v -- model of the monthly trade store (finmlkit/bar/data_model.py).
    The HDF5 file is three maps: /trades/KEY (rows), /meta/KEY and /integrity/KEY.  Keys are strings
    (lists of character codes).  Rows carry the nanosecond timestamp, which is also the datetime index
    (data_model.py L180-183 with no user supplied [dt_index]).  Compression, chunk sizes, column types
    and logging are not modelled; a frame whose columns do not match the stored table is not modelled.
    PyTables: [put]/[append] of an empty frame in table format stores nothing. *)
From Verif Require Import Base M_logic.
Open Scope Z_scope.

(** data_model.py L453: a month key (string) and [==] on strings. *)
Definition key : Type := list Z.
(** [==] on strings (key lookup, data_model.py L478). *)
Fixpoint key_eqb (a b : key) : bool :=
  match a, b with
  | [], [] => true
  | x :: a, y :: b => (x =? y) && key_eqb a b
  | _, _ => false
  end.
(** data_model.py L594 [sorted]: lexicographic string order (all keys share the prefix "/trades/"). *)
Fixpoint key_leb (a b : key) : bool :=
  match a, b with
  | [], _ => true
  | _ :: _, [] => false
  | x :: a, y :: b => if x <? y then true else if y <? x then false else key_leb a b
  end.
(** data_model.py L594 [sorted(candidate_keys)]. *)
Fixpoint kinsert (k : key) (l : list key) : list key :=
  match l with [] => [k] | x :: l' => if key_leb k x then k :: l else x :: kinsert k l' end.
(** data_model.py L594 [sorted(candidate_keys)]. *)
Definition ksort (l : list key) : list key := fold_right kinsert [] l.

(** data_model.py L478-546: [store[key]], [store.remove(key)], [store.put(key, ..)] and [key in store]. *)
Fixpoint kget {A} (k : key) (m : list (key * A)) : option A :=
  match m with [] => None | (k', a) :: m => if key_eqb k k' then Some a else kget k m end.
(** data_model.py L478-546 [store.remove(key)]. *)
Definition kdel {A} (k : key) (m : list (key * A)) : list (key * A) := filter (fun p => negb (key_eqb k (fst p))) m.
(** data_model.py L478-546 [store.put(key, ..)]. *)
Definition kput {A} (k : key) (a : A) (m : list (key * A)) : list (key * A) := kdel k m ++ [(k, a)].
(** data_model.py L478-546 [key in store]. *)
Definition kmem {A} (k : key) (m : list (key * A)) : bool := match kget k m with Some _ => true | None => false end.

(** data_model.py L772: one stored trade (timestamp, price, amount, side). *)
Record srow := mkS { w_ts : Z; w_px : Q; w_am : Q; w_side : option Z }.
(** data_model.py L534-545: the per-month metadata. *)
Record meta := mkMeta { mt_count : Z; mt_first : Z; mt_last : Z; mt_ok : option bool; mt_missing : Q }.
(** data_model.py L555-562: one stored discontinuity (ids and number of missing ids). *)
Record sdisc := mkSD { sd_start : Z; sd_end : Z; sd_missing : Z }.
(** data_model.py L453-455: the three groups of the file. *)
Record store := mkStore { st_rows : list (key * list srow); st_meta : list (key * meta); st_integ : list (key * list sdisc) }.
(** data_model.py L453-455: a new file. *)
Definition empty_store : store := mkStore [] [] [].

(** data_model.py L212-229 [set_view_range]: the new view, or ValueError (view unchanged). *)
Definition set_view_range (s e : Z) : result (option (Z * Z)) := if e <=? s then Raise ValueError else Ok (Some (s, e)).
(** data_model.py L232-243 [data]: [.loc[start:end]] on the sorted datetime index, both ends included. *)
Definition view_data (v : option (Z * Z)) (rows : list srow) : list srow :=
  match v with None => rows | Some (s, e) => filter (fun r => (s <=? w_ts r) && (w_ts r <=? e)) rows end.

(** data_model.py L504-531: [store.put] / [store.append] of a table; an empty frame stores nothing. *)
Definition put_rows (k : key) (frame : list srow) (m : list (key * list srow)) : list (key * list srow) :=
  match frame with [] => m | _ => kput k frame m end.
(** data_model.py L504-531: [store.append]; an empty frame stores nothing. *)
Definition append_rows (k : key) (frame : list srow) (m : list (key * list srow)) : list (key * list srow) :=
  match frame with [] => m | _ => kput k (match kget k m with Some old => old ++ frame | None => frame end) m end.

(** data_model.py L534-546: the metadata [pd.Series] of mixed values.  When [data_ok] is None (no
    preprocessing) pandas infers dtype float64 for it, so both timestamps are rounded to float64;
    with a boolean [data_ok] the dtype is object and the integers are kept. *)
Definition meta_ts (ok : option bool) (t : Z) : Z := match ok with None => f64 t | Some _ => t end.

(** data_model.py L420-574 [save_h5]: outcome and the file afterwards (an exception leaves the changes
    already made).  [mkey] is the derived month key of a timestamp (calendar of pandas), [trunc] is
    mode = "w". *)
Section Save.
Variable mkey : Z -> key.
(** data_model.py L420-574 [save_h5]. *)
Definition save_h5 (trunc : bool) (month : option key) (overwrite : bool) (frame : list srow)
    (ok : option bool) (missing : Q) (disc : list sdisc) (st : store) : result key * store :=
  if match month, frame with None, [] => true | _, _ => false end
  then (Raise IndexError, st)                                       (* L450: iloc[0] *)
  else
    let k := match month with Some k => k | None => mkey (w_ts (hd (mkS 0 0 0 None) frame)) end in
    let st := if trunc then empty_store else st in
    let exists_ := kmem k (st_rows st) in
    (* L497-529 *)
    let over := exists_ && overwrite in
    let step :=
      if over then
        let st1 := mkStore (kdel k (st_rows st)) (st_meta st) (st_integ st) in
        if kmem k (st_meta st1) then
          inl (mkStore (put_rows k frame (st_rows st1)) (kdel k (st_meta st1)) (kdel k (st_integ st1)))
        else inr (KeyError, st1)
      else if exists_ then inl (mkStore (append_rows k frame (st_rows st)) (st_meta st) (st_integ st))
      else inl (mkStore (put_rows k frame (st_rows st)) (st_meta st) (st_integ st)) in
    match step with
    | inr (x, st1) => (Raise x, st1)
    | inl st1 =>
      match frame with
      | [] => (Raise IndexError, st1)                               (* L540: iloc[0] *)
      | r :: _ =>
        let count := if over then Z.of_nat (length frame)
                     else if exists_ then Z.of_nat (length (match kget k (st_rows st1) with Some l => l | None => [] end))
                     else Z.of_nat (length frame) in
        let mt := mkMeta count (meta_ts ok (w_ts r)) (meta_ts ok (w_ts (last frame r))) ok missing in
        let integ := match disc with [] => st_integ st1 | _ => kput k disc (st_integ st1) end in
        (Ok k, mkStore (st_rows st1) (kput k mt (st_meta st1)) integ)
      end
    end.
End Save.

(** data_model.py L580-594 [_keys_for_timerange]. *)
Definition keys_for_timerange (st : store) (s e : option Z) : list key :=
  ksort (map fst (filter (fun p =>
    (match e with None => true | Some e => mt_first (snd p) <=? e end) &&
    (match s with None => true | Some s => s <=? mt_last (snd p) end)) (st_meta st))).

(** data_model.py L688-694: the where clause. *)
Definition where_rows (s e : option Z) (rows : list srow) : list srow :=
  filter (fun r => (match s with None => true | Some s => s <=? w_ts r end) &&
                   (match e with None => true | Some e => w_ts r <=? e end)) rows.
(** data_model.py L1064-1083 [_load_single_h5_group] and L743-753: reading one group; a group that is
    missing or whose read fails ([fails]) yields an empty frame. *)
Definition read_group (st : store) (fails : key -> bool) (s e : option Z) (k : key) : list srow :=
  if fails k then [] else match kget k (st_rows st) with Some rows => where_rows s e rows | None => [] end.

(** data_model.py L737-753: sequential loading. *)
Definition load_seq (st : store) (fails : key -> bool) (s e : option Z) (keys : list key) : list (list srow) :=
  filter (fun f => match f with [] => false | _ => true end) (map (read_group st fails s e) keys).
(** data_model.py L708-728: parallel loading; [order] is the order in which the workers complete. *)
Definition load_par (st : store) (fails : key -> bool) (s e : option Z) (keys order : list key) : list (list srow) :=
  let results := fold_left (fun acc k => match read_group st fails s e k with [] => acc | df => kput k df acc end) order [] in
  flat_map (fun k => match kget k results with Some df => [df] | None => [] end) keys.

(** data_model.py L762: [df.index.is_monotonic_increasing]. *)
Fixpoint monotone (l : list srow) : bool :=
  match l with
  | a :: ((b :: _) as l') => (w_ts a <=? w_ts b) && monotone l'
  | _ => true
  end.

(** data_model.py L597-772 [load_trades_h5].  [pool] says whether the process pool works at all (its
    failure falls back to sequential loading, L730-732); [order] is the completion order;
    [sort_ix] is [DataFrame.sort_index]. *)
Definition load_trades_h5 (sort_ix : list srow -> list srow) (st : store) (fails : key -> bool)
    (key_arg : option key) (s e : option Z) (enable_mp pool : bool) (min_groups : Z) (order : list key) : result (list srow) :=
  let keys := match key_arg with
              | Some k => if kmem k (st_rows st) then Some [k] else None
              | None => Some (keys_for_timerange st s e) end in
  match keys with
  | None => Raise KeyError
  | Some [] => Raise KeyError
  | Some keys =>
    let use_mp := enable_mp && (min_groups <=? Z.of_nat (length keys)) in
    let frames := if use_mp && pool then load_par st fails s e keys order else load_seq st fails s e keys in
    match frames with
    | [] => Raise ValueError
    | _ => let df := concat frames in Ok (if monotone df then df else sort_ix df)
    end
  end.

(** data_model.py L451: [f"{year:04d}-{month:02d}"] for years below 10000 (character codes). *)
Definition digit (d : Z) : Z := 48 + d.
(** data_model.py L451: year and month, zero padded. *)
Definition fmt_month (y m : Z) : key :=
  [digit (y / 1000); digit (y / 100 mod 10); digit (y / 10 mod 10); digit (y mod 10); 45; digit (m / 10); digit (m mod 10)].
