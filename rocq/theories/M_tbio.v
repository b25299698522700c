(** M_tbio.v -- reading and resampling stored time bars, gap inspection (bar/io.py) and the
    month list of the import script (scripts/binance2h5.py). Time stamps are nanoseconds;
    arithmetic is exact here; float32 and float64 (io.py L916-943) are in M_float16.v. *)
From Coq Require Import String Ascii.
From Verif Require Import Base.
Open Scope Z_scope.

(* ------------------------------------------------------------------ *)
(** ** Resampling *)

(** A stored 1-second bar (bar/base.py L148-163: labelled with its closing time); prices
    and vwap may be NaN. *)
Record bar := mkBar { b_ts : Z; b_open : option Q; b_high : option Q; b_low : option Q; b_close : option Q;
                      b_vol : Q; b_trades : Z; b_vwap : option Q; b_med : Q }.
(** io.py L913 [df.index.floor(timeframe)], for a fixed timeframe of tf nanoseconds. *)
Definition floor_to (tf t : Z) : Z := t / tf * tf.
(** io.py L916 [groupby(sort=False)]: keys in order of first appearance. *)
Fixpoint uniq (l : list Z) : list Z :=
  match l with [] => [] | k :: l' => k :: filter (fun x => negb (x =? k)) (uniq l') end.
(** io.py L916: rows of one group. *)
Definition group (tf : Z) (df : list bar) (k : Z) : list bar := filter (fun b => floor_to tf (b_ts b) =? k) df.
(** io.py L922 ["sum"] of the trade counts. *)
Definition zsum (l : list Z) : Z := fold_right Z.add 0 l.
(** io.py L917 ["first"]: first value that is not NaN. *)
Fixpoint first_val (l : list (option Q)) : option Q :=
  match l with [] => None | Some q :: _ => Some q | None :: l' => first_val l' end.
(** io.py L920 ["last"]: last value that is not NaN. *)
Definition last_val (l : list (option Q)) : option Q := first_val (rev l).
(** io.py L918-919 ["max"], ["min"], NaN skipped. *)
Definition pick (g : Q -> Q -> Q) (a b : option Q) : option Q :=
  match a, b with Some x, Some y => Some (g x y) | Some x, None => Some x | None, o => o end.
(** io.py L918. *)
Definition max_val (l : list (option Q)) : option Q := fold_left (pick Qmax) l None.
(** io.py L919. *)
Definition min_val (l : list (option Q)) : option Q := fold_left (pick Qmin) l None.
(** io.py L927: vwap times volume, a NaN product is skipped by the sum. *)
Definition traded (b : bar) : Q := match b_vwap b with Some v => (v * b_vol b)%Q | None => 0%Q end.
(** io.py L926-927: 0/0 is NaN (volumes are not negative, so no other zero division). *)
Definition vwap_of (g : list bar) : option Q :=
  let v := qsum (map b_vol g) in
  if Qeq_bool v 0 then None else Some (qsum (map traded g) / v)%Q.
(** io.py L938-940: first size whose cumulative weight reaches the cutoff. *)
Fixpoint reach (acc cutoff : Q) (s : list bar) : Q :=
  match s with
  | [] => 0%Q
  | b :: s' => let acc := (acc + inject_Z (b_trades b))%Q in
               if Qleb cutoff acc then b_med b else reach acc cutoff s'
  end.
(** io.py L931-940 [w_median]; [sort] is the row order of [np.argsort] of the sizes. *)
Definition w_median (sort : list bar -> list bar) (g : list bar) : Q :=
  reach 0 (qsum (map (fun b => inject_Z (b_trades b)) (sort g)) * (1 # 2))%Q (sort g).
(** io.py L916-944: the row of one period. *)
Definition agg (sort : list bar -> list bar) (k : Z) (g : list bar) : bar :=
  mkBar k (first_val (map b_open g)) (max_val (map b_high g)) (min_val (map b_low g)) (last_val (map b_close g))
        (qsum (map b_vol g)) (zsum (map b_trades g)) (vwap_of g) (w_median sort g).
(** io.py L946-950: rows with NaN open are dropped. *)
Definition has_open (b : bar) : bool := match b_open b with Some _ => true | None => false end.
(** io.py L890-950 [_resample]. *)
Definition resample (sort : list bar -> list bar) (tf : Z) (df : list bar) : list bar :=
  filter has_open (map (fun k => agg sort k (group tf df k)) (uniq (map (fun b => floor_to tf (b_ts b)) df))).

(* ------------------------------------------------------------------ *)
(** ** Reading *)

(** A monthly partition with its metadata (io.py L500-511, L748-751). *)
Record part := mkPart { p_first : Z; p_last : Z; p_bars : list bar }.
(** io.py L840: one day, one microsecond. *)
Definition day_ns : Z := 86400 * 1000000000.
(** io.py L838: [end_time.time() == 00:00] (time() has microsecond resolution). *)
Definition is_date (e : Z) : bool := e mod day_ns <? 1000.
(** io.py L837-840: the end of the range. *)
Definition end_of (e : Z) : Z := if is_date e then e + day_ns - 1000 else e.
(** io.py L754-755: does the partition meet the range? *)
Definition relevant (s e : option Z) (p : part) : bool :=
  (match s with Some x => x <=? p_last p | None => true end && match e with Some x => p_first p <=? x | None => true end)%bool.
(** io.py L867-869. *)
Definition in_range (s e : option Z) (b : bar) : bool :=
  (match s with Some x => x <=? b_ts b | None => true end && match e with Some x => b_ts b <=? x | None => true end)%bool.
(** io.py L842-869: bars of the range; the store lists its partitions in key order (L759). *)
Definition read_bars (store : list part) (s e : option Z) : list bar :=
  filter (in_range s e) (concat (map p_bars (filter (relevant s e) store))).
(** A timeframe: its length and whether its text ends with "D" (io.py L877). *)
Record timeframe := mkTf { tf_ns : Z; tf_day : bool }.
(** io.py L761-888 [TimeBarReader.read]. *)
Definition read (sort : list bar -> list bar) (store : list part) (s e : option Z) (tf : option timeframe) : list bar :=
  let df := read_bars store s (option_map end_of e) in
  match tf with
  | None => df
  | Some t =>
      let r := resample sort (tf_ns t) df in
      match e with
      | Some x => if (tf_day t && is_date x)%bool then filter (fun b => b_ts b <=? x - day_ns) r else r
      | None => r
      end
  end.
(** io.py L698-728 [_list_time_range]: smallest first and largest last time stamp. *)
Definition time_range (store : list part) : option Z * option Z :=
  fold_left (fun acc p => (match fst acc with None => Some (p_first p) | Some a => if p_first p <? a then Some (p_first p) else Some a end,
                           match snd acc with None => Some (p_last p) | Some a => if a <? p_last p then Some (p_last p) else Some a end)) store (None, None).

(* ------------------------------------------------------------------ *)
(** ** Gaps *)
(** io.py L24-30 [_find_gaps]: time stamp after the gap and size of the gap. *)
Fixpoint gaps_from (prev max_gap : Z) (l : list Z) : list (Z * Z) :=
  match l with
  | [] => []
  | t :: l' => (if max_gap <? t - prev then [(t, t - prev)] else []) ++ gaps_from t max_gap l'
  end.
(** io.py L24-30: the first difference is NaT, never a gap. *)
Definition find_gaps (max_gap : Z) (ts : list Z) : list (Z * Z) :=
  match ts with [] => [] | t :: l => gaps_from t max_gap l end.
(** io.py L200-223 [inspect_gaps]: partition by partition. *)
Definition inspect_gaps (max_gap : Z) (store : list (string * list Z)) : list (string * list (Z * Z)) :=
  map (fun kv => (fst kv, find_gaps max_gap (snd kv))) store.

(* ------------------------------------------------------------------ *)
(** ** Months of the import script *)
(** binance2h5.py L53-62: a month (year, month). *)
Definition month := (Z * Z)%type.
(** Python comparison of tuples (binance2h5.py L81, L85). *)
Definition month_leb (a b : month) : bool := ((fst a <? fst b) || ((fst a =? fst b) && (snd a <=? snd b)))%bool.
(** binance2h5.py L87-91. *)
Definition next_month (a : month) : month := if snd a =? 12 then (fst a + 1, 1) else (fst a, snd a + 1).
(** binance2h5.py L84-92: the loop, at most [fuel] rounds. *)
Fixpoint months_loop (fuel : nat) (cur last : month) : list month :=
  match fuel with
  | O => []
  | S f => if month_leb cur last then cur :: months_loop f (next_month cur) last else []
  end.
(** binance2h5.py L80-92 [month_range]; the number of rounds is bounded by the months of
    the years involved. *)
Definition month_range (a b : month) : result (list month) :=
  if negb (month_leb a b) then Raise ValueError
  else Ok (months_loop (Z.to_nat (12 * (fst b - fst a + 1) + 1)) a b).
(** A decimal digit (binance2h5.py L70). *)
Definition digit_val (c : ascii) : option Z :=
  let n := Z.of_nat (nat_of_ascii c) in if ((48 <=? n) && (n <=? 57))%bool then Some (n - 48) else None.
(** All digits of a text and their value (binance2h5.py L73-74 [int]). *)
Fixpoint digits_val (acc : Z) (s : list ascii) : option Z :=
  match s with [] => Some acc | c :: s' => match digit_val c with Some d => digits_val (10 * acc + d) s' | None => None end end.
(** binance2h5.py L70: separators. *)
Definition is_sep (c : ascii) : bool := (Ascii.eqb c "-" || Ascii.eqb c "." || Ascii.eqb c "/")%char%bool.
(** binance2h5.py L70-77: four digits, then optionally a separator and one or two digits. *)
Definition parse_ym (s : list ascii) : result month :=
  match s with
  | a :: b :: c :: d :: rest =>
      match digits_val 0 [a; b; c; d] with
      | None => Raise ValueError
      | Some y =>
          let m := match rest with
                   | [] => Some 1
                   | x :: r => let r := if is_sep x then r else rest in
                               match r with
                               | [_] | [_; _] => digits_val 0 r
                               | _ => None
                               end
                   end in
          match m with
          | Some m => if ((m <? 1) || (12 <? m))%bool then Raise ValueError else Ok (y, m)
          | None => Raise ValueError
          end
      end
  | _ => Raise ValueError
  end.
