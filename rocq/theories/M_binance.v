(** M_binance.v -- the import script scripts/binance2h5.py L51-62 and L95-431: checksum
    files, CSV tables, one task per file, the writer thread, file names and renaming.
    Texts are lists of ASCII codes ([key] of M_store.v). Downloads are in M_download.v; unpacking, printing and
    the time bars added at the end (M_addbar.v) are not modelled; hashes of a file are
    given. CSV tables are rectangular and given as parsed cells. *)
From Verif Require Import Base M_logic M_trades M_store M_tbio.
Open Scope Z_scope.

(* ------------------------------------------------------------------ *)
(** ** Checksum files *)

(** binance2h5.py L70, L196, L348: [\d]. *)
Definition is_digit (c : Z) : bool := (48 <=? c) && (c <=? 57).
(** binance2h5.py L96-97: [[a-fA-F0-9]]. *)
Definition is_hex (c : Z) : bool := is_digit c || ((97 <=? c) && (c <=? 102)) || ((65 <=? c) && (c <=? 70)).
(** binance2h5.py L96-97: characters of words, for [\b]. *)
Definition is_word (c : Z) : bool := is_digit c || ((97 <=? c) && (c <=? 122)) || ((65 <=? c) && (c <=? 90)) || (c =? 95).
(** [str.lower] (binance2h5.py L109, L111, L185, L277). *)
Definition lower (c : Z) : Z := if (65 <=? c) && (c <=? 90) then c + 32 else c.
(** [str.upper] (binance2h5.py L336, L340). *)
Definition upper (c : Z) : Z := if (97 <=? c) && (c <=? 122) then c - 32 else c.
(** binance2h5.py L96-97: [\b] between two characters, None at an end of the text. *)
Definition boundary (a b : option Z) : bool :=
  xorb (match a with Some c => is_word c | None => false end) (match b with Some c => is_word c | None => false end).
(** binance2h5.py L96-97: does the pattern match here; [prev] is the character before. *)
Definition hex_here (n : nat) (prev : option Z) (s : key) : bool :=
  boundary prev (hd_error s) && (n <=? length s)%nat && forallb is_hex (firstn n s)
  && boundary (nth_error s (n - 1)) (nth_error s n).
(** binance2h5.py L106-107 [findall]: all matches from left to right, without overlap. *)
Fixpoint findall (fuel n : nat) (prev : option Z) (s : key) : list key :=
  match fuel, s with
  | S f, c :: t => if hex_here n prev s then firstn n s :: findall f n (nth_error s (n - 1)) (skipn n s)
                   else findall f n (Some c) t
  | _, _ => []
  end.
(** binance2h5.py L100-114 [_read_checksum_file]; None is a missing or unreadable file. *)
Definition read_checksum (content : option key) : option key :=
  match content with
  | None => None
  | Some s => match findall (length s) 64 None s, findall (length s) 32 None s with
              | d :: _, _ => Some (map lower d)
              | [], d :: _ => Some (map lower d)
              | [], [] => None
              end
  end.
(** binance2h5.py L131-141 [verify_zip_checksum]; [sha] and [md5] are the hex digests, None
    if the file cannot be read. *)
Definition verify_checksum (content : option key) (sha md5 : option key) : bool :=
  match read_checksum content with
  | None => true
  | Some d => existsb (fun h => match h with
                                | Some (c :: r) => key_eqb (map lower (c :: r)) d
                                | _ => false end) [sha; md5]
  end.

(* ------------------------------------------------------------------ *)
(** ** CSV tables *)

(** binance2h5.py L154 [read_csv]: integer, other number, truth value, text, nothing. *)
Inductive cell := CInt (z : Z) | CNum (q : Q) | CBool (b : bool) | CText (t : key) | CEmpty.
(** binance2h5.py L179-182 [pd.to_numeric(errors='coerce')]. *)
Definition to_num (c : cell) : option Q :=
  match c with CInt z => Some (inject_Z z) | CNum q => Some q | _ => None end.
(** Is the number whole? (L179, L182: [astype('Int64')] rejects others). *)
Definition whole (q : Q) : bool := Z.pos (Qden (Qred q)) =? 1.
(** binance2h5.py L179, L182: an integer column; a column with other numbers is float64,
    [astype('Int64')] raises TypeError for fractions, [astype('int64')] ValueError for
    missing values. *)
Definition int_col (cs : list cell) : result (list Z) :=
  if existsb (fun c => match to_num c with Some q => negb (whole q) | None => false end) cs then Raise TypeError
  else if existsb (fun c => match to_num c with Some _ => false | None => true end) cs then Raise ValueError
  else let is_int := forallb (fun c => match c with CInt _ => true | _ => false end) cs in
       Ok (map (fun c => match c with
                         | CInt z => if is_int then z else f64 z
                         | CNum q => Qnum (Qred q)
                         | _ => 0 end) cs).
(** Texts of L185. *)
Definition truths : list key := [[49]; [116; 114; 117; 101]; [116]; [121; 101; 115]].
(** binance2h5.py L183-185: the maker flags; whole numbers print as "1" in an integer
    column and as "1.0" in a column with missing or other numbers. *)
Definition flag_col (cs : list cell) : list bool :=
  let numeric := forallb (fun c => match c with CInt _ | CNum _ | CEmpty => true | _ => false end) cs in
  let ints := forallb (fun c => match c with CInt _ => true | _ => false end) cs in
  map (fun c => match c with
                | CBool b => b
                | CInt z => (ints || negb numeric) && (z =? 1)
                | CText t => existsb (key_eqb (map lower t)) truths
                | CNum _ | CEmpty => false
                end) cs.
(** Columns of the result (binance2h5.py L170, L188). *)
Record crow := mkC { c_time : Z; c_price : option Q; c_qty : option Q; c_id : Z; c_maker : bool }.
(** binance2h5.py L144-190 [load_csv_from_zip]. [sort] is [sort_values('time')] (L188,
    quicksort: the order of equal times is unspecified). Names are given by position
    (L158-162); an empty file cannot be parsed; with more than seven columns the names do
    not fit, with fewer than six the required ones are missing. *)
Definition load_csv (sort : list crow -> list crow) (table : list (list cell)) : result (list crow) :=
  match table with
  | [] => Raise ValueError
  | first :: _ =>
      let w := length first in
      if ((w <? 6) || (7 <? w))%nat%bool then Raise ValueError
      else
        let col j := map (fun r => nth j r CEmpty) table in
        match int_col (col 4%nat), int_col (col 0%nat) with
        | Raise e, _ => Raise e
        | _, Raise e => Raise e
        | Ok ts, Ok ids =>
            let px := map to_num (col 1%nat) in
            let am := map to_num (col 2%nat) in
            let fl := flag_col (col 5%nat) in
            Ok (sort (map (fun i => mkC (nth i ts 0) (nth i px None) (nth i am None) (nth i ids 0) (nth i fl false)) (seq 0 (length table))))
        end
  end.

(* ------------------------------------------------------------------ *)
(** ** Names *)

(** binance2h5.py L57-58 [ym] (as the month keys, data_model.py L451). *)
Definition ym (m : month) : key := fmt_month (fst m) (snd m).
(** binance2h5.py L60-61 [yymm]. *)
Definition yymm (m : month) : key :=
  [digit (fst m mod 100 / 10); digit (fst m mod 10); digit (snd m / 10); digit (snd m mod 10)].
(** binance2h5.py L304: "-trades-" and ".zip". *)
Definition trades_ : key := [45; 116; 114; 97; 100; 101; 115; 45].
(** binance2h5.py L304. *)
Definition dot_zip : key := [46; 122; 105; 112].
(** binance2h5.py L304: name of a monthly file. *)
Definition zip_name (sym : key) (m : month) : key := sym ++ trades_ ++ ym m ++ dot_zip.
(** binance2h5.py L196: [\d{4}-\d{2}] at the start of a text. *)
Definition date_here (s : key) : option key :=
  match s with
  | a :: b :: c :: d :: e :: f :: g :: _ =>
      if is_digit a && is_digit b && is_digit c && is_digit d && (e =? 45) && is_digit f && is_digit g
      then Some [a; b; c; d; e; f; g] else None
  | _ => None
  end.
(** binance2h5.py L196-199: the first match in a file name. *)
Fixpoint search_date (s : key) : option key :=
  match date_here s with
  | Some d => Some d
  | None => match s with [] => None | _ :: t => search_date t end
  end.

(* ------------------------------------------------------------------ *)
(** ** Tasks and the writer *)

(** A downloaded file: name, checksum file, hashes, table (binance2h5.py L195-208). *)
Record rawfile := mkRaw { f_name : key; f_chk : option key; f_sha : option key; f_md5 : option key; f_table : list (list cell) }.
(** binance2h5.py L209-213: rows given to [TradesData]; files without missing prices and
    quantities. *)
Definition row_of (c : crow) : row :=
  mkRow (c_time c) (match c_price c with Some q => q | None => 0%Q end) (match c_qty c with Some q => q | None => 0%Q end) (c_id c).
(** binance2h5.py L195-214 [_process_task]. *)
Definition process_task (sort : list crow -> list crow) (sort_id : list row -> list row) (from : option key) (dates : list key)
    (f : rawfile) : result (option tdata) :=
  match search_date (f_name f) with
  | None => Ok None
  | Some date =>
      if match from with Some d => negb (key_leb d date) | None => false end then Ok None
      else if (match dates with [] => false | _ => negb (existsb (key_eqb date) dates) end) then Ok None
      else if negb (verify_checksum (f_chk f) (f_sha f) (f_md5 f)) then Raise ValueError
      else match load_csv sort (f_table f) with
           | Raise e => Raise e
           | Ok cs => match preprocess sort_id None None (map row_of cs) (Some (map c_maker cs)) with
                      | Raise e => Raise e
                      | Ok td => Ok (Some td)
                      end
           end
  end.
(** data_model.py L450-574: the frame and records given to [save_h5]. *)
Definition frame_of (td : tdata) : list srow := map (fun m => mkS (m_ts m) (m_px m) (m_am m) (Some (m_side m))) (td_rows td).
(** data_model.py L555-562: the stored discontinuities. *)
Definition sdiscs (td : tdata) : list sdisc := map (fun d => mkSD (d_start d) (d_end d) (d_missing d)) (td_disc td).
(** binance2h5.py L224: one write of the writer thread. *)
Definition write (mkey : Z -> key) (td : tdata) (st : store) : result key * store :=
  save_h5 mkey false None true (frame_of td) (Some (td_ok td)) (td_missing td) (sdiscs td) st.
(** binance2h5.py L217-227 [_writer_thread]: an exception ends the thread, later items stay
    in the queue. Result: the file and the number of items written. *)
Fixpoint writer (mkey : Z -> key) (items : list tdata) (st : store) : store * nat :=
  match items with
  | [] => (st, 0%nat)
  | td :: rest => match write mkey td st with
                  | (Ok _, st') => let r := writer mkey rest st' in (fst r, S (snd r))
                  | (Raise _, st') => (st', 0%nat)
                  end
  end.
(** binance2h5.py L230-267 [process_all]: [order] lists the files in the order in which the
    workers finish; failed tasks are counted, files of other months give nothing. The pool
    is joined before the end marker is queued (L262-266), so the writer gets every item.
    Result: the file and the number of errors. *)
Definition process_all (mkey : Z -> key) (sort : list crow -> list crow) (sort_id : list row -> list row) (dates : list key)
    (order : list rawfile) (st : store) : store * nat :=
  let rs := map (process_task sort sort_id None dates) order in
  (fst (writer mkey (flat_map (fun r => match r with Ok (Some td) => [td] | _ => [] end) rs) st),
   length (filter (fun r => match r with Raise _ => true | Ok _ => false end) rs)).

(* ------------------------------------------------------------------ *)
(** ** Target file *)

(** binance2h5.py L409: "_", "-" and ".h5". *)
Definition dot_h5 : key := [46; 104; 53].
(** binance2h5.py L409: name of the target file. *)
Definition h5_name (sym label a b : key) : key := sym ++ [95] ++ label ++ [95] ++ a ++ [45] ++ b ++ dot_h5.
(** [str.startswith] (binance2h5.py L340). *)
Fixpoint starts_with (p s : key) : bool :=
  match p, s with [], _ => true | a :: p', b :: s' => (a =? b) && starts_with p' s' | _, _ => false end.
(** binance2h5.py L346-351 [parse_range_from_name]: the last 13 characters
    [_dddd-dddd.h5]; empty texts if they do not match. *)
Definition parse_range (name : key) : key * key :=
  let t := skipn (length name - 13) name in
  match t with
  | u :: a :: b :: c :: d :: h :: e :: f :: g :: k :: rest =>
      if (u =? 95) && forallb is_digit [a; b; c; d] && (h =? 45) && forallb is_digit [e; f; g; k] && key_eqb rest dot_h5
      then ([a; b; c; d], [e; f; g; k]) else ([], [])
  | _ => ([], [])
  end.
(** binance2h5.py L332-343 [find_existing_h5]: names in the directory, sorted. *)
Definition find_existing (sym label : key) (names : list key) : list key :=
  let prefix := map upper (sym ++ [95] ++ label ++ [95]) in
  ksort (filter (fun n => key_eqb (skipn (length n - 3) (map lower n)) dot_h5 && starts_with prefix (map upper n)) names).
(** binance2h5.py L413-420: the file that is renamed, if any. *)
Definition to_rename (sym label a b : key) (names : list key) : option key :=
  find (fun n => let r := parse_range n in
                 key_eqb (fst r) a && negb (key_eqb (snd r) []) && negb (key_leb b (snd r))) (find_existing sym label names).
(** binance2h5.py L412-420: [os.replace] of that file onto the target. *)
Definition rename_old (sym label a b : key) (dir : list (key * store)) : list (key * store) :=
  let target := h5_name sym label a b in
  match to_rename sym label a b (map fst dir) with
  | None => dir
  | Some n => if key_eqb n target then dir
              else match kget n dir with Some st => kput target st (kdel n dir) | None => dir end
  end.
(** binance2h5.py L393-399: months whose file is there. *)
Definition available (sym : key) (months : list month) (raw : list rawfile) : list month :=
  filter (fun m => existsb (fun f => key_eqb (f_name f) (zip_name sym m)) raw) months.
(** binance2h5.py L393-425: the part of [orchestrate_symbol] after the downloads; [raw] is the
    directory of downloaded files, [order] the order in which their tasks finish. *)
Definition orchestrate (mkey : Z -> key) (sort : list crow -> list crow) (sort_id : list row -> list row)
    (sym label : key) (months : list month) (raw order : list rawfile) (dir : list (key * store)) : list (key * store) :=
  match available sym months raw with
  | [] => dir
  | (m0 :: _) as av =>
      let a := yymm m0 in
      let b := yymm (last av m0) in
      let target := h5_name sym label a b in
      let dir1 := rename_old sym label a b dir in
      let st := match kget target dir1 with Some st => st | None => empty_store end in
      kput target (fst (process_all mkey sort sort_id (map ym av) order st)) dir1
  end.
(** binance2h5.py L276-284 [market_label] and L287-295 [market_path], after [strip]. *)
Definition um_names : list key := [[117; 109]; [112; 101; 114; 112; 117; 109]; [112; 101; 114; 112; 95; 117; 109]; [117; 115; 100; 109]; [117; 115; 100; 115; 109]].
(** binance2h5.py L282, L293: names of the other futures market. *)
Definition cm_names : list key := [[99; 109]; [112; 101; 114; 112; 99; 109]; [112; 101; 114; 112; 95; 99; 109]; [99; 111; 105; 110; 109]].
(** binance2h5.py L278, L289. *)
Definition spot_name : key := [115; 112; 111; 116].
(** binance2h5.py L276-284 [market_label]. *)
Definition market_label (m : key) : result key :=
  let l := map lower m in
  if key_eqb l spot_name then Ok [83; 80; 79; 84]
  else if existsb (key_eqb l) um_names then Ok [80; 69; 82; 80; 117; 109]
  else if existsb (key_eqb l) cm_names then Ok [80; 69; 82; 80; 99; 109]
  else Raise ValueError.
(** binance2h5.py L287-295 [market_path]. *)
Definition market_path (m : key) : result key :=
  let l := map lower m in
  if key_eqb l spot_name then Ok spot_name
  else if existsb (key_eqb l) um_names then Ok [117; 109]
  else if existsb (key_eqb l) cm_names then Ok [99; 109]
  else Raise ValueError.
