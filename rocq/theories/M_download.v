(** M_download.v -- the download stage of scripts/binance2h5.py (L298-329, L354-391) and its [main] (L434-449).
    Texts and file contents are lists of character codes ([key] of M_store.v).  The network is a parameter: what a request gets may depend
    on all requests made before.  [sha] and [md5] are the hexadecimal digests of a content, [unzip] the table in a zip file; a zip file
    that cannot be opened (L145-153) is not modelled.  Printing, progress bars and the time bars added at the end (L428-430, M_addbar.v) are left out.
    Directories are maps from names to contents; a run serves one market, so that raw directories are told apart by the symbol. *)
From Coq Require Import String Ascii.
From Verif Require Import Base M_logic M_trades M_store M_tbio M_binance.
Open Scope Z_scope.

(** Character codes of a text of the script (binance2h5.py L49, L301-306). *)
Definition txt (s : string) : key := map (fun c => Z.of_nat (nat_of_ascii c)) (list_ascii_of_string s).
(** binance2h5.py L49. *)
Definition binance_base : key := txt "https://data.binance.vision".
(** binance2h5.py L306, L370. *)
Definition dot_checksum : key := txt ".CHECKSUM".
(** binance2h5.py L299-305: address of a monthly file; [p] is the market path. *)
Definition zip_url (p sym : key) (m : month) : key :=
  (binance_base ++ (if key_eqb p spot_name then txt "/data/spot" else txt "/data/futures/" ++ p)
     ++ txt "/monthly/trades/" ++ sym ++ txt "/" ++ zip_name sym m)%list.
(** binance2h5.py L298-306 [build_urls]. *)
Definition build_urls (market sym : key) (m : month) : result (key * key) :=
  match market_path market with
  | Ok p => Ok (zip_url p sym m, (zip_url p sym m ++ dot_checksum)%list)
  | Raise e => Raise e
  end.
(** [os.path.basename] (binance2h5.py L369): the text after the last slash. *)
Fixpoint basename (s : key) : key :=
  match s with
  | [] => []
  | c :: t => if existsb (Z.eqb 47) t then basename t else if c =? 47 then t else s
  end.

(** binance2h5.py L311-327: what happens to one request: status 404 (L313); another bad status or no connection, before the file is
    opened (L312-315); the connection breaks after [part] was written (L319-324); the whole body was written (L325). *)
Inductive response := NotFound | Refused | Broken (part : key) | Body (b : key).
(** binance2h5.py L309: returns True, returns False, raises. *)
Inductive dl := Got | Absent | Failed.
(** binance2h5.py L357, L365: the raw directory and the requests made so far. *)
Record world := mkW { w_files : list (key * key); w_log : list key }.

Section Download.
  (** binance2h5.py L312 [session.get]: requests made before, address. *)
  Variable net : list key -> key -> response.
  (** binance2h5.py L117-128. *)
  Variables sha md5 : key -> key.

  (** binance2h5.py L309-329 [download_file]; [left] attempts are left. *)
  Fixpoint download (left : nat) (url dest : key) (w : world) : dl * world :=
    match left with
    | O => (Absent, w)
    | S r =>
        let log := (w_log w ++ [url])%list in
        match net (w_log w) url with
        | NotFound => (Absent, mkW (w_files w) log)
        | Body b => (Got, mkW (kput dest b (w_files w)) log)
        | Refused => let w' := mkW (w_files w) log in if (r =? 0)%nat then (Failed, w') else download r url dest w'
        | Broken p => let w' := mkW (kput dest p (w_files w)) log in if (r =? 0)%nat then (Failed, w') else download r url dest w'
        end
    end.

  (** binance2h5.py L131-141: [verify_zip_checksum] of two files of the directory. *)
  Definition verified (f c : key) (fs : list (key * key)) : bool :=
    verify_checksum (kget c fs) (option_map sha (kget f fs)) (option_map md5 (kget f fs)).

  (** binance2h5.py L367-391: one month; false if an exception leaves the function (L373). *)
  Definition fetch_month (p sym : key) (m : month) (w : world) : bool * world :=
    let u := zip_url p sym m in
    let f := basename u in
    let c := (f ++ dot_checksum)%list in
    let '(r, w1) := if kmem f (w_files w) then (Got, w) else download 3 u f w in
    match r with
    | Failed => (false, w1)
    | Absent => (true, w1)
    | Got =>
        let w2 := if kmem c (w_files w1) then w1 else snd (download 3 (u ++ dot_checksum)%list c w1) in
        if verified f c (w_files w2) then (true, w2)
        else (true, snd (download 3 u f (mkW (kdel f (w_files w2)) (w_log w2))))
    end.
  (** binance2h5.py L366-391: all months, until one raises. *)
  Fixpoint fetch_all (p sym : key) (ms : list month) (w : world) : bool * world :=
    match ms with
    | [] => (true, w)
    | m :: ms' => let '(ok, w') := fetch_month p sym m w in if ok then fetch_all p sym ms' w' else (false, w')
    end.

  (** binance2h5.py L146-153: the table in a zip file. *)
  Variable unzip : key -> list (list cell).
  (** binance2h5.py L196-208, L231: the zip files of the raw directory. *)
  Definition raw_files (fs : list (key * key)) : list rawfile :=
    map (fun e => mkRaw (fst e) (kget (fst e ++ dot_checksum)%list fs) (Some (sha (snd e))) (Some (md5 (snd e))) (unzip (snd e)))
        (filter (fun e => key_eqb (skipn (length (fst e) - 4) (fst e)) dot_zip) fs).

  (** binance2h5.py L357-358: raw directories by symbol, h5 files, requests. *)
  Record state := mkState { s_raw : list (key * list (key * key)); s_h5 : list (key * store); s_log : list key }.
  (** binance2h5.py L81, L295, L373: how a symbol ends. *)
  Inductive ending := Done | BadArgument | NetworkError.

  (** binance2h5.py L188 [sort_values], data_model.py L291-315 [sort by id], data_model.py L451 (month of a timestamp), and the order in
      which the workers finish (binance2h5.py L260-263). *)
  Variables (mkey : Z -> key) (sort : list crow -> list crow) (sort_id : list row -> list row) (order : list rawfile -> list rawfile).

  (** binance2h5.py L354-425 [orchestrate_symbol]. *)
  Definition orchestrate_symbol (sym market : key) (a b : month) (s : state) : ending * state :=
    match market_path market, market_label market with
    | Ok p, Ok label =>
        let files := match kget sym (s_raw s) with Some fs => fs | None => [] end in
        let made := mkState (kput sym files (s_raw s)) (s_h5 s) (s_log s) in
        match month_range a b with
        | Raise _ => (BadArgument, made)
        | Ok ms =>
            let '(ok, w) := fetch_all p sym ms (mkW files (s_log s)) in
            let raw := kput sym (w_files w) (s_raw s) in
            if ok then
              let rs := raw_files (w_files w) in
              (Done, mkState raw (orchestrate mkey sort sort_id sym label ms rs (order rs) (s_h5 s)) (w_log w))
            else (NetworkError, mkState raw (s_h5 s) (w_log w))
        end
    | _, _ => (BadArgument, s)
    end.
  (** binance2h5.py L448-449: the symbols in turn; an exception ends the program. *)
  Fixpoint import_symbols (market : key) (a b : month) (syms : list key) (s : state) : ending * state :=
    match syms with
    | [] => (Done, s)
    | x :: t => let '(e, s') := orchestrate_symbol (map upper x) market a b s in
                match e with Done => import_symbols market a b t s' | _ => (e, s') end
    end.
  (** binance2h5.py L65-69, L445-446: "now" is the month of today; texts without blanks around them and in lower case. *)
  Definition parse_arg (today : month) (s : string) : result month :=
    if String.eqb s "now" then Ok today else parse_ym (list_ascii_of_string s).
  (** binance2h5.py L434-449 [main]. *)
  Definition import_main (today : month) (market : key) (start stop : string) (syms : list key) (s : state) : ending * state :=
    match parse_arg today start, parse_arg today stop with
    | Ok a, Ok b => import_symbols market a b syms s
    | _, _ => (BadArgument, s)
    end.
End Download.
