(** M_addbar.v -- adding time bars to a file of trades (bar/io.py L413-562 [AddTimeBarH5])
    and the integrity summary (L225-308).  A file is a list of absolute keys with contents;
    building the bars is a parameter. *)
From Coq Require Import String Ascii.
From Verif Require Import Base.
Open Scope Z_scope.

(** io.py L502-507: the metadata of the bars of a month. *)
Record kmeta := mkKmeta { km_count : Z; km_first : Z; km_last : Z; km_key : string }.
(** data_model.py L536-545: the metadata of the trades of a month; the flag may be None. *)
Record tmeta := mkTmeta { tm_ok : option bool; tm_missing : option Q }.
(** What a key of the file holds: trades, labels of bars, metadata, discontinuities
    (data_model.py L504-568, io.py L493-511). *)
Inductive content (T : Type) :=
| Trades (t : T) | Bars (labels : list Z) | KMeta (m : kmeta) | TMeta (m : tmeta) | Integrity (n : nat).
Arguments Trades {T} t. Arguments Bars {T} labels. Arguments KMeta {T} m. Arguments TMeta {T} m. Arguments Integrity {T} n.
(** pandas [HDFStore]: keys are absolute paths with their contents (io.py L428-429). *)
Definition file (T : Type) := list (string * content T).

(** Is p a prefix; the rest behind it (python [str.startswith], io.py L429). *)
Fixpoint strip (p s : string) : option string :=
  match p with
  | EmptyString => Some s
  | String c p' => match s with String d s' => if Ascii.eqb c d then strip p' s' else None | EmptyString => None end
  end.
(** python [str.replace] with a non-empty old text: left to right, without overlap
    (io.py L469, L501); the fuel is the length of the text. *)
Fixpoint replace_fuel (fuel : nat) (old new s : string) : string :=
  match fuel with
  | O => s
  | S f =>
      match strip old s with
      | Some r => append new (replace_fuel f old new r)
      | None => match s with EmptyString => EmptyString | String c s' => String c (replace_fuel f old new s') end
      end
  end.
(** io.py L469, L501 [str.replace]. *)
Definition replace (old new s : string) : string := replace_fuel (String.length s) old new s.
(** io.py L470 [key.split('/')[-1]]: the text behind the last slash. *)
Fixpoint after_slash (s : string) : option string :=
  match s with
  | EmptyString => None
  | String c s' => match after_slash s' with Some r => Some r | None => if Ascii.eqb c "/" then Some s' else None end
  end.
(** io.py L470. *)
Definition month_of (s : string) : string := match after_slash s with Some r => r | None => s end.

Section File.
  Context {T : Type}.
  (** pandas HDFStore: a key without leading slash names the same node (io.py L474, L490). *)
  Definition norm (k : string) : string := match k with String "/" _ => k | _ => append "/" k end.
  (** pandas [HDFStore.get] (io.py L248). *)
  Fixpoint fget (k : string) (f : file T) : option (content T) :=
    match f with [] => None | (k', c) :: f' => if String.eqb (norm k) k' then Some c else fget k f' end.
  (** pandas [in] (io.py L474, L490, L509). *)
  Definition fmem (k : string) (f : file T) : bool := match fget k f with Some _ => true | None => false end.
  (** pandas [HDFStore.remove] (io.py L491, L510). *)
  Definition fdel (k : string) (f : file T) : file T := filter (fun p => negb (String.eqb (norm k) (fst p))) f.
  (** pandas [HDFStore.put] (io.py L493, L511): replaces what the key held. *)
  Definition fput (k : string) (c : content T) (f : file T) : file T := fdel k f ++ [(norm k, c)].
  (** io.py L422-429 [_list_keys]. *)
  Definition list_keys (f : file T) : list string :=
    filter (fun k => match strip "/trades/" k with Some _ => true | None => false end) (map fst f).
  (** io.py L431-439 [_check_keys]. *)
  Definition check_keys (f : file T) (keys : list string) : result (list string) :=
    match keys with
    | [] => Ok (list_keys f)
    | _ => if forallb (fun k => existsb (String.eqb k) (list_keys f)) keys then Ok keys else Raise KeyError
    end.
  (** Labels of the 1-second bars of some trades (io.py L484-485), or its exception. *)
  Variable build : T -> result (list Z).
  (** io.py L441-514 [process_key]: the file afterwards, and the result. *)
  Definition process_key (f : file T) (key : string) (overwrite : bool) : file T * result bool :=
    let timebar_key := replace "/trades/" "/klines/" key in
    let month_key := month_of key in
    if (fmem timebar_key f && negb overwrite)%bool then (f, Ok false)
    else
      match fget (append "/trades/" month_key) f with
      | Some (Trades t) =>
          match build t with
          | Raise e => (f, Raise e)
          | Ok bars =>
              let f1 := fput timebar_key (Bars bars) f in
              let meta_key := replace "/klines/" "/klines_meta/" timebar_key in
              match bars with
              | [] => (f1, Raise IndexError)
              | b :: _ => (fput meta_key (KMeta (mkKmeta (Z.of_nat (length bars)) b (last bars 0) key)) f1, Ok true)
              end
          end
      | _ => (f, Raise KeyError)
      end.
  (** io.py L516-562 [process_all]: an exception counts as False. *)
  Fixpoint process_all (f : file T) (keys : list string) (overwrite : bool) : file T * list (string * bool) :=
    match keys with
    | [] => (f, [])
    | k :: ks =>
        let r := process_key f k overwrite in
        let rest := process_all (fst r) ks overwrite in
        (fst rest, (k, match snd r with Ok b => b | Raise _ => false end) :: snd rest)
    end.
  (** io.py L739-759 [_find_relevant_keys] without range: the bars a reader sees. *)
  Definition reader_keys (f : file T) : list string :=
    map (replace "/klines_meta/" "/klines/")
        (filter (fun k => match strip "/klines_meta/" k with Some _ => true | None => false end) (map fst f)).

  (** io.py L244-276, L305 [get_integrity_summary] without the printing: the months with a
      false flag, their metadata and discontinuities; None when there are none. *)
  Definition summary_of (f : file T) (k : string) : list (string * (tmeta * option nat)) :=
    match fget (replace "/trades/" "/meta/" k) f with
    | Some (TMeta m) =>
        match tm_ok m with
        | Some false => [(month_of k, (m, match fget (replace "/trades/" "/integrity/" k) f with Some (Integrity n) => Some n | _ => None end))]
        | _ => []
        end
    | _ => []
    end.
  (** io.py L244-308. *)
  Definition integrity_summary (f : file T) : option (list (string * (tmeta * option nat))) :=
    match flat_map (summary_of f) (list_keys f) with [] => None | l => Some l end.
End File.
