(** M_inspect.v -- looking into a file of trades and bars (bar/io.py L101-198 [H5Inspector],
    L677-696 [TimeBarReader.list_keys]). Files by absolute keys are those of M_addbar.v; the
    statistics read the rows of the store of M_store.v. *)
From Coq Require Import String Ascii.
From Verif Require Import Base M_logic M_addbar M_store.
Open Scope Z_scope.

Section File.
  Context {T : Type}.
  (** io.py L111-112 [H5Inspector.list_keys]. *)
  Definition inspector_keys (f : file T) : list string :=
    filter (fun k => match strip "/trades/" k with Some _ => true | None => false end) (map fst f).
  (** io.py L695-696 [TimeBarReader.list_keys]. *)
  Definition bar_keys (f : file T) : list string :=
    filter (fun k => match strip "/klines/" k with Some _ => true | None => false end) (map fst f).
  (** io.py L131, L156 [key not in store.keys()]: the exact text is looked up. *)
  Definition in_keys (k : string) (f : file T) : bool := existsb (String.eqb k) (map fst f).
  (** io.py L130-134 [get_metadata]; [store[meta_key]] raises KeyError without such a node. *)
  Definition get_metadata (f : file T) (key : string) : result (content T) :=
    if in_keys key f then
      match fget (replace "/trades/" "/meta/" key) f with Some c => Ok c | None => Raise KeyError end
    else Raise KeyError.
  (** io.py L155-166 [get_integrity_info]. *)
  Definition get_integrity_info (f : file T) (key : string) : result (option (content T)) :=
    if in_keys key f then Ok (fget (replace "/trades/" "/integrity/" key) f) else Raise KeyError.
End File.

(** io.py L189-198: what [get_statistics] returns. *)
Record stats := mkStats { x_count : Z; x_first : Z; x_last : Z; x_price : Q * Q; x_amount : Q * Q }.
(** pandas [Series.min] and [Series.max] of integers (io.py L193-194). *)
Definition zmin (x : Z) (l : list Z) : Z := fold_left Z.min l x.
(** pandas [Series.max] (io.py L194). *)
Definition zmax (x : Z) (l : list Z) : Z := fold_left Z.max l x.
(** pandas [Series.min] of floats without NaN (io.py L195-196). *)
Definition qmin (x : Q) (l : list Q) : Q := fold_left (fun m y => if Qltb y m then y else m) l x.
(** pandas [Series.max] (io.py L195-196). *)
Definition qmax (x : Q) (l : list Q) : Q := fold_left (fun m y => if Qltb m y then y else m) l x.
(** io.py L187-198 [get_statistics] of the month k; a stored month has at least one row
    (PyTables stores no empty table), so the empty case does not arise. *)
Definition get_statistics (st : store) (k : key) : result stats :=
  match kget k (st_rows st) with
  | Some (r :: rows) =>
      Ok (mkStats (Z.of_nat (length (r :: rows))) (zmin (w_ts r) (map w_ts rows)) (zmax (w_ts r) (map w_ts rows))
                  (qmin (w_px r) (map w_px rows), qmax (w_px r) (map w_px rows))
                  (qmin (w_am r) (map w_am rows), qmax (w_am r) (map w_am rows)))
  | _ => Raise KeyError
  end.
(** io.py L101-134 on the store of M_store.v: the months with trades and their metadata. *)
Definition store_keys (st : store) : list key := map fst (st_rows st).
(** io.py L130-134 [get_metadata]. *)
Definition store_metadata (st : store) (k : key) : result meta :=
  if kmem k (st_rows st) then match kget k (st_meta st) with Some m => Ok m | None => Raise KeyError end else Raise KeyError.
(** io.py L155-166 [get_integrity_info]. *)
Definition store_integrity (st : store) (k : key) : result (option (list sdisc)) :=
  if kmem k (st_rows st) then Ok (kget k (st_integ st)) else Raise KeyError.
