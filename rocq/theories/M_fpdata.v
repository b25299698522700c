(** M_fpdata.v -- the footprint container FootprintData (bar/data_model.py L776-1062) and its
    conversion to a frame (bar/utils.py L129-209). float32 storage, memory_usage, __repr__ and
    the casts between numpy arrays and numba lists (same elements) are not modelled; date
    slices take exact datetimes on a time-ordered index (no partial date strings). *)
From Verif Require Import Base.
Open Scope Z_scope.

(** data_model.py L798-815: the fields; one entry per bar, optional fields may be missing. *)
Record fpdata := mkFd {
  fd_ts : list Z; fd_tick : Q; fd_lv : list (list Z);
  fd_bv : list (list Q); fd_sv : list (list Q); fd_bt : list (list Z); fd_st : list (list Z);
  fd_bi : list (list bool); fd_si : list (list bool);
  fd_cot : option (list Z); fd_sis : option (list Z); fd_bis : option (list Z);
  fd_run : option (list Z); fd_skew : option (list Q); fd_gini : option (list Q) }.
(** data_model.py L887-902 with an integer key: every field holds the entry of one bar. *)
Record fpone := mkOne {
  o_ts : Z; o_tick : Q; o_lv : list Z;
  o_bv : list Q; o_sv : list Q; o_bt : list Z; o_st : list Z; o_bi : list bool; o_si : list bool;
  o_cot : option Z; o_sis : option Z; o_bis : option Z; o_run : option Z; o_skew : option Q; o_gini : option Q }.
(** data_model.py L872-904: what [fp[key]] returns. *)
Inductive fobj := FMany (fd : fpdata) | FOne (o : fpone).
(** data_model.py L879-904: keys -- an integer slice (start, stop, step), a slice whose start or
    stop is a datetime (None: the other bound is missing), an integer, anything else. *)
Inductive fkey := FSlice (a b k : option Z) | FDate (s e k : option Z) | FInt (i : Z) | FOther.

(** Bound of a slice on [n] elements (Python [slice.indices], used by every [x[key]] of
    data_model.py L887-902): negative bounds count from the end, then clamp. *)
Definition slice_bound (n lo hi : Z) (dflt : Z) (b : option Z) : Z :=
  match b with
  | None => dflt
  | Some x => let x := if x <? 0 then x + n else x in Z.max lo (Z.min hi x)
  end.
(** The positions selected by the slice [a:b:k] out of [n] (data_model.py L887-902). *)
Definition slice_pos (n : Z) (a b : option Z) (k : Z) : list Z :=
  if 0 <? k then
    let s := slice_bound n 0 n 0 a in
    let e := slice_bound n 0 n n b in
    map (fun i => s + Z.of_nat i * k) (seq 0 (Z.to_nat (if s <? e then (e - s - 1) / k + 1 else 0)))
  else
    let s := slice_bound n (-1) (n - 1) (n - 1) a in
    let e := slice_bound n (-1) (n - 1) (-1) b in
    map (fun i => s + Z.of_nat i * k) (seq 0 (Z.to_nat (if e <? s then (s - e - 1) / (- k) + 1 else 0))).
(** data_model.py L887-902: [x[a:b:k]]. *)
Definition pyslice {A} (d : A) (l : list A) (a b : option Z) (k : Z) : list A :=
  map (fun p => nth (Z.to_nat p) l d) (slice_pos (Z.of_nat (length l)) a b k).
(** data_model.py L896-901: an optional array. *)
Definition opt_slice {A} (d : A) (l : option (list A)) (a b : option Z) (k : Z) : option (list A) :=
  option_map (fun l => pyslice d l a b k) l.
(** data_model.py L886-902 with a slice; a step of 0 raises ValueError. *)
Definition fd_slice (fd : fpdata) (a b k : option Z) : result fpdata :=
  let k := match k with None => 1 | Some k => k end in
  if k =? 0 then Raise ValueError
  else Ok (mkFd (pyslice 0 (fd_ts fd) a b k) (fd_tick fd) (pyslice [] (fd_lv fd) a b k)
             (pyslice [] (fd_bv fd) a b k) (pyslice [] (fd_sv fd) a b k)
             (pyslice [] (fd_bt fd) a b k) (pyslice [] (fd_st fd) a b k)
             (pyslice [] (fd_bi fd) a b k) (pyslice [] (fd_si fd) a b k)
             (opt_slice 0 (fd_cot fd) a b k) (opt_slice 0 (fd_sis fd) a b k) (opt_slice 0 (fd_bis fd) a b k)
             (opt_slice 0 (fd_run fd) a b k) (opt_slice 0%Q (fd_skew fd) a b k) (opt_slice 0%Q (fd_gini fd) a b k)).
(** [x[i]]: negative indices count from the end, IndexError outside (data_model.py L887-902). *)
Definition py_get {A} (l : list A) (i : Z) : option A :=
  let n := Z.of_nat (length l) in
  let j := if i <? 0 then i + n else i in
  if (0 <=? j) && (j <? n) then nth_error l (Z.to_nat j) else None.
(** data_model.py L896-901 with an integer: the entry of a missing array is None. *)
Definition opt_get {A} (l : option (list A)) (i : Z) : option (option A) :=
  match l with None => Some None | Some l => option_map Some (py_get l i) end.
(** data_model.py L886-902 with an integer key. *)
Definition fd_one (fd : fpdata) (i : Z) : result fpone :=
  match py_get (fd_ts fd) i, py_get (fd_lv fd) i, py_get (fd_bv fd) i, py_get (fd_sv fd) i, py_get (fd_bt fd) i,
        py_get (fd_st fd) i, py_get (fd_bi fd) i, py_get (fd_si fd) i with
  | Some t, Some lv, Some bv, Some sv, Some bt, Some st, Some bi, Some si =>
      match opt_get (fd_cot fd) i, opt_get (fd_sis fd) i, opt_get (fd_bis fd) i, opt_get (fd_run fd) i,
            opt_get (fd_skew fd) i, opt_get (fd_gini fd) i with
      | Some c, Some s, Some b, Some r, Some k, Some g => Ok (mkOne t (fd_tick fd) lv bv sv bt st bi si c s b r k g)
      | _, _, _, _, _, _ => Raise IndexError
      end
  | _, _, _, _, _, _, _, _ => Raise IndexError
  end.
(** data_model.py L872-904 [__getitem__]. L880: the date branch needs both bounds, and drops the
    step (L883); with one bound missing numpy rejects the datetime (TypeError). *)
Definition getitem (fd : fpdata) (key : fkey) : result fobj :=
  match key with
  | FSlice a b k => match fd_slice fd a b k with Ok r => Ok (FMany r) | Raise e => Raise e end
  | FDate (Some s) (Some e) _ =>
      match fd_slice fd (Some (Z.of_nat (ss_left (fd_ts fd) s))) (Some (Z.of_nat (ss_right (fd_ts fd) e))) None with
      | Ok r => Ok (FMany r) | Raise e => Raise e end
  | FDate _ _ _ => Raise TypeError
  | FInt i => match fd_one fd i with Ok o => Ok (FOne o) | Raise e => Raise e end
  | FOther => Raise TypeError
  end.
(** data_model.py L823-828 [__len__]; a single bar's timestamp is a number without a length. *)
Definition fd_len (o : fobj) : result nat := match o with FMany fd => Ok (length (fd_ts fd)) | FOne _ => Raise TypeError end.
(** data_model.py L1045-1059 [is_valid]. *)
Definition is_valid (fd : fpdata) : bool :=
  let n := length (fd_ts fd) in
  ((length (fd_lv fd) =? n) && (length (fd_bv fd) =? n) && (length (fd_sv fd) =? n) && (length (fd_bt fd) =? n)
   && (length (fd_st fd) =? n) && (length (fd_bi fd) =? n) && (length (fd_si fd) =? n))%nat%bool.
(** data_model.py L907-946 [from_numba]: all fields present, then the validity check. *)
Definition from_numba (fd : fpdata) : result fpdata := if is_valid fd then Ok fd else Raise ValueError.

(* ------------------------------------------------------------------ *)
(** ** The frame *)

(** utils.py L184-200: one row of the frame. *)
Record fdrow := mkFdRow { w_bar : nat; w_time : Z; w_price : Q; w_st : Z; w_bt : Z; w_sv : Q; w_bv : Q; w_si : bool; w_bi : bool }.
(** utils.py L159-171: [flat.extend(x[bar_idx])] for every bar; IndexError when the array is too short. *)
Definition flatten {A} (n : nat) (l : list (list A)) : option (list A) :=
  if (length l <? n)%nat then None else Some (concat (firstn n l)).
(** utils.py L159-163: bar position and time repeated for every level. *)
Definition labels (fd : fpdata) : list (nat * Z) :=
  concat (map (fun i => repeat (i, nth i (fd_ts fd) 0) (length (nth i (fd_lv fd) []))) (seq 0 (length (fd_ts fd)))).
(** utils.py L207: order of the rows, time ascending, then price descending. *)
Definition row_before (a b : fdrow) : bool :=
  ((w_time a <? w_time b) || ((w_time a =? w_time b) && Qleb (w_price b) (w_price a)))%bool.
(** utils.py L207: [sort_values] by two keys is stable. *)
Fixpoint fr_insert (x : fdrow) (l : list fdrow) : list fdrow :=
  match l with [] => [x] | y :: l' => if row_before x y then x :: l else y :: fr_insert x l' end.
(** utils.py L207. *)
Definition fr_sort (l : list fdrow) : list fdrow := fold_right fr_insert [] l.
(** utils.py L129-209 [footprint_to_dataframe], data_model.py L976-992 [get_df]: columns of
    different lengths raise ValueError. *)
Definition get_df (fd : fpdata) : result (list fdrow) :=
  let n := length (fd_ts fd) in
  match flatten n (fd_lv fd), flatten n (fd_bv fd), flatten n (fd_sv fd), flatten n (fd_bt fd), flatten n (fd_st fd),
        flatten n (fd_bi fd), flatten n (fd_si fd) with
  | Some lv, Some bv, Some sv, Some bt, Some st, Some bi, Some si =>
      let m := length lv in
      if ((length bv =? m) && (length sv =? m) && (length bt =? m) && (length st =? m)
          && (length bi =? m) && (length si =? m))%nat%bool
      then Ok (fr_sort (map (fun j => mkFdRow (fst (nth j (labels fd) (O, 0))) (snd (nth j (labels fd) (O, 0)))
                                       (inject_Z (nth j lv 0) * fd_tick fd)
                                       (nth j st 0) (nth j bt 0) (nth j sv 0%Q) (nth j bv 0%Q)
                                       (nth j si false) (nth j bi false)) (seq 0 m)))
      else Raise ValueError
  | _, _, _, _, _, _, _ => Raise IndexError
  end.
