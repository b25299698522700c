(** S_binance.v -- specifications for the import script. *)
From Coq Require Import Permutation Sorted.
From Verif Require Import Base M_trades M_store M_binance S_trades.
Open Scope Z_scope.

(** Letters, digits and the underscore. *)
Definition wordc (c : Z) : Prop := 48 <= c <= 57 \/ 65 <= c <= 90 \/ 97 <= c <= 122 \/ c = 95.
(** Hexadecimal digits. *)
Definition hexc (c : Z) : Prop := 48 <= c <= 57 \/ 65 <= c <= 70 \/ 97 <= c <= 102.
(** [w] is a whole word of the text: after [a], before [b]. *)
Definition word_at (s a w b : key) : Prop :=
  s = a ++ w ++ b /\ w <> [] /\ Forall wordc w /\ (forall a' c, a = a' ++ [c] -> ~ wordc c) /\ (forall c b', b = c :: b' -> ~ wordc c).
(** [w] is a word of [n] hexadecimal digits. *)
Definition hexword (n : nat) (s a w b : key) : Prop := word_at s a w b /\ length w = n /\ Forall hexc w.
(** The first such word. *)
Definition first_hexword (n : nat) (s w : key) : Prop :=
  exists a b, hexword n s a w b /\ forall a' w' b', hexword n s a' w' b' -> (length a <= length a')%nat.
(** Lower case of [w]. *)
Definition lower_of (w d : key) : Prop :=
  Forall2 (fun c l => (65 <= c <= 90 /\ l = c + 32) \/ (~ 65 <= c <= 90 /\ l = c)) w d.

(** A cell with the number [q]. *)
Definition num_cell (c : cell) (q : Q) : Prop := (exists z, c = CInt z /\ q = inject_Z z) \/ c = CNum q.
(** A text or truth value of the maker column; a missing one is read as false. *)
Definition word_flag (c : cell) (b : bool) : Prop :=
  c = CBool b \/ (c = CEmpty /\ b = false) \/ exists t l, c = CText t /\ lower_of t l /\
    (b = true <-> l = [49] \/ l = [116; 114; 117; 101] \/ l = [116] \/ l = [121; 101; 115]).
(** A number of the maker column. *)
Definition int_flag (c : cell) (b : bool) : Prop := exists z, c = CInt z /\ (b = true <-> z = 1).
(** Row [r] of the file (id, price, quantity, quote quantity, time, maker flag) as [c]. *)
Definition reads (flag : cell -> bool -> Prop) (r : list cell) (c : crow) : Prop :=
  nth_error r 0 = Some (CInt (c_id c)) /\ nth_error r 4 = Some (CInt (c_time c)) /\
  (exists x p, nth_error r 1 = Some x /\ num_cell x p /\ c_price c = Some p) /\
  (exists x q, nth_error r 2 = Some x /\ num_cell x q /\ c_qty c = Some q) /\
  (exists x, nth_error r 5 = Some x /\ flag x (c_maker c)).
(** The file holds the trades [cs], with six or seven columns. *)
Definition holds (table : list (list cell)) (cs : list crow) : Prop :=
  table <> [] /\ (exists w, (w = 6 \/ w = 7)%nat /\ forall r, In r table -> length r = w) /\
  (Forall2 (reads word_flag) table cs \/ Forall2 (reads int_flag) table cs).
(** Not an integer. *)
Definition not_int (c : cell) : Prop :=
  match c with CInt _ => False | CNum q => forall z, ~ (q == inject_Z z)%Q | _ => True end.
(** Output contract of a sort by time. *)
Definition sorts_ctime (sort : list crow -> list crow) : Prop :=
  forall l, Permutation l (sort l) /\ StronglySorted (fun a b => c_time a <= c_time b) (sort l).
(** The month an item is stored under: the month of its first trade. *)
Definition item_month (mkey : Z -> key) (td : tdata) : key :=
  match td_rows td with [] => [] | m :: _ => mkey (m_ts m) end.
(** The results of the tasks. *)
Definition item (f : rawfile -> result (option tdata)) (files : list rawfile) (td : tdata) : Prop :=
  exists x, In x files /\ f x = Ok (Some td).
(** The stored trades, metadata and gaps of an item. *)
Definition rows_for (td : tdata) : list srow := map (fun m => mkS (m_ts m) (m_px m) (m_am m) (Some (m_side m))) (td_rows td).
Definition meta_for (td : tdata) : meta :=
  mkMeta (Z.of_nat (length (td_rows td))) (hd 0 (map m_ts (td_rows td))) (last (map m_ts (td_rows td)) 0) (Some (td_ok td)) (td_missing td).
Definition gaps_for (td : tdata) : list sdisc := map (fun d => mkSD (d_start d) (d_end d) (d_missing d)) (td_disc td).
