(** S_download.v -- specifications for the downloads of the import script. *)
From Coq Require Import String.
From Verif Require Import Base M_store M_tbio M_binance M_download.
Open Scope Z_scope.

(** What request number [i] of a row of requests for [u] gets, after the requests [h]. *)
Definition reply (net : list key -> key -> response) (h : list key) (u : key) (i : nat) : response := net (h ++ repeat u i)%list u.
(** A request that raises. *)
Definition failing (r : response) : Prop := r = Refused \/ exists p, r = Broken p.
(** The file after the failing requests 0..i-1: what the last broken one wrote, or what was there. *)
Definition left_over (r : nat -> response) (i : nat) (old x : option key) : Prop :=
  (exists j p, (j < i)%nat /\ r j = Broken p /\ (forall k, (j < k < i)%nat -> r k = Refused) /\ x = Some p) \/
  ((forall j, (j < i)%nat -> r j = Refused) /\ x = old).
(** Two directories that differ at most in the files of [l]. *)
Definition same_but (l : list key) (a b : list (key * key)) : Prop := forall n, ~ In n l -> kget n b = kget n a.
(** A server that answers every request in the same way, with the file [data u] or 404. *)
Definition steady (net : list key -> key -> response) (data : key -> option key) : Prop :=
  forall h u, net h u = match data u with Some b => Body b | None => NotFound end.
(** The checksum file [k] accepts the content [b]. *)
Definition accepts (sha md5 : key -> key) (k b : key) : Prop := verify_checksum (Some k) (Some (sha b)) (Some (md5 b)) = true.
(** The server has the file [b] at [u], with a checksum file [k] that accepts it and rejects any other content of the local file [x]. *)
Definition honest (sha md5 : key -> key) (data : key -> option key) (u b k : key) (x : option key) : Prop :=
  data u = Some b /\ data (u ++ dot_checksum)%list = Some k /\ accepts sha md5 k b /\ forall y, x = Some y -> accepts sha md5 k y -> y = b.
(** Months that can be written with four digits. *)
Definition plain_month (m : month) : Prop := 0 <= fst m < 10000 /\ 1 <= snd m <= 12.
(** The three market paths. *)
Definition market_dir (p : key) : Prop := p = txt "spot" \/ p = txt "um" \/ p = txt "cm".
(** The files of one month before a run: the server has no such month and there is no file, or the server is honest and the checksum file
    is not there yet, or the server's. *)
Definition served (sha md5 : key -> key) (data : key -> option key) (p sym : key) (fs : list (key * key)) (m : month) : Prop :=
  let f := zip_name sym m in let u := zip_url p sym m in
  (data u = None /\ kget f fs = None) \/
  exists b k, honest sha md5 data u b k (kget f fs) /\ (kget (f ++ dot_checksum)%list fs = None \/ kget (f ++ dot_checksum)%list fs = Some k).
(** The names of the two files of each month. *)
Definition month_files (sym : key) (ms : list month) : list key := flat_map (fun m => [zip_name sym m; (zip_name sym m ++ dot_checksum)%list]) ms.
