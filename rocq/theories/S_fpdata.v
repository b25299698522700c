(** S_fpdata.v -- specification of the footprint container: aligned arrays, selection of the
    same bars from every array, rows of the frame. *)
From Coq Require Import Sorted Permutation.
From Verif Require Import Base M_fpdata.
Open Scope Z_scope.

(** Entries of [l] at the positions [ps]. *)
Definition pick {A} (d : A) (ps : list nat) (l : list A) : list A := map (fun p => nth p l d) ps.
(** All arrays have one entry per bar. *)
Definition opt_len {A} (l : option (list A)) (n : nat) : Prop := match l with None => True | Some l => length l = n end.
Record aligned (fd : fpdata) (n : nat) : Prop := {
  al_ts : length (fd_ts fd) = n; al_lv : length (fd_lv fd) = n; al_bv : length (fd_bv fd) = n; al_sv : length (fd_sv fd) = n;
  al_bt : length (fd_bt fd) = n; al_st : length (fd_st fd) = n; al_bi : length (fd_bi fd) = n; al_si : length (fd_si fd) = n;
  al_cot : opt_len (fd_cot fd) n; al_sis : opt_len (fd_sis fd) n; al_bis : opt_len (fd_bis fd) n;
  al_run : opt_len (fd_run fd) n; al_skew : opt_len (fd_skew fd) n; al_gini : opt_len (fd_gini fd) n }.
(** [fd'] holds exactly the bars of [fd] at the positions [ps], in that order, in every array. *)
Record selects (ps : list nat) (fd fd' : fpdata) : Prop := {
  se_tick : fd_tick fd' = fd_tick fd;
  se_ts : fd_ts fd' = pick 0 ps (fd_ts fd); se_lv : fd_lv fd' = pick [] ps (fd_lv fd);
  se_bv : fd_bv fd' = pick [] ps (fd_bv fd); se_sv : fd_sv fd' = pick [] ps (fd_sv fd);
  se_bt : fd_bt fd' = pick [] ps (fd_bt fd); se_st : fd_st fd' = pick [] ps (fd_st fd);
  se_bi : fd_bi fd' = pick [] ps (fd_bi fd); se_si : fd_si fd' = pick [] ps (fd_si fd);
  se_cot : fd_cot fd' = option_map (pick 0 ps) (fd_cot fd);
  se_sis : fd_sis fd' = option_map (pick 0 ps) (fd_sis fd);
  se_bis : fd_bis fd' = option_map (pick 0 ps) (fd_bis fd);
  se_run : fd_run fd' = option_map (pick 0 ps) (fd_run fd);
  se_skew : fd_skew fd' = option_map (pick 0%Q ps) (fd_skew fd);
  se_gini : fd_gini fd' = option_map (pick 0%Q ps) (fd_gini fd) }.
(** Each bar has one entry per price level in every level array. *)
Definition levels_aligned (fd : fpdata) : Prop :=
  forall i, let n := length (nth i (fd_lv fd) []) in
    length (nth i (fd_bv fd) []) = n /\ length (nth i (fd_sv fd) []) = n /\ length (nth i (fd_bt fd) []) = n /\
    length (nth i (fd_st fd) []) = n /\ length (nth i (fd_bi fd) []) = n /\ length (nth i (fd_si fd) []) = n.
(** The row of level [j] of bar [i]. *)
Definition level_row (fd : fpdata) (i j : nat) : fdrow :=
  mkFdRow i (nth i (fd_ts fd) 0) (inject_Z (nth j (nth i (fd_lv fd) []) 0) * fd_tick fd)
    (nth j (nth i (fd_st fd) []) 0) (nth j (nth i (fd_bt fd) []) 0)
    (nth j (nth i (fd_sv fd) []) 0%Q) (nth j (nth i (fd_bv fd) []) 0%Q)
    (nth j (nth i (fd_si fd) []) false) (nth j (nth i (fd_bi fd) []) false).
(** Rows of bar [i], levels in stored order. *)
Definition bar_rows (fd : fpdata) (i : nat) : list fdrow :=
  map (level_row fd i) (seq 0 (length (nth i (fd_lv fd) []))).
(** Time ascending, price descending within a time. *)
Definition row_order (a b : fdrow) : Prop :=
  (w_time a < w_time b)%Z \/ (w_time a = w_time b /\ (w_price b <= w_price a)%Q).
