(** T_fpdata.v -- theorems on the footprint container and its frame (C123, C124). *)
From Coq Require Import Sorted Permutation.
From Verif Require Import Base M_fpdata S_fpdata.
Open Scope Z_scope.

(* ------------------------------------------------------------------ *)
(** ** Positions of a slice *)

Lemma bound_range n lo hi d b : lo <= d <= hi -> lo <= hi -> lo <= slice_bound n lo hi d b <= hi.
Proof. intros H H0. unfold slice_bound. destruct b as [x|]; lia. Qed.

Lemma slice_pos_range n a b k p : 0 <= n -> k <> 0 -> In p (slice_pos n a b k) -> 0 <= p < n.
Proof.
  intros Hn Hk. unfold slice_pos. destruct (Z.ltb_spec 0 k) as [H|H].
  - set (s := slice_bound n 0 n 0 a). set (e := slice_bound n 0 n n b).
    assert (0 <= s <= n) by (apply bound_range; lia). assert (0 <= e <= n) by (apply bound_range; lia).
    rewrite in_map_iff. intros [i [<- I]]. apply in_seq in I. destruct (Z.ltb_spec s e); [|lia].
    assert (0 <= (e - s - 1) / k) by (apply Z.div_pos; lia).
    assert (Z.of_nat i <= (e - s - 1) / k) by lia.
    pose proof (Z.mul_div_le (e - s - 1) k H). nia.
  - set (s := slice_bound n (-1) (n - 1) (n - 1) a). set (e := slice_bound n (-1) (n - 1) (-1) b).
    assert (-1 <= s <= n - 1) by (apply bound_range; lia). assert (-1 <= e <= n - 1) by (apply bound_range; lia).
    rewrite in_map_iff. intros [i [<- I]]. apply in_seq in I. destruct (Z.ltb_spec e s); [|lia].
    assert (0 <= (s - e - 1) / (- k)) by (apply Z.div_pos; lia).
    assert (Z.of_nat i <= (s - e - 1) / (- k)) by lia.
    pose proof (Z.mul_div_le (s - e - 1) (- k) ltac:(lia)). nia.
Qed.

Lemma slice_pos_step n a b k i : (S i < length (slice_pos n a b k))%nat ->
  nth (S i) (slice_pos n a b k) 0 = nth i (slice_pos n a b k) 0 + k.
Proof.
  assert (E : forall s m j, (j < m)%nat -> nth j (map (fun i => s + Z.of_nat i * k) (seq 0 m)) 0 = s + Z.of_nat j * k).
  { intros s m j Hj. rewrite (nth_indep _ 0 (s + Z.of_nat 0 * k)) by (rewrite map_length, seq_length; lia).
    rewrite (map_nth (fun i => s + Z.of_nat i * k)), seq_nth by lia. reflexivity. }
  unfold slice_pos. destruct (0 <? k); intro H; rewrite map_length, seq_length in H; rewrite !E by lia; lia.
Qed.

Lemma pyslice_pick {A} (d : A) l a b k : pyslice d l a b k = pick d (map Z.to_nat (slice_pos (Z.of_nat (length l)) a b k)) l.
Proof. unfold pyslice, pick. now rewrite map_map. Qed.

(** [l[a:b]] with 0 <= a, 0 <= b. *)
Lemma pos_range n a b : 0 <= n -> 0 <= a -> 0 <= b ->
  map Z.to_nat (slice_pos n (Some a) (Some b) 1) = seq (Z.to_nat a) (Z.to_nat (Z.min b n) - Z.to_nat a).
Proof.
  intros Hn Ha Hb. unfold slice_pos, slice_bound. cbn [Z.ltb Z.compare].
  destruct (Z.ltb_spec a 0); [lia|]. destruct (Z.ltb_spec b 0); [lia|].
  set (s := Z.max 0 (Z.min n a)). set (e := Z.max 0 (Z.min n b)).
  replace (Z.to_nat (if s <? e then (e - s - 1) / 1 + 1 else 0)) with (Z.to_nat (Z.min b n) - Z.to_nat a)%nat.
  2:{ rewrite Z.div_1_r. destruct (Z.ltb_spec s e); lia. }
  rewrite map_map. destruct (Nat.eq_dec (Z.to_nat (Z.min b n) - Z.to_nat a) 0) as [->|N]; [reflexivity|].
  apply (nth_ext _ _ 0%nat 0%nat); [now rewrite map_length, !seq_length|].
  intros i Hi. rewrite map_length, seq_length in Hi.
  rewrite (nth_indep _ 0%nat (Z.to_nat (s + Z.of_nat 0 * 1))) by (rewrite map_length, seq_length; lia).
  rewrite (map_nth (fun i => Z.to_nat (s + Z.of_nat i * 1)) _ 0%nat), !seq_nth by lia. lia.
Qed.

Lemma pick_seq {A} (d : A) (l : list A) a n : (a + n <= length l)%nat -> pick d (seq a n) l = firstn n (skipn a l).
Proof.
  intro H. unfold pick. apply (nth_ext _ _ d d).
  - rewrite map_length, seq_length, firstn_length, skipn_length. lia.
  - intros i Hi. rewrite map_length, seq_length in Hi.
    rewrite (nth_indep _ d (nth 0%nat l d)) by (rewrite map_length, seq_length; lia).
    rewrite (map_nth (fun p => nth p l d) _ 0%nat), seq_nth by lia.
    rewrite nth_firstn, nth_skipn by lia. reflexivity.
Qed.

Lemma pos_tail n m : 0 <= m <= n -> 0 < m ->
  map Z.to_nat (slice_pos n (Some (- m)) None 1) = seq (Z.to_nat (n - m)) (Z.to_nat m).
Proof.
  intros H Hm. assert (E : slice_pos n (Some (- m)) None 1 = slice_pos n (Some (n - m)) (Some n) 1).
  { unfold slice_pos, slice_bound. cbn [Z.ltb Z.compare].
    destruct (Z.ltb_spec (- m) 0); [|lia]. destruct (Z.ltb_spec (n - m) 0); [lia|]. destruct (Z.ltb_spec n 0); [lia|].
    replace (- m + n) with (n - m) by lia. replace (Z.max 0 (Z.min n n)) with n by lia. reflexivity. }
  rewrite E, pos_range by lia. f_equal. lia.
Qed.

Lemma pos_reverse n : 0 <= n -> map Z.to_nat (slice_pos n None None (-1)) = rev (seq 0 (Z.to_nat n)).
Proof.
  intro H. unfold slice_pos, slice_bound. cbn [Z.ltb Z.compare]. rewrite map_map.
  replace (Z.to_nat (if -1 <? n - 1 then (n - 1 - -1 - 1) / - (-1) + 1 else 0)) with (Z.to_nat n).
  2:{ change (- (-1)) with 1. rewrite Z.div_1_r. destruct (Z.ltb_spec (-1) (n - 1)); lia. }
  apply (nth_ext _ _ 0%nat 0%nat); [now rewrite map_length, rev_length, !seq_length|].
  intros i Hi. rewrite map_length, seq_length in Hi.
  rewrite (nth_indep _ 0%nat (Z.to_nat (n - 1 + Z.of_nat 0 * -1))) by (rewrite map_length, seq_length; lia).
  rewrite (map_nth (fun i => Z.to_nat (n - 1 + Z.of_nat i * -1)) _ 0%nat), rev_nth, seq_length, !seq_nth by (rewrite ?seq_length; lia). lia.
Qed.

(* ------------------------------------------------------------------ *)
(** ** C123: slices keep the arrays together *)

Lemma slice_selects fd n a b k fd' : aligned fd n -> fd_slice fd a b k = Ok fd' ->
  let kk := match k with None => 1 | Some k => k end in
  kk <> 0 /\ selects (map Z.to_nat (slice_pos (Z.of_nat n) a b kk)) fd fd'.
Proof.
  intros A. unfold fd_slice. cbv zeta. set (kk := match k with None => 1 | Some k => k end).
  destruct (Z.eqb_spec kk 0) as [|K]; [discriminate|]. intro E. injection E as <-. split; [exact K|].
  destruct A as [L1 L2 L3 L4 L5 L6 L7 L8 O1 O2 O3 O4 O5 O6].
  assert (OP : forall A (d : A) o, opt_len o n ->
    opt_slice d o a b kk = option_map (pick d (map Z.to_nat (slice_pos (Z.of_nat n) a b kk))) o).
  { intros A0 d [l|] Ho; cbn in *; [|reflexivity]. now rewrite pyslice_pick, Ho. }
  constructor; cbn [fd_tick fd_ts fd_lv fd_bv fd_sv fd_bt fd_st fd_bi fd_si fd_cot fd_sis fd_bis fd_run fd_skew fd_gini];
    try reflexivity; try (rewrite pyslice_pick; congruence); apply OP; assumption.
Qed.

(** Every slice takes the same bars from every array: positions inside the container, a fixed step apart. *)
Theorem C123_slice_aligned : forall fd n a b k fd', aligned fd n -> fd_slice fd a b k = Ok fd' ->
  exists ps, selects ps fd fd' /\ (forall p, In p ps -> (p < n)%nat) /\
    (forall i, (S i < length ps)%nat ->
       Z.of_nat (nth (S i) ps 0%nat) = Z.of_nat (nth i ps 0%nat) + match k with None => 1 | Some k => k end).
Proof.
  intros fd n a b k fd' A E. destruct (slice_selects _ _ _ _ _ _ A E) as [K S0]. cbv zeta in *.
  set (kk := match k with None => 1 | Some k => k end) in *.
  exists (map Z.to_nat (slice_pos (Z.of_nat n) a b kk)). split; [exact S0|]. split.
  - intros p Hp. apply in_map_iff in Hp. destruct Hp as [q [<- Hq]]. apply slice_pos_range in Hq; lia.
  - intros i Hi. rewrite map_length in Hi.
    assert (N : forall j, (j < length (slice_pos (Z.of_nat n) a b kk))%nat ->
      Z.of_nat (nth j (map Z.to_nat (slice_pos (Z.of_nat n) a b kk)) 0%nat) = nth j (slice_pos (Z.of_nat n) a b kk) 0).
    { intros j Hj. change 0%nat with (Z.to_nat 0) at 1. rewrite map_nth.
      pose proof (slice_pos_range (Z.of_nat n) a b kk _ ltac:(lia) K (nth_In _ 0 Hj)). lia. }
    rewrite !N by lia. now apply slice_pos_step.
Qed.

(** fp[a:b] for 0 <= a, 0 <= b: exactly the bars from a up to, not including, b. *)
Theorem C123_range : forall fd n a b, aligned fd n -> 0 <= a -> 0 <= b ->
  exists fd', fd_slice fd (Some a) (Some b) None = Ok fd' /\
    selects (seq (Z.to_nat a) (Nat.min (Z.to_nat b) n - Z.to_nat a)) fd fd'.
Proof.
  intros fd n a b A Ha Hb. destruct (fd_slice fd (Some a) (Some b) None) as [fd'|e] eqn:E; [|discriminate].
  exists fd'. split; [reflexivity|]. destruct (slice_selects _ _ _ _ _ _ A E) as [_ S0]. cbv beta zeta iota in S0.
  rewrite pos_range in S0 by lia. replace (Nat.min (Z.to_nat b) n - Z.to_nat a)%nat with (Z.to_nat (Z.min b (Z.of_nat n)) - Z.to_nat a)%nat by lia.
  exact S0.
Qed.
(** fp[-m:]: the last m bars. fp[::-1]: all bars in reverse order. *)
Theorem C123_tail : forall fd n m, aligned fd n -> 0 < m <= Z.of_nat n ->
  exists fd', fd_slice fd (Some (- m)) None None = Ok fd' /\ selects (seq (n - Z.to_nat m) (Z.to_nat m)) fd fd'.
Proof.
  intros fd n m A Hm. destruct (fd_slice fd (Some (- m)) None None) as [fd'|e] eqn:E; [|discriminate].
  exists fd'. split; [reflexivity|]. destruct (slice_selects _ _ _ _ _ _ A E) as [_ S0]. cbv beta zeta iota in S0.
  rewrite pos_tail in S0 by lia. replace (n - Z.to_nat m)%nat with (Z.to_nat (Z.of_nat n - m)) by lia. exact S0.
Qed.
Theorem C123_reverse : forall fd n, aligned fd n ->
  exists fd', fd_slice fd None None (Some (-1)) = Ok fd' /\ selects (rev (seq 0 n)) fd fd'.
Proof.
  intros fd n A. destruct (fd_slice fd None None (Some (-1))) as [fd'|e] eqn:E; [|discriminate].
  exists fd'. split; [reflexivity|]. destruct (slice_selects _ _ _ _ _ _ A E) as [_ S0]. cbv beta zeta iota in S0.
  rewrite pos_reverse, Nat2Z.id in S0 by lia. exact S0.
Qed.

Lemma selects_aligned ps fd fd' : selects ps fd fd' -> aligned fd' (length ps).
Proof.
  assert (OL : forall A (d : A) o, opt_len (option_map (pick d ps) o) (length ps)).
  { intros A d [l|]; cbn; [apply map_length|exact I]. }
  intros []. constructor; try (match goal with H : ?f fd' = _ |- context[?f fd'] => rewrite H end; first [apply map_length|apply OL]).
Qed.
Lemma selects_trans ps qs fd fd' fd'' : (forall q, In q qs -> (q < length ps)%nat) ->
  selects ps fd fd' -> selects qs fd' fd'' -> selects (map (fun q => nth q ps 0%nat) qs) fd fd''.
Proof.
  intros Q A B.
  assert (P : forall A (d : A) l, pick d qs (pick d ps l) = pick d (map (fun q => nth q ps 0%nat) qs) l).
  { intros A0 d l. unfold pick. rewrite map_map. apply map_ext_in. intros q Hq.
    rewrite (nth_indep _ d (nth 0%nat l d)) by (rewrite map_length; auto). now rewrite (map_nth (fun p => nth p l d)). }
  assert (OP : forall A (d : A) o, option_map (pick d qs) (option_map (pick d ps) o) = option_map (pick d (map (fun q => nth q ps 0%nat) qs)) o).
  { intros A0 d [l|]; cbn; [now rewrite P|reflexivity]. }
  destruct A, B. constructor; try congruence;
    match goal with H : ?f fd'' = _, G : ?f fd' = _ |- ?f fd'' = _ => rewrite H, G; first [apply P|apply OP] end.
Qed.
Lemma selects_unique ps fd f g : selects ps fd f -> selects ps fd g -> f = g.
Proof.
  intros [] []. destruct f as [f0 f1 f2 f3 f4 f5 f6 f7 f8 f9 f10 f11 f12 f13 f14], g as [g0 g1 g2 g3 g4 g5 g6 g7 g8 g9 g10 g11 g12 g13 g14]; cbn [fd_tick fd_ts fd_lv fd_bv fd_sv fd_bt fd_st fd_bi fd_si fd_cot fd_sis fd_bis fd_run fd_skew fd_gini] in *.
  subst. reflexivity.
Qed.
(** A slice of a slice is a slice. *)
Theorem C123_compose : forall fd n a b c d fd1 fd2, aligned fd n -> 0 <= a <= b -> 0 <= c -> 0 <= d ->
  fd_slice fd (Some a) (Some b) None = Ok fd1 -> fd_slice fd1 (Some c) (Some d) None = Ok fd2 ->
  fd_slice fd (Some (a + c)) (Some (Z.min (a + d) b)) None = Ok fd2.
Proof.
  intros fd n a b c d fd1 fd2 A Ha Hc Hd E1 E2.
  destruct (C123_range fd n a b A ltac:(lia) ltac:(lia)) as [f1 [F1 S1]]. rewrite E1 in F1. injection F1 as <-.
  pose proof (selects_aligned _ _ _ S1) as A1. rewrite seq_length in A1.
  destruct (C123_range _ _ c d A1 ltac:(lia) ltac:(lia)) as [f2 [F2 S2]]. rewrite E2 in F2. injection F2 as <-.
  destruct (C123_range fd n (a + c) (Z.min (a + d) b) A ltac:(lia) ltac:(lia)) as [f3 [F3 S3]]. rewrite F3. f_equal.
  set (m := (Nat.min (Z.to_nat b) n - Z.to_nat a)%nat) in *.
  assert (QQ : forall q, In q (seq (Z.to_nat c) (Nat.min (Z.to_nat d) m - Z.to_nat c)) -> (q < length (seq (Z.to_nat a) m))%nat).
  { intros q Hq. apply in_seq in Hq. rewrite seq_length. lia. }
  pose proof (selects_trans _ _ _ _ _ QQ S1 S2) as S4.
  replace (map (fun q => nth q (seq (Z.to_nat a) m) 0%nat) (seq (Z.to_nat c) (Nat.min (Z.to_nat d) m - Z.to_nat c)))
    with (seq (Z.to_nat (a + c)) (Nat.min (Z.to_nat (Z.min (a + d) b)) n - Z.to_nat (a + c))) in S4.
  2:{ replace (Nat.min (Z.to_nat (Z.min (a + d) b)) n - Z.to_nat (a + c))%nat with (Nat.min (Z.to_nat d) m - Z.to_nat c)%nat
        by (clear - Ha Hc Hd; assert (Z.to_nat a <= Z.to_nat b)%nat by lia; unfold m; rewrite Z2Nat.inj_min, !Z2Nat.inj_add by lia; lia).
      apply (nth_ext _ _ 0%nat 0%nat); [now rewrite map_length, !seq_length|]. intros i Hi. rewrite seq_length in Hi.
      rewrite seq_nth by lia. rewrite (nth_indep _ 0%nat (nth 0%nat (seq (Z.to_nat a) m) 0%nat)) by (rewrite map_length, seq_length; lia).
      rewrite (map_nth (fun q => nth q (seq (Z.to_nat a) m) 0%nat)).
      pose proof (seq_nth (Z.to_nat c) 0%nat Hi) as I1.
      rewrite I1, seq_nth by lia. lia. }
  exact (selects_unique _ _ _ _ S3 S4).
Qed.

Lemma pyslice_length {A B} (d : A) (e : B) l m a b k : length l = length m -> length (pyslice d l a b k) = length (pyslice e m a b k).
Proof. intro H. unfold pyslice. now rewrite !map_length, H. Qed.
(** Slicing a valid container gives a valid container. *)
Theorem C123_valid_kept : forall fd a b k fd', is_valid fd = true -> fd_slice fd a b k = Ok fd' -> is_valid fd' = true.
Proof.
  intros fd a b k fd' V. unfold fd_slice. cbv zeta. set (kk := match k with None => 1 | Some k => k end).
  destruct (kk =? 0); [discriminate|]. intro E. injection E as <-. unfold is_valid in *.
  cbn [fd_ts fd_lv fd_bv fd_sv fd_bt fd_st fd_bi fd_si] in *. rewrite !andb_true_iff, !Nat.eqb_eq in *.
  decompose [and] V. repeat split; apply pyslice_length; assumption.
Qed.
Theorem C123_from_numba : forall fd fd', from_numba fd = Ok fd' -> fd' = fd /\
  length (fd_lv fd) = length (fd_ts fd) /\ length (fd_bv fd) = length (fd_ts fd) /\ length (fd_sv fd) = length (fd_ts fd) /\
  length (fd_bt fd) = length (fd_ts fd) /\ length (fd_st fd) = length (fd_ts fd) /\ length (fd_bi fd) = length (fd_ts fd) /\
  length (fd_si fd) = length (fd_ts fd).
Proof.
  intros fd fd'. unfold from_numba. destruct (is_valid fd) eqn:V; [|discriminate]. intro E. injection E as <-.
  unfold is_valid in V. rewrite !andb_true_iff, !Nat.eqb_eq in V. tauto.
Qed.

Lemma filter_between a b n : filter (fun i => ((a <=? i) && (i <? b))%nat%bool) (seq 0 n) = seq a (Nat.min b n - a).
Proof.
  induction n as [|n IH]; [replace (Nat.min b 0 - a)%nat with 0%nat by lia; reflexivity|].
  rewrite seq_S, filter_app, IH. cbn [filter Nat.add].
  destruct (Nat.leb_spec a n); destruct (Nat.ltb_spec n b); cbn [andb].
  - replace (Nat.min b (S n) - a)%nat with (S (Nat.min b n - a)) by lia. rewrite seq_S. do 2 f_equal. lia.
  - rewrite app_nil_r. f_equal. lia.
  - rewrite app_nil_r. f_equal. lia.
  - rewrite app_nil_r. f_equal. lia.
Qed.
(** A date slice takes exactly the bars in the closed range; its step is ignored. *)
Theorem C123_dates : forall fd n s e k, aligned fd n -> ascZ (fd_ts fd) ->
  exists fd', getitem fd (FDate (Some s) (Some e) k) = Ok (FMany fd') /\
    selects (filter (fun i => (s <=? nth i (fd_ts fd) 0) && (nth i (fd_ts fd) 0 <=? e)) (seq 0 n)) fd fd'.
Proof.
  intros fd n s e k A H. cbn [getitem].
  set (a := ss_left (fd_ts fd) s). set (b := ss_right (fd_ts fd) e).
  destruct (C123_range fd n (Z.of_nat a) (Z.of_nat b) A ltac:(lia) ltac:(lia)) as [fd' [E S0]].
  exists fd'. rewrite E. split; [reflexivity|]. rewrite !Nat2Z.id, <- filter_between in S0.
  erewrite filter_ext_in; [exact S0|]. intros i Hi. apply in_seq in Hi. cbv beta.
  destruct A as [L _ _ _ _ _ _ _ _ _ _ _ _ _].
  destruct (Nat.leb_spec a i) as [H1|H1]; destruct (Nat.ltb_spec i b) as [H2|H2]; cbn [andb].
  - pose proof (ss_left_ge _ s i H ltac:(unfold a in *; lia)). pose proof (ss_right_lt _ e i H2). lia.
  - pose proof (ss_right_ge _ e i H ltac:(unfold b in *; lia)). lia.
  - pose proof (ss_left_lt _ s i H1). lia.
  - pose proof (ss_left_lt _ s i H1). lia.
Qed.
(** One-sided date slices, and keys of other types, are rejected. *)
Theorem C123_half_open : forall fd s k, getitem fd (FDate (Some s) None k) = Raise TypeError /\
  getitem fd (FDate None (Some s) k) = Raise TypeError /\ getitem fd FOther = Raise TypeError.
Proof. repeat split; reflexivity. Qed.

Lemma py_get_nat {A} (d : A) l i : (i < length l)%nat -> py_get l (Z.of_nat i) = Some (nth i l d).
Proof.
  intro H. unfold py_get. destruct (Z.ltb_spec (Z.of_nat i) 0); [lia|].
  destruct (Z.leb_spec 0 (Z.of_nat i)); [|lia]. destruct (Z.ltb_spec (Z.of_nat i) (Z.of_nat (length l))); [|lia].
  cbn [andb]. rewrite Nat2Z.id. now apply nth_error_nth'.
Qed.
(** An integer key gives an object holding bar i, whose length cannot be taken. *)
Theorem C123_int_no_length : forall fd n i, aligned fd n -> (i < n)%nat ->
  exists o, getitem fd (FInt (Z.of_nat i)) = Ok (FOne o) /\ fd_len (FOne o) = Raise TypeError /\
    o_ts o = nth i (fd_ts fd) 0 /\ o_lv o = nth i (fd_lv fd) [] /\ o_bv o = nth i (fd_bv fd) [] /\
    o_sv o = nth i (fd_sv fd) [] /\ o_bt o = nth i (fd_bt fd) [] /\ o_st o = nth i (fd_st fd) [] /\
    o_bi o = nth i (fd_bi fd) [] /\ o_si o = nth i (fd_si fd) [] /\ o_tick o = fd_tick fd.
Proof.
  intros fd n i A Hi. cbn [getitem]. unfold fd_one.
  destruct A as [L1 L2 L3 L4 L5 L6 L7 L8 O1 O2 O3 O4 O5 O6].
  rewrite (py_get_nat 0), !(py_get_nat []) by lia.
  assert (OG : forall A (d : A) (o : option (list A)), opt_len o n -> exists r, opt_get o (Z.of_nat i) = Some r).
  { intros A d [l|] Ho; cbn in *; [rewrite (py_get_nat d) by lia; cbn; eauto|eauto]. }
  destruct (OG _ 0 _ O1) as [r1 ->]. destruct (OG _ 0 _ O2) as [r2 ->]. destruct (OG _ 0 _ O3) as [r3 ->].
  destruct (OG _ 0 _ O4) as [r4 ->]. destruct (OG _ 0%Q _ O5) as [r5 ->]. destruct (OG _ 0%Q _ O6) as [r6 ->].
  eexists. split; [reflexivity|]. cbn. repeat split; reflexivity.
Qed.

Definition ex_fd : fpdata :=
  mkFd [10; 20; 30] (1 # 2) [[4; 5]; [5]; [3; 4; 5]] [[1; 2]; [3]; [0; 1; 1]]%Q [[0; 1]; [1]; [2; 0; 0]]%Q
    [[1; 2]; [1]; [0; 1; 1]] [[0; 1]; [1]; [1; 0; 0]] [[false; true]; [false]; [false; true; false]]
    [[false; false]; [false]; [false; false; false]] (Some [5; 5; 3]) None None None (Some [0; 0; 1 # 3]%Q) None.
Example C123_example : aligned ex_fd 3 /\ levels_aligned ex_fd /\
  (exists fd', fd_slice ex_fd (Some 1) (Some 9) None = Ok fd' /\ fd_ts fd' = [20; 30] /\ fd_cot fd' = Some [5; 3]) /\
  (exists fd', fd_slice ex_fd None None (Some (-2)) = Ok fd' /\ fd_ts fd' = [30; 10] /\ fd_lv fd' = [[3; 4; 5]; [4; 5]]) /\
  (exists fd', getitem ex_fd (FDate (Some 10) (Some 20) (Some 2)) = Ok (FMany fd') /\ fd_ts fd' = [10; 20]).
Proof.
  split; [constructor; reflexivity|]. split.
  - intro i. do 3 (destruct i as [|i]; [repeat split; reflexivity|]). destruct i; repeat split; reflexivity.
  - repeat split; eexists; (split; [reflexivity|]); split; reflexivity || reflexivity.
Qed.
(** A container can pass the validity check and still be misaligned: the frame then shows volume of
    bar 0 at a level of bar 1. *)
Theorem C123_valid_refuted : exists fd rows r, is_valid fd = true /\ get_df fd = Ok rows /\ In r rows /\
  w_bar r = 1%nat /\ (w_bv r == 8)%Q /\ nth 1 (fd_bv fd) [] = [] /\ nth 0 (fd_bv fd) [] = [7; 8]%Q.
Proof.
  exists (mkFd [10; 20] 1 [[1]; [2]] [[7; 8]; []]%Q [[0]; [0]]%Q [[1]; [1]] [[0]; [0]] [[false]; [false]] [[false]; [false]] None None None None None None).
  eexists. eexists. split; [reflexivity|]. split; [vm_compute; reflexivity|]. split; [right; left; reflexivity|]. repeat split; reflexivity.
Qed.

(* ------------------------------------------------------------------ *)
(** ** C124: the frame *)

(** Positions (bar, level) in stored order. *)
Definition cells (fd : fpdata) : list (nat * nat) :=
  concat (map (fun i => map (pair i) (seq 0 (length (nth i (fd_lv fd) [])))) (seq 0 (length (fd_lv fd)))).

Lemma map_nth_seq {A} (d : A) l : map (fun j => nth j l d) (seq 0 (length l)) = l.
Proof.
  apply (nth_ext _ _ d d); [now rewrite map_length, seq_length|]. intros j Hj. rewrite map_length, seq_length in Hj.
  rewrite (nth_indep _ d (nth 0%nat l d)) by (rewrite map_length, seq_length; lia).
  rewrite (map_nth (fun j => nth j l d)), seq_nth by lia. reflexivity.
Qed.
Lemma concat_cells {A} (d : A) fd (L : list (list A)) : length L = length (fd_lv fd) ->
  (forall i, length (nth i L []) = length (nth i (fd_lv fd) [])) ->
  concat L = map (fun p => nth (snd p) (nth (fst p) L []) d) (cells fd).
Proof.
  intros H HL. unfold cells. rewrite concat_map, map_map. rewrite <- (map_nth_seq [] L) at 1. rewrite H. f_equal.
  apply map_ext. intro i. rewrite map_map. cbn [fst snd]. rewrite <- HL. now rewrite map_nth_seq.
Qed.
Lemma cells_map {B} (f : nat * nat -> B) fd :
  map f (cells fd) = concat (map (fun i => map (fun j => f (i, j)) (seq 0 (length (nth i (fd_lv fd) [])))) (seq 0 (length (fd_lv fd)))).
Proof. unfold cells. rewrite concat_map, map_map. f_equal. apply map_ext. intro i. now rewrite map_map. Qed.
Lemma labels_cells fd : length (fd_lv fd) = length (fd_ts fd) ->
  labels fd = map (fun p => (fst p, nth (fst p) (fd_ts fd) 0)) (cells fd).
Proof.
  intro H. rewrite cells_map. unfold labels. rewrite H. f_equal. apply map_ext. intro i. cbn [fst].
  generalize (length (nth i (fd_lv fd) [])) as m. generalize 0%nat as s.
  intros s m. revert s. induction m as [|m IH]; intro s; cbn [repeat seq map]; [reflexivity|now rewrite (IH (S s))].
Qed.

Lemma flatten_all {A} n (l : list (list A)) : length l = n -> flatten n l = Some (concat l).
Proof. intros <-. unfold flatten. rewrite Nat.ltb_irrefl, firstn_all. reflexivity. Qed.

Lemma nth_map_lt {A B} (f : A -> B) (l : list A) d e j : (j < length l)%nat -> nth j (map f l) d = f (nth j l e).
Proof. intro H. rewrite (nth_indep _ d (f e)) by (now rewrite map_length). apply map_nth. Qed.

Lemma get_df_ok fd n : aligned fd n -> levels_aligned fd ->
  get_df fd = Ok (fr_sort (concat (map (bar_rows fd) (seq 0 n)))).
Proof.
  intros A LA. destruct A as [L1 L2 L3 L4 L5 L6 L7 L8 _ _ _ _ _ _].
  assert (B : forall i, length (nth i (fd_bv fd) []) = length (nth i (fd_lv fd) [])) by (intro i; apply LA).
  assert (C : forall i, length (nth i (fd_sv fd) []) = length (nth i (fd_lv fd) [])) by (intro i; apply LA).
  assert (D : forall i, length (nth i (fd_bt fd) []) = length (nth i (fd_lv fd) [])) by (intro i; apply LA).
  assert (E : forall i, length (nth i (fd_st fd) []) = length (nth i (fd_lv fd) [])) by (intro i; apply LA).
  assert (F : forall i, length (nth i (fd_bi fd) []) = length (nth i (fd_lv fd) [])) by (intro i; apply LA).
  assert (G : forall i, length (nth i (fd_si fd) []) = length (nth i (fd_lv fd) [])) by (intro i; apply LA).
  unfold get_df. rewrite L1. rewrite !flatten_all by congruence.
  rewrite (concat_cells 0 fd (fd_lv fd)), (concat_cells 0%Q fd (fd_bv fd)), (concat_cells 0%Q fd (fd_sv fd)),
    (concat_cells 0 fd (fd_bt fd)), (concat_cells 0 fd (fd_st fd)), (concat_cells false fd (fd_bi fd)),
    (concat_cells false fd (fd_si fd)) by (try congruence; auto).
  rewrite !map_length, !Nat.eqb_refl. cbn [andb]. do 2 f_equal.
  transitivity (map (fun p => level_row fd (fst p) (snd p)) (cells fd)).
  - transitivity (map (fun p => level_row fd (fst p) (snd p)) (map (fun j => nth j (cells fd) (0%nat, 0%nat)) (seq 0 (length (cells fd)))));
      [|now rewrite map_nth_seq].
    rewrite map_map. apply map_ext_in. intros j Hj. apply in_seq in Hj.
    rewrite labels_cells by congruence. rewrite !(nth_map_lt _ (cells fd) _ (0%nat, 0%nat)) by lia. reflexivity.
  - rewrite cells_map, L2. reflexivity.
Qed.

Lemma fr_insert_perm x l : Permutation (fr_insert x l) (x :: l).
Proof.
  induction l as [|y l IH]; cbn; [reflexivity|]. destruct (row_before x y); [reflexivity|]. rewrite IH. apply perm_swap.
Qed.
Lemma fr_sort_perm l : Permutation (fr_sort l) l.
Proof. induction l as [|x l IH]; cbn; [reflexivity|]. rewrite fr_insert_perm. now constructor. Qed.
Lemma row_before_iff a b : row_before a b = true <-> row_order a b.
Proof.
  unfold row_before, row_order. rewrite orb_true_iff, andb_true_iff, Z.ltb_lt, Z.eqb_eq, Qleb_iff. reflexivity.
Qed.
Lemma row_order_trans a b c : row_order a b -> row_order b c -> row_order a c.
Proof. unfold row_order. intros [H|[H H']] [K|[K K']]; [left; lia|left; lia|left; lia|right]. split; [lia|]. eapply Qle_trans; eauto. Qed.
Lemma row_order_total a b : row_order a b \/ row_order b a.
Proof.
  unfold row_order. destruct (Z.lt_trichotomy (w_time a) (w_time b)) as [H|[H|H]]; [tauto| |tauto].
  destruct (Qlt_le_dec (w_price a) (w_price b)) as [K|K]; [right|left]; right; split; auto using Qlt_le_weak.
Qed.
Lemma fr_insert_sorted x l : StronglySorted row_order l -> StronglySorted row_order (fr_insert x l).
Proof.
  induction 1 as [|y l S0 IH F]; cbn; [repeat constructor|]. destruct (row_before x y) eqn:E.
  - apply row_before_iff in E. constructor; [now constructor|]. constructor; [exact E|].
    rewrite Forall_forall in *. intros z Hz. eapply row_order_trans; eauto.
  - constructor; [exact IH|]. assert (R : row_order y x).
    { destruct (row_order_total y x) as [|R]; [assumption|]. apply row_before_iff in R. congruence. }
    rewrite Forall_forall in *. intros z Hz. apply (Permutation_in _ (fr_insert_perm x l)) in Hz. destruct Hz as [<-|Hz]; auto.
Qed.
Lemma fr_sort_sorted l : StronglySorted row_order (fr_sort l).
Proof. induction l as [|x l IH]; cbn; [constructor|now apply fr_insert_sorted]. Qed.

(** The frame holds each level of each bar exactly once, ordered by time, then by falling price. *)
Theorem C124_rows : forall fd n, aligned fd n -> levels_aligned fd ->
  exists rows, get_df fd = Ok rows /\ Permutation rows (concat (map (bar_rows fd) (seq 0 n))) /\ StronglySorted row_order rows.
Proof.
  intros fd n A L. eexists. split; [exact (get_df_ok fd n A L)|]. split; [apply fr_sort_perm|apply fr_sort_sorted].
Qed.

Lemma sorted_unique {A} (R R' : A -> A -> Prop) : (forall x y, R' x y -> ~ R y x) ->
  forall e l, StronglySorted R' e -> StronglySorted R l -> Permutation l e -> l = e.
Proof.
  intros N e. induction e as [|x e IH]; intros l SE SL P.
  - apply Permutation_sym, Permutation_nil in P. exact P.
  - destruct l as [|y l]; [apply Permutation_nil in P; discriminate|].
    inversion SE as [|? ? SE' FE]; subst. inversion SL as [|? ? SL' FL]; subst. rewrite Forall_forall in *.
    assert (x = y) as <-.
    { assert (I1 : In y (x :: e)) by (apply (Permutation_in _ P); left; reflexivity).
      assert (I2 : In x (y :: l)) by (apply (Permutation_in _ (Permutation_sym P)); left; reflexivity).
      destruct I1 as [->|I1]; [reflexivity|]. destruct I2 as [->|I2]; [reflexivity|]. exfalso. exact (N x y (FE _ I1) (FL _ I2)). }
    f_equal. apply IH; auto. eapply Permutation_cons_inv; eauto.
Qed.

Lemma sorted_concat {A} (R : A -> A -> Prop) (f : nat -> list A) n :
  (forall i, (i < n)%nat -> StronglySorted R (f i)) ->
  (forall i j x y, (i < j < n)%nat -> In x (f i) -> In y (f j) -> R x y) ->
  StronglySorted R (concat (map f (seq 0 n))).
Proof.
  induction n as [|n IH]; intros H K; [constructor|]. rewrite seq_S, map_app, concat_app. cbn [map concat Nat.add]. rewrite app_nil_r.
  assert (AP : forall l r, StronglySorted R l -> StronglySorted R r -> (forall x y, In x l -> In y r -> R x y) -> StronglySorted R (l ++ r)).
  { induction l as [|z l IHl]; intros r Sl Sr X; [exact Sr|]. inversion Sl as [|? ? S1 F1]; subst. cbn. constructor.
    - apply IHl; auto. intros x y Hx Hy. apply X; [now right|auto].
    - rewrite Forall_forall in *. intros y Hy. apply in_app_iff in Hy. destruct Hy; [auto|apply X; [now left|auto]]. }
  apply AP.
  - apply IH; [intros; apply H; lia|]. intros i j x y Hij. apply K. lia.
  - apply H. lia.
  - intros x y Hx Hy. apply in_concat in Hx. destruct Hx as [l [Hl Hx]]. apply in_map_iff in Hl. destruct Hl as [i [<- Hi]].
    apply in_seq in Hi. apply (K i n); auto. lia.
Qed.

(** With distinct bar times and ascending levels the frame lists the bars in order, each from its
    highest to its lowest level: the order is fully determined. *)
Theorem C124_order : forall fd n rows, aligned fd n -> levels_aligned fd -> (0 < fd_tick fd)%Q ->
  (forall i j, (i < j < n)%nat -> nth i (fd_ts fd) 0 < nth j (fd_ts fd) 0) ->
  (forall i, StronglySorted Z.lt (nth i (fd_lv fd) [])) ->
  get_df fd = Ok rows -> rows = concat (map (fun i => rev (bar_rows fd i)) (seq 0 n)).
Proof.
  intros fd n rows A L HT HTs HL E. destruct (C124_rows fd n A L) as [r [E' [P S0]]]. rewrite E in E'. injection E' as <-.
  set (strict := fun a b => w_time a < w_time b \/ (w_time a = w_time b /\ (w_price b < w_price a)%Q)).
  apply (sorted_unique row_order strict); [| |exact S0|].
  - intros x y. unfold strict, row_order. intros [H|[H H']] [K|[K K']]; try lia. apply (Qlt_not_le _ _ H'). exact K'.
  - apply sorted_concat.
    + intros i _. unfold bar_rows. rewrite <- map_rev.
      specialize (HL i). set (lv := nth i (fd_lv fd) []) in *.
      assert (G : forall m, (m <= length lv)%nat -> StronglySorted strict (map (level_row fd i) (rev (seq 0 m)))).
      { induction m as [|m IH]; intro Hm; [constructor|]. rewrite seq_S, rev_app_distr. cbn [rev app Nat.add map].
        constructor; [apply IH; lia|]. rewrite Forall_forall. intros x Hx. apply in_map_iff in Hx. destruct Hx as [j [<- Hj]].
        apply in_rev, in_seq in Hj. unfold strict, level_row. cbn [w_time w_price]. right. split; [reflexivity|].
        fold lv. apply Qmult_lt_compat_r; [exact HT|]. rewrite <- Zlt_Qlt.
        clear - HL Hj Hm. revert m j Hj Hm. induction lv as [|v lv IH]; intros m j Hj Hm; [cbn in Hm; lia|].
        inversion HL as [|? ? S1 F1]; subst. destruct m as [|m]; [lia|]. destruct j as [|j]; cbn [nth].
        - rewrite Forall_forall in F1. apply F1. apply nth_In. cbn in Hm. lia.
        - apply IH; [exact S1|lia|cbn in Hm; lia]. }
      apply G. lia.
    + intros i j x y Hij Hx Hy. rewrite <- in_rev in Hx, Hy. unfold bar_rows in *.
      apply in_map_iff in Hx. destruct Hx as [a [<- _]]. apply in_map_iff in Hy. destruct Hy as [b [<- _]].
      left. cbn. now apply HTs.
  - rewrite P. clear. induction (seq 0 n) as [|i l IH]; cbn [map concat]; [reflexivity|]. apply Permutation_app; [apply Permutation_rev|exact IH].
Qed.

Lemma concat_bar_rows {A} (d : A) fd n (L : list (list A)) (f : fdrow -> A) : aligned fd n -> length L = n ->
  (forall i, length (nth i L []) = length (nth i (fd_lv fd) [])) ->
  (forall i j, f (level_row fd i j) = nth j (nth i L []) d) ->
  map f (concat (map (bar_rows fd) (seq 0 n))) = concat L.
Proof.
  intros A0 H HL Hf. destruct A0 as [_ L2 _ _ _ _ _ _ _ _ _ _ _ _].
  rewrite (concat_cells d fd L) by congruence || exact HL.
  rewrite cells_map, L2, concat_map, map_map. f_equal. apply map_ext. intro i. unfold bar_rows. rewrite map_map.
  apply map_ext. intro j. apply Hf.
Qed.
(** No volume and no tick is lost or added. *)
Theorem C124_totals : forall fd n rows, aligned fd n -> levels_aligned fd -> get_df fd = Ok rows ->
  (qsum (map w_bv rows) == qsum (concat (fd_bv fd)))%Q /\ (qsum (map w_sv rows) == qsum (concat (fd_sv fd)))%Q /\
  Permutation (map w_bt rows) (concat (fd_bt fd)) /\ Permutation (map w_st rows) (concat (fd_st fd)) /\
  Permutation (map w_bi rows) (concat (fd_bi fd)) /\ Permutation (map w_si rows) (concat (fd_si fd)) /\
  length rows = length (concat (fd_lv fd)).
Proof.
  intros fd n rows A L E. destruct (C124_rows fd n A L) as [r [E' [P _]]]. rewrite E in E'. injection E' as <-.
  pose proof A as [_ L2 L3 L4 L5 L6 L7 L8 _ _ _ _ _ _].
  assert (Q : forall X (d : X) (K : list (list X)) (f : fdrow -> X), length K = n ->
    (forall i, length (nth i K []) = length (nth i (fd_lv fd) [])) -> (forall i j, f (level_row fd i j) = nth j (nth i K []) d) ->
    Permutation (map f rows) (concat K)).
  { intros X d K f H1 H2 H3. rewrite <- (concat_bar_rows d fd n K f A H1 H2 H3). now apply Permutation_map. }
  repeat split.
  - apply qsum_perm. apply (Q _ 0%Q); [exact L3|intro i; apply L|reflexivity].
  - apply qsum_perm. apply (Q _ 0%Q); [exact L4|intro i; apply L|reflexivity].
  - apply (Q _ 0); [exact L5|intro i; apply L|reflexivity].
  - apply (Q _ 0); [exact L6|intro i; apply L|reflexivity].
  - apply (Q _ false); [exact L7|intro i; apply L|reflexivity].
  - apply (Q _ false); [exact L8|intro i; apply L|reflexivity].
  - rewrite (Permutation_length P). rewrite (concat_cells 0 fd (fd_lv fd)) by reflexivity.
    rewrite cells_map, L2. clear. induction (seq 0 n) as [|i l IH]; cbn [map concat]; [reflexivity|].
    rewrite !app_length, IH. unfold bar_rows. now rewrite !map_length.
Qed.
Example C124_example : (0 < fd_tick ex_fd)%Q /\ (forall i j, (i < j < 3)%nat -> nth i (fd_ts ex_fd) 0 < nth j (fd_ts ex_fd) 0) /\
  exists rows, get_df ex_fd = Ok rows /\
    map (fun r => (w_bar r, Qred (w_price r), w_bv r)) rows =
    [(0%nat, 5 # 2, 2); (0%nat, 2 # 1, 1); (1%nat, 5 # 2, 3); (2%nat, 5 # 2, 1); (2%nat, 2 # 1, 1); (2%nat, 3 # 2, 0)]%Q.
Proof.
  split; [reflexivity|]. split.
  - intros i j H. destruct j as [|[|[|j]]]; [lia| | |lia]; destruct i as [|[|i]]; cbn; lia.
  - eexists. split; vm_compute; reflexivity.
Qed.
(** Bars with the same time are interleaved by price: the rows of a bar need not be contiguous. *)
Theorem C124_contiguous_refuted : exists fd rows, aligned fd 2 /\ levels_aligned fd /\ ascZ (fd_ts fd) /\
  get_df fd = Ok rows /\ map w_bar rows = [0; 1; 0]%nat.
Proof.
  exists (mkFd [5; 5] 1 [[1; 3]; [2]] [[1; 1]; [1]]%Q [[0; 0]; [0]]%Q [[1; 1]; [1]] [[0; 0]; [0]] [[false; false]; [false]] [[false; false]; [false]]
            None None None None None None).
  eexists. split; [constructor; reflexivity || exact I|]. split.
  - intro i. do 2 (destruct i as [|i]; [repeat split; reflexivity|]). destruct i; repeat split; reflexivity.
  - split; [|split; vm_compute; reflexivity]. intros i j H. cbn in H. destruct j as [|[|j]]; [| |lia]; destruct i as [|[|i]]; cbn; lia.
Qed.

Print Assumptions C123_slice_aligned.
Print Assumptions C123_range.
Print Assumptions C123_tail.
Print Assumptions C123_reverse.
Print Assumptions C123_compose.
Print Assumptions C123_valid_kept.
Print Assumptions C123_from_numba.
Print Assumptions C123_dates.
Print Assumptions C123_half_open.
Print Assumptions C123_int_no_length.
Print Assumptions C123_valid_refuted.
Print Assumptions C124_rows.
Print Assumptions C124_order.
Print Assumptions C124_totals.
Print Assumptions C124_contiguous_refuted.
