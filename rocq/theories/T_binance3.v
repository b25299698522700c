(** T_binance3.v -- the import script: the writer (C151), names and target files (C152). *)
From Coq Require Import Permutation Sorted.
From Verif Require Import Base M_logic M_trades S_trades P_trades P_trades2 M_store S_store P_store M_tbio M_binance S_binance T_trades T_binance T_binance2.
Open Scope Z_scope.

(* ------------------------------------------------------------------ *)
(** ** C151 *)

Lemma merge_rows_nil l : merge_rows l = [] -> l = [].
Proof. destruct l as [|r l]; [reflexivity|]. cbn [merge_rows]. destruct (fold_left merge_step l ([], r)) as [d c]. intro H. destruct d; discriminate. Qed.
Lemma load_nonempty sort t cs : sorts_ctime sort -> load_csv sort t = Ok cs -> cs <> [].
Proof.
  intros Hs. unfold load_csv. destruct t as [|r t]; [discriminate|]. destruct (_ || _)%bool; [discriminate|]. cbv zeta.
  destruct (int_col _) as [ts|]; [|discriminate]. destruct (int_col _) as [ids|]; [|discriminate]. intro H. injection H as <-. intro E.
  match type of E with sort ?l = [] => destruct (Hs l) as [P _]; rewrite E in P; apply Permutation_sym, Permutation_nil in P; discriminate end.
Qed.
Lemma task_nonempty sort sort_id from dates f td : sorts_by_id sort_id -> sorts_ctime sort ->
  process_task sort sort_id from dates f = Ok (Some td) -> td_rows td <> [].
Proof.
  intros Hi Hs H. apply process_task_inv in H. destruct H as [cs [L P]]. apply load_nonempty in L; [|exact Hs].
  destruct (preprocess_rows _ _ _ _ _ _ P) as [unit [u [_ [_ K]]]]. cbv zeta in K. destruct K as [K _].
  intro E. rewrite E in K. cbn [map] in K. symmetry in K. apply map_eq_nil in K. unfold merge_trades in K. apply merge_rows_nil in K. apply map_eq_nil in K.
  assert (N : fst (sort_trades sort_id (in_ns u (map row_of cs))) = []) by (destruct (fst _); [reflexivity|discriminate]).
  pose proof (sort_kept sort_id Hi (in_ns u (map row_of cs))) as [_ [_ KC]]. rewrite N in KC. destruct cs as [|c cs]; [congruence|].
  exact (KC (c_id c) (or_introl eq_refl)).
Qed.
Lemma write_ok mkey td st : td_rows td <> [] -> consistent st ->
  let k := item_month mkey td in
  exists st', write mkey td st = (Ok k, st') /\ consistent st' /\
    (forall k', kget k' (st_rows st') = if key_eqb k k' then Some (rows_for td) else kget k' (st_rows st)) /\
    (forall k', kget k' (st_meta st') = if key_eqb k k' then Some (meta_for td) else kget k' (st_meta st)) /\
    (forall k', kget k' (st_integ st') = if key_eqb k k' then match gaps_for td with [] => if kmem k (st_rows st) then None else kget k' (st_integ st) | d => Some d end else kget k' (st_integ st)).
Proof.
  intros Hn C. cbv zeta. set (o := mkH None (frame_of td) (Some (td_ok td)) (td_missing td) (sdiscs td)).
  assert (Hf : h_frame o <> []) by (cbn; unfold frame_of; intro E; apply map_eq_nil in E; congruence).
  destruct (save_ok mkey false true o st Hf C) as [st' [E [C' [R [M G]]]]].
  assert (K : month_of mkey o = item_month mkey td).
  { unfold month_of, item_month, o, frame_of. cbn. destruct (td_rows td); [congruence|reflexivity]. }
  rewrite K in *. exists st'. split; [exact E|]. split; [exact C'|]. split; [exact R|]. split; [|exact G].
  intro k'. rewrite M. assert (MM : meta_of o (Z.of_nat (length (h_frame o))) = meta_for td); [|now rewrite MM].
  unfold meta_of, o, frame_of. cbn [h_frame h_ok h_missing meta_ts]. unfold meta_for. destruct (td_rows td) as [|m l]; [congruence|]. cbn [map hd w_ts length]. rewrite map_length. f_equal.
  clear. generalize (mkS (m_ts m) (m_px m) (m_am m) (Some (m_side m))) at 2. intro d. revert m.
  induction l as [|x l IH]; intro m; [reflexivity|]. exact (IH x).
Qed.
Lemma writer_ok mkey items : forall st, (forall td, In td items -> td_rows td <> []) -> NoDup (map (item_month mkey) items) -> consistent st ->
  let r := writer mkey items st in
  snd r = length items /\ consistent (fst r) /\
  (forall td, In td items -> let k := item_month mkey td in
     kget k (st_rows (fst r)) = Some (rows_for td) /\ kget k (st_meta (fst r)) = Some (meta_for td) /\
     kget k (st_integ (fst r)) = match gaps_for td with [] => if kmem k (st_rows st) then None else kget k (st_integ st) | d => Some d end) /\
  (forall k, ~ In k (map (item_month mkey) items) ->
     kget k (st_rows (fst r)) = kget k (st_rows st) /\ kget k (st_meta (fst r)) = kget k (st_meta st) /\ kget k (st_integ (fst r)) = kget k (st_integ st)).
Proof.
  induction items as [|td items IH]; intros st Hn N C; cbv zeta.
  - cbn. split; [reflexivity|]. split; [exact C|]. split; [tauto|auto].
  - cbn [writer]. destruct (write_ok mkey td st (Hn td (or_introl eq_refl)) C) as [st' [E [C' [R [M G]]]]]. rewrite E. cbn [fst snd]. inversion N as [|? ? N1 N2]; subst.
    destruct (IH st' ltac:(intros; apply Hn; now right) N2 C') as [L [C2 [A B]]]. set (r := writer mkey items st') in *.
    split; [cbn [length]; now rewrite L|]. split; [exact C2|]. split.
    + intros x [->|Hx]; cbv zeta.
      * destruct (B _ N1) as [-> [-> ->]]. rewrite R, M, G, key_eqb_refl. auto.
      * destruct (A x Hx) as [-> [-> ->]]. split; [reflexivity|]. split; [reflexivity|]. destruct (gaps_for x); [|reflexivity].
        assert (D : item_month mkey td <> item_month mkey x) by (intro D; apply N1; rewrite D; now apply in_map).
        unfold kmem. rewrite R, G. destruct (key_eqb_spec (item_month mkey td) (item_month mkey x)); [congruence|reflexivity].
    + intros k Hk. cbn [map In] in Hk. destruct (B k ltac:(tauto)) as [-> [-> ->]]. rewrite R, M, G. destruct (key_eqb_spec (item_month mkey td) k); [exfalso; tauto|auto].
Qed.
Definition results (f : rawfile -> result (option tdata)) (files : list rawfile) : list tdata :=
  flat_map (fun x => match f x with Ok (Some td) => [td] | _ => [] end) files.
Lemma results_item f files td : In td (results f files) <-> item f files td.
Proof.
  unfold results, item. rewrite in_flat_map. split; intros [x [H1 H2]]; exists x; (split; [exact H1|]).
  - destruct (f x) as [[t|]|]; cbn in H2; try tauto. destruct H2 as [->|[]]. reflexivity.
  - rewrite H2. now left.
Qed.
Lemma process_all_writer mkey sort sort_id dates order st :
  fst (process_all mkey sort sort_id dates order st) = fst (writer mkey (results (process_task sort sort_id None dates) order) st).
Proof.
  unfold process_all, results. cbn [fst]. f_equal. f_equal. induction order as [|x l IH]; [reflexivity|]. cbn [map flat_map]. now rewrite IH.
Qed.
(** Files of different months: every item is stored under its month, other months stay. *)
Theorem C151_stored : forall mkey sort sort_id dates order st, sorts_by_id sort_id -> sorts_ctime sort -> consistent st ->
  let f := process_task sort sort_id None dates in
  NoDup (map (item_month mkey) (results f order)) ->
  let st' := fst (process_all mkey sort sort_id dates order st) in
  consistent st' /\
  (forall td, item f order td -> kget (item_month mkey td) (st_rows st') = Some (rows_for td) /\ kget (item_month mkey td) (st_meta st') = Some (meta_for td) /\
     (gaps_for td <> [] \/ kget (item_month mkey td) (st_rows st) <> None -> kget (item_month mkey td) (st_integ st') = match gaps_for td with [] => None | d => Some d end)) /\
  (forall k, (forall td, item f order td -> item_month mkey td <> k) ->
     kget k (st_rows st') = kget k (st_rows st) /\ kget k (st_meta st') = kget k (st_meta st) /\ kget k (st_integ st') = kget k (st_integ st)).
Proof.
  intros mkey sort sort_id dates order st Hi Hs C. cbv zeta. intro N. rewrite process_all_writer. set (f := process_task sort sort_id None dates) in *.
  assert (Hn : forall td, In td (results f order) -> td_rows td <> []) by (intros td H; apply results_item in H; destruct H as [x [_ H]]; eapply task_nonempty; eauto).
  destruct (writer_ok mkey (results f order) st Hn N C) as [_ [C2 [A B]]]. split; [exact C2|]. split.
  - intros td H. apply results_item in H. destruct (A td H) as [-> [-> ->]]. split; [reflexivity|]. split; [reflexivity|]. intros K. destruct (gaps_for td); [|reflexivity].
    destruct K as [K|K]; [congruence|]. unfold kmem. destruct (kget (item_month mkey td) (st_rows st)); [reflexivity|congruence].
  - intros k H. apply B. intro K. apply in_map_iff in K. destruct K as [td [E K]]. apply results_item in K. exact (H td K E).
Qed.
(** ... whatever the order in which the workers finish. *)
Theorem C151_order : forall mkey sort sort_id dates order order' st, sorts_by_id sort_id -> sorts_ctime sort -> consistent st ->
  NoDup (map (item_month mkey) (results (process_task sort sort_id None dates) order)) -> Permutation order order' ->
  let r := process_all mkey sort sort_id dates order st in let r' := process_all mkey sort sort_id dates order' st in
  snd r = snd r' /\ forall k, kget k (st_rows (fst r)) = kget k (st_rows (fst r')) /\ kget k (st_meta (fst r)) = kget k (st_meta (fst r')) /\
    kget k (st_integ (fst r)) = kget k (st_integ (fst r')).
Proof.
  intros mkey sort sort_id dates order order' st Hi Hs C N P. cbv zeta. split.
  - unfold process_all. cbn [snd]. apply Permutation_length. clear -P. induction P; cbn [map filter]; auto.
    + destruct (process_task _ _ _ _ x); [exact IHP|now apply perm_skip].
    + destruct (process_task _ _ _ _ x), (process_task _ _ _ _ y); auto. apply perm_swap.
    + eapply perm_trans; eauto.
  - rewrite !process_all_writer. set (f := process_task sort sort_id None dates) in *.
    assert (PR : Permutation (results f order) (results f order')) by (unfold results; now apply Permutation_flat_map).
    assert (Hn : forall td, In td (results f order) -> td_rows td <> []) by (intros td H; apply results_item in H; destruct H as [x [_ H]]; eapply task_nonempty; eauto).
    assert (Hn' : forall td, In td (results f order') -> td_rows td <> []) by (intros td H; apply Hn; eapply Permutation_in; [apply Permutation_sym; exact PR|exact H]).
    assert (N' : NoDup (map (item_month mkey) (results f order'))) by (eapply Permutation_NoDup; [apply Permutation_map; exact PR|exact N]).
    destruct (writer_ok mkey (results f order) st Hn N C) as [_ [_ [A B]]]. destruct (writer_ok mkey (results f order') st Hn' N' C) as [_ [_ [A' B']]].
    intro k. destruct (in_dec (list_eq_dec Z.eq_dec) k (map (item_month mkey) (results f order))) as [K|K].
    + apply in_map_iff in K. destruct K as [td [<- K]]. destruct (A td K) as [-> [-> ->]]. apply (Permutation_in _ PR) in K. destruct (A' td K) as [-> [-> ->]]. auto.
    + destruct (B k K) as [-> [-> ->]]. destruct (B' k) as [-> [-> ->]]; [|auto]. intro K'. apply K. eapply Permutation_in; [apply Permutation_sym, Permutation_map; exact PR|exact K'].
Qed.
(** Months of the examples: September 2021 until its end (in nanoseconds), then October. *)
Definition sep_key (t : Z) : key := if t <? 1633046400000000000 then ym (2021, 9) else ym (2021, 10).
Definition raw_of (m : month) (table : list (list cell)) : rawfile := mkRaw (zip_name [66] m) None None None table.
Definition ex_sep : rawfile := raw_of (2021, 9) [csv_row 1 100 2 1630454400000 (CInt 1); csv_row 2 101 2 1630454400100 (CInt 0)].
Definition ex_oct : rawfile := raw_of (2021, 10) [csv_row 3 102 1 1633046400000 (CInt 0)].
(** Two files whose first trades are in the same month: the one that finishes last stays. *)
Theorem C151_same_month_refuted : exists f g, f_name f <> f_name g /\
  fst (process_all sep_key csort isort [] [f; g] empty_store) <> fst (process_all sep_key csort isort [] [g; f] empty_store) /\
  (exists td, process_task csort isort None [] f = Ok (Some td) /\ kget (ym (2021, 9)) (st_rows (fst (process_all sep_key csort isort [] [g; f] empty_store))) = Some (rows_for td)) /\
  (exists td, process_task csort isort None [] g = Ok (Some td) /\ kget (ym (2021, 9)) (st_rows (fst (process_all sep_key csort isort [] [f; g] empty_store))) = Some (rows_for td)).
Proof.
  exists ex_sep, (raw_of (2021, 10) [csv_row 3 102 1 1633046399999 (CInt 0)]). split; [vm_compute; discriminate|]. split; [vm_compute; discriminate|].
  split; eexists; (split; [vm_compute; reflexivity|vm_compute; reflexivity]).
Qed.
(** A save that fails ends the writer: later items are lost, no error is counted. *)
Theorem C151_lost_refuted : exists st order td, process_task csort isort None [] ex_oct = Ok (Some td) /\ In ex_oct order /\
  snd (process_all sep_key csort isort [] order st) = 0%nat /\
  kget (ym (2021, 10)) (st_rows (fst (process_all sep_key csort isort [] order st))) = None /\
  kget (ym (2021, 10)) (st_rows (fst (process_all sep_key csort isort [] order empty_store))) = Some (rows_for td).
Proof.
  exists (mkStore [(ym (2021, 9), [mkS 1630454400000000000 100 1 (Some 1)])] [] []), [ex_sep; ex_oct]. eexists. split; [vm_compute; reflexivity|].
  split; [right; left; reflexivity|]. repeat split; vm_compute; reflexivity.
Qed.
Example C151_example : NoDup (map (item_month sep_key) (results (process_task csort isort None []) [ex_oct; ex_sep])) /\
  length (results (process_task csort isort None []) [ex_oct; ex_sep]) = 2%nat /\ consistent empty_store /\
  snd (process_all sep_key csort isort [] [ex_oct; mkRaw (zip_name [66] (2021, 11)) (Some (repeat 97 64)) (Some (repeat 98 64)) None []; ex_sep] empty_store) = 1%nat /\
  option_map (@length srow) (kget (ym (2021, 9)) (st_rows (fst (process_all sep_key csort isort [] [ex_oct; ex_sep] empty_store)))) = Some 2%nat.
Proof.
  split; [vm_compute; repeat constructor; cbn; intuition discriminate|]. split; [vm_compute; reflexivity|]. split; [split; [constructor|split; [constructor|reflexivity]]|]. split; vm_compute; reflexivity.
Qed.

(* ------------------------------------------------------------------ *)
(** ** C152 *)

Lemma digit_is d : 0 <= d <= 9 -> is_digit (digit d) = true.
Proof. intro H. unfold is_digit, digit. rewrite andb_true_iff, !Z.leb_le. lia. Qed.
Lemma digit_mod x : is_digit (digit (x mod 10)) = true.
Proof. apply digit_is. pose proof (Z.mod_pos_bound x 10 ltac:(lia)). lia. Qed.
Lemma date_here_some s d : date_here s = Some d -> exists a b c e f g r, s = a :: b :: c :: e :: 45 :: f :: g :: r /\ is_digit f = true /\ is_digit a = true /\ is_digit b = true /\ is_digit c = true /\ is_digit e = true.
Proof.
  unfold date_here. do 7 (destruct s as [|? s]; [discriminate|]). destruct (_ && _)%bool eqn:E; [|discriminate]. intros _. rewrite !andb_true_iff in E. destruct E as [[[[[[A B] C] D] H] F] G]. apply Z.eqb_eq in H. subst. repeat eexists; eauto.
Qed.
(** The month in the name of a file is the month it was downloaded for. *)
Theorem C152_month : forall sym m, ~ In 45 sym -> 0 <= fst m < 10000 -> 1 <= snd m <= 12 -> search_date (zip_name sym m) = Some (ym m).
Proof.
  intros sym [y mo] Hs Hy Hm. cbn [fst snd] in *.
  assert (Y : exists a b c d e f, ym (y, mo) = [a; b; c; d; 45; e; f] /\ is_digit a = true /\ is_digit b = true /\ is_digit c = true /\ is_digit d = true /\ is_digit e = true /\ is_digit f = true).
  { unfold ym, fmt_month. cbn [fst snd]. do 6 eexists. split; [reflexivity|]. split; [apply digit_is; pose proof (Z.div_pos y 1000); assert (y / 1000 < 10) by (apply Z.div_lt_upper_bound; lia); lia|].
    do 3 (split; [apply digit_mod|]). split; [apply digit_is; assert (0 <= mo / 10) by (apply Z.div_pos; lia); assert (mo / 10 < 10) by (apply Z.div_lt_upper_bound; lia); lia|apply digit_mod]. }
  destruct Y as [a [b [c [d [e [f [Y [A [B [C [D [E F]]]]]]]]]]]].
  unfold zip_name. rewrite Y. clear Hy Hm. induction sym as [|x sym IH].
  - cbn [app trades_ search_date]. cbn [date_here]. repeat (change (is_digit 45) with false; change (is_digit 116) with false; change (is_digit 114) with false; change (is_digit 97) with false; change (is_digit 100) with false; change (is_digit 101) with false; change (is_digit 115) with false).
    cbn [andb dot_zip date_here]. rewrite A, B, C, D, E, F. reflexivity.
  - rewrite <- app_comm_cons. cbn [search_date]. destruct (date_here (x :: sym ++ trades_ ++ [a; b; c; d; 45; e; f] ++ dot_zip)) as [w|] eqn:W; [|apply IH; intro K; apply Hs; now right].
    exfalso. apply date_here_some in W. destruct W as [p [q [r [t [u [v [z [W [U [P [Q [R T]]]]]]]]]]]].
    change (x :: sym ++ trades_ ++ [a; b; c; d; 45; e; f] ++ dot_zip) with ((x :: sym) ++ trades_ ++ [a; b; c; d; 45; e; f] ++ dot_zip) in W.
    destruct sym as [|x1 sym]; [cbn in W; injection W as _ <- _; discriminate|].
    destruct sym as [|x2 sym]; [cbn in W; injection W as _ _ <- _; discriminate|].
    destruct sym as [|x3 sym]; [cbn in W; injection W as _ _ _ <- _; discriminate|].
    destruct sym as [|x4 sym]; [cbn in W; injection W as _ _ _ _ <- _; discriminate|].
    cbn [app] in W. injection W as _ _ _ _ W _. apply Hs. right. right. right. right. left. congruence.
Qed.
Lemma yymm_digits m : exists a b c d, yymm m = [a; b; c; d] /\ (0 <= snd m < 100 -> forallb is_digit [a; b; c; d] = true).
Proof.
  unfold yymm. do 4 eexists. split; [reflexivity|]. intro H. cbn [forallb]. rewrite !digit_mod. rewrite !digit_is; [reflexivity| |].
  - pose proof (Z.div_pos (snd m) 10). assert (snd m / 10 < 10) by (apply Z.div_lt_upper_bound; lia). lia.
  - pose proof (Z.mod_pos_bound (fst m) 100 ltac:(lia)). pose proof (Z.div_pos (fst m mod 100) 10). assert (fst m mod 100 / 10 < 10) by (apply Z.div_lt_upper_bound; lia). lia.
Qed.
Lemma skipn_suffix {A} (a b : list A) n : length b = n -> skipn (length (a ++ b) - n) (a ++ b) = b.
Proof. intros <-. rewrite app_length. replace (length a + length b - length b)%nat with (length a) by lia. now rewrite skipn_app, skipn_all, Nat.sub_diag. Qed.
Lemma parse_name sym label a b : 0 <= snd a < 100 -> 0 <= snd b < 100 -> parse_range (h5_name sym label (yymm a) (yymm b)) = (yymm a, yymm b).
Proof.
  intros Ha Hb. destruct (yymm_digits a) as [a1 [a2 [a3 [a4 [-> DA]]]]]. destruct (yymm_digits b) as [b1 [b2 [b3 [b4 [-> DB]]]]]. specialize (DA Ha). specialize (DB Hb).
  unfold h5_name, parse_range. replace (sym ++ [95] ++ label ++ [95] ++ [a1; a2; a3; a4] ++ [45] ++ [b1; b2; b3; b4] ++ dot_h5) with ((sym ++ [95] ++ label) ++ ([95; a1; a2; a3; a4; 45; b1; b2; b3; b4] ++ dot_h5)) by (rewrite <- !app_assoc; reflexivity).
  rewrite skipn_suffix by reflexivity. cbn [app dot_h5]. rewrite DA, DB. reflexivity.
Qed.
Lemma starts_with_app p s : starts_with p (p ++ s) = true.
Proof. induction p as [|x p IH]; [reflexivity|]. cbn. now rewrite Z.eqb_refl. Qed.
Lemma found_name sym label a b names : In (h5_name sym label a b) names -> In (h5_name sym label a b) (find_existing sym label names).
Proof.
  intro H. unfold find_existing. apply (Permutation_in _ (ksort_perm _)). apply filter_In. split; [exact H|]. apply andb_true_iff. split.
  - apply key_eqb_iff. unfold h5_name. replace (sym ++ [95] ++ label ++ [95] ++ a ++ [45] ++ b ++ dot_h5) with ((sym ++ [95] ++ label ++ [95] ++ a ++ [45] ++ b) ++ dot_h5) by (rewrite <- !app_assoc; reflexivity).
    rewrite map_app. rewrite <- (map_length lower (_ ++ dot_h5)), map_app. apply skipn_suffix. reflexivity.
  - unfold h5_name. replace (sym ++ [95] ++ label ++ [95] ++ a ++ [45] ++ b ++ dot_h5) with ((sym ++ [95] ++ label ++ [95]) ++ a ++ [45] ++ b ++ dot_h5) by (rewrite <- !app_assoc; reflexivity).
    rewrite (map_app upper (sym ++ [95] ++ label ++ [95])). apply starts_with_app.
Qed.
(** An earlier file with the same first month and an earlier last month is found; what is
    renamed is such a file, never the target itself. *)
Theorem C152_found : forall sym label a b names, 0 <= snd a < 100 -> 0 <= snd b < 100 ->
  (forall e, 0 <= snd e < 100 -> In (h5_name sym label (yymm a) (yymm e)) names -> key_leb (yymm b) (yymm e) = false ->
     to_rename sym label (yymm a) (yymm b) names <> None) /\
  (forall n, to_rename sym label (yymm a) (yymm b) names = Some n ->
     In n names /\ n <> h5_name sym label (yymm a) (yymm b) /\ exists e, parse_range n = (yymm a, e) /\ key_leb (yymm b) e = false).
Proof.
  intros sym label a b names Ha Hb. split.
  - intros e He Hin Hlt K. unfold to_rename in K. pose proof (find_none _ _ K _ (found_name _ _ _ _ _ Hin)) as F. cbv beta zeta in F. rewrite parse_name in F by assumption. cbn [fst snd] in F. rewrite key_eqb_refl, Hlt in F.
    destruct (yymm_digits e) as [e1 [e2 [e3 [e4 [E _]]]]]. rewrite E in F. cbn in F. discriminate.
  - intros n H. unfold to_rename in H. apply find_some in H. destruct H as [H1 H2]. cbv beta zeta in H2. rewrite !andb_true_iff in H2. destruct H2 as [[E1 _] E3]. apply key_eqb_iff in E1. apply negb_true_iff in E3.
    split; [unfold find_existing in H1; apply (Permutation_in _ (Permutation_sym (ksort_perm _))) in H1; apply filter_In in H1; tauto|]. split.
    + intros ->. rewrite parse_name in E3 by assumption. cbn [snd] in E3. destruct (key_leb_total (yymm b) (yymm b)) as [T|T]; congruence.
    + exists (snd (parse_range n)). split; [destruct (parse_range n); cbn in *; congruence|exact E3].
Qed.
Lemma avail_months sym months raw m : In m (available sym months raw) -> In m months.
Proof. unfold available. intro H. apply filter_In in H. tauto. Qed.
(** After a run: the renamed file is gone, files other than the target are as before; the
    target holds the data of every task and, for all other months, what the renamed file
    (else the target) had before. *)
Theorem C152_target_partial : forall mkey sort sort_id sym label months raw order dir m0 av,
  sorts_by_id sort_id -> sorts_ctime sort -> (forall m, In m months -> 0 <= snd m < 100) ->
  available sym months raw = m0 :: av ->
  let a := yymm m0 in let b := yymm (last (m0 :: av) m0) in let target := h5_name sym label a b in
  let f := process_task sort sort_id None (map ym (m0 :: av)) in
  let old := to_rename sym label a b (map fst dir) in
  let st0 := match old with Some n => kget n dir | None => kget target dir end in
  consistent (match st0 with Some s => s | None => empty_store end) -> NoDup (map (item_month mkey) (results f order)) ->
  let r := orchestrate mkey sort sort_id sym label months raw order dir in
  (forall n, old = Some n -> kget n r = None) /\
  (forall n, old <> Some n -> n <> target -> kget n r = kget n dir) /\
  exists st', kget target r = Some st' /\
    (forall td, item f order td -> kget (item_month mkey td) (st_rows st') = Some (rows_for td)) /\
    (forall k, (forall td, item f order td -> item_month mkey td <> k) -> kget k (st_rows st') = match st0 with Some s => kget k (st_rows s) | None => None end).
Proof.
  intros mkey sort sort_id sym label months raw order dir m0 av Hi Hs Hm Hav. cbv zeta.
  assert (M0 : 0 <= snd m0 < 100) by (apply Hm; apply (avail_months sym months raw); rewrite Hav; now left).
  assert (M1 : 0 <= snd (last (m0 :: av) m0) < 100).
  { apply Hm. apply (avail_months sym months raw). rewrite Hav. clear. revert m0. assert (G : forall l (x d : month), In (last (x :: l) d) (x :: l)).
    { induction l as [|y l IH]; intros x d; [now left|]. right. apply IH. } intro m0. apply G. }
  unfold orchestrate. rewrite Hav. set (b := last (m0 :: av) m0) in *. clearbody b. cbv zeta. set (target := h5_name sym label (yymm m0) (yymm b)).
  destruct (C152_found sym label m0 b (map fst dir) M0 M1) as [_ F]. unfold rename_old. cbv zeta. fold target.
  set (f := process_task sort sort_id None (map ym (m0 :: av))).
  destruct (to_rename sym label (yymm m0) (yymm b) (map fst dir)) as [n|].
  - destruct (F n eq_refl) as [Hin [Hne _]]. fold target in Hne. intros C N.
    destruct (key_eqb n target) eqn:E; [apply key_eqb_iff in E; congruence|].
    destruct (kget n dir) as [s|] eqn:G; [|apply kget_none in G; contradiction].
    assert (T : kget target (kput target s (kdel n dir)) = Some s) by (rewrite kget_kput, key_eqb_refl; reflexivity). rewrite T.
    destruct (C151_stored mkey sort sort_id (map ym (m0 :: av)) order s Hi Hs C N) as [_ [A B]]. split; [|split].
    + intros n' H. injection H as <-. rewrite !kget_kput, kget_kdel, key_eqb_refl. destruct (key_eqb_spec target n); [congruence|reflexivity].
    + intros n' H1 H2. rewrite !kget_kput, kget_kdel. destruct (key_eqb_spec target n'); [congruence|]. destruct (key_eqb_spec n n'); [congruence|reflexivity].
    + eexists. split; [rewrite kget_kput, key_eqb_refl; reflexivity|]. split; [intros td H; apply (A td H)|]. intros k H. apply (B k H).
  - intros C N. split; [discriminate|]. split.
    + intros n' _ H2. rewrite !kget_kput. destruct (key_eqb_spec target n'); [congruence|reflexivity].
    + set (s := match kget target dir with Some s => s | None => empty_store end) in *.
      destruct (C151_stored mkey sort sort_id (map ym (m0 :: av)) order s Hi Hs C N) as [_ [A B]].
      eexists. split; [rewrite kget_kput, key_eqb_refl; reflexivity|]. split; [intros td H; apply (A td H)|]. intros k H. rewrite (proj1 (B k H)). unfold s. destruct (kget target dir); reflexivity.
Qed.
(** What the target had before is lost when an older file is renamed onto it. *)
Theorem C152_overwritten_refuted : exists raw dir k rows target st, kget target dir = Some st /\ kget k (st_rows st) = Some rows /\
  let r := orchestrate sep_key csort isort [66] [83] [(2021, 9); (2021, 10)] raw raw dir in
  forall n s, In (n, s) r -> kget k (st_rows s) = None.
Proof.
  exists [ex_sep; ex_oct], [(h5_name [66] [83] (yymm (2021, 9)) (yymm (2021, 9)), empty_store);
    (h5_name [66] [83] (yymm (2021, 9)) (yymm (2021, 10)), mkStore [(ym (2021, 11), [mkS 1635724800000000000 100 1 (Some 1)])] [] [])].
  exists (ym (2021, 11)), [mkS 1635724800000000000 100 1 (Some 1)], (h5_name [66] [83] (yymm (2021, 9)) (yymm (2021, 10))). eexists.
  split; [vm_compute; reflexivity|]. split; [vm_compute; reflexivity|]. cbv zeta.
  match goal with |- forall n s, In _ ?r -> _ => let x := eval vm_compute in r in replace r with x by (vm_compute; reflexivity) end.
  intros n s [H|[]]; injection H as _ <-. vm_compute. reflexivity.
Qed.
(** A month whose file fails its checksum is missing though its file is there. *)
Theorem C152_failed_refuted : exists raw, length (available [66] [(2021, 9); (2021, 10)] raw) = 2%nat /\
  forall n s, In (n, s) (orchestrate sep_key csort isort [66] [83] [(2021, 9); (2021, 10)] raw raw []) ->
    n = h5_name [66] [83] (yymm (2021, 9)) (yymm (2021, 10)) /\ kget (ym (2021, 10)) (st_rows s) = None /\ kget (ym (2021, 9)) (st_rows s) <> None.
Proof.
  exists [ex_sep; mkRaw (zip_name [66] (2021, 10)) (Some (repeat 97 64)) (Some (repeat 98 64)) None (f_table ex_oct)]. split; [vm_compute; reflexivity|].
  intros n s. match goal with |- In _ ?r -> _ => let x := eval vm_compute in r in replace r with x by (vm_compute; reflexivity) end.
  intros [H|[]]; injection H as <- <-. split; [reflexivity|]. split; [reflexivity|vm_compute; discriminate].
Qed.
(** Both tables of market names accept the same names, and equal labels mean equal paths. *)
Theorem C152_markets : forall m m', ((exists l, market_label m = Ok l) <-> (exists p, market_path m = Ok p)) /\
  (forall l l' p p', market_label m = Ok l -> market_label m' = Ok l' -> market_path m = Ok p -> market_path m' = Ok p' -> (l = l' <-> p = p')).
Proof.
  intros m m'. unfold market_label, market_path. cbv zeta. split.
  - destruct (key_eqb _ _); [split; eauto|]. destruct (existsb _ um_names); [split; eauto|]. destruct (existsb _ cm_names); [split; eauto|]. split; intros [x H]; discriminate.
  - intros l l' p p'. destruct (key_eqb (map lower m) _); [|destruct (existsb _ um_names); [|destruct (existsb _ cm_names); [|discriminate]]];
      (destruct (key_eqb (map lower m') _); [|destruct (existsb (key_eqb (map lower m')) um_names); [|destruct (existsb (key_eqb (map lower m')) cm_names); [|discriminate]]]);
      intros A B C D; injection A as <-; injection B as <-; injection C as <-; injection D as <-; vm_compute; split; intro; congruence.
Qed.
Example C152_example :
  let old := h5_name [66] [83] (yymm (2021, 9)) (yymm (2021, 9)) in
  let dir := [(old, fst (process_all sep_key csort isort [] [ex_sep] empty_store)); ([120], empty_store)] in
  to_rename [66] [83] (yymm (2021, 9)) (yymm (2021, 10)) (map fst dir) = Some old /\
  available [66] [(2021, 8); (2021, 9); (2021, 10)] [ex_oct; ex_sep] = [(2021, 9); (2021, 10)] /\
  NoDup (map (item_month sep_key) (results (process_task csort isort None [ym (2021, 9); ym (2021, 10)]) [ex_oct; ex_sep])) /\
  map fst (orchestrate sep_key csort isort [66] [83] [(2021, 8); (2021, 9); (2021, 10)] [ex_oct; ex_sep] [ex_oct; ex_sep] dir) =
    [[120]; h5_name [66] [83] (yymm (2021, 9)) (yymm (2021, 10))] /\
  search_date (zip_name [66; 95; 50; 49; 48; 57; 50; 52] (2021, 9)) = Some (ym (2021, 9)).
Proof.
  cbv zeta. do 2 (split; [vm_compute; reflexivity|]). split; [vm_compute; repeat constructor; cbn; intuition discriminate|]. split; vm_compute; reflexivity.
Qed.

Print Assumptions C151_stored.
Print Assumptions C151_order.
Print Assumptions C151_same_month_refuted.
Print Assumptions C151_lost_refuted.
Print Assumptions C152_month.
Print Assumptions C152_found.
Print Assumptions C152_target_partial.
Print Assumptions C152_overwritten_refuted.
Print Assumptions C152_failed_refuted.
Print Assumptions C152_markets.
