(** T_store.v -- property theorems C29-C32 and C84-C88 (the HDF5 trade store of finmlkit/bar/data_model.py). *)
From Verif Require Import Base M_logic M_store S_store P_trades P_store.
Open Scope Z_scope.

(** A sort by time for the examples (insertion sort). *)
Fixpoint ins_t (r : srow) (l : list srow) : list srow :=
  match l with [] => [r] | x :: l' => if w_ts r <=? w_ts x then r :: l else x :: ins_t r l' end.
Definition tsort (l : list srow) : list srow := fold_right ins_t [] l.
Lemma ins_t_perm r l : Permutation (r :: l) (ins_t r l).
Proof. induction l as [|x l IH]; simpl; [auto|]. destruct (_ <=? _); [auto|]. eapply perm_trans; [apply perm_swap|]. now apply perm_skip. Qed.
Lemma tsort_ok : sorts_by_time tsort.
Proof.
  intro l. split.
  - induction l as [|x l IH]; simpl; [auto|]. rewrite <- ins_t_perm. now apply perm_skip.
  - apply StronglySorted_asc. induction l as [|x l IH]; simpl; [constructor|]. revert IH. generalize (tsort l) as m. clear. intros m H.
    induction m as [|y m IH]; simpl; [repeat constructor|]. cbn [map] in H. inversion H as [|? ? S F]; subst. destruct (Z.leb_spec (w_ts x) (w_ts y)).
    + cbn [map]. constructor; [exact H|]. rewrite Forall_forall in *. intros z [<-|Hz]; [lia|]. specialize (F z Hz). lia.
    + cbn [map]. constructor; [auto|]. rewrite Forall_forall in *. intros z Hz. apply in_map_iff in Hz. destruct Hz as [u [<- Hu]].
      apply (Permutation_in u (Permutation_sym (ins_t_perm x m))) in Hu. destruct Hu as [<-|Hu]; [lia|]. apply F, in_map, Hu.
Qed.

Definition ex_ym (t : Z) : Z * Z := if t <? 100 then (2021, 9) else (2021, 10).
Definition ex_key (t : Z) : key := fmt_month (fst (ex_ym t)) (snd (ex_ym t)).
Definition tr (t : Z) : srow := mkS t 1 1 (Some 1).
Definition sv (l : list srow) : hop := mkH None l (Some true) 0 [].
Definition check_o (o : hop) : bool := monotone (h_frame o).
Lemma check_o_spec o : check_o o = true -> ascZ (map w_ts (h_frame o)).
Proof. apply monotone_spec. Qed.
Definition ex_h : list hop := [sv [tr 110; tr 120]; sv [tr 10; tr 20; tr 20]; sv [tr 105; tr 130]].

(** * C29  Last write per month wins *)
Theorem C29_key_load : forall sort_ix mkey h k en pool mg, (forall o, In o h -> h_frame o <> []) ->
  (forall o, last_save mkey h k o -> ascZ (map w_ts (h_frame o)) ->
     load_trades_h5 sort_ix (after mkey h) no_fail (Some k) None None en pool mg [k] = Ok (h_frame o)) /\
  (never_saved mkey h k -> load_trades_h5 sort_ix (after mkey h) no_fail (Some k) None None en pool mg [k] = Raise KeyError).
Proof. exact key_load. Qed.
Theorem C29_save_succeeds : forall mkey (trunc ow : bool) o st, h_frame o <> [] -> consistent st ->
  let k := month_of mkey o in
  let st0 := if trunc then empty_store else st in
  let rows := if ow then h_frame o else match kget k (st_rows st0) with Some l => l ++ h_frame o | None => h_frame o end in
  exists st', save_h5 mkey trunc (h_month o) ow (h_frame o) (h_ok o) (h_missing o) (h_disc o) st = (Ok k, st') /\
    consistent st' /\
    (forall k', kget k' (st_rows st') = if key_eqb k k' then Some rows else kget k' (st_rows st0)) /\
    (forall k', kget k' (st_meta st') = if key_eqb k k' then Some (meta_of o (Z.of_nat (length rows))) else kget k' (st_meta st0)) /\
    (forall k', kget k' (st_integ st') = if key_eqb k k' then match h_disc o with [] => if (ow && kmem k (st_rows st0))%bool then None else kget k' (st_integ st0) | d => Some d end else kget k' (st_integ st0)).
Proof. exact save_ok. Qed.
Example C29_example :
  last_save ex_key ex_h (fmt_month 2021 10) (sv [tr 105; tr 130]) /\
  load_trades_h5 tsort (after ex_key ex_h) no_fail (Some (fmt_month 2021 10)) None None true true 2 [fmt_month 2021 10] = Ok [tr 105; tr 130] /\
  load_trades_h5 tsort (after ex_key ex_h) no_fail (Some (fmt_month 2021 9)) None None true true 2 [fmt_month 2021 9] = Ok [tr 10; tr 20; tr 20] /\
  load_trades_h5 tsort (after ex_key ex_h) no_fail (Some (fmt_month 2021 8)) None None true true 2 [fmt_month 2021 8] = Raise KeyError.
Proof.
  split; [exists [sv [tr 110; tr 120]; sv [tr 10; tr 20; tr 20]], []; split; [reflexivity|]; split; [reflexivity|intros ? []]|].
  repeat split; vm_compute; reflexivity.
Qed.

(** * C30  Range loads *)
Theorem C30_range_load : forall sort_ix mkey h ks stored s e en pool mg order, sorts_by_time sort_ix ->
  (forall o, In o h -> h_frame o <> [] /\ ascZ (map w_ts (h_frame o)) /\ exact_meta o) ->
  NoDup ks -> (forall k, In k ks <-> exists o, In o h /\ month_of mkey o = k) ->
  Forall2 (fun k rows => exists o, last_save mkey h k o /\ rows = h_frame o) ks stored ->
  Permutation order (keys_for_timerange (after mkey h) s e) ->
  let want := filter (fun r => in_rangeb s e (w_ts r)) (concat stored) in
  match load_trades_h5 sort_ix (after mkey h) no_fail None s e en pool mg order with
  | Ok l => Permutation l want /\ ascZ (map w_ts l) /\ want <> []
  | Raise x => want = [] /\ (x = KeyError \/ x = ValueError)
  end.
Proof. exact range_load. Qed.
(** Automatic month keys and frames inside one month: the rows come back in stored order, month after month. *)
Theorem C30_chronological : forall sort_ix (ym : Z -> Z * Z) h ks stored s e en pool mg order,
  let mkey := fun t => fmt_month (fst (ym t)) (snd (ym t)) in
  (forall t, 0 <= fst (ym t) < 10000 /\ 1 <= snd (ym t) <= 12) ->
  (forall t t', t <= t' -> ym_le (ym t) (ym t')) ->
  (forall o, In o h -> h_month o = None /\ h_frame o <> [] /\ ascZ (map w_ts (h_frame o)) /\ exact_meta o /\
     forall a b, In a (h_frame o) -> In b (h_frame o) -> ym (w_ts a) = ym (w_ts b)) ->
  StronglySorted (fun a b => key_leb a b = true) ks -> NoDup ks -> (forall k, In k ks <-> exists o, In o h /\ month_of mkey o = k) ->
  Forall2 (fun k rows => exists o, last_save mkey h k o /\ rows = h_frame o) ks stored ->
  Permutation order (keys_for_timerange (after mkey h) s e) ->
  let want := filter (fun r => in_rangeb s e (w_ts r)) (concat stored) in
  want <> [] ->
  load_trades_h5 sort_ix (after mkey h) no_fail None s e en pool mg order = Ok want.
Proof. exact chronological_load. Qed.
(** Without preprocessing (data_ok None) the metadata timestamps are rounded to float64 and hide a stored
    trade from a query ending exactly at its time. *)
Theorem C30_unpreprocessed_refuted : exists mkey o t r, In r (h_frame o) /\ w_ts r = t /\ ascZ (map w_ts (h_frame o)) /\
  load_trades_h5 tsort (after mkey [o]) no_fail None None (Some t) true true 2 [] = Raise KeyError /\
  load_trades_h5 tsort (after mkey [o]) no_fail (Some (month_of mkey o)) None (Some t) true true 2 [month_of mkey o] = Ok [r].
Proof.
  exists (fun _ => fmt_month 2021 1), (mkH None [tr 1609459200000000192] None 0 []), 1609459200000000192, (tr 1609459200000000192).
  split; [now left|]. split; [reflexivity|]. split; [|split; vm_compute; reflexivity].
  intros i j Hij. simpl in Hij. assert (i = 0 /\ j = 0)%nat as [-> ->] by lia. simpl. lia.
Qed.
Example C30_example : exact_meta (sv [tr 110; tr 120]) /\
  keys_for_timerange (after ex_key ex_h) (Some 20) (Some 110) = [fmt_month 2021 9; fmt_month 2021 10] /\
  load_trades_h5 tsort (after ex_key ex_h) no_fail None (Some 20) (Some 110) true true 2 [fmt_month 2021 10; fmt_month 2021 9] =
    Ok [tr 20; tr 20; tr 105] /\
  load_trades_h5 tsort (after ex_key ex_h) no_fail None (Some 30) (Some 90) true true 2 [] = Raise KeyError /\
  load_trades_h5 tsort (after ex_key ex_h) no_fail None (Some 110) (Some 120) true true 2 [fmt_month 2021 10] = Raise ValueError.
Proof. split; [exact I|]. repeat split; vm_compute; reflexivity. Qed.
Example C30_calendar : (forall t, 0 <= fst (ex_ym t) < 10000 /\ 1 <= snd (ex_ym t) <= 12) /\ (forall t t', t <= t' -> ym_le (ex_ym t) (ex_ym t')) /\
  (forall o, In o ex_h -> h_month o = None /\ h_frame o <> [] /\ ascZ (map w_ts (h_frame o)) /\ exact_meta o /\
     forall a b, In a (h_frame o) -> In b (h_frame o) -> ex_ym (w_ts a) = ex_ym (w_ts b)).
Proof.
  split; [intro t; unfold ex_ym; destruct (t <? 100); simpl; lia|]. split.
  - intros t t' H. unfold ex_ym, ym_le. destruct (Z.ltb_spec t 100), (Z.ltb_spec t' 100); simpl; lia.
  - intros o Ho. assert (A : check_o o = true). { destruct Ho as [<-|[<-|[<-|[]]]]; reflexivity. }
    apply check_o_spec in A. destruct Ho as [<-|[<-|[<-|[]]]]; (split; [reflexivity|split; [discriminate|split; [exact A|split; [exact I|]]]]);
    intros a b Ha Hb; simpl in Ha, Hb;
    repeat match goal with H : _ \/ _ |- _ => destruct H | H : False |- _ => destruct H end; subst; reflexivity.
Qed.

(** * C31  Appending *)
Theorem C31_append_partial : forall sort_ix mkey o1 o2 k s e en pool mg order, h_frame o1 <> [] -> h_frame o2 <> [] ->
  month_of mkey o1 = k -> month_of mkey o2 = k ->
  let st1 := after mkey [o1] in
  let st2 := snd (save_h5 mkey false (h_month o2) false (h_frame o2) (h_ok o2) (h_missing o2) (h_disc o2) st1) in
  let rows := filter (fun r => in_rangeb s e (w_ts r)) (h_frame o1 ++ h_frame o2) in
  let first := meta_ts (h_ok o2) (w_ts (hd (mkS 0 0 0 None) (h_frame o2))) in
  let last_ := meta_ts (h_ok o2) (w_ts (last (h_frame o2) (mkS 0 0 0 None))) in
  Permutation order (keys_for_timerange st2 s e) ->
  kget k (st_rows st2) = Some (h_frame o1 ++ h_frame o2) /\
  load_trades_h5 sort_ix st2 no_fail None s e en pool mg order =
    if ((match e with None => true | Some b => first <=? b end) && (match s with None => true | Some a => a <=? last_ end))%bool
    then match rows with [] => Raise ValueError | _ => Ok (if monotone rows then rows else sort_ix rows) end
    else Raise KeyError.
Proof. exact append_range. Qed.
Definition ex_old : hop := mkH (Some (fmt_month 2021 9)) [tr 10; tr 20] (Some true) 0 [mkSD 1 5 3].
Definition ex_new : hop := mkH (Some (fmt_month 2021 9)) [tr 30; tr 40] (Some true) 0 [mkSD 7 9 1].
Definition ex_appended : store :=
  snd (save_h5 ex_key false (h_month ex_new) false (h_frame ex_new) (h_ok ex_new) (h_missing ex_new) (h_disc ex_new) (after ex_key [ex_old])).
Theorem C31_hidden_refuted : exists o1 o2 t, month_of ex_key o1 = month_of ex_key o2 /\ In t (h_frame o1) /\
  let st2 := snd (save_h5 ex_key false (h_month o2) false (h_frame o2) (h_ok o2) (h_missing o2) (h_disc o2) (after ex_key [o1])) in
  load_trades_h5 tsort (after ex_key [o1]) no_fail None None (Some 20) true true 2 [fmt_month 2021 9] = Ok (h_frame o1) /\
  load_trades_h5 tsort st2 no_fail None None (Some 20) true true 2 [] = Raise KeyError.
Proof. exists ex_old, ex_new, (tr 10). split; [reflexivity|]. split; [now left|]. split; vm_compute; reflexivity. Qed.
(** The integrity records of the older part are replaced as well. *)
Theorem C31_integrity_refuted : exists d, kget (fmt_month 2021 9) (st_integ (after ex_key [ex_old])) = Some [d] /\
  kget (fmt_month 2021 9) (st_integ ex_appended) = Some (h_disc ex_new) /\ ~ In d (h_disc ex_new).
Proof. exists (mkSD 1 5 3). split; [reflexivity|]. split; [reflexivity|]. simpl. intros [H|[]]. discriminate. Qed.

(** * C32  Parallel loading *)
Theorem C32_schedule_independent : forall sort_ix st fails ka s e en pool mg order en' pool' mg' order', consistent st ->
  Permutation order (groups_of st ka s e) -> Permutation order' (groups_of st ka s e) ->
  load_trades_h5 sort_ix st fails ka s e en pool mg order = load_trades_h5 sort_ix st fails ka s e en' pool' mg' order'.
Proof. exact load_parallel. Qed.
Theorem C32_reachable_consistent : forall mkey ops, (forall o, In o ops -> h_frame (op_h o) <> []) ->
  consistent (after_any mkey ops).
Proof. intros mkey ops H. apply (any_consistent mkey ops H). Qed.
Example C32_example : Permutation [fmt_month 2021 10; fmt_month 2021 9] (groups_of (after ex_key ex_h) None None None) /\
  load_par (after ex_key ex_h) no_fail None None [fmt_month 2021 9; fmt_month 2021 10] [fmt_month 2021 10; fmt_month 2021 9] =
  [[tr 10; tr 20; tr 20]; [tr 105; tr 130]].
Proof. split; [apply perm_swap|vm_compute; reflexivity]. Qed.

(** * C84  Failed saves *)
Theorem C84_outcome_partial : forall mkey (trunc ow : bool) o st, consistent st ->
  (fst (save_h5 mkey trunc (h_month o) ow (h_frame o) (h_ok o) (h_missing o) (h_disc o) st) = Ok (month_of mkey o) <-> h_frame o <> []) /\
  (h_frame o = [] -> fst (save_h5 mkey trunc (h_month o) ow (h_frame o) (h_ok o) (h_missing o) (h_disc o) st) = Raise IndexError).
Proof. exact save_outcome. Qed.
(** Saving an empty view over an existing month raises, after deleting that month. *)
Theorem C84_atomic_refuted : exists o st st', consistent st /\
  save_h5 ex_key false (h_month o) true (h_frame o) (h_ok o) (h_missing o) (h_disc o) st = (Raise IndexError, st') /\
  kget (fmt_month 2021 9) (st_rows st) = Some [tr 10; tr 20] /\ kget (fmt_month 2021 9) (st_rows st') = None.
Proof.
  exists (mkH (Some (fmt_month 2021 9)) [] (Some true) 0 []), (after ex_key [ex_old]). eexists.
  split; [apply (after_inv ex_key [ex_old]); intros o [<-|[]]; discriminate|].
  split; [vm_compute; reflexivity|]. split; vm_compute; reflexivity.
Qed.
Example C84_example : consistent (after ex_key ex_h) /\ h_frame ex_new <> [] /\
  fst (save_h5 ex_key false (h_month ex_new) true (h_frame ex_new) None 0 [] (after ex_key ex_h)) = Ok (fmt_month 2021 9).
Proof.
  split; [apply after_inv; intros o [<-|[<-|[<-|[]]]]; discriminate|]. split; [discriminate|vm_compute; reflexivity].
Qed.

(** * C85  Unreadable groups *)
Theorem C85_dropped_refuted : exists st fails k, consistent st /\ kget k (st_rows st) = Some [tr 105; tr 130] /\
  load_trades_h5 tsort st fails None None None false true 2 (keys_for_timerange st None None) = Ok [tr 10; tr 20; tr 20].
Proof.
  exists (after ex_key ex_h), (key_eqb (fmt_month 2021 10)), (fmt_month 2021 10).
  split; [apply after_inv; intros o [<-|[<-|[<-|[]]]]; discriminate|]. split; vm_compute; reflexivity.
Qed.
(** Exactly the readable groups are returned. *)
Theorem C85_readable_partial : forall sort_ix st fails s e en pool mg order, sorts_by_time sort_ix -> consistent st ->
  Permutation order (keys_for_timerange st s e) ->
  match load_trades_h5 sort_ix st fails None s e en pool mg order with
  | Ok l => forall r, In r l <-> exists k rows, In k (keys_for_timerange st s e) /\ fails k = false /\ kget k (st_rows st) = Some rows /\
              In r rows /\ in_range s e (w_ts r)
  | Raise _ => forall k rows r, In k (keys_for_timerange st s e) -> fails k = false -> kget k (st_rows st) = Some rows -> In r rows -> ~ in_range s e (w_ts r)
  end.
Proof.
  intros sort_ix st fails s e en pool mg order Hs C P.
  rewrite (load_unfold sort_ix st fails None s e en pool mg order C P). unfold groups_of.
  set (df := flat_map (read_group st fails s e) (keys_for_timerange st s e)).
  assert (G : forall r, In r df <-> exists k rows, In k (keys_for_timerange st s e) /\ fails k = false /\ kget k (st_rows st) = Some rows /\ In r rows /\ in_range s e (w_ts r)).
  { intro r. unfold df. rewrite in_flat_map. split.
    - intros [k [Hk Hr]]. unfold read_group in Hr. destruct (fails k) eqn:Ef; [destruct Hr|]. destruct (kget k (st_rows st)) as [rows|] eqn:Eg; [|destruct Hr].
      exists k, rows. rewrite where_in_range in Hr. apply filter_In in Hr. destruct Hr as [H1 H2]. apply in_rangeb_spec in H2. auto.
    - intros [k [rows [Hk [Ef [Eg [H1 H2]]]]]]. exists k. split; [auto|]. unfold read_group. rewrite Ef, Eg, where_in_range. apply filter_In.
      split; [auto|]. now apply in_rangeb_spec. }
  assert (E : df = [] -> forall k rows r, In k (keys_for_timerange st s e) -> fails k = false -> kget k (st_rows st) = Some rows -> In r rows -> ~ in_range s e (w_ts r)).
  { intros E k rows r A B D F H. assert (X : In r df) by (apply G; exists k, rows; auto). rewrite E in X. destruct X. }
  destruct (keys_for_timerange st s e) eqn:Ek; [intros k rows r []|]. cbv zeta. clearbody df. destruct df as [|a df']; [exact (E eq_refl)|].
  intro r. rewrite <- G. destruct (monotone (a :: df')); [reflexivity|]. destruct (Hs (a :: df')) as [Pm _].
  split; intro H; (eapply Permutation_in; [|exact H]); [now apply Permutation_sym|exact Pm].
Qed.

(** * C86  View range *)
Theorem C86_view_range : forall s e, (set_view_range s e = Ok (Some (s, e)) <-> s < e) /\ (set_view_range s e = Raise ValueError <-> e <= s).
Proof. intros s e. unfold set_view_range. destruct (Z.leb_spec e s); split; split; intro H0; try reflexivity; try discriminate; lia. Qed.
Theorem C86_view_data : forall s e rows, ascZ (map w_ts rows) -> s <= e ->
  exists a c, rows = a ++ view_data (Some (s, e)) rows ++ c /\
    (forall r, In r a -> w_ts r < s) /\ (forall r, In r (view_data (Some (s, e)) rows) -> s <= w_ts r <= e) /\ (forall r, In r c -> e < w_ts r).
Proof. exact view_slice. Qed.
Theorem C86_no_view : forall rows, view_data None rows = rows.
Proof. reflexivity. Qed.
Example C86_example : view_data (Some (20, 110)) [tr 10; tr 20; tr 20; tr 105; tr 130] = [tr 20; tr 20; tr 105] /\ set_view_range 5 5 = Raise ValueError.
Proof. split; reflexivity. Qed.

(** * C87  Month keys *)
Theorem C87_month_order : forall y m y' m', 0 <= y < 10000 -> 0 <= y' < 10000 -> 1 <= m <= 12 -> 1 <= m' <= 12 ->
  (key_leb (fmt_month y m) (fmt_month y' m') = true <-> ym_le (y, m) (y', m')).
Proof. exact fmt_order. Qed.
Theorem C87_injective : forall y m y' m', 0 <= y < 10000 -> 0 <= y' < 10000 -> 1 <= m <= 12 -> 1 <= m' <= 12 ->
  fmt_month y m = fmt_month y' m' -> y = y' /\ m = m'.
Proof.
  intros y m y' m' Hy Hy' Hm Hm' E.
  assert (A : ym_le (y, m) (y', m')) by (apply fmt_order; auto; rewrite E; destruct (key_leb_total (fmt_month y' m') (fmt_month y' m')); auto).
  assert (B : ym_le (y', m') (y, m)) by (apply fmt_order; auto; rewrite E; destruct (key_leb_total (fmt_month y' m') (fmt_month y' m')); auto).
  unfold ym_le in *. simpl in *. lia.
Qed.
Example C87_example : fmt_month 2021 9 = [50; 48; 50; 49; 45; 48; 57] /\ key_leb (fmt_month 2021 9) (fmt_month 2021 10) = true /\
  key_leb (fmt_month 2021 10) (fmt_month 2021 9) = false.
Proof. repeat split; reflexivity. Qed.

(** * C88  Metadata stays in step with the data *)
Theorem C88_metadata : forall mkey ops, (forall o, In o ops -> h_frame (op_h o) <> []) ->
  consistent (after_any mkey ops) /\
  forall k, match kget k (st_rows (after_any mkey ops)), kget k (st_meta (after_any mkey ops)) with
            | Some rows, Some m => rows <> [] /\ mt_count m = Z.of_nat (length rows)
            | None, None => True
            | _, _ => False
            end.
Proof. exact any_consistent. Qed.
Example C88_example : let st := after_any ex_key [mkOp false true ex_old; mkOp false false ex_new] in
  kget (fmt_month 2021 9) (st_rows st) = Some [tr 10; tr 20; tr 30; tr 40] /\
  kget (fmt_month 2021 9) (st_meta st) = Some (mkMeta 4 30 40 (Some true) 0).
Proof. split; vm_compute; reflexivity. Qed.

Print Assumptions C29_key_load.
Print Assumptions C29_save_succeeds.
Print Assumptions C30_range_load.
Print Assumptions C30_chronological.
Print Assumptions C30_unpreprocessed_refuted.
Print Assumptions C31_append_partial.
Print Assumptions C31_hidden_refuted.
Print Assumptions C31_integrity_refuted.
Print Assumptions C32_schedule_independent.
Print Assumptions C32_reachable_consistent.
Print Assumptions C84_outcome_partial.
Print Assumptions C84_atomic_refuted.
Print Assumptions C85_dropped_refuted.
Print Assumptions C85_readable_partial.
Print Assumptions C86_view_range.
Print Assumptions C86_view_data.
Print Assumptions C86_no_view.
Print Assumptions C87_month_order.
Print Assumptions C87_injective.
Print Assumptions C88_metadata.
