(** T_trades.v -- property theorems C22-C28 and C80-C82 (finmlkit/bar/utils.py, finmlkit/bar/data_model.py). *)
From Verif Require Import Base M_trades S_trades P_trades P_trades2.
Open Scope Q_scope.

(** A stable insertion sort by id, used as the sort in the examples. *)
Fixpoint ins_id (r : row) (l : list row) : list row :=
  match l with [] => [r] | x :: l' => if (r_id r <=? r_id x)%Z then r :: l else x :: ins_id r l' end.
Definition isort (l : list row) : list row := fold_right ins_id [] l.
Lemma ins_id_perm r l : Permutation (r :: l) (ins_id r l).
Proof. induction l as [|x l IH]; simpl; [auto|]. destruct (_ <=? _)%Z; [auto|]. eapply perm_trans; [apply perm_swap|]. now apply perm_skip. Qed.
Lemma isort_ok : sorts_by_id isort.
Proof.
  intro l. split.
  - induction l as [|x l IH]; simpl; [auto|]. rewrite <- ins_id_perm. now apply perm_skip.
  - induction l as [|x l IH]; simpl; [constructor|]. revert IH. generalize (isort l) as m. clear. intros m H.
    induction H as [|y m S IH F]; simpl; [constructor; constructor|]. destruct (Z.leb_spec (r_id x) (r_id y)).
    + constructor; [constructor; auto|]. constructor; [auto|]. eapply Forall_impl; [|exact F]. simpl. intros; lia.
    + constructor; [auto|]. rewrite Forall_forall in *. intros z Hz. apply (Permutation_in z (Permutation_sym (ins_id_perm x m))) in Hz.
      destruct Hz as [<-|Hz]; [lia|auto].
Qed.
Lemma isort_stable : stable_by_id isort.
Proof.
  intros l z. induction l as [|x l IH]; simpl; [reflexivity|]. rewrite <- IH. generalize (isort l) as m. clear. intro m.
  induction m as [|y m IH]; simpl; [reflexivity|]. destruct (Z.leb_spec (r_id x) (r_id y)) as [L|L]; simpl; [reflexivity|].
  rewrite IH. destruct (Z.eqb_spec (r_id x) z) as [Ex|], (Z.eqb_spec (r_id y) z) as [Ey|]; auto; lia.
Qed.

(** * C22  Merging split trades *)
Theorem C22_groups : forall ts px am ibm ts' px' am' sd,
  merge_split_trades ts px am ibm = (ts', px', am', sd) ->
  exists gs sd', grouping ts px am (ibm_side ibm) gs ts' px' am' sd' /\ sd = match ibm with None => [] | Some _ => sd' end.
Proof. exact merge_grouping. Qed.
Theorem C22_laws : forall ts px am ibm ts' px' am' sd, length am = length ts ->
  merge_split_trades ts px am ibm = (ts', px', am', sd) ->
  qsum am' == qsum am /\ (ascZ ts -> ascZ ts') /\
  merge_split_trades ts' px' am' (match ibm with None => None | Some _ => Some (map (fun s => (s =? -1)%Z) sd) end) = (ts', px', am', sd).
Proof. exact merge_laws. Qed.
Theorem C22_no_mergeable_neighbours : forall ts px am side gs ts' px' am' sd' k, grouping ts px am side gs ts' px' am' sd' -> (S k < length gs)%nat ->
  ~ (nth (S k) ts' 0%Z = nth k ts' 0%Z /\ Qabs (nth (S k) px' 0 - nth k px' 0) < 1 # 100000000 /\ nth (S k) sd' 0%Z = nth k sd' 0%Z).
Proof. exact grouping_sep. Qed.
Example C22_example :
  merge_split_trades [5; 5; 5; 7; 7]%Z [10; 10; 11; 11; 11] [1; 2; 3; 4; 5] (Some [true; true; true; false; true]) =
  ([5; 5; 7; 7]%Z, [10; 11; 11; 11], [1 + 2; 3; 4; 5], [-1; -1; 1; -1]%Z).
Proof. vm_compute. reflexivity. Qed.

(** * C23  Sides *)
Theorem C23_sides_partial : forall sort_id ua proc rows b td, sorts_by_id sort_id -> preprocess sort_id ua proc rows (Some b) = Ok td ->
  StronglySorted Z.lt (map r_id rows) ->
  exists unit f, unit = (match ua with Some u => u | None => infer_unit (map r_ts rows) end) /\ unit_ns unit = Some f /\
   (ascZ (map r_ts (in_ns f rows)) ->
    exists gs ts', grouping (map r_ts (in_ns f rows)) (map r_px rows) (map r_am rows) (fun i => if nth i b false then (-1)%Z else 1%Z) gs
      ts' (map m_px (td_rows td)) (map m_am (td_rows td)) (map m_side (td_rows td)) /\ out_ts unit proc ts' (map m_ts (td_rows td))).
Proof. exact api_sides. Qed.
(** Out-of-order ids: the buyer-maker flags stay in the input order. *)
Theorem C23_order_refuted : exists rows b td, preprocess isort (Some U_ns) None rows (Some b) = Ok td /\
  length b = length rows /\ NoDup (map r_id rows) /\
  exists i k, nth k (map m_ts (td_rows td)) 0%Z = nth i (map r_ts rows) 0%Z /\ NoDup (map r_ts rows) /\
    nth k (map m_side (td_rows td)) 0%Z <> (if nth i b false then (-1)%Z else 1%Z).
Proof.
  exists [mkRow 20 5 1 2; mkRow 10 4 1 1], [true; false]. eexists. split; [vm_compute; reflexivity|].
  split; [reflexivity|]. split; [repeat constructor; simpl; intuition discriminate|]. exists 0%nat, 1%nat. split; [vm_compute; reflexivity|].
  split; [repeat constructor; simpl; intuition discriminate|]. vm_compute. discriminate.
Qed.
(** Duplicated ids: every flag after the dropped row is off by one. *)
Theorem C23_duplicate_refuted : exists rows b td, preprocess isort (Some U_ns) None rows (Some b) = Ok td /\
  length b = length rows /\ ascZ (map r_ts rows) /\ StronglySorted Z.le (map r_id rows) /\
  nth 1 (map m_ts (td_rows td)) 0%Z = nth 2 (map r_ts rows) 0%Z /\
  nth 1 (map m_side (td_rows td)) 0%Z = (-1)%Z /\ nth 2 b true = false.
Proof.
  exists [mkRow 10 4 1 1; mkRow 10 4 1 1; mkRow 20 5 1 2], [true; true; false]. eexists. split; [vm_compute; reflexivity|].
  split; [reflexivity|]. split; [|split; [repeat constructor; simpl; lia|repeat split; vm_compute; reflexivity]].
  intros i j Hij. simpl in Hij. destruct i as [|[|[|]]], j as [|[|[|]]]; simpl; lia.
Qed.
Definition ex_tr : list row := [mkRow 1000 10 1 1; mkRow 1000 10 2 2; mkRow 1500 9 3 4; mkRow 2000 9 4 5].
Example C23_example : exists td, preprocess isort (Some U_us) (Some U_ms) ex_tr (Some [true; true; false; true]) = Ok td /\
  map m_ts (td_rows td) = [1000000; 1000000; 2000000]%Z /\ map m_side (td_rows td) = [-1; 1; -1]%Z /\ StronglySorted Z.lt (map r_id ex_tr) /\
  ascZ (map r_ts (in_ns 1000 ex_tr)).
Proof.
  eexists. split; [vm_compute; reflexivity|]. do 2 (split; [vm_compute; reflexivity|]). split; [repeat constructor; simpl; lia|].
  apply check_order_spec. vm_compute. reflexivity.
Qed.

(** * C24  Sorting and de-duplication *)
Theorem C24_preprocess : forall sort_id ua proc rows ibm td, sorts_by_id sort_id -> preprocess sort_id ua proc rows ibm = Ok td ->
  exists unit f kept gs ts' sd',
    unit = (match ua with Some u => u | None => infer_unit (map r_ts rows) end) /\ unit_ns unit = Some f /\
    kept = fst (sort_trades sort_id (in_ns f rows)) /\
    kept_of (in_ns f rows) kept /\ ascZ (map r_ts kept) /\
    grouping (map r_ts kept) (map r_px kept) (map r_am kept) (ibm_side ibm) gs ts' (map m_px (td_rows td)) (map m_am (td_rows td)) sd' /\
    map m_side (td_rows td) = (match ibm with Some _ => sd' | None => comp_trade_side_vector (map m_px (td_rows td)) end) /\
    out_ts unit proc ts' (map m_ts (td_rows td)) /\
    qsum (map m_am (td_rows td)) == qsum (map r_am kept) /\ ascZ (map m_ts (td_rows td)).
Proof. exact api_pre. Qed.
Theorem C24_unique_ids_keep_all : forall rows kept, kept_of rows kept -> NoDup (map r_id rows) -> Permutation kept rows.
Proof. exact api_kept_perm. Qed.
(** With a stable sort by id the kept row of each id is its first occurrence in the input. *)
Theorem C24_first_occurrence : forall sort_id rows r, sorts_by_id sort_id -> stable_by_id sort_id ->
  In r (fst (sort_trades sort_id rows)) -> find (fun x => (r_id x =? r_id r)%Z) rows = Some r.
Proof.
  intros sort_id rows r Hs Hst H. apply (u_first sort_id rows Hst).
  eapply Permutation_in; [apply Permutation_sym, sort_out_perm|exact H].
Qed.
Theorem C24_errors : forall sort_id ua proc rows ibm,
  (preprocess sort_id ua proc rows ibm = Raise ValueError <->
     (match ua with Some u => u | None => infer_unit (map r_ts rows) end) = U_other \/
     (proc = Some U_other /\ ua <> Some U_other)) /\
  (forall x, preprocess sort_id ua proc rows ibm = Raise x -> x = ValueError).
Proof. exact api_errors. Qed.
Definition ex_mess : list row := [mkRow 30 7 4 9; mkRow 10 5 1 3; mkRow 10 5 9 3; mkRow 20 6 2 5].
Example C24_example : exists td, preprocess isort (Some U_ns) None ex_mess None = Ok td /\
  map m_ts (td_rows td) = [10; 20; 30]%Z /\ map m_am (td_rows td) = [1; 2; 4] /\ map m_side (td_rows td) = [0; 1; 1]%Z /\
  sorts_by_id isort /\ stable_by_id isort /\ td_ok td = false.
Proof.
  eexists. split; [vm_compute; reflexivity|]. do 3 (split; [vm_compute; reflexivity|]).
  split; [exact isort_ok|]. split; [exact isort_stable|reflexivity].
Qed.

(** * C25  Id gaps *)
Theorem C25_gaps : forall sort_id ua proc rows ibm td, sorts_by_id sort_id -> rows <> [] -> preprocess sort_id ua proc rows ibm = Ok td ->
  exists f byid, kept_of (in_ns f rows) byid /\ StronglySorted (fun a b => (r_id a < r_id b)%Z) byid /\
    unit_ns (match ua with Some u => u | None => infer_unit (map r_ts rows) end) = Some f /\
    (forall d, In d (td_disc td) <-> exists i, (S i < length byid)%nat /\
        let a := nth i byid (mkRow 0 0 0 0) in let b := nth (S i) byid (mkRow 0 0 0 0) in
        (1 < r_id b - r_id a)%Z /\ (60000000000 < r_ts b - r_ts a)%Z /\
        d = mkDisc (r_id a) (r_id b) (r_id b - r_id a - 1) (r_ts a) (r_ts b)) /\
    (td_ok td = true <-> NoDup (map r_id rows) /\ td_disc td = []) /\
    (forall lo hi, In lo (map r_id rows) -> In hi (map r_id rows) -> (forall z, In z (map r_id rows) -> (lo <= z <= hi)%Z) ->
       td_missing td == Qnat (length (missing_ids (map r_id rows) lo hi)) / Qnat (length (nodup Z.eq_dec (map r_id rows))) * 100).
Proof. exact api_gaps. Qed.
Example C25_example : exists td, preprocess isort (Some U_s) None [mkRow 5 1 1 1; mkRow 6 1 1 2; mkRow 100 1 1 7; mkRow 101 1 1 9] None = Ok td /\
  td_disc td = [mkDisc 2 7 4 6000000000 100000000000] /\ td_ok td = false /\ td_missing td == 125 /\
  missing_ids [1; 2; 7; 9]%Z 1 9 = [3; 4; 5; 6; 8]%Z.
Proof. eexists. split; [vm_compute; reflexivity|]. repeat split; vm_compute; reflexivity. Qed.

(** * C26  Timestamp units and resolution *)
Theorem C26_floor : forall f t, (0 < f)%Z ->
  let r := (t / f * f)%Z in (f | r)%Z /\ (r <= t < r + f)%Z /\ (r / f * f = r)%Z.
Proof. exact floor_laws. Qed.
Theorem C26_resolution : forall unit p rows f, p <> unit -> unit_ns p = Some f ->
  exists out, apply_res unit (Some p) rows = Ok out /\ length out = length rows /\
    (forall i, (i < length rows)%nat ->
       let a := nth i rows (mkM 0 0 0 0) in let b := nth i out (mkM 0 0 0 0) in
       (f | m_ts b)%Z /\ (m_ts b <= m_ts a < m_ts b + f)%Z /\ m_px b = m_px a /\ m_am b = m_am a /\ m_side b = m_side a) /\
    (ascZ (map m_ts rows) -> ascZ (map m_ts out)) /\ apply_res unit (Some p) out = Ok out.
Proof.
  intros unit p rows f Hne Hf. pose proof (unit_pos _ _ Hf) as Hp. unfold apply_res.
  destruct (tunit_eqb p unit) eqn:E; [apply tunit_eqb_eq in E; congruence|]. rewrite Hf. eexists. split; [reflexivity|].
  split; [apply map_length|]. split; [|split].
  - intros i Hi. cbv zeta.
    rewrite (nth_indep _ (mkM 0 0 0 0) ((fun r => mkM (m_ts r / f * f) (m_px r) (m_am r) (m_side r)) (mkM 0 0 0 0))) by (now rewrite map_length).
    rewrite (map_nth (fun r => mkM (m_ts r / f * f) (m_px r) (m_am r) (m_side r))). cbn [m_ts m_px m_am m_side].
    destruct (floor_laws f (m_ts (nth i rows (mkM 0 0 0 0))) Hp) as [F1 [F2 _]]. repeat split; auto; lia.
  - intro Ha. rewrite map_map. cbn [m_ts]. rewrite <- (map_map m_ts (fun t => t / f * f)%Z). now apply floor_asc.
  - rewrite map_map. cbn [m_ts m_px m_am m_side]. f_equal. apply map_ext. intro r. f_equal. now apply floor_laws.
Qed.
Theorem C26_unit : forall ts m, In m ts -> (forall x, In x ts -> (x <= m)%Z) ->
  infer_unit ts = if (10 ^ 18 + 64 <? m)%Z then U_ns else if (10 ^ 15 <? m)%Z then U_us else if (10 ^ 12 <? m)%Z then U_ms else U_s.
Proof. exact infer_spec. Qed.
Theorem C26_convert : forall f rows, (forall r, In r rows -> (- 2 ^ 63 <= r_ts r * f < 2 ^ 63)%Z) ->
  convert_ns f rows = map (fun r => mkRow (r_ts r * f) (r_px r) (r_am r) (r_id r)) rows.
Proof. intros f rows H. apply map_ext_in. intros r Hr. rewrite wraps_id; [reflexivity|lia|apply (H _ Hr)]. Qed.
Example C26_example : infer_unit [1609459200123; 1609459200456]%Z = U_ms /\ infer_unit [1609459200]%Z = U_s /\
  infer_unit [1000000000000000064]%Z = U_us /\ infer_unit [1000000000000000065]%Z = U_ns /\ ((-7) / 5 * 5 = -10)%Z.
Proof. repeat split; vm_compute; reflexivity. Qed.

(** * C82  No mergeable neighbours after preprocessing *)
Theorem C82_separated_partial : forall sort_id ua proc rows ibm td k, sorts_by_id sort_id -> preprocess sort_id ua proc rows ibm = Ok td ->
  (proc = None \/ proc = Some (match ua with Some u => u | None => infer_unit (map r_ts rows) end)) ->
  (S k < length (td_rows td))%nat ->
  let a := nth k (td_rows td) (mkM 0 0 0 0) in let b := nth (S k) (td_rows td) (mkM 0 0 0 0) in
  ~ (m_ts b = m_ts a /\ Qabs (m_px b - m_px a) < 1 # 100000000 /\ (ibm <> None -> m_side b = m_side a)).
Proof. exact api_sep. Qed.
(** With a coarser processing resolution mergeable neighbours reappear: the floor is applied after the merge. *)
Theorem C82_resolution_refuted : exists rows b td, preprocess isort (Some U_us) (Some U_ms) rows (Some b) = Ok td /\
  exists x y, td_rows td = [x; y] /\ m_ts x = m_ts y /\ m_px x = m_px y /\ m_side x = m_side y.
Proof.
  exists [mkRow 1000 10 1 1; mkRow 1001 10 2 2], [true; true]. eexists. split; [vm_compute; reflexivity|].
  do 2 eexists. split; [reflexivity|]. repeat split.
Qed.

(** * C27  Tick rule *)
Theorem C27_tick_rule : forall prices,
  length (comp_trade_side_vector prices) = length prices /\
  forall i, (i < length prices)%nat -> last_move prices i (nth i (comp_trade_side_vector prices) 0%Z).
Proof. exact side_vector. Qed.
Theorem C27_determined : forall prices i s s', last_move prices i s -> last_move prices i s' -> s = s'.
Proof. exact last_move_unique. Qed.
Theorem C27_values : forall prices s, In s (comp_trade_side_vector prices) -> s = 1%Z \/ s = (-1)%Z \/ s = 0%Z.
Proof.
  intros prices s H. apply (In_nth _ _ 0%Z) in H. destruct H as [i [Hi <-]]. destruct (side_vector prices) as [L S]. rewrite L in Hi.
  destruct (S i Hi) as [[-> _]|[k [_ [_ [[[-> _]|[-> _]] _]]]]]; auto.
Qed.
Example C27_example : comp_trade_side_vector [5; 5; 6; 6; 4; 4 + (1 # 10000000000000)] = [0; 0; 1; 1; -1; -1]%Z.
Proof. vm_compute. reflexivity. Qed.

(** * C28  Median of three *)
Theorem C28_median : forall a b c, exists x y, Permutation [a; b; c] [x; median3 a b c; y] /\ x <= median3 a b c <= y.
Proof. exact median3_mid. Qed.
Theorem C28_symmetric : forall a b c,
  median3 b a c == median3 a b c /\ median3 a c b == median3 a b c /\ median3 c b a == median3 a b c /\
  median3 b c a == median3 a b c /\ median3 c a b == median3 a b c.
Proof. exact median3_sym. Qed.
Example C28_example : median3 3 1 2 = 2 /\ median3 7 7 1 = 7.
Proof. split; reflexivity. Qed.

(** * C80  Tick size estimate *)
Theorem C80_exact_partial : forall prices k,
  let sample := firstn (Z.to_nat 10000) prices in
  let w := inject_Z (10 ^ k) / inject_Z (10 ^ 12) in
  (0 <= k)%Z -> (forall p, In p sample -> exists a, p == inject_Z a * w) ->
  (exists p q, In p sample /\ In q sample /\ 0 < p - q /\ p - q < 10 * w) ->
  exists t, comp_price_tick_size prices = Ok t /\ 0 < t /\
    (forall p q, In p sample -> In q sample -> Qdivides t (p - q)) /\
    (forall s, (forall p q, In p sample -> In q sample -> Qdivides s (p - q)) -> Qdivides s t).
Proof. exact tick_exact. Qed.
Theorem C80_constant : forall prices, (forall p q, In p (firstn (Z.to_nat 10000) prices) -> In q (firstn (Z.to_nat 10000) prices) -> p == q) -> prices <> [] ->
  comp_price_tick_size prices = Ok 0.
Proof. exact tick_zero. Qed.
(** Half-even rounding can collapse two different prices: the estimate is 0. *)
Theorem C80_zero_refuted : exists p q t, ~ p == q /\ comp_price_tick_size [p; q] = Ok t /\ t == 0.
Proof. exists (3 # 2), (5 # 2). eexists. split; [intro H; discriminate|]. split; vm_compute; reflexivity. Qed.
(** ... and the estimate need not divide the price differences: prices on a 0.05 grid give 0.2. *)
Theorem C80_divides_refuted : exists prices t p q, comp_price_tick_size prices = Ok t /\ t == 1 # 5 /\ In p prices /\ In q prices /\
  (forall x, In x prices -> Qdivides (1 # 20) x) /\ ~ Qdivides t (p - q).
Proof.
  exists [0; 1 # 4; 7 # 20]. eexists. exists (1 # 4), 0. split; [vm_compute; reflexivity|]. split; [vm_compute; reflexivity|].
  split; [simpl; auto|]. split; [simpl; auto|]. split.
  - intros x [<-|[<-|[<-|[]]]]; [exists 0%Z|exists 5%Z|exists 7%Z]; reflexivity.
  - intros [k H].
    match type of H with context [inject_Z k * ?t] => assert (E : t == 1 # 5) by (vm_compute; reflexivity); rewrite E in H end.
    unfold Qeq, Qminus, Qplus, Qmult, Qopp, inject_Z in H. cbn [Qnum Qden] in H.
    assert (Hk : (5 = 4 * k)%Z) by (clear E; revert H; lia). lia.
Qed.
Example C80_example : exists t, comp_price_tick_size [1005 # 10; 101; 1005 # 10; 1025 # 10] = Ok t /\ t == 5 # 10.
Proof. eexists. split; vm_compute; reflexivity. Qed.
Example C80_hypotheses : let w := inject_Z (10 ^ 11) / inject_Z (10 ^ 12) in
  (forall p, In p [1005 # 10; 101] -> exists a, p == inject_Z a * w) /\ 0 < 101 - (1005 # 10) /\ 101 - (1005 # 10) < 10 * w.
Proof.
  cbv zeta. split; [|split; vm_compute; reflexivity]. intros p [<-|[<-|[]]]; [exists 1005%Z|exists 1010%Z]; vm_compute; reflexivity.
Qed.

(** * C81  Order check and fast sort *)
Theorem C81_order_check : forall ts, check_timestamps_order ts = true <-> ascZ ts.
Proof. exact check_order_spec. Qed.
Theorem C81_fast_sort : forall idxs ts px am ibm ts' px' am' ibm', is_argsort ts idxs ->
  fast_sort_trades idxs ts px am ibm = (ts', px', am', ibm') ->
  ascZ ts' /\ check_timestamps_order ts' = true /\ length ts' = length ts /\
  (exists perm, Permutation perm (seq 0 (length ts)) /\ forall k, (k < length ts)%nat ->
     let i := nth k perm 0%nat in
     nth k ts' 0%Z = nth i ts 0%Z /\ nth k px' 0 = nth i px 0 /\ nth k am' 0 = nth i am 0 /\
     match ibm, ibm' with None, None => True | Some b, Some b' => nth k b' false = nth i b false | _, _ => False end).
Proof.
  intros idxs ts px am ibm ts' px' am' ibm' [Hp Ha] H. unfold fast_sort_trades in H. injection H as <- <- <- <-.
  split; [exact Ha|]. split; [now apply check_order_spec|].
  assert (L : length idxs = length ts) by (rewrite (Permutation_length Hp); apply seq_length).
  split; [now rewrite map_length|]. exists idxs. split; [exact Hp|]. intros k Hk. cbv zeta.
  assert (G : forall A (d : A) (g : nat -> A), nth k (map g idxs) d = g (nth k idxs 0%nat)).
  { intros A d g. rewrite (nth_indep _ d (g 0%nat)) by (rewrite map_length; lia). apply map_nth. }
  rewrite !G. repeat split. destruct ibm as [b|]; [now rewrite G|auto].
Qed.
Example C81_example : is_argsort [30; 10; 20]%Z [1; 2; 0]%nat /\
  fast_sort_trades [1; 2; 0]%nat [30; 10; 20]%Z [3; 1; 2] [3; 1; 2] None = ([10; 20; 30]%Z, [1; 2; 3], [1; 2; 3], None).
Proof.
  split; [|reflexivity]. split.
  - simpl. eapply perm_trans; [apply perm_skip, perm_swap|]. apply perm_swap.
  - intros i j Hij. simpl in Hij. destruct i as [|[|[|]]], j as [|[|[|]]]; simpl; lia.
Qed.

Print Assumptions C22_groups.
Print Assumptions C22_laws.
Print Assumptions C22_no_mergeable_neighbours.
Print Assumptions C23_sides_partial.
Print Assumptions C23_order_refuted.
Print Assumptions C23_duplicate_refuted.
Print Assumptions C24_preprocess.
Print Assumptions C24_unique_ids_keep_all.
Print Assumptions C24_first_occurrence.
Print Assumptions C24_errors.
Print Assumptions C25_gaps.
Print Assumptions C26_floor.
Print Assumptions C26_resolution.
Print Assumptions C26_unit.
Print Assumptions C26_convert.
Print Assumptions C82_separated_partial.
Print Assumptions C82_resolution_refuted.
Print Assumptions C27_tick_rule.
Print Assumptions C27_determined.
Print Assumptions C27_values.
Print Assumptions C28_median.
Print Assumptions C28_symmetric.
Print Assumptions C80_exact_partial.
Print Assumptions C80_constant.
Print Assumptions C80_zero_refuted.
Print Assumptions C80_divides_refuted.
Print Assumptions C81_order_check.
Print Assumptions C81_fast_sort.
