(** T_binance2.v -- the import script: sides of trades (C150), the writer (C151), names and
    target files (C152). *)
From Coq Require Import Permutation Sorted.
From Verif Require Import Base M_logic M_trades S_trades P_trades P_trades2 M_store S_store P_store M_tbio M_binance S_binance T_trades T_binance.
Open Scope Z_scope.

(* ------------------------------------------------------------------ *)
(** ** C150 *)

Lemma process_task_inv sort sort_id from dates f td : process_task sort sort_id from dates f = Ok (Some td) ->
  exists cs, load_csv sort (f_table f) = Ok cs /\ preprocess sort_id None None (map row_of cs) (Some (map c_maker cs)) = Ok td.
Proof.
  unfold process_task. destruct (search_date (f_name f)) as [d|]; [|discriminate].
  destruct (match from with Some _ => _ | None => _ end); [discriminate|]. destruct (match dates with [] => _ | _ => _ end); [discriminate|].
  destruct (verify_checksum _ _ _); [|discriminate]. cbn [negb]. destruct (load_csv sort (f_table f)) as [cs|e] eqn:L; [|discriminate].
  destruct (preprocess _ _ _ _ _) as [t|e] eqn:P; [|discriminate]. intro H. injection H as <-. eauto.
Qed.
Lemma sorted_unique cs out : Permutation cs out -> StronglySorted (fun a b => c_time a <= c_time b) out ->
  StronglySorted (fun a b => c_time a < c_time b) cs -> out = cs.
Proof.
  revert out. induction cs as [|c cs IH]; intros out P S1 S2; [apply Permutation_nil in P; now subst|].
  destruct out as [|o out]; [apply Permutation_sym, Permutation_nil in P; discriminate|].
  inversion S1 as [|? ? S1' F1]; inversion S2 as [|? ? S2' F2]; subst. rewrite Forall_forall in *.
  assert (o = c).
  { assert (Ho : In o (c :: cs)) by (apply (Permutation_in o (Permutation_sym P)); now left). destruct Ho as [->|Ho]; [reflexivity|].
    assert (Hc : In c (o :: out)) by (apply (Permutation_in c P); now left). destruct Hc as [->|Hc]; [reflexivity|]. specialize (F1 c Hc). specialize (F2 o Ho). lia. }
  subst o. f_equal. apply IH; auto. eapply Permutation_cons_inv; exact P.
Qed.
Lemma wraps_small z : (0 <= z < 2 ^ 63) -> wraps 64 z = z.
Proof. intros H. unfold wraps. rewrite (Z.mod_small (z + 2 ^ (64 - 1))) by lia. lia. Qed.
(** A file in the order of ids, with times that do not fall, gives every trade its own side;
    rows of equal time must not be re-ordered by the sort. *)
Theorem C150_sides_partial : forall sort sort_id from dates f td cs, sorts_by_id sort_id -> sorts_ctime sort ->
  process_task sort sort_id from dates f = Ok (Some td) -> holds (f_table f) cs ->
  StronglySorted Z.lt (map c_id cs) ->
  (ascZ (map c_time cs) /\ sort cs = cs \/ StronglySorted (fun a b => c_time a < c_time b) cs) ->
  exists u, unit_ns (infer_unit (map c_time cs)) = Some u /\
    ((forall c, In c cs -> 0 <= c_time c * u < 2 ^ 63) ->
     exists gs, grouping (map (fun c => c_time c * u) cs) (map (fun c => r_px (row_of c)) cs) (map (fun c => r_am (row_of c)) cs)
       (fun i => if nth i (map c_maker cs) false then (-1) else 1) gs
       (map m_ts (td_rows td)) (map m_px (td_rows td)) (map m_am (td_rows td)) (map m_side (td_rows td))).
Proof.
  intros sort sort_id from dates f td cs Hi Hs H Hh Hid Ht. apply process_task_inv in H. destruct H as [out [L P]].
  rewrite (C149_rows sort _ _ Hh) in L. injection L as <-.
  assert (E : sort cs = cs) by (destruct Ht as [[_ E]|Ht]; [exact E|]; destruct (Hs cs); now apply sorted_unique).
  assert (A : ascZ (map c_time cs)).
  { destruct Ht as [[A _]|Ht]; [exact A|]. apply StronglySorted_asc. clear -Ht. induction Ht as [|c cs S' IH F]; cbn [map]; constructor; [exact IH|].
    rewrite Forall_forall in *. intros t Hq. apply in_map_iff in Hq. destruct Hq as [x [<- Hx]]. specialize (F x Hx). cbn in F. lia. }
  rewrite E in P. clear E Ht Hs.
  assert (Hid' : StronglySorted Z.lt (map r_id (map row_of cs))) by (rewrite map_map; exact Hid).
  destruct (api_sides _ _ _ _ _ _ Hi P Hid') as [unit [u [-> [U G]]]]. rewrite map_map in U. cbn [row_of r_ts] in U.
  assert (UP : 0 < u) by (eapply unit_pos; eauto).
  exists u. split; [exact U|]. intro B.
  assert (T : map r_ts (in_ns u (map row_of cs)) = map (fun c => c_time c * u) cs).
  { unfold in_ns. rewrite !map_map. apply map_ext_in. intros c Hc. cbn [r_ts row_of]. apply wraps_small. now apply B. }
  rewrite T in G. destruct G as [gs [ts' [G O]]].
  - rewrite <- (map_map c_time (fun t => t * u)). intros i j Hij. rewrite map_length in Hij. specialize (A i j Hij).
    change 0 with (0 * u) at 1. change 0 with (0 * u) at 2. rewrite !(map_nth (fun t => t * u)). nia.
  - exists gs. unfold out_ts in O. rewrite !map_map in G. rewrite O. exact G.
Qed.
(** Otherwise flags and trades part: two trades of the same millisecond in the order of their
    ids, a sort by time that exchanges them, and the buy becomes the sale. *)
Theorem C150_ties_refuted : exists sort f td cs, sorts_ctime sort /\ process_task sort isort None [] f = Ok (Some td) /\ holds (f_table f) cs /\
  StronglySorted Z.lt (map c_id cs) /\ ascZ (map c_time cs) /\
  map (fun c => (c_price c, c_maker c)) cs = [(Some 100%Q, true); (Some 101%Q, false)] /\
  map (fun m => (m_px m, m_side m)) (td_rows td) = [(100%Q, 1); (101%Q, -1)].
Proof.
  exists crsort, (mkRaw (zip_name [66] (2021, 9)) None None None [csv_row 1 100 2 1630454400000 (CBool true); csv_row 2 101 3 1630454400000 (CBool false)]).
  eexists. exists [mkC 1630454400000 (Some 100%Q) (Some 2%Q) 1 true; mkC 1630454400000 (Some 101%Q) (Some 3%Q) 2 false].
  split; [exact crsort_ok|]. split; [vm_compute; reflexivity|]. split; [|split; [repeat constructor|split; [apply check_order_spec; reflexivity|split; vm_compute; reflexivity]]].
  split; [discriminate|]. split; [exists 6%nat; split; [auto|]; intros r [<-|[<-|[]]]; reflexivity|]. left.
  constructor; [|constructor; [|constructor]]; (split; [reflexivity|]); (split; [reflexivity|]);
    (split; [eexists; eexists; split; [reflexivity|]; split; [left; eauto|reflexivity]|]); (split; [eexists; eexists; split; [reflexivity|]; split; [left; eauto|reflexivity]|]); eexists; (split; [reflexivity|]); left; reflexivity.
Qed.
Definition ex_csv : list (list cell) :=
  [csv_row 1 100 2 1630454400000 (CInt 1); csv_row 2 100 3 1630454400000 (CInt 1); csv_row 3 101 4 1630454400000 (CInt 0); csv_row 5 101 1 1630454400250 (CInt 1)].
Definition ex_cs : list crow :=
  [mkC 1630454400000 (Some 100%Q) (Some 2%Q) 1 true; mkC 1630454400000 (Some 100%Q) (Some 3%Q) 2 true;
   mkC 1630454400000 (Some 101%Q) (Some 4%Q) 3 false; mkC 1630454400250 (Some 101%Q) (Some 1%Q) 5 true].
Example C150_example : holds ex_csv ex_cs /\ StronglySorted Z.lt (map c_id ex_cs) /\ ascZ (map c_time ex_cs) /\ csort ex_cs = ex_cs /\
  exists td, process_task csort isort None [ym (2021, 9)] (mkRaw (zip_name [66] (2021, 9)) None None None ex_csv) = Ok (Some td) /\
    map (fun m => (m_ts m, m_px m, m_side m)) (td_rows td) = [(1630454400000000000, 100%Q, -1); (1630454400000000000, 101%Q, 1); (1630454400250000000, 101%Q, -1)] /\
    Forall2 Qeq (map m_am (td_rows td)) [5; 4; 1]%Q.
Proof.
  split; [|split; [repeat constructor|split; [apply check_order_spec; reflexivity|split; [vm_compute; reflexivity|]]]].
  - split; [discriminate|]. split; [exists 6%nat; split; [auto|]; intros r [<-|[<-|[<-|[<-|[]]]]]; reflexivity|]. right.
    repeat constructor; cbn; try (eexists; eexists; split; [reflexivity|]; split; [left; eauto|reflexivity]); eexists; (split; [reflexivity|]); eexists; (split; [reflexivity|]); split; intro; try reflexivity; try discriminate; lia.
  - eexists. split; [vm_compute; reflexivity|]. split; [vm_compute; reflexivity|]. repeat constructor; vm_compute; reflexivity.
Qed.

Print Assumptions C150_sides_partial.
Print Assumptions C150_ties_refuted.
